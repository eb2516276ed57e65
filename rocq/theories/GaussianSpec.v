(** Specification of the Gaussian and Student samplers: determinants are mathcomp's,
    mutual information is the expectation of the log-density ratio. *)
From Verif Require Import Base UtilsModel JaxModel SamplersModel GaussianModel.
From mathcomp Require Import all_ssreflect ssralg matrix mxalgebra.
From Verif Require Import RStruct PosDef MatrixBridge.
Set Implicit Arguments.
Unset Strict Implicit.
Unset Printing Implicit Defensive.
Import GRing.Theory.
Local Open Scope ring_scope.

(** What [np.linalg.eigvals] computes: exactly the (complex) eigenvalues. *)
Definition eigvals_ok n (M : UtilsModel.matrix) (l : list (R * R)) : Prop :=
  forall a b, List.In (a, b) l <-> is_eigenvalue (to_mx n n M) a b.

(** ... on the three matrices whose eigenvalues SplitMultinormal looks at. *)
Definition eigvals_exact (eigvals : UtilsModel.matrix -> list (R * R)) (m n : nat) (C : UtilsModel.matrix) : Prop :=
  eigvals_ok (m + n) C (eigvals C) /\
  eigvals_ok m (square_slice C 0 m) (eigvals (square_slice C 0 m)) /\
  eigvals_ok n (square_slice C m (m + n)) (eigvals (square_slice C m (m + n))).

(** The covariance as a matrix of blocks of sizes [m] and [n]. *)
Definition sigma (m n : nat) (C : UtilsModel.matrix) : 'M[R]_(m + n) := to_mx (m + n) (m + n) C.

(** 1/2 log (det Sxx det Syy / det S). *)
Definition gaussian_mi m n (S : 'M[R]_(m + n)) : R :=
  Rmult (/ 2) (ln (Rdiv (Rmult (\det (ulsubmx S)) (\det (drsubmx S))) (\det S))).

(** Log-density of the normal distribution with mean [mu] and covariance [S]. *)
Definition normal_log_density n (mu : 'cV[R]_n) (S : 'M[R]_n) (z : 'cV[R]_n) : R :=
  Rminus (Rmult (- / 2) (qf (invmx S) (z - mu)%R))
         (Rmult (/ 2) (Rplus (ln (\det S)) (Rmult (INR n) (ln (Rmult 2 PI))))).

(** Log-density of the Student distribution with [df] degrees of freedom, location [mu]
    and dispersion [S]. *)
Definition student_log_density (log_gamma : R -> R) (df : R) n (mu : 'cV[R]_n) (S : 'M[R]_n) (z : 'cV[R]_n) : R :=
  Rminus (Rminus (log_gamma (Rdiv (Rplus df (INR n)) 2)) (log_gamma (Rdiv df 2)))
    (Rplus (Rplus (Rmult (Rdiv (INR n) 2) (ln (Rmult df PI))) (Rmult (/ 2) (ln (\det S))))
           (Rmult (Rdiv (Rplus df (INR n)) 2) (ln (Rplus 1 (Rdiv (qf (invmx S) (z - mu)%R) df))))).

(** An expectation operator [E] defined on the functions [I]: linear, normalised. *)
Record expectation (V : Type) (I : (V -> R) -> Prop) (E : (V -> R) -> R) : Prop := {
  exp_const : forall c, I (fun _ => c) /\ E (fun _ => c) = c;
  exp_add : forall f g, I f -> I g ->
    I (fun z => Rplus (f z) (g z)) /\ E (fun z => Rplus (f z) (g z)) = Rplus (E f) (E g);
  exp_scale : forall c f, I f -> I (fun z => Rmult c (f z)) /\ E (fun z => Rmult c (f z)) = Rmult c (E f)
}.

(** ... with covariance [S] around [mu]. *)
Definition has_covariance n (I : ('cV[R]_n -> R) -> Prop) (E : ('cV[R]_n -> R) -> R)
    (mu : 'cV[R]_n) (S : 'M[R]_n) : Prop :=
  forall i j, I (fun z => Rmult ((z - mu)%R i ord0) ((z - mu)%R j ord0)) /\
    E (fun z => Rmult ((z - mu)%R i ord0) ((z - mu)%R j ord0)) = S i j.

(** Pointwise mutual information from log-densities of the pair and of its two halves. *)
Definition pointwise_mi m n (joint : 'cV[R]_(m + n) -> R) (px : 'cV[R]_m -> R) (py : 'cV[R]_n -> R)
    (z : 'cV[R]_(m + n)) : R :=
  Rminus (joint z) (Rplus (px (usubmx z)) (py (dsubmx z))).

(** What is added to the Gaussian mutual information for [df] degrees of freedom. *)
Definition student_correction (psi log_gamma : R -> R) (df : R) (m n : nat) : R :=
  let h k := Rdiv (Rplus df (INR k)) 2 in
  Rplus (Rminus (Rplus (log_gamma (h (m + n)%N)) (log_gamma (Rdiv df 2)))
                (Rplus (log_gamma (h m)) (log_gamma (h n))))
        (Rminus (Rplus (Rmult (h m) (psi (h m))) (Rmult (h n) (psi (h n))))
                (Rplus (Rmult (h (m + n)%N) (psi (h (m + n)%N))) (Rmult (Rdiv df 2) (psi (Rdiv df 2))))).

(** Under a Student distribution log (1 + q / df), q being the Mahalanobis form, has mean
    psi ((df + n) / 2) - psi (df / 2). *)
Definition student_log_moment (psi : R -> R) (df : R) n (I : ('cV[R]_n -> R) -> Prop)
    (E : ('cV[R]_n -> R) -> R) (mu : 'cV[R]_n) (S : 'M[R]_n) : Prop :=
  I (fun z => ln (Rplus 1 (Rdiv (qf (invmx S) (z - mu)%R) df))) /\
  E (fun z => ln (Rplus 1 (Rdiv (qf (invmx S) (z - mu)%R) df)))
  = Rminus (psi (Rdiv (Rplus df (INR n)) 2)) (psi (Rdiv df 2)).

(** The matrix with the roles of the two groups of variables exchanged. *)
Definition exchanged m n (S : 'M[R]_(m + n)) : 'M[R]_(n + m) :=
  block_mx (drsubmx S) (dlsubmx S) (ursubmx S) (ulsubmx S).

(** The covariance of (A x, B y) when [S] is that of (x, y). *)
Definition transformed m n (A : 'M[R]_m) (B : 'M[R]_n) (S : 'M[R]_(m + n)) : 'M[R]_(m + n) :=
  block_mx A 0 0 B *m S *m (block_mx A 0 0 B)^T.

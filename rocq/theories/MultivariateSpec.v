(** Specification of the normal and Student distributions: vectors, and what the Cholesky
    factorisation computes. *)
From Verif Require Import Base UtilsModel JaxModel SamplersModel GaussianModel.
From mathcomp Require Import all_ssreflect ssralg matrix mxalgebra.
From Verif Require Import RStruct PosDef MatrixBridge GaussianSpec.
Set Implicit Arguments.
Unset Strict Implicit.
Unset Printing Implicit Defensive.
Import GRing.Theory.
Local Open Scope ring_scope.

(** Lists of numbers as column vectors, and back. *)
Definition to_cv (n : nat) (l : list R) : 'cV[R]_n := \col_i List.nth i l (IZR 0).
Definition of_cv (n : nat) (v : 'cV[R]_n) : list R := [seq v i ord0 | i <- enum 'I_n].

(** The symmetric part of a matrix. *)
Definition symmetric_part n (A : 'M[R]_n) : 'M[R]_n := (Rinv (IZR 2)) *: (A + A^T).

(** A lower triangular factor with positive diagonal of a matrix. *)
Definition lower_factor n (L A : 'M[R]_n) : Prop :=
  [/\ is_trig_mx L, forall i, Rlt 0 (L i i) & L *m L^T = A].

(** What [jnp.linalg.cholesky] computes: the factor of the symmetric part of its argument;
    NaN when that is not positive definite. *)
Definition cholesky_ok n (C : UtilsModel.matrix) (r : option UtilsModel.matrix) : Prop :=
  match r with
  | Some L => has_shape L n n /\ lower_factor (to_mx n n L) (symmetric_part (to_mx n n C))
  | None => ~ posdef (symmetric_part (to_mx n n C))
  end.

(** ... on the three matrices which are factorised. *)
Definition cholesky_exact (cholesky : UtilsModel.matrix -> option UtilsModel.matrix) (m n : nat)
    (C : UtilsModel.matrix) : Prop :=
  [/\ cholesky_ok (m + n) C (cholesky C),
      cholesky_ok m (square_slice C 0 m) (cholesky (square_slice C 0 m))
    & cholesky_ok n (square_slice C m (m + n)) (cholesky (square_slice C m (m + n)))].

(** The location given by the argument [mean], zero by default. *)
Definition location (k : nat) (mean : option (list R)) : 'cV[R]_k :=
  match mean with None => 0 | Some l => to_cv k l end.

(** Adding two vectors coordinate by coordinate. *)
Definition moved (x by_ : list R) : list R := List.map (fun p => Rplus (fst p) (snd p)) (List.combine x by_).

(** Locations and scales of a distribution with location [mu] and covariance (or
    dispersion) [S]. *)
Definition located n (mu : 'cV[R]_n) (S : 'M[R]_n) (loc : list R) (L : UtilsModel.matrix) : Prop :=
  [/\ List.length loc = n, to_cv n loc = mu, has_shape L n n & lower_factor (to_mx n n L) S].

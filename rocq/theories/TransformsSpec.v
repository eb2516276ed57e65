(** Specification of the transforms: increasing functions, rotations, the matrix
    exponential and the error function. *)
From Coquelicot Require Import Coquelicot.
From Verif Require Import Base UtilsModel JaxModel SamplersModel GaussianModel.
Open Scope R_scope.
Local Notation length := List.length.

Definition strictly_increasing_on (a b : R) (f : R -> R) : Prop :=
  forall u v, a <= u -> u < v -> v <= b -> f u < f v.
Definition strictly_increasing (f : R -> R) : Prop := forall u v, u < v -> f u < f v.
Definition odd_function (f : R -> R) : Prop := forall u, f (- u) = - f u.
Definition onto (f : R -> R) : Prop := forall v, exists u, f u = v.

(** A rounded midpoint never leaves the interval. *)
Definition midpoint_between (mid : R -> R -> R) : Prop := forall a b, a <= b -> a <= mid a b <= b.

(** Sums over the indices below n. *)
Definition sum_below (n : nat) (f : nat -> R) : R := rsum (map f (seq 0 n)).

(** Square arrays with the given number of rows. *)
Definition square_array (n : nat) (m : matrix) : Prop :=
  length m = n /\ Forall (fun row => length row = n) m.

(** The squared Euclidean norm. *)
Definition norm2 (x : list R) : R := sum_below (length x) (fun i => nth i x 0 ^ 2).

Definition skew_symmetric (n : nat) (m : matrix) : Prop :=
  forall i j, (i < n)%nat -> (j < n)%nat -> entry m i j = - entry m j i.

Definition kronecker (i j : nat) : R := if (i =? j)%nat then 1 else 0.

(** [a b] is the identity matrix; orthogonal matrices. *)
Definition inverse_pair (n : nat) (a b : matrix) : Prop :=
  forall i j, (i < n)%nat -> (j < n)%nat -> sum_below n (fun l => entry a i l * entry b l j) = kronecker i j.
Definition orthogonal (n : nat) (q : matrix) : Prop :=
  square_array n q /\
  (forall i j, (i < n)%nat -> (j < n)%nat -> sum_below n (fun l => entry q l i * entry q l j) = kronecker i j) /\
  (forall i j, (i < n)%nat -> (j < n)%nat -> sum_below n (fun l => entry q i l * entry q j l) = kronecker i j).

(** [y] is the product of [m] and [x]; the product of [x] and [m]. *)
Definition is_image (n : nat) (m : matrix) (x y : list R) : Prop :=
  length y = n /\ forall i, (i < n)%nat -> nth i y 0 = sum_below n (fun l => entry m i l * nth l x 0).
Definition is_row_image (n : nat) (m : matrix) (x y : list R) : Prop :=
  length y = n /\ forall j, (j < n)%nat -> nth j y 0 = sum_below n (fun l => nth l x 0 * entry m l j).

(** The entries of the k-th power of a matrix. *)
Fixpoint power_entry (n : nat) (a : nat -> nat -> R) (k : nat) (i j : nat) : R :=
  match k with
  | O => kronecker i j
  | S k' => sum_below n (fun l => a i l * power_entry n a k' l j)
  end.

(** [expm] is the matrix exponential: the sum of the series of A^k / k!. *)
Definition is_expm (expm : matrix -> matrix) : Prop :=
  forall n a, square_array n a -> square_array n (expm a) /\
    forall i j, (i < n)%nat -> (j < n)%nat ->
      is_series (fun k => power_entry n (entry a) k i j / INR (fact k)) (entry (expm a) i j).

(** [q] is the exponential of the matrix with entries [a i j]. *)
Definition is_exponential (n : nat) (a : nat -> nat -> R) (q : matrix) : Prop :=
  square_array n q /\ forall i j, (i < n)%nat -> (j < n)%nat -> is_series (fun k => power_entry n a k i j / INR (fact k)) (entry q i j).

(** The (i, j) generator of so(n). *)
Definition generator_entry (i j k l : nat) : R :=
  if (k =? i)%nat && (l =? j)%nat then -1 else if (k =? j)%nat && (l =? i)%nat then 1 else 0.

(** [erf] is the error function. *)
Definition is_erf (erf : R -> R) : Prop :=
  forall x, erf x = 2 / sqrt PI * RInt (fun t => exp (- (t * t))) 0 x.

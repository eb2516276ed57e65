(** Specification of the matrices built by _matrix_utils.py: entries as functions of the
    indices. *)
From Verif Require Import Base UtilsModel JaxModel SamplersModel GaussianModel MatrixUtilsModel.
From Coq Require Import String.
Open Scope R_scope.
Local Notation length := List.length.

(** [m] is the n x n array with entries [f]. *)
Definition has_entries (n : nat) (m : matrix) (f : nat -> nat -> R) : Prop :=
  has_shape m n n = true /\ forall i j, (i < n)%nat -> (j < n)%nat -> entry m i j = f i j.

(** X_1 .. X_dx, Y_1 .. : X_i and Y_i correlated for i <= k, pairs of X's and pairs of Y's
    equally correlated. *)
Definition block_correlation (dx k : nat) (c cx cy : R) (i j : nat) : R :=
  match (i <? dx)%nat, (j <? dx)%nat with
  | true, true => if (i =? j)%nat then 1 else cx
  | false, false => if (i =? j)%nat then 1 else cy
  | true, false => if (j =? dx + i)%nat && (i <? k)%nat then c else 0
  | false, true => if (i =? dx + j)%nat && (j <? k)%nat then c else 0
  end.

(** Inner products. *)
Definition inner (a b : list R) : R := rsum (map (fun p => fst p * snd p) (combine a b)).

(** At most min(dim_x, dim_y) pairs of variables interact. *)
Definition valid_lvm (p : lvm) : Prop :=
  (lv_n_interacting p <= lv_dim_x p)%nat /\ (lv_n_interacting p <= lv_dim_y p)%nat.

(** What the column labelled by each latent variable contains, in the row of each observed one. *)
Definition loading (p : lvm) (mix : matrix) (l : string) (f : nat -> R) : Prop :=
  exists col, nth_error (latent_variable_labels p) col = Some l /\ (col < n_latent p)%nat /\
    forall r, (r < lv_dim_x p + lv_dim_y p)%nat -> entry mix r col = f r.

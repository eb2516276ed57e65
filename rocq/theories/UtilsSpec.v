(** Vocabulary of the statements about [src/bmi/utils.py]; independent of the
    model apart from the type [matrix] (list of rows). *)
From Verif Require Import Base UtilsModel.

(** All rows have [d] entries. *)
Definition rectangular (d : nat) (m : matrix) : Prop := Forall (fun row => length row = d) m.

(** Entry (i, j) is replaced by [a j * entry + b j]: a change of units. *)
Definition affine_rows (a b : nat -> R) (m : matrix) : matrix :=
  map (fun row => map (fun j => (a j * nth j row 0 + b j)%R) (seq 0 (length row))) m.

(** The j-th coordinates of all the points. *)
Definition coords (m : matrix) (j : nat) : list R := map (fun row => nth j row 0%R) m.

Definition all_equal (l : list R) : Prop := forall v w, In v l -> In w l -> v = w.

(** [good] holds of all the numbers in the array. *)
Definition all_entries (good : R -> Prop) (m : matrix) : Prop := Forall (Forall good) m.

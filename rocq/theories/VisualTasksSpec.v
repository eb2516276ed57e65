(** What the figures of the tasks should show. *)
From Coq Require Import String.
From Verif Require Import Base UtilsModel BenchmarkModel TasksModel RulesModel VisualTasksModel.
Local Notation length := List.length.

(** The name of a coordinate, counted from 1. *)
Definition named (letter : string) (i : nat) : string := ("$" ++ letter ++ "_" ++ int_str (Z.of_nat i) ++ "$")%string.
(** A frame with the coordinates of X, then those of Y, whose rows are the pairs of points. *)
Definition pairs_frame (dx dy : nat) (x y : matrix) (f : frame) : Prop :=
  length (fr_columns f) = (dx + dy)%nat /\
  (forall i, (i < dx)%nat -> nth_error (fr_columns f) i = Some (named "X" (S i))) /\
  (forall i, (i < dy)%nat -> nth_error (fr_columns f) (dx + i) = Some (named "Y" (S i))) /\
  fr_rows f = map (fun r => (fst r ++ snd r)%list) (combine x y).

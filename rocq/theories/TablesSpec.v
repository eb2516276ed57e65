(** Vocabulary of the statements about tables of results. *)
From Coq Require Import String Sorted.
From Verif Require Import Base BenchmarkModel TablesModel.
Open Scope R_scope.

(** The cell of a table in the row labelled [task] and the column labelled [estimator]. *)
Definition cell (t : table) (task estimator : string) (v : fl) : Prop :=
  exists i j r, nth_error (tb_index t) i = Some task /\ nth_error (tb_columns t) j = Some estimator /\
    nth_error (tb_values t) i = Some r /\ nth_error r j = Some v.

(** [v] is the mean of the numbers among [l]. *)
Inductive mean_of (l : list fl) : fl -> Prop :=
| mean_nothing : (forall x, In x l -> x = NaN) -> mean_of l NaN
| mean_finite xs : xs <> [] -> filter (fun v => match v with NaN => false | _ => true end) l = map Fin xs -> mean_of l (Fin (rmean xs))
| mean_up : In PInf l -> ~ In NInf l -> mean_of l PInf
| mean_down : In NInf l -> ~ In PInf l -> mean_of l NInf
| mean_both : In PInf l -> In NInf l -> mean_of l NaN.

(** [m] is the largest number among [l]. *)
Definition largest (l : list fl) (m : fl) : Prop :=
  (m = NaN /\ forall x, In x l -> x = NaN) \/ (m <> NaN /\ In m l /\ forall x, In x l -> fl_ltb m x = false).

(** The rows of one estimator and task; of one estimator, task and sample size. *)
Definition runs (data : list row) (estimator task : string) : list row :=
  filter (fun r => String.eqb (r_estimator r) estimator && String.eqb (r_task r) task)%bool data.
Definition seeds (data : list row) (estimator task : string) (n : Z) : list row :=
  filter (fun r => Z.eqb (r_n r) n) (runs data estimator task).

(** An estimate which is larger than a tenth of the largest estimate of the other seeds. *)
Definition good (data : list row) (r : row) : Prop :=
  exists m, largest (map r_estimate (seeds data (r_estimator r) (r_task r) (r_n r))) m /\
    match m with Fin v => fl_ltb (Fin (v / 10)) (r_estimate r) = true | PInf => False | NInf => r_estimate r <> NaN /\ r_estimate r <> NInf | NaN => False end.

(** [s] is what remains of [l] when only the elements with [P] are kept. *)
Inductive keeping {A} (P : A -> Prop) : list A -> list A -> Prop :=
| keeping_nil : keeping P [] []
| keeping_yes x l s : P x -> keeping P l s -> keeping P (x :: l) (x :: s)
| keeping_no x l s : ~ P x -> keeping P l s -> keeping P (x :: l) s.

(** The rows which count for the benchmark table: all or, on request, the good ones. *)
Definition counted (converged_only : bool) (data : list row) (r : row) : Prop := converged_only = true -> good data r.

(** Sorted without repetitions. *)
Definition sorted_labels (l : list string) : Prop := NoDup l /\ Sorted (fun a b => String.leb a b = true) l.

(** What a row says under a key.  Reading replaces the two texts by what they mean. *)
Definition view := string -> option py.
Definition loaded (row : sdict py) (params info : py) : view := fun k =>
  if String.eqb k "task_params" then Some params else if String.eqb k "additional_information" then Some info else sdict_get row k.
(** Unpacking: the entries of the dictionary [d] win, and its own key disappears (in a list
    of entries the last one of a key counts). *)
Definition unpacked (key : string) (v : view) (d : sdict py) : view := fun k =>
  if String.eqb k key then None else match sdict_get (rev d) k with Some x => Some x | None => v k end.
(** [w] is [v] after unpacking [key], if asked for. *)
Definition unpacked_if (b : bool) (key : string) (v w : view) : Prop :=
  if b then exists d, v key = Some (PDict d) /\ forall k, w k = unpacked key v d k else forall k, w k = v k.

(** Vocabulary of the statements about the printed table. *)
From Coq Require Import String.
From Verif Require Import Base BenchmarkModel TablesModel V2TableModel.
Open Scope R_scope.
Local Notation length := List.length.

(** The cell in the row labelled [task] and the column labelled [estimator]. *)
Definition text_cell (t : texts) (task estimator : string) (v : option string) : Prop :=
  exists i j r, nth_error (tx_index t) i = Some task /\ nth_error (tx_columns t) j = Some estimator /\
    nth_error (tx_values t) i = Some r /\ nth_error r j = Some v.

(** The numbers among [l]. *)
Definition numbers_of (l : list fl) : list fl := filter (fun v => match v with NaN => false | _ => true end) l.
(** [s] is the sample standard deviation of the numbers [xs]. *)
Definition deviation (xs : list R) (s : R) : Prop :=
  0 <= s /\ s * s * (INR (length xs) - 1) = rsum (map (fun x => (x - rmean xs) * (x - rmean xs)) xs).
Inductive deviation_of (l : list fl) : fl -> Prop :=
| deviation_few : (length (numbers_of l) < 2)%nat -> deviation_of l NaN
| deviation_infinite : In PInf l \/ In NInf l -> deviation_of l NaN
| deviation_finite xs s : (2 <= length xs)%nat -> numbers_of l = map Fin xs -> deviation xs s -> deviation_of l (Fin s).

(** [v] is the least positive number of hundredths which is not less than [s]. *)
Definition hundredths_above (s v : R) : Prop :=
  exists k, (1 <= k)%Z /\ v = IZR k / 100 /\ s <= v /\ forall k', (1 <= k')%Z -> s <= IZR k' / 100 -> (k <= k')%Z.
Definition rounded_up (s v : fl) : Prop :=
  match s, v with
  | Fin s, Fin v => hundredths_above s v
  | NaN, NaN => True
  | _, _ => False
  end.

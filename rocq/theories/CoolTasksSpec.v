(** What the plot of results on the demonstration tasks should show. *)
From Coq Require Import String.
From Verif Require Import Base UtilsModel TablesModel CoolTasksModel.
Open Scope R_scope.
Local Notation length := List.length.

(** The rows of an estimator, and of a task, with 5000 samples. *)
Definition rows_of (data : list row) (estimator : string) : list row :=
  filter (fun r => Z.eqb (r_n r) 5000 && String.eqb (r_estimator r) estimator) data.
Definition truths_of (data : list row) (task : string) : list fl :=
  map r_true (filter (fun r => Z.eqb (r_n r) 5000 && String.eqb (r_task r) task) data).
(** The place of a task on the horizontal axis and the name written there. *)
Definition placed (task : string) (k : nat) (name : string) : Prop :=
  In (task, k, name) [("X", 0, "X"); ("AI", 1, "AI"); ("Fence", 2, "Waves"); ("Balls", 3, "Galaxy")]%string%nat.
(** The estimator with its label, marker and colour. *)
Definition styled (estimator : string) (s : series) : Prop :=
  In (estimator, s_label s, s_marker s, s_color s)
    [("MINE", "MINE", "o", "#377eb8"); ("InfoNCE", "InfoNCE", "v", "#ff7f00"); ("KSG-10", "KSG", "^", "#4daf4a");
     ("Hist-10", "Histogram", "D", "#f781bf"); ("CCA", "CCA", "X", "#a65628")]%string.
(** A point for each row, at the place of its task up to the shift. *)
Definition series_of (normal : string -> nat -> list R) (data : list row) (e : string) (s : series) : Prop :=
  styled e s /\ length (s_points s) = length (rows_of data e) /\
  forall i r z, nth_error (rows_of data e) i = Some r -> nth_error (normal e (length (rows_of data e))) i = Some z ->
    exists k name, placed (r_task r) k name /\ nth_error (s_points s) i = Some (INR k + z / 20, r_estimate r).
(** The line of a task: at its place, at the mean of the true values. *)
Definition line_of (data : list row) (t : string) (l : R * R * fl) : Prop :=
  exists k name, placed t k name /\ l = (INR k - 1 / 5, INR k + 1 / 5, pd_mean (truths_of data t)).
(** The distinct values of a column among the rows with 5000 samples. *)
Definition distinct (data : list row) (f : row -> string) (ids : list string) : Prop :=
  NoDup ids /\ forall e, In e ids <-> exists r, In r data /\ r_n r = 5000%Z /\ f r = e.

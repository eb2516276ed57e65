(** Vocabulary of the statements about the figures of spirals. *)
From Coq Require Import String.
From Verif Require Import Base UtilsModel MatrixUtilsModel MatrixUtilsSpec JaxModel SamplersModel BenchmarkModel TasksModel TasksSpec TablesModel PlotMiModel PlotMiSpec.
Open Scope R_scope.

Definition speeds : list R := [0; 1 / 10; 3 / 10; 1 / 2; 7 / 10; 1; 3 / 2].
(** A task with any correlation; and a task of the figure: correlation 4/5, so that the mutual information is ln (5/3). *)
Definition turned_sheet (F : formats) (c speed : R) : sheet :=
  ("spiral-" ++ float_repr F c ++ "-" ++ float_repr F speed, "Speed " ++ float_fixed F 2 speed, - (ln (1 - c ^ 2) / 2),
   [("correlation", PFloat (Fin c)); ("speed", PFloat (Fin speed))])%string.
Definition spiral_sheet (F : formats) (speed : R) : sheet :=
  ("spiral-" ++ float_repr F (4 / 5) ++ "-" ++ float_repr F speed, "Speed " ++ float_fixed F 2 speed, ln (5 / 3),
   [("correlation", PFloat (Fin (4 / 5))); ("speed", PFloat (Fin speed))])%string.
(** A point of the plane turned around the origin by the angle speed |p|^2. *)
Definition spun (speed : R) (p : list R) : list R :=
  match p with
  | [x; y] => let t := speed * (x * x + y * y) in [x * cos t - y * sin t; x * sin t + y * cos t]
  | _ => []
  end.
(** A row about the task with this speed. *)
Definition about_speed (F : formats) (s : R) (r : mrow) : Prop :=
  r_task (mr_run r) = sheet_id (spiral_sheet F s) /\ r_true (mr_run r) = Fin (ln (5 / 3)).
(** The rows [marked] are the rows [rows] with the speed of their task as a parameter. *)
Definition marked_rows (F : formats) (rows marked : list mrow) : Prop :=
  Forall2 (fun r r' => mr_run r' = mr_run r /\ forall s, has_parameter "speed" r' s <-> In s speeds /\ r_task (mr_run r) = sheet_id (spiral_sheet F s)) rows marked.
(** The samplers of the tasks: draws from the normal distribution in which the first coordinate of X
    and Y have correlation [c], and then the points X turned. *)
Definition spun_pairs {J} (mvn : key J -> list R -> matrix -> nat -> matrix) (c speed : R) (s : sampler J) : Prop :=
  exists C, has_entries 3 C (fun i j => if (i =? j)%nat then 1 else match i, j with 0%nat, 2%nat | 2%nat, 0%nat => c | _, _ => 0 end) /\
    forall n rng, let z := mvn (cast_to_rng J rng) [0; 0; 0] C n in sample s n rng = Ok (map (fun p => spun speed (firstn 2 p)) z, map (skipn 2) z).

(** C100: the figures of the tasks. *)
From Coq Require Import String.
From Verif Require Import Base UtilsModel JaxModel SamplersModel GaussianModel TransformsModel BenchmarkModel BenchmarkExamples TasksModel TasksSpec TasksGaussian TrainingExamples SamplersExamples TasksExamples
  VisualTasksModel VisualTasksSpec VisualTasksThms VisualTasksExamples.
Open Scope Z_scope.
Local Notation length := List.length.

(** All tasks to be drawn are in the published dictionary and the workflow finds, under each id, the task with that id. *)
Theorem C100_selected :
  forall (J : prng) F D erf expm eigvals mvn psi log_gamma mvt, python_floats F ->
  forall h h' (all : sdict (task J)), benchmark_tasks F D erf expm eigvals mvn psi log_gamma mvt h = (h', Ok all) ->
  exists d, select all TASK_IDS [] = Ok d /\ map fst d = TASK_IDS /\
    forall i, In i TASK_IDS -> exists t, sdict_get d i = Some t /\ sdict_get all i = Some t /\ t_id t = i.
Proof. exact selected. Qed.
Print Assumptions C100_selected.
Example C100_selected_example : python_floats ex_formats /\ exists h' d, benchmark_tasks ex_formats demo_draws (fun x => x) zero_expm ex_eigvals
    (fun _ _ _ n => repeat [] n) (fun _ => 0%R) (fun _ => 0%R) (fun _ _ _ _ n => repeat [] n) [] = (h', Ok d) /\ length d = 40%nat.
Proof. exact (conj ex_formats_ok forty_tasks). Qed.

(** The ids are distinct and published. *)
Theorem C100_ids : NoDup TASK_IDS /\ incl TASK_IDS published_ids.
Proof. exact (conj ids_distinct ids_published). Qed.
Print Assumptions C100_ids.

(** An id which the dictionary lacks stops the workflow. *)
Theorem C100_missing : forall V (all : sdict V) ids i, In i ids -> sdict_get all i = None -> forall acc, select all ids acc = Err KeyError.
Proof. exact @select_missing. Qed.
Print Assumptions C100_missing.
Example C100_missing_example : select [("a"%string, 1)] ["a"; "b"]%string [] = Err KeyError.
Proof. reflexivity. Qed.

(** A figure has the name of the task as its title and shows the pairs of 2000 points drawn with the seed 0 (the constant
    N_SAMPLES = 10000 of the file is never used), coordinates named from 1. *)
Theorem C100_figure :
  forall (J : prng) (tasks : sdict (task J)) i t h h0 m x y, sdict_get tasks i = Some t -> metadata t h = (h0, Ok m) -> task_sample t 2000 0 = Ok (x, y) ->
  Forall (fun row => length row = Z.to_nat (md_dim_x m)) x -> Forall (fun row => length row = Z.to_nat (md_dim_y m)) y ->
  exists h' f, visualise_task tasks i h = (h', Ok (md_name m, f)) /\ pairs_frame (Z.to_nat (md_dim_x m)) (Z.to_nat (md_dim_y m)) x y f.
Proof. exact @visualised. Qed.
Print Assumptions C100_figure.
Example C100_figure_example : exists h' h0 m f, metadata (@wide_task demo) ex_heap = (h0, Ok m) /\ md_dim_x m = 3 /\ md_dim_y m = 3 /\
  visualise_task [("wide"%string, @wide_task demo)] "wide" ex_heap = (h', Ok ("Wide"%string, f)) /\
  pairs_frame 3 3 (repeat [0; 1; 2]%R 2000) (repeat [0; 1; 4]%R 2000) f.
Proof. exact wide_visualised. Qed.

(** Names for another number of coordinates than the points have are a ValueError. *)
Theorem C100_wrong_width : forall a names, Exists (fun row => length row <> length names) a -> data_frame a names = Err ValueError.
Proof. exact frame_bad. Qed.
Print Assumptions C100_wrong_width.
Example C100_wrong_width_example : data_frame [[1; 2]%R] ["$X_1$"%string] = Err ValueError.
Proof. reflexivity. Qed.

(** One file for each task. *)
Theorem C100_files : NoDup visual_files /\ forall f, In f visual_files <-> exists i, In i TASK_IDS /\ f = (i ++ ".pdf")%string.
Proof. exact files_ok. Qed.
Print Assumptions C100_files.

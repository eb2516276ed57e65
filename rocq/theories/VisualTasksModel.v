(** Model of [workflows/projects/Beyond_Normal/figure_visualise_tasks.smk] (line numbers are of this
    file).  Simplifications: exact reals; of a figure the title and the data frame handed to
    seaborn; both samples of a task are taken to have as many rows (the index of [join]). *)
From Coq Require Import String.
From Verif Require Import Base UtilsModel JaxModel SamplersModel GaussianModel TransformsModel BenchmarkModel TasksModel RulesModel.
Open Scope Z_scope.
Local Notation length := List.length.

(** TASK_IDS, 16-38. *)
Definition TASK_IDS : list string :=
  ["1v1-normal-0.75"; "normal_cdf-1v1-normal-0.75"; "1v1-additive-0.1"; "1v1-additive-0.75"; "1v1-bimodal-0.75";
   "wiggly-1v1-normal-0.75"; "half_cube-1v1-normal-0.75"; "student-identity-1-1-1"; "asinh-student-identity-1-1-1";
   "swissroll_x-normal_cdf-1v1-normal-0.75";
   "multinormal-dense-2-2-0.5"; "multinormal-sparse-2-2-2-2.0";
   "student-identity-2-2-1"; "student-identity-2-2-2";
   "normal_cdf-multinormal-sparse-3-3-2-2.0"; "spiral-multinormal-sparse-3-3-2-2.0"; "asinh-student-identity-3-3-2"]%string.

(** BENCHMARK_TASKS, 39-42. *)
Fixpoint select {V} (all : sdict V) (ids : list string) (acc : sdict V) : result (sdict V) :=
  match ids with
  | [] => Ok acc
  | i :: ids => do t <- lookup all i; select all ids (sdict_set acc i t)
  end.

(** A data frame of numbers; [pd.DataFrame(a, columns=...)] with a row of another length is a ValueError, 54-55. *)
Record frame := { fr_columns : list string; fr_rows : matrix }.
Definition data_frame (a : matrix) (columns : list string) : result frame :=
  if forallb (fun row => Nat.eqb (length row) (length columns)) a then Ok {| fr_columns := columns; fr_rows := a |} else Err ValueError.
(** [dfx.join(dfy)], 56: columns with the same name are a ValueError. *)
Definition join (a b : frame) : result frame :=
  if existsb (fun c => existsb (String.eqb c) (fr_columns b)) (fr_columns a) then Err ValueError
  else Ok {| fr_columns := fr_columns a ++ fr_columns b; fr_rows := map (fun r => (fst r ++ snd r)%list) (combine (fr_rows a) (fr_rows b)) |}.
(** [f"$X_{i}$" for i in range(1, dim + 1)], 54-55. *)
Definition axis_names (letter : string) (dim : Z) : list string :=
  map (fun i => ("$" ++ letter ++ "_" ++ int_str (Z.of_nat i) ++ "$")%string) (seq 1 (Z.to_nat dim)).

(** plot_sampler_pairwise, 44-71: the title and the frame. *)
Definition plot_sampler_pairwise {J} (t : task J) (n_samples : nat) (seed : Z) : prog (string * frame) :=
  run xy <- lift (task_sample t n_samples seed);                         (* 50 *)
  run dx <- task_dim_x t;                                                (* 51 *)
  run dy <- task_dim_y t;                                                (* 52 *)
  run dfx <- lift (data_frame (fst (xy : matrix * matrix)) (axis_names "X" dx));   (* 54 *)
  run dfy <- lift (data_frame (snd xy) (axis_names "Y" dy));             (* 55 *)
  run df <- lift (join dfx dfy);                                         (* 56 *)
  run name <- task_name t;                                               (* 68 *)
  pret (name, df).
(** The rule visualise_task, 76-83, with the defaults of 46-47. *)
Definition visualise_task {J} (tasks : sdict (task J)) (task_id : string) : prog (string * frame) :=
  run t <- lift (lookup tasks task_id);                                  (* 80 *)
  plot_sampler_pairwise t 2000 0.                                        (* 82 *)
(** The files of the rule all, 73-74. *)
Definition visual_files : list string := map (fun i => (i ++ ".pdf")%string) TASK_IDS.

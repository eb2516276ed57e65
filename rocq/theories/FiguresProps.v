(** The properties C67 (samples needed) and C72 (tables behind the figures). *)
From Coq Require Import String.
From Verif Require Import Base BaseLemmas UtilsModel JaxModel SamplersModel GaussianModel TransformsModel BenchmarkModel TasksModel TasksSpec TablesModel TablesSpec
  FiguresModel FiguresSpec FiguresThms FiguresScale TablesExamples FiguresExamples.
From Verif Require BenchmarkExamples TasksExamples TrainingExamples.
Open Scope R_scope.
Local Notation length := List.length.

(** * C67 *)

(** The result is the smallest sample size from which on all errors are below 50%, infinity
    if there are failures at the largest size. *)
Theorem C67_n_samples_needed :
  forall rows, needed (fun n => exists v, In (n, v) rows) (fun n => forall v, In (n, v) rows -> small v) (n_samples_needed rows).
Proof. exact needed_ok. Qed.
Print Assumptions C67_n_samples_needed.

Theorem C67_needed_unique :
  forall size solved v w, needed size solved v -> needed size solved w -> v = w.
Proof. exact needed_unique. Qed.
Print Assumptions C67_needed_unique.

Example C67_example : n_samples_needed [(5000, Fin 0); (1000, Fin (ln 2)); (2000, Fin 0)]%Z = Fin 2000.
Proof. exact ex_needed. Qed.
Example C67_example_never : n_samples_needed [(1000, Fin 0); (2000, NaN)]%Z = PInf.
Proof. exact ex_never. Qed.

(** It is not the smallest size at which the error is small. *)
Theorem C67_smallest_refuted :
  ~ (forall rows n v, In (n, v) rows -> small v -> exists m : Z, n_samples_needed rows = Fin (IZR m) /\ (m <= n)%Z).
Proof. exact not_smallest. Qed.
Print Assumptions C67_smallest_refuted.

(** The errors are logarithms of estimate over truth. *)
Theorem C67_error : forall r, log_error r (error r).
Proof. exact error_log. Qed.
Print Assumptions C67_error.

(** The figure: the cells are the sizes needed, computed from the means over the seeds which
    did not fail; the only possible error is a missing name. *)
Theorem C67_table :
  forall default_names estimators tasks names results t,
  n_samples_table default_names estimators tasks names results = Ok t ->
  shows (samples_needed estimators results) estimators tasks (sdict_merge default_names names) t.
Proof. exact samples_table_shows. Qed.
Print Assumptions C67_table.

Theorem C67_table_total :
  forall default_names estimators tasks names results,
  (exists t, n_samples_table default_names estimators tasks names results = Ok t) \/
  (n_samples_table default_names estimators tasks names results = Err KeyError /\
   unnamed (samples_needed estimators results) estimators (sdict_merge default_names names)).
Proof. exact samples_table_total. Qed.
Print Assumptions C67_table_total.

Example C67_table_example : (exists t, n_samples_table [] ex_estimators ex_tasks ex_names ex_runs = Ok t) /\
  samples_needed ex_estimators ex_runs "KSG" "t1" (Fin 2000).
Proof. exact (conj ex_table_exists ex_samples). Qed.

(** What is drawn: values above the scale (as infinity) are moved to its end. *)
Theorem C67_figure :
  forall default_names estimators tasks names results m t colours texts, top_size results m -> (0 <= m)%Z ->
  n_samples_figure default_names estimators tasks names results = Ok (t, colours, texts) ->
  n_samples_table default_names estimators tasks names results = Ok t /\
  Forall2 (Forall2 (drawn (100 * IZR m))) (tb_values t) colours /\
  Forall2 (Forall2 (fun v s => s = n_samples_annotator m v)) (tb_values t) texts.
Proof. exact samples_figure_ok. Qed.
Print Assumptions C67_figure.

(** The texts in the cells. *)
Theorem C67_annotations :
  forall m, (0 <= m)%Z ->
  n_samples_annotator m NaN = ""%string /\ n_samples_annotator m PInf = (">" ++ int_str (m / 1000) ++ "k")%string /\
  (forall n, (0 <= n < 1000)%Z -> n_samples_annotator m (Fin (IZR n)) = int_str n) /\
  (forall n, (1000 <= n)%Z -> n_samples_annotator m (Fin (IZR n)) = (int_str (n / 1000) ++ "k")%string).
Proof. exact annotations. Qed.
Print Assumptions C67_annotations.

Example C67_annotation_example :
  n_samples_annotator 10000 (Fin 1000) = "1k"%string /\ n_samples_annotator 10000 (Fin 1999) = "1k"%string /\
  n_samples_annotator 999 PInf = ">0k"%string.
Proof. exact annotation_coarse. Qed.

(** * C72 *)

(** Which runs are neural and which failed. *)
Theorem C72_preprocess :
  forall estimators results,
  Forall2 (fun r p => p_row p = r /\ p_error p = error r /\ (p_neural p = true <-> neural estimators (r_estimator r)) /\
                      (p_fail p = true <-> failed_run estimators results r))
          results (preprocess estimators results).
Proof. exact preprocess_rows. Qed.
Print Assumptions C72_preprocess.

(** Tables in the order of the dictionaries, with the names of tasks and estimators. *)
Theorem C72_make_table :
  forall (d : long) (value : string -> string -> fl -> Prop) estimators tasks names t,
  (forall e k v, In ((e, k), v) d <-> value e k v) ->
  make_benchmark_table d estimators tasks names = Ok t -> shows value estimators tasks names t.
Proof. exact make_table_ok. Qed.
Print Assumptions C72_make_table.

Theorem C72_make_table_total :
  forall (d : long) (value : string -> string -> fl -> Prop) estimators tasks names,
  (forall e k v, In ((e, k), v) d <-> value e k v) ->
  (~ NoDup (map fst d) /\ make_benchmark_table d estimators tasks names = Err ValueError) \/
  (NoDup (map fst d) /\ unnamed value estimators names /\ make_benchmark_table d estimators tasks names = Err KeyError) \/
  (NoDup (map fst d) /\ ~ unnamed value estimators names /\ exists t, make_benchmark_table d estimators tasks names = Ok t).
Proof. exact make_table_total. Qed.
Print Assumptions C72_make_table_total.

(** The figure of estimates: means at the largest sample size over the seeds which did not
    fail, and the mutual information of the tasks. *)
Theorem C72_estimates :
  forall default_names estimators tasks names results err est,
  mi_estimate_figure default_names estimators tasks names results = Ok (err, est) ->
  exists err' est',
    shows (mean_at_top estimators results error) estimators tasks (sdict_merge default_names names) err' /\
    shows (mean_at_top estimators results r_estimate) estimators tasks (sdict_merge default_names names) est' /\
    (~ In "True MI"%string (tb_columns est') -> with_column est' "True MI" (map (fun x => snd (snd x)) tasks) est) /\
    (~ In "True MI"%string (tb_columns err') -> with_column err' "True MI" (map (fun _ => Fin 0) tasks) err).
Proof. exact estimate_figure_shows. Qed.
Print Assumptions C72_estimates.

(** It needs a name for every estimator and a surviving run for every task. *)
Theorem C72_estimates_total :
  forall default_names estimators tasks names results,
  let complete := forall k, In k (map fst tasks) -> exists e v, mean_at_top estimators results r_estimate e k v in
  let nameless := unnamed (mean_at_top estimators results r_estimate) estimators (sdict_merge default_names names) in
  (nameless /\ mi_estimate_figure default_names estimators tasks names results = Err KeyError) \/
  (~ nameless /\ ~ complete /\ mi_estimate_figure default_names estimators tasks names results = Err ValueError) \/
  (~ nameless /\ complete /\ exists r, mi_estimate_figure default_names estimators tasks names results = Ok r).
Proof. exact estimate_figure_total. Qed.
Print Assumptions C72_estimates_total.

(** So names alone are not enough. *)
Theorem C72_estimates_refuted :
  ~ (forall default_names estimators tasks names results,
     (forall e, In e (map fst estimators) -> sdict_get (sdict_merge default_names names) e <> None) ->
     exists r, mi_estimate_figure default_names estimators tasks names results = Ok r).
Proof. exact estimate_figure_incomplete. Qed.
Print Assumptions C72_estimates_refuted.

Example C72_estimates_missing : mi_estimate_figure [] ex_estimators ex_more_tasks ex_names ex_runs = Err ValueError.
Proof. exact ex_missing. Qed.

(** The figure of failures. *)
Theorem C72_fails :
  forall default_names estimators tasks names results t,
  neural_fails_figure default_names estimators tasks names results = Ok t ->
  shows (fails estimators results) estimators tasks (sdict_merge default_names names) t.
Proof. exact fails_figure_shows. Qed.
Print Assumptions C72_fails.

Theorem C72_fails_total :
  forall default_names estimators tasks names results,
  (exists t, neural_fails_figure default_names estimators tasks names results = Ok t) \/
  (neural_fails_figure default_names estimators tasks names results = Err KeyError /\
   unnamed (fails estimators results) estimators (sdict_merge default_names names)).
Proof. exact fails_figure_total. Qed.
Print Assumptions C72_fails_total.

Example C72_fails_example : fails ex_estimators ex_runs "MINE" "t1" (Fin 1).
Proof. exact ex_fails. Qed.

(** Reading with a bound on the estimates. *)
Theorem C72_limit :
  forall m results,
  (forall r, In r (limit_estimates (Some m) results) <-> In r results /\ fl_ltb (r_estimate r) m = true) /\
  keeping (fun r => fl_ltb (r_estimate r) m = true) results (limit_estimates (Some m) results) /\
  limit_estimates None results = results.
Proof. exact limited. Qed.
Print Assumptions C72_limit.

(** scale_tasks keeps keys, ids, names, dimensions, parameters and mutual information; samples
    are standardized. *)
Theorem C72_scale_tasks :
  forall (J : prng) (tasks : sdict (task J)) h, Forall (fun kt => usable (snd kt) h) tasks ->
  exists h' ts, scale_tasks tasks h = (h', Ok ts) /\ TasksProofs.ext h h' /\
    Forall2 (fun a b => fst b = fst a /\ rescaled h h' (snd a) (snd b)) tasks ts.
Proof. exact @scale_tasks_ok. Qed.
Print Assumptions C72_scale_tasks.

Example C72_scale_tasks_example : Forall (fun kt => usable (snd kt) BenchmarkExamples.ex_heap)
  [("wide"%string, @TasksExamples.wide_task TrainingExamples.demo); ("narrow"%string, BenchmarkExamples.ex_task)].
Proof. exact ex_scale. Qed.

(** The property C65 (tables of benchmark results). *)
From Coq Require Import String.
From Verif Require Import Base BaseLemmas UtilsModel GaussianModel BenchmarkModel TablesModel TablesSpec TablesThms TablesExamples.
Open Scope R_scope.
Local Notation length := List.length.

(** The table is made unless an estimator whose rows count is called "True MI". *)
Theorem C65_benchmark_total :
  forall results converged_only n_samples,
  (exists t u, create_benchmark_table results n_samples converged_only = Ok (t, u)) \/
  (create_benchmark_table results n_samples converged_only = Err ValueError /\
   exists r, In r results /\ (converged_only = true -> good results r) /\ r_estimator r = "True MI"%string).
Proof. exact benchmark_total. Qed.
Print Assumptions C65_benchmark_total.

Example C65_benchmark_clash : create_benchmark_table [ex_row "True MI" "normal" 1000 1 1] None false = Err ValueError.
Proof. exact ex_clash. Qed.

(** Rows are all tasks, columns the estimators which count and the pseudo-estimator. *)
Theorem C65_benchmark_index :
  forall results n_samples converged_only t u, create_benchmark_table results n_samples converged_only = Ok (t, u) ->
  forall x, x = t \/ x = u ->
  sorted_labels (tb_index x) /\ sorted_labels (tb_columns x) /\
  (forall task, In task (tb_index x) <-> exists r, In r results /\ r_task r = task) /\
  (forall e, In e (tb_columns x) <->
     (exists r, In r results /\ counted converged_only results r /\ r_estimator r = e) \/ (e = "True MI"%string /\ results <> [])) /\
  (forall task e, In task (tb_index x) -> In e (tb_columns x) -> exists v, cell x task e v).
Proof. exact benchmark_index. Qed.
Print Assumptions C65_benchmark_index.

(** Cells are means over all rows which count, and "True MI" is the [mi_true] of the first
    row of the task. *)
Theorem C65_benchmark_cells :
  forall results n_samples converged_only t u, create_benchmark_table results n_samples converged_only = Ok (t, u) ->
  (forall task e v, e <> "True MI"%string -> cell t task e v ->
     exists s, keeping (counted converged_only results) (runs results e task) s /\ mean_of (map r_estimate s) v) /\
  (forall task e v, e <> "True MI"%string -> cell u task e v ->
     exists s, keeping (counted converged_only results) (runs results e task) s /\ mean_of (map log_relative_error s) v) /\
  (forall task v, cell t task "True MI" v ->
     exists before r after, results = (before ++ r :: after)%list /\ r_task r = task /\ ~ In task (map r_task before) /\ v = r_true r) /\
  (forall task v, cell u task "True MI" v -> v = Fin 0).
Proof. exact benchmark_cells. Qed.
Print Assumptions C65_benchmark_cells.

(** The relative error counts doublings: an estimate of [2^l] times the true value has error [l]. *)
Theorem C65_relative_error :
  forall r e t, r_estimate r = Fin e -> r_true r = Fin t -> 0 < t ->
  (0 < e -> exists l, log_relative_error r = Fin l /\ e = t * Rpower 2 l) /\
  (e = 0 -> log_relative_error r = NInf) /\ (e < 0 -> log_relative_error r = NaN).
Proof. exact relative_error_log. Qed.
Print Assumptions C65_relative_error.
Example C65_relative_error_example :
  exists l, log_relative_error (ex_row "KSG" "normal" 1000 4 2) = Fin l /\ 4 = 2 * Rpower 2 l.
Proof. apply (relative_error_log (ex_row "KSG" "normal" 1000 4 2) 4 2 eq_refl eq_refl); lra. Qed.

Example C65_benchmark_example : exists t u, create_benchmark_table ex_results (Some 1000%Z) false = Ok (t, u) /\
  cell t "normal" "KSG" (Fin 4) /\ cell t "student" "CCA" NaN /\ cell t "normal" "True MI" (Fin 2) /\ cell u "normal" "True MI" (Fin 0).
Proof. exact ex_ksg. Qed.

(** The argument [n_samples] has no effect. *)
Theorem C65_benchmark_ignores_n_samples :
  forall results n m converged_only,
  create_benchmark_table results n converged_only = create_benchmark_table results m converged_only.
Proof. exact benchmark_any_n. Qed.
Print Assumptions C65_benchmark_ignores_n_samples.

Theorem C65_convergence_ignores_n_samples :
  forall results n m, create_convergence_table results n = create_convergence_table results m.
Proof. exact convergence_any_n. Qed.
Print Assumptions C65_convergence_ignores_n_samples.

(** So it is false that the table is about runs with [n_samples] samples, also by default. *)
Theorem C65_restricted_refuted :
  ~ (forall results n t u task e v, e <> "True MI"%string ->
     create_benchmark_table results (Some n) false = Ok (t, u) -> cell t task e v ->
     mean_of (map r_estimate (seeds results e task n)) v).
Proof. exact not_restricted. Qed.
Print Assumptions C65_restricted_refuted.

Theorem C65_default_restricted_refuted :
  ~ (forall results t u task e v, e <> "True MI"%string ->
     create_benchmark_table results None false = Ok (t, u) -> cell t task e v ->
     mean_of (map r_estimate (seeds results e task (fold_right Z.max 0%Z (map r_n results)))) v).
Proof. exact not_default_restricted. Qed.
Print Assumptions C65_default_restricted_refuted.

(** Convergence: more than a tenth of the best seed. *)
Theorem C65_converged :
  forall data r, converged data r = true <-> good data r.
Proof. exact converged_good. Qed.
Print Assumptions C65_converged.

Example C65_converged_example :
  good ex_seeds (ex_row "MINE" "normal" 1000 1 1) /\ ~ good ex_seeds (ex_row "MINE" "normal" 1000 (1/20) 1).
Proof. exact ex_good. Qed.

Theorem C65_best_converges :
  forall data r v, r_estimate r = Fin v -> 0 < v ->
  (forall r', In r' data -> r_estimator r' = r_estimator r -> r_task r' = r_task r -> r_n r' = r_n r ->
     fl_ltb (r_estimate r) (r_estimate r') = false) ->
  In r data -> good data r.
Proof. exact best_converges. Qed.
Print Assumptions C65_best_converges.

(** If no seed gives a positive estimate, none converged, not even the best. *)
Theorem C65_none_converges :
  forall data r, In r data ->
  (forall r', In r' data -> r_estimator r' = r_estimator r -> r_task r' = r_task r -> r_n r' = r_n r ->
     fl_ltb (Fin 0) (r_estimate r') = false) ->
  ~ good data r.
Proof. exact none_converges. Qed.
Print Assumptions C65_none_converges.

Theorem C65_best_converges_refuted :
  ~ (forall data r, In r data ->
     largest (map r_estimate (seeds data (r_estimator r) (r_task r) (r_n r))) (r_estimate r) -> r_estimate r <> NaN -> good data r).
Proof. exact best_not_converged. Qed.
Print Assumptions C65_best_converges_refuted.

(** The table of convergence always exists; its cells are fractions of rows. *)
Theorem C65_convergence_table :
  forall results n_samples, exists t, create_convergence_table results n_samples = Ok t /\
  sorted_labels (tb_index t) /\ sorted_labels (tb_columns t) /\
  (forall task, In task (tb_index t) <-> exists r, In r results /\ r_task r = task) /\
  (forall e, In e (tb_columns t) <-> exists r, In r results /\ r_estimator r = e) /\
  (forall task e, In task (tb_index t) -> In e (tb_columns t) -> exists v, cell t task e v) /\
  (forall task e v, cell t task e v -> (runs results e task = [] /\ v = NaN) \/
     exists s, keeping (good results) (runs results e task) s /\ runs results e task <> [] /\
       v = Fin (INR (length s) / INR (length (runs results e task)))).
Proof. exact convergence_table. Qed.
Print Assumptions C65_convergence_table.

Example C65_convergence_example : exists t, create_convergence_table ex_seeds None = Ok t /\ cell t "normal" "MINE" (Fin (1 / 2)).
Proof. exact ex_fraction. Qed.

(** Reading: the entries of the unpacked dictionaries replace columns of the same name. *)
Theorem C65_read_row :
  forall yaml p a row out, read_row yaml p a row = Ok out ->
  exists ctp cai tp ai v, sdict_get row "task_params" = Some ctp /\ yaml ctp = Ok tp /\
    sdict_get row "additional_information" = Some cai /\ yaml cai = Ok ai /\
    unpacked_if p "task_params" (loaded row tp ai) v /\ unpacked_if a "additional_information" v (sdict_get out).
Proof. exact read_row_ok. Qed.
Print Assumptions C65_read_row.

Theorem C65_read_row_default :
  forall yaml row ctp cai tp ai, sdict_get row "task_params" = Some ctp -> yaml ctp = Ok tp ->
  sdict_get row "additional_information" = Some cai -> yaml cai = Ok ai ->
  ((exists out, read_row yaml true false row = Ok out) <-> exists d, tp = PDict d) /\
  (read_row yaml true false row = Err TypeError <-> forall d, tp <> PDict d).
Proof. exact read_row_default. Qed.
Print Assumptions C65_read_row_default.

Theorem C65_read_results :
  forall yaml p a rows out,
  read_results yaml p a rows = Ok out <-> Forall2 (fun r o => read_row yaml p a r = Ok o) rows out.
Proof. exact read_results_rows. Qed.
Print Assumptions C65_read_results.

Example C65_read_example : read_results ex_yaml true false [ex_line] =
  Ok [[("task_id", PStr "normal"); ("mi_true", PInt 7); ("additional_information", PDict []); ("dim_x", PInt 1)]]%string.
Proof. exact ex_read. Qed.

Theorem C65_columns_kept_refuted :
  ~ (forall yaml row out k, k <> "task_params"%string -> k <> "additional_information"%string -> sdict_get row k <> None ->
     read_row yaml true false row = Ok out -> sdict_get out k = sdict_get row k).
Proof. exact column_lost. Qed.
Print Assumptions C65_columns_kept_refuted.

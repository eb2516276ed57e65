(** C85: the printed table of the second version of the benchmark. *)
From Coq Require Import String Permutation Lia Lra.
From Verif Require Import Base BaseLemmas UtilsModel GaussianModel BenchmarkModel TablesModel TablesSpec TablesExamples ConfigModel ConfigSpec
  V2TableModel V2TableSpec V2TableThms V2TableExamples.
Open Scope R_scope.

(** A table is made unless there are no results or an estimator is called "True MI". *)
Theorem C85_made :
  forall two_digits results n,
  (results = [] \/ (exists r, In r results /\ r_estimator r = "True MI"%string) -> create_benchmark_table two_digits results n = Err ValueError) /\
  (results <> [] -> (forall r, In r results -> r_estimator r <> "True MI"%string) -> exists t, create_benchmark_table two_digits results n = Ok t).
Proof. exact v2_total. Qed.
Print Assumptions C85_made.
Example C85_made_example : create_benchmark_table ex_digits [ex_row "True MI" "normal" 5000 1 1] None = Err ValueError.
Proof. apply v2_total. right. eexists. split; [now left|reflexivity]. Qed.

(** Its rows are the tasks, its columns the estimators and "True MI", both sorted. *)
Theorem C85_labels :
  forall two_digits results n t, create_benchmark_table two_digits results n = Ok t ->
  sorted_labels (tx_index t) /\ sorted_labels (tx_columns t) /\
  (forall task, In task (tx_index t) <-> exists r, In r results /\ r_task r = task) /\
  (forall e, In e (tx_columns t) <-> (exists r, In r results /\ r_estimator r = e) \/ e = "True MI"%string) /\
  (forall task e, In task (tx_index t) -> In e (tx_columns t) -> exists v, text_cell t task e v).
Proof. exact v2_index. Qed.
Print Assumptions C85_labels.

(** A cell shows the mean of the estimates and their sample standard deviation, rounded up to
    hundredths and at least 0.01; the column "True MI" the value in the first row of the task. *)
Theorem C85_cells :
  forall two_digits results n t, create_benchmark_table two_digits results n = Ok t ->
  (forall task e v, e <> "True MI"%string -> text_cell t task e v ->
     (runs results e task = [] /\ v = None) \/
     (runs results e task <> [] /\ exists m s s', mean_of (map r_estimate (runs results e task)) m /\ deviation_of (map r_estimate (runs results e task)) s /\
        rounded_up s s' /\ v = Some ("$" ++ two_digits m ++ " \pm " ++ two_digits s' ++ "$")%string)) /\
  (forall task v, text_cell t task "True MI" v ->
     exists before r after, results = (before ++ r :: after)%list /\ r_task r = task /\ ~ In task (map r_task before) /\
       v = Some ("\textbf{" ++ two_digits (r_true r) ++ "}")%string).
Proof. exact v2_cells. Qed.
Print Assumptions C85_cells.
Example C85_cells_example : exists t, create_benchmark_table ex_digits ex_runs (Some 5000%Z) = Ok t /\
  tx_index t = ["normal"; "student"]%string /\ tx_columns t = ["CCA"; "KSG"; "True MI"]%string /\
  text_cell t "normal" "CCA" None /\ text_cell t "student" "CCA" (Some "$2.00 \pm nan$"%string) /\ text_cell t "normal" "True MI" (Some "\textbf{2.00}"%string).
Proof. exact ex_table. Qed.

(** There is one standard deviation, and one rounded value, which exceeds it by less than
    0.01 unless it is 0.01. *)
Theorem C85_deviation : forall l v, deviation_of l v <-> v = pd_std l.
Proof. exact (fun l v => conj (fun H => deviation_unique l v _ H (std_spec l)) (fun E => eq_ind_r (deviation_of l) (std_spec l) E)). Qed.
Print Assumptions C85_deviation.
Example C85_deviation_example : deviation_of [Fin 1; NaN; Fin 3] (Fin (sqrt 2)).
Proof. exact ex_deviation. Qed.
Theorem C85_rounding :
  forall s v, 0 <= s -> (new_std (Fin s) = Fin v <-> hundredths_above s v) /\
  (hundredths_above s v -> s <= v /\ 1 / 100 <= v /\ (v < s + 1 / 100 \/ v = 1 / 100)).
Proof. exact (fun s v P => conj (new_std_spec s v P) (hundredths_close s v P)). Qed.
Print Assumptions C85_rounding.
Example C85_rounding_example : hundredths_above (1 / 1000) (1 / 100) /\ hundredths_above (201 / 1000) (21 / 100).
Proof. exact ex_hundredths. Qed.

(** The argument [n_samples] has no effect, so results of other sizes are averaged too. *)
Theorem C85_any_size :
  forall two_digits results n m, create_benchmark_table two_digits results n = create_benchmark_table two_digits results m.
Proof. exact v2_any_n. Qed.
Print Assumptions C85_any_size.
Theorem C85_one_size_refuted : exists two_digits results t v, create_benchmark_table two_digits results (Some 5000%Z) = Ok t /\
  text_cell t "normal" "KSG" (Some v) /\
  (forall m s s', mean_of (map r_estimate (seeds results "KSG" "normal" 5000)) m -> deviation_of (map r_estimate (seeds results "KSG" "normal" 5000)) s ->
     rounded_up s s' -> v <> ("$" ++ two_digits m ++ " \pm " ++ two_digits s' ++ "$")%string).
Proof. exact sizes_mixed. Qed.
Print Assumptions C85_one_size_refuted.

(** In the printed table the tasks are replaced by their names; all must have one. *)
Theorem C85_names :
  forall two_digits names results t, create_benchmark_table two_digits results (Some 5000%Z) = Ok t ->
  ((forall r, In r results -> sdict_get names (r_task r) <> None) ->
     exists g, generate_table two_digits names results = Ok g /\ tx_columns g = tx_columns t /\ tx_values g = tx_values t /\
       Forall2 (fun task name => sdict_get names task = Some name) (tx_index t) (tx_index g)) /\
  (~ (forall r, In r results -> sdict_get names (r_task r) <> None) -> generate_table two_digits names results = Err KeyError).
Proof. exact named_table. Qed.
Print Assumptions C85_names.
Example C85_names_example : generate_table ex_digits v2_names ex_runs = Err KeyError.
Proof. reflexivity. Qed.

(** For the results of the second version, all of 5000 samples, the table has one row for each
    of the 26 names, in it the summaries of the runs of the task with this name. *)
Theorem C85_printed :
  forall two_digits results,
  (forall r, In r results -> In (r_estimator r) v2_estimators /\ r_n r = 5000%Z) ->
  (forall task, In task (map entry_id v2_catalogue) <-> In task (map r_task results)) ->
  exists g, generate_table two_digits v2_names results = Ok g /\ Permutation (tx_index g) (map snd v2_names) /\
    forall task name, sdict_get v2_names task = Some name -> forall e, In e v2_estimators -> (exists r, In r results /\ r_estimator r = e) ->
    exists v, text_cell g name e v /\
    ((runs results e task = [] /\ v = None) \/
     exists m s s', mean_of (map r_estimate (seeds results e task 5000)) m /\ deviation_of (map r_estimate (seeds results e task 5000)) s /\
        rounded_up s s' /\ v = Some ("$" ++ two_digits m ++ " \pm " ++ two_digits s' ++ "$")%string).
Proof. exact v2_printed. Qed.
Print Assumptions C85_printed.
Example C85_printed_example : (forall r, In r ex_printed -> In (r_estimator r) v2_estimators /\ r_n r = 5000%Z) /\
  (forall task, In task (map entry_id v2_catalogue) <-> In task (map r_task ex_printed)).
Proof. exact ex_printed_ok. Qed.

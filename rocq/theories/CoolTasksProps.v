(** C101: the plot of results on the demonstration tasks. *)
From Coq Require Import String.
From Verif Require Import Base UtilsModel TablesModel CoolTasksModel CoolTasksSpec CoolTasksThms CoolTasksExamples.
Open Scope R_scope.
Local Notation length := List.length.

(** Estimators have a name, a colour and a marker each, by which they can be told apart. *)
Theorem C101_styles : map fst ESTIMATOR_NAMES = cool_estimators /\ map fst ESTIMATOR_COLORS = cool_estimators /\ map fst ESTIMATOR_MARKERS = cool_estimators /\
  NoDup (map snd ESTIMATOR_NAMES) /\ NoDup (map snd ESTIMATOR_COLORS) /\ NoDup (map snd ESTIMATOR_MARKERS).
Proof. exact cool_asserts. Qed.
Print Assumptions C101_styles.

(** The plot: one series for each estimator with 5000 samples, with a point for each of its rows above the name of the task; a line for each task. *)
Theorem C101_plot : forall normal data, (forall e n, length (normal e n) = n) ->
  (forall r, In r data -> r_n r = 5000%Z -> In (r_task r) cool_tasks /\ In (r_estimator r) cool_estimators) ->
  exists p ids tasks, plot_results normal data = Ok p /\
    distinct data r_estimator ids /\ Forall2 (series_of normal data) ids (rp_series p) /\
    distinct data r_task tasks /\ Forall2 (line_of data) tasks (rp_truth p) /\
    forall k name, In (k, name) (rp_ticks p) <-> exists t, placed t k name.
Proof. exact results_drawn. Qed.
Print Assumptions C101_plot.
Example C101_plot_example : (forall e n, length (no_shift e n) = n) /\
  (forall r, In r cool_data -> r_n r = 5000%Z -> In (r_task r) cool_tasks /\ In (r_estimator r) cool_estimators).
Proof. exact cool_instance. Qed.

(** The line of a task is at the true mutual information, when its rows agree on it. *)
Theorem C101_truth : forall data t v l, (exists r, In r data /\ r_n r = 5000%Z /\ r_task r = t) ->
  (forall r, In r data -> r_n r = 5000%Z -> r_task r = t -> r_true r = Fin v) -> line_of data t l -> snd l = Fin v.
Proof. exact line_at_truth. Qed.
Print Assumptions C101_truth.
Example C101_truth_example : exists p, plot_results no_shift cool_data = Ok p /\ exists l, In l (rp_truth p) /\ fst (fst l) = 2 - 1 / 5 /\ snd l = Fin 1.
Proof. exact cool_line. Qed.

(** A task which is not among the four stops the rule, and so does an unknown estimator. *)
Theorem C101_unknown_task : forall normal data r, (forall r, In r data -> r_n r = 5000%Z -> In (r_estimator r) cool_estimators) ->
  In r data -> r_n r = 5000%Z -> ~ In (r_task r) cool_tasks -> plot_results normal data = Err ValueError.
Proof. exact unknown_task. Qed.
Print Assumptions C101_unknown_task.
Example C101_unknown_task_example : plot_results no_shift [cool_row "CCA" "Waves" 5000 1] = Err ValueError.
Proof. reflexivity. Qed.
Theorem C101_unknown_estimator : forall normal data, (forall e n, length (normal e n) = n) ->
  forall r, (forall r, In r data -> r_n r = 5000%Z -> In (r_task r) cool_tasks) ->
  In r data -> r_n r = 5000%Z -> ~ In (r_estimator r) cool_estimators -> plot_results normal data = Err KeyError.
Proof. exact unknown_estimator. Qed.
Print Assumptions C101_unknown_estimator.
Example C101_unknown_estimator_example : plot_results no_shift [cool_row "NWJ" "Fence" 5000 1] = Err KeyError.
Proof. reflexivity. Qed.

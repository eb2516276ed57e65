(** C88: the tasks with noise and their ground truth. *)
From Coq Require Import String ZArith Lra.
From Verif Require Import Base UtilsModel JaxModel SamplersModel GaussianModel MatrixUtilsModel BmmModel MultivariateModel BenchmarkModel TasksModel TasksSpec
  MixturesModel PaperModel RulesModel OutliersModel DiscreteSpec OutliersSpec BmmSpec ConfigSpec OutliersTasksSpec TrainingExamples BmmExamples.
From mathcomp Require Import ssreflect.
From Verif Require Import MixturesSpec EigvalsExist MultivariateThms MultivariateExamples OutliersTasks OutliersLoad OutliersTasksExamples.
Open Scope R_scope.
Local Notation length := List.length.

(** The 39 tasks: their distributions are the signal with the noise of the catalogue, and the points are
    drawn from that mixture; if the estimate of every mutual information is acceptable, the dictionary has the
    tasks in order, with their names and parameters; otherwise reading an identifier raises. *)
Theorem C88_tasks : forall (J : prng) F (T : tfp_draws J) eigvals cholesky (normal_draw : list R -> option matrix -> key J -> nat -> matrix) h,
  eigvals_symmetric eigvals -> factorises cholesky -> told_apart F -> exists ds,
    Forall2 (fun e d => contaminated_signal d (n_level e) (n_variance e) /\ mixed_draws T d (n_level e) (n_variance e)) (noisy_catalogue F) ds /\
    (Forall (fun d => acceptable (average_pmi d 0 (Z.to_nat 100000))) ds -> exists h' tasks,
       unscaled_tasks F T eigvals cholesky normal_draw h = (h', Ok tasks) /\ preserved h h' /\ Forall2 (task_made h') (combine (noisy_catalogue F) ds) tasks /\
       Forall (fun kt => usable (snd kt) h') tasks) /\
    (~ Forall (fun d => acceptable (average_pmi d 0 (Z.to_nat 100000))) ds -> exists h',
       unscaled_tasks F T eigvals cholesky normal_draw h = (h', Err ValidationError)) /\
    (forall setup v a, noise_variance setup v -> In a levels -> exists d,
       In (mixing_entry F setup v a, d) (combine (noisy_catalogue F) ds) /\ mixed_distribution T eigvals cholesky normal_draw setup a = Ok d).
Proof. exact (fun J F T e c nd h He Hc Hf => unscaled_loaded F T e c nd He Hc Hf h). Qed.
Print Assumptions C88_tasks.
Example C88_tasks_example : told_apart printed /\ exists eigvals cholesky h' tasks, eigvals_symmetric eigvals /\ factorises cholesky /\
  unscaled_tasks printed origin_tfp eigvals cholesky demo_normal_draw [] = (h', Ok tasks) /\ length tasks = 39%nat /\
  Forall (fun kt => usable (snd kt) h' /\ t_id (snd kt) <> EmptyString /\ t_name (snd kt) <> EmptyString) tasks.
Proof. exact (conj printed_apart origin_tasks). Qed.

(** Scaling a dictionary of tasks keeps the keys; every task keeps its identifier, name, parameters and
    mutual information, and its samples are standardized. *)
Theorem C88_scaled : forall (J : prng) (d : sdict (task J)) h, Forall (fun kb => usable (snd kb) h) d ->
  Forall (fun kb => t_id (snd kb) <> ""%string /\ t_name (snd kb) <> ""%string) d ->
  exists h' d', scale_tasks d h = (h', Ok d') /\ preserved h h' /\ Forall2 (fun kb kt => fst kt = fst kb /\ standardized h h' (snd kb) (snd kt)) d d'.
Proof. exact (fun J => @scale_ok J). Qed.
Print Assumptions C88_scaled.
Example C88_scaled_example : exists eigvals cholesky h' tasks, eigvals_symmetric eigvals /\ factorises cholesky /\
  unscaled_tasks printed origin_tfp eigvals cholesky demo_normal_draw [] = (h', Ok tasks) /\ length tasks = 39%nat /\
  Forall (fun kt => usable (snd kt) h' /\ t_id (snd kt) <> EmptyString /\ t_name (snd kt) <> EmptyString) tasks.
Proof. exact origin_tasks. Qed.

(** The mutual information of a task is the ground truth estimated with the seed 0. *)
Theorem C88_task_truth : forall (J : prng) F (T : tfp_draws J) eigvals cholesky (normal_draw : list R -> option matrix -> key J -> nat -> matrix) float_of
    h h' tasks setup v mixing a, eigvals_symmetric eigvals -> factorises cholesky -> told_apart F ->
  noise_variance setup v -> In a levels -> float_of mixing = Ok a ->
  unscaled_tasks F T eigvals cholesky normal_draw h = (h', Ok tasks) -> exists t mi stderr,
  sdict_get tasks (n_id (mixing_entry F setup v a)) = Some t /\ mutual_information (t_sampler t) = Ok mi /\
  mixed_one_seed T eigvals cholesky normal_draw float_of setup mixing "0" = Ok (mi, stderr, a).
Proof. exact (fun J F T e c nd fo h h' ts s v m a He Hc Hf => task_truth F T e c nd He Hc Hf fo h h' ts s v m a). Qed.
Print Assumptions C88_task_truth.
Example C88_task_truth_example : noise_variance "Gauss-Outlier" 25 /\ In (1 / 20) levels.
Proof. split; [right; auto|cbn; auto]. Qed.

(** The documents of one seed and of all seeds: mean of the ten estimates, their standard deviation with
    the factor 1/9, and the mean of the standard errors. *)
Theorem C88_mixed_truth : forall (J : prng) (T : tfp_draws J) eigvals cholesky (normal_draw : list R -> option matrix -> key J -> nat -> matrix) float_of
    setup v mixing a, eigvals_symmetric eigvals -> factorises cholesky -> noise_variance setup v -> float_of mixing = Ok a -> 0 <= a <= 1 -> exists d,
  contaminated_signal d a v /\ mixed_draws T d a v /\ mixed_distribution T eigvals cholesky normal_draw setup a = Ok d /\
  (forall seed l, pmi_values d seed l ->
     mixed_one_seed T eigvals cholesky normal_draw float_of setup mixing (show_int seed) = Ok (Fin (fst (estimated l)), Fin (snd (estimated l)), a)) /\
  (forall ls, Forall2 (pmi_values d) [0; 1; 2; 3; 4; 5; 6; 7; 8; 9]%Z ls ->
     mixed_all_seeds T eigvals cholesky normal_draw float_of setup mixing = Ok (summarized ls, a)).
Proof. exact (fun J T e c nd fo s v m a He Hc => mixed_truth T e c nd He Hc fo s v m a). Qed.
Print Assumptions C88_mixed_truth.
Example C88_mixed_truth_example : exists eigvals cholesky d ls, eigvals_symmetric eigvals /\ factorises cholesky /\
  mixed_distribution origin_tfp eigvals cholesky demo_normal_draw "Gauss-Outlier" (1 / 10) = Ok d /\
  Forall2 (pmi_values d) [0; 1; 2; 3; 4; 5; 6; 7; 8; 9]%Z ls.
Proof. exact origin_truth. Qed.

(** Points with four coordinates have finite values. *)
Theorem C88_values : forall (J : prng) (d : joint_distribution J) a v seed, contaminated_signal d a v -> 0 <= a <= 1 -> 0 < v ->
  Forall (fun z => length z = 4%nat) (points d seed) -> exists l, pmi_values d seed l /\ length l = length (points d seed).
Proof. exact (fun J => @contaminated_values J). Qed.
Print Assumptions C88_values.
Example C88_values_example : exists d : joint_distribution demo, contaminated_signal d (1 / 10) 25 /\ Forall (fun z => length z = 4%nat) (points d 3).
Proof. exact origin_points. Qed.

(** Samples of the same size: the mean of the means is the mean of all the points. *)
Theorem C88_pooled : forall n ls, (0 < n)%nat -> Forall (fun l => length l = n) ls -> ls <> [] -> rmean (map rmean ls) = rmean (concat ls).
Proof. exact pooled. Qed.
Print Assumptions C88_pooled.
Example C88_pooled_example : rmean (map rmean [[1; 2]; [3; 6]]) = 3 /\ rmean (concat [[1; 2]; [3; 6]]) = 3.
Proof. unfold rmean, rsum. cbn. lra. Qed.

(** The document of the signal: its mutual information in closed form beside the summary of two estimates. *)
Theorem C88_signal_truth : forall (J : prng) (T : tfp_draws J) eigvals cholesky (normal_draw : list R -> option matrix -> key J -> nat -> matrix) setup v,
  eigvals_symmetric eigvals -> factorises cholesky -> noise_variance setup v -> exists signal,
  dist_signal_gauss eigvals cholesky normal_draw = Ok signal /\
  (forall seed l, pmi_values signal seed l ->
     signal_one_seed T eigvals cholesky normal_draw setup (show_int seed) = Ok (Fin (fst (estimated l)), Fin (snd (estimated l)))) /\
  (forall l0 l1, pmi_values signal 0 l0 -> pmi_values signal 1 l1 ->
     signal_all_seeds T eigvals cholesky normal_draw setup = Ok (Fin signal_information, summarized [l0; l1])).
Proof. exact (fun J T e c nd s v He Hc => signal_truth T e c nd He Hc s v). Qed.
Print Assumptions C88_signal_truth.
Example C88_signal_truth_example : exists eigvals cholesky signal l0 l1, eigvals_symmetric eigvals /\ factorises cholesky /\
  dist_signal_gauss eigvals cholesky demo_normal_draw = Ok signal /\ pmi_values signal 0 l0 /\ pmi_values signal 1 l1 /\ length l0 = Z.to_nat 100000.
Proof. exact origin_signal. Qed.

(** Other names of setups are unknown. *)
Theorem C88_unknown : forall (J : prng) (T : tfp_draws J) eigvals cholesky (normal_draw : list R -> option matrix -> key J -> nat -> matrix) float_of setup mixing seed,
  eigvals_symmetric eigvals -> factorises cholesky -> ~ In setup ["Gauss-Inlier"; "Gauss-Outlier"]%string ->
  mixed_one_seed T eigvals cholesky normal_draw float_of setup mixing seed = Err KeyError /\
  signal_one_seed T eigvals cholesky normal_draw setup seed = Err KeyError.
Proof. exact (fun J T e c nd fo s m k He Hc => unknown_setup T e c nd He Hc fo s m k). Qed.
Print Assumptions C88_unknown.
Example C88_unknown_example : ~ In "Gauss"%string ["Gauss-Inlier"; "Gauss-Outlier"]%string.
Proof. intros [H|[H|[]]]; discriminate. Qed.

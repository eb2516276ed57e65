(** C82: the configurations of the benchmark workflows. *)
From Coq Require Import String Ascii Permutation.
From Verif Require Import Base UtilsModel JaxModel SamplersModel GaussianModel MatrixUtilsModel TransformsModel
  BaseLemmas TrainingSpec SamplersSpec TransformsSpec ExpmProofs BmmModel MultivariateModel BenchmarkModel BenchmarkSpec
  TasksModel TasksSpec GaussianSpec TasksGaussian MixturesModel RulesModel RulesSpec ConfigModel ConfigSpec MixturesSpec ConfigLoad
  TrainingExamples SamplersExamples TasksExamples BmmExamples MultivariateExamples ConfigExamples.
Open Scope Z_scope.
Local Notation length := List.length.

(** The two tasks of the demo are always loaded. *)
Theorem C82_demo :
  forall (J : prng) F erf eigvals mvn, more_floats F -> eigvals_positive eigvals -> forall h,
  loading (J := J) (demo_unscaled F erf eigvals mvn) (demo_tasks F erf eigvals mvn) h demo_catalogue [].
Proof. exact @demo_loads. Qed.
Print Assumptions C82_demo.
Example C82_demo_example :
  exists h' d, demo_tasks (J := demo) more_formats (fun x => x) ex_eigvals (fun _ _ _ n => repeat [] n) [] = (h', Ok d) /\
  map fst d = ["swissroll_x-normal_cdf-1v1-normal-0.75"; "multinormal-dense-3-3-0.5"]%string.
Proof. exact ex_demo. Qed.

(** So are the 39 tasks of the first version of the benchmark. *)
Theorem C82_v1 :
  forall (J : prng) F (D : draws J) erf expm eigvals mvn psi log_gamma mvt,
  more_floats F -> prng_ok J -> draws_ok J D ->
  (forall d df, In (d, df) [(1, 1); (2, 1); (2, 2); (3, 2); (3, 3); (5, 2); (5, 3)] ->
    (0 <= student_correction psi log_gamma (IZR df) (Z.to_nat d) (Z.to_nat d))%R) ->
  eigvals_positive eigvals -> forall h,
  loading (J := J) (v1_unscaled F D erf expm eigvals mvn psi log_gamma mvt) (v1_tasks F D erf expm eigvals mvn psi log_gamma mvt) h v1_catalogue [].
Proof. exact @v1_loading. Qed.
Print Assumptions C82_v1.
Example C82_v1_example :
  exists h' d, v1_tasks (J := demo) more_formats demo_draws (fun x => x) zero_expm ex_eigvals (fun _ _ _ n => repeat [] n)
    (fun _ => 0%R) (fun _ => 0%R) (fun _ _ _ _ n => repeat [] n) [] = (h', Ok d) /\ length d = 39%nat.
Proof. exact ex_v1. Qed.

(** The 26 tasks of the second version are loaded if none of the Monte Carlo estimates of the
    thirteen mutual informations without a formula is negative; otherwise loading raises. *)
Theorem C82_v2 :
  forall (J : prng) F percent (D : draws J) erf expm eigvals mvn psi log_gamma mvt T cholesky normal_draw,
  more_floats F -> prng_ok J -> draws_ok J D ->
  (forall d df, In (d, df) [(1, 1); (2, 1); (2, 2); (3, 2); (3, 3); (5, 2); (5, 3)] ->
    (0 <= student_correction psi log_gamma (IZR df) (Z.to_nat d) (Z.to_nat d))%R) ->
  percents percent -> eigvals_symmetric eigvals -> factorises cholesky -> is_expm expm -> forall h,
  loading (J := J) (v2_unscaled F percent D erf expm eigvals mvn psi log_gamma mvt T cholesky normal_draw)
    (v2_tasks F percent D erf expm eigvals mvn psi log_gamma mvt T cholesky normal_draw) h v2_catalogue estimated.
Proof. exact @v2_loading. Qed.
Print Assumptions C82_v2.
Example C82_v2_example : exists eigvals cholesky, eigvals_symmetric eigvals /\ factorises cholesky /\
  loading (J := demo) (v2_unscaled more_formats ex_percent demo_draws (fun x => x) series_expm eigvals (fun _ _ _ n => repeat [] n)
      (fun _ => 0%R) (fun _ => 0%R) (fun _ _ _ _ n => repeat [] n) demo_tfp cholesky demo_normal_draw)
    (v2_tasks more_formats ex_percent demo_draws (fun x => x) series_expm eigvals (fun _ _ _ n => repeat [] n)
      (fun _ => 0%R) (fun _ => 0%R) (fun _ _ _ _ n => repeat [] n) demo_tfp cholesky demo_normal_draw) [] v2_catalogue estimated.
Proof. exact ex_v2. Qed.

(** The same about the 16 tasks of the benchmark of the model-based estimator, which are not rescaled. *)
Theorem C82_gmm :
  forall (J : prng) F percent (D : draws J) expm eigvals mvn psi log_gamma mvt T cholesky normal_draw,
  more_floats F -> prng_ok J -> draws_ok J D ->
  (forall d df, In (d, df) [(1, 1); (2, 1); (2, 2); (3, 2); (3, 3); (5, 2); (5, 3)] ->
    (0 <= student_correction psi log_gamma (IZR df) (Z.to_nat d) (Z.to_nat d))%R) ->
  percents percent -> eigvals_symmetric eigvals -> factorises cholesky -> is_expm expm -> forall h,
  collecting (J := J) (gmm_tasks F percent D expm eigvals mvn psi log_gamma mvt T cholesky normal_draw)
    (gmm_tasks_dict F percent D expm eigvals mvn psi log_gamma mvt T cholesky normal_draw) h gmm_catalogue estimated.
Proof. exact @gmm_collecting. Qed.
Print Assumptions C82_gmm.
Example C82_gmm_example : exists eigvals cholesky, eigvals_symmetric eigvals /\ factorises cholesky /\
  collecting (J := demo) (gmm_tasks more_formats ex_percent demo_draws series_expm eigvals (fun _ _ _ n => repeat [] n)
      (fun _ => 0%R) (fun _ => 0%R) (fun _ _ _ _ n => repeat [] n) demo_tfp cholesky demo_normal_draw)
    (gmm_tasks_dict more_formats ex_percent demo_draws series_expm eigvals (fun _ _ _ n => repeat [] n)
      (fun _ => 0%R) (fun _ => 0%R) (fun _ _ _ _ n => repeat [] n) demo_tfp cholesky demo_normal_draw) [] gmm_catalogue estimated.
Proof. exact ex_gmm. Qed.

(** In each of the workflows every run has a file of its own, and Snakemake can handle the names. *)
Theorem C82_runs :
  forall es cs ns ss k,
  In (es, cs, ns, ss, k)
    [(demo_estimators, demo_catalogue, demo_n_samples, demo_seeds, 8%nat);
     (v1_estimators, v1_catalogue, v1_n_samples, v1_seeds, 3510%nat);
     (v2_estimators, v2_catalogue, v2_n_samples, v2_seeds, 1560%nat);
     (gmm_estimators, gmm_catalogue, gmm_n_samples, gmm_seeds, 48%nat)] ->
  let ts := map entry_id cs in
  Forall usable_name es /\ Forall (fun t => usable_name t /\ ~ occurs "/" t) ts /\ Forall (Z.le 0) ss /\
  length (combinations es ts ns ss) = k /\
  NoDup (map (fun q => match q with (e, t, n, s) => result_path e t n s end) (combinations es ts ns ss)).
Proof. exact settings_runs. Qed.
Print Assumptions C82_runs.
Example C82_runs_example :
  map (fun q => match q with (e, t, n, s) => result_path e t n s end)
    (combinations demo_estimators (map entry_id demo_catalogue) demo_n_samples demo_seeds) =
  ["results/KSG-5/swissroll_x-normal_cdf-1v1-normal-0.75/500-1.yaml"; "results/KSG-5/swissroll_x-normal_cdf-1v1-normal-0.75/500-2.yaml";
   "results/KSG-5/multinormal-dense-3-3-0.5/500-1.yaml"; "results/KSG-5/multinormal-dense-3-3-0.5/500-2.yaml";
   "results/CCA/swissroll_x-normal_cdf-1v1-normal-0.75/500-1.yaml"; "results/CCA/swissroll_x-normal_cdf-1v1-normal-0.75/500-2.yaml";
   "results/CCA/multinormal-dense-3-3-0.5/500-1.yaml"; "results/CCA/multinormal-dense-3-3-0.5/500-2.yaml"]%string.
Proof. reflexivity. Qed.

(** How many samples and which seeds. *)
Theorem C82_settings :
  (demo_n_samples, demo_seeds) = ([500], [1; 2]) /\ (gmm_n_samples, gmm_seeds) = ([5000], [0; 1; 2]) /\
  (v1_n_samples, v1_seeds) = ([5000], [0; 1; 2; 3; 4; 5; 6; 7; 8; 9]) /\ (v2_n_samples, v2_seeds) = (v1_n_samples, v1_seeds).
Proof. exact settings_numbers. Qed.
Print Assumptions C82_settings.

(** The first version has the tasks of the published list but one. *)
Theorem C82_v1_published :
  Permutation ("1v1-additive-0.1"%string :: map entry_id v1_catalogue) published_ids /\ NoDup (map entry_name v1_catalogue).
Proof. exact (conj v1_published v1_names_distinct). Qed.
Print Assumptions C82_v1_published.

(** The tables of names shown to the reader have one name for each task, a different one for each. *)
Theorem C82_display_names :
  Permutation (map fst v2_names) (map entry_id v2_catalogue) /\ NoDup (map snd v2_names) /\
  Permutation (map fst gmm_names) (map entry_id gmm_catalogue) /\ NoDup (map snd gmm_names).
Proof. exact display_names. Qed.
Print Assumptions C82_display_names.

(** The benchmark of the model-based estimator uses tasks of the second version, under the same names. *)
Theorem C82_gmm_in_v2 : incl gmm_catalogue v2_catalogue /\ incl gmm_names v2_names.
Proof. exact gmm_in_v2. Qed.
Print Assumptions C82_gmm_in_v2.

(** The names of the tasks themselves do not tell the tasks of the second version apart. *)
Theorem C82_names_refuted : ~ NoDup (map entry_name v2_catalogue).
Proof. exact v2_same_names. Qed.
Print Assumptions C82_names_refuted.

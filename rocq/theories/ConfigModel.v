(** Model of the configurations of the workflows: [benchmark/demo/config.py],
    [benchmark/v1/config.py] and [benchmark/v2/config.py] in [workflows], and the tasks of
    [projects/Mixtures/gmm_benchmark.smk].

    Of the estimators only the names are modelled here (the estimators themselves are in
    other files); the classes called are named in the comments. *)
From Coq Require Import String.
From Verif Require Import Base UtilsModel JaxModel SamplersModel GaussianModel MatrixUtilsModel TransformsModel
  BmmModel MultivariateModel BenchmarkModel TasksModel MixturesModel.
Open Scope Z_scope.
Local Notation length := List.length.

Section Config.
  Context {J : prng}.
  (** What the constructors of the tasks depend on (TasksModel, MixturesModel). *)
  Variables (F : formats) (percent : R -> string) (D : draws J) (erf : R -> R) (expm : expm_function)
    (eigvals : matrix -> list (R * R)) (mvn : key J -> list R -> matrix -> nat -> matrix) (psi log_gamma : R -> R)
    (mvt : Z -> list R -> matrix -> fl -> nat -> matrix) (T : tfp_draws J) (cholesky : matrix -> option matrix)
    (normal_draw : list R -> option matrix -> key J -> nat -> matrix).

  Local Notation cdf := (normal_cdfise erf).
  Local Notation pair2 := (two_pair F eigvals mvn).
  Local Notation dense_ := (dense F eigvals mvn).
  Local Notation ident := (identity_student eigvals psi log_gamma mvt).
  Local Notation spi := (spiralise expm).
  Local Notation binormal := (task_bivariate_normal F eigvals mvn (75 / 100)).
  Local Notation additive := (task_additive_noise F D (75 / 100)).

  (** The constructors of mixtures.py with their default arguments: lines 9, 12-14, 42-43,
      106-109, 143-147, 187-190, 220-226. *)
  Definition estimate_sample : Z := 100000.
  Definition default_x := task_x F T eigvals cholesky normal_draw (9 / 10) estimate_sample.
  Definition default_ai := task_ai T eigvals cholesky normal_draw estimate_sample.
  Definition default_galaxy := task_galaxy F T eigvals cholesky normal_draw expm (5 / 10) 3 estimate_sample.
  Definition default_waves := task_waves F T eigvals cholesky normal_draw 12 5 3 estimate_sample.
  Definition concentric (d n : Z) := task_concentric_multinormal T eigvals cholesky normal_draw d n estimate_sample.
  Definition inliers (d : Z) (f : R) :=
    task_multinormal_sparse_w_inliers F percent T eigvals cholesky normal_draw d d 2 2 f estimate_sample.
  Definition asinh_student (d df : Z) : prog (task J) := run t <- ident d df; asinh t.

  (** demo/config.py, UNSCALED_TASKS: lines 25-31. *)
  Definition demo_unscaled : prog (list (task J)) :=
    run b <- binormal;                                                   (* 25 *)
    run u <- cdf b;                                                      (* 26 *)
    sequence [transform_swissroll_task u "Swiss roll 2 × 1"; dense_ 3].  (* 28-31 *)

  (** v1/config.py, UNSCALED_TASKS: lines 49-102. *)
  Definition v1_unscaled : prog (list (task J)) :=
    run b <- binormal;                                                   (* 49 *)
    run b3 <- pair2 3; run b5 <- pair2 5; run b25 <- pair2 25;           (* 50-52 *)
    run u <- cdf b;                                                      (* 54 *)
    sequence [pret b; pret u; additive;                                  (* 59-61 *)
              task_bimodal_gaussians F erf eigvals mvn (75 / 100);       (* 62 *)
              wigglify b; half_cubed b;                                  (* 63-64 *)
              ident 1 1; asinh_student 1 1;                              (* 65-66 *)
              transform_swissroll_task u "Swiss roll 2 × 1";             (* 68 *)
              dense_ 2; dense_ 3; dense_ 5; dense_ 25; dense_ 50;        (* 70-74 *)
              pair2 2; pair2 3; pair2 5; pair2 25;                       (* 75-78 *)
              ident 2 1; ident 2 2; ident 3 2; ident 3 3; ident 5 2; ident 5 3;   (* 80-85 *)
              cdf b3; cdf b5; cdf b25;                                   (* 87-89 *)
              half_cubed b3; half_cubed b5; half_cubed b25;              (* 90-92 *)
              spi b3; spi b5; spi b25;                                   (* 93-95 *)
              (run t <- cdf b3; spi t); (run t <- cdf b5; spi t); (run t <- cdf b25; spi t);   (* 96-98 *)
              asinh_student 2 1; asinh_student 3 2; asinh_student 5 2].  (* 99-101 *)

  (** v2/config.py, UNSCALED_TASKS: lines 35-76. *)
  Definition v2_unscaled : prog (list (task J)) :=
    run b <- binormal;                                                   (* 35 *)
    run u <- cdf b;                                                      (* 36 *)
    run b3 <- pair2 3; run b5 <- pair2 5;                                (* 38-39 *)
    sequence [additive; asinh_student 1 1; default_x; default_ai;        (* 44-47 *)
              transform_swissroll_task u "Swiss roll 2 × 1";             (* 49 *)
              default_waves; default_galaxy;                             (* 51-52 *)
              concentric 3 5; concentric 5 5; concentric 3 10; concentric 5 10; concentric 25 5;   (* 53-57 *)
              dense_ 5; dense_ 25; dense_ 50; pair2 5; pair2 25;         (* 59-63 *)
              inliers 5 (2 / 10); inliers 25 (2 / 10); inliers 5 (5 / 10); inliers 25 (5 / 10);   (* 65-68 *)
              asinh_student 2 1; asinh_student 3 2; asinh_student 5 2;   (* 70-72 *)
              spi b3; spi b5].                                           (* 74-75 *)

  (** gmm_benchmark.smk, TASKS: lines 21-42. *)
  Definition gmm_tasks : prog (list (task J)) :=
    sequence [additive; default_x; default_ai; default_galaxy;           (* 22-25 *)
              concentric 3 5; concentric 5 5; concentric 3 10; concentric 5 10;   (* 27-30 *)
              inliers 5 (2 / 10); inliers 5 (5 / 10);                    (* 32-33 *)
              dense_ 5; pair2 5;                                         (* 35-36 *)
              asinh_student 1 1; asinh_student 2 1; asinh_student 3 2; asinh_student 5 2].   (* 38-41 *)

  (** TASKS (demo 34-41, v1 105-112, v2 79-86) is a generator: the tasks are rescaled while
      TASKS_DICT is filled, _common_benchmark_rules.smk 11-13. *)
  Fixpoint load_tasks (bases : list (task J)) (acc : sdict (task J)) : prog (sdict (task J)) :=
    match bases with
    | [] => pret acc
    | base_task :: bases =>
        run n <- task_name base_task;
        run i <- task_id base_task;
        run t <- transform_rescale base_task (Some n) (Some i);
        run k <- task_id t;                                              (* rules 12 *)
        load_tasks bases (sdict_set acc k t)
    end.
  Definition demo_tasks : prog (sdict (task J)) := run l <- demo_unscaled; load_tasks l [].
  Definition v1_tasks : prog (sdict (task J)) := run l <- v1_unscaled; load_tasks l [].
  Definition v2_tasks : prog (sdict (task J)) := run l <- v2_unscaled; load_tasks l [].
  (** gmm_benchmark.smk 70-72. *)
  Definition gmm_tasks_dict : prog (sdict (task J)) := run l <- gmm_tasks; tasks_by_id l [].
End Config.

(** ESTIMATORS_DICT: the names.  demo/config.py 15-18 (KSGEnsembleFirstEstimator,
    CCAMutualInformationEstimator). *)
Definition demo_estimators : list string := ["KSG-5"; "CCA"]%string.
(** v1/config.py 24-42 (four neural estimators, RKSGEstimator with 5 neighbours,
    RLNNEstimator, JuliaHistogramEstimator, JuliaTransferEstimator, CCA). *)
Definition v1_estimators : list string :=
  ["MINE-10_5"; "InfoNCE-10_5"; "NWJ-10_5"; "Donsker-Varadhan-10_5"; "R-KSG-I-10"; "R-LNN"; "Julia-Hist-10";
   "Julia-Transfer-30"; "CCA"]%string.
(** v2/config.py 21-28 (four neural estimators, KSGEnsembleFirstEstimator, CCA). *)
Definition v2_estimators : list string := ["NWJ"; "MINE"; "InfoNCE"; "Donsker-Varadhan"; "KSG-10"; "CCA"]%string.
(** gmm_benchmark.smk 78-80 (GMMEstimator). *)
Definition gmm_estimators : list string := ["GMM"]%string.

(** N_SAMPLES and SEEDS: demo 47 and 53, v1 118 and 124, v2 92 and 98, gmm_benchmark.smk 75 and 73. *)
Definition demo_n_samples : list Z := [500].
Definition demo_seeds : list Z := [1; 2].
Definition v1_n_samples : list Z := [5000].
Definition v1_seeds : list Z := map Z.of_nat (seq 0 10).
Definition v2_n_samples : list Z := [5000].
Definition v2_seeds : list Z := map Z.of_nat (seq 0 10).
Definition gmm_n_samples : list Z := [5000].
Definition gmm_seeds : list Z := [0; 1; 2].

(** NAMES, gmm_benchmark.smk 45-67. *)
Definition gmm_names : sdict string :=
  [("1v1-additive-0.75", "Additive"); ("1v1-AI", "AI"); ("1v1-X-0.9", "X"); ("2v1-galaxy-0.5-3.0", "Galaxy");
   ("3v1-concentric_gaussians-10", "Concentric (3-dim, 10)"); ("3v1-concentric_gaussians-5", "Concentric (3-dim, 5)");
   ("5v1-concentric_gaussians-10", "Concentric (5-dim, 10)"); ("5v1-concentric_gaussians-5", "Concentric (5-dim, 5)");
   ("mult-sparse-w-inliers-5-5-2-2.0-0.2", "Inliers (5-dim, 0.2)");
   ("mult-sparse-w-inliers-5-5-2-2.0-0.5", "Inliers (5-dim, 0.5)");
   ("multinormal-dense-5-5-0.5", "Normal (5-dim, dense)"); ("multinormal-sparse-5-5-2-2.0", "Normal (5-dim, sparse)");
   ("asinh-student-identity-1-1-1", "Student (1-dim)"); ("asinh-student-identity-2-2-1", "Student (2-dim)");
   ("asinh-student-identity-3-3-2", "Student (3-dim)"); ("asinh-student-identity-5-5-2", "Student (5-dim)")]%string.

(** [names] of v2_results_table.smk 104-143. *)
Definition v2_names : sdict string :=
  [("asinh-student-identity-1-1-1", "Student (1-dim)"); ("1v1-additive-0.75", "Additive"); ("1v1-AI", "AI");
   ("1v1-X-0.9", "X"); ("swissroll_x-normal_cdf-1v1-normal-0.75", "Swiss roll");
   ("2v1-galaxy-0.5-3.0", "Galaxy"); ("2v1-waves-12-5.0-3.0", "Waves");
   ("25v1-concentric_gaussians-5", "Concentric (25-dim, 5)");
   ("3v1-concentric_gaussians-10", "Concentric (3-dim, 10)"); ("3v1-concentric_gaussians-5", "Concentric (3-dim, 5)");
   ("5v1-concentric_gaussians-10", "Concentric (5-dim, 10)"); ("5v1-concentric_gaussians-5", "Concentric (5-dim, 5)");
   ("multinormal-dense-5-5-0.5", "Normal (5-dim, dense)"); ("multinormal-dense-25-25-0.5", "Normal (25-dim, dense)");
   ("multinormal-dense-50-50-0.5", "Normal (50-dim, dense)"); ("multinormal-sparse-5-5-2-2.0", "Normal (5-dim, sparse)");
   ("multinormal-sparse-25-25-2-2.0", "Normal (25-dim, sparse)");
   ("asinh-student-identity-2-2-1", "Student (2-dim)"); ("asinh-student-identity-3-3-2", "Student (3-dim)");
   ("asinh-student-identity-5-5-2", "Student (5-dim)");
   ("spiral-multinormal-sparse-3-3-2-2.0", "Spiral (3-dim)"); ("spiral-multinormal-sparse-5-5-2-2.0", "Spiral (5-dim)");
   ("mult-sparse-w-inliers-5-5-2-2.0-0.2", "Inliers (5-dim, 0.2)");
   ("mult-sparse-w-inliers-5-5-2-2.0-0.5", "Inliers (5-dim, 0.5)");
   ("mult-sparse-w-inliers-25-25-2-2.0-0.2", "Inliers (25-dim, 0.2)");
   ("mult-sparse-w-inliers-25-25-2-2.0-0.5", "Inliers (25-dim, 0.5)")]%string.

(** Model of [workflows/projects/Mixtures/outliers.smk]: distributions contaminated with noise and
    the tasks made of them. *)
From Coq Require Import String.
From Verif Require Import Base UtilsModel JaxModel SamplersModel GaussianModel MatrixUtilsModel BmmModel MultivariateModel BenchmarkModel
  TasksModel MixturesModel PaperModel RulesModel.
Open Scope R_scope.
Local Notation length := List.length.

(** ChangeMixingSetup, 27-30. *)
Record change_mixing_setup (J : prng) := { dist_true : joint_distribution J; dist_noise : joint_distribution J }.
Arguments dist_true {J} c.
Arguments dist_noise {J} c.
(** ChangeMixingSetup.mixture, 32-41. *)
Definition setup_mixture {J} (T : tfp_draws J) (s : change_mixing_setup J) (alpha : R) : result (joint_distribution J) :=
  mixture T [1 - alpha; alpha] [dist_true s; dist_noise s].

(** ALPHAS, 72. *)
Definition ALPHAS : list R := [1 / 1000; 1 / 100; 5 / 100; 1 / 10; 15 / 100; 2 / 10; 3 / 10; 4 / 10; 5 / 10].
(** [np.arange(start, start + n * step, step)]. *)
Definition arange (start step : R) (n : nat) : list R := map (fun i => start + INR i * step) (seq 0 n).
(** VARIANCES, 71. *)
Definition VARIANCES : list R := map (Rpower 2) (arange (-7) 1 5 ++ arange (-2) (1 / 2) 12 ++ arange 4 1 4)%list.
(** VARIANCE_MIXING, 89. *)
Definition VARIANCE_MIXING : R := 2 / 10.

Section Outliers.
  Context {J : prng}.
  Variable F : formats.
  Variable T : tfp_draws J.
  Variable eigvals : matrix -> list (R * R).
  Variable cholesky : matrix -> option matrix.
  Variable normal_draw : list R -> option matrix -> key J -> nat -> matrix.

  (** signal_cov_matrix, 43-44; epsilon is 1 and eta is lambd by default. *)
  Definition signal_cov_matrix : result matrix :=
    do p <- sparse_init 2 2 2 (1 / 10) 2 1 None; lvm_correlation_matrix p.
  (** dist_signal_gauss, 46-50. *)
  Definition dist_signal_gauss : result (joint_distribution J) :=
    do c <- signal_cov_matrix; normal_distribution eigvals cholesky normal_draw 2 2 c None.

  (** The product of the signal's X and a centred normal Y, 53-56, 60-63 and 91-97. *)
  Definition noise_with (signal : joint_distribution J) (covariance : matrix) : result (joint_distribution J) :=
    product_distribution T (dist_x signal) (construct_normal cholesky normal_draw (repeat 0 (jd_dim_y signal)) covariance).
  (** dist_gaussian_inlier, 52-56, and dist_gaussian_outlier, 59-63. *)
  Definition dist_gaussian_inlier (signal : joint_distribution J) := noise_with signal (np_eye (jd_dim_y signal)).
  Definition dist_gaussian_outlier (signal : joint_distribution J) := noise_with signal (scaled 25 (np_eye (jd_dim_y signal))).

  (** CHANGE_MIXING_SETUPS, 65-68. *)
  Definition change_mixing_setups : result (sdict (change_mixing_setup J)) :=
    do signal <- dist_signal_gauss;
    do inlier <- dist_gaussian_inlier signal;
    do outlier <- dist_gaussian_outlier signal;
    Ok [("Gauss-Inlier"%string, {| dist_true := signal; dist_noise := inlier |});
        ("Gauss-Outlier"%string, {| dist_true := signal; dist_noise := outlier |})].

  (** The distribution of a task with another variance, 91-102. *)
  Definition variance_mixture (signal : joint_distribution J) (variance : R) : result (joint_distribution J) :=
    do noise <- noise_with signal (scaled variance (np_eye (jd_dim_y signal)));   (* 91-97 *)
    mixture T [1 - VARIANCE_MIXING; VARIANCE_MIXING] [signal; noise].             (* 99-102 *)

  (** The task of a setup and a level, 78-84. *)
  Definition mixing_task (setup_name : string) (s : change_mixing_setup J) (alpha : R) : prog (task J) :=
    run d <- lift (setup_mixture T s alpha);
    run b <- lift (default_bmm d 100000);                                         (* 78 *)
    run p <- new_dict [("mixing", PFloat (Fin alpha))]%string;                    (* 83 *)
    let id := ("mixing-" ++ setup_name ++ "-" ++ float_repr F alpha)%string in    (* 81-82 *)
    pret {| t_sampler := b; t_id := id; t_name := id; t_params := Some p |}.
  (** The task of a variance, 91-110. *)
  Definition variance_task (signal : joint_distribution J) (variance : R) : prog (task J) :=
    run d <- lift (variance_mixture signal variance);
    run b <- lift (default_bmm d 100000);                                         (* 98-104 *)
    run p <- new_dict [("variance", PFloat (Fin variance))]%string;               (* 109 *)
    let id := ("variance-" ++ float_repr F variance)%string in                    (* 107-108 *)
    pret {| t_sampler := b; t_id := id; t_name := id; t_params := Some p |}.

  (** [d[task.id] = task] for tasks made one after the other, 76-85 and 90-111. *)
  Fixpoint store_tasks (makers : list (prog (task J))) (acc : sdict (task J)) : prog (sdict (task J)) :=
    match makers with
    | [] => pret acc
    | m :: makers => run t <- m; run i <- task_id t; store_tasks makers (sdict_set acc i t)
    end.
  (** UNSCALED_TASKS, 74-113. *)
  Definition unscaled_tasks : prog (sdict (task J)) :=
    run setups <- lift change_mixing_setups;
    run mixing <- store_tasks (concat (map (fun s => map (mixing_task (fst s) (snd s)) ALPHAS) setups)) [];   (* 74-85 *)
    run signal <- lift dist_signal_gauss;
    run variance <- store_tasks (map (variance_task signal) VARIANCES) [];        (* 88-111 *)
    pret (sdict_merge mixing variance).                                           (* 113 *)

  (** scale_tasks, _benchmark_rules.smk 18-28. *)
  Fixpoint scale_tasks (tasks : sdict (task J)) : prog (sdict (task J)) :=
    match tasks with
    | [] => pret []
    | (key, base) :: tasks =>
        run n <- task_name base;                                                  (* 24 *)
        run i <- task_id base;                                                    (* 25 *)
        run t <- transform_rescale base (Some n) (Some i);                        (* 22 *)
        run rest <- scale_tasks tasks;
        pret ((key, t) :: rest)
    end.

  (** ** The rules for the ground truth *)
  (** [CHANGE_MIXING_SETUPS[wildcards.setup]], 283, 306 and 332. *)
  Definition setup_of (name : string) : result (change_mixing_setup J) :=
    do setups <- change_mixing_setups;
    match sdict_get setups name with Some s => Ok s | None => Err KeyError end.
  (** The distribution of estimate_mi_mixed_one_seed, 283-284. *)
  Definition mixed_distribution (setup : string) (alpha : R) : result (joint_distribution J) :=
    do s <- setup_of setup; setup_mixture T s alpha.
  (** [float(wildcards.mixing)]. *)
  Variable float_of : string -> result R.
  (** estimate_mi_mixed_one_seed, 277-297: "mi", "mi_stderr" and "mixing" of the document. *)
  Definition mixed_one_seed (setup mixing seed : string) : result (fl * fl * R) :=
    do s <- setup_of setup;                                                       (* 283 *)
    do a <- float_of mixing;
    do d <- setup_mixture T s a;                                                  (* 284 *)
    do seed <- read_int seed;                                                     (* 286 *)
    do e <- monte_carlo_mi_estimate (prng_key J seed) d 100000;                   (* 287 *)
    Ok (e, a).                                                                    (* 290-294 *)
  (** estimate_mi_signal_one_seed, 300-319. *)
  Definition signal_one_seed (setup seed : string) : result (fl * fl) :=
    do s <- setup_of setup;
    do seed <- read_int seed;
    monte_carlo_mi_estimate (prng_key J seed) (dist_true s) 100000.               (* 309-310 *)

  (** [np.std(l, ddof=1)]. *)
  Definition np_std1 (l : list fl) : fl :=
    let m := fl_mean l in
    fl_sqrt (fl_divp (fl_sum (map (fun v => fl_square (fl_sub v m)) l)) (INR (length l) - 1)).
  (** "mi_mean", "mi_std" and "mi_stderr_mean", 261-263 and 333-335. *)
  Definition summary (estims : list (fl * fl)) : fl * fl * fl :=
    (fl_mean (map fst estims), np_std1 (map fst estims), fl_mean (map snd estims)).
  (** [for x in l: append(f(x))]. *)
  Fixpoint each {A B} (f : A -> result B) (l : list A) : result (list B) :=
    match l with [] => Ok [] | a :: l => do b <- f a; do bs <- each f l; Ok (b :: bs) end.
  (** SEEDS, 136, and the seeds of estimate_mi_signal_all_seeds, 321 and 325. *)
  Definition SEEDS : list Z := map Z.of_nat (seq 0 10).
  Definition signal_seeds : list Z := map Z.of_nat (seq 0 2).
  (** estimate_mi_mixed_all_seeds (252-275), given the files of the seeds. *)
  Definition mixed_all_seeds (setup mixing : string) : result (fl * fl * fl * R) :=
    do samples <- each (fun seed => mixed_one_seed setup mixing (show_int seed)) SEEDS;   (* 254-259 *)
    do a <- float_of mixing;                                                      (* 270 *)
    Ok (summary (map fst samples), a).
  (** estimate_mi_signal_all_seeds (322-347): "mi_analytic" and the summary; [float(None)] raises. *)
  Definition signal_all_seeds (setup : string) : result (fl * (fl * fl * fl)) :=
    do samples <- each (fun seed => signal_one_seed setup (show_int seed)) signal_seeds;
    do s <- setup_of setup;                                                       (* 332 *)
    match analytic_mi (dist_true s) with
    | Some v => Ok (v, summary samples)
    | None => Err TypeError
    end.
End Outliers.

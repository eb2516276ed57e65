(** Property C90: the workflow asking how good integration is. *)
From Coq Require Import String ZArith Lra.
From Verif Require Import Base UtilsModel JaxModel SamplersModel GaussianModel MatrixUtilsModel BmmModel MultivariateModel BenchmarkModel PaperModel PaperSpec RulesModel RulesSpec
  CriticsModel OutliersModel OutliersPlotModel TrainingExamples BmmExamples OutliersTasksSpec IntegrationModel IntegrationSpec IntegrationPaths IntegrationFigure IntegrationTables IntegrationTruth.
From mathcomp Require Import ssreflect.
From Verif Require Import MixturesSpec MultivariateThms MultivariateExamples IntegrationSetups IntegrationExamples.
Open Scope R_scope.
Local Notation length := List.length.
Local Notation made setups := (make_all setups ESTIMATORS N_POINTS IntegrationModel.SEEDS).

(** C90: the four setups are made.  Three share the mixture of four balls, the first with the exact critic, the others
    with a bias of a half and of a function of X; the fourth is normal with 25 pairs of coordinates of correlation 0.8. *)
Theorem C90_setups : forall (J : prng) (T : tfp_draws J) eigvals cholesky normal_draw, eigvals_symmetric eigvals -> factorises cholesky ->
  exists balls n l f0 f1 f2 f3, declared T eigvals cholesky normal_draw = Ok l /\
    completed l = [("Four_Balls", (balls, f0)); ("Four_Balls_Biased", (balls, f1)); ("Four_Balls_SinSquare", (balls, f2)); ("Normal-25Dim", (n, f3))]%string /\
    ball_mixture balls four_balls_parts /\ (forall x y, point_pmi balls [x] [y] = Fin (f0 [x] [y])) /\
    (forall x y, f1 x y = f0 x y + 1 / 2 /\ f2 x y = f0 x y + sin (hd 0 x * hd 0 x)) /\
    jd_dim_x n = 25%nat /\ jd_dim_y n = 25%nat /\ analytic_mi n = Some (Fin (- (25 / 2) * ln (36 / 100))) /\
    forall x y, length x = 25%nat -> length y = 25%nat ->
      point_pmi n x y = Fin (f3 x y) /\ f3 x y = normal_pmi 25 25 (paired_covariance 25 (8 / 10)) x y.
Proof. exact (fun J T e c d he hc => setups_made T d he hc). Qed.
Print Assumptions C90_setups.
Example C90_setups_example : exists eigvals cholesky, eigvals_symmetric eigvals /\ factorises cholesky.
Proof. exact setups_satisfiable. Qed.

(** C90: every file is made by one rule, which reads the parts of its path correctly. *)
Theorem C90_paths : forall S, plain_name S ->
  candidates (table_path S) = [(Assemble, [("setup", S)])]%string /\
  candidates (truth_path S) = [(Truth, [("setup", S)])]%string /\
  (forall s, candidates (seed_path S s) = [(Seed, [("setup", S); ("seed", show_int s)])]%string) /\
  forall n s, (0 <= n)%Z -> (0 <= s)%Z ->
    candidates (samples_path S n s) = [(Sample, [("setup", S); ("n_points", show_int n); ("seed", show_int s)])]%string /\
    forall e, plain_name e -> e <> "_ground_truth_seeds"%string ->
      candidates (estimate_path S e n s) = [(Apply, [("setup", S); ("estimator", e); ("n_points", show_int n); ("seed", show_int s)])]%string.
Proof.
  exact (fun S H => conj (candidates_table S H) (conj (candidates_truth S H) (conj (fun s => candidates_seed S s H)
    (fun n s hn hs => conj (candidates_sample S n s H hn hs) (fun e he ne => candidates_estimate S e n s H he ne hn hs))))).
Qed.
Print Assumptions C90_paths.
Example C90_paths_example : plain_name "Square" /\ plain_name "Square_Biased".
Proof. exact square_plain. Qed.

(** C90: the table of a setup has one row for each number of points, seed and estimator, with what the estimator says
    about the sample drawn with that number and seed. *)
Theorem C90_table : forall (J : prng) (setups : sdict (joint_distribution J * critic)) sched w S d f file, plain_name S ->
  sdict_get setups S = Some (d, f) -> full_draws d -> made setups sched [] = Ok w -> sdict_get w (table_path S) = Some file ->
  exists rows, file = HTable rows /\ Forall2 (row_of_run S d f) (runs bounds sizes twenty) rows.
Proof. exact (fun J => table_holds). Qed.
Print Assumptions C90_table.
Example C90_table_example : full_draws demo_mixture /\ exists w rows t samples, made square_setups (integration_schedule "Square" bounds sizes twenty) [] = Ok w /\
  sdict_get w (table_path "Square") = Some (HTable rows) /\ sdict_get w (truth_path "Square") = Some (HTruth t samples).
Proof. exact (conj square_full square_made). Qed.

(** C90: the ground truth averages ten estimates with 100000 points each, whatever the critic. *)
Theorem C90_ground_truth : forall (J : prng) (setups : sdict (joint_distribution J * critic)) sched w S d f file ls, plain_name S ->
  sdict_get setups S = Some (d, f) -> made setups sched [] = Ok w -> sdict_get w (truth_path S) = Some file ->
  Forall2 (pmi_values d) [0; 1; 2; 3; 4; 5; 6; 7; 8; 9]%Z ls ->
  file = HTruth (summarized ls) (map (fun l => (Fin (fst (estimated l)), Fin (snd (estimated l)))) ls).
Proof. exact (fun J => truth_holds). Qed.
Print Assumptions C90_ground_truth.
Example C90_ground_truth_example : exists ls, Forall2 (pmi_values demo_mixture) [0; 1; 2; 3; 4; 5; 6; 7; 8; 9]%Z ls.
Proof. exact square_truth. Qed.

(** C90: making samples before estimates, estimates before the table, and seeds before the ground truth never fails. *)
Theorem C90_completes : forall (J : prng) (setups : sdict (joint_distribution J * critic)) S d f, plain_name S -> sdict_get setups S = Some (d, f) ->
  exists w rows t samples, made setups (integration_schedule S bounds sizes twenty) [] = Ok w /\
    sdict_get w (table_path S) = Some (HTable rows) /\ sdict_get w (truth_path S) = Some (HTruth t samples).
Proof. exact (fun J => completes). Qed.
Print Assumptions C90_completes.
Example C90_completes_example : plain_name "Square" /\ sdict_get square_setups "Square" = Some (demo_mixture, finite_pmi demo_mixture).
Proof. exact (conj (proj1 square_plain) eq_refl). Qed.

(** C90: adding a function of X to the critic leaves the estimates of InfoNCE, moves those of the plain average by its
    mean, and those of Donsker and Varadhan by as much up to its bound; a constant leaves these and bends those of NWJ. *)
Theorem C90_bias : forall (J : prng) (setups : sdict (joint_distribution J * critic)) sched sched' w w' S S' d f f' g rows rows',
  plain_name S -> plain_name S' -> sdict_get setups S = Some (d, f) -> sdict_get setups S' = Some (d, f') ->
  (forall x y, f' x y = f x y + g x) -> full_draws d ->
  made setups sched [] = Ok w -> sdict_get w (table_path S) = Some (HTable rows) ->
  made setups sched' [] = Ok w' -> sdict_get w' (table_path S') = Some (HTable rows') ->
  length rows = length rows' /\ Forall2 (bias_seen d f g) (runs bounds sizes twenty) (combine rows rows').
Proof. exact (fun J => bias_in_tables). Qed.
Print Assumptions C90_bias.
Example C90_bias_example : (forall x y, biased (finite_pmi demo_mixture) x y = finite_pmi demo_mixture x y + 5 / 10) /\
  exists w rows t samples, made square_setups (integration_schedule "Square_Biased" bounds sizes twenty) [] = Ok w /\
  sdict_get w (table_path "Square_Biased") = Some (HTable rows) /\ sdict_get w (truth_path "Square_Biased") = Some (HTruth t samples).
Proof. exact (conj (fun x y => eq_refl) biased_made). Qed.

(** C90: a panel has a curve for every estimator of the table, and the ground truth across it. *)
Theorem C90_curves : forall df truth, df <> [] -> (forall r, In r df -> In (ed_estimator r) (map fst integration_styles)) ->
  exists curves line, plot_estimates df truth = Ok (curves, line) /\ estimates_shown df truth curves line.
Proof. exact plot_shows. Qed.
Print Assumptions C90_curves.
Example C90_curves_example : small_table <> [] /\ forall r, In r small_table -> In (ed_estimator r) (map fst integration_styles).
Proof. exact small_known. Qed.

(** C90: an estimator without a style stops the figure. *)
Theorem C90_unknown_estimator : forall df truth, (exists r, In r df /\ ~ In (ed_estimator r) (map fst integration_styles)) -> plot_estimates df truth = Err KeyError.
Proof. exact plot_stranger. Qed.
Print Assumptions C90_unknown_estimator.
Example C90_unknown_estimator_example :
  exists r, In r [{| ed_estimator := "KSG"; ed_setup := "S"; ed_estimate := Fin 1; ed_points := 16 |}]%string /\ ~ In (ed_estimator r) (map fst integration_styles).
Proof. exact strange_table. Qed.

(** C90: with the setups of the file everything is made, and the figure has the four panels, each showing the table
    and the ground truth of its setup. *)
Theorem C90_figure : forall (J : prng) (T : tfp_draws J) eigvals cholesky normal_draw, eigvals_symmetric eigvals -> factorises cholesky ->
  exists l w ps, declared T eigvals cholesky normal_draw = Ok l /\
    made (completed l) (flat_map (fun S => integration_schedule S bounds sizes twenty) (map (fun t => snd (fst t)) panels)) [] = Ok w /\
    plot_performance_all w = Ok ps /\ Forall2 (panel_shows w) panels ps.
Proof. exact (fun J T e c d he hc => whole_figure T e c d he hc). Qed.
Print Assumptions C90_figure.
Example C90_figure_example : exists eigvals cholesky, eigvals_symmetric eigvals /\ factorises cholesky.
Proof. exact setups_satisfiable. Qed.

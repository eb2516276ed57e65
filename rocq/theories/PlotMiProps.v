(** C94: figures which show estimates over a parameter of the tasks, and the figure of the tails. *)
From Coq Require Import String Permutation Sorted.
From Verif Require Import Base UtilsModel JaxModel SamplersModel GaussianModel BenchmarkModel BenchmarkSpec TasksModel TasksSpec TablesModel TablesSpec V2TableSpec
  FiguresSpec GaussianSpec TasksGaussian GammaSpec GammaExists TrainingExamples TasksExamples BasicExamples PlotMiModel PlotMiSpec PlotMiThms PlotMiTails PlotMiFigure PlotMiExamples.
Open Scope R_scope.
Local Notation length := List.length.

(** One curve for every estimator in the rows, in the order of their identifiers and in their colours: the mean of the
    estimates at every value of the parameter, from left to right, in a band of one standard deviation if asked for.
    The dotted line is the mean of the true values of all rows. *)
Theorem C94_panel : forall fr x label std, In x (f_columns fr) -> (forall r, In r (f_rows fr) -> In (r_estimator (mr_run r)) (map style_id mi_styles)) ->
  exists p, plot_mi fr x COLORS NAMES label std = Ok p /\ shows_panel x (f_rows fr) std p /\ pn_x_label p = given label x.
Proof. exact plot_shown. Qed.
Print Assumptions C94_panel.
Example C94_panel_example : exists kept exponent freedom, figure_tails demo_results = Ok (exponent, freedom) /\
  shows_panel "alpha" kept true exponent /\ shows_panel "dof" kept true freedom /\
  map mc_estimator (pn_curves exponent) = ["CCA"]%string /\ map fst (pn_truth exponent) = [1] /\ map fst (pn_truth freedom) = [1; 3].
Proof. exact demo_tails. Qed.

(** A parameter which no task has and an estimator without colour raise a KeyError. *)
Theorem C94_no_parameter : forall fr x colors names label std, ~ In x (f_columns fr) -> plot_mi fr x colors names label std = Err KeyError.
Proof. exact plot_no_column. Qed.
Print Assumptions C94_no_parameter.
Theorem C94_unknown_estimator : forall fr x label std, (exists r, In r (f_rows fr) /\ ~ In (r_estimator (mr_run r)) (map style_id mi_styles)) ->
  plot_mi fr x COLORS NAMES label std = Err KeyError.
Proof. exact plot_stranger. Qed.
Print Assumptions C94_unknown_estimator.
Example C94_unknown_estimator_example : ~ In "KSG"%string (map style_id mi_styles) /\ ~ In "R-BNSL"%string (map style_id mi_styles).
Proof. exact strangers. Qed.

(** The assertions of the module hold, and no two estimators share a colour or a label. *)
Theorem C94_styles : covered COLORS = true /\ covered NAMES = true /\ Permutation ESTIMATOR_IDS (map style_id mi_styles) /\
  NoDup (map (fun s => snd (fst s)) mi_styles) /\ NoDup (map snd mi_styles).
Proof. exact styles_cover. Qed.
Print Assumptions C94_styles.
(** Such an assertion fails as soon as one estimator has no entry. *)
Theorem C94_covered : forall d, covered d = true <-> forall s, In s mi_styles -> exists v, sdict_get d (style_id s) = Some v.
Proof. exact covered_spec. Qed.
Print Assumptions C94_covered.
Example C94_covered_example : covered (tl COLORS) = false.
Proof. exact eq_refl. Qed.

(** The frame has the parameters of all rows as columns, also of rows whose estimate is too large. *)
Theorem C94_frame : forall m rows, rows <> [] -> exists fr, read_frame (Some m) rows = Ok fr /\
  (forall k, In k (f_columns fr) <-> exists r v, In r rows /\ In (k, v) (mr_params r)) /\
  keeping (fun r => fl_ltb (r_estimate (mr_run r)) m = true) rows (f_rows fr).
Proof. exact frame_read. Qed.
Print Assumptions C94_frame.
(** Without a limit all rows stay; with one, a frame without rows has no estimates to compare. *)
Theorem C94_frame_whole : forall rows, exists fr, read_frame None rows = Ok fr /\ f_rows fr = rows /\
  forall k, In k (f_columns fr) <-> exists r v, In r rows /\ In (k, v) (mr_params r).
Proof. exact frame_whole. Qed.
Print Assumptions C94_frame_whole.
Theorem C94_frame_empty : forall m, read_frame (Some m) [] = Err KeyError.
Proof. exact frame_empty. Qed.
Print Assumptions C94_frame_empty.
Example C94_frame_example : demo_results <> [].
Proof. discriminate. Qed.

(** The twenty tasks of the figure of the tails load under different identifiers.  The powers of normal variables all
    have the mutual information ln (25 / 9); the Student distributions have more, by the correction.  The samples are
    those of the listed tasks, scaled. *)
Theorem C94_tails_tasks : forall (J : prng) F eigvals mvn psi log_gamma mvt, float_repr F 2 = "2.0"%string -> eigvals_positive eigvals ->
  (forall r mu D df k, length (mvt r mu D df k) = k) -> gamma_functions psi log_gamma -> forall h, NoDup (map (float_fixed F 5) exponents) ->
  exists h0 l h' d, tails_list (J := J) F eigvals mvn psi log_gamma mvt h = (h0, Ok l) /\ tails_tasks F eigvals mvn psi log_gamma mvt h = (h', Ok d) /\
    NoDup (map fst d) /\
    Forall2 (fun e kt => fst kt = sheet_id e /\ reports h' (snd kt) (sheet_id e) (snd (fst (fst e))) 3 3 (sheet_mi e) (snd e))
      (tails_sheets F (fun df => student_correction psi log_gamma df 3 3)) d /\
    Forall2 (fun t kt => rescaled h0 h' t (snd kt)) l d.
Proof. exact @tails_built. Qed.
Print Assumptions C94_tails_tasks.
Example C94_tails_tasks_example : exists h' d, tails_tasks (J := demo) apart ex_eigvals ex_mvn digamma log_gamma ex_mvt [] = (h', Ok d) /\ length d = 20%nat.
Proof. exact demo_tails_tasks. Qed.

(** The figure: estimates below 3 over the exponent, with a flat line of true values, and over the degrees of freedom,
    with a falling line of true values above it. *)
Theorem C94_tails_figure : forall F psi log_gamma, gamma_functions psi log_gamma -> let c df := student_correction psi log_gamma df 3 3 in
  forall rows, Forall (fun r => exists e, In e (tails_sheets F c) /\ row_about r (sheet_mi e) (snd e)) rows ->
  (forall r, In r rows -> In (r_estimator (mr_run r)) (map style_id mi_styles)) ->
  (exists r k, In r rows /\ has_parameter "alpha" r k) -> (exists r k, In r rows /\ has_parameter "dof" r k) ->
  exists kept exponent freedom, figure_tails rows = Ok (exponent, freedom) /\
    keeping (fun r => fl_ltb (r_estimate (mr_run r)) (Fin 3) = true) rows kept /\
    shows_panel "alpha" kept true exponent /\ pn_x_label exponent = "Exponent"%string /\
    Forall (fun p => In (fst p) exponents /\ snd p = Fin (ln (25 / 9))) (pn_truth exponent) /\
    shows_panel "dof" kept true freedom /\ pn_x_label freedom = "Deg. of freedom"%string /\
    Forall (fun p => In (fst p) degrees /\ snd p = Fin (ln (25 / 9) + c (fst p)) /\ 0 < c (fst p)) (pn_truth freedom) /\
    StronglySorted (fun p q => exists u v, snd p = Fin u /\ snd q = Fin v /\ v < u) (pn_truth freedom).
Proof. exact tails_figure. Qed.
Print Assumptions C94_tails_figure.
Example C94_tails_figure_example : gamma_functions digamma log_gamma /\
  Forall (fun r => exists e, In e (tails_sheets apart real_c) /\ row_about r (sheet_mi e) (snd e)) demo_results /\
  (forall r, In r demo_results -> In (r_estimator (mr_run r)) (map style_id mi_styles)) /\
  (exists r k, In r demo_results /\ has_parameter "alpha" r k) /\ (exists r k, In r demo_results /\ has_parameter "dof" r k).
Proof. exact (conj gamma_functions_exist (conj demo_about (conj demo_known demo_columns))). Qed.

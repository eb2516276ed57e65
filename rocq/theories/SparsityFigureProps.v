(** C95: the figure of sparsity. *)
From Coq Require Import String Ascii.
From Verif Require Import Base UtilsModel JaxModel SamplersModel GaussianModel BenchmarkModel BenchmarkSpec TasksModel TasksSpec TasksGaussian FiguresSpec TablesModel TablesSpec V2TableSpec TrainingExamples TasksExamples BasicExamples
  HighMiSpec SparsityModel SparsitySpec SparsityExamples SparsityPath PlotMiModel PlotMiSpec SparsityFigureModel SparsityFigureSpec SparsityFigureThms SparsityFigureExamples.
Open Scope R_scope.

(** The search for the alpha at which one shared variable carries all the information stops after fifteen steps, at
    18865/16384 = 1.151..., slightly below the solution. *)
Theorem C95_initial_alpha : forall (J : prng) F eigvals mvn uniform, eigvals_positive eigvals -> forall h,
  get_initial_alpha (J := J) F eigvals mvn uniform 1 10 h = (h, Ok (18865 / 16384)).
Proof. exact @initial_alpha_is. Qed.
Print Assumptions C95_initial_alpha.
Theorem C95_initial_value : let v := 10 * (18865 / 16384) ^ 2 in 1 - 99 / 1000000 <= coupling v <= 1.
Proof. exact coupling_there. Qed.
Print Assumptions C95_initial_value.
Example C95_initial_alpha_example : eigvals_positive ex_eigvals.
Proof. exact ex_eigvals_ok. Qed.

(** The nineteen tasks load under different identifiers: ten with ten interacting pairs and alpha from 0 to this value,
    nine without alpha and with one to nine interacting pairs.  All have 10 x 10 dimensions, the parameters which the
    panels need, and mutual information 1, up to 1/10000.  The samples are those of the listed tasks, scaled. *)
Theorem C95_tasks : forall (J : prng) F eigvals mvn uniform, eigvals_positive eigvals -> forall h,
  NoDup (map (float_fixed F 5) alphas) -> Forall (fun a => dashless (float_fixed F 5 a)) alphas ->
  exists h0 l h' d es, sparsity_list (J := J) F eigvals mvn uniform h = (h0, Ok l) /\ sparsity_tasks F eigvals mvn uniform h = (h', Ok d) /\ NoDup (map fst d) /\
    Forall2 (tuned_sheet F) sparsity_cases es /\
    Forall2 (fun e kt => fst kt = sheet_id e /\ reports h' (snd kt) (sheet_id e) (snd (fst (fst e))) 10 10 (sheet_mi e) (snd e)) es d /\
    Forall2 (fun t kt => rescaled h0 h' t (snd kt)) l d.
Proof. exact @sparsity_built. Qed.
Print Assumptions C95_tasks.
Example C95_tasks_example : NoDup (map (float_fixed spread 5) alphas) /\ Forall (fun a => dashless (float_fixed spread 5 a)) alphas /\
  exists h' d, sparsity_tasks (J := demo) spread ex_eigvals ex_mvn ex_uniform [] = (h', Ok d) /\ List.length d = 19%nat.
Proof. exact (conj (proj1 spread_ok) (conj (proj2 spread_ok) demo_sparsity_tasks)). Qed.

(** The six matrices are the correlation matrices of distributions with mutual information 1, up to 1/10000: with ten
    pairs and alpha at 18865/16384, at 4/5 and at 2/5 of it, then without alpha and with ten, five and one pair. *)
Theorem C95_matrices : forall (J : prng) F eigvals mvn uniform, eigvals_positive eigvals -> forall h,
  exists h' ms, sparsity_matrices (J := J) F eigvals mvn uniform h = (h', Ok ms) /\ Forall2 tuned_matrix matrix_cases ms.
Proof. exact @matrices_built. Qed.
Print Assumptions C95_matrices.
Example C95_matrices_example : exists h' ms, sparsity_matrices (J := demo) spread ex_eigvals ex_mvn ex_uniform [] = (h', Ok ms) /\ Forall2 tuned_matrix matrix_cases ms.
Proof. exact (matrices_built (J := demo) spread ex_eigvals ex_mvn ex_uniform ex_eigvals_ok []). Qed.

(** The panels: the estimates below 3 of the tasks with ten pairs over alpha, and of those without alpha over the number
    of pairs.  Both dotted lines stay within 1/10000 of 1. *)
Theorem C95_panels : forall F rows, rows <> [] ->
  Forall (fun r => exists c e, In c sparsity_cases /\ tuned_sheet F c e /\ row_about r (sheet_mi e) (snd e)) rows ->
  (forall r, In r rows -> In (r_estimator (mr_run r)) (map style_id mi_styles)) ->
  exists dense few by_alpha by_pairs, figure_sparsity rows = Ok (by_alpha, by_pairs) /\
    keeping (fun r => fl_ltb (r_estimate (mr_run r)) (Fin 3) = true /\ has_parameter "n_interacting" r 10) rows dense /\
    shows_panel "alpha" dense true by_alpha /\ pn_x_label by_alpha = "$\alpha$"%string /\
    Forall (fun p => In (fst p) alphas /\ exists m, snd p = Fin m /\ within m 1 (1 / 10000)) (pn_truth by_alpha) /\
    keeping (fun r => fl_ltb (r_estimate (mr_run r)) (Fin 3) = true /\ has_parameter "alpha" r 0) rows few /\
    shows_panel "n_interacting" few true by_pairs /\ pn_x_label by_pairs = "Num. of interactions"%string /\
    Forall (fun p => (exists k, (1 <= k <= 10)%Z /\ fst p = IZR k) /\ exists m, snd p = Fin m /\ within m 1 (1 / 10000)) (pn_truth by_pairs).
Proof. exact sparsity_shown. Qed.
Print Assumptions C95_panels.
Example C95_panels_example : exists rows, List.length rows = 2%nat /\ Forall (fun r => exists c e, In c sparsity_cases /\ tuned_sheet spread c e /\ row_about r (sheet_mi e) (snd e)) rows /\
  (forall r, In r rows -> In (r_estimator (mr_run r)) (map style_id mi_styles)).
Proof. exact demo_sparsity_rows. Qed.

(** Results without such parameters raise a KeyError. *)
Theorem C95_missing : forall rows, ~ (exists r v, In r rows /\ In ("n_interacting"%string, v) (mr_params r)) -> figure_sparsity rows = Err KeyError.
Proof. exact sparsity_missing. Qed.
Print Assumptions C95_missing.
Example C95_missing_example : figure_sparsity [] = Err KeyError.
Proof. exact eq_refl. Qed.

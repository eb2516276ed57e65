(** C96: the figure of growing mutual information. *)
From Coq Require Import String.
From Verif Require Import Base UtilsModel JaxModel SamplersModel GaussianModel TransformsModel BenchmarkModel TasksModel TasksSpec TasksGaussian TablesModel TablesSpec V2TableSpec
  FiguresSpec TrainingExamples TasksExamples BasicExamples SparsityExamples HighMiSpec PlotMiModel PlotMiSpec PlotMiExamples HighMiFigureModel HighMiFigureSpec HighMiFigureThms HighMiFigureExamples.
Open Scope R_scope.
Local Notation length := List.length.

(** All 24 searches succeed: the tasks of three families with eight values of information load under different
    identifiers, and each reports an information within 1e-4 of the desired one.  The samples are those of the listed
    tasks, scaled. *)
Theorem C96_tasks : forall (J : prng) F eigvals mvn expm uniform, eigvals_positive eigvals -> forall h, NoDup (map (float_fixed F 3) desired) ->
  exists h0 l h' d es, high_mi_list (J := J) F eigvals mvn expm uniform h = (h0, Ok l) /\ high_mi_tasks F eigvals mvn expm uniform h = (h', Ok d) /\ NoDup (map fst d) /\
    Forall2 (high_sheet F) high_cases es /\
    Forall2 (fun e kt => fst kt = sheet_id e /\ reports h' (snd kt) (sheet_id e) (snd (fst (fst e))) 3 3 (sheet_mi e) (snd e)) es d /\
    Forall2 (fun t kt => rescaled h0 h' t (snd kt)) l d.
Proof. exact @high_mi_built. Qed.
Print Assumptions C96_tasks.
Example C96_tasks_example : forall expm, exists h' d, high_mi_tasks (J := demo) split_up ex_eigvals ex_mvn expm ex_uniform [] = (h', Ok d) /\ length d = 24%nat.
Proof. exact demo_high_mi_tasks. Qed.

(** One panel for each family, in the order of their names, up to the three axes: the estimates for the rows of this
    family over the desired information, without a limit on the estimates. *)
Theorem C96_panels : forall rows, rows <> [] -> Forall (fun r => (exists v, sdict_get (mr_params r) "desired_mi" = Some v) /\ exists f, has_family f r) rows ->
  (forall r, In r rows -> In (r_estimator (mr_run r)) (map style_id mi_styles)) ->
  exists ps all, figure_high_mi rows = Ok ps /\ sorted_labels all /\ (forall f, In f all <-> exists r, In r rows /\ has_family f r) /\ map fst ps = firstn 3 all /\
    Forall (fun fp => exists own, keeping (has_family (fst fp)) rows own /\ shows_panel "desired_mi" own true (snd fp) /\ pn_x_label (snd fp) = "True MI [nats]"%string) ps.
Proof. exact high_mi_shown. Qed.
Print Assumptions C96_panels.

(** For the results of these tasks no family is left out, and the dotted line is the diagonal up to 1e-4. *)
Theorem C96_figure : forall F rows, rows <> [] -> Forall (fun r => exists c e, In c high_cases /\ high_sheet F c e /\ row_about r (sheet_mi e) (snd e)) rows ->
  (forall r, In r rows -> In (r_estimator (mr_run r)) (map style_id mi_styles)) ->
  exists ps, figure_high_mi rows = Ok ps /\ sorted_labels (map fst ps) /\ (forall f, In f (map fst ps) <-> exists r, In r rows /\ has_family f r) /\
    Forall (fun fp => exists own, In (fst fp) (map family_title high_families) /\ keeping (has_family (fst fp)) rows own /\ shows_panel "desired_mi" own true (snd fp) /\
      pn_x_label (snd fp) = "True MI [nats]"%string /\
      Forall (fun q => In (fst q) desired /\ exists m, snd q = Fin m /\ within m (fst q) (1 / 10000)) (pn_truth (snd fp))) ps.
Proof. exact high_mi_figure. Qed.
Print Assumptions C96_figure.
Example C96_figure_example : exists rows ps, Forall (fun r => exists c e, In c high_cases /\ high_sheet split_up c e /\ row_about r (sheet_mi e) (snd e)) rows /\
  (forall r, In r rows -> In (r_estimator (mr_run r)) (map style_id mi_styles)) /\ figure_high_mi rows = Ok ps /\ map fst ps = ["Half-cube"; "Spiral"]%string.
Proof. exact demo_high_mi_rows. Qed.

(** Results without rows, or of a task without a desired information, raise a KeyError. *)
Theorem C96_missing : forall rows, rows = [] \/ (exists r, In r rows /\ sdict_get (mr_params r) "desired_mi" = None) -> figure_high_mi rows = Err KeyError.
Proof. exact high_mi_missing. Qed.
Print Assumptions C96_missing.
Example C96_missing_example : sdict_get (mr_params {| mr_run := run_of "CCA" "a" 10 1 1; mr_params := [] |}) "desired_mi" = None.
Proof. exact eq_refl. Qed.

(** Examples for [how_good_integration_is.smk]. *)
From Coq Require Import String Ascii ZArith Lia Lra.
From Verif Require Import Base BaseLemmas UtilsModel JaxModel SamplersModel GaussianModel MatrixUtilsModel BmmModel MultivariateModel BenchmarkModel MixturesModel PaperModel RulesModel RulesSpec
  CriticsModel OutliersModel OutliersPlotModel BmmSpec BmmProofs TrainingExamples BmmExamples OutliersTasksSpec IntegrationModel IntegrationSpec IntegrationPaths IntegrationRuns IntegrationFigure IntegrationTables IntegrationTruth.
From mathcomp Require Import ssreflect.
From Verif Require Import MixturesSpec EigvalsExist MultivariateThms MultivariateExamples IntegrationSetups.
Open Scope R_scope.
Local Notation length := List.length.

Definition square_setups : sdict (joint_distribution demo * critic) :=
  [("Square", (demo_mixture, finite_pmi demo_mixture)); ("Square_Biased", (demo_mixture, biased (finite_pmi demo_mixture)))]%string.
Lemma square_plain : plain_name "Square" /\ plain_name "Square_Biased".
Proof. split; (split; [discriminate|split; intros K; cbn in K; repeat destruct K as [K|K]; try discriminate K; exact K]). Qed.
Lemma square_full : full_draws demo_mixture.
Proof. intros k n. cbn. unfold square_rows. now rewrite map_length seq_length. Qed.
Lemma square_made : exists w rows t samples, make_all square_setups ESTIMATORS N_POINTS IntegrationModel.SEEDS (integration_schedule "Square" bounds sizes twenty) [] = Ok w /\
  sdict_get w (table_path "Square") = Some (HTable rows) /\ sdict_get w (truth_path "Square") = Some (HTruth t samples).
Proof. apply (completes square_setups "Square"%string demo_mixture (finite_pmi demo_mixture)); [apply square_plain|reflexivity]. Qed.
Lemma biased_made : exists w rows t samples, make_all square_setups ESTIMATORS N_POINTS IntegrationModel.SEEDS (integration_schedule "Square_Biased" bounds sizes twenty) [] = Ok w /\
  sdict_get w (table_path "Square_Biased") = Some (HTable rows) /\ sdict_get w (truth_path "Square_Biased") = Some (HTruth t samples).
Proof. apply (completes square_setups "Square_Biased"%string demo_mixture (biased (finite_pmi demo_mixture))); [apply square_plain|reflexivity]. Qed.
Lemma square_values : exists l, forall seed, pmi_values demo_mixture seed l.
Proof.
  unfold pmi_values, points. cbn -[Z.to_nat point_pmi square_rows]. generalize (Z.to_nat 100000). intros n. unfold square_rows. generalize 0%nat.
  induction n as [|n IH]; intros k; [exists []; intros _; constructor|]. destruct (IH (S k)) as [l L]. cbn [seq map].
  assert (V : exists v, point_pmi demo_mixture (firstn 1 (square_row k)) (skipn 1 (square_row k)) = Fin v).
  { unfold square_row. destruct (Nat.even k); cbn [firstn skipn]; rewrite demo_mixture_pmi; try lra; eauto. }
  destruct V as [v V]. exists (v :: l). intros seed. constructor; [exact V|exact (L seed)].
Qed.
Lemma square_truth : exists ls, Forall2 (pmi_values demo_mixture) [0; 1; 2; 3; 4; 5; 6; 7; 8; 9]%Z ls.
Proof. destruct square_values as [l L]. exists (repeat l 10). cbn. repeat (apply Forall2_cons; [apply L|]). apply Forall2_nil. Qed.

Lemma setups_satisfiable : exists eigvals cholesky, eigvals_symmetric eigvals /\ factorises cholesky.
Proof. destruct eigvals_exists as [e He]. destruct cholesky_exists as [c Hc]. eauto. Qed.

Definition small_table : list estimate_doc :=
  [{| ed_estimator := "NWJ"; ed_setup := "S"; ed_estimate := Fin 1; ed_points := 16 |}; {| ed_estimator := "NWJ"; ed_setup := "S"; ed_estimate := Fin 2; ed_points := 8 |};
   {| ed_estimator := "NWJ"; ed_setup := "S"; ed_estimate := Fin 3; ed_points := 8 |}]%string.
Lemma small_known : small_table <> [] /\ forall r, In r small_table -> In (ed_estimator r) (map fst integration_styles).
Proof. split; [discriminate|]. cbn. intros r [<-|[<-|[<-|[]]]]; cbn; auto. Qed.
Lemma strange_table : exists r, In r [{| ed_estimator := "KSG"; ed_setup := "S"; ed_estimate := Fin 1; ed_points := 16 |}]%string /\ ~ In (ed_estimator r) (map fst integration_styles).
Proof. eexists. split; [now left|]. cbn. intros H. repeat destruct H as [H|H]; try discriminate H; exact H. Qed.

(** The whole workflow with the setups of the file. *)
Section Whole.
  Context {J : prng}.
  Variable T : tfp_draws J.
  Variable eigvals : matrix -> list (R * R).
  Variable cholesky : matrix -> option matrix.
  Variable normal_draw : list R -> option matrix -> key J -> nat -> matrix.
  Hypothesis eig : eigvals_symmetric eigvals.
  Hypothesis cho : factorises cholesky.
  Theorem whole_figure : exists l w ps, declared T eigvals cholesky normal_draw = Ok l /\
    make_all (completed l) ESTIMATORS N_POINTS IntegrationModel.SEEDS (flat_map (fun S => integration_schedule S bounds sizes twenty) (map (fun t => snd (fst t)) panels)) [] = Ok w /\
    plot_performance_all w = Ok ps /\ Forall2 (panel_shows w) panels ps.
  Proof.
    destruct (setups_made T normal_draw eig cho) as (balls & n & l & f0 & f1 & f2 & f3 & D & C & _).
    destruct (figure_made (completed l)) as (w & ps & A & B & F); [|exists l, w, ps; auto].
    rewrite C. intros S I. cbn in I. destruct I as [<-|[<-|[<-|[<-|[]]]]]; eexists; reflexivity.
  Qed.
End Whole.

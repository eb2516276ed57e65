(** The tasks of the configurations can be built ([ConfigModel]). *)
From Coq Require Import String Permutation.
From Verif Require Import Base UtilsModel JaxModel SamplersModel GaussianModel MatrixUtilsModel TransformsModel
  BaseLemmas TrainingSpec SamplersSpec TransformsSpec BmmModel MultivariateModel BenchmarkModel BenchmarkSpec BenchmarkProofs BenchmarkThms
  TasksModel TasksSpec TasksProofs TasksThms GaussianSpec TasksGaussian TasksBuild MixturesModel FiguresScale ConfigModel ConfigSpec ConfigThms
  MixturesSpec ConfigMixtures.
Open Scope Z_scope.
Local Notation length := List.length.

Lemma gives_eq {J} (p : prog (task J)) h e e' b : gives p h e b -> e = e' -> gives p h e' b.
Proof. intros H <-. exact H. Qed.
Lemma catalogue_of {J} h (es : list (entry * bool)) (l : list (task J)) :
  Forall2 (fun es t => listed h (fst es) t /\ (snd es = true -> usable t h)) es l ->
  Forall2 (listed h) (map fst es) l /\
  (forall t, In t l -> ~ In (t_id t) (map (fun e => entry_id (fst e)) (filter (fun e => negb (snd e)) es)) -> usable t h).
Proof.
  induction 1 as [|[e b] t es l [L U] F [IH1 IH2]]; [split; [constructor|contradiction]|].
  cbn [map fst snd] in *. split; [constructor; auto|]. intros u [<-|I] N.
  - destruct b; [auto|]. cbn in N. destruct L as [L _]. exfalso. apply N. left. now symmetry.
  - apply IH2; [exact I|]. intros K. apply N. cbn. destruct b; cbn; auto.
Qed.

(** The hypotheses under which the tasks with closed formulas can be built. *)
Section Build.
  Context {J : prng}.
  Variables (F : formats) (percent : R -> string) (D : draws J) (erf : R -> R) (expm : expm_function)
    (eigvals : matrix -> list (R * R)) (mvn : key J -> list R -> matrix -> nat -> matrix) (psi log_gamma : R -> R)
    (mvt : Z -> list R -> matrix -> fl -> nat -> matrix) (T : tfp_draws J) (cholesky : matrix -> option matrix)
    (normal_draw : list R -> option matrix -> key J -> nat -> matrix).
  Hypotheses (HF : more_floats F) (HJ : prng_ok J) (HD : draws_ok J D) (He : eigvals_positive eigvals).
  Hypothesis Hs : forall d df, In (d, df) [(1, 1); (2, 1); (2, 2); (3, 2); (3, 3); (5, 2); (5, 3)] ->
    (0 <= student_correction psi log_gamma (IZR df) (Z.to_nat d) (Z.to_nat d))%R.

  Let PF : python_floats F := proj1 HF.
  Local Notation cdf := (normal_cdfise erf).
  Local Notation pair2 := (two_pair F eigvals mvn).
  Local Notation dense_ := (dense F eigvals mvn).
  Local Notation ident := (identity_student eigvals psi log_gamma mvt).
  Local Notation spi := (spiralise expm).
  Local Notation binormal := (task_bivariate_normal F eigvals mvn (75 / 100)).
  Local Notation additive := (task_additive_noise F D (75 / 100)).

  Lemma binormal_gives h : gives (J := J) binormal h ("1v1-normal-0.75", "Bivariate normal 1 × 1", 1, 1)%string true.
  Proof. apply makes_gives; [apply binormal_makes; [exact erf|exact He|lra]|exact (id_binormal F eigvals mvn PF)|apply name_binormal]. Qed.
  Lemma additive_gives h : gives (J := J) additive h ("1v1-additive-0.75", "Uniform 1 × 1 (additive noise=0.75)", 1, 1)%string true.
  Proof.
    apply makes_gives; [apply additive_makes; [exact erf|exact HJ|exact HD|lra]|exact (id_add_2 F D PF)|].
    intros h1 h2 t E. rewrite (name_additive _ _ _ _ _ _ E). destruct PF as (-> & _). reflexivity.
  Qed.
  Lemma bimodal_gives h : gives (J := J) (task_bimodal_gaussians F erf eigvals mvn (75 / 100)) h ("1v1-bimodal-0.75", "Bimodal 1 × 1", 1, 1)%string true.
  Proof. apply makes_gives; [apply bimodal_makes; [exact He|lra]|exact (id_bimodal F erf eigvals mvn PF)|apply name_bimodal]. Qed.
  Lemma dense_gives d h : 1 <= d -> gives (J := J) (dense_ d) h
    ("multinormal-dense-" ++ int_str d ++ "-" ++ int_str d ++ "-0.5", "Multinormal " ++ dims_str d d ++ " (dense)", d, d)%string true.
  Proof. intros L. apply makes_gives; [eapply dense_makes; [exact mvt|exact He|exact Hs|exact L]|exact (id_dense F eigvals mvn PF d)|apply name_dense]. Qed.
  Lemma pair_gives d h : 2 <= d -> gives (J := J) (pair2 d) h
    ("multinormal-sparse-" ++ int_str d ++ "-" ++ int_str d ++ "-2-2.0", "Multinormal " ++ dims_str d d ++ " (2-pair)", d, d)%string true.
  Proof. intros L. apply makes_gives; [eapply pair_makes; [exact mvt|exact He|exact Hs|exact L]|exact (id_pair F eigvals mvn PF d)|apply name_pair]. Qed.
  Lemma identity_gives d df h : In (d, df) [(1, 1); (2, 1); (2, 2); (3, 2); (3, 3); (5, 2); (5, 3)] -> gives (J := J) (ident d df) h
    ("student-identity-" ++ int_str d ++ "-" ++ int_str d ++ "-" ++ int_str df, "Student-t " ++ dims_str d d ++ " (dof=" ++ int_str df ++ ")", d, d)%string true.
  Proof. intros L. apply makes_gives; [apply identity_makes; [exact He|exact Hs|exact L]|exact (id_identity eigvals psi log_gamma mvt d df)|apply name_identity]. Qed.
  Lemma asinh_student_gives d df h : In (d, df) [(1, 1); (2, 1); (2, 2); (3, 2); (3, 3); (5, 2); (5, 3)] ->
    gives (J := J) (asinh_student eigvals psi log_gamma mvt d df) h
    ("asinh-student-identity-" ++ int_str d ++ "-" ++ int_str d ++ "-" ++ int_str df,
     "Asinh @ Student-t " ++ dims_str d d ++ " (dof=" ++ int_str df ++ ")", d, d)%string true.
  Proof.
    intros L. apply makes_gives.
    - eapply makes_bind; [apply identity_makes; [exact He|exact Hs|exact L]|intros; apply asinh_makes; eassumption].
    - exact (id_then _ _ _ "asinh-" (id_identity eigvals psi log_gamma mvt d df) id_asinh).
    - exact (has_name_then _ _ _ "Asinh @ " (name_identity eigvals psi log_gamma mvt d df) name_asinh).
  Qed.

  (** Transforms of a task of an entry. *)
  Section Of.
    Variables (b : task J) (h0 : dheap) (i n : string) (dx dy : Z).
    Hypotheses (L : listed h0 (i, n, dx, dy) b) (U : usable b h0).
    Let Dx : dim_x (t_sampler b) = Ok dx := proj1 (proj2 (proj2 L)).
    Let Dy : dim_y (t_sampler b) = Ok dy := proj1 (proj2 (proj2 (proj2 L))).
    Let I : t_id b = i := proj1 L.
    Let N : t_name b = n := proj1 (proj2 L).
    Ltac go A B C := intros X; apply makes_gives; [apply A; [eapply usable_ext; eauto|exact Dx|exact Dy|..]
      |intros ? ? ? E; rewrite (B _ _ _ E); try rewrite I; reflexivity|intros ? ? ? E; rewrite (C _ _ _ E); try rewrite N; reflexivity].
    Lemma same_gives h : ext h0 h -> gives (pret b) h (i, n, dx, dy) true.
    Proof. go (@pret_makes J) (id_pret b) (name_pret b). Qed.
    Lemma cdf_gives h : ext h0 h -> gives (cdf b) h ("normal_cdf-" ++ i, "Normal CDF @ " ++ n, dx, dy)%string true.
    Proof. go (@cdf_makes J) (id_cdf erf b) (name_cdf erf b). Qed.
    Lemma half_gives h : ext h0 h -> gives (half_cubed b) h ("half_cube-" ++ i, "Half-cube @ " ++ n, dx, dy)%string true.
    Proof. go (@half_makes J) (id_half b) (name_half b). Qed.
    Lemma wiggly_gives h : ext h0 h -> gives (wigglify b) h ("wiggly-" ++ i, "Wiggly @ " ++ n, dx, dy)%string true.
    Proof. go (@wiggly_makes J) (id_wiggly b) (name_wiggly b). Qed.
    Lemma spiral_gives h : 2 <= dx -> 3 <= dy -> ext h0 h -> gives (spi b) h ("spiral-" ++ i, "Spiral @ " ++ n, dx, dy)%string true.
    Proof. intros Lx Ly. go (@spiral_makes J) (id_spiral expm b) (name_spiral expm b); assumption. Qed.
    Lemma spiral_cdf_gives h : 2 <= dx -> 3 <= dy -> ext h0 h ->
      gives (run t <- cdf b; spi t) h ("spiral-normal_cdf-" ++ i, "Spiral @ Normal CDF @ " ++ n, dx, dy)%string true.
    Proof.
      intros Lx Ly X. apply makes_gives.
      - eapply makes_bind; [apply cdf_makes; [eapply usable_ext; eauto|exact Dx|exact Dy]|intros; apply spiral_makes; eassumption].
      - intros ? ? ? E. rewrite (id_then _ _ _ "spiral-" (id_cdf erf b) (id_spiral expm) _ _ _ E), I. reflexivity.
      - intros ? ? ? E. rewrite (has_name_then _ _ _ "Spiral @ " (name_cdf erf b) (name_spiral expm) _ _ _ E), N. reflexivity.
    Qed.
    Lemma swissroll_gives h nm : dx = 1 -> ext h0 h ->
      gives (transform_swissroll_task b nm) h ("swissroll_x-" ++ i, nm, 2, dy)%string true.
    Proof.
      intros E1 X. apply makes_gives; [eapply swissroll_makes; [eapply usable_ext; eauto|exact Dx|exact Dy|exact E1]| |apply name_swissroll].
      intros ? ? ? E. rewrite (swissroll_id _ _ _ _ _ E), I. reflexivity.
    Qed.
  End Of.

  Ltac member := repeat (first [left; reflexivity|right]).
  Ltac entry_by t := eapply gives_eq; [t|reflexivity].
  Ltac closed := lazymatch goal with
    | |- gives (pret _) _ _ _ => entry_by ltac:(eapply same_gives; eassumption)
    | |- gives (task_additive_noise _ _ _) _ _ _ => entry_by ltac:(eapply additive_gives)
    | |- gives (task_bimodal_gaussians _ _ _ _ _) _ _ _ => entry_by ltac:(eapply bimodal_gives)
    | |- gives (dense _ _ _ _) _ _ _ => entry_by ltac:(eapply dense_gives; lia)
    | |- gives (two_pair _ _ _ _) _ _ _ => entry_by ltac:(eapply pair_gives; lia)
    | |- gives (identity_student _ _ _ _ _ _) _ _ _ => entry_by ltac:(eapply identity_gives; member)
    | |- gives (asinh_student _ _ _ _ _ _) _ _ _ => entry_by ltac:(eapply asinh_student_gives; member)
    | |- gives (transform_swissroll_task _ _) _ _ _ => entry_by ltac:(eapply swissroll_gives; [eassumption|eassumption|reflexivity|eassumption])
    | |- gives (normal_cdfise _ _) _ _ _ => entry_by ltac:(eapply cdf_gives; eassumption)
    | |- gives (half_cubed _) _ _ _ => entry_by ltac:(eapply half_gives; eassumption)
    | |- gives (wigglify _) _ _ _ => entry_by ltac:(eapply wiggly_gives; eassumption)
    | |- gives (spiralise _ _) _ _ _ => entry_by ltac:(eapply spiral_gives; [eassumption|eassumption|lia|lia|eassumption])
    | |- gives (pbind _ _) _ _ _ => entry_by ltac:(eapply spiral_cdf_gives; [eassumption|eassumption|lia|lia|eassumption])
    end.

  Definition sure (es : list entry) : list (entry * bool) := map (fun e => (e, true)) es.
  Lemma sure_fst es : map fst (sure es) = es.
  Proof. unfold sure. rewrite map_map. apply map_id. Qed.
  Lemma sure_none es : filter (fun e : entry * bool => negb (snd e)) (sure es) = [].
  Proof. induction es; cbn; auto. Qed.

  (** The result of building a list. *)
  Definition built (p : prog (list (task J))) (h : dheap) (es : list entry) (unsure : list string) : Prop :=
    exists h' l, p h = (h', Ok l) /\ ext h h' /\ Forall2 (listed h') es l /\ forall t, In t l -> ~ In (t_id t) unsure -> usable t h'.

  Lemma built_intro p h h0 h' l (es : list (entry * bool)) : p h = (h', Ok l) -> ext h h0 -> ext h0 h' ->
    Forall2 (fun es t => listed h' (fst es) t /\ (snd es = true -> usable t h')) es l ->
    built p h (map fst es) (map (fun e => entry_id (fst e)) (filter (fun e => negb (snd e)) es)).
  Proof.
    intros E X X' G. destruct (catalogue_of _ _ _ G) as [A B]. exists h', l. split; [exact E|]. split; [eapply ext_trans; eauto|]. auto.
  Qed.

  Lemma demo_built h : built (demo_unscaled F erf eigvals mvn) h demo_catalogue [].
  Proof.
    destruct (binormal_gives h) as (h1 & b & Eb & Xb & Lb & Ub). specialize (Ub eq_refl).
    destruct (cdf_gives b h1 _ _ _ _ Lb Ub h1 (ext_refl h1)) as (h2 & u & Eu & Xu & Lu & Uu). specialize (Uu eq_refl).
    edestruct (sequence_gives [transform_swissroll_task u "Swiss roll 2 × 1"; dense_ 3] (sure demo_catalogue) h2 h2 (ext_refl h2)) as (h3 & l & E & X & G).
    { repeat apply Forall2_cons; try apply Forall2_nil; intros h' X; cbn [fst snd]; closed. }
    rewrite <- (sure_fst demo_catalogue). change (@nil string) with (map (fun e : entry * bool => entry_id (fst e)) []). rewrite <- (sure_none demo_catalogue).
    apply (built_intro _ h h2 h3 l); [|eapply ext_trans; eauto|exact X|exact G].
    unfold demo_unscaled. unfold pbind at 1. rewrite Eb. unfold pbind at 1. rewrite Eu. exact E.
  Qed.

  Lemma v1_built h : built (v1_unscaled F D erf expm eigvals mvn psi log_gamma mvt) h v1_catalogue [].
  Proof.
    destruct (binormal_gives h) as (h1 & b & Eb & Xb & Lb & Ub). specialize (Ub eq_refl).
    destruct (pair_gives 3 h1 ltac:(lia)) as (h2 & b3 & E3 & X3 & L3 & U3). specialize (U3 eq_refl).
    destruct (pair_gives 5 h2 ltac:(lia)) as (h3 & b5 & E5 & X5 & L5 & U5). specialize (U5 eq_refl).
    destruct (pair_gives 25 h3 ltac:(lia)) as (h4 & b25 & E25 & X25 & L25 & U25). specialize (U25 eq_refl).
    assert (X14 : ext h1 h4) by (repeat (eapply ext_trans; [eassumption|]); apply ext_refl).
    destruct (cdf_gives b h1 _ _ _ _ Lb Ub h4 X14) as (h5 & u & Eu & Xu & Lu & Uu). specialize (Uu eq_refl).
    assert (X45 : ext h3 h5) by (eapply ext_trans; eauto). assert (X35 : ext h2 h5) by (eapply ext_trans; eauto). assert (X15 : ext h1 h5) by (eapply ext_trans; eauto).
    apply (listed_ext _ _ _ _ X15) in Lb. apply (usable_ext _ _ _ X15) in Ub.
    apply (listed_ext _ _ _ _ X35) in L3. apply (usable_ext _ _ _ X35) in U3.
    apply (listed_ext _ _ _ _ X45) in L5. apply (usable_ext _ _ _ X45) in U5.
    apply (listed_ext _ _ _ _ Xu) in L25. apply (usable_ext _ _ _ Xu) in U25.
    edestruct (sequence_gives [pret b; pret u; additive; task_bimodal_gaussians F erf eigvals mvn (75 / 100); wigglify b; half_cubed b;
              ident 1 1; asinh_student eigvals psi log_gamma mvt 1 1; transform_swissroll_task u "Swiss roll 2 × 1";
              dense_ 2; dense_ 3; dense_ 5; dense_ 25; dense_ 50; pair2 2; pair2 3; pair2 5; pair2 25;
              ident 2 1; ident 2 2; ident 3 2; ident 3 3; ident 5 2; ident 5 3;
              cdf b3; cdf b5; cdf b25; half_cubed b3; half_cubed b5; half_cubed b25; spi b3; spi b5; spi b25;
              (run t <- cdf b3; spi t); (run t <- cdf b5; spi t); (run t <- cdf b25; spi t);
              asinh_student eigvals psi log_gamma mvt 2 1; asinh_student eigvals psi log_gamma mvt 3 2; asinh_student eigvals psi log_gamma mvt 5 2]
        (sure v1_catalogue) h5 h5 (ext_refl h5)) as (h6 & l & E & X & G).
    { repeat apply Forall2_cons; try apply Forall2_nil; intros h' X; cbn [fst snd]; closed. }
    rewrite <- (sure_fst v1_catalogue). change (@nil string) with (map (fun e : entry * bool => entry_id (fst e)) []). rewrite <- (sure_none v1_catalogue).
    apply (built_intro _ h h5 h6 l); [|eapply ext_trans; eauto|exact X|exact G].
    unfold v1_unscaled. unfold pbind at 1. rewrite Eb. unfold pbind at 1. rewrite E3. unfold pbind at 1. rewrite E5. unfold pbind at 1. rewrite E25.
    unfold pbind at 1. rewrite Eu. exact E.
  Qed.

  Section Estimated.
  Hypotheses (HP : percents percent) (Hsym : eigvals_symmetric eigvals) (Hc : factorises cholesky) (Hx : is_expm expm).

  Lemma concentric_gives_z d n h : 1 <= d -> 0 < n -> gives (concentric eigvals T cholesky normal_draw d n) h
    (int_str d ++ "v1-concentric_gaussians-" ++ int_str n, "Concentric " ++ int_str d ++ " × 1", d, 1)%string false.
  Proof.
    intros Ld Ln. rewrite <- (Z2Nat.id d) by lia. apply concentric_gives; [exact Hsym|exact Hc| |exact Ln].
    destruct (Z.to_nat d) eqn:E; [lia|reflexivity].
  Qed.
  Lemma inliers_gives_z d f h : 2 <= d -> (0 <= f <= 1)%R -> gives (inliers F percent eigvals T cholesky normal_draw d f) h
    ("mult-sparse-w-inliers-" ++ int_str d ++ "-" ++ int_str d ++ "-2-2.0-" ++ float_repr F f,
     "Multinormal " ++ int_str d ++ " × " ++ int_str d ++ " (sparse, " ++ percent f ++ " inliers)", d, d)%string false.
  Proof.
    intros Ld Lf. rewrite <- (Z2Nat.id d) by lia. apply inliers_gives; [exact HF|exact Hsym|exact Hc| |lra|lra].
    destruct (Z.to_nat d) as [|[|m]] eqn:E; [lia|lia|reflexivity].
  Qed.
  Lemma inliers_20 d h : 2 <= d -> gives (inliers F percent eigvals T cholesky normal_draw d (2 / 10)) h
    ("mult-sparse-w-inliers-" ++ int_str d ++ "-" ++ int_str d ++ "-2-2.0-0.2",
     "Multinormal " ++ int_str d ++ " × " ++ int_str d ++ " (sparse, 20% inliers)", d, d)%string false.
  Proof.
    intros Ld. eapply gives_eq; [apply inliers_gives_z; [exact Ld|lra]|]. rewrite (proj1 HP), (proj1 (proj2 (proj2 HF))). reflexivity.
  Qed.
  Lemma inliers_50 d h : 2 <= d -> gives (inliers F percent eigvals T cholesky normal_draw d (5 / 10)) h
    ("mult-sparse-w-inliers-" ++ int_str d ++ "-" ++ int_str d ++ "-2-2.0-0.5",
     "Multinormal " ++ int_str d ++ " × " ++ int_str d ++ " (sparse, 50% inliers)", d, d)%string false.
  Proof.
    intros Ld. eapply gives_eq; [apply inliers_gives_z; [exact Ld|lra]|]. rewrite (proj2 HP).
    replace (float_repr F (5 / 10)) with "0.5"%string; [reflexivity|]. destruct PF as (_ & _ & E & _). symmetry. exact E.
  Qed.

  Ltac drawn := lazymatch goal with
    | |- gives (default_x _ _ _ _ _) _ _ _ => apply x_gives; assumption
    | |- gives (default_ai _ _ _ _) _ _ _ => apply ai_gives; assumption
    | |- gives (default_galaxy _ _ _ _ _ _) _ _ _ => apply galaxy_gives; assumption
    | |- gives (default_waves _ _ _ _ _) _ _ _ => apply waves_gives; assumption
    | |- gives (concentric _ _ _ _ _ _) _ _ _ => entry_by ltac:(apply concentric_gives_z; lia)
    | |- gives (inliers _ _ _ _ _ _ _ (2 / 10)%R) _ _ _ => entry_by ltac:(apply inliers_20; lia)
    | |- gives (inliers _ _ _ _ _ _ _ (5 / 10)%R) _ _ _ => entry_by ltac:(apply inliers_50; lia)
    | |- _ => closed
    end.

  (** Entries with the tasks of [estimated] marked. *)
  Definition marked (es : list entry) : list (entry * bool) := map (fun e => (e, negb (existsb (String.eqb (entry_id e)) estimated))) es.
  Lemma marked_fst es : map fst (marked es) = es.
  Proof. unfold marked. rewrite map_map. apply map_id. Qed.
  Lemma marked_unsure es i : In i (map (fun e => entry_id (fst e)) (filter (fun e => negb (snd e)) (marked es))) -> In i estimated.
  Proof.
    rewrite in_map_iff. intros ([e b] & <- & K). apply filter_In in K. destruct K as [K N]. unfold marked in K. apply in_map_iff in K.
    destruct K as (e' & K & _). pose proof (f_equal fst K) as K1. pose proof (f_equal snd K) as K2. cbn [fst snd] in K1, K2. subst e' b. cbn [snd] in N. rewrite negb_involutive in N. apply existsb_exists in N.
    destruct N as (x & M & Q). apply String.eqb_eq in Q. cbn [fst]. rewrite Q. exact M.
  Qed.
  Lemma built_weaken p h es u u' : (forall i, In i u -> In i u') -> built p h es u -> built p h es u'.
  Proof. intros S (h' & l & E & X & G & U). exists h', l. repeat (split; [assumption|]). intros t I N. apply U; auto. Qed.

  Lemma v2_built h : built (v2_unscaled F percent D erf expm eigvals mvn psi log_gamma mvt T cholesky normal_draw) h v2_catalogue estimated.
  Proof.
    destruct (binormal_gives h) as (h1 & b & Eb & Xb & Lb & Ub). specialize (Ub eq_refl).
    destruct (cdf_gives b h1 _ _ _ _ Lb Ub h1 (ext_refl h1)) as (h2 & u & Eu & Xu & Lu & Uu). specialize (Uu eq_refl).
    destruct (pair_gives 3 h2 ltac:(lia)) as (h3 & b3 & E3 & X3 & L3 & U3). specialize (U3 eq_refl).
    destruct (pair_gives 5 h3 ltac:(lia)) as (h4 & b5 & E5 & X5 & L5 & U5). specialize (U5 eq_refl).
    assert (X24 : ext h2 h4) by (eapply ext_trans; eauto).
    apply (listed_ext _ _ _ _ X24) in Lu. apply (usable_ext _ _ _ X24) in Uu.
    apply (listed_ext _ _ _ _ X5) in L3. apply (usable_ext _ _ _ X5) in U3.
    edestruct (sequence_gives [additive; asinh_student eigvals psi log_gamma mvt 1 1; default_x F eigvals T cholesky normal_draw;
              default_ai eigvals T cholesky normal_draw; transform_swissroll_task u "Swiss roll 2 × 1";
              default_waves F eigvals T cholesky normal_draw; default_galaxy F expm eigvals T cholesky normal_draw;
              concentric eigvals T cholesky normal_draw 3 5; concentric eigvals T cholesky normal_draw 5 5; concentric eigvals T cholesky normal_draw 3 10;
              concentric eigvals T cholesky normal_draw 5 10; concentric eigvals T cholesky normal_draw 25 5;
              dense_ 5; dense_ 25; dense_ 50; pair2 5; pair2 25;
              inliers F percent eigvals T cholesky normal_draw 5 (2 / 10); inliers F percent eigvals T cholesky normal_draw 25 (2 / 10);
              inliers F percent eigvals T cholesky normal_draw 5 (5 / 10); inliers F percent eigvals T cholesky normal_draw 25 (5 / 10);
              asinh_student eigvals psi log_gamma mvt 2 1; asinh_student eigvals psi log_gamma mvt 3 2; asinh_student eigvals psi log_gamma mvt 5 2;
              spi b3; spi b5]
        (marked v2_catalogue) h4 h4 (ext_refl h4)) as (h6 & l & E & X & G).
    { repeat apply Forall2_cons; try apply Forall2_nil; intros h' X;
        match goal with |- gives _ _ ?e ?s => let s' := eval vm_compute in s in change s with s'; let e' := eval cbn [fst] in e in change e with e' end; drawn. }
    apply (built_weaken _ _ _ _ _ (marked_unsure v2_catalogue)). rewrite <- (marked_fst v2_catalogue) at 1.
    apply (built_intro _ h h4 h6 l); [|eapply ext_trans; [exact Xb|]; eapply ext_trans; eauto|exact X|exact G].
    unfold v2_unscaled. unfold pbind at 1. rewrite Eb. unfold pbind at 1. rewrite Eu. unfold pbind at 1. rewrite E3. unfold pbind at 1. rewrite E5. exact E.
  Qed.

  Lemma gmm_built h : built (gmm_tasks F percent D expm eigvals mvn psi log_gamma mvt T cholesky normal_draw) h gmm_catalogue estimated.
  Proof.
    edestruct (sequence_gives [additive; default_x F eigvals T cholesky normal_draw; default_ai eigvals T cholesky normal_draw;
              default_galaxy F expm eigvals T cholesky normal_draw;
              concentric eigvals T cholesky normal_draw 3 5; concentric eigvals T cholesky normal_draw 5 5; concentric eigvals T cholesky normal_draw 3 10;
              concentric eigvals T cholesky normal_draw 5 10;
              inliers F percent eigvals T cholesky normal_draw 5 (2 / 10); inliers F percent eigvals T cholesky normal_draw 5 (5 / 10);
              dense_ 5; pair2 5;
              asinh_student eigvals psi log_gamma mvt 1 1; asinh_student eigvals psi log_gamma mvt 2 1; asinh_student eigvals psi log_gamma mvt 3 2;
              asinh_student eigvals psi log_gamma mvt 5 2]
        (marked gmm_catalogue) h h (ext_refl h)) as (h6 & l & E & X & G).
    { repeat apply Forall2_cons; try apply Forall2_nil; intros h' X;
        match goal with |- gives _ _ ?e ?s => let s' := eval vm_compute in s in change s with s'; let e' := eval cbn [fst] in e in change e with e' end; drawn. }
    apply (built_weaken _ _ _ _ _ (marked_unsure gmm_catalogue)). rewrite <- (marked_fst gmm_catalogue) at 1.
    apply (built_intro _ h h h6 l); [exact E|apply ext_refl|exact X|exact G].
  Qed.
  End Estimated.
End Build.

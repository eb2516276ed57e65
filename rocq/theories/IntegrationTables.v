(** The tables of [how_good_integration_is.smk]: what they hold, and that they are made. *)
From Coq Require Import String Ascii Lia Lra.
From Verif Require Import Base BaseLemmas UtilsModel JaxModel SamplersModel BmmModel BmmSpec BmmProofs BenchmarkModel BenchmarkProofs BenchmarkThms RulesModel RulesSpec RulesProofs RulesThms
  ObjectivesModel ObjectivesSpec ObjectivesProofs CriticsModel CriticsThms OutliersModel OutliersPlotThms IntegrationModel IntegrationSpec IntegrationPaths IntegrationRuns IntegrationFigure.
Open Scope R_scope.
Local Notation length := List.length.

Lemma sample_sizes {J} (d : joint_distribution J) n k xs ys : full_draws d -> jd_sample d n k = Ok (xs, ys) -> (1 <= n)%Z /\ length xs = Z.to_nat n /\ length ys = Z.to_nat n.
Proof.
  intros D. unfold jd_sample. destruct (Z.ltb_spec n 1); [discriminate|]. intros [= <- <-]. rewrite !map_length, !D. auto.
Qed.
Lemma sample_same {J} (d : joint_distribution J) n k xs ys : jd_sample d n k = Ok (xs, ys) -> length xs = length ys.
Proof. unfold jd_sample. destruct (n <? 1)%Z; [discriminate|]. intros [= <- <-]. now rewrite !map_length. Qed.

(** The estimators say what they should. *)
Lemma estimator_says e est f xs ys v : sdict_get ESTIMATORS e = Some est -> (2 <= length xs)%nat -> length xs = length ys -> est f xs ys = Ok v ->
  exists r, bound_value e f xs ys = Some r /\ v = Fin r.
Proof.
  intros G L E. unfold ESTIMATORS in G. cbn [sdict_get fst snd] in G. unfold bound_value.
  destruct (backends_textbook f xs ys L E) as (A & B & _).
  destruct (String.eqb_spec e "NWJ").
  { injection G as <-. intros [= <-]. rewrite nwj_shifted_value by assumption. eauto. }
  destruct (String.eqb_spec e "InfoNCE").
  { injection G as <-. intros [= <-]. rewrite A. eauto. }
  destruct (String.eqb_spec e "DV").
  { injection G as <-. intros [= <-]. rewrite B. eauto. }
  destruct (String.eqb_spec e "MC"); [|discriminate].
  injection G as <-. rewrite mc_value; [|intros ->; cbn in L; lia|exact E]. intros [= <-]. eauto.
Qed.
Lemma estimators_accept e est f xs ys : In (e, est) ESTIMATORS -> length xs = length ys -> exists v, est f xs ys = Ok v.
Proof.
  unfold ESTIMATORS. cbn [In]. intros I E. repeat destruct I as [I|I]; try (injection I as <- <-; eauto).
  - unfold monte_carlo. rewrite E, Nat.eqb_refl. cbn. eauto.
  - destruct I.
Qed.
Lemma bounds_plain : Forall plain_name bounds.
Proof.
  unfold bounds. repeat (apply Forall_cons; [split; [discriminate|split; intros H; cbn in H; repeat destruct H as [H|H]; try discriminate H; exact H]|]). apply Forall_nil.
Qed.
Lemma points_sizes : N_POINTS = sizes.
Proof. reflexivity. Qed.
Lemma sizes_large : Forall (Z.le 8) sizes.
Proof. unfold sizes. cbn. repeat (apply Forall_cons; [lia|]). apply Forall_nil. Qed.
Lemma twenty_positive : Forall (Z.le 0) twenty.
Proof. unfold twenty. repeat (apply Forall_cons; [lia|]). apply Forall_nil. Qed.

Section Tables.
  Context {J : prng}.
  Variable setups : sdict (joint_distribution J * critic).
  Let mk_all := make_all setups ESTIMATORS N_POINTS SEEDS.

  Theorem table_holds sched w S d f file : plain_name S -> sdict_get setups S = Some (d, f) -> full_draws d ->
    mk_all sched [] = Ok w -> sdict_get w (table_path S) = Some file ->
    exists rows, file = HTable rows /\ Forall2 (row_of_run S d f) (runs bounds sizes twenty) rows.
  Proof.
    intros HS G D E F.
    destruct (table_true setups ESTIMATORS N_POINTS SEEDS sched w S file HS bounds_plain
      (Forall_impl _ (fun a (H : (8 <= a)%Z) => Z.le_trans 0 8 a ltac:(lia) H) sizes_large) twenty_positive E F) as (rows & -> & H).
    exists rows. split; [reflexivity|]. change (map fst ESTIMATORS) with bounds in H. change N_POINTS with sizes in H. change SEEDS with twenty in H.
    assert (I : forall q, In q (runs bounds sizes twenty) -> In (fst (fst q)) sizes).
    { intros [[n s] e] I. now apply in_runs in I. }
    clear F E. revert I. induction H as [|q row l rows R _ IH]; intros I; [constructor|]. constructor; [|apply IH; intros x Hx; apply I; now right].
    destruct R as [R1 R2 R3 (d' & f' & est & xs & ys & A & B & C & V)]. rewrite G in A. injection A as <- <-. split; try assumption.
    exists xs, ys. destruct (sample_sizes _ _ _ _ _ D C) as (L0 & L1 & L2).
    assert (Hn : (8 <= fst (fst q))%Z).
    { pose proof sizes_large as Z. rewrite Forall_forall in Z. apply Z. apply I. now left. }
    assert (L3 : (2 <= length xs)%nat) by lia. assert (L4 : length xs = length ys) by congruence.
    destruct (estimator_says _ _ _ _ _ _ B L3 L4 V) as (r & Hr & ->). exists r. auto.
  Qed.

  (** ** Everything can be made *)
  Definition kind (f : hfile) : rule := match f with HSample _ _ => Sample | HEstimate _ => Apply | HTable _ => Assemble | HSeed _ => Seed | HTruth _ _ => Truth end.
  Lemma run_kind r w wc f : run_rule setups ESTIMATORS N_POINTS SEEDS r w wc = Ok f -> kind f = r.
  Proof.
    destruct r; unfold run_rule, sample_distribution, apply_estimator, assemble_estimates, estimate_ground_truth, single_seed; intros H;
      repeat match type of H with
             | bind ?x _ = Ok _ => destruct x; [cbn [bind] in H|discriminate H]
             | match ?x with _ => _ end = Ok _ => destruct x; try discriminate H
             end; injection H as <-; reflexivity.
  Qed.
  Definition present (w : hworld) (p : string) : Prop := exists f r wc, sdict_get w p = Some f /\ candidates p = [(r, wc)] /\ kind f = r.
  Definition grows (w w' : hworld) : Prop := forall q, present w q -> present w' q.
  Lemma step w p r wc f : candidates p = [(r, wc)] -> run_rule setups ESTIMATORS N_POINTS SEEDS r w wc = Ok f ->
    make_path setups ESTIMATORS N_POINTS SEEDS w p = Ok (sdict_set w p f) /\ present (sdict_set w p f) p /\ grows w (sdict_set w p f).
  Proof.
    intros C R. split; [unfold make_path; rewrite C, R; reflexivity|]. assert (P : present (sdict_set w p f) p).
    { exists f, r, wc. rewrite sdict_get_set_eq. split; [reflexivity|]. split; [exact C|]. eapply run_kind; eauto. }
    split; [exact P|]. intros q (g & r' & wc' & A & B & K). destruct (string_dec p q) as [<-|N]; [exact P|].
    exists g, r', wc'. rewrite sdict_get_set_neq by auto. auto.
  Qed.
  Lemma make_all_app a b w : mk_all (a ++ b) w = bind (mk_all a w) (mk_all b).
  Proof.
    revert w. induction a as [|p a IH]; intros w; [reflexivity|]. unfold mk_all in *. cbn [app make_all].
    destruct (make_path setups ESTIMATORS N_POINTS SEEDS w p); [|reflexivity]. cbn [bind]. apply IH.
  Qed.

  Section Setup.
    Variables (S : string) (d : joint_distribution J) (f : critic).
    Hypothesis HS : plain_name S.
    Hypothesis G : sdict_get setups S = Some (d, f).

    Lemma runs_made l w : (forall q, In q l -> In q (runs bounds sizes twenty)) ->
      exists w', mk_all (flat_map (fun q => let '(n, s, e) := q in [samples_path S n s; estimate_path S e n s]) l) w = Ok w' /\ grows w w' /\
        forall n s e, In (n, s, e) l -> present w' (estimate_path S e n s).
    Proof.
      revert w. induction l as [|[[n s] e] l IH]; intros w I.
      - exists w. split; [reflexivity|]. split; [intros q P; exact P|]. intros ? ? ? [].
      - destruct (proj1 (in_runs _ _ _ _ _ _) (I _ (or_introl eq_refl))) as (I1 & I2 & I3).
        assert (Hn : (8 <= n)%Z) by (pose proof sizes_large as Z; rewrite Forall_forall in Z; now apply Z).
        assert (Hs : (0 <= s)%Z) by (pose proof twenty_positive as Z; rewrite Forall_forall in Z; now apply Z).
        assert (He : plain_name e) by (pose proof bounds_plain as Z; rewrite Forall_forall in Z; now apply Z).
        assert (Ne : e <> "_ground_truth_seeds"%string) by (intros ->; cbn in I3; repeat destruct I3 as [I3|I3]; try discriminate I3; exact I3).
        destruct (jd_sample d n (prng_key J s)) as [[xs ys]|] eqn:E.
        2: { unfold jd_sample in E. destruct (Z.ltb_spec n 1); [lia|discriminate]. }
        destruct (step w (samples_path S n s) _ _ (HSample xs ys) (candidates_sample S n s HS ltac:(lia) Hs)) as (A1 & _ & A3).
        { unfold run_rule, sample_distribution. cbn -[jd_sample]. unfold lookup. rewrite G. cbn [bind fst]. rewrite !read_show. cbn [bind]. rewrite ?read_show. cbn [bind]. now rewrite E. }
        set (w1 := sdict_set w (samples_path S n s) (HSample xs ys)) in *.
        assert (X : exists est, sdict_get ESTIMATORS e = Some est /\ In (e, est) ESTIMATORS).
        { cbn in I3. destruct I3 as [<-|[<-|[<-|[<-|[]]]]]; eexists; (split; [reflexivity|cbn; tauto]). }
        destruct X as (est & Ge & Ie). destruct (estimators_accept e est f xs ys Ie (sample_same _ _ _ _ _ E)) as [v V].
        destruct (step w1 (estimate_path S e n s) _ _ (HEstimate {| ed_estimator := e; ed_setup := S; ed_estimate := v; ed_points := n |})
          (candidates_estimate S e n s HS He Ne ltac:(lia) Hs)) as (B1 & B2 & B3).
        { unfold run_rule, apply_estimator. cbn -[append ESTIMATORS].
          change (S ++ "/samples/" ++ show_int n ++ "-" ++ show_int s ++ ".npz" ++ "")%string with (samples_path S n s).
          unfold w1. rewrite sdict_get_set_eq. unfold lookup. rewrite G. cbn [bind snd]. rewrite Ge. cbn [bind]. rewrite V. cbn [bind]. now rewrite read_show. }
        set (w2 := sdict_set w1 _ _) in *. destruct (IH w2) as (w' & C1 & C2 & C3); [intros q Iq; apply I; now right|].
        exists w'. split.
        + cbn [flat_map app]. unfold mk_all in *. cbn [make_all]. rewrite A1. cbn [bind]. rewrite B1. cbn [bind]. exact C1.
        + split; [intros q P; apply C2, B3, A3, P|]. intros n' s' e' [[= <- <- <-]|Iq]; [now apply C2|now apply C3].
    Qed.
    Lemma seeds_made l w : exists w', mk_all (map (seed_path S) l) w = Ok w' /\ grows w w' /\ forall s, In s l -> present w' (seed_path S s).
    Proof.
      revert w. induction l as [|s l IH]; intros w.
      - exists w. split; [reflexivity|]. split; [intros q P; exact P|]. intros ? [].
      - destruct (monte_carlo_mi_estimate (prng_key J s) d 100000) as [v|] eqn:E.
        2: { unfold monte_carlo_mi_estimate in E. destruct (proj2 (profile_spec d 100000 (prng_key J s))) as (p & P & _); [lia|]. rewrite P in E. discriminate. }
        destruct (step w (seed_path S s) _ _ (HSeed v) (candidates_seed S s HS)) as (A1 & A2 & A3).
        { unfold run_rule, single_seed. cbn -[monte_carlo_mi_estimate]. unfold lookup. rewrite G. cbn [bind fst]. rewrite read_show. cbn [bind]. now rewrite E. }
        destruct (IH (sdict_set w (seed_path S s) (HSeed v))) as (w' & C1 & C2 & C3). exists w'. split.
        + unfold mk_all in *. cbn [map make_all]. rewrite A1. exact C1.
        + split; [intros q P; apply C2, A3, P|]. intros s' [<-|I]; [now apply C2|now apply C3].
    Qed.
    Lemma each_exists {A B} (g : A -> result B) l : (forall a, In a l -> exists b, g a = Ok b) -> exists bs, each g l = Ok bs.
    Proof.
      induction l as [|a l IH]; intros H; [exists []; reflexivity|]. destruct (H a (or_introl eq_refl)) as [b E]. destruct IH as [bs Eb]; [intros x I; apply H; now right|].
      exists (b :: bs). cbn. now rewrite E, Eb.
    Qed.
    Lemma present_file w p r wc : present w p -> candidates p = [(r, wc)] -> exists g, sdict_get w p = Some g /\ kind g = r.
    Proof. intros (g & r' & wc' & A & B & K) C. rewrite C in B. injection B as -> ->. eauto. Qed.
    Lemma completes_from w : exists w', mk_all (integration_schedule S bounds sizes twenty) w = Ok w' /\ grows w w' /\
      present w' (table_path S) /\ present w' (truth_path S).
    Proof.
      destruct (runs_made (runs bounds sizes twenty) w (fun q H => H)) as (w1 & A1 & A2 & A3).
      assert (T : exists rows, run_rule setups ESTIMATORS N_POINTS SEEDS Assemble w1 [("setup", S)]%string = Ok (HTable rows)).
      { unfold run_rule, assemble_estimates. unfold wildcard. cbn [sdict_get String.eqb Ascii.eqb Bool.eqb bind fst snd]. rewrite table_inputs.
        change (map fst ESTIMATORS) with bounds. change N_POINTS with sizes. change SEEDS with twenty.
        destruct (each_exists (estimate_of w1) (map (fun q => Ok (estimate_path S (snd q) (fst (fst q)) (snd (fst q)))) (runs bounds sizes twenty))) as [rows E].
        - intros a I. apply in_map_iff in I as ([[n s] e] & <- & I). cbn [fst snd]. specialize (A3 _ _ _ I). apply in_runs in I as (I1 & I2 & I3).
          assert (Hn : (8 <= n)%Z) by (pose proof sizes_large as Z; rewrite Forall_forall in Z; now apply Z).
          assert (Hs : (0 <= s)%Z) by (pose proof twenty_positive as Z; rewrite Forall_forall in Z; now apply Z).
          assert (He : plain_name e) by (pose proof bounds_plain as Z; rewrite Forall_forall in Z; now apply Z).
          assert (Ne : e <> "_ground_truth_seeds"%string) by (intros ->; cbn in I3; repeat destruct I3 as [I3|I3]; try discriminate I3; exact I3).
          destruct (present_file _ _ _ _ A3 (candidates_estimate S e n s HS He Ne ltac:(lia) Hs)) as (g & Gg & K).
          unfold estimate_of. cbn [bind]. rewrite Gg. destruct g; try discriminate K. eauto.
        - exists rows. now rewrite E. }
      destruct T as [rows T]. destruct (step w1 (table_path S) _ _ _ (candidates_table S HS) T) as (B1 & B2 & B3). set (w2 := sdict_set w1 (table_path S) (HTable rows)) in *.
      destruct (seeds_made [0; 1; 2; 3; 4; 5; 6; 7; 8; 9]%Z w2) as (w3 & C1 & C2 & C3).
      assert (U : exists samples, run_rule setups ESTIMATORS N_POINTS SEEDS Truth w3 [("setup", S)]%string = Ok (HTruth (OutliersModel.summary samples) samples)).
      { unfold run_rule, estimate_ground_truth. unfold wildcard. cbn [sdict_get String.eqb Ascii.eqb Bool.eqb bind fst snd].
        change (map (fun s => fill (output Seed) [("setup", S); ("seed", show_int s)]%string) truth_seeds) with (map (fun s => @Ok string (seed_path S s)) [0; 1; 2; 3; 4; 5; 6; 7; 8; 9]%Z).
        destruct (each_exists (seed_of w3) (map (fun s => Ok (seed_path S s)) [0; 1; 2; 3; 4; 5; 6; 7; 8; 9]%Z)) as [samples E].
        - intros a I. apply in_map_iff in I as (s & <- & I). destruct (present_file _ _ _ _ (C3 _ I) (candidates_seed S s HS)) as (g & Gg & K).
          unfold seed_of. cbn [bind]. rewrite Gg. destruct g; try discriminate K. eauto.
        - exists samples. now rewrite E. }
      destruct U as [samples U]. destruct (step w3 (truth_path S) _ _ _ (candidates_truth S HS) U) as (D1 & D2 & D3). set (w4 := sdict_set w3 _ _) in *.
      exists w4. split; [|split; [intros q P; apply D3, C2, B3, A2, P|split; [apply D3, C2, B2|exact D2]]].
      unfold integration_schedule. rewrite make_all_app, A1. cbn [bind]. rewrite make_all_app. unfold mk_all at 1. cbn [make_all]. rewrite B1. cbn [bind].
      rewrite make_all_app, C1. cbn [bind]. unfold mk_all. cbn [make_all]. rewrite D1. reflexivity.
    Qed.
    Lemma present_table w : present w (table_path S) -> exists rows, sdict_get w (table_path S) = Some (HTable rows).
    Proof. intros P. destruct (present_file _ _ _ _ P (candidates_table S HS)) as (g & Gg & K). destruct g; try discriminate K. eauto. Qed.
    Lemma present_truth w : present w (truth_path S) -> exists t samples, sdict_get w (truth_path S) = Some (HTruth t samples).
    Proof. intros P. destruct (present_file _ _ _ _ P (candidates_truth S HS)) as (g & Gg & K). destruct g; try discriminate K. eauto. Qed.
    Theorem completes : exists w rows t samples, mk_all (integration_schedule S bounds sizes twenty) [] = Ok w /\
      sdict_get w (table_path S) = Some (HTable rows) /\ sdict_get w (truth_path S) = Some (HTruth t samples).
    Proof.
      destruct (completes_from []) as (w & A & _ & B & C). destruct (present_table w B) as [rows R]. destruct (present_truth w C) as (t & samples & T). exists w, rows, t, samples. auto.
    Qed.
  End Setup.

  (** ** The figure *)
  Lemma all_made l : (forall S, In S l -> plain_name S /\ exists df, sdict_get setups S = Some df) -> forall w,
    exists w', mk_all (flat_map (fun S => integration_schedule S bounds sizes twenty) l) w = Ok w' /\ grows w w' /\
      forall S, In S l -> present w' (table_path S) /\ present w' (truth_path S).
  Proof.
    induction l as [|S l IH]; intros H w.
    - exists w. split; [reflexivity|]. split; [intros q P; exact P|]. intros S [].
    - destruct (H S (or_introl eq_refl)) as (HS & [d f] & G). destruct (completes_from S d f HS G w) as (w1 & A & A' & B & C).
      destruct (IH (fun x Ix => H x (or_intror Ix)) w1) as (w2 & D & D' & E). exists w2. split; [|split].
      + cbn [flat_map]. rewrite make_all_app, A. exact D.
      + intros q P. apply D', A', P.
      + intros x [<-|Ix]; [split; apply D'; assumption|now apply E].
  Qed.
  Theorem figure_made : (forall S, In S (map (fun t => snd (fst t)) panels) -> exists df, sdict_get setups S = Some df) ->
    exists w ps, mk_all (flat_map (fun S => integration_schedule S bounds sizes twenty) (map (fun t => snd (fst t)) panels)) [] = Ok w /\
      plot_performance_all w = Ok ps /\ Forall2 (panel_shows w) panels ps.
  Proof.
    intros H.
    assert (P : forall S, In S (map (fun t => snd (fst t)) panels) -> plain_name S).
    { intros S I. cbn in I. repeat destruct I as [<-|I]; try (split; [discriminate|split; intros K; cbn in K; repeat destruct K as [K|K]; try discriminate K; exact K]). destruct I. }
    destruct (all_made (map (fun t => snd (fst t)) panels) (fun S I => conj (P S I) (H S I)) []) as (w & A & _ & B).
    destruct (panels_shown w) as (ps & E & F); [|exists w, ps; auto].
    intros t It. assert (I : In (snd (fst t)) (map (fun t => snd (fst t)) panels)) by (apply in_map_iff; eauto). destruct (B _ I) as [B1 B2].
    destruct (present_table _ (P _ I) w B1) as [rows R]. destruct (present_truth _ (P _ I) w B2) as ([[truth std] err] & samples & T).
    exists rows, truth. split; [split; [exact R|eauto]|].
    destruct (table_true setups ESTIMATORS N_POINTS SEEDS _ w _ _ (P _ I) bounds_plain
      (Forall_impl _ (fun a (K : (8 <= a)%Z) => Z.le_trans 0 8 a ltac:(lia) K) sizes_large) twenty_positive A R) as (rows' & [= <-] & V).
    change (map fst ESTIMATORS) with bounds in V. change N_POINTS with sizes in V. change SEEDS with twenty in V. split.
    - intros ->. unfold runs, sizes, twenty, bounds in V. cbn [map list_prod app] in V. inversion V.
    - intros r Ir. assert (X : exists q, In q (runs bounds sizes twenty) /\ ed_estimator r = snd q).
      { clear - V Ir. induction V as [|q row l rows R _ IH]; [destruct Ir|]. destruct Ir as [<-|Ir]; [exists q; split; [now left|apply R]|].
        destruct (IH Ir) as (q' & I' & E'). exists q'. split; [now right|exact E']. }
      destruct X as ([[n s] e] & Iq & ->). apply in_runs in Iq as (_ & _ & Iq). exact Iq.
  Qed.
End Tables.

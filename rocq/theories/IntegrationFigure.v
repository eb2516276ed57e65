(** Proofs about the figure of [how_good_integration_is.smk]. *)
From Coq Require Import String Ascii Permutation Sorted Lia Lra.
From Verif Require Import Base BaseLemmas UtilsModel GaussianModel BenchmarkModel TablesModel TablesSpec TablesProofs V2TableModel V2TableSpec V2TableThms
  RulesModel OutliersModel OutliersPlotModel OutliersPlotSpec OutliersPlotThms IntegrationModel IntegrationSpec.
Open Scope R_scope.
Local Notation length := List.length.

Definition as_row (r : estimate_doc) : R * result_row :=
  (IZR (ed_points r), {| rr_task := EmptyString; rr_params := EmptyString; rr_estimator := ed_estimator r; rr_estimate := ed_estimate r |}).
Lemma same_estimates df e k : estimates_at (map as_row df) e k = estimates_with df e k.
Proof. unfold estimates_at, estimates_with. rewrite filter_map_comm, map_map. reflexivity. Qed.

Lemma look_known e : In e (map fst integration_styles) ->
  exists c m, lookup IntegrationModel.ESTIMATOR_COLORS e = Ok c /\ lookup IntegrationModel.ESTIMATOR_MARKERS e = Ok m /\ In (e, (c, m)) integration_styles.
Proof. cbn. intros [<-|[<-|[<-|[<-|[]]]]]; do 2 eexists; (split; [reflexivity|split; [reflexivity|cbn; tauto]]). Qed.
Lemma look_unknown e : ~ In e (map fst integration_styles) -> lookup IntegrationModel.ESTIMATOR_COLORS e = Err KeyError.
Proof.
  cbn. intros N. unfold lookup, IntegrationModel.ESTIMATOR_COLORS. cbn [sdict_get fst snd].
  repeat match goal with |- context [String.eqb e ?c] => destruct (String.eqb_spec e c); [destruct N; subst; tauto|] end. reflexivity.
Qed.

Lemma estimator_drawn df e : In e (map fst integration_styles) ->
  exists c, draw_estimator (grouped (map as_row df)) e = Ok c /\ c_estimator c = e /\ estimator_shown df c.
Proof.
  intros K. destruct (look_known e K) as (co & ma & C & M & I). unfold draw_estimator. rewrite C. cbn [bind]. rewrite M. cbn [bind].
  eexists. split; [reflexivity|]. split; [reflexivity|]. rewrite grouped_keys, filter_map_comm. cbn [fst snd].
  set (ks := filter (fun a => String.eqb (snd a) e) (keys (map as_row df))).
  set (stat := fun k : R * string => (k, (pd_mean (estimates_at (map as_row df) (snd k) (fst k)), pd_std (estimates_at (map as_row df) (snd k) (fst k))))).
  change (map _ ks) with (map stat ks).
  set (s := sort_by _ (map stat ks)).
  assert (P : Permutation s (map stat ks)) by apply sort_perm.
  assert (F : Forall (fun x => snd (fst x) = e /\ x = stat (fst x)) s).
  { apply Forall_forall. intros x Ix. apply (Permutation_in _ P) in Ix. apply in_map_iff in Ix as (k & <- & Ik). cbn. split; [|reflexivity].
    apply filter_In in Ik as [_ Ik]. now apply String.eqb_eq. }
  assert (Pk : Permutation (map fst s) ks).
  { replace ks with (map fst (map stat ks)) by (rewrite map_map; cbn; apply map_id). now apply Permutation_map. }
  assert (W : StronglySorted (fun a b : R * string => fst a <= fst b) (map fst s)).
  { assert (H := sort_sorted (fun a b : (R * string) * (fl * fl) => Rleb (fst (fst a)) (fst (fst b))) (map stat ks) (fun x y E => proj2 (Rleb_true _ _) (Rlt_le _ _ (proj1 (Rleb_false _ _) E)))).
    fold s in H. apply Sorted_StronglySorted; [intros x y z; lra|]. clear - H. induction H as [|a l _ IH D]; cbn; constructor; [exact IH|]. destruct D; cbn; constructor. now apply Rleb_true. }
  split; cbn [c_estimator c_color c_marker c_points c_band].
  - exact I.
  - rewrite map_map. cbn [fst]. rewrite <- (map_map fst fst). apply (strict_keys _ e); [exact W| |].
    + eapply Permutation_NoDup; [apply Permutation_sym, Pk|]. apply NoDup_filter, keys_nodup.
    + apply Forall_map. eapply Forall_impl; [|exact F]. now intros x [H _].
  - intros k. rewrite map_map. cbn [fst]. rewrite <- (map_map fst fst). rewrite in_map_iff. split.
    + intros ([k' e'] & E & H). cbn in E. subst k'. apply (Permutation_in _ Pk) in H. apply filter_In in H as [H1 H2]. cbn in H2. apply String.eqb_eq in H2. subst e'.
      apply keys_in in H1 as (r & Ir & Er). apply in_map_iff in Ir as (x & Ex & Ix). unfold as_row in Ex. injection Ex as <- <-. exists x. auto.
    + intros (r & Ir & Er & ->). exists (IZR (ed_points r), e). split; [reflexivity|]. apply (Permutation_in _ (Permutation_sym Pk)). apply filter_In. split; [|apply String.eqb_refl].
      apply keys_in. exists (snd (as_row r)). split; [|exact Er]. apply in_map_iff. exists r. auto.
  - clear - F. induction F as [|[[k e'] v] l [E1 E2] _ IH]; cbn [map]; constructor; [|exact IH]. cbn in E1. subst e'. unfold stat in E2. cbn [fst snd] in E2. injection E2 as ->. cbn [fst snd].
    rewrite same_estimates. split; [apply mean_spec|]. exists (pd_std (estimates_with df e k)). split; [apply std_spec|reflexivity].
Qed.

Lemma df_estimators df e : In e (map (fun r => snd (fst r)) (grouped (map as_row df))) <-> exists r, In r df /\ ed_estimator r = e.
Proof.
  rewrite grouped_estimators. split.
  - intros (kr & I & E). apply in_map_iff in I as (r & <- & I). exists r. auto.
  - intros (r & I & E). exists (as_row r). split; [apply in_map_iff; eauto|exact E].
Qed.
Lemma least l : forall n, let m := fold_left Z.min l n in In m (n :: l) /\ Forall (Z.le m) (n :: l).
Proof.
  induction l as [|a l IH]; intros n; cbn [fold_left].
  - split; [now left|]. apply Forall_cons; [lia|apply Forall_nil].
  - destruct (IH (Z.min n a)) as [A B]. inversion B as [|? ? B1 B2]; subst. split.
    + destruct A as [A|A]; [|right; now right]. rewrite <- A. destruct (Z.min_spec n a) as [[_ ->]|[_ ->]]; [now left|right; now left].
    + apply Forall_cons; [lia|]. apply Forall_cons; [lia|exact B2].
Qed.
Lemma greatest l : forall n, let m := fold_left Z.max l n in In m (n :: l) /\ Forall (fun x => x <= m)%Z (n :: l).
Proof.
  induction l as [|a l IH]; intros n; cbn [fold_left].
  - split; [now left|]. apply Forall_cons; [lia|apply Forall_nil].
  - destruct (IH (Z.max n a)) as [A B]. inversion B as [|? ? B1 B2]; subst. split.
    + destruct A as [A|A]; [|right; now right]. rewrite <- A. destruct (Z.max_spec n a) as [[_ ->]|[_ ->]]; [right; now left|now left].
    + apply Forall_cons; [lia|]. apply Forall_cons; [lia|exact B2].
Qed.
Theorem plot_shows df truth : df <> [] -> (forall r, In r df -> In (ed_estimator r) (map fst integration_styles)) ->
  exists curves line, plot_estimates df truth = Ok (curves, line) /\ estimates_shown df truth curves line.
Proof.
  intros N K. unfold plot_estimates. change (map _ df) with (map as_row df) at 1 2.
  assert (M : forall l, (forall e, In e l -> In e (map fst integration_styles)) ->
    exists cs, each (draw_estimator (grouped (map as_row df))) l = Ok cs /\ map c_estimator cs = l /\ Forall (estimator_shown df) cs).
  { induction l as [|e l IH]; intros H; [exists []; repeat split; constructor|].
    destruct (estimator_drawn df e) as (c & E & Nc & S); [apply H; now left|]. destruct IH as (cs & E' & N' & S'); [intros x I; apply H; now right|].
    exists (c :: cs). cbn. rewrite E. cbn [bind]. rewrite E'. cbn [bind]. split; [reflexivity|]. split; [now rewrite Nc, N'|now constructor]. }
  destruct (M (unique (map (fun r => snd (fst r)) (grouped (map as_row df))))) as (cs & E & Nc & S).
  { intros e I. apply (proj1 (unique_in _ _)) in I. apply df_estimators in I as (r & I & <-). now apply K. }
  cbv zeta. rewrite E. cbn [bind]. do 2 eexists. split; [reflexivity|]. split.
  - rewrite Nc. apply unique_nodup.
  - intros e. rewrite Nc, unique_in. apply df_estimators.
  - exact S.
  - destruct df as [|r df]; [easy|]. cbn [map extreme]. destruct (least (map ed_points df) (ed_points r)) as [A B]. destruct (greatest (map ed_points df) (ed_points r)) as [C D].
    do 2 eexists. split; [exact A|]. split; [exact C|]. split; [|reflexivity].
    apply Forall_forall. intros x Ix. apply (in_map ed_points) in Ix. cbn [map] in Ix. rewrite Forall_forall in B, D. split; auto.
Qed.
Theorem plot_stranger df truth : (exists r, In r df /\ ~ In (ed_estimator r) (map fst integration_styles)) -> plot_estimates df truth = Err KeyError.
Proof.
  intros (r & I & N). unfold plot_estimates. change (map _ df) with (map as_row df) at 1 2. cbv zeta. rewrite (each_all_fails _ _ KeyError); [reflexivity| |].
  - intros e _. destruct (in_dec string_dec e (map fst integration_styles)) as [K|K].
    + left. destruct (estimator_drawn df e K) as (c & E & _). eauto.
    + right. unfold draw_estimator. now rewrite (look_unknown e K).
  - exists (ed_estimator r). split; [apply unique_in, df_estimators; eauto|]. unfold draw_estimator. now rewrite (look_unknown _ N).
Qed.
Theorem panels_shown w : (forall t, In t panels -> exists df truth, files_of w (snd (fst t)) df truth /\ df <> [] /\
    forall r, In r df -> In (ed_estimator r) (map fst integration_styles)) ->
  exists ps, plot_performance_all w = Ok ps /\ Forall2 (panel_shows w) panels ps.
Proof.
  intros H. unfold plot_performance_all. change [_; _; _; _] with panels. revert H. generalize panels. intros l. induction l as [|[[title S] lim] l IH]; intros H.
  - exists []. split; [reflexivity|constructor].
  - destruct (H _ (or_introl eq_refl)) as (df & truth & (A & std & err & samples & B) & N & K). cbn [fst snd] in A, B. destruct (plot_shows df truth N K) as (cs & ln & E & S').
    destruct IH as (ps & Ep & F); [intros t I; apply H; now right|].
    eexists (_ :: ps). split.
    + cbn [each]. unfold performance_panel at 1. fold (table_path S) (truth_path S). rewrite A, B, E. cbn [bind fst snd]. rewrite Ep. reflexivity.
    + constructor; [|exact F]. split; [reflexivity|]. split; [reflexivity|]. exists df, truth. split; [|exact S']. split; [exact A|]. cbn [fst snd]. eauto.
Qed.

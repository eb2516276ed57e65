(** Proofs about the figures which show estimates over a parameter. *)
From Coq Require Import String Ascii Permutation Sorted Lia Lra.
From Verif Require Import Base BaseLemmas UtilsModel GaussianModel BenchmarkModel BenchmarkSpec TasksModel TasksSpec TablesModel TablesSpec TablesProofs V2TableModel V2TableSpec V2TableThms
  RulesModel OutliersModel OutliersPlotThms PlotMiModel PlotMiSpec.
Open Scope R_scope.
Local Notation length := List.length.

Lemma entry_spec x r k : entry_of x r = Some k <-> has_parameter x r k.
Proof.
  unfold entry_of. split.
  - destruct (sdict_get _ x) as [w|] eqn:E; [|discriminate]. destruct w as [| |n|v| | | | | | | | |]; try discriminate; [|destruct v; try discriminate]; intros [= <-];
      [now apply has_int|now apply has_float].
  - intros [n E|v E]; now rewrite E.
Qed.
Lemma has_unique x r k k' : has_parameter x r k -> has_parameter x r k' -> k = k'.
Proof. rewrite <- !entry_spec. congruence. Qed.

Lemma keeping_filter {A} (P : A -> Prop) f (l : list A) : (forall a, f a = true <-> P a) -> keeping P l (filter f l).
Proof.
  intros H. induction l as [|a l IH]; cbn; [constructor|]. destruct (f a) eqn:E; [apply keeping_yes|apply keeping_no]; try assumption.
  - now apply H.
  - rewrite <- H. congruence.
Qed.
Lemma keeping_twice {A} (P Q : A -> Prop) f g (l : list A) : (forall a, f a = true <-> P a) -> (forall a, g a = true <-> Q a) -> keeping (fun a => P a /\ Q a) l (filter g (filter f l)).
Proof.
  intros H K. induction l as [|a l IH]; cbn; [constructor|]. destruct (f a) eqn:E.
  - cbn. destruct (g a) eqn:E'; [apply keeping_yes|apply keeping_no]; try assumption; rewrite <- H, <- K; [auto|]. intros [_ ?]. congruence.
  - apply keeping_no; [|assumption]. rewrite <- H. intros [? _]. congruence.
Qed.

Lemma group_keys_in x rows k : In k (group_keys x rows) <-> exists r, In r rows /\ has_parameter x r k.
Proof.
  unfold group_keys. transitivity (In k (flat_map (fun r => match entry_of x r with Some v => [v] | None => [] end) rows)).
  - rewrite <- (nodup_In Req_EM_T (flat_map _ rows)). split; apply Permutation_in; [apply sort_perm|apply Permutation_sym, sort_perm].
  - rewrite in_flat_map. split; intros (r & I & H); exists r; (split; [exact I|]).
    + apply entry_spec. destruct (entry_of x r); [destruct H as [->|[]]; reflexivity|destruct H].
    + apply entry_spec in H. rewrite H. now left.
Qed.
Lemma group_keys_sorted x rows : StronglySorted Rlt (group_keys x rows).
Proof.
  unfold group_keys. set (l := nodup _ _).
  assert (S : StronglySorted Rle (sort_by Rleb l)).
  { apply Sorted_StronglySorted; [intros a b c; lra|].
    assert (S : Sorted (fun a b => Rleb a b = true) (sort_by Rleb l)) by (apply sort_sorted; intros a b; rewrite Rleb_false, Rleb_true; lra).
    induction S as [|a m _ IH D]; constructor; [exact IH|]. destruct D; constructor. now apply Rleb_true. }
  assert (N : NoDup (sort_by Rleb l)) by (eapply Permutation_NoDup; [apply Permutation_sym, sort_perm|apply NoDup_nodup]).
  induction S as [|a m _ IH Fa]; constructor; inversion N as [|? ? N1 N2]; subst; [now apply IH|].
  rewrite Forall_forall in Fa. apply Forall_forall. intros b I. destruct (Fa b I) as [L|E]; [exact L|subst; contradiction].
Qed.
Lemma group_rows_spec x k r : (match entry_of x r with Some v => Reqb v k | None => false end) = true <-> has_parameter x r k.
Proof.
  rewrite <- entry_spec. destruct (entry_of x r) as [v|]; [|split; discriminate]. unfold Reqb. destruct (Req_EM_T v k) as [->|N]; split; try tauto; try discriminate.
  intros [= E]. contradiction.
Qed.

Lemma line_made x rows (P : mrow -> Prop) p (f : mrow -> fl) : (forall r, p r = true <-> P r) ->
  mean_line x rows P f (map (fun k => (k, pd_mean (map f (group_rows x (filter p rows) k)))) (group_keys x (filter p rows))).
Proof.
  intros H. split.
  - rewrite map_map. cbn [fst]. rewrite map_id. apply group_keys_sorted.
  - intros k. rewrite map_map. cbn [fst]. rewrite map_id, group_keys_in. split; intros (r & A & B).
    + apply filter_In in A as [A C]. apply H in C. eauto.
    + exists r. rewrite filter_In. destruct B as [B C]. apply H in B. auto.
  - apply Forall_forall. intros [k m] I. apply in_map_iff in I as (k' & E & _). injection E as <- <-. cbn [fst snd].
    eexists. split; [|apply mean_spec]. apply keeping_twice; [exact H|]. intros r. apply group_rows_spec.
Qed.
Lemma band_made x rows (P : mrow -> Prop) p (f : mrow -> fl) : (forall r, p r = true <-> P r) ->
  let e k := map f (group_rows x (filter p rows) k) in
  band_around x rows P f (map (fun k => (k, pd_mean (e k))) (group_keys x (filter p rows)))
    (map (fun k => (k, fl_sub (pd_mean (e k)) (pd_std (e k)), fl_add (pd_mean (e k)) (pd_std (e k)))) (group_keys x (filter p rows))).
Proof.
  intros H e. unfold band_around. induction (group_keys x (filter p rows)) as [|k l IH]; cbn; constructor; [|exact IH].
  exists (group_rows x (filter p rows) k), (pd_std (e k)). cbn [fst snd]. split; [|split; [apply std_spec|reflexivity]].
  apply keeping_twice; [exact H|]. intros r. apply group_rows_spec.
Qed.

Lemma mi_style_known e : In e (map style_id mi_styles) -> exists c n, lookup COLORS e = Ok c /\ lookup NAMES e = Ok n /\ In (e, c, n) mi_styles.
Proof. cbn [map style_id mi_styles fst In]. intros H. repeat (destruct H as [<-|H]; [do 2 eexists; (split; [reflexivity|]); (split; [reflexivity|]); cbn; tauto|]). destruct H. Qed.
Lemma mi_style_unknown e : ~ In e (map style_id mi_styles) -> lookup COLORS e = Err KeyError.
Proof.
  cbn. intros N. unfold lookup, COLORS. cbn [sdict_get fst snd].
  repeat match goal with |- context [String.eqb e ?c] => destruct (String.eqb_spec e c); [destruct N; subst; tauto|] end. reflexivity.
Qed.

Lemma mi_curve_made x std rows e : In e (map style_id mi_styles) ->
  exists c, mi_curve_of x COLORS NAMES std rows e = Ok c /\ mc_estimator c = e /\ In (mc_estimator c, mc_color c, mc_label c) mi_styles /\ curve_of x rows std c.
Proof.
  intros K. destruct (mi_style_known e K) as (co & na & E1 & E2 & I). unfold mi_curve_of. rewrite E1. cbn [bind]. rewrite E2. cbn [bind].
  eexists. split; [reflexivity|]. split; [reflexivity|]. split; [exact I|]. unfold curve_of. cbn [mc_estimator mc_points mc_band]. split.
  - apply line_made. intros r. apply String.eqb_eq.
  - destruct std; [|reflexivity]. split; [reflexivity|]. apply band_made. intros r. apply String.eqb_eq.
Qed.

(** ** plot_mi *)
Definition known (rows : list mrow) : Prop := forall r, In r rows -> In (r_estimator (mr_run r)) (map style_id mi_styles).
Lemma column_in x l : existsb (String.eqb x) l = true <-> In x l.
Proof.
  rewrite existsb_exists. split; [intros (y & I & E); apply String.eqb_eq in E; now subst|]. intros I. exists x. split; [exact I|apply String.eqb_refl].
Qed.
Theorem plot_shown fr x label std : In x (f_columns fr) -> known (f_rows fr) ->
  exists p, plot_mi fr x COLORS NAMES label std = Ok p /\ shows_panel x (f_rows fr) std p /\ pn_x_label p = given label x.
Proof.
  intros C K. unfold plot_mi. rewrite (proj2 (column_in x (f_columns fr)) C). cbv zeta.
  set (es := labels (map (fun r => r_estimator (mr_run r)) (f_rows fr))).
  assert (E : exists cs, each (mi_curve_of x COLORS NAMES std (f_rows fr)) es = Ok cs /\ map mc_estimator cs = es /\
      Forall (fun c => In (mc_estimator c, mc_color c, mc_label c) mi_styles /\ curve_of x (f_rows fr) std c) cs).
  { assert (M : forall e, In e es -> In e (map style_id mi_styles)).
    { intros e I. unfold es in I. rewrite labels_in in I. apply in_map_iff in I as (r & <- & I). now apply K. }
    clearbody es. induction es as [|e es IH]; [exists []; cbn; auto|]. destruct IH as (cs & E & N & A); [intros; apply M; now right|].
    destruct (mi_curve_made x std (f_rows fr) e (M e (or_introl eq_refl))) as (c & Ec & Nc & S). exists (c :: cs). cbn. rewrite Ec. cbn [bind]. rewrite E. cbn.
    split; [reflexivity|]. split; [now rewrite Nc, N|]. constructor; assumption. }
  destruct E as (cs & E & N & A). rewrite E. cbn [bind]. eexists. split; [reflexivity|]. split.
  - split; cbn [pn_curves pn_truth].
    + rewrite N. split; [apply labels_nodup|apply labels_sorted].
    + intros e. rewrite N. unfold es. rewrite labels_in, in_map_iff. split; intros (r & H1 & H2); eauto.
    + exact A.
    + assert (L := line_made x (f_rows fr) (fun _ => True) (fun _ => true) (fun r => r_true (mr_run r)) ltac:(tauto)).
      replace (filter (fun _ : mrow => true) (f_rows fr)) with (f_rows fr) in L; [exact L|].
      clear. induction (f_rows fr) as [|r l IH]; cbn; congruence.
  - cbn [pn_x_label]. reflexivity.
Qed.
Theorem plot_no_column fr x colors names label std : ~ In x (f_columns fr) -> plot_mi fr x colors names label std = Err KeyError.
Proof. intros C. unfold plot_mi. destruct (existsb _ _) eqn:E; [apply column_in in E; contradiction|reflexivity]. Qed.
Theorem plot_stranger fr x label std : (exists r, In r (f_rows fr) /\ ~ In (r_estimator (mr_run r)) (map style_id mi_styles)) ->
  plot_mi fr x COLORS NAMES label std = Err KeyError.
Proof.
  intros (r & I & N). unfold plot_mi. destruct (existsb _ _); [|reflexivity]. rewrite (each_all_fails _ _ KeyError); [reflexivity| |].
  - intros e _. destruct (in_dec string_dec e (map style_id mi_styles)) as [K|K].
    + left. destruct (mi_curve_made x std (f_rows fr) e K) as (c & E & _). eauto.
    + right. unfold mi_curve_of. now rewrite (mi_style_unknown e K).
  - exists (r_estimator (mr_run r)). split; [apply labels_in, in_map_iff; eauto|]. unfold mi_curve_of. now rewrite (mi_style_unknown _ N).
Qed.
(** The two assertions hold, and no two estimators share a colour or a label. *)
Theorem styles_cover : covered COLORS = true /\ covered NAMES = true /\ Permutation ESTIMATOR_IDS (map style_id mi_styles) /\
  NoDup (map (fun s => snd (fst s)) mi_styles) /\ NoDup (map snd mi_styles).
Proof.
  repeat split; try reflexivity.
  - apply NoDup_Permutation; [|cbn|]; try (repeat constructor; cbn; intuition discriminate). intros e. cbn. tauto.
  - repeat constructor; cbn; intuition discriminate.
  - repeat constructor; cbn; intuition discriminate.
Qed.

(** ** Frames *)
Theorem frame_read m rows : rows <> [] -> exists fr, read_frame (Some m) rows = Ok fr /\
  (forall k, In k (f_columns fr) <-> exists r v, In r rows /\ In (k, v) (mr_params r)) /\
  keeping (fun r => fl_ltb (r_estimate (mr_run r)) m = true) rows (f_rows fr).
Proof.
  intros N. unfold read_frame. destruct rows as [|r0 rows]; [contradiction|]. eexists. split; [reflexivity|]. cbn [f_columns f_rows]. split.
  - intros k. rewrite in_flat_map. split.
    + intros (r & I & H). apply in_map_iff in H as ([k' v] & E & H). cbn in E. subst. eauto.
    + intros (r & v & I & H). exists r. split; [exact I|]. apply in_map_iff. exists (k, v). auto.
  - apply keeping_filter. tauto.
Qed.
Theorem frame_empty m : read_frame (Some m) [] = Err KeyError.
Proof. reflexivity. Qed.
Theorem frame_whole rows : exists fr, read_frame None rows = Ok fr /\ f_rows fr = rows /\ forall k, In k (f_columns fr) <-> exists r v, In r rows /\ In (k, v) (mr_params r).
Proof.
  eexists. split; [reflexivity|]. split; [reflexivity|]. intros k. cbn [f_columns]. rewrite in_flat_map. split.
  - intros (r & I & H). apply in_map_iff in H as ([k' v] & E & H). cbn in E. subst. eauto.
  - intros (r & v & I & H). exists r. split; [exact I|]. apply in_map_iff. exists (k, v). auto.
Qed.
Theorem covered_spec d : covered d = true <-> forall s, In s mi_styles -> exists v, sdict_get d (style_id s) = Some v.
Proof.
  unfold covered. rewrite forallb_forall. destruct styles_cover as (_ & _ & P & _). split.
  - intros H s I. assert (J : In (style_id s) ESTIMATOR_IDS) by (eapply Permutation_in; [apply Permutation_sym, P|now apply in_map]).
    specialize (H _ J). destruct (sdict_get d (style_id s)); [eauto|discriminate].
  - intros H e I. apply (Permutation_in _ P) in I. apply in_map_iff in I as (s & <- & I). destruct (H s I) as (v & ->). reflexivity.
Qed.

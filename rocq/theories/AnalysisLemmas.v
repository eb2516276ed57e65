(** Facts of real analysis used in several places. *)
From Coq Require Import Reals Lra Lia.
From Coquelicot Require Import Coquelicot.
Open Scope R_scope.

(** A function given by two formulas which meet smoothly. *)
Lemma glue_derive (f g h : R -> R) c l :
  (forall t, t <= c -> f t = g t) -> (forall t, c <= t -> f t = h t) ->
  is_derive g c l -> is_derive h c l -> is_derive f c l.
Proof.
  intros Hg Hh Dg Dh. apply is_derive_Reals in Dg, Dh. apply is_derive_Reals.
  intros e He. destruct (Dg e He) as (d1 & H1). destruct (Dh e He) as (d2 & H2).
  assert (Hd : 0 < Rmin d1 d2) by (apply Rmin_glb_lt; apply cond_pos).
  exists (mkposreal _ Hd). intros x Hx Hxd. cbn in Hxd.
  destruct (Rle_lt_dec x 0) as [Hle|Hlt].
  - rewrite (Hg (c + x)), (Hg c) by lra. apply H1; [assumption|]. eapply Rlt_le_trans; [eassumption|apply Rmin_l].
  - rewrite (Hh (c + x)), (Hh c) by lra. apply H2; [assumption|]. eapply Rlt_le_trans; [eassumption|apply Rmin_r].
Qed.

Lemma local_derive (f g : R -> R) x l d : 0 < d -> (forall t, Rabs (t - x) < d -> f t = g t) -> is_derive g x l -> is_derive f x l.
Proof.
  intros Hd H D. eapply is_derive_ext_loc; [|exact D]. exists (mkposreal d Hd). intros y Hy. symmetry. apply H. exact Hy.
Qed.

Lemma ln_below x : 0 < x -> ln x <= x - 1.
Proof.
  intros H. destruct (Req_dec x 1) as [->|Hn]; [rewrite ln_1; lra|].
  left. rewrite <- (ln_exp (x - 1)). apply ln_increasing; [assumption|].
  pose proof (exp_ineq1 (x - 1)) as E. replace x with (1 + (x - 1)) at 1 by ring. apply E. lra.
Qed.

Lemma ln_above x : 0 < x -> 1 - / x <= ln x.
Proof.
  intros H. pose proof (ln_below (/ x) (Rinv_0_lt_compat x H)) as E. rewrite ln_Rinv in E by assumption. lra.
Qed.

Lemma ln_nonpos_arg x : x <= 0 -> ln x = 0.
Proof. intros H. unfold ln. destruct (Rlt_dec 0 x) as [Hp|Hp]; [exfalso; exact (Rlt_irrefl _ (Rlt_le_trans _ _ _ Hp H))|reflexivity]. Qed.

(** [t ln t] is small near 0. *)
Lemma xlnx_small t : 0 <= t <= 1 -> Rabs (t * ln t) <= 2 * sqrt t.
Proof.
  intros [H0 H1]. destruct (Req_dec t 0) as [->|Hn]; [rewrite Rmult_0_l, Rabs_R0, sqrt_0; lra|].
  assert (Hs : 0 < sqrt t) by (apply sqrt_lt_R0; lra).
  assert (Hl : ln t = 2 * ln (sqrt t)).
  { rewrite <- (sqrt_sqrt t) at 1 by assumption. rewrite ln_mult by assumption. lra. }
  assert (Hln : ln t <= 0) by (rewrite <- ln_1; destruct (Req_dec t 1) as [->|]; [lra|left; apply ln_increasing; lra]).
  rewrite Rabs_left1 by (rewrite <- (Rmult_0_r t); apply Rmult_le_compat_l; lra).
  pose proof (ln_above (sqrt t) Hs) as E.
  assert (Ht : t = sqrt t * sqrt t) by (symmetry; now apply sqrt_sqrt).
  assert (E2 : t * / sqrt t = sqrt t) by (rewrite Ht at 1; field; lra).
  rewrite Hl. assert (t * (1 - / sqrt t) <= t * ln (sqrt t)) by (apply Rmult_le_compat_l; lra).
  rewrite Rmult_minus_distr_l, E2 in H. lra.
Qed.

Lemma continuous_xlnx_0 : continuous (fun t => t * ln t) 0.
Proof.
  intros P HP. rewrite Rmult_0_l in HP. destruct HP as (e & He).
  assert (Hd : 0 < Rmin 1 ((e / 2) * (e / 2) / 2)).
  { apply Rmin_glb_lt; [lra|]. pose proof (cond_pos e). apply Rdiv_lt_0_compat; [|lra]. apply Rmult_lt_0_compat; lra. }
  exists (mkposreal _ Hd). intros y Hy. apply He. cbn in Hy. unfold ball in *. cbn in *. unfold AbsRing_ball, abs, minus, plus, opp in *. cbn in *.
  rewrite Ropp_0, Rplus_0_r in *. destruct (Rle_lt_dec y 0) as [Hn|Hp].
  - rewrite ln_nonpos_arg, Rmult_0_r, Rabs_R0 by assumption. apply cond_pos.
  - rewrite Rabs_right in Hy by lra.
    assert (y < 1) by (eapply Rlt_le_trans; [exact Hy|apply Rmin_l]).
    assert (y < e / 2 * (e / 2) / 2) by (eapply Rlt_le_trans; [exact Hy|apply Rmin_r]).
    eapply Rle_lt_trans; [apply xlnx_small; lra|].
    assert (sqrt y < e / 2); [|lra].
    pose proof (cond_pos e). rewrite <- (sqrt_square (e / 2)) by lra. apply sqrt_lt_1_alt. split; [lra|].
    assert (0 < e / 2 * (e / 2)) by (apply Rmult_lt_0_compat; lra). lra.
Qed.

Lemma is_derive_x2lnx_0 : is_derive (fun t => t * t * ln t) 0 0.
Proof.
  apply is_derive_Reals. intros e He.
  pose proof continuous_xlnx_0 as Hc. 
  specialize (Hc (fun v => Rabs v < e)).
  destruct Hc as (d & Hd).
  { exists (mkposreal e He). intros y Hy. unfold ball in Hy. cbn in Hy. unfold AbsRing_ball, abs, minus, plus, opp in Hy. cbn in Hy.
    now rewrite Rmult_0_l, Ropp_0, Rplus_0_r in Hy. }
  exists d. intros h Hh Hhd. rewrite Rplus_0_l. replace ((h * h * ln h - 0 * 0 * ln 0) / h - 0) with (h * ln h) by (field; assumption).
  apply (Hd h). unfold ball. cbn. unfold AbsRing_ball, abs, minus, plus, opp. cbn. now rewrite Ropp_0, Rplus_0_r.
Qed.

(** Piecewise constant integrands. *)
Lemma const_RInt (f : R -> R) a b v : a <= b -> (forall x, a < x < b -> f x = v) -> is_RInt f a b ((b - a) * v).
Proof.
  intros H F. apply (is_RInt_ext (fun _ => v)).
  - rewrite Rmin_left, Rmax_right by assumption. intros x Hx. symmetry. auto.
  - apply (is_RInt_const (V := R_NormedModule) a b v).
Qed.

Lemma derive_continuous (f : R -> R) x l : is_derive f x l -> continuous f x.
Proof. intros H. apply (ex_derive_continuous (K := R_AbsRing) (V := R_NormedModule)). now exists l. Qed.

Lemma ftc (f df : R -> R) a b : a <= b -> (forall x, a <= x <= b -> is_derive f x (df x)) ->
  (forall x, a <= x <= b -> continuous df x) -> is_RInt df a b (f b - f a).
Proof.
  intros H D C. apply (is_RInt_derive (V := R_CompleteNormedModule) f df);
    intros x Hx; rewrite Rmin_left, Rmax_right in Hx by assumption; auto.
Qed.

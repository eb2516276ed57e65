(** The integral behind AdditiveUniformSampler. *)
From Coquelicot Require Import Coquelicot.
From Verif Require Import Base BaseLemmas UtilsModel JaxModel SamplersModel SamplersSpec AnalysisLemmas.
Open Scope R_scope.

Definition width (eps y : R) : R := Rmin 1 (y + eps) - Rmax 0 (y - eps).

Lemma indicator_RInt (f : R -> R) a b lo hi v : a <= lo -> lo <= hi -> hi <= b ->
  (forall x, a < x < lo -> f x = 0) -> (forall x, lo < x < hi -> f x = v) -> (forall x, hi < x < b -> f x = 0) ->
  is_RInt f a b ((hi - lo) * v).
Proof.
  intros H1 H2 H3 F1 F2 F3. apply (const_RInt f a lo 0 H1) in F1. apply (const_RInt f lo hi v H2) in F2. apply (const_RInt f hi b 0 H3) in F3.
  replace ((hi - lo) * v) with (plus (plus ((lo - a) * 0) ((hi - lo) * v)) ((b - hi) * 0)) by (unfold plus; cbn; ring).
  apply (is_RInt_Chasles f a hi b); [apply (is_RInt_Chasles f a lo hi)|]; assumption.
Qed.

Lemma noisy_is_RInt eps y : 0 < eps -> - eps < y < 1 + eps ->
  is_RInt (fun x => noise_density eps x y) 0 1 (width eps y * / (2 * eps)).
Proof.
  intros He Hy. unfold width.
  assert (Hlh : Rmax 0 (y - eps) <= Rmin 1 (y + eps)) by (apply Rmax_lub; apply Rmin_glb; lra).
  apply (indicator_RInt _ 0 1); [apply Rmax_l|assumption|apply Rmin_l| | |]; unfold noise_density; intros x Hx;
    destruct (Rle_dec (Rabs (y - x)) eps) as [Ha|Ha]; try reflexivity; exfalso.
  - apply Rabs_le_between in Ha. destruct Hx as [Hx1 Hx2].
    revert Hx2. unfold Rmax. destruct (Rle_dec 0 (y - eps)); lra.
  - apply Ha. apply Rabs_le. destruct Hx as [Hx1 Hx2]. revert Hx1 Hx2. unfold Rmax, Rmin.
    destruct (Rle_dec 0 (y - eps)); destruct (Rle_dec 1 (y + eps)); lra.
  - apply Rabs_le_between in Ha. destruct Hx as [Hx1 Hx2].
    revert Hx1. unfold Rmin. destruct (Rle_dec 1 (y + eps)); lra.
Qed.

Lemma noisy_density_eq eps y : 0 < eps -> - eps < y < 1 + eps -> noisy_density eps y = width eps y * / (2 * eps).
Proof. intros He Hy. unfold noisy_density. apply is_RInt_unique. now apply noisy_is_RInt. Qed.

Section Fix.
  Variables (eps c : R).
  Hypothesis (He : 0 < eps) (Hc : c = Rmin 1 (2 * eps)).

  Lemma c_pos : 0 < c.
  Proof. rewrite Hc. apply Rmin_glb_lt; lra. Qed.

  Lemma c_le_1 : c <= 1.
  Proof. rewrite Hc. apply Rmin_l. Qed.

  Lemma c_le_2e : c <= 2 * eps.
  Proof. rewrite Hc. apply Rmin_r. Qed.

  Lemma width_factors y : - eps < y < 1 + eps ->
    width eps y = Rmin (y + eps) c * Rmin (1 - y + eps) c / c.
  Proof.
    intros Hy. pose proof c_pos as Hp. pose proof c_le_1 as H1. pose proof c_le_2e as H2. unfold width.
    assert (Hcc : c = 1 \/ c = 2 * eps) by (rewrite Hc; unfold Rmin; destruct (Rle_dec 1 (2 * eps)); auto).
    destruct (Rle_dec (y + eps) c) as [Ha|Ha].
    - rewrite (Rmin_left (y + eps) c), (Rmin_right (1 - y + eps) c), (Rmin_right 1 (y + eps)), (Rmax_left 0 (y - eps)) by lra. field. lra.
    - rewrite (Rmin_right (y + eps) c) by lra. destruct Hcc as [E|E]; rewrite E in *.
      + rewrite (Rmin_left 1 (y + eps)) by lra. unfold Rmax, Rmin. destruct (Rle_dec 0 (y - eps)); destruct (Rle_dec (1 - y + eps) 1); lra.
      + rewrite (Rmax_right 0 (y - eps)) by lra. replace (2 * eps * Rmin (1 - y + eps) (2 * eps) / (2 * eps)) with (Rmin (1 - y + eps) (2 * eps)) by (field; lra).
        unfold Rmin. destruct (Rle_dec 1 (y + eps)); destruct (Rle_dec (1 - y + eps) (2 * eps)); lra.
  Qed.

  Lemma ln_width y : - eps < y < 1 + eps ->
    ln (width eps y) = ln (Rmin (y + eps) c) + ln (Rmin (1 - y + eps) c) - ln c.
  Proof.
    intros Hy. pose proof c_pos. rewrite width_factors by assumption.
    assert (0 < Rmin (y + eps) c) by (apply Rmin_glb_lt; lra).
    assert (0 < Rmin (1 - y + eps) c) by (apply Rmin_glb_lt; lra).
    unfold Rdiv. rewrite !ln_mult, ln_Rinv; try lra; try (apply Rinv_0_lt_compat; assumption).
    now apply Rmult_lt_0_compat.
  Qed.

  Definition K (t : R) : R := if Rle_dec t c then t * ln t - t else c * ln c - c + (t - c) * ln c.

  Definition M (t : R) : R := if Rle_dec t c then t * t * ln t / 2 - 3 / 4 * (t * t)
    else c * c * ln c / 2 - 3 / 4 * (c * c) + (c * ln c - c) * (t - c) + (t - c) * (t - c) / 2 * ln c.

  Lemma K_low t : t <= c -> K t = t * ln t - t.
  Proof. unfold K. destruct (Rle_dec t c); [reflexivity|lra]. Qed.

  Lemma K_high t : c <= t -> K t = c * ln c - c + (t - c) * ln c.
  Proof. unfold K. intros H. destruct (Rle_dec t c); [|reflexivity]. replace t with c by lra. ring. Qed.

  Lemma M_low t : t <= c -> M t = t * t * ln t / 2 - 3 / 4 * (t * t).
  Proof. unfold M. destruct (Rle_dec t c); [reflexivity|lra]. Qed.

  Lemma M_high t : c <= t -> M t = c * c * ln c / 2 - 3 / 4 * (c * c) + (c * ln c - c) * (t - c) + (t - c) * (t - c) / 2 * ln c.
  Proof. unfold M. intros H. destruct (Rle_dec t c); [|reflexivity]. replace t with c by lra. field. Qed.

  Lemma K_derive t : 0 < t -> is_derive K t (ln (Rmin t c)).
  Proof.
    intros Ht. pose proof c_pos as Hcp.
    assert (Dl : forall t, 0 < t -> is_derive (fun t => t * ln t - t) t (ln t)).
    { intros s Hs. auto_derive; [assumption|]. field. lra. }
    assert (Dh : forall t, is_derive (fun t => c * ln c - c + (t - c) * ln c) t (ln c)).
    { intros s. auto_derive; [trivial|]. ring. }
    destruct (Rtotal_order t c) as [H|[H|H]].
    - rewrite Rmin_left by lra. apply (local_derive _ (fun t => t * ln t - t) _ _ (c - t)); [lra| |now apply Dl].
      intros s Hs. apply Rabs_lt_between in Hs. apply K_low. lra.
    - subst t. rewrite Rmin_left by lra. apply (glue_derive _ (fun t => t * ln t - t) (fun t => c * ln c - c + (t - c) * ln c)).
      + exact K_low.
      + exact K_high.
      + now apply Dl.
      + apply Dh.
    - rewrite Rmin_right by lra. apply (local_derive _ (fun t => c * ln c - c + (t - c) * ln c) _ _ (t - c)); [lra| |apply Dh].
      intros s Hs. apply Rabs_lt_between in Hs. apply K_high. lra.
  Qed.

  Lemma K_continuous t : 0 <= t -> continuous K t.
  Proof.
    intros Ht. destruct (Req_dec t 0) as [->|Hn].
    - pose proof c_pos as Hcp. apply (continuous_ext_loc _ (fun t => t * ln t - t)).
      + exists (mkposreal c Hcp). intros y Hy. unfold ball in Hy. cbn in Hy. unfold AbsRing_ball, abs, minus, plus, opp in Hy. cbn in Hy.
        apply Rabs_lt_between in Hy. symmetry. apply K_low. lra.
      + apply (continuous_minus (fun t => t * ln t) (fun t => t)); [apply continuous_xlnx_0|apply continuous_id].
    - eapply derive_continuous. apply K_derive. lra.
  Qed.

  Lemma M_derive t : 0 <= t -> is_derive M t (K t).
  Proof.
    intros Ht. pose proof c_pos as Hcp.
    assert (Dl : forall t, 0 <= t -> is_derive (fun t => t * t * ln t / 2 - 3 / 4 * (t * t)) t (t * ln t - t)).
    { intros s Hs. destruct (Req_dec s 0) as [->|Hn].
      - pose proof is_derive_x2lnx_0 as D0. 
        replace (0 * ln 0 - 0) with (minus (scal (/ 2) 0) 0) by (unfold minus, plus, opp, scal; cbn; unfold mult; cbn; ring).
        apply (is_derive_minus (fun t => t * t * ln t / 2) (fun t => 3 / 4 * (t * t))).
        + apply (is_derive_ext (fun t => scal (/ 2) (t * t * ln t))); [intros u; unfold scal; cbn; unfold mult; cbn; field|].
          now apply is_derive_scal.
        + auto_derive; [trivial|ring].
      - auto_derive; [lra|]. field. lra. }
    assert (Dh : forall t, is_derive (fun t => c * c * ln c / 2 - 3 / 4 * (c * c) + (c * ln c - c) * (t - c) + (t - c) * (t - c) / 2 * ln c) t (c * ln c - c + (t - c) * ln c)).
    { intros s. auto_derive; [trivial|]. field. }
    destruct (Rtotal_order t c) as [H|[H|H]].
    - rewrite K_low by lra. apply (local_derive _ (fun t => t * t * ln t / 2 - 3 / 4 * (t * t)) _ _ (c - t)); [lra| |now apply Dl].
      intros s Hs. apply Rabs_lt_between in Hs. apply M_low. lra.
    - subst t. eapply glue_derive.
      + exact M_low.
      + exact M_high.
      + rewrite K_low by lra. now apply Dl.
      + rewrite K_high by lra. apply Dh.
    - rewrite K_high by lra. eapply (local_derive _ _ _ _ (t - c)); [lra| |apply Dh].
      intros s Hs. apply Rabs_lt_between in Hs. apply M_high. lra.
  Qed.

  Lemma continuous_lnmin t : 0 < t -> continuous (fun t => ln (Rmin t c)) t.
  Proof.
    intros Ht. pose proof c_pos as Hcp.
    assert (Hp : 0 < Rmin t c) by (apply Rmin_glb_lt; assumption).
    apply (continuous_comp (fun t => Rmin t c) ln).
    - apply (continuous_ext (fun t => ((t + c) - Rabs (t - c)) / 2)).
      { intros x. unfold Rmin. destruct (Rle_dec x c); [rewrite Rabs_left1|rewrite Rabs_right]; lra. }
      apply (continuous_mult (fun t => (t + c) - Rabs (t - c)) (fun _ => / 2)); [|apply continuous_const].
      apply (continuous_minus (fun t => t + c) (fun t => Rabs (t - c))).
      + apply (continuous_plus (fun t => t) (fun _ => c)); [apply continuous_id|apply continuous_const].
      + apply (continuous_comp (fun t => t - c) Rabs); [|apply continuous_Rabs].
        apply (continuous_minus (fun t => t) (fun _ => c)); [apply continuous_id|apply continuous_const].
    - apply (derive_continuous _ _ (/ Rmin t c)). auto_derive; [assumption|]. ring.
  Qed.

  Definition inner (x : R) : R := - / (2 * eps) * (K (x + 2 * eps) - K x + K (1 - x + 2 * eps) - K (1 - x) - 2 * eps * ln c).

  Lemma inner_is_RInt x : 0 < x < 1 ->
    is_RInt (fun y => noise_density eps x y * ln (noise_density eps x y / noisy_density eps y)) (x - eps) (x + eps) (inner x).
  Proof.
    intros Hx.
    set (F := fun y => - / (2 * eps) * (K (y + eps) - K (1 - y + eps) - y * ln c)).
    set (dF := fun y => - / (2 * eps) * (ln (Rmin (y + eps) c) + ln (Rmin (1 - y + eps) c) - ln c)).
    assert (HI : is_RInt dF (x - eps) (x + eps) (inner x)).
    { replace (inner x) with (F (x + eps) - F (x - eps)).
      2:{ unfold F, inner.
          replace (x + eps + eps) with (x + 2 * eps) by ring. replace (1 - (x + eps) + eps) with (1 - x) by ring.
          replace (x - eps + eps) with x by ring. replace (1 - (x - eps) + eps) with (1 - x + 2 * eps) by ring.
          ring. }
      apply ftc; [lra| |]; intros y Hy.
      - unfold F, dF.
        assert (D1 : is_derive (fun y => K (y + eps)) y (ln (Rmin (y + eps) c))).
        { replace (ln (Rmin (y + eps) c)) with (scal 1 (ln (Rmin (y + eps) c))) by (unfold scal; cbn; unfold mult; cbn; ring).
          apply (is_derive_comp K (fun y => y + eps)); [apply K_derive; lra|auto_derive; [trivial|ring]]. }
        assert (D2 : is_derive (fun y => K (1 - y + eps)) y (- ln (Rmin (1 - y + eps) c))).
        { replace (- ln (Rmin (1 - y + eps) c)) with (scal (-1) (ln (Rmin (1 - y + eps) c))) by (unfold scal; cbn; unfold mult; cbn; ring).
          apply (is_derive_comp K (fun y => 1 - y + eps)); [apply K_derive; lra|auto_derive; [trivial|ring]]. }
        replace (ln (Rmin (y + eps) c) + ln (Rmin (1 - y + eps) c) - ln c)
          with (ln (Rmin (y + eps) c) - - ln (Rmin (1 - y + eps) c) - ln c) by ring.
        apply is_derive_scal.
        apply (is_derive_minus (fun y => K (y + eps) - K (1 - y + eps)) (fun y => y * ln c)); [|auto_derive; [trivial|ring]].
        now apply (is_derive_minus (fun y => K (y + eps)) (fun y => K (1 - y + eps))).
      - unfold dF.
        apply (continuous_mult (fun _ => - / (2 * eps)) (fun y => ln (Rmin (y + eps) c) + ln (Rmin (1 - y + eps) c) - ln c)); [apply continuous_const|].
        apply (continuous_minus (fun y => ln (Rmin (y + eps) c) + ln (Rmin (1 - y + eps) c)) (fun _ => ln c)); [|apply continuous_const].
        apply (continuous_plus (fun y => ln (Rmin (y + eps) c)) (fun y => ln (Rmin (1 - y + eps) c))).
        + apply (continuous_comp (fun y => y + eps) (fun t => ln (Rmin t c))); [|apply continuous_lnmin; lra].
          apply (continuous_plus (fun y => y) (fun _ => eps)); [apply continuous_id|apply continuous_const].
        + apply (continuous_comp (fun y => 1 - y + eps) (fun t => ln (Rmin t c))); [|apply continuous_lnmin; lra].
          apply (continuous_plus (fun y => 1 - y) (fun _ => eps)); [|apply continuous_const].
          apply (continuous_minus (fun _ => 1) (fun y => y)); [apply continuous_const|apply continuous_id]. }
    apply (is_RInt_ext dF); [|exact HI]. rewrite Rmin_left, Rmax_right by lra. intros y Hy. unfold dF.
    rewrite noisy_density_eq by lra. unfold noise_density.
    destruct (Rle_dec (Rabs (y - x)) eps) as [Ha|Ha]; [|exfalso; apply Ha; apply Rabs_le; lra].
    assert (Hw : 0 < width eps y).
    { unfold width. assert (Rmax 0 (y - eps) < Rmin 1 (y + eps)); [|lra]. apply Rmax_lub_lt; apply Rmin_glb_lt; lra. }
    replace (/ (2 * eps) / (width eps y * / (2 * eps))) with (/ width eps y) by (field; lra).
    rewrite ln_Rinv, ln_width by (assumption || lra). lazymatch goal with |- ?l = ?r => change (@eq R l r) end. ring.
  Qed.

  Definition P (t : R) : R := (c * ln c - c) * t + (t + 2 * eps - c) * (t + 2 * eps - c) / 2 * ln c.

  Lemma P_derive t : 0 <= t -> is_derive P t (K (t + 2 * eps)).
  Proof.
    intros Ht. pose proof c_le_2e. rewrite K_high by lra. unfold P. auto_derive; [trivial|]. field.
  Qed.

  Definition outer (t : R) : R := - / (2 * eps) * (P t - M t - (P (1 - t) - M (1 - t)) - 2 * eps * ln c * t).

  Lemma outer_is_RInt : is_RInt inner 0 1 (outer 1 - outer 0).
  Proof.
    apply (ftc outer inner); [lra| |]; intros x Hx.
    - unfold outer, inner. apply is_derive_scal.
      replace (K (x + 2 * eps) - K x + K (1 - x + 2 * eps) - K (1 - x) - 2 * eps * ln c)
        with (K (x + 2 * eps) - K x - (- K (1 - x + 2 * eps) - - K (1 - x)) - 2 * eps * ln c) by ring.
      assert (D1 : is_derive (fun t => P (1 - t)) x (- K (1 - x + 2 * eps))).
      { replace (- K (1 - x + 2 * eps)) with (scal (-1) (K (1 - x + 2 * eps))) by (unfold scal; cbn; unfold mult; cbn; ring).
        apply (is_derive_comp P (fun y => 1 - y)); [apply P_derive; lra|auto_derive; [trivial|ring]]. }
      assert (D2 : is_derive (fun t => M (1 - t)) x (- K (1 - x))).
      { replace (- K (1 - x)) with (scal (-1) (K (1 - x))) by (unfold scal; cbn; unfold mult; cbn; ring).
        apply (is_derive_comp M (fun y => 1 - y)); [apply M_derive; lra|auto_derive; [trivial|ring]]. }
      apply (is_derive_minus (fun t => P t - M t - (P (1 - t) - M (1 - t))) (fun t => 2 * eps * ln c * t)); [|auto_derive; [trivial|ring]].
      apply (is_derive_minus (fun t => P t - M t) (fun t => P (1 - t) - M (1 - t))).
      + apply (is_derive_minus P M); [apply P_derive; lra|apply M_derive; lra].
      + now apply (is_derive_minus (fun t => P (1 - t)) (fun t => M (1 - t))).
    - assert (CK : forall g, continuous g x -> 0 <= g x -> continuous (fun t => K (g t)) x).
      { intros g Hg Hp. apply (continuous_comp g K); [assumption|now apply K_continuous]. }
      assert (C1 : continuous (fun t : R => 1 - t) x) by (apply (continuous_minus (fun _ => 1) (fun y => y)); [apply continuous_const|apply continuous_id]).
      assert (C0 : continuous (fun t : R => t) x) by apply continuous_id.
      assert (CP : forall g : R -> R, continuous g x -> continuous (fun t => g t + 2 * eps) x).
      { intros g Hg. apply (continuous_plus g (fun _ => 2 * eps)); [assumption|apply continuous_const]. }
      unfold inner.
      apply (continuous_mult (fun _ => - / (2 * eps)) (fun x => K (x + 2 * eps) - K x + K (1 - x + 2 * eps) - K (1 - x) - 2 * eps * ln c)); [apply continuous_const|].
      apply (continuous_minus (fun x => K (x + 2 * eps) - K x + K (1 - x + 2 * eps) - K (1 - x)) (fun _ => 2 * eps * ln c)); [|apply continuous_const].
      apply (continuous_minus (fun x => K (x + 2 * eps) - K x + K (1 - x + 2 * eps)) (fun x => K (1 - x))); [|apply (CK (fun t => 1 - t)); [assumption|lra]].
      apply (continuous_plus (fun x => K (x + 2 * eps) - K x) (fun x => K (1 - x + 2 * eps))); [|apply (CK (fun t => 1 - t + 2 * eps)); [now apply (CP (fun t => 1 - t))|lra]].
      apply (continuous_minus (fun x => K (x + 2 * eps)) K); [apply (CK (fun t => t + 2 * eps)); [now apply (CP (fun t => t))|lra]|].
      apply K_continuous; lra.
  Qed.
End Fix.

Lemma additive_mi_exact eps mi : 0 < eps -> additive_uniform_mi eps = Fin mi -> is_additive_mi eps mi.
Proof.
  intros He Hm. exists (inner eps (Rmin 1 (2 * eps))). split.
  - intros x Hx. now apply inner_is_RInt.
  - replace mi with (outer eps (Rmin 1 (2 * eps)) 1 - outer eps (Rmin 1 (2 * eps)) 0); [now apply outer_is_RInt|].
    unfold additive_uniform_mi in Hm. unfold outer.
    assert (Hp : 0 < Rmin 1 (2 * eps)) by (apply Rmin_glb_lt; lra).
    rewrite Rminus_0_r. replace (1 - 1) with 0 by ring.
    rewrite (M_low _ 0) by lra. rewrite (M_high _ 1) by apply Rmin_l. unfold P.
    destruct (Rltb (1 / 2) eps) eqn:E1.
    + apply Rltb_true in E1. rewrite Rmin_left in * by lra. rewrite !ln_1. injection Hm as <-. field. lra.
    + apply Rltb_false in E1. rewrite Rmin_right in * by lra.
      destruct (Rltb 0 (2 * eps)) eqn:E2; [|apply Rltb_false in E2; lra]. injection Hm as <-. field. lra.
Qed.

Lemma additive_mi_defined eps : 0 < eps -> exists mi, additive_uniform_mi eps = Fin mi.
Proof.
  intros He. unfold additive_uniform_mi. destruct (Rltb (1 / 2) eps); [eauto|].
  destruct (Rltb 0 (2 * eps)) eqn:E; [eauto|]. apply Rltb_false in E. lra.
Qed.

Lemma additive_mi_unique eps a b : is_additive_mi eps a -> is_additive_mi eps b -> a = b.
Proof.
  intros (f & Hf & Ha) (g & Hg & Hb).
  assert (Hb' : is_RInt f 0 1 b).
  { apply (is_RInt_ext g); [|exact Hb]. rewrite Rmin_left, Rmax_right by lra. intros x Hx.
    rewrite <- (is_RInt_unique _ _ _ _ (Hf x Hx)). symmetry. exact (is_RInt_unique _ _ _ _ (Hg x Hx)). }
  rewrite <- (is_RInt_unique _ _ _ _ Ha). exact (is_RInt_unique _ _ _ _ Hb').
Qed.

Lemma additive_mi_iff eps mi : 0 < eps -> is_additive_mi eps mi <-> additive_uniform_mi eps = Fin mi.
Proof.
  intros He. split; [|now apply additive_mi_exact]. intros H. destruct (additive_mi_defined eps He) as (m & Hm).
  rewrite Hm. f_equal. eapply additive_mi_unique; [|exact H]. now apply additive_mi_exact.
Qed.

Lemma additive_mi_positive eps mi : 0 < eps -> additive_uniform_mi eps = Fin mi -> 0 < mi.
Proof.
  intros He. unfold additive_uniform_mi. destruct (Rltb (1 / 2) eps) eqn:E1.
  - intros [= <-]. apply Rdiv_lt_0_compat; lra.
  - apply Rltb_false in E1. destruct (Rltb 0 (2 * eps)) eqn:E2; [|apply Rltb_false in E2; lra]. intros [= <-].
    pose proof (ln_below (2 * eps)). lra.
Qed.

Lemma additive_mi_low a : 0 < a <= 1 / 2 -> additive_uniform_mi a = Fin (a - ln (2 * a)).
Proof.
  intros H. unfold additive_uniform_mi. destruct (Rltb (1 / 2) a) eqn:E1; [apply Rltb_true in E1; lra|].
  destruct (Rltb 0 (2 * a)) eqn:E2; [reflexivity|]. apply Rltb_false in E2. lra.
Qed.

Lemma additive_mi_high a : 1 / 2 <= a -> additive_uniform_mi a = Fin (1 / 4 / a).
Proof.
  intros H. destruct (Req_dec a (1 / 2)) as [->|Hn].
  - rewrite additive_mi_low by lra. replace (2 * (1 / 2)) with 1 by field. rewrite ln_1. f_equal. field.
  - unfold additive_uniform_mi. destruct (Rltb (1 / 2) a) eqn:E1; [reflexivity|]. apply Rltb_false in E1. lra.
Qed.

Lemma low_decreasing a b : 0 < a -> a < b -> b <= 1 / 2 -> b - ln (2 * b) < a - ln (2 * a).
Proof.
  intros Ha Hab Hb.
  assert (Hq : 0 < b / a) by (apply Rdiv_lt_0_compat; lra).
  pose proof (ln_above (b / a) Hq) as E. rewrite !ln_mult by lra.
  unfold Rdiv in E. rewrite ln_mult, ln_Rinv in E; try lra; try (apply Rinv_0_lt_compat; lra).
  assert (1 - / (b * / a) = (b - a) * / b) by (field; lra).
  assert ((b - a) * 1 < (b - a) * / b); [|lra].
  apply Rmult_lt_compat_l; [lra|]. rewrite <- Rinv_1. apply Rinv_lt_contravar; lra.
Qed.

Lemma high_decreasing a b : 1 / 2 <= a -> a < b -> 1 / 4 / b < 1 / 4 / a.
Proof.
  intros Ha Hab. unfold Rdiv. apply Rmult_lt_compat_l; [lra|]. apply Rinv_lt_contravar; [|assumption]. apply Rmult_lt_0_compat; lra.
Qed.

Lemma additive_mi_decreasing a b ma mb : 0 < a -> a < b ->
  additive_uniform_mi a = Fin ma -> additive_uniform_mi b = Fin mb -> mb < ma.
Proof.
  intros Ha Hab. destruct (Rle_dec b (1 / 2)) as [Hb|Hb].
  - rewrite !additive_mi_low by lra. intros [= <-] [= <-]. now apply low_decreasing.
  - rewrite (additive_mi_high b) by lra. destruct (Rle_dec (1 / 2) a) as [Ha'|Ha'].
    + rewrite (additive_mi_high a) by lra. intros [= <-] [= <-]. now apply high_decreasing.
    + rewrite (additive_mi_low a) by lra. intros [= <-] [= <-].
      pose proof (low_decreasing a (1 / 2) ltac:(lra) ltac:(lra) ltac:(lra)) as H1.
      pose proof (high_decreasing (1 / 2) b ltac:(lra) ltac:(lra)) as H2.
      replace (2 * (1 / 2)) with 1 in H1 by field. rewrite ln_1 in H1. replace (1 / 4 / (1 / 2)) with (1 / 2) in H2 by field. lra.
Qed.

(** Continuity everywhere on the positive axis, and so at the branch point 1/2. *)
Definition real_of (a : fl) : R := match a with Fin r => r | _ => 0 end.

Lemma additive_mi_continuous eps : 0 < eps -> continuous (fun e => real_of (additive_uniform_mi e)) eps.
Proof.
  intros He.
  assert (Dl : forall e, 0 < e -> is_derive (fun a => a - ln (2 * a)) e (1 - / e)).
  { intros e H. auto_derive; [lra|]. field. lra. }
  assert (Dh : forall e, 0 < e -> is_derive (fun a => 1 / 4 / a) e (- / (4 * (e * e)))).
  { intros e H. auto_derive; [lra|]. field. lra. }
  destruct (Rtotal_order eps (1 / 2)) as [H|[H|H]].
  - eapply derive_continuous. eapply (local_derive _ _ _ _ (Rmin eps (1 / 2 - eps))); [apply Rmin_glb_lt; lra| |now apply Dl].
    intros t Ht. apply Rabs_lt_between in Ht. pose proof (Rmin_l eps (1 / 2 - eps)). pose proof (Rmin_r eps (1 / 2 - eps)).
    rewrite additive_mi_low by lra. reflexivity.
  - subst eps. eapply derive_continuous. eapply (local_derive _ (fun t => if Rle_dec t (1 / 2) then t - ln (2 * t) else 1 / 4 / t) _ _ (1 / 4)); [lra| |].
    + intros t Ht. apply Rabs_lt_between in Ht. destruct (Rle_dec t (1 / 2)); [rewrite additive_mi_low by lra|rewrite additive_mi_high by lra]; reflexivity.
    + eapply (glue_derive _ (fun a => a - ln (2 * a)) (fun a => 1 / 4 / a)).
      * intros t Ht. destruct (Rle_dec t (1 / 2)); [reflexivity|lra].
      * intros t Ht. destruct (Rle_dec t (1 / 2)); [|reflexivity]. replace t with (1 / 2) by lra.
        replace (2 * (1 / 2)) with 1 by field. rewrite ln_1. field.
      * apply Dl; lra.
      * replace (1 - / (1 / 2)) with (- / (4 * (1 / 2 * (1 / 2)))) by field. apply Dh; lra.
  - eapply derive_continuous. eapply (local_derive _ _ _ _ (eps - 1 / 2)); [lra| |now apply Dh].
    intros t Ht. apply Rabs_lt_between in Ht. rewrite additive_mi_high by lra. reflexivity.
Qed.

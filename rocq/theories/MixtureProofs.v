(** The integral behind DiscreteUniformMixtureSampler. *)
From Coquelicot Require Import Coquelicot.
From Verif Require Import Base BaseLemmas UtilsModel JaxModel SamplersModel SamplersSpec AnalysisLemmas.
Open Scope R_scope.
Local Notation length := List.length.

(** Number of supports [k, k+2] with 0 <= k < m covering the interval (j, j+1). *)
Definition cover (m j : nat) : R := if (j =? 0)%nat then 1 else if (j =? m)%nat then 1 else 2.

Lemma rsum_indicator j v a n :
  rsum (map (fun k => if (k =? j)%nat then v else 0) (seq a n)) = if (a <=? j)%nat && (j <? a + n)%nat then v else 0.
Proof.
  revert a. induction n as [|n IH]; intros a; cbn [seq map].
  - change (rsum []) with 0. destruct (Nat.leb_spec a j); destruct (Nat.ltb_spec j (a + 0)); cbn [andb]; try reflexivity; lia.
  - rewrite rsum_cons, IH. destruct (Nat.eqb_spec a j); destruct (Nat.leb_spec a j); destruct (Nat.leb_spec (S a) j);
      destruct (Nat.ltb_spec j (a + S n)); destruct (Nat.ltb_spec j (S a + n)); cbn [andb]; try lra; lia.
Qed.

Lemma step_density_split k j y : INR j < y < INR j + 1 ->
  step_density k y = (if (k =? j)%nat then 1 / 2 else 0) + (if (S k =? j)%nat then 1 / 2 else 0).
Proof.
  intros Hy. unfold step_density.
  destruct (Nat.eqb_spec k j) as [->|H1].
  - destruct (Nat.eqb_spec (S j) j); [lia|]. destruct (Rle_dec (INR j) y); [|lra]. destruct (Rle_dec y (INR j + 2)); lra.
  - destruct (Nat.eqb_spec (S k) j) as [<-|H2].
    + rewrite S_INR in Hy. destruct (Rle_dec (INR k) y); [|lra]. destruct (Rle_dec y (INR k + 2)); lra.
    + destruct (Rle_dec (INR k) y) as [Ha|]; [|lra]. destruct (Rle_dec y (INR k + 2)) as [Hb|]; [|lra]. exfalso.
      assert (Hlt : INR k < INR (S j)) by (rewrite S_INR; lra). apply INR_lt in Hlt.
      assert (Hlt2 : INR j < INR (S (S k))) by (rewrite !S_INR; lra). apply INR_lt in Hlt2. lia.
Qed.

Lemma rsum_map_plus {A} (f g : A -> R) l : rsum (map (fun a => f a + g a) l) = rsum (map f l) + rsum (map g l).
Proof. induction l as [|a l IH]; cbn [map]; [cbn; lra|]. rewrite !rsum_cons, IH. ring. Qed.

Lemma mixture_density_eq m j y : (1 <= m)%nat -> (j <= m)%nat -> INR j < y < INR j + 1 ->
  mixture_density m y = cover m j / 2 / INR m.
Proof.
  intros Hm Hj Hy. unfold mixture_density, rmean. rewrite map_length, seq_length. f_equal.
  erewrite map_ext; [|intros k; apply (step_density_split k j y Hy)].
  rewrite rsum_map_plus, rsum_indicator.
  assert (E : rsum (map (fun k => if (S k =? j)%nat then 1 / 2 else 0) (seq 0 m)) = if (j =? 0)%nat then 0 else 1 / 2).
  { destruct j as [|j]; cbn [Nat.eqb].
    - replace (map _ (seq 0 m)) with (map (fun _ : nat => 0) (seq 0 m)); [|apply map_ext; reflexivity].
      clear. induction (seq 0 m) as [|a l IH]; cbn [map]; [reflexivity|]. rewrite rsum_cons, IH. ring.
    - change (map (fun k => if (k =? j)%nat then 1 / 2 else 0) (seq 0 m)) with (map (fun k => if (k =? j)%nat then 1 / 2 else 0) (seq 0 m)).
      rewrite rsum_indicator. destruct (Nat.leb_spec 0 j); destruct (Nat.ltb_spec j (0 + m)); cbn [andb]; try reflexivity; lia. }
  rewrite E. unfold cover. destruct (Nat.eqb_spec j 0); destruct (Nat.eqb_spec j m); destruct (Nat.leb_spec 0 j); destruct (Nat.ltb_spec j (0 + m)); cbn [andb]; try lra; lia.
Qed.

Definition component_kl (m x : nat) : R := ln (INR m) - (ln (cover m x) + ln (cover m (S x))) / 2.

Lemma cover_pos m j : 0 < cover m j.
Proof. unfold cover. destruct (j =? 0)%nat; [lra|]. destruct (j =? m)%nat; lra. Qed.

Lemma mixture_unit m x j : (1 <= m)%nat -> (x < m)%nat -> (j = x \/ j = S x) ->
  is_RInt (fun y => step_density x y * ln (step_density x y / mixture_density m y)) (INR j) (INR j + 1)
    ((INR j + 1 - INR j) * (1 / 2 * (ln (INR m) - ln (cover m j)))).
Proof.
  intros Hm Hx Hj. apply const_RInt; [lra|]. intros y Hy.
  rewrite (mixture_density_eq m j) by (assumption || lia).
  assert (Hs : step_density x y = 1 / 2).
  { rewrite (step_density_split x j y Hy). destruct Hj as [->| ->].
    - rewrite Nat.eqb_refl. destruct (Nat.eqb_spec (S x) x); [lia|lra].
    - rewrite Nat.eqb_refl. destruct (Nat.eqb_spec x (S x)); [lia|lra]. }
  rewrite Hs. f_equal. pose proof (cover_pos m j) as Hc. assert (Hp : 0 < INR m) by (apply lt_0_INR; lia).
  replace (1 / 2 / (cover m j / 2 / INR m)) with (INR m * / cover m j) by (field; lra).
  rewrite ln_mult, ln_Rinv; try assumption; [ring|]. now apply Rinv_0_lt_compat.
Qed.

Lemma mixture_component m x : (1 <= m)%nat -> (x < m)%nat ->
  is_RInt (fun y => step_density x y * ln (step_density x y / mixture_density m y)) (INR x) (INR x + 2) (component_kl m x).
Proof.
  intros Hm Hx.
  pose proof (mixture_unit m x x Hm Hx (or_introl eq_refl)) as H1.
  pose proof (mixture_unit m x (S x) Hm Hx (or_intror eq_refl)) as H2.
  rewrite S_INR in H2. replace (INR x + 1 + 1) with (INR x + 2) in H2 by ring.
  pose proof (is_RInt_Chasles _ _ _ _ _ _ H1 H2) as H.
  replace (component_kl m x) with (plus ((INR x + 1 - INR x) * (1 / 2 * (ln (INR m) - ln (cover m x)))) ((INR x + 2 - (INR x + 1)) * (1 / 2 * (ln (INR m) - ln (cover m (S x)))))); [exact H|].
  unfold plus, component_kl. cbn. lra.
Qed.

Lemma rsum_map_const {A} (c : R) (l : list A) : rsum (map (fun _ => c) l) = INR (length l) * c.
Proof. induction l as [|a l IH]; cbn [map length]; [cbn; lra|]. rewrite rsum_cons, IH, S_INR. ring. Qed.

Lemma rsum_map_scal {A} (f : A -> R) c l : rsum (map (fun a => c * f a) l) = c * rsum (map f l).
Proof. induction l as [|a l IH]; cbn [map]; [cbn; lra|]. rewrite !rsum_cons, IH. ring. Qed.

Lemma ln_cover_sum m : (1 <= m)%nat -> rsum (map (fun x => ln (cover m x)) (seq 0 m)) = (INR m - 1) * ln 2.
Proof.
  intros Hm.
  assert (E : map (fun x => ln (cover m x)) (seq 0 m) = map (fun x => ln 2 + (if (x =? 0)%nat then - ln 2 else 0)) (seq 0 m)).
  { apply map_ext_in. intros x Hx. apply in_seq in Hx. unfold cover. destruct (Nat.eqb_spec x 0); [rewrite ln_1; lra|].
    destruct (Nat.eqb_spec x m); [lia|lra]. }
  rewrite E, rsum_map_plus, rsum_map_const, rsum_indicator, seq_length.
  destruct (Nat.leb_spec 0 0); destruct (Nat.ltb_spec 0 (0 + m)); cbn [andb]; try lia; lra.
Qed.

Lemma ln_cover_sum' m : (1 <= m)%nat -> rsum (map (fun x => ln (cover m (S x))) (seq 0 m)) = (INR m - 1) * ln 2.
Proof.
  intros Hm.
  assert (E : map (fun x => ln (cover m (S x))) (seq 0 m) = map (fun x => ln 2 + (if (x =? m - 1)%nat then - ln 2 else 0)) (seq 0 m)).
  { apply map_ext_in. intros x Hx. apply in_seq in Hx. unfold cover. destruct (Nat.eqb_spec (S x) 0); [lia|].
    destruct (Nat.eqb_spec (S x) m); destruct (Nat.eqb_spec x (m - 1)); try lia; [rewrite ln_1; lra|lra]. }
  rewrite E, rsum_map_plus, rsum_map_const, rsum_indicator, seq_length.
  destruct (Nat.leb_spec 0 (m - 1)); destruct (Nat.ltb_spec (m - 1) (0 + m)); cbn [andb]; try lia; lra.
Qed.

Lemma mixture_mi_exact (m : nat) : (1 <= m)%nat -> is_mixture_mi m (ln (INR m) - (INR m - 1) * ln 2 / INR m).
Proof.
  intros Hm. exists (map (component_kl m) (seq 0 m)). split; [now rewrite map_length, seq_length|]. split.
  - intros x Hx. rewrite (nth_indep _ _ (component_kl m 0)) by (now rewrite map_length, seq_length).
    rewrite map_nth, seq_nth by assumption. now apply mixture_component.
  - unfold rmean. rewrite map_length, seq_length.
    assert (Hp : 0 < INR m) by (apply lt_0_INR; lia).
    assert (E : rsum (map (component_kl m) (seq 0 m)) = INR m * ln (INR m) - (INR m - 1) * ln 2).
    { replace (map (component_kl m) (seq 0 m)) with (map (fun x => ln (INR m) + - / 2 * (ln (cover m x) + ln (cover m (S x)))) (seq 0 m))
        by (apply map_ext; intros x; unfold component_kl; field).
      rewrite rsum_map_plus, rsum_map_const, rsum_map_scal, rsum_map_plus, ln_cover_sum, ln_cover_sum', seq_length by assumption. field. }
    rewrite E. field. lra.
Qed.

Lemma mixture_mi_unique m a b : is_mixture_mi m a -> is_mixture_mi m b -> a = b.
Proof.
  intros (k & Lk & Hk & ->) (l & Ll & Hl & ->). f_equal. apply (nth_ext _ _ 0 0); [congruence|].
  intros n Hn. rewrite Lk in Hn. rewrite <- (is_RInt_unique _ _ _ _ (Hk n Hn)). exact (is_RInt_unique _ _ _ _ (Hl n Hn)).
Qed.

Lemma mixture_mi_nonneg (m : nat) : (1 <= m)%nat -> 0 <= ln (INR m) - (INR m - 1) * ln 2 / INR m.
Proof.
  intros Hm. destruct (Nat.eq_dec m 1) as [->|Hn].
  - cbn [INR]. rewrite ln_1. lra.
  - assert (H2 : 2 <= INR m) by (replace 2 with (INR 2) by (cbn; lra); apply le_INR; lia).
    assert (Hl : ln 2 <= ln (INR m)) by (destruct (Req_dec 2 (INR m)) as [<-|]; [lra|left; apply ln_increasing; lra]).
    assert (0 < ln 2) by (rewrite <- ln_1; apply ln_increasing; lra).
    replace ((INR m - 1) * ln 2 / INR m) with (ln 2 - ln 2 / INR m) by (field; lra).
    assert (0 < ln 2 / INR m) by (apply Rdiv_lt_0_compat; lra). lra.
Qed.

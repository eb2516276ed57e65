(** Rational bounds on a few logarithms. *)
From Coq Require Import Reals Lra Lia.
From Coquelicot Require Import Coquelicot.
From Verif Require Import AnalysisLemmas.
Open Scope R_scope.

Definition artanh7 (u : R) : R := 2 * (u + u ^ 3 / 3 + u ^ 5 / 5 + u ^ 7 / 7 + u ^ 9 / 9 + u ^ 11 / 11 + u ^ 13 / 13).

Lemma nondecreasing_from_derive (f df : R -> R) a b : a <= b ->
  (forall x, a <= x <= b -> is_derive f x (df x)) -> (forall x, a <= x <= b -> 0 <= df x) -> f a <= f b.
Proof.
  intros Hab D P.
  destruct (MVT_gen f a b df) as (c & Hc & E).
  - intros x Hx. rewrite Rmin_left, Rmax_right in Hx by assumption. apply D. lra.
  - intros x Hx. rewrite Rmin_left, Rmax_right in Hx by assumption. apply continuity_pt_filterlim.
    apply (derive_continuous f x (df x)). apply D. lra.
  - rewrite Rmin_left, Rmax_right in Hc by assumption. pose proof (P c Hc).
    assert (0 <= df c * (b - a)) by (apply Rmult_le_pos; lra). lra.
Qed.

Lemma artanh_bounds u : 0 <= u < 1 -> artanh7 u <= ln ((1 + u) / (1 - u)) <= artanh7 u + 2 * u ^ 15 / (15 * (1 - u ^ 2)).
Proof.
  intros Hu. assert (Hsq : forall x, 0 <= x <= u -> 0 < 1 - x ^ 2).
  { intros x Hx. replace (1 - x ^ 2) with ((1 - x) * (1 + x)) by ring. apply Rmult_lt_0_compat; lra. }
  assert (H0 : ln ((1 + 0) / (1 - 0)) = 0) by (replace ((1 + 0) / (1 - 0)) with 1 by field; apply ln_1).
  split.
  - pose proof (nondecreasing_from_derive (fun x => ln ((1 + x) / (1 - x)) - artanh7 x) (fun x => 2 * x ^ 14 / (1 - x ^ 2)) 0 u) as M.
    cbv beta in M. rewrite H0 in M. unfold artanh7 in *.
    match type of M with _ -> _ -> _ -> ?l <= _ => replace l with 0 in M by field end.
    apply Rminus_le_0, M; [lra| |].
    + intros x Hx. pose proof (Hsq x Hx). auto_derive.
      * split; [lra|]. split; [apply Rdiv_lt_0_compat; lra|trivial].
      * field. lra.
    + intros x Hx. pose proof (Hsq x Hx). apply Rdiv_le_0_compat; [|assumption]. apply Rmult_le_pos; [lra|apply pow_le; lra].
  - pose proof (nondecreasing_from_derive (fun x => artanh7 x + 2 * x ^ 15 / (15 * (1 - x ^ 2)) - ln ((1 + x) / (1 - x)))
      (fun x => 4 * x ^ 16 / (15 * (1 - x ^ 2) ^ 2)) 0 u) as M.
    cbv beta in M. rewrite H0 in M. unfold artanh7 in *.
    match type of M with _ -> _ -> _ -> ?l <= _ => replace l with 0 in M by field end.
    apply Rminus_le_0, M; [lra| |].
    + intros x Hx. pose proof (Hsq x Hx). auto_derive.
      * repeat split; try lra. apply Rdiv_lt_0_compat; lra.
      * field. lra.
    + intros x Hx. pose proof (Hsq x Hx). apply Rdiv_le_0_compat; [|apply Rmult_lt_0_compat; [lra|now apply pow_lt]].
      apply Rmult_le_pos; [lra|apply pow_le; lra].
Qed.

Ltac ln_by u r := let H := fresh in pose proof (artanh_bounds u ltac:(lra)) as H; unfold artanh7 in H;
  replace ((1 + u) / (1 - u)) with r in H by field; lra.

Lemma ln2_bounds : 0.6931471 <= ln 2 <= 0.6931472.
Proof. ln_by (1 / 3) 2. Qed.

Lemma ln_3_2_bounds : 0.4054651 <= ln (3 / 2) <= 0.4054652.
Proof. ln_by (1 / 5) (3 / 2). Qed.

Lemma ln_5_4_bounds : 0.2231435 <= ln (5 / 4) <= 0.2231436.
Proof. ln_by (1 / 9) (5 / 4). Qed.

Lemma ln_8_7_bounds : 0.1335313 <= ln (8 / 7) <= 0.1335314.
Proof. ln_by (1 / 15) (8 / 7). Qed.

Lemma ln_12_11_bounds : 0.0870113 <= ln (12 / 11) <= 0.0870114.
Proof. ln_by (1 / 23) (12 / 11). Qed.

Lemma ln_13_12_bounds : 0.0800427 <= ln (13 / 12) <= 0.0800428.
Proof. ln_by (1 / 25) (13 / 12). Qed.

Lemma ln_quot a b : 0 < a -> 0 < b -> ln (a / b) = ln a - ln b.
Proof. intros Ha Hb. unfold Rdiv. rewrite ln_mult, ln_Rinv; try assumption; [ring|now apply Rinv_0_lt_compat]. Qed.

Lemma ln_small_table :
  ln 1 = 0 /\ ln 3 = ln 2 + ln (3 / 2) /\ ln 4 = 2 * ln 2 /\ ln 5 = 2 * ln 2 + ln (5 / 4) /\ ln 6 = ln 2 + ln 3 /\
  ln 7 = 3 * ln 2 - ln (8 / 7) /\ ln 8 = 3 * ln 2 /\ ln 9 = 2 * ln 3 /\ ln 10 = ln 2 + ln 5 /\ ln 11 = 2 * ln 2 + ln 3 - ln (12 / 11) /\
  ln 12 = 2 * ln 2 + ln 3 /\ ln 13 = 2 * ln 2 + ln 3 + ln (13 / 12) /\ ln 14 = ln 2 + ln 7 /\ ln 15 = ln 3 + ln 5 /\ ln 16 = 4 * ln 2.
Proof.
  assert (E4 : ln 4 = 2 * ln 2) by (replace 4 with (2 * 2) by ring; rewrite ln_mult by lra; ring).
  assert (E8 : ln 8 = 3 * ln 2) by (replace 8 with (2 * 4) by ring; rewrite ln_mult, E4 by lra; ring).
  assert (E16 : ln 16 = 4 * ln 2) by (replace 16 with (2 * 8) by ring; rewrite ln_mult, E8 by lra; ring).
  assert (E6 : ln 6 = ln 2 + ln 3) by (replace 6 with (2 * 3) by ring; rewrite ln_mult by lra; ring).
  assert (E12 : ln 12 = 2 * ln 2 + ln 3) by (replace 12 with (4 * 3) by ring; rewrite ln_mult, E4 by lra; ring).
  rewrite !ln_quot by lra. rewrite ln_1, E4, E6, E8, E12, E16. repeat split; try lra.
  - replace 9 with (3 * 3) by ring; rewrite ln_mult by lra; ring.
  - replace 10 with (2 * 5) by ring; rewrite ln_mult by lra; ring.
  - replace 14 with (2 * 7) by ring; rewrite ln_mult by lra; ring.
  - replace 15 with (3 * 5) by ring; rewrite ln_mult by lra; ring.
Qed.

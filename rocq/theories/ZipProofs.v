(** The series of ZeroInflatedPoissonizationSampler.mutual_information. *)
From Coquelicot Require Import Coquelicot.
From Verif Require Import Base BaseLemmas UtilsModel JaxModel SamplersModel SamplersSpec AnalysisLemmas LogBounds.
Open Scope R_scope.
Local Notation length := List.length.

Definition zip_sum (n : nat) : R := rsum (map (fun i => ln i * Rpower 2 (- i)) (map (fun i => INR i) (seq 1 n))).
Definition zip_bracket (n : nat) : R := 2 * ln 2 - np_euler_gamma - zip_sum n.

Lemma zip_mi_some p t : (0 < t)%Z -> zip_mi p (Some t) = Ok (Fin ((1 - p) * zip_bracket (Z.to_nat t))).
Proof. intros H. unfold zip_mi. destruct (Z.leb_spec t 0); [lia|]. reflexivity. Qed.

Lemma pow2_neg n : Rpower 2 (- INR n) = / 2 ^ n.
Proof. rewrite Rpower_Ropp, Rpower_pow by lra. reflexivity. Qed.

Lemma zip_sum_S n : zip_sum (S n) = zip_sum n + ln (INR (S n)) * / 2 ^ (S n).
Proof.
  unfold zip_sum. rewrite seq_S, !map_app, rsum_app. cbn [map]. rewrite pow2_neg. rewrite (rsum_cons _ []).
  change (rsum []) with 0. change (1 + n)%nat with (S n). ring.
Qed.

Lemma inv_pow2_pos n : 0 < / 2 ^ n.
Proof. apply Rinv_0_lt_compat, pow_lt. lra. Qed.

Lemma zip_sum_grows n : zip_sum n <= zip_sum (S n).
Proof.
  rewrite zip_sum_S. assert (0 <= ln (INR (S n)) * / 2 ^ S n); [|lra].
  apply Rmult_le_pos; [|left; apply inv_pow2_pos].
  rewrite <- ln_1. destruct n; [cbn [INR]; lra|]. left. apply ln_increasing; [lra|]. change 1 with (INR 1). apply lt_INR. lia.
Qed.

Lemma zip_sum_monotone n m : (n <= m)%nat -> zip_sum n <= zip_sum m.
Proof. intros H. induction H; [lra|]. pose proof (zip_sum_grows m). lra. Qed.

Lemma zip_bracket_antitone n m : (n <= m)%nat -> zip_bracket m <= zip_bracket n.
Proof. intros H. unfold zip_bracket. pose proof (zip_sum_monotone n m H). lra. Qed.

(** Tangent to the logarithm at 16. *)
Lemma ln_tangent x : 0 < x -> ln x <= x / 16 + (ln 16 - 1).
Proof. intros H. pose proof (ln_below (x / 16) ltac:(lra)) as E. rewrite ln_quot in E by lra. lra. Qed.

Definition zip_tail (n : nat) : R := ((INR n + 2) / 16 + (ln 16 - 1)) * / 2 ^ n.

Lemma zip_upper_step n : zip_sum (S n) + zip_tail (S n) <= zip_sum n + zip_tail n.
Proof.
  rewrite zip_sum_S. unfold zip_tail. pose proof (ln_tangent (INR (S n)) ltac:(apply lt_0_INR; lia)) as H. rewrite S_INR in *.
  cbn [pow]. rewrite Rinv_mult. pose proof (inv_pow2_pos n) as Hp. set (q := / 2 ^ n) in *. clearbody q.
  assert (ln (INR n + 1) * (/ 2 * q) <= ((INR n + 1) / 16 + (ln 16 - 1)) * (/ 2 * q)) by (apply Rmult_le_compat_r; lra).
  lra.
Qed.

Lemma zip_tail_pos n : 0 <= zip_tail n.
Proof.
  unfold zip_tail. apply Rmult_le_pos; [|left; apply inv_pow2_pos]. pose proof (pos_INR n). pose proof ln2_bounds.
  destruct ln_small_table as (_ & _ & _ & _ & _ & _ & _ & _ & _ & _ & _ & _ & _ & _ & E). lra.
Qed.

Lemma zip_upper n m : (n <= m)%nat -> zip_sum m <= zip_sum n + zip_tail n.
Proof.
  intros H. assert (G : zip_sum m + zip_tail m <= zip_sum n + zip_tail n).
  { induction H; [lra|]. pose proof (zip_upper_step m). lra. }
  pose proof (zip_tail_pos m). lra.
Qed.

Lemma zip_sum_cv : exists l, Un_cv zip_sum l /\ forall n, zip_sum n <= l <= zip_sum n + zip_tail n.
Proof.
  assert (Hg : Un_growing zip_sum) by (intros n; apply zip_sum_grows).
  destruct (Un_cv_crit zip_sum Hg) as (l & Hl).
  { exists (zip_sum 0 + zip_tail 0). intros x (n & ->). apply zip_upper. lia. }
  exists l. split; [assumption|]. intros n. split.
  - apply (growing_ineq zip_sum); assumption.
  - apply Rnot_lt_le. intros Hlt. destruct (Hl (l - (zip_sum n + zip_tail n))) as (N & HN); [lra|].
    specialize (HN (max N n) (Nat.le_max_l _ _)). pose proof (zip_upper n (max N n) (Nat.le_max_r _ _)).
    unfold R_dist in HN. apply Rabs_def2 in HN. lra.
Qed.

Lemma zip_sum_16 : 0.5077898 <= zip_sum 16 <= 0.5077901.
Proof.
  rewrite !zip_sum_S. change (zip_sum 0) with 0.
  replace (INR 16) with 16 by (cbn; lra). replace (INR 15) with 15 by (cbn; lra). replace (INR 14) with 14 by (cbn; lra).
  replace (INR 13) with 13 by (cbn; lra). replace (INR 12) with 12 by (cbn; lra). replace (INR 11) with 11 by (cbn; lra).
  replace (INR 10) with 10 by (cbn; lra). replace (INR 9) with 9 by (cbn; lra). replace (INR 8) with 8 by (cbn; lra).
  replace (INR 7) with 7 by (cbn; lra). replace (INR 6) with 6 by (cbn; lra). replace (INR 5) with 5 by (cbn; lra).
  replace (INR 4) with 4 by (cbn; lra). replace (INR 3) with 3 by (cbn; lra). replace (INR 2) with 2 by (cbn; lra). 
  replace (INR 1) with 1 by (cbn; lra).
  destruct ln_small_table as (E1 & E3 & E4 & E5 & E6 & E7 & E8 & E9 & E10 & E11 & E12 & E13 & E14 & E15 & E16).
  rewrite E16, E15, E14, E13, E12, E11, E10, E9, E8, E7, E6, E5, E4, E3, E1.
  pose proof ln2_bounds. pose proof ln_3_2_bounds. pose proof ln_5_4_bounds. pose proof ln_8_7_bounds. pose proof ln_12_11_bounds. pose proof ln_13_12_bounds.
  set (a := ln 2) in *. set (b := ln (3 / 2)) in *. set (c := ln (5 / 4)) in *. set (d := ln (8 / 7)) in *. set (e := ln (12 / 11)) in *. set (f := ln (13 / 12)) in *.
  clearbody a b c d e f. split; lra.
Qed.

Lemma zip_lower k : zip_sum 16 + ln 16 * (/ 2 ^ 16 - / 2 ^ (16 + k)) <= zip_sum (16 + k).
Proof.
  induction k as [|k IH]; [rewrite Nat.add_0_r; lra|]. replace (16 + S k)%nat with (S (16 + k)) by lia. rewrite (zip_sum_S (16 + k)).
  assert (H : ln 16 <= ln (INR (S (16 + k)))).
  { left. apply ln_increasing; [lra|]. replace 16 with (INR 16) by (cbn; lra). apply lt_INR. lia. }
  assert (E : / 2 ^ S (16 + k) = / 2 ^ (16 + k) / 2) by (cbn [pow]; rewrite Rinv_mult; lra). rewrite E.
  pose proof (inv_pow2_pos (16 + k)) as Hp. set (q := / 2 ^ (16 + k)) in *. clearbody q.
  assert (H2 : ln 16 * (q / 2) <= ln (INR (S (16 + k))) * (q / 2)) by (apply Rmult_le_compat_r; lra).
  set (l := ln 16) in *. set (m := ln (INR (S (16 + k)))) in *. set (c := / 2 ^ 16) in *. clearbody l m c.
  replace (l * (c - q / 2)) with (l * (c - q) + l * (q / 2)) by field. lra.
Qed.

Lemma zip_limit : exists l, Un_cv zip_bracket l /\ Rabs (3012 / 10000 - l) < 5 / 100000.
Proof.
  destruct zip_sum_cv as (s & Hs & Hb). exists (2 * ln 2 - np_euler_gamma - s). split.
  - unfold zip_bracket. intros e He. destruct (Hs e He) as (N & HN). exists N. intros n Hn. specialize (HN n Hn).
    unfold R_dist in *. replace (2 * ln 2 - np_euler_gamma - zip_sum n - (2 * ln 2 - np_euler_gamma - s)) with (- (zip_sum n - s)) by ring.
    now rewrite Rabs_Ropp.
  - pose proof (Hb 16%nat) as H16. pose proof (proj1 (Hb 24%nat)) as H24. pose proof (zip_lower 8) as Hl. pose proof zip_sum_16.
    unfold zip_tail in *. replace (INR 16) with 16 in * by (cbn; lra). change (16 + 8)%nat with 24%nat in Hl.
    destruct ln_small_table as (_ & _ & _ & _ & _ & _ & _ & _ & _ & _ & _ & _ & _ & _ & E16). rewrite E16 in *.
    pose proof ln2_bounds. unfold np_euler_gamma.
    set (a := ln 2) in *. clearbody a. apply Rabs_def1; lra.
Qed.

Lemma zip_mi_limit p : 0 <= p < 1 -> exists l,
  (forall d, 0 < d -> exists t0, (0 < t0)%Z /\ forall t v, (t0 <= t)%Z -> zip_mi p (Some t) = Ok (Fin v) -> Rabs (v - (1 - p) * l) < d) /\
  (forall v, zip_mi p None = Ok (Fin v) -> Rabs (v - (1 - p) * l) <= (1 - p) * (5 / 100000)) /\ 0 < l.
Proof.
  intros Hp. destruct zip_limit as (l & Hl & Hd). exists l. split; [|split].
  - intros d Hdp. destruct (Hl d Hdp) as (N & HN). exists (Z.of_nat N + 1)%Z. split; [lia|]. intros t v Ht E.
    rewrite zip_mi_some in E by lia. injection E as <-. rewrite <- Rmult_minus_distr_l, Rabs_mult, Rabs_right by lra.
    specialize (HN (Z.to_nat t) ltac:(lia)). unfold R_dist in HN.
    eapply Rle_lt_trans; [|exact HN]. rewrite <- (Rmult_1_l (Rabs (zip_bracket (Z.to_nat t) - l))) at 2.
    apply Rmult_le_compat_r; [apply Rabs_pos|lra].
  - intros v E. unfold zip_mi in E. injection E as <-. rewrite <- Rmult_minus_distr_l, Rabs_mult, (Rabs_right (1 - p)) by lra.
    apply Rmult_le_compat_l; lra.
  - apply Rabs_def2 in Hd. lra.
Qed.

Lemma zip_mi_antitone p t1 t2 v1 v2 : 0 <= p < 1 -> (t1 <= t2)%Z ->
  zip_mi p (Some t1) = Ok (Fin v1) -> zip_mi p (Some t2) = Ok (Fin v2) -> v2 <= v1.
Proof.
  intros Hp Ht E1 E2. unfold zip_mi in *. destruct (Z.leb_spec t1 0); [discriminate|]. destruct (Z.leb_spec t2 0); [discriminate|].
  injection E1 as <-. injection E2 as <-. apply Rmult_le_compat_l; [lra|]. apply (zip_bracket_antitone (Z.to_nat t1) (Z.to_nat t2)). lia.
Qed.

Lemma zip_sum_f n : zip_sum (S n) = sum_f_R0 (fun k => ln (INR (S k)) / 2 ^ (S k)) n.
Proof.
  induction n as [|n IH]; rewrite zip_sum_S.
  - change (zip_sum 0) with 0. cbn [sum_f_R0]. unfold Rdiv. ring.
  - cbn [sum_f_R0]. rewrite IH. reflexivity.
Qed.

Lemma zip_mi_formula p t : (0 < t)%Z ->
  zip_mi p (Some t) = Ok (Fin ((1 - p) * (2 * ln 2 - np_euler_gamma - sum_f_R0 (fun k => ln (INR (S k)) / 2 ^ (S k)) (Z.to_nat t - 1)))).
Proof.
  intros Ht. rewrite zip_mi_some by assumption. unfold zip_bracket. destruct (Z.to_nat t) as [|n] eqn:E; [lia|].
  rewrite zip_sum_f. replace (S n - 1)%nat with n by lia. reflexivity.
Qed.

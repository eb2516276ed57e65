(** Functions with the assumed properties exist: the limits of Gauss' products. *)
From Coq Require Import Reals Lra Lia.
From Coquelicot Require Import Coquelicot.
From Verif Require Import GammaSpec GammaProofs.
Open Scope R_scope.

Definition psi_n (x : R) (n : nat) : R := ln (INR (S n)) - sum_n (fun k => / (x + INR k)) n.
Definition lg_n (x : R) (n : nat) : R := x * ln (INR (S n)) + sum_n (fun k => ln (INR (S k))) n - ln (INR (S n)) - sum_n (fun k => ln (x + INR k)) n.
Definition digamma (x : R) : R := real (Lim_seq (psi_n x)).
Definition log_gamma (x : R) : R := real (Lim_seq (lg_n x)).

(** ** Convergence *)
Lemma sum_SR (u : nat -> R) n : sum_n u (S n) = sum_n u n + u (S n).
Proof. apply (sum_Sn u n). Qed.
Lemma sum_OR (u : nat -> R) : sum_n u 0 = u 0%nat.
Proof. apply (sum_O u). Qed.
Lemma inv_square_series : ex_series (fun n => / INR (S n) ^ 2).
Proof.
  apply (@ex_series_le R_AbsRing R_CompleteNormedModule _ (fun n => 2 * (/ INR (S n) - / INR (S (S n))))).
  - intros n. assert (P : 0 < INR (S n)) by (apply lt_0_INR; lia). assert (P1 : 1 <= INR (S n)) by (rewrite S_INR; assert (Q := pos_INR n); lra).
    change (norm (/ INR (S n) ^ 2)) with (Rabs (/ INR (S n) ^ 2)). rewrite Rabs_right; [|apply Rle_ge, Rlt_le, Rinv_0_lt_compat, pow_lt; assumption].
    rewrite (S_INR (S n)). set (y := INR (S n)) in *. replace (2 * (/ y - / (y + 1))) with (2 / (y * (y + 1))) by (field; lra).
    apply Rmult_le_reg_r with (y ^ 2 * (y + 1)); [apply Rmult_lt_0_compat; [apply pow_lt|]; lra|].
    replace (/ y ^ 2 * (y ^ 2 * (y + 1))) with (y + 1) by (field; lra). replace (2 / (y * (y + 1)) * (y ^ 2 * (y + 1))) with (2 * y) by (field; lra). lra.
  - apply (ex_series_scal 2 (fun n => / INR (S n) - / INR (S (S n)))). exists 1. change (is_lim_seq (sum_n (fun n => / INR (S n) - / INR (S (S n)))) 1).
    apply (is_lim_seq_ext (fun n => 1 - / INR (S (S n)))).
    + induction n as [|n IH]; [rewrite sum_OR; cbn; field|]. rewrite sum_SR, <- IH.  ring.
    + replace (Finite 1) with (Finite (1 - 0)) by (f_equal; ring). apply is_lim_seq_minus'; [apply is_lim_seq_const|].
      apply (is_lim_seq_incr_1 (fun n => / INR (S n))), (is_lim_seq_incr_1 (fun n => / INR n)).
      replace (Finite 0) with (Rbar_inv p_infty) by reflexivity. apply is_lim_seq_inv; [apply is_lim_seq_INR|discriminate].
Qed.
(** A sequence whose steps are at most a multiple of the inverse squares converges. *)
Lemma converges (u : nat -> R) c : (forall n, Rabs (u (S n) - u n) <= c * / INR (S n) ^ 2) -> ex_finite_lim_seq u.
Proof.
  intros B. assert (E : ex_series (fun n => u (S n) - u n)).
  { apply (@ex_series_le R_AbsRing R_CompleteNormedModule _ (fun n => c * / INR (S n) ^ 2)); [exact B|]. apply (ex_series_scal c (fun n => / INR (S n) ^ 2)), inv_square_series. }
  destruct E as (l & L). exists (l + u 0%nat). apply is_lim_seq_incr_1.
  apply (is_lim_seq_ext (fun n => sum_n (fun n => u (S n) - u n) n + u 0%nat)).
  - induction n as [|n IH]; [rewrite sum_OR; ring|]. rewrite sum_SR. lra.
  - apply is_lim_seq_plus'; [exact L|apply is_lim_seq_const].
Qed.
Lemma ln_between u : 0 < u -> u - u ^ 2 <= ln (1 + u) <= u.
Proof.
  intros H. split; [|now apply ln_upper]. apply Rle_trans with (2 := ln_lower u H).
  replace (u / (1 + u)) with (u - u ^ 2 + u ^ 3 / (1 + u)) by (field; lra). assert (0 < u ^ 3 / (1 + u)); [|lra]. apply Rdiv_lt_0_compat; [apply pow_lt|]; lra.
Qed.
Section Steps.
  Variables (x : R) (n : nat).
  Hypothesis X : 0 < x.
  Let h := / INR (S n).
  Local Lemma h_pos : 0 < h. Proof. apply Rinv_0_lt_compat, lt_0_INR. lia. Qed.
  Local Lemma h_ln : ln (INR (S (S n))) - ln (INR (S n)) = ln (1 + h).
  Proof.
    assert (P : 0 < INR (S n)) by (apply lt_0_INR; lia). rewrite (S_INR (S n)), <- ln_div by lra. f_equal. unfold h. field. lra.
  Qed.
  Lemma psi_step : Rabs (psi_n x (S n) - psi_n x n) <= (1 + x) * / INR (S n) ^ 2.
  Proof.
    assert (P : 0 < INR (S n)) by (apply lt_0_INR; lia).
    unfold psi_n. rewrite sum_SR.
    replace (ln (INR (S (S n))) - (sum_n (fun k => / (x + INR k)) n + / (x + INR (S n))) - (ln (INR (S n)) - sum_n (fun k => / (x + INR k)) n))
      with (ln (INR (S (S n))) - ln (INR (S n)) - / (x + INR (S n))) by ring.
    rewrite h_ln. replace (/ (x + INR (S n))) with (h / (1 + x * h)) by (unfold h; field; lra). replace (/ INR (S n) ^ 2) with (h ^ 2) by (unfold h; field; lra).
    assert (H := h_pos). assert (L := ln_between h H).
    assert (E : h / (1 + x * h) = h - x * h ^ 2 / (1 + x * h)) by (field; nra).
    assert (I : 0 < x * h ^ 2 / (1 + x * h) <= x * h ^ 2).
    { assert (0 < x * h ^ 2) by (apply Rmult_lt_0_compat; [|apply pow_lt]; assumption). assert (0 < x * h) by nra. split; [apply Rdiv_lt_0_compat; lra|].
      rewrite <- (Rmult_1_r (x * h ^ 2)) at 2. apply Rmult_le_compat_l; [lra|]. rewrite <- Rinv_1. apply Rinv_le_contravar; lra. }
    rewrite E. apply Rabs_le. assert (0 < h ^ 2) by now apply pow_lt. nra.
  Qed.
  Lemma lg_step : Rabs (lg_n x (S n) - lg_n x n) <= (x + x ^ 2) * / INR (S n) ^ 2.
  Proof.
    assert (P : 0 < INR (S n)) by (apply lt_0_INR; lia).
    unfold lg_n. rewrite !sum_SR.
    match goal with |- Rabs ?e <= _ => replace e with (x * (ln (INR (S (S n))) - ln (INR (S n))) - (ln (x + INR (S n)) - ln (INR (S n)))) by ring end.
    rewrite h_ln, <- ln_div by lra. replace ((x + INR (S n)) / INR (S n)) with (1 + x * h) by (unfold h; field; lra).
    replace (/ INR (S n) ^ 2) with (h ^ 2) by (unfold h; field; lra).
    assert (H := h_pos). assert (L := ln_between h H). assert (L' := ln_between (x * h) ltac:(nra)). rewrite Rpow_mult_distr in L'.
    assert (0 < h ^ 2) by now apply pow_lt. assert (0 < x ^ 2) by now apply pow_lt. assert (0 < x * h ^ 2) by nra. assert (0 < x ^ 2 * h ^ 2) by nra.
    apply Rabs_le. split; nra.
  Qed.
End Steps.
Lemma psi_limit x : 0 < x -> is_lim_seq (psi_n x) (digamma x).
Proof. intros X. apply Lim_seq_correct'. apply converges with (1 + x). intros n. now apply psi_step. Qed.
Lemma lg_limit x : 0 < x -> is_lim_seq (lg_n x) (log_gamma x).
Proof. intros X. apply Lim_seq_correct'. apply converges with (x + x ^ 2). intros n. now apply lg_step. Qed.

(** ** The properties *)
Lemma limit_unique (u v : nat -> R) (a b : R) : is_lim_seq u a -> is_lim_seq v b -> is_lim_seq (fun n => u n - v n) 0 -> a = b.
Proof.
  intros A B D. assert (E := is_lim_seq_minus' u v a b A B). apply is_lim_seq_unique in D. apply is_lim_seq_unique in E. rewrite D in E. injection E as E. lra.
Qed.
Lemma far_inv x : 0 < x -> is_lim_seq (fun n => / (x + INR (S n))) 0.
Proof.
  intros X. replace (Finite 0) with (Rbar_inv p_infty) by reflexivity. apply is_lim_seq_inv; [|discriminate].
  apply is_lim_seq_le_p_loc with INR; [|apply is_lim_seq_INR]. exists 0%nat. intros n _. rewrite S_INR. lra.
Qed.
Lemma psi_shift x n : 0 < x -> psi_n (x + 1) n = psi_n x n + 1 / x - / (x + INR (S n)).
Proof.
  intros X. unfold psi_n.
  assert (E : sum_n (fun k => / (x + 1 + INR k)) n + / x = sum_n (fun k => / (x + INR k)) n + / (x + INR (S n))).
  { induction n as [|n IH]; [rewrite !sum_OR; cbn; rewrite Rplus_0_r, Rplus_0_r; ring|].
    rewrite !sum_SR. rewrite (S_INR (S n)). replace (x + 1 + INR (S n)) with (x + (INR (S n) + 1)) by ring. lra. }
  unfold Rdiv. lra.
Qed.
Lemma lg_shift x n : 0 < x -> lg_n (x + 1) n = lg_n x n + ln x + ln (INR (S n) * / (x + INR (S n))).
Proof.
  intros X. assert (P : 0 < INR (S n)) by (apply lt_0_INR; lia). unfold lg_n.
  assert (E : sum_n (fun k => ln (x + 1 + INR k)) n + ln x = sum_n (fun k => ln (x + INR k)) n + ln (x + INR (S n))).
  { clear P. induction n as [|n IH]; [rewrite !sum_OR; cbn; rewrite Rplus_0_r, Rplus_0_r; ring|].
    rewrite !sum_SR. rewrite (S_INR (S n)). replace (x + 1 + INR (S n)) with (x + (INR (S n) + 1)) by ring. lra. }
  rewrite ln_mult, ln_Rinv by (try apply Rinv_0_lt_compat; lra). lra.
Qed.
Lemma sum_n_le (u v : nat -> R) n : (forall k, u k <= v k) -> sum_n u n <= sum_n v n.
Proof. intros H. induction n as [|n IH]; [rewrite !sum_OR; apply H|]. rewrite !sum_SR. specialize (H (S n)). lra. Qed.
Lemma ln_tangent a b : 0 < a -> 0 < b -> ln b <= ln a + / a * (b - a).
Proof.
  intros A B. assert (E := exp_ineq1_le (ln (b / a))). rewrite exp_ln in E by (apply Rdiv_lt_0_compat; lra). rewrite ln_div in E by lra.
  replace (/ a * (b - a)) with (b / a - 1) by (field; lra). lra.
Qed.
Lemma lg_tangent x y n : 0 < x -> 0 < y -> lg_n x n + psi_n x n * (y - x) <= lg_n y n.
Proof.
  intros X Y. unfold lg_n, psi_n.
  assert (L : sum_n (fun k => ln (y + INR k)) n <= sum_n (fun k => ln (x + INR k) + (y - x) * / (x + INR k)) n).
  { apply sum_n_le. intros k. assert (P := pos_INR k). assert (T := ln_tangent (x + INR k) (y + INR k) ltac:(lra) ltac:(lra)).
    replace (y + INR k - (x + INR k)) with (y - x) in T by ring. lra. }
  assert (E : sum_n (fun k => ln (x + INR k) + (y - x) * / (x + INR k)) n = sum_n (fun k => ln (x + INR k)) n + (y - x) * sum_n (fun k => / (x + INR k)) n).
  { clear L. induction n as [|n IH]; [now rewrite !sum_OR|]. rewrite !sum_SR. rewrite IH. match goal with |- ?a = ?b => change (@eq R a b) end. ring. }
  rewrite E in L. nra.
Qed.
Theorem gamma_functions_exist : gamma_functions digamma log_gamma.
Proof.
  split.
  - intros x X. apply limit_unique with (lg_n (x + 1)) (fun n => lg_n x n + ln x); [apply lg_limit; lra| |].
    + apply is_lim_seq_plus'; [now apply lg_limit|apply is_lim_seq_const].
    + apply (is_lim_seq_ext (fun n => ln (1 - x * / (x + INR (S n))))).
      * intros n. rewrite lg_shift by assumption. assert (P : 0 < INR (S n)) by (apply lt_0_INR; lia).
        replace (1 - x * / (x + INR (S n))) with (INR (S n) * / (x + INR (S n))) by (field; lra). ring.
      * replace (Finite 0) with (Finite (ln 1)) by (now rewrite ln_1). apply (is_lim_seq_continuous ln (fun n => 1 - x * / (x + INR (S n))) 1).
        -- apply derivable_continuous_pt. exists (/ 1). apply derivable_pt_lim_ln. lra.
        -- replace (Finite 1) with (Finite (1 - x * 0)) by (f_equal; ring). apply is_lim_seq_minus'; [apply is_lim_seq_const|].
           apply is_lim_seq_mult'; [apply is_lim_seq_const|now apply far_inv].
  - intros x X. apply limit_unique with (psi_n (x + 1)) (fun n => psi_n x n + 1 / x); [apply psi_limit; lra| |].
    + apply is_lim_seq_plus'; [now apply psi_limit|apply is_lim_seq_const].
    + apply (is_lim_seq_ext (fun n => 0 - / (x + INR (S n)))); [intros n; rewrite psi_shift by assumption; ring|].
      replace (Finite 0) with (Finite (0 - 0)) by (f_equal; ring). apply is_lim_seq_minus'; [apply is_lim_seq_const|now apply far_inv].
  - intros x y X Y. cut (Rbar_le (log_gamma x + digamma x * (y - x)) (log_gamma y)); [auto|].
    apply (is_lim_seq_le (fun n => lg_n x n + psi_n x n * (y - x)) (lg_n y)); [intros n; now apply lg_tangent| |now apply lg_limit].
    apply is_lim_seq_plus'; [now apply lg_limit|]. apply is_lim_seq_mult'; [now apply psi_limit|apply is_lim_seq_const].
Qed.

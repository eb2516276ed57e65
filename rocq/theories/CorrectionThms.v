(** The correction of the Student distribution and the figure showing it. *)
From Coq Require Import String Lia Lra.
From Verif Require Import Base UtilsModel GaussianModel GaussianSpec GaussianThms TasksModel CorrectionModel GammaSpec GammaProofs GammaExists.
Open Scope R_scope.

Section Correction.
  Variables psi lg : R -> R.
  Local Notation c := (student_correction psi lg).

  Lemma correction_D df m n : c df m n = D psi lg (INR m / 2) (INR n / 2) (df / 2).
  Proof.
    unfold student_correction, D, g. cbv zeta. change (ssrnat.addn m n) with (m + n)%nat. rewrite plus_INR.
    replace ((df + (INR m + INR n)) / 2) with (df / 2 + INR m / 2 + INR n / 2) by field.
    replace ((df + INR m) / 2) with (df / 2 + INR m / 2) by field. replace ((df + INR n) / 2) with (df / 2 + INR n / 2) by field. ring.
  Qed.
  Lemma half_pos m : (1 <= m)%nat -> 0 < INR m / 2.
  Proof. intros H. assert (P : 0 < INR m) by (apply lt_0_INR; lia). lra. Qed.

  Theorem correction_symmetric df m n : c df m n = c df n m.
  Proof. rewrite !correction_D. unfold D. replace (df / 2 + INR m / 2 + INR n / 2) with (df / 2 + INR n / 2 + INR m / 2) by ring. ring. Qed.
  Theorem correction_degenerate df m : c df m 0 = 0.
  Proof. rewrite correction_D. unfold D. cbn [INR]. replace (0 / 2) with 0 by field. rewrite !Rplus_0_r. ring. Qed.

  Hypothesis G : gamma_functions psi lg.

  Theorem correction_positive df m n : 0 < df -> (1 <= m)%nat -> (1 <= n)%nat -> 0 < c df m n.
  Proof. intros H M N. rewrite correction_D. apply D_pos; [assumption|now apply half_pos|now apply half_pos|lra]. Qed.
  Theorem correction_nonneg df m n : 0 < df -> 0 <= c df m n.
  Proof.
    intros H. destruct n as [|n]; [rewrite correction_degenerate; lra|]. destruct m as [|m]; [rewrite correction_symmetric, correction_degenerate; lra|].
    apply Rlt_le, correction_positive; [assumption|lia|lia].
  Qed.
  Theorem correction_decreasing df df' m n : 0 < df -> df < df' -> (1 <= m)%nat -> (1 <= n)%nat -> c df' m n < c df m n.
  Proof. intros H L M N. rewrite !correction_D. apply D_decreasing; [assumption|now apply half_pos|now apply half_pos|lra|lra]. Qed.
  Theorem correction_bounded df m n : 0 < df -> (1 <= m)%nat -> (1 <= n)%nat -> c df m n <= INR m * (INR m + 4) / df.
  Proof.
    intros H M N. rewrite correction_D. assert (B := proj2 (D_bounds psi lg G _ _ (df / 2) (half_pos m M) (half_pos n N) ltac:(lra))).
    replace (INR m * (INR m + 4) / df) with (2 * ((INR m / 2) ^ 2 + 2 * (INR m / 2)) / (df / 2)) by (field; lra). exact B.
  Qed.
  Theorem correction_vanishes m n : (1 <= m)%nat -> (1 <= n)%nat ->
    forall eps, 0 < eps -> exists df0, 0 < df0 /\ forall df, df0 < df -> 0 < c df m n < eps.
  Proof.
    intros M N eps E. set (b := INR m * (INR m + 4)). assert (B : 0 < b) by (assert (P := half_pos m M); unfold b; nra).
    exists (b / eps). assert (P : 0 < b / eps) by now apply Rdiv_lt_0_compat. split; [assumption|]. intros df L. split; [apply correction_positive; [lra|assumption|assumption]|].
    apply Rle_lt_trans with (1 := correction_bounded df m n ltac:(lra) M N). fold b.
    apply Rmult_lt_reg_r with df; [lra|]. unfold Rdiv. rewrite Rmult_assoc, Rinv_l by lra.
    assert (X : b / eps * eps < df * eps) by (apply Rmult_lt_compat_r; assumption). unfold Rdiv in X. rewrite Rmult_assoc, Rinv_l in X by lra. lra.
  Qed.
  Theorem correction_larger df m m' n : 0 < df -> (m < m')%nat -> (1 <= n)%nat -> c df m n < c df m' n.
  Proof.
    intros H M N. rewrite !correction_D. set (h := INR (m' - m) / 2).
    assert (E : INR m' / 2 = INR m / 2 + h) by (unfold h; rewrite minus_INR by lia; field).
    assert (A := D_more psi lg (INR m / 2) h (INR n / 2) (df / 2)). rewrite <- E in A.
    assert (P : 0 < D psi lg h (INR n / 2) (df / 2 + INR m / 2)).
    { apply D_pos; [assumption|apply half_pos; lia|now apply half_pos|]. assert (Q := pos_INR m). lra. }
    lra.
  Qed.
  Theorem correction_two_two df : 0 < df -> c df 2 2 = ln (1 + 2 / df) - 2 / (df + 2).
  Proof.
    intros H. rewrite correction_D. replace (INR 2 / 2) with 1 by (cbn; field). rewrite (D_one_one psi lg G) by lra.
    replace (1 / (df / 2)) with (2 / df) by (field; lra). replace (1 / (df / 2 + 1)) with (2 / (df + 2)) by (field; lra). reflexivity.
  Qed.
  (** The correction is known if one of the variables has an even dimension. *)
  Theorem correction_two_more df m n : 0 < df -> c df (m + 2) n = c df m n + c (df + INR m) 2 n.
  Proof.
    intros H. rewrite !correction_D. rewrite plus_INR. replace ((INR m + INR 2) / 2) with (INR m / 2 + INR 2 / 2) by field.
    assert (A := D_more psi lg (INR m / 2) (INR 2 / 2) (INR n / 2) (df / 2)).
    replace ((df + INR m) / 2) with (df / 2 + INR m / 2) by field. lra.
  Qed.
End Correction.

(** ** The figure *)
Lemma correction_at psi lg df m n : (1 <= df)%Z -> correction psi lg df m n = Fin (student_correction psi lg (IZR df) m n).
Proof. intros H. apply correction_value. now apply IZR_lt, Z.lt_le_trans with 1%Z. Qed.
Lemma nus_range df : In df nus <-> (1 <= df <= 29)%Z.
Proof.
  unfold nus. rewrite in_map_iff. split.
  - intros (k & <- & K). apply in_seq in K. lia.
  - intros H. exists (Z.to_nat df). split; [lia|]. apply in_seq. lia.
Qed.
Lemma labels psi lg : map (fun cv => (cv_colour cv, cv_label cv)) (main psi lg) =
  [("C1", curve_label 1 1); ("C2", curve_label 1 2); ("C3", curve_label 1 10); ("C4", curve_label 2 2); ("C5", curve_label 3 3); ("C6", curve_label 5 5)]%string.
Proof. reflexivity. Qed.
Lemma nth_error_all {A B} (f : nat -> A -> B) l j a : nth_error l j = Some a ->
  nth_error (map (fun p => f (fst p) (snd p)) (combine (seq 0 (length l)) l)) j = Some (f j a).
Proof.
  intros E. enough (H : forall s, nth_error (map (fun p => f (fst p) (snd p)) (combine (seq s (length l)) l)) j = Some (f (s + j)%nat a)) by apply (H 0%nat).
  revert j E. induction l as [|b l IH]; intros [|j] E s; try discriminate.
  - injection E as ->. cbn. now rewrite Nat.add_0_r.
  - cbn in E. cbn [length seq combine map nth_error]. rewrite (IH j E (S s)). do 2 f_equal. lia.
Qed.
Theorem figure psi lg : gamma_functions psi lg ->
  forall j m n, nth_error [(1, 1); (1, 2); (1, 10); (2, 2); (3, 3); (5, 5)]%nat j = Some (m, n) ->
  exists cv, nth_error (main psi lg) j = Some cv /\ cv_x cv = map Z.of_nat (seq 1 29) /\ length (cv_y cv) = 29%nat /\
    forall k, (k < 29)%nat -> let y := student_correction psi lg (INR (k + 1)) m n in
      nth_error (cv_y cv) k = Some (Fin y) /\ 0 < y /\ student_correction psi lg (INR (k + 2)) m n < y.
Proof.
  intros G j m n E. exists (plot_curve psi lg j (m, n)). split; [exact (nth_error_all (plot_curve psi lg) mns j (m, n) E)|].
  split; [reflexivity|]. split; [reflexivity|].
  assert (P : (1 <= m /\ 1 <= n)%nat).
  { do 6 (destruct j as [|j]; [injection E as <- <-; lia|]). destruct j; discriminate. }
  destruct P as (M & N). intros k K y.
  assert (B : 0 < INR (k + 1)) by (apply lt_0_INR; lia).
  split; [|split].
  - unfold plot_curve. cbn [cv_y fst snd]. unfold nus. rewrite map_map. rewrite nth_error_map, nth_error_nth' with (d := 0%nat) by (now rewrite seq_length).
    rewrite seq_nth by assumption. cbn [option_map]. rewrite correction_at by lia. rewrite <- INR_IZR_INZ. unfold y. now rewrite Nat.add_comm.
  - now apply correction_positive.
  - apply correction_decreasing; try assumption. apply lt_INR. lia.
Qed.
Theorem order psi lg : gamma_functions psi lg -> forall df, 0 < df -> let c := student_correction psi lg df in
  c 1%nat 1%nat < c 1%nat 2%nat < c 1%nat 10%nat /\ c 1%nat 2%nat < c 2%nat 2%nat < c 3%nat 3%nat /\ c 3%nat 3%nat < c 5%nat 5%nat.
Proof.
  intros G df H c.
  assert (L : forall m m' n, (m < m')%nat -> (1 <= n)%nat -> c m n < c m' n) by (intros; now apply correction_larger).
  assert (R' : forall m n n', (n < n')%nat -> (1 <= m)%nat -> c m n < c m n').
  { intros m n n' h M. unfold c. rewrite (correction_symmetric psi lg df m n), (correction_symmetric psi lg df m n'). now apply L. }
  assert (B : forall m m' n n', (m < m')%nat -> (n < n')%nat -> (1 <= n)%nat -> c m n < c m' n').
  { intros m m' n n' h h' N. apply Rlt_trans with (c m' n); [now apply L|apply R'; [assumption|lia]]. }
  repeat split; first [apply L|apply R'|apply B]; lia.
Qed.

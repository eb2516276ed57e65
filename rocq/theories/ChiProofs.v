(** Lemmas about the combination of chi-squared variables without matrices. *)
From Coq Require Import Lia Lra.
From Verif Require Import Base BaseLemmas UtilsModel JaxModel SamplersModel GaussianModel MatrixUtilsModel BmmModel MultivariateModel CriticsModel ChiModel ChiSpec.
Open Scope R_scope.
Local Notation length := List.length.

(** ** The check of the two formulas *)
Lemma logs_fin rho : Forall (fun r => Rabs r < 1) rho -> fl_sum (map (fun r => np_log (1 - r ^ 2)) rho) = Fin (rsum (map (fun r => ln (1 - r ^ 2)) rho)).
Proof.
  induction 1 as [|r rho H _ IH]; [reflexivity|]. cbn [map fl_sum fold_right]. fold (fl_sum (map (fun r => np_log (1 - r ^ 2)) rho)). rewrite IH.
  apply Rabs_def2 in H. unfold np_log, Rltb. destruct (Rlt_dec 0 (1 - r ^ 2)); [reflexivity|nra].
Qed.
Lemma logs_bad rho : ~ Forall (fun r => Rabs r < 1) rho -> fl_sum (map (fun r => np_log (1 - r ^ 2)) rho) = NInf \/ fl_sum (map (fun r => np_log (1 - r ^ 2)) rho) = NaN.
Proof.
  induction rho as [|r rho IH]; intros H; [elim H; constructor|]. cbn [map fl_sum fold_right]. fold (fl_sum (map (fun r => np_log (1 - r ^ 2)) rho)).
  destruct (Rlt_dec (Rabs r) 1) as [L|L].
  - assert (N : ~ Forall (fun r => Rabs r < 1) rho) by (intros K; apply H; now constructor).
    apply Rabs_def2 in L. unfold np_log at 1 3, Rltb. destruct (Rlt_dec 0 (1 - r ^ 2)); [|nra]. destruct (IH N) as [-> | ->]; cbn; auto.
  - assert (B : np_log (1 - r ^ 2) = NInf \/ np_log (1 - r ^ 2) = NaN).
    { assert (1 <= r ^ 2). { rewrite <- (pow2_abs r). apply Rnot_lt_le in L. nra. }
      unfold np_log, Rltb, Reqb. destruct (Rlt_dec 0 (1 - r ^ 2)); [lra|]. destruct (Req_EM_T (1 - r ^ 2) 0); auto. }
    assert (C : (exists v, fl_sum (map (fun r => np_log (1 - r ^ 2)) rho) = Fin v) \/ fl_sum (map (fun r => np_log (1 - r ^ 2)) rho) = NInf \/ fl_sum (map (fun r => np_log (1 - r ^ 2)) rho) = NaN).
    { clear. induction rho as [|r rho IH]; [left; exists 0; reflexivity|]. cbn [map fl_sum fold_right]. fold (fl_sum (map (fun r => np_log (1 - r ^ 2)) rho)).
      assert (B : (exists v, np_log (1 - r ^ 2) = Fin v) \/ np_log (1 - r ^ 2) = NInf \/ np_log (1 - r ^ 2) = NaN).
      { unfold np_log. destruct (Rltb 0 (1 - r ^ 2)); [left; eauto|]. destruct (Reqb (1 - r ^ 2) 0); auto. }
      destruct B as [[v ->]|[-> | ->]]; destruct IH as [[u ->]|[-> | ->]]; cbn; eauto. }
    destruct B as [-> | ->]; destruct C as [[u ->]|[-> | ->]]; cbn; auto.
Qed.
Lemma refused_check rho v : ~ Forall (fun r => Rabs r < 1) rho ->
  fl_ltb (fl_abs (fl_sub v (fl_opp (fl_scale (1 / 2) (fl_sum (map (fun r => np_log (1 - r ^ 2)) rho)))))) (Fin (1 / 100)) = false.
Proof. intros H. destruct (logs_bad rho H) as [-> | ->]; destruct v; reflexivity. Qed.
Lemma information_logs rho : - (1 / 2 * rsum (map (fun r => ln (1 - r ^ 2)) rho)) = canonical_information rho.
Proof. unfold canonical_information, rsum. induction rho as [|r rho IH]; cbn [map fold_right]; [lra|]. lra. Qed.

(** ** The combination *)
Lemma combine_step (mi : R) n (g : nat -> R) (f : nat -> R) :
  map (fun kv : nat * fl => fl_add (snd kv) (Fin (g (fst kv)))) (combine (seq 0 n) (map (fun k => Fin (f k)) (seq 0 n))) = map (fun k => Fin (f k + g k)) (seq 0 n).
Proof. induction (seq 0 n) as [|k l IH]; [reflexivity|]. cbn. now rewrite IH. Qed.
Lemma combined rho c mi n : combine_chi2 rho c (Fin mi) n =
  map (fun k => Fin (mi + rsum (map (fun i => nth i rho 0 / 2 * (entry c i k - entry c (i + length rho) k)) (seq 0 (length rho))))) (seq 0 n).
Proof.
  unfold combine_chi2. set (m := length rho).
  assert (G : forall (l : list R) o f, (forall i, (i < length l)%nat -> nth i l 0 = nth (o + i) rho 0) ->
    fold_left (fun profile ir => map (fun kv : nat * fl => fl_add (snd kv) (Fin (1 / 2 * snd ir * (entry c (fst ir) (fst kv) - entry c (fst ir + m) (fst kv)))))
      (combine (seq 0 n) profile)) (combine (seq o (length l)) l) (map (fun k => Fin (f k)) (seq 0 n)) =
    map (fun k => Fin (f k + rsum (map (fun i => nth i rho 0 / 2 * (entry c i k - entry c (i + m) k)) (seq o (length l))))) (seq 0 n)).
  { induction l as [|r l IH]; intros o f N; cbn [length seq combine fold_left map fst snd].
    - apply map_ext. intros k. unfold rsum. cbn. f_equal. lra.
    - rewrite (combine_step mi n (fun k => 1 / 2 * r * (entry c o k - entry c (o + m) k))). rewrite IH.
      + apply map_ext. intros k. f_equal. unfold rsum. cbn [fold_right]. pose proof (N 0%nat ltac:(cbn; lia)) as E. cbn in E. rewrite Nat.add_0_r in E. rewrite <- E. lra.
      + intros i L. specialize (N (S i)). cbn [length nth] in N. rewrite N by lia. f_equal. lia. }
  replace (repeat (Fin mi) n) with (map (fun _ : nat => Fin mi) (seq 0 n)).
  - pose proof (G rho 0%nat (fun _ => mi) (fun i _ => eq_refl)) as K. fold m in K. cbv zeta. exact K.
  - clear G. generalize 0%nat as o. induction n as [|n IH]; intros o; cbn; [reflexivity|]. now rewrite IH.
Qed.

(** ** Moments *)
Section Moments.
  Context {A : Type}.
  Variable E : (A -> R) -> R.
  Hypothesis L : linear E.
  Lemma E_ext f g : (forall z, f z = g z) -> E f = E g.
  Proof. apply L. Qed.
  Lemma E_lin c d f g : E (fun z => c * f z + d * g z) = c * E f + d * E g.
  Proof. apply L. Qed.
  Lemma E_scale c f : E (fun z => c * f z) = c * E f.
  Proof. rewrite (E_ext _ (fun z => c * f z + 0 * f z)) by (intros; ring). rewrite E_lin. ring. Qed.
  Lemma E_add f g : E (fun z => f z + g z) = E f + E g.
  Proof. rewrite (E_ext _ (fun z => 1 * f z + 1 * g z)) by (intros; ring). rewrite E_lin. ring. Qed.
  Lemma E_sub f g : E (fun z => f z - g z) = E f - E g.
  Proof. rewrite (E_ext _ (fun z => 1 * f z + (-1) * g z)) by (intros; ring). rewrite E_lin. ring. Qed.
  Lemma E_zero : E (fun _ => 0) = 0.
  Proof. rewrite (E_ext _ (fun z => 0 * (fun _ => 0) z)) by (intros; ring). rewrite E_scale. ring. Qed.
  Lemma E_sum (f : nat -> A -> R) l : E (fun z => rsum (map (fun i => f i z) l)) = rsum (map (fun i => E (f i)) l).
  Proof. unfold rsum. induction l as [|i l IH]; cbn [map fold_right]; [apply E_zero|]. rewrite E_add. now rewrite IH. Qed.
  Lemma E_four a b c d (f g h k : A -> R) : E (fun z => a * f z + b * g z + c * h z + d * k z) = a * E f + b * E g + c * E h + d * E k.
  Proof. rewrite !E_add, !E_scale. ring. Qed.

  Lemma rsum_sq (f : nat -> A -> R) l z : rsum (map (fun i => f i z) l) ^ 2 = rsum (map (fun i => rsum (map (fun j => f i z * f j z) l)) l).
  Proof.
    assert (S : forall c l, rsum (map (fun j => c * f j z) l) = c * rsum (map (fun i => f i z) l)).
    { intros c l'. unfold rsum. induction l' as [|i l' IH]; cbn [map fold_right]; [ring|]. rewrite IH. ring. }
    symmetry. transitivity (rsum (map (fun i => rsum (map (fun i => f i z) l) * f i z) l)); [|rewrite S; ring].
    f_equal. apply map_ext. intros i. rewrite S. ring.
  Qed.
  Lemma diagonal (g : nat -> R) o m :
    rsum (map (fun i => rsum (map (fun j => if Nat.eqb i j then g i else 0) (seq o m))) (seq o m)) = rsum (map g (seq o m)).
  Proof.
    f_equal. apply map_ext_in. intros i I. apply in_seq in I.
    assert (Z : forall a n, ~ (a <= i < a + n)%nat -> rsum (map (fun j => if Nat.eqb i j then g i else 0) (seq a n)) = 0).
    { intros a n. revert a. induction n as [|n IH]; intros a N; [reflexivity|]. unfold rsum in *. cbn [seq map fold_right]. rewrite IH by lia.
      destruct (Nat.eqb_spec i a); [lia|ring]. }
    revert o I. induction m as [|m IH]; intros o I; [lia|]. unfold rsum in *. cbn [seq map fold_right]. destruct (Nat.eqb_spec i o) as [->|N].
    - rewrite Z by lia. ring.
    - rewrite IH by lia. ring.
  Qed.

  Theorem chi2_moments rho a b mi : standard_squares (length rho) a b E ->
    E (fun z => mi + chi2_terms rho (fun i => a i z) (fun i => b i z)) = mi /\
    E (fun z => (mi + chi2_terms rho (fun i => a i z) (fun i => b i z) - mi) ^ 2) = rsum (map (fun r => r * r) rho).
  Proof.
    intros [S1 Sa Sb Saa Sbb Sab].
    set (h := fun i z => nth i rho 0 / 2 * (a i z ^ 2 - b i z ^ 2)).
    assert (H : forall z, chi2_terms rho (fun i => a i z) (fun i => b i z) = rsum (map (fun i => h i z) (seq 0 (length rho)))) by reflexivity.
    split.
    - rewrite E_add. rewrite (E_ext (fun _ => mi) (fun z => mi * (fun _ => 1) z)) by (intros; ring). rewrite E_scale, S1.
      rewrite (E_ext _ _ H), E_sum. rewrite (map_ext_in _ (fun _ => 0)).
      + rewrite Rmult_1_r. assert (Z : forall l : list nat, rsum (map (fun _ => 0) l) = 0) by (intros l; unfold rsum; induction l; cbn; lra). rewrite Z. ring.
      + intros i I. apply in_seq in I. unfold h. rewrite E_scale, E_sub, Sa, Sb by lia. ring.
    - rewrite (E_ext _ (fun z => rsum (map (fun i => rsum (map (fun j => h i z * h j z) (seq 0 (length rho)))) (seq 0 (length rho))))).
      2: { intros z. rewrite H. rewrite <- rsum_sq. ring. }
      rewrite (E_sum (fun i z => rsum (map (fun j => h i z * h j z) (seq 0 (length rho))))).
      rewrite (map_ext_in _ (fun i => rsum (map (fun j => if Nat.eqb i j then nth i rho 0 * nth i rho 0 else 0) (seq 0 (length rho))))).
      + rewrite (diagonal (fun i => nth i rho 0 * nth i rho 0) 0 (length rho)). f_equal.
        clear. rewrite <- (map_map (fun i => nth i rho 0) (fun r => r * r)). f_equal. apply nth_ext with 0 0; [now rewrite map_length, seq_length|].
        intros n Hn. rewrite map_length, seq_length in Hn. rewrite (nth_indep _ 0 (nth 0 rho 0)) by now rewrite map_length, seq_length.
        rewrite (map_nth (fun i => nth i rho 0)), seq_nth by assumption. reflexivity.
      + intros i I. apply in_seq in I. rewrite (E_sum (fun j z => h i z * h j z)). f_equal. apply map_ext_in. intros j J. apply in_seq in J.
        set (ri := nth i rho 0). set (rj := nth j rho 0).
        rewrite (E_ext _ (fun z => ri * rj / 4 * (a i z ^ 2 * a j z ^ 2) + (- (ri * rj / 4)) * (a i z ^ 2 * b j z ^ 2)
          + (- (ri * rj / 4)) * (a j z ^ 2 * b i z ^ 2) + ri * rj / 4 * (b i z ^ 2 * b j z ^ 2))).
        * rewrite E_four. rewrite Saa, Sab, Sab, Sbb by lia. destruct (Nat.eqb_spec i j) as [<-|N]; [unfold rj; fold ri; field|field].
        * intros z. unfold h. fold ri rj. field.
  Qed.
End Moments.

Theorem parts_standard rho E : linear E -> Forall (fun r => Rabs r < 1) rho -> canonical_moments rho E ->
  forall i j, (i < length rho)%nat -> (j < length rho)%nat ->
    E (fun z => plus_part rho i (fst z) (snd z) * plus_part rho j (fst z) (snd z)) = (if Nat.eqb i j then 1 else 0) /\
    E (fun z => minus_part rho i (fst z) (snd z) * minus_part rho j (fst z) (snd z)) = (if Nat.eqb i j then 1 else 0) /\
    E (fun z => plus_part rho i (fst z) (snd z) * minus_part rho j (fst z) (snd z)) = 0.
Proof.
  intros L F [xx yy xy] i j Hi Hj.
  assert (Rk : forall k, (k < length rho)%nat -> -1 < nth k rho 0 < 1).
  { intros k Hk. rewrite Forall_forall in F. assert (K := F _ (nth_In rho 0 Hk)). apply Rabs_def2 in K. lra. }
  assert (Ri := Rk i Hi). assert (Rj := Rk j Hj). unfold plus_part, minus_part. set (ri := nth i rho 0) in *. set (rj := nth j rho 0) in *.
  assert (Pi := sqrt_lt_R0 (2 * (1 + ri)) ltac:(lra)). assert (Pj := sqrt_lt_R0 (2 * (1 + rj)) ltac:(lra)).
  assert (Mi := sqrt_lt_R0 (2 * (1 - ri)) ltac:(lra)). assert (Mj := sqrt_lt_R0 (2 * (1 - rj)) ltac:(lra)).
  assert (Qp := sqrt_sqrt (2 * (1 + ri)) ltac:(lra)). assert (Qm := sqrt_sqrt (2 * (1 - ri)) ltac:(lra)).
  assert (X : forall c d (sc sd : R), E (fun z : list R * list R => (nth i (fst z) 0 + sc * nth i (snd z) 0) / c * ((nth j (fst z) 0 + sd * nth j (snd z) 0) / d)) =
     / c * / d * ((if Nat.eqb i j then 1 else 0) + sd * (if Nat.eqb i j then ri else 0) + sc * (if Nat.eqb i j then ri else 0) + sc * sd * (if Nat.eqb i j then 1 else 0))).
  { intros c d sc sd.
    rewrite (E_ext E L _ (fun z => / c * / d * (nth i (fst z) 0 * nth j (fst z) 0) + / c * / d * sd * (nth i (fst z) 0 * nth j (snd z) 0)
      + / c * / d * sc * (nth j (fst z) 0 * nth i (snd z) 0) + / c * / d * (sc * sd) * (nth i (snd z) 0 * nth j (snd z) 0))) by (intros z; unfold Rdiv; ring).
    rewrite (E_four E L), xx, xy, (xy j i), yy by assumption. rewrite (Nat.eqb_sym j i). fold ri rj. destruct (Nat.eqb_spec i j) as [<-|N]; [unfold rj; fold ri|]; ring. }
  assert (Ep : forall k (z : list R * list R), nth k (fst z) 0 + nth k (snd z) 0 = nth k (fst z) 0 + 1 * nth k (snd z) 0) by (intros; ring).
  assert (Em : forall k (z : list R * list R), nth k (fst z) 0 - nth k (snd z) 0 = nth k (fst z) 0 + (-1) * nth k (snd z) 0) by (intros; ring).
  split; [|split].
  1: rewrite (E_ext E L _ (fun z => (nth i (fst z) 0 + 1 * nth i (snd z) 0) / sqrt (2 * (1 + ri)) * ((nth j (fst z) 0 + 1 * nth j (snd z) 0) / sqrt (2 * (1 + rj))))); [|intros z; now rewrite !Ep].
  2: rewrite (E_ext E L _ (fun z => (nth i (fst z) 0 + (-1) * nth i (snd z) 0) / sqrt (2 * (1 - ri)) * ((nth j (fst z) 0 + (-1) * nth j (snd z) 0) / sqrt (2 * (1 - rj))))); [|intros z; now rewrite !Em].
  3: rewrite (E_ext E L _ (fun z => (nth i (fst z) 0 + 1 * nth i (snd z) 0) / sqrt (2 * (1 + ri)) * ((nth j (fst z) 0 + (-1) * nth j (snd z) 0) / sqrt (2 * (1 - rj))))); [|intros z; now rewrite Ep, Em].
  all: rewrite X; destruct (Nat.eqb_spec i j) as [E'|N]; [|ring]; assert (rij : rj = ri) by (unfold ri, rj; now rewrite E'); rewrite rij.
  - replace (1 + 1 * ri + 1 * ri + 1 * 1 * 1) with (sqrt (2 * (1 + ri)) * sqrt (2 * (1 + ri))) by (rewrite Qp; ring). field. lra.
  - replace (1 + -1 * ri + -1 * ri + -1 * -1 * 1) with (sqrt (2 * (1 - ri)) * sqrt (2 * (1 - ri))) by (rewrite Qm; ring). field. lra.
  - ring.
Qed.

(** One pair of coordinates. *)
Lemma pair_term r x y : Rabs r < 1 -> 1 / 2 * (x * x + y * y - (x * ((x - r * y) / (1 - r ^ 2)) + y * ((y - r * x) / (1 - r ^ 2)))) =
  r / 2 * (((x + y) / sqrt (2 * (1 + r))) ^ 2 - ((x - y) / sqrt (2 * (1 - r))) ^ 2).
Proof.
  intros H. apply Rabs_def2 in H.
  assert (P := sqrt_lt_R0 (2 * (1 + r)) ltac:(lra)). assert (M := sqrt_lt_R0 (2 * (1 - r)) ltac:(lra)).
  replace (((x + y) / sqrt (2 * (1 + r))) ^ 2) with ((x + y) ^ 2 / (2 * (1 + r))).
  - replace (((x - y) / sqrt (2 * (1 - r))) ^ 2) with ((x - y) ^ 2 / (2 * (1 - r))); [field; nra|].
    rewrite <- (sqrt_sqrt (2 * (1 - r))) at 1 by lra. field. lra.
  - rewrite <- (sqrt_sqrt (2 * (1 + r))) at 1 by lra. field. lra.
Qed.

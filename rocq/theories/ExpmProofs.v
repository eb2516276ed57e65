(** The matrix exponential of a skew-symmetric matrix is orthogonal. *)
From Coquelicot Require Import Coquelicot.
From Verif Require Import Base BaseLemmas UtilsModel JaxModel SamplersModel GaussianModel TransformsSpec.
Open Scope R_scope.
Local Notation length := List.length.

(** ** Sums over the indices below n *)

Lemma sum_S n f : sum_below (S n) f = sum_below n f + f n.
Proof. unfold sum_below. rewrite seq_S, map_app, rsum_app. cbn [map]. rewrite rsum_cons. change (rsum []) with 0. cbn [Nat.add]. ring. Qed.

Lemma sum_ext n f g : (forall i, (i < n)%nat -> f i = g i) -> sum_below n f = sum_below n g.
Proof.
  induction n as [|n IH]; intros H; [reflexivity|]. rewrite !sum_S, IH by (intros; apply H; lia). rewrite H by lia. reflexivity.
Qed.

Lemma sum_plus n f g : sum_below n (fun i => f i + g i) = sum_below n f + sum_below n g.
Proof. induction n as [|n IH]; [unfold sum_below; cbn; ring|]. rewrite !sum_S, IH. ring. Qed.

Lemma sum_scal n c f : sum_below n (fun i => c * f i) = c * sum_below n f.
Proof. induction n as [|n IH]; [unfold sum_below; cbn; ring|]. rewrite !sum_S, IH. ring. Qed.

Lemma sum_scal_r n c f : sum_below n (fun i => f i * c) = sum_below n f * c.
Proof. induction n as [|n IH]; [unfold sum_below; cbn; ring|]. rewrite !sum_S, IH. ring. Qed.

Lemma sum_zero n : sum_below n (fun _ => 0) = 0.
Proof. induction n as [|n IH]; [reflexivity|]. rewrite sum_S, IH. ring. Qed.

Lemma sum_swap n m f : sum_below n (fun i => sum_below m (fun j => f i j)) = sum_below m (fun j => sum_below n (fun i => f i j)).
Proof.
  induction n as [|n IH].
  - symmetry. exact (sum_zero m).
  - rewrite sum_S, IH, <- sum_plus. apply sum_ext. intros j _. rewrite sum_S. reflexivity.
Qed.

Lemma sum_le n f g : (forall i, (i < n)%nat -> f i <= g i) -> sum_below n f <= sum_below n g.
Proof.
  induction n as [|n IH]; intros H; [right; reflexivity|]. rewrite !sum_S.
  apply Rplus_le_compat; [apply IH; intros; apply H; lia|apply H; lia].
Qed.

Lemma sum_nonneg n f : (forall i, (i < n)%nat -> 0 <= f i) -> 0 <= sum_below n f.
Proof. intros H. rewrite <- (sum_zero n). apply sum_le, H. Qed.

Lemma sum_member n f i : (forall j, (j < n)%nat -> 0 <= f j) -> (i < n)%nat -> f i <= sum_below n f.
Proof.
  induction n as [|n IH]; intros H Hi; [lia|]. rewrite sum_S.
  destruct (Nat.eq_dec i n) as [->|Hn].
  - assert (0 <= sum_below n f) by (apply sum_nonneg; intros; apply H; lia). lra.
  - assert (0 <= f n) by (apply H; lia). assert (f i <= sum_below n f) by (apply IH; [intros; apply H|]; lia). lra.
Qed.

Lemma sum_abs n f : Rabs (sum_below n f) <= sum_below n (fun i => Rabs (f i)).
Proof.
  induction n as [|n IH]; [unfold sum_below; cbn; rewrite Rabs_R0; lra|]. rewrite !sum_S.
  eapply Rle_trans; [apply Rabs_triang|]. lra.
Qed.

Lemma kronecker_sym i j : kronecker i j = kronecker j i.
Proof. unfold kronecker. rewrite Nat.eqb_sym. reflexivity. Qed.

Lemma sum_kronecker n f i : (i < n)%nat -> sum_below n (fun l => kronecker i l * f l) = f i.
Proof.
  induction n as [|n IH]; intros Hi; [lia|]. rewrite sum_S. unfold kronecker at 2.
  destruct (Nat.eqb_spec i n) as [->|Hn].
  - rewrite (sum_ext n _ (fun _ => 0)); [rewrite sum_zero; ring|].
    intros l Hl. unfold kronecker. destruct (Nat.eqb_spec n l); [lia|ring].
  - rewrite IH by lia. ring.
Qed.

Lemma sum_kronecker_r n f i : (i < n)%nat -> sum_below n (fun l => f l * kronecker l i) = f i.
Proof.
  intros Hi. rewrite <- (sum_kronecker n f i Hi). apply sum_ext. intros l _. rewrite kronecker_sym. ring.
Qed.

Lemma sum_derive n (f d : nat -> R -> R) t : (forall i, (i < n)%nat -> is_derive (f i) t (d i t)) ->
  is_derive (fun s => sum_below n (fun i => f i s)) t (sum_below n (fun i => d i t)).
Proof.
  induction n as [|n IH]; intros H.
  { exact (is_derive_const (K := R_AbsRing) (V := R_NormedModule) 0 t). }
  apply (is_derive_ext (fun s => sum_below n (fun i => f i s) + f n s)); [intros s; rewrite sum_S; reflexivity|].
  rewrite sum_S. apply (is_derive_plus (K := R_AbsRing) (V := R_NormedModule)); [apply IH; intros; apply H; lia|apply H; lia].
Qed.

(** ** The exponential series *)

Section Exponential.
  Variable n : nat.
  Variable a : nat -> nat -> R.

  Lemma power_right k i j : (i < n)%nat -> (j < n)%nat ->
    power_entry n a (S k) i j = sum_below n (fun l => power_entry n a k i l * a l j).
  Proof.
    revert i. induction k as [|k IH]; intros i Hi Hj.
    - cbn [power_entry]. rewrite (sum_kronecker_r n (fun l => a i l)) by auto. rewrite (sum_kronecker n (fun l => a l j)) by auto. reflexivity.
    - change (power_entry n a (S (S k)) i j) with (sum_below n (fun l => a i l * power_entry n a (S k) l j)).
      rewrite (sum_ext n _ (fun l => sum_below n (fun m => a i l * (power_entry n a k l m * a m j)))).
      2:{ intros l Hl. rewrite IH by auto. rewrite sum_scal. reflexivity. }
      rewrite sum_swap. apply sum_ext. intros m Hm. cbn [power_entry].
      rewrite <- sum_scal_r. apply sum_ext. intros. ring.
  Qed.

  Definition size : R := 1 + sum_below n (fun i => sum_below n (fun j => Rabs (a i j))).

  Lemma size_row i : (i < n)%nat -> sum_below n (fun j => Rabs (a i j)) <= size.
  Proof.
    intros Hi. unfold size.
    assert (H := sum_member n (fun i => sum_below n (fun j => Rabs (a i j))) i). cbn in H.
    assert (sum_below n (fun j => Rabs (a i j)) <= sum_below n (fun i => sum_below n (fun j => Rabs (a i j)))); [|lra].
    apply H; auto. intros j _. apply sum_nonneg. intros. apply Rabs_pos.
  Qed.

  Lemma size_ge_1 : 1 <= size.
  Proof.
    unfold size. assert (0 <= sum_below n (fun i => sum_below n (fun j => Rabs (a i j)))); [|lra].
    apply sum_nonneg. intros i _. apply sum_nonneg. intros. apply Rabs_pos.
  Qed.

  Lemma power_bound k i j : (i < n)%nat -> Rabs (power_entry n a k i j) <= size ^ k.
  Proof.
    assert (S1 := size_ge_1).
    revert i. induction k as [|k IH]; intros i Hi.
    - cbn. unfold kronecker. destruct (i =? j)%nat; [rewrite Rabs_R1|rewrite Rabs_R0]; lra.
    - cbn [power_entry pow]. eapply Rle_trans; [apply sum_abs|].
      apply Rle_trans with (sum_below n (fun l => Rabs (a i l) * size ^ k)).
      + apply sum_le. intros l Hl. rewrite Rabs_mult. apply Rmult_le_compat_l; [apply Rabs_pos|apply IH, Hl].
      + rewrite sum_scal_r. apply Rmult_le_compat_r; [apply pow_le; lra|apply size_row, Hi].
  Qed.

  Definition coef (i j k : nat) : R := power_entry n a k i j / INR (fact k).

  Lemma coef_radius i j : (i < n)%nat -> CV_radius (coef i j) = p_infty.
  Proof.
    intros Hi. destruct (CV_radius_bounded (coef i j)) as [U _].
    assert (H : forall r : R, Rbar_le r (CV_radius (coef i j))).
    { intros r. apply U.
      destruct (maj_by_pos (fun k => (size * Rabs r) ^ k / INR (fact k))) as (M & _ & HM).
      { exists 0. apply cv_speed_pow_fact. }
      exists M. intros k. eapply Rle_trans; [|apply HM].
      assert (Hf : 0 < INR (fact k)) by (apply lt_0_INR, lt_O_fact).
      assert (S1 := size_ge_1).
      assert (Hs : 0 <= (size * Rabs r) ^ k) by (apply pow_le, Rmult_le_pos; [lra|apply Rabs_pos]).
      rewrite (Rabs_pos_eq ((size * Rabs r) ^ k / INR (fact k))).
      2:{ apply Rmult_le_pos; [exact Hs|left; apply Rinv_0_lt_compat, Hf]. }
      unfold coef, Rdiv. rewrite Rmult_assoc, (Rmult_comm _ (r ^ k)), <- Rmult_assoc, Rabs_mult, (Rabs_pos_eq (/ _)).
      2:{ left; apply Rinv_0_lt_compat, Hf. }
      apply Rmult_le_compat_r; [left; apply Rinv_0_lt_compat, Hf|].
      rewrite Rabs_mult, Rpow_mult_distr, RPow_abs.
      apply Rmult_le_compat_r; [apply Rabs_pos|apply power_bound, Hi]. }
    destruct (CV_radius (coef i j)) as [r| |]; [|reflexivity|].
    - specialize (H (r + 1)). cbn in H. lra.
    - specialize (H 0). cbn in H. destruct H.
  Qed.

  Lemma coef_inside i j t : (i < n)%nat -> Rbar_lt (Rabs t) (CV_radius (coef i j)).
  Proof. intros Hi. rewrite coef_radius by exact Hi. exact I. Qed.

  (** exp (t a). *)
  Definition flow (t : R) (i j : nat) : R := PSeries (coef i j) t.

  Lemma flow_series t i j : (i < n)%nat -> is_pseries (coef i j) t (flow t i j).
  Proof. intros Hi. apply PSeries_correct, CV_radius_inside, coef_inside, Hi. Qed.

  Lemma flow_0 i j : flow 0 i j = kronecker i j.
  Proof. unfold flow. rewrite PSeries_0. unfold coef. cbn. field. Qed.

  Lemma pseries_sum m (c : nat -> R) (b : nat -> nat -> R) (s : nat -> R) t :
    (forall l, (l < m)%nat -> is_pseries (b l) t (s l)) ->
    is_pseries (fun k => sum_below m (fun l => c l * b l k)) t (sum_below m (fun l => c l * s l)).
  Proof.
    induction m as [|m IH]; intros H.
    - apply is_pseries_R. apply (is_series_ext (fun _ => 0)); [intros k; unfold sum_below; cbn; ring|].
      unfold sum_below; cbn. apply filterlim_ext with (fun _ => 0).
      + intros k. rewrite sum_n_const. symmetry. apply Rmult_0_r.
      + apply filterlim_const.
    - apply is_pseries_R. rewrite sum_S.
      apply (is_series_ext (fun k => sum_below m (fun l => c l * b l k) * t ^ k + c m * (b m k * t ^ k))).
      { intros k. rewrite sum_S. lazymatch goal with |- ?l = ?r => change (@eq R l r) end. ring. }
      apply (is_series_plus (K := R_AbsRing) (V := R_NormedModule)).
      + apply is_pseries_R, IH. intros; apply H; lia.
      + apply (is_series_scal (K := R_AbsRing) (V := R_NormedModule) (c m) (fun k => b m k * t ^ k)). apply is_pseries_R, H. lia.
  Qed.

  Lemma coef_derive i j k : (i < n)%nat -> PS_derive (coef i j) k = power_entry n a (S k) i j / INR (fact k).
  Proof.
    intros Hi. unfold PS_derive, coef. rewrite fact_simpl, mult_INR. field. split; [apply INR_fact_neq_0|apply not_0_INR; lia].
  Qed.

  Lemma flow_left t i j : (i < n)%nat -> is_derive (fun s => flow s i j) t (sum_below n (fun l => a i l * flow t l j)).
  Proof.
    intros Hi. assert (D := is_derive_PSeries (coef i j) t (coef_inside i j t Hi)).
    replace (sum_below n (fun l => a i l * flow t l j)) with (PSeries (PS_derive (coef i j)) t); [exact D|].
    rewrite (PSeries_ext _ (fun k => sum_below n (fun l => a i l * coef l j k))).
    - apply is_pseries_unique. apply pseries_sum. intros l Hl. apply flow_series, Hl.
    - intros k. rewrite coef_derive by exact Hi. cbn [power_entry]. unfold Rdiv. rewrite <- sum_scal_r.
      apply sum_ext. intros. unfold coef, Rdiv. ring.
  Qed.

  Lemma flow_right t i j : (i < n)%nat -> (j < n)%nat ->
    is_derive (fun s => flow s i j) t (sum_below n (fun l => flow t i l * a l j)).
  Proof.
    intros Hi Hj. assert (D := is_derive_PSeries (coef i j) t (coef_inside i j t Hi)).
    replace (sum_below n (fun l => flow t i l * a l j)) with (PSeries (PS_derive (coef i j)) t); [exact D|].
    rewrite (PSeries_ext _ (fun k => sum_below n (fun l => a l j * coef i l k))).
    - rewrite (sum_ext n (fun l => flow t i l * a l j) (fun l => a l j * flow t i l)) by (intros; ring).
      apply is_pseries_unique. apply (pseries_sum n (fun l => a l j) (fun l => coef i l)). intros l Hl. apply flow_series, Hi.
    - intros k. rewrite coef_derive by exact Hi. rewrite power_right by auto. unfold Rdiv. rewrite <- sum_scal_r.
      apply sum_ext. intros. unfold coef, Rdiv. ring.
  Qed.

  Hypothesis skew : forall i j, (i < n)%nat -> (j < n)%nat -> a i j = - a j i.

  Lemma constant_of_derivative (h : R -> R) : (forall t, is_derive h t 0) -> forall t, h t = h 0.
  Proof.
    intros D t. destruct (Rtotal_order t 0) as [Hx|[->|Hx]]; [|reflexivity|symmetry].
    - apply (eq_is_derive h); [intros; apply D|exact Hx].
    - apply (eq_is_derive h); [intros; apply D|exact Hx].
  Qed.

  Lemma product_derive (f g : R -> R) t d e : is_derive f t d -> is_derive g t e ->
    is_derive (fun s => f s * g s) t (d * g t + f t * e).
  Proof.
    intros F G. exact (is_derive_mult (K := R_AbsRing) f g t d e F G Rmult_comm).
  Qed.

  Lemma flow_columns t i j : (i < n)%nat -> (j < n)%nat -> sum_below n (fun l => flow t l i * flow t l j) = kronecker i j.
  Proof.
    intros Hi Hj.
    rewrite (constant_of_derivative (fun t => sum_below n (fun l => flow t l i * flow t l j))).
    - rewrite (sum_ext n _ (fun l => kronecker i l * kronecker l j)).
      + apply (sum_kronecker n (fun l => kronecker l j)), Hi.
      + intros l _. rewrite !flow_0, (kronecker_sym l i). reflexivity.
    - clear t. intros t.
      set (d := fun l t => sum_below n (fun m => a l m * flow t m i) * flow t l j + flow t l i * sum_below n (fun m => a l m * flow t m j)).
      replace 0 with (sum_below n (fun l => d l t)).
      + apply (sum_derive n (fun l t => flow t l i * flow t l j) d). intros l Hl. unfold d. apply product_derive; apply flow_left, Hl.
      + unfold d. rewrite sum_plus.
        rewrite (sum_ext n (fun l => flow t l i * _) (fun l => sum_below n (fun m => flow t l i * (a l m * flow t m j)))) by (intros; rewrite sum_scal; reflexivity).
        rewrite (sum_swap n n). rewrite <- sum_plus, <- (sum_zero n). apply sum_ext. intros l Hl.
        rewrite <- sum_scal_r, <- sum_plus, <- (sum_zero n). apply sum_ext. intros m Hm. rewrite (skew m l) by auto. ring.
  Qed.

  Lemma flow_rows t i j : (i < n)%nat -> (j < n)%nat -> sum_below n (fun l => flow t i l * flow t j l) = kronecker i j.
  Proof.
    intros Hi Hj.
    rewrite (constant_of_derivative (fun t => sum_below n (fun l => flow t i l * flow t j l))).
    - rewrite (sum_ext n _ (fun l => kronecker i l * kronecker l j)).
      + apply (sum_kronecker n (fun l => kronecker l j)), Hi.
      + intros l _. rewrite !flow_0, (kronecker_sym j l). reflexivity.
    - clear t. intros t.
      set (d := fun l t => sum_below n (fun m => flow t i m * a m l) * flow t j l + flow t i l * sum_below n (fun m => flow t j m * a m l)).
      replace 0 with (sum_below n (fun l => d l t)).
      + apply (sum_derive n (fun l t => flow t i l * flow t j l) d). intros l Hl. unfold d. apply product_derive; apply flow_right; auto.
      + unfold d. rewrite sum_plus.
        rewrite (sum_ext n (fun l => flow t i l * _) (fun l => sum_below n (fun m => flow t i l * (flow t j m * a m l)))) by (intros; rewrite sum_scal; reflexivity).
        rewrite (sum_swap n n). rewrite <- sum_plus, <- (sum_zero n). apply sum_ext. intros l Hl.
        rewrite <- sum_scal_r, <- sum_plus, <- (sum_zero n). apply sum_ext. intros m Hm. rewrite (skew m l) by auto. ring.
  Qed.
End Exponential.

(** ** The exponential of an array *)

Lemma expm_entries expm n m i j : is_expm expm -> square_array n m -> (i < n)%nat -> (j < n)%nat ->
  entry (expm m) i j = flow n (entry m) 1 i j.
Proof.
  intros He Hm Hi Hj. destruct (He n m Hm) as [_ E]. specialize (E i j Hi Hj).
  rewrite <- (is_series_unique _ _ E). unfold flow, PSeries. apply Series_ext. intros k. rewrite pow1. unfold coef. ring.
Qed.

Lemma expm_orthogonal expm n m : is_expm expm -> square_array n m -> skew_symmetric n m -> orthogonal n (expm m).
Proof.
  intros He Hm Hs. split; [apply (He n m Hm)|split]; intros i j Hi Hj.
  - rewrite <- (flow_columns n (entry m) Hs 1 i j Hi Hj). apply sum_ext. intros l Hl. rewrite !(expm_entries expm n) by auto. reflexivity.
  - rewrite <- (flow_rows n (entry m) Hs 1 i j Hi Hj). apply sum_ext. intros l Hl. rewrite !(expm_entries expm n) by auto. reflexivity.
Qed.

(** The exponential exists. *)
Definition series_expm (m : matrix) : matrix :=
  let n := length m in map (fun i => map (fun j => flow n (entry m) 1 i j) (seq 0 n)) (seq 0 n).

Lemma nth_map_seq {A} (f : nat -> A) n d i : (i < n)%nat -> nth i (map f (seq 0 n)) d = f i.
Proof.
  intros H. rewrite nth_indep with (d' := f 0%nat) by (rewrite map_length, seq_length; auto).
  rewrite map_nth, seq_nth by auto. reflexivity.
Qed.

Lemma tabulated_square n (f : nat -> nat -> R) : square_array n (map (fun i => map (f i) (seq 0 n)) (seq 0 n)).
Proof.
  split; [rewrite map_length, seq_length; reflexivity|]. apply Forall_forall. intros row H. apply in_map_iff in H.
  destruct H as (i & <- & _). rewrite map_length, seq_length. reflexivity.
Qed.

Lemma tabulated_entry n (f : nat -> nat -> R) i j : (i < n)%nat -> (j < n)%nat ->
  entry (map (fun i => map (f i) (seq 0 n)) (seq 0 n)) i j = f i j.
Proof. intros. unfold entry. rewrite !nth_map_seq by auto. reflexivity. Qed.

Lemma series_expm_ok : is_expm series_expm.
Proof.
  intros n m [Hl Hr]. unfold series_expm. rewrite Hl. split; [apply tabulated_square|].
  intros i j Hi Hj. rewrite tabulated_entry by auto.
  apply (is_series_ext (fun k => coef n (entry m) i j k * 1 ^ k)).
  - intros k. rewrite pow1. apply Rmult_1_r.
  - apply is_pseries_R, flow_series, Hi.
Qed.

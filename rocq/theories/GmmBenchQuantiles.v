(** Proofs about the summaries of posteriors. *)
From Coq Require Import String Ascii Permutation Sorted Lia Lra.
From Verif Require Import Base BaseLemmas UtilsModel BenchmarkModel TablesModel TablesProofs RulesModel RulesSpec GmmBenchModel GmmBenchSpec.
Local Notation length := List.length.
Open Scope R_scope.

(** ** Sorting *)
Lemma rleb_total x y : Rleb x y = false -> Rleb y x = true.
Proof. intros H. apply Rleb_false in H. apply Rleb_true. lra. Qed.

Lemma sorted_increasing s : Sorted (fun x y => Rleb x y = true) s -> increasing s.
Proof.
  intros H. apply Sorted_StronglySorted in H; [|intros x y z A B; apply Rleb_true in A, B; apply Rleb_true; lra].
  induction H as [|a s H IH F]; intros i j [A B]; cbn [length] in B; [lia|].
  destruct i as [|i], j as [|j]; cbn [nth]; try lia; [lra| |apply IH; lia].
  rewrite Forall_forall in F. apply Rleb_true. apply F. apply nth_In. lia.
Qed.

Lemma sort_arranged l : arranged l (sort_by Rleb l).
Proof.
  split; [apply Permutation_sym, sort_perm|]. apply sorted_increasing, sort_sorted. exact rleb_total.
Qed.

Lemma increasing_tail a s : increasing (a :: s) -> increasing s /\ Forall (Rle a) s.
Proof.
  intros H. split.
  - intros i j [A B]. apply (H (S i) (S j)). cbn. lia.
  - apply Forall_forall. intros x I. apply (In_nth _ _ 0) in I as (i & L & <-). apply (H 0%nat (S i)). cbn. lia.
Qed.

Lemma increasing_unique s : forall s', Permutation s s' -> increasing s -> increasing s' -> s = s'.
Proof.
  induction s as [|a s IH]; intros s' P A B; [apply Permutation_nil in P; congruence|].
  destruct s' as [|b s']; [apply Permutation_sym, Permutation_nil in P; discriminate|].
  destruct (increasing_tail _ _ A) as [A1 A2], (increasing_tail _ _ B) as [B1 B2]. rewrite Forall_forall in A2, B2.
  assert (E : a = b).
  { assert (Ia : In a (b :: s')) by (eapply Permutation_in; [exact P|now left]).
    assert (Ib : In b (a :: s)) by (eapply Permutation_in; [apply Permutation_sym, P|now left]).
    destruct Ia as [<-|Ia]; [reflexivity|]. destruct Ib as [->|Ib]; [reflexivity|].
    apply Rle_antisym; auto. }
  subst b. f_equal. apply IH; auto. eapply Permutation_cons_inv. exact P.
Qed.

Lemma arranged_unique l s s' : arranged l s -> arranged l s' -> s = s'.
Proof.
  intros [P A] [P' A']. apply increasing_unique; auto. eapply Permutation_trans; [apply Permutation_sym, P|exact P'].
Qed.

Lemma arranged_length l s : arranged l s -> length s = length l.
Proof. intros [P _]. now rewrite (Permutation_length P). Qed.

(** ** Quantiles *)
Lemma int_part_nat v : 0 <= v -> exists k : nat, Int_part v = Z.of_nat k /\ INR k <= v < INR k + 1.
Proof.
  intros H. destruct (base_Int_part v) as [A B].
  assert (0 <= Int_part v)%Z.
  { apply le_IZR. assert (-1 < IZR (Int_part v)) by lra. apply (lt_IZR (-1)) in H0. apply IZR_le. lia. }
  exists (Z.to_nat (Int_part v)). rewrite Z2Nat.id by exact H0. split; [reflexivity|].
  rewrite INR_IZR_INZ, Z2Nat.id by exact H0. lra.
Qed.

Section Quantile.
  Variable l : list R.
  Hypothesis Hl : l <> [].
  Let s := sort_by Rleb l.
  Let n := length l.

  Lemma n_pos : (0 < n)%nat.
  Proof. unfold n. destruct l; [easy|cbn; lia]. Qed.
  Lemma n_sorted : length s = n.
  Proof. apply arranged_length, sort_arranged. Qed.
  Lemma n_less : INR (n - 1) = INR n - 1.
  Proof. pose proof n_pos. rewrite minus_INR by lia. reflexivity. Qed.

  (** The two neighbours. *)
  Lemma quantile_at q : 0 <= q <= 1 -> exists (k : nat) (part : R), 0 <= part < 1 /\ q * (INR n - 1) = INR k + part /\ (k < n)%nat /\
    (part > 0 -> (S k < n)%nat) /\
    quantile q l = (1 - part) * nth k s 0 + part * nth (Nat.min (k + 1) (n - 1)) s 0.
  Proof.
    intros Hq. unfold quantile. fold s. rewrite n_sorted, n_less.
    pose proof n_pos as P. assert (P' : 1 <= INR n) by (apply (le_INR 1); lia).
    assert (V : 0 <= (INR n - 1) * q) by (apply Rmult_le_pos; lra).
    destruct (int_part_nat _ V) as (k & Ek & Bk). rewrite Ek, Nat2Z.id.
    exists k, ((INR n - 1) * q - INR k).
    assert (U : (INR n - 1) * q <= INR n - 1) by nra.
    assert (Kn : (k < n)%nat).
    { apply INR_lt. lra. }
    split; [lra|]. split; [lra|]. split; [exact Kn|]. split.
    - intros Hp. apply INR_lt. rewrite S_INR.
      assert (INR k < INR n - 1) by lra. rewrite <- n_less in H. apply INR_lt in H.
      assert (S k < n)%nat by lia. apply lt_INR in H0. rewrite S_INR in H0. exact H0.
    - destruct (Nat.lt_ge_cases (S k) n) as [L|G].
      + rewrite (nth_indep s (nth k s 0) 0) by (rewrite n_sorted; lia).
        replace (Nat.min (k + 1) (n - 1)) with (S k) by lia. ring.
      + rewrite (nth_overflow s (nth k s 0)) by (rewrite n_sorted; lia).
        replace (Nat.min (k + 1) (n - 1)) with k by lia. ring.
  Qed.

  Lemma quantile_spec q : 0 <= q <= 1 -> is_quantile q l (quantile q l).
  Proof.
    intros Hq s' Hs. rewrite (arranged_unique _ _ _ Hs (sort_arranged l)).
    destruct (quantile_at q Hq) as (k & p & A & B & C & _ & D). exists k, p. auto.
  Qed.

  Lemma quantile_unique q v w : is_quantile q l v -> is_quantile q l w -> v = w.
  Proof.
    intros A B. destruct (A _ (sort_arranged l)) as (k & p & A1 & A2 & A3 & ->), (B _ (sort_arranged l)) as (k' & p' & B1 & B2 & B3 & ->).
    assert (E : k = k').
    { assert (INR k + p = INR k' + p') by congruence.
      assert (INR k < INR k' + 1) by lra. assert (INR k' < INR k + 1) by lra. rewrite <- S_INR in *.
      apply INR_lt in H0, H1. lia. }
    subst k'. replace p' with p by lra. reflexivity.
  Qed.

  Lemma s_increasing i j : (i <= j < n)%nat -> nth i s 0 <= nth j s 0.
  Proof. intros H. apply (proj2 (sort_arranged l)). fold s. now rewrite n_sorted. Qed.

  Lemma quantile_between_neighbours q : 0 <= q <= 1 -> exists k : nat, (k < n)%nat /\ INR k <= q * (INR n - 1) < INR k + 1 /\
    (q * (INR n - 1) = INR k -> quantile q l = nth k s 0) /\
    nth k s 0 <= quantile q l <= nth (Nat.min (k + 1) (n - 1)) s 0.
  Proof.
    intros Hq. destruct (quantile_at q Hq) as (k & p & A & B & C & _ & ->). exists k. split; [exact C|]. split; [lra|]. split.
    - intros E. replace p with 0 by lra. ring.
    - assert (nth k s 0 <= nth (Nat.min (k + 1) (n - 1)) s 0) by (apply s_increasing; lia). split; nra.
  Qed.

  Lemma quantile_monotone q q' : 0 <= q -> q <= q' -> q' <= 1 -> quantile q l <= quantile q' l.
  Proof.
    intros H0 H1 H2.
    destruct (quantile_at q ltac:(lra)) as (k & p & A1 & A2 & A3 & _ & ->).
    destruct (quantile_at q' ltac:(lra)) as (k' & p' & B1 & B2 & B3 & _ & ->).
    pose proof n_pos as P. assert (P' : 1 <= INR n) by (apply (le_INR 1); lia).
    assert (Hv : INR k + p <= INR k' + p') by (rewrite <- A2, <- B2; nra).
    assert (Hk : (k <= k')%nat).
    { assert (INR k < INR k' + 1) by lra. rewrite <- S_INR in H. apply INR_lt in H. lia. }
    destruct (Nat.eq_dec k k') as [->|Hne].
    - assert (nth k' s 0 <= nth (Nat.min (k' + 1) (n - 1)) s 0) by (apply s_increasing; lia). assert (p <= p') by lra. nra.
    - assert (nth k s 0 <= nth (Nat.min (k + 1) (n - 1)) s 0) by (apply s_increasing; lia).
      assert (nth (Nat.min (k + 1) (n - 1)) s 0 <= nth k' s 0) by (apply s_increasing; lia).
      assert (nth k' s 0 <= nth (Nat.min (k' + 1) (n - 1)) s 0) by (apply s_increasing; lia). nra.
  Qed.

  Lemma quantile_range q lo hi : 0 <= q <= 1 -> Forall (fun x => lo <= x <= hi) l -> lo <= quantile q l <= hi.
  Proof.
    intros Hq F. destruct (quantile_between_neighbours q Hq) as (k & A & _ & _ & B & C). rewrite Forall_forall in F.
    assert (G : forall i, (i < n)%nat -> lo <= nth i s 0 <= hi).
    { intros i Hi. apply F. eapply Permutation_in; [apply sort_perm|]. apply nth_In. fold s. now rewrite n_sorted. }
    pose proof (G k A). pose proof (G (Nat.min (k + 1) (n - 1)) ltac:(lia)). lra.
  Qed.

  Lemma quantile_extremes : In (quantile 0 l) l /\ Forall (Rle (quantile 0 l)) l /\ In (quantile 1 l) l /\ Forall (fun x => x <= quantile 1 l) l.
  Proof.
    assert (Q0 : quantile 0 l = nth 0 s 0).
    { destruct (quantile_between_neighbours 0 ltac:(lra)) as (k & A & B & C & _). rewrite Rmult_0_l in *.
      destruct k as [|k]; [now apply C|]. rewrite S_INR in B. pose proof (pos_INR k). lra. }
    assert (Q1 : quantile 1 l = nth (n - 1) s 0).
    { destruct (quantile_between_neighbours 1 ltac:(lra)) as (k & A & B & C & _). rewrite Rmult_1_l in *.
      rewrite <- n_less in *. rewrite <- S_INR in B. destruct B as [B1 B2]. apply INR_le in B1. apply INR_lt in B2.
      assert (k = n - 1)%nat by lia. subst k. now apply C. }
    pose proof n_pos.
    assert (M : forall i, (i < n)%nat -> In (nth i s 0) l).
    { intros i Hi. eapply Permutation_in; [apply sort_perm|]. apply nth_In. fold s. now rewrite n_sorted. }
    assert (E : forall x, In x l -> exists i, (i < n)%nat /\ nth i s 0 = x).
    { intros x I. assert (In x s) by (eapply Permutation_in; [apply Permutation_sym, sort_perm|exact I]).
      apply (In_nth _ _ 0) in H0 as (i & L & E). rewrite n_sorted in L. eauto. }
    rewrite Q0, Q1, !Forall_forall. repeat split; try (apply M; lia).
    - intros x I. destruct (E x I) as (i & L & <-). apply s_increasing. lia.
    - intros x I. destruct (E x I) as (i & L & <-). apply s_increasing. lia.
  Qed.
End Quantile.

Lemma quantile_permutation q l l' : Permutation l l' -> quantile q l = quantile q l'.
Proof.
  intros P. unfold quantile. replace (sort_by Rleb l') with (sort_by Rleb l); [reflexivity|].
  apply (arranged_unique l); [apply sort_arranged|]. destruct (sort_arranged l') as [A B]. split; [|exact B].
  eapply Permutation_trans; eauto.
Qed.

(** ** How many values are on either side *)
Lemma filter_perm {A} (f : A -> bool) l l' : Permutation l l' -> length (filter f l) = length (filter f l').
Proof.
  induction 1; cbn; auto; try congruence.
  - destruct (f x); cbn; congruence.
  - destruct (f x), (f y); reflexivity.
Qed.
Lemma filter_first {A} (f : A -> bool) (d : A) l k : (k <= length l)%nat -> (forall i, (i < k)%nat -> f (nth i l d) = true) -> (k <= length (filter f l))%nat.
Proof.
  revert k. induction l as [|a l IH]; intros k H F; cbn in *; [lia|]. destruct k as [|k]; [lia|].
  pose proof (F 0%nat ltac:(lia)) as F0. cbn in F0. rewrite F0. cbn. apply le_n_S, IH; [lia|]. intros i Hi. apply (F (S i)). lia.
Qed.
Lemma filter_last {A} (f : A -> bool) (d : A) l k : (forall i, (k <= i < length l)%nat -> f (nth i l d) = true) -> (length l - k <= length (filter f l))%nat.
Proof.
  revert k. induction l as [|a l IH]; intros k F; cbn in *; [lia|]. destruct k as [|k].
  - pose proof (F 0%nat ltac:(lia)) as F0. cbn in F0. rewrite F0. cbn. pose proof (IH 0%nat). rewrite Nat.sub_0_r in H. apply le_n_S, H.
    intros i Hi. apply (F (S i)). lia.
  - assert (length l - k <= length (filter f l))%nat by (apply IH; intros i Hi; apply (F (S i)); lia).
    destruct (f a); cbn; lia.
Qed.

(** At least the share [q] of the other values is on the left, the rest on the right. *)
Lemma quantile_share q l : l <> [] -> 0 <= q <= 1 ->
  q * (INR (length l) - 1) < INR (at_most (quantile q l) l) /\ (1 - q) * (INR (length l) - 1) < INR (at_least (quantile q l) l).
Proof.
  intros Hl Hq. destruct (quantile_at l Hl q Hq) as (k & p & A & B & C & D & E).
  destruct (sort_arranged l) as [P S]. pose proof (arranged_length _ _ (sort_arranged l)) as L.
  assert (M : forall i j, (i <= j < length l)%nat -> nth i (sort_by Rleb l) 0 <= nth j (sort_by Rleb l) 0) by (intros i j H; apply S; lia).
  assert (N : nth k (sort_by Rleb l) 0 <= nth (Nat.min (k + 1) (length l - 1)) (sort_by Rleb l) 0) by (apply M; lia).
  unfold at_most, at_least. rewrite !(filter_perm _ _ _ P). split.
  - assert (K : (k + 1 <= length (filter (fun x => if Rle_dec x (quantile q l) then true else false) (sort_by Rleb l)))%nat).
    { apply (filter_first _ 0); [lia|]. intros i Hi. destruct (Rle_dec _ _) as [|G]; [reflexivity|]. elim G.
      assert (nth i (sort_by Rleb l) 0 <= nth k (sort_by Rleb l) 0) by (apply M; lia). rewrite E. nra. }
    apply le_INR in K. rewrite plus_INR in K. cbn in K. lra.
  - destruct (Rle_lt_dec p 0) as [Z|Z].
    + assert (p = 0) by lra. subst p.
      assert (K : (length (sort_by Rleb l) - k <= length (filter (fun x => if Rle_dec (quantile q l) x then true else false) (sort_by Rleb l)))%nat).
      { apply (filter_last _ 0). intros i Hi. destruct (Rle_dec _ _) as [|G]; [reflexivity|]. elim G.
        assert (nth k (sort_by Rleb l) 0 <= nth i (sort_by Rleb l) 0) by (apply M; lia). rewrite E. lra. }
      apply le_INR in K. rewrite minus_INR in K by lia. rewrite L in K. lra.
    + specialize (D Z).
      assert (K : (length (sort_by Rleb l) - (k + 1) <= length (filter (fun x => if Rle_dec (quantile q l) x then true else false) (sort_by Rleb l)))%nat).
      { apply (filter_last _ 0). intros i Hi. destruct (Rle_dec _ _) as [|G]; [reflexivity|]. elim G.
        assert (nth (Nat.min (k + 1) (length l - 1)) (sort_by Rleb l) 0 <= nth i (sort_by Rleb l) 0) by (apply M; lia). rewrite E. nra. }
      apply le_INR in K. rewrite minus_INR, plus_INR in K by lia. rewrite L in K. cbn in K. lra.
Qed.

(** ** Summaries *)
Lemma finite_values_part l : finite_part l (finite_values l).
Proof. induction l as [|[r| | |] l IH]; cbn; constructor; auto; discriminate. Qed.
Lemma finite_part_unique l k : finite_part l k -> k = finite_values l.
Proof.
  induction 1 as [|r l k H IH|v l k N H IH]; cbn; [reflexivity|now rewrite IH|]. destruct v; [elim (N r); reflexivity|exact IH..].
Qed.
Lemma finite_part_length l k : finite_part l k -> (length k <= length l)%nat.
Proof. induction 1; cbn; lia. Qed.

Lemma rmean_average l : l <> [] -> average l (rmean l).
Proof.
  intros H. unfold average, rmean, rsum. assert (0 < length l)%nat by (destruct l; [easy|cbn; lia]). split; [exact H0|].
  apply lt_INR in H0. cbn in H0. field. lra.
Qed.
Lemma average_unique l m : average l m -> m = rmean l.
Proof.
  intros [H E]. unfold rmean, rsum. rewrite <- E. apply lt_INR in H. cbn in H. field. lra.
Qed.

Lemma summarize_ok l : let s := summarize l in summarizes l (s_low s) (s_mean s) (s_high s) (s_filtered s) (s_used s).
Proof.
  cbn zeta. exists (finite_values l). split; [apply finite_values_part|]. pose proof (finite_part_length _ _ (finite_values_part l)) as L.
  unfold summarize. destruct (finite_values l) as [|r k] eqn:E.
  - cbn [length] in *. unfold zlen. cbn. repeat split; try congruence; try lia.
  - assert (N : r :: k <> []) by discriminate.
    replace (0 <? zlen (r :: k))%Z with true by (symmetry; apply Z.ltb_lt; unfold zlen; cbn [length]; lia).
    cbn [s_low s_mean s_high s_filtered s_used]. unfold zlen. split; [reflexivity|]. split; [lia|]. split; [lia|]. split; [|discriminate].
    intros _. split; [|split]; [apply quantile_spec; auto; lra|now apply rmean_average|apply quantile_spec; auto; lra].
Qed.

(** The summary is determined by what is said about it. *)
Lemma summarizes_unique l a b c f u : summarizes l a b c f u ->
  let s := summarize l in a = s_low s /\ b = s_mean s /\ c = s_high s /\ f = s_filtered s /\ u = s_used s.
Proof.
  cbn zeta. intros (k & P & -> & F & _ & Q1 & Q2). pose proof (summarize_ok l) as X. cbn zeta in X. destruct X as (k' & P' & U' & F' & _ & Q1' & Q2').
  apply finite_part_unique in P, P'. subst k k'.
  split; [|split; [|split; [|split; [lia|congruence]]]]; destruct (finite_values l) as [|r k];
    try (destruct (Q2 eq_refl) as (A1 & A2 & A3), (Q2' eq_refl) as (B1 & B2 & B3); congruence);
    (destruct (Q1 ltac:(discriminate)) as (A1 & A2 & A3); destruct (Q1' ltac:(discriminate)) as (B1 & B2 & B3)).
  - eapply quantile_unique; eauto.
  - rewrite (average_unique _ _ A2). symmetry. now apply average_unique.
  - eapply quantile_unique; eauto.
Qed.

(** Only the finite values matter, in any order. *)
Lemma summarizes_finite l l' : Permutation (finite_values l) (finite_values l') ->
  s_low (summarize l) = s_low (summarize l') /\ s_mean (summarize l) = s_mean (summarize l') /\
  s_high (summarize l) = s_high (summarize l') /\ s_used (summarize l) = s_used (summarize l').
Proof.
  intros P. unfold summarize. unfold zlen. rewrite (Permutation_length P).
  destruct (0 <? _)%Z; cbn [s_low s_mean s_high s_used]; [|auto].
  rewrite (quantile_permutation _ _ _ P). rewrite (quantile_permutation (9 / 10) _ _ P). repeat split; auto.
  unfold rmean. rewrite (Permutation_length P). f_equal. unfold rsum. induction P; cbn; lra.
Qed.

Lemma summary_ordered l : s_low (summarize l) <= s_high (summarize l).
Proof.
  unfold summarize. destruct (0 <? _)%Z eqn:E; cbn [s_low s_high]; [|lra]. apply Z.ltb_lt in E.
  apply quantile_monotone; try lra. intros N. rewrite N in E. cbn in E. lia.
Qed.

(** The mean which is saved beside the posterior. *)
Lemma fl_sum_fin l : fl_sum (map Fin l) = Fin (rsum l).
Proof. unfold fl_sum, rsum. induction l as [|r l IH]; [reflexivity|]. cbn [map fold_right]. rewrite IH. reflexivity. Qed.
Lemma saved_mean l : l <> [] -> array_mean (map Fin l) = Fin (s_mean (summarize (map Fin l))).
Proof.
  intros H. assert (E : finite_values (map Fin l) = l) by (clear H; induction l as [|r l IH]; cbn; [reflexivity|now rewrite IH at 1]).
  unfold summarize. rewrite E. destruct l as [|r l]; [easy|]. unfold zlen. cbn [length].
  replace (0 <? Z.of_nat (S (length l)))%Z with true by (symmetry; apply Z.ltb_lt; lia). cbn [s_mean].
  unfold array_mean. change (match map Fin (r :: l) with [] => NaN | _ :: _ => ?x end) with x.
  cbn [map]. change (Fin r :: map Fin l) with (map Fin (r :: l)). rewrite fl_sum_fin, map_length. unfold rmean. reflexivity.
Qed.

Lemma nan_mean l : In NaN l -> array_mean l = NaN.
Proof.
  intros H. assert (E : fl_sum l = NaN).
  { unfold fl_sum. induction l as [|v l IH]; [destruct H|]. cbn [fold_right]. destruct H as [->|H]; [reflexivity|]. rewrite (IH H). now destruct v. }
  unfold array_mean. destruct l; [destruct H|]. now rewrite E.
Qed.

(** ** The mean and the quantiles *)
Lemma rsum_perm l l' : Permutation l l' -> rsum l = rsum l'.
Proof. unfold rsum. induction 1; cbn; lra. Qed.
Section Mean.
  Variable l : list R.
  Hypothesis Hl : l <> [].
  Let s := sort_by Rleb l.
  Let n := length l.

  Lemma sum_sorted : rsum l = rsum s.
  Proof. apply rsum_perm, (sort_arranged l). Qed.
  Lemma sum_upper k u : (forall x, In x k -> x <= u) -> rsum k <= INR (length k) * u.
  Proof.
    induction k as [|a k IH]; intros H; [cbn; lra|]. unfold rsum in *. cbn [fold_right length]. rewrite S_INR.
    pose proof (H a ltac:(now left)). assert (fold_right Rplus 0 k <= INR (length k) * u) by (apply IH; intros x I; apply H; now right). lra.
  Qed.
  Lemma sum_lower k u : (forall x, In x k -> u <= x) -> INR (length k) * u <= rsum k.
  Proof.
    induction k as [|a k IH]; intros H; [cbn; lra|]. unfold rsum in *. cbn [fold_right length]. rewrite S_INR.
    pose proof (H a ltac:(now left)). assert (INR (length k) * u <= fold_right Rplus 0 k) by (apply IH; intros x I; apply H; now right). lra.
  Qed.
  Lemma rsum_app a b : rsum (a ++ b) = rsum a + rsum b.
  Proof. unfold rsum. induction a as [|x a IH]; cbn; [lra|]. rewrite IH. lra. Qed.

  (** With one value everything is that value. *)
  Lemma one_value q : n = 1%nat -> 0 <= q <= 1 -> quantile q l = rmean l.
  Proof.
    unfold n. intros E Hq. destruct l as [|x [|y k]]; try discriminate.
    assert (x <= quantile q [x] <= x) by (apply quantile_range; [discriminate|exact Hq|repeat constructor; lra]).
    unfold rmean, rsum. cbn. lra.
  Qed.

  (** Up to ten values. *)
  Lemma high_at_least_mean : (n <= 10)%nat -> rmean l <= quantile (9 / 10) l.
  Proof.
    intros Hn. assert (P : (0 < n)%nat) by (apply n_pos; exact Hl).
    destruct (Nat.eq_dec n 1) as [E|E]; [rewrite (one_value (9 / 10) E); lra|].
    destruct (quantile_at l Hl (9 / 10) ltac:(lra)) as (k & p & A & B & C & D & Q). fold n in B, C, D, Q. fold s in Q.
    assert (Hs : length s = n) by apply (arranged_length _ _ (sort_arranged l)).
    assert (N1 : INR n <= 10) by (apply le_INR in Hn; cbn in Hn; lra).
    assert (N2 : 2 <= INR n) by (apply (le_INR 2); lia).
    assert (K : k = (n - 2)%nat).
    { assert (INR k <= INR n - 1 - 1 / 10 * (INR n - 1)) by lra. assert (INR n - 1 - 9 / 10 < INR k + 1) by lra.
      assert (INR k < INR (n - 1)) by (rewrite minus_INR by lia; cbn; lra). apply INR_lt in H1.
      assert (INR (n - 3) < INR k + 0 \/ (n - 2 <= k)%nat).
      { destruct (Nat.le_gt_cases (n - 2) k); [now right|left]. assert (S k <= n - 2)%nat by lia. apply le_INR in H3. rewrite S_INR, minus_INR in H3 by lia. cbn in H3. lra. }
      destruct H2 as [H2|H2]; [|lia]. rewrite Rplus_0_r in H2. apply INR_lt in H2. lia. }
    subst k. replace (Nat.min (n - 2 + 1) (n - 1)) with (n - 1)%nat in Q by lia.
    rewrite minus_INR in B by lia. cbn in B. assert (Ep : p = 1 - (INR n - 1) / 10) by lra.
    set (S := nth (n - 2) s 0) in *. set (t := nth (n - 1) s 0) in *.
    assert (St : S <= t) by (apply s_increasing; fold n; lia).
    assert (Sum : rsum s <= (INR n - 1) * S + t).
    { assert (Es : s = (firstn (n - 1) s ++ [t])%list).
      { rewrite <- (firstn_skipn (n - 1) s) at 1. f_equal. unfold t.
        assert (length (skipn (n - 1) s) = 1)%nat by (rewrite skipn_length, Hs; lia).
        destruct (skipn (n - 1) s) as [|x [|y k]] eqn:Es; try discriminate. f_equal.
        rewrite <- (firstn_skipn (n - 1) s), Es. rewrite app_nth2; rewrite firstn_length, Hs; [|lia]. replace (n - 1 - Nat.min (n - 1) n)%nat with 0%nat by lia. reflexivity. }
      rewrite Es, rsum_app. unfold rsum at 2. cbn. assert (rsum (firstn (n - 1) s) <= INR (length (firstn (n - 1) s)) * S).
      { apply sum_upper. intros x I. apply (In_nth _ _ 0) in I as (i & Li & <-). rewrite firstn_length, Hs in Li.
        replace (nth i (firstn (n - 1) s) 0) with (nth i s 0).
        - apply s_increasing. fold n. lia.
        - rewrite <- (firstn_skipn (n - 1) s) at 1. rewrite app_nth1; [reflexivity|]. rewrite firstn_length, Hs. lia. }
      rewrite firstn_length, Hs, Nat.min_l, minus_INR in H by lia. cbn in H. lra. }
    unfold rmean. rewrite sum_sorted, Q. fold n. apply (Rmult_le_reg_r (INR n)); [lra|]. replace (rsum s / INR n * INR n) with (rsum s) by (field; lra). rewrite Ep.
    apply Rle_trans with (1 := Sum).
    apply Rminus_le. replace ((INR n - 1) * S + t - ((1 - (1 - (INR n - 1) / 10)) * S + (1 - (INR n - 1) / 10) * t) * INR n)
      with (- ((t - S) * ((INR n - 1) * (10 - INR n)) / 10)) by field.
    assert (0 <= (t - S) * ((INR n - 1) * (10 - INR n))) by (apply Rmult_le_pos; [lra|apply Rmult_le_pos; lra]). lra.
  Qed.

  Lemma low_at_most_mean : (n <= 10)%nat -> quantile (1 / 10) l <= rmean l.
  Proof.
    intros Hn. assert (P : (0 < n)%nat) by (apply n_pos; exact Hl).
    destruct (Nat.eq_dec n 1) as [E|E]; [rewrite (one_value (1 / 10) E); lra|].
    destruct (quantile_at l Hl (1 / 10) ltac:(lra)) as (k & p & A & B & C & D & Q). fold n in B, C, D, Q. fold s in Q.
    assert (Hs : length s = n) by apply (arranged_length _ _ (sort_arranged l)).
    assert (N1 : INR n <= 10) by (apply le_INR in Hn; cbn in Hn; lra).
    assert (N2 : 2 <= INR n) by (apply (le_INR 2); lia).
    assert (K : k = 0%nat).
    { destruct k as [|k]; [reflexivity|]. rewrite S_INR in B. pose proof (pos_INR k). lra. }
    subst k. replace (Nat.min (0 + 1) (n - 1)) with 1%nat in Q by lia. cbn [INR] in B.
    assert (Ep : p = (INR n - 1) / 10) by lra.
    set (t := nth 0 s 0) in *. set (S := nth 1 s 0) in *.
    assert (St : t <= S) by (apply s_increasing; fold n; lia).
    assert (Sum : t + (INR n - 1) * S <= rsum s).
    { assert (L : INR (length (tl s)) * S <= rsum (tl s)).
      { apply sum_lower. intros x I. apply (In_nth _ _ 0) in I as (i & Li & <-).
        replace (nth i (tl s) 0) with (nth (Datatypes.S i) s 0) by (destruct s; [destruct i; reflexivity|reflexivity]).
        apply s_increasing. fold n. destruct s; cbn in *; lia. }
      destruct s as [|x k] eqn:Es; [cbn in Hs; lia|]. cbn [tl] in L. unfold t, rsum. cbn [nth fold_right].
      cbn [length] in Hs. rewrite <- Hs, S_INR. unfold rsum in L. lra. }
    unfold rmean. rewrite sum_sorted, Q. fold n. apply (Rmult_le_reg_r (INR n)); [lra|].
    replace (rsum s / INR n * INR n) with (rsum s) by (field; lra). rewrite Ep.
    apply Rle_trans with (2 := Sum).
    apply Rminus_le. replace (((1 - (INR n - 1) / 10) * t + (INR n - 1) / 10 * S) * INR n - (t + (INR n - 1) * S))
      with (- ((S - t) * ((INR n - 1) * (10 - INR n)) / 10)) by field.
    assert (0 <= (S - t) * ((INR n - 1) * (10 - INR n))) by (apply Rmult_le_pos; [lra|apply Rmult_le_pos; lra]). lra.
  Qed.
End Mean.

(** More than ten values, one of them far off. *)
Lemma nth_repeat_lt {A} (a d : A) m i : (i < m)%nat -> nth i (repeat a m) d = a.
Proof. revert i. induction m as [|m IH]; intros [|i] H; cbn; try lia; [reflexivity|apply IH; lia]. Qed.
Lemma outlier_arranged m a b : a <= b -> arranged (repeat a m ++ [b]) (repeat a m ++ [b]).
Proof.
  intros H. split; [apply Permutation_refl|]. intros i j [A B]. rewrite app_length, repeat_length in B. cbn in B.
  assert (G : forall i, (i < m)%nat -> nth i (repeat a m ++ [b]) 0 = a).
  { intros i' Hi. rewrite app_nth1 by (now rewrite repeat_length). apply nth_repeat_lt. exact Hi. }
  assert (E : nth m (repeat a m ++ [b]) 0 = b) by (rewrite app_nth2; rewrite repeat_length; [now rewrite Nat.sub_diag|lia]).
  destruct (Nat.eq_dec j m) as [->|Hj]; [rewrite E|rewrite (G j) by lia].
  - destruct (Nat.eq_dec i m) as [->|Hi]; [rewrite E; lra|rewrite G by lia; exact H].
  - rewrite G by lia. lra.
Qed.
Lemma outlier_high m : (10 <= m)%nat -> let l := (repeat 0 m ++ [100])%list in quantile (9 / 10) l = 0 /\ 0 < rmean l.
Proof.
  intros Hm. set (l := (repeat 0 m ++ [100])%list). cbn zeta.
  assert (Ll : length l = S m) by (unfold l; rewrite app_length, repeat_length; cbn; lia).
  assert (Hl : l <> []) by (destruct l; [discriminate|easy]).
  assert (M : 10 <= INR m) by (apply le_INR in Hm; cbn in Hm; lra).
  split.
  - destruct (quantile_spec l Hl (9 / 10) ltac:(lra) _ (outlier_arranged m 0 100 ltac:(lra))) as (k & p & A & B & C & D). fold l in D.
    rewrite Ll, S_INR in B. rewrite D.
    assert (G : forall i, (i < m)%nat -> nth i l 0 = 0).
    { intros i Hi. unfold l. rewrite app_nth1 by (now rewrite repeat_length). apply nth_repeat_lt. exact Hi. }
    assert (K : (k < m)%nat) by (apply INR_lt; lra).
    rewrite (G k K). destruct (Nat.eq_dec (S k) m) as [E|E].
    + assert (p = 0). { rewrite <- E, S_INR in B, M. lra. } subst p. lra.
    + rewrite G; [lra|]. rewrite Ll. lia.
  - unfold rmean. rewrite Ll. apply Rdiv_lt_0_compat; [|rewrite S_INR; lra]. unfold l. rewrite rsum_app.
    assert (rsum (repeat 0 m) = 0) by (clear; induction m; unfold rsum in *; cbn; lra). rewrite H. unfold rsum. cbn. lra.
Qed.

(** Lemmas about the KSG estimators. *)
From Coq Require Import Permutation Sorted.
From Verif Require Import Base BaseLemmas UtilsModel UtilsSpec UtilsProofs KsgModel KsgSpec.
Open Scope Z_scope.

(** ** Counting *)
Lemma count_perm {A} (f : A -> bool) l l' : Permutation l l' -> count f l = count f l'.
Proof.
  unfold count, zlen. induction 1; cbn [filter]; auto.
  - destruct (f x); cbn [length]; lia.
  - destruct (f x), (f y); cbn [length]; lia.
  - lia.
Qed.

Lemma count_app {A} (f : A -> bool) l l' : count f (l ++ l') = count f l + count f l'.
Proof. unfold count, zlen. rewrite filter_app, app_length. lia. Qed.

Lemma count_cons {A} (f : A -> bool) a l : count f (a :: l) = (if f a then 1 else 0) + count f l.
Proof. unfold count, zlen. cbn [filter]. destruct (f a); cbn [length]; lia. Qed.

Lemma count_le_length {A} (f : A -> bool) l : 0 <= count f l <= zlen l.
Proof.
  induction l as [|a l IH]; [unfold count, zlen; simpl; lia|].
  rewrite count_cons. unfold zlen in *. cbn [length]. destruct (f a); lia.
Qed.

Lemma count_mono {A} (f g : A -> bool) l :
  (forall a, In a l -> f a = true -> g a = true) -> count f l <= count g l.
Proof.
  induction l as [|a l IH]; intros H; [reflexivity|]. rewrite !count_cons.
  assert (count f l <= count g l) by (apply IH; intros; apply H; [right|]; assumption).
  destruct (f a) eqn:E; [rewrite (H a); [lia|now left|assumption]|]. destruct (g a); lia.
Qed.

Lemma count_ext_in {A} (f g : A -> bool) l : (forall a, In a l -> f a = g a) -> count f l = count g l.
Proof.
  induction l as [|a l IH]; intros H; [reflexivity|]. rewrite !count_cons.
  rewrite (H a) by now left. rewrite IH; auto. intros; apply H; now right.
Qed.

Lemma count_none {A} (f : A -> bool) l : (forall a, In a l -> f a = false) -> count f l = 0.
Proof.
  induction l as [|a l IH]; intros H; [reflexivity|]. rewrite count_cons, (H a) by now left.
  rewrite IH; auto. intros; apply H; now right.
Qed.

Lemma count_all {A} (f : A -> bool) l : (forall a, In a l -> f a = true) -> count f l = zlen l.
Proof.
  induction l as [|a l IH]; intros H; [reflexivity|]. rewrite count_cons, (H a) by now left.
  rewrite IH by (intros; apply H; now right). unfold zlen; cbn [length]; lia.
Qed.

Lemma count_map {A B} (g : A -> B) (f : B -> bool) l : count f (map g l) = count (fun a => f (g a)) l.
Proof. induction l as [|a l IH]; [reflexivity|]. cbn [map]. rewrite !count_cons. now rewrite IH. Qed.

Lemma count_less_count l r : count_less l r = count (fun v => Rltb v r) l.
Proof. reflexivity. Qed.

(** ** Order statistics *)
(** 0-based: at most k entries are smaller, more than k are at most [v]. *)
Definition order_stat (k : nat) (l : list R) (v : R) : Prop :=
  In v l /\ count (fun w => Rltb w v) l <= Z.of_nat k < count (fun w => Rleb w v) l.

Lemma order_stat_unique k l v w : order_stat k l v -> order_stat k l w -> v = w.
Proof.
  assert (H : forall v w, order_stat k l v -> order_stat k l w -> ~ (v < w)%R).
  { intros a b (_ & Ha1 & Ha2) (_ & Hb1 & Hb2) Hlt.
    assert (count (fun u => Rleb u a) l <= count (fun u => Rltb u b) l).
    { apply count_mono. intros u _ Hu. apply Rleb_true in Hu. apply Rltb_true. lra. }
    lia. }
  intros Hv Hw. pose proof (H v w Hv Hw). pose proof (H w v Hw Hv). lra.
Qed.

Lemma order_stat_perm k l l' v : Permutation l l' -> order_stat k l v -> order_stat k l' v.
Proof.
  intros HP (H1 & H2). split; [eapply Permutation_in; eauto|].
  now rewrite <- !(count_perm _ _ _ HP).
Qed.

Lemma map_nth_seq_self {A} (l : list A) d : map (fun i => nth i l d) (seq 0 (length l)) = l.
Proof.
  induction l as [|a l IH]; [reflexivity|]. simpl. f_equal.
  rewrite <- seq_shift, map_map. exact IH.
Qed.

Lemma sorts_order_stat l idx k : sorts l idx -> (k < length l)%nat -> order_stat k l (nth (nth k idx 0%nat) l 0%R).
Proof.
  intros [HP Hs] Hk.
  set (s := map (fun i => nth i l 0%R) idx).
  assert (Hlen : length idx = length l) by (rewrite (Permutation_length HP); apply seq_length).
  assert (HPs : Permutation s l).
  { eapply Permutation_trans; [apply Permutation_map; exact HP|]. now rewrite map_nth_seq_self. }
  assert (Hsn : forall a, (a < length l)%nat -> nth a s 0%R = nth (nth a idx 0%nat) l 0%R).
  { intros a Ha. unfold s. rewrite nth_indep with (d' := (fun i => nth i l 0%R) 0%nat)
      by (rewrite map_length; lia).
    apply (map_nth (fun i => nth i l 0%R)). }
  assert (Hls : length s = length l) by (unfold s; rewrite map_length; assumption).
  apply (order_stat_perm k s l _ HPs).
  set (v := nth (nth k idx 0%nat) l 0%R).
  assert (Hv : nth k s 0%R = v) by (apply Hsn; assumption).
  split; [rewrite <- Hv; apply nth_In; lia|].
  assert (Hfirst : forall w, In w (firstn (S k) s) -> (w <= v)%R).
  { intros w Hw. apply (In_nth _ _ 0%R) in Hw. destruct Hw as (a & Ha & <-).
    rewrite firstn_length in Ha.
    rewrite <- (firstn_skipn (S k) s) in Hv.
    assert (E : nth a (firstn (S k) s) 0%R = nth a s 0%R).
    { rewrite <- (firstn_skipn (S k) s) at 2. rewrite app_nth1; [reflexivity|]. rewrite firstn_length; lia. }
    rewrite E, Hsn by lia. apply Hs; lia. }
  assert (Hlast : forall w, In w (skipn k s) -> (v <= w)%R).
  { intros w Hw. apply (In_nth _ _ 0%R) in Hw. destruct Hw as (a & Ha & <-).
    rewrite skipn_length in Ha.
    assert (E : nth a (skipn k s) 0%R = nth (k + a) s 0%R).
    { rewrite <- (firstn_skipn k s) at 2. rewrite app_nth2; rewrite firstn_length; [|lia].
      f_equal. lia. }
    rewrite E, Hsn by lia. apply Hs; lia. }
  split.
  - rewrite <- (firstn_skipn k s), count_app.
    rewrite (count_none _ (skipn k s)).
    + pose proof (count_le_length (fun w => Rltb w v) (firstn k s)) as H.
      unfold zlen in H. rewrite firstn_length in H. lia.
    + intros w Hw. apply Rltb_false. auto.
  - rewrite <- (firstn_skipn (S k) s), count_app.
    rewrite (count_all _ (firstn (S k) s)).
    + pose proof (count_le_length (fun w => Rleb w v) (skipn (S k) s)) as H.
      unfold zlen. rewrite firstn_length. lia.
    + intros w Hw. apply Rleb_true. auto.
Qed.

(** Python's stable sort is a valid sort. *)
Lemma insert_by_perm key i l : Permutation (insert_by key i l) (i :: l).
Proof.
  induction l as [|j l IH]; simpl; [reflexivity|].
  destruct (Rltb (key j) (key i)); [|reflexivity].
  rewrite IH. apply perm_swap.
Qed.

Lemma insert_by_sorted key i l :
  Sorted (fun a b => (key a <= key b)%R) l -> Sorted (fun a b => (key a <= key b)%R) (insert_by key i l).
Proof.
  induction 1 as [|j l Hs IH Hhd]; simpl; [repeat constructor|].
  destruct (Rltb (key j) (key i)) eqn:E.
  - constructor; [assumption|]. apply Rltb_true in E.
    destruct l as [|m l]; simpl; [constructor; lra|].
    inversion Hhd; subst. destruct (Rltb (key m) (key i)); constructor; lra.
  - apply Rltb_false in E. constructor; [constructor; assumption|]. now constructor.
Qed.

Lemma sorted_indices_sorts l : sorts l (sorted_indices l).
Proof.
  unfold sorted_indices. set (key := fun i => nth i l 0%R).
  assert (HP : forall s, Permutation (fold_right (insert_by key) [] s) s).
  { induction s as [|i s IH]; simpl; [reflexivity|]. rewrite insert_by_perm. now constructor. }
  assert (HS : forall s, Sorted (fun a b => (key a <= key b)%R) (fold_right (insert_by key) [] s)).
  { induction s as [|i s IH]; simpl; [constructor|]. now apply insert_by_sorted. }
  specialize (HP (seq 0 (length l))). specialize (HS (seq 0 (length l))).
  set (idx := fold_right (insert_by key) [] (seq 0 (length l))) in *.
  split; [assumption|].
  assert (Hlen : length idx = length l) by (rewrite (Permutation_length HP); apply seq_length).
  apply Sorted_StronglySorted in HS; [|intros a b c Hab Hbc; lra].
  clear HP. rewrite <- Hlen. clear Hlen.
  intros a b Hab Hb.
  change (key (nth a idx 0%nat) <= key (nth b idx 0%nat))%R.
  revert a b Hab Hb. induction HS as [|i s HS IH Hall]; intros a b Hab Hb; simpl in Hb; [lia|].
  destruct b as [|b]; [replace a with 0%nat by lia; lra|].
  destruct a as [|a]; cbn [nth].
  - rewrite Forall_forall in Hall. apply Hall, nth_In. lia.
  - apply IH; lia.
Qed.

(** ** One row: the digamma term as a function of the pairs of distances *)
Section Term.
Variable psi : Z -> R.

Definition maxes (ps : list (R * R)) : list R := map (fun p => Rmax (fst p) (snd p)) ps.

Definition term_at (ps : list (R * R)) (r : R) : fl :=
  fl_add (digamma psi (count (fun v => Rltb v r) (map fst ps)))
         (digamma psi (count (fun v => Rltb v r) (map snd ps))).

(** [t] is the term of the row for neighborhood [k]. *)
Definition is_term (ps : list (R * R)) (k : Z) (t : fl) : Prop :=
  exists r, order_stat (Z.to_nat k) (maxes ps) r /\ t = term_at ps r.

Lemma is_term_unique ps k t t' : is_term ps k t -> is_term ps k t' -> t = t'.
Proof.
  intros (r & Hr & ->) (r' & Hr' & ->). now rewrite (order_stat_unique _ _ _ _ Hr Hr').
Qed.

Lemma is_term_perm ps ps' k t : Permutation ps ps' -> is_term ps k t -> is_term ps' k t.
Proof.
  intros HP (r & Hr & ->). exists r. split.
  - eapply order_stat_perm; [|exact Hr]. now apply Permutation_map.
  - unfold term_at. f_equal; f_equal; apply count_perm, Permutation_map, HP.
Qed.

Lemma maximum_maxes ps : maximum (map fst ps) (map snd ps) = maxes ps.
Proof.
  unfold maximum, maxes. induction ps as [|[a b] ps IH]; simpl; auto. now rewrite IH.
Qed.

Lemma generic_term idx ps k :
  sorts (maxes ps) idx -> (Z.to_nat k < length ps)%nat ->
  is_term ps k
    (fl_add (digamma psi (count_less (map fst ps) (nth (nth (Z.to_nat k) idx 0%nat) (maxes ps) 0%R) - 1 + 1))
            (digamma psi (count_less (map snd ps) (nth (nth (Z.to_nat k) idx 0%nat) (maxes ps) 0%R) - 1 + 1))).
Proof.
  intros Hs Hk. eexists. split.
  - apply sorts_order_stat; [exact Hs|]. unfold maxes. now rewrite map_length.
  - unfold term_at. rewrite !count_less_count. f_equal; f_equal; lia.
Qed.

Lemma fast_term_is_term argsort ps k :
  valid_argsort argsort -> (Z.to_nat k < length ps)%nat ->
  is_term ps k (fast_term psi argsort (map fst ps) (map snd ps) k).
Proof.
  intros Ha Hk. unfold fast_term. rewrite maximum_maxes. apply generic_term; auto.
Qed.

Lemma slow_term_is_term ps k :
  (Z.to_nat k < length ps)%nat -> is_term ps k (slow_term psi (map fst ps) (map snd ps) k).
Proof.
  intros Hk. unfold slow_term. rewrite maximum_maxes. apply generic_term; auto.
  apply sorted_indices_sorts.
Qed.

(** The term of a row, computed with the stable sort; every valid sort gives the same. *)
Definition term (ps : list (R * R)) (k : Z) : fl := slow_term psi (map fst ps) (map snd ps) k.

Lemma fast_term_term argsort ps k :
  valid_argsort argsort -> (Z.to_nat k < length ps)%nat ->
  fast_term psi argsort (map fst ps) (map snd ps) k = term ps k.
Proof.
  intros Ha Hk. eapply is_term_unique; [now apply fast_term_is_term|now apply slow_term_is_term].
Qed.

Lemma term_perm ps ps' k :
  Permutation ps ps' -> (Z.to_nat k < length ps)%nat -> term ps k = term ps' k.
Proof.
  intros HP Hk. eapply is_term_unique; [eapply is_term_perm; [exact HP|]|].
  - now apply slow_term_is_term.
  - apply slow_term_is_term. now rewrite <- (Permutation_length HP).
Qed.

Lemma count_scale c r l : (0 < c)%R ->
  count (fun v => Rltb v (c * r)) (map (fun v => (c * v)%R) l) = count (fun v => Rltb v r) l.
Proof.
  intros Hc. rewrite count_map. apply count_ext_in. intros v _.
  destruct (Rltb v r) eqn:E.
  - apply Rltb_true in E. apply Rltb_true. nra.
  - apply Rltb_false in E. apply Rltb_false. nra.
Qed.

Lemma count_scale_le c r l : (0 < c)%R ->
  count (fun v => Rleb v (c * r)) (map (fun v => (c * v)%R) l) = count (fun v => Rleb v r) l.
Proof.
  intros Hc. rewrite count_map. apply count_ext_in. intros v _.
  destruct (Rleb v r) eqn:E.
  - apply Rleb_true in E. apply Rleb_true. nra.
  - apply Rleb_false in E. apply Rleb_false. nra.
Qed.

Definition scale_pair (c : R) (p : R * R) : R * R := ((c * fst p)%R, (c * snd p)%R).

Lemma term_scale c ps k : (0 < c)%R -> (Z.to_nat k < length ps)%nat ->
  term (map (scale_pair c) ps) k = term ps k.
Proof.
  intros Hc Hk. destruct (slow_term_is_term ps k Hk) as (r & (Hin & Hr) & Et).
  eapply is_term_unique; [apply slow_term_is_term; now rewrite map_length|].
  exists (c * r)%R. 
  assert (Hm : maxes (map (scale_pair c) ps) = map (fun v => (c * v)%R) (maxes ps)).
  { unfold maxes. rewrite !map_map. apply map_ext. intros [a b]. simpl.
    rewrite <- RmaxRmult by lra. reflexivity. }
  split.
  - rewrite Hm. split; [now apply (in_map (fun v => (c * v)%R))|].
    now rewrite count_scale, count_scale_le.
  - unfold term. rewrite Et. unfold term_at.
    replace (map fst (map (scale_pair c) ps)) with (map (fun v => (c * v)%R) (map fst ps))
      by (rewrite !map_map; reflexivity).
    replace (map snd (map (scale_pair c) ps)) with (map (fun v => (c * v)%R) (map snd ps))
      by (rewrite !map_map; reflexivity).
    rewrite !count_scale by assumption. reflexivity.
Qed.

Definition swap_pair (p : R * R) : R * R := (snd p, fst p).

Lemma term_swap ps k : (Z.to_nat k < length ps)%nat -> term (map swap_pair ps) k = term ps k.
Proof.
  intros Hk. destruct (slow_term_is_term ps k Hk) as (r & Hr & Et).
  eapply is_term_unique; [apply slow_term_is_term; now rewrite map_length|].
  exists r. split.
  - replace (maxes (map swap_pair ps)) with (maxes ps); [assumption|].
    unfold maxes. rewrite map_map. apply map_ext. intros [a b]. simpl. apply Rmax_comm.
  - unfold term. rewrite Et. unfold term_at. rewrite !map_map. apply fl_add_comm.
Qed.
End Term.

(** KSG: the closed formula, bounds, duplicates, histories. *)
From Coq Require Import Permutation.
From Verif Require Import Base BaseLemmas UtilsModel UtilsSpec UtilsProofs KsgModel KsgSpec KsgProofs
  KsgFitProofs KsgThms.
Open Scope Z_scope.

(** ** Distances *)
Lemma rsum_eq_zero l : (forall v, In v l -> v = 0%R) -> rsum l = 0%R.
Proof.
  induction l as [|a l IH]; intros H; [reflexivity|]. rewrite rsum_cons, (H a) by now left.
  rewrite IH; [lra|]. intros; apply H; now right.
Qed.

Lemma coord_diffs_self a : Forall (fun d => d = 0%R) (coord_diffs a a).
Proof.
  induction a as [|x a IH]; [constructor|]. unfold coord_diffs in *. simpl. constructor; [|assumption].
  replace (x - x)%R with 0%R by ring. apply Rabs_R0.
Qed.

Lemma coord_diffs_nonneg a b : Forall (fun d => (0 <= d)%R) (coord_diffs a b).
Proof.
  unfold coord_diffs. apply Forall_forall. intros d Hd. apply in_map_iff in Hd.
  destruct Hd as (p & <- & _). apply Rabs_pos.
Qed.

Lemma fold_max_nonneg l : (0 <= fold_right Rmax 0 l)%R.
Proof. induction l as [|a l IH]; simpl; [lra|]. eapply Rle_trans; [exact IH|apply Rmax_r]. Qed.

Lemma fold_max_ge l v : In v l -> (v <= fold_right Rmax 0 l)%R.
Proof.
  induction l as [|a l IH]; simpl; [tauto|]. intros [->|H]; [apply Rmax_l|].
  eapply Rle_trans; [apply IH; assumption|apply Rmax_r].
Qed.

Lemma fold_max_in l : l <> [] -> Forall (fun v => (0 <= v)%R) l -> In (fold_right Rmax 0%R l) l.
Proof.
  induction l as [|a l IH]; [congruence|]. intros _ Hf. inversion Hf as [|? ? Ha Hl]; subst.
  cbn [fold_right]. destruct l as [|b l].
  - left. simpl. rewrite Rmax_left; [reflexivity|assumption].
  - set (X := fold_right Rmax 0%R (b :: l)) in *.
    destruct (Rle_dec a X); [rewrite Rmax_right by assumption; right; apply IH; [discriminate|assumption]|].
    rewrite Rmax_left by lra. now left.
Qed.

Lemma dist_nonneg m a b : (0 <= dist m a b)%R.
Proof.
  destruct m; simpl; [apply sqrt_pos|apply rsum_nonneg, coord_diffs_nonneg|apply fold_max_nonneg].
Qed.

Lemma dist_self m a : dist m a a = 0%R.
Proof.
  pose proof (coord_diffs_self a) as H. rewrite Forall_forall in H. destruct m; simpl.
  - rewrite rsum_eq_zero; [apply sqrt_0|]. intros v Hv. apply in_map_iff in Hv.
    destruct Hv as (d & <- & Hd). rewrite (H d Hd). ring.
  - apply rsum_eq_zero. exact H.
  - induction (coord_diffs a a) as [|d l IH]; [reflexivity|]. simpl.
    rewrite (H d) by now left. rewrite IH by (intros; apply H; now right). apply Rmax_left; lra.
Qed.

Lemma dist_zero m a b : length a = length b -> dist m a b = 0%R -> a = b.
Proof.
  intros Hl Hd.
  assert (Hz : Forall (fun d => d = 0%R) (coord_diffs a b)).
  { destruct m; simpl in Hd.
    - apply sqrt_eq_0 in Hd.
      + apply rsum_zero_all in Hd.
        * apply Forall_forall. intros d Hin. rewrite Forall_forall in Hd.
          specialize (Hd (d * d)%R (in_map (fun d => (d * d)%R) _ _ Hin)). nra.
        * apply Forall_forall. intros v Hv. apply in_map_iff in Hv. destruct Hv as (d & <- & _). nra.
      + apply rsum_nonneg, Forall_forall. intros v Hv. apply in_map_iff in Hv. destruct Hv as (d & <- & _). nra.
    - apply rsum_zero_all; [apply coord_diffs_nonneg|assumption].
    - apply Forall_forall. intros d Hin. pose proof (fold_max_ge _ _ Hin).
      pose proof (coord_diffs_nonneg a b) as Hn. rewrite Forall_forall in Hn. specialize (Hn d Hin). lra. }
  clear Hd. revert b Hl Hz. induction a as [|x a IH]; intros [|y b] Hl Hz; simpl in *; try discriminate; auto.
  unfold coord_diffs in Hz. simpl in Hz. inversion Hz as [|? ? H1 H2]; subst. f_equal.
  - destruct (Req_dec (x - y) 0) as [E|E]; [lra|]. apply Rabs_no_R0 in E. contradiction.
  - apply IH; [lia|assumption].
Qed.

Lemma metrics_spec d a b : length a = d -> length b = d ->
  dist Euclidean a b = std_euclidean d a b /\ dist Manhattan a b = std_manhattan d a b /\
  ((0 < d)%nat -> is_max_of (map (fun j => Rabs (nth j a 0%R - nth j b 0%R)) (seq 0 d)) (dist Chebyshev a b)).
Proof.
  intros Ha Hb. unfold dist, std_euclidean, std_manhattan.
  rewrite coord_diffs_nth, Ha by congruence. split; [|split].
  - rewrite map_map. do 2 f_equal. apply map_ext. intros j. 
    rewrite <- Rabs_mult. apply Rabs_pos_eq. apply Rle_0_sqr.
  - reflexivity.
  - intros Hd. split.
    + apply fold_max_in.
      * destruct d; [lia|discriminate].
      * apply Forall_forall. intros v Hv. apply in_map_iff in Hv. destruct Hv as (j & <- & _). apply Rabs_pos.
    + apply Forall_forall. intros v Hv. now apply fold_max_ge.
Qed.

(** ** The other points *)
Lemma others_perm n i : (i < n)%nat -> Permutation (seq 0 n) (i :: others n i).
Proof.
  intros Hi. unfold others.
  assert (H : forall l, NoDup l -> In i l ->
     Permutation l (i :: filter (fun j => negb (j =? i)%nat) l)).
  { clear. induction l as [|a l IH]; intros Hnd Hin; [destruct Hin|].
    inversion Hnd as [|? ? Ha Hl]; subst. simpl.
    destruct (Nat.eqb_spec a i) as [E|E]; cbn [negb].
    - subst a. constructor. clear IH Hin Hnd. induction l as [|b l IH]; simpl; [constructor|].
      destruct (Nat.eqb_spec b i) as [E|E]; cbn [negb].
      + subst b. exfalso. apply Ha. now left.
      + constructor. apply IH; [intros H; apply Ha; now right|now inversion Hl].
    - destruct Hin as [|Hin]; [congruence|]. rewrite (IH Hl Hin) at 1. apply perm_swap. }
  apply H; [apply seq_NoDup|]. apply in_seq. lia.
Qed.

Lemma others_length n i : (i < n)%nat -> zlen (others n i) = Z.of_nat n - 1.
Proof.
  intros Hi. pose proof (Permutation_length (others_perm n i Hi)) as H. rewrite seq_length in H.
  simpl in H. unfold zlen. lia.
Qed.

Lemma others_in n i j : In j (others n i) <-> (j < n)%nat /\ j <> i.
Proof.
  unfold others. rewrite filter_In, in_seq, negb_true_iff, Nat.eqb_neq. intuition lia.
Qed.

Lemma kth_smallest_unique k l r r' : kth_smallest k l r -> kth_smallest k l r' -> r = r'.
Proof.
  assert (H : forall a b, kth_smallest k l a -> kth_smallest k l b -> ~ (a < b)%R).
  { intros a b (_ & Ha1 & Ha2) (_ & Hb1 & Hb2) Hlt.
    assert (count (fun u => Rleb u a) l <= count (fun u => Rltb u b) l).
    { apply count_mono. intros u _ Hu. apply Rleb_true in Hu. apply Rltb_true. lra. }
    lia. }
  intros Hv Hw. pose proof (H _ _ Hv Hw). pose proof (H _ _ Hw Hv). lra.
Qed.

Lemma kth_smallest_exists k l : 1 <= k <= zlen l -> exists r, kth_smallest k l r.
Proof.
  intros Hk. pose proof (sorts_order_stat l _ (Z.to_nat (k - 1)) (sorted_indices_sorts l)) as H.
  destruct H as (H1 & H2); [unfold zlen in Hk; lia|].
  eexists. split; [exact H1|]. lia.
Qed.

Lemma kth_count_no_ties k l r : NoDup l -> kth_smallest k l r -> count (fun v => Rltb v r) l = k - 1.
Proof.
  intros Hnd (Hin & Hlt & Hle).
  assert (E : count (fun v => Rleb v r) l = count (fun v => Rltb v r) l + 1); [|lia].
  apply in_split in Hin. destruct Hin as (l1 & l2 & ->).
  rewrite !count_app, !count_cons.
  apply NoDup_remove_2 in Hnd.
  destruct (Rleb r r) eqn:E1; [|apply Rleb_false in E1; lra].
  destruct (Rltb r r) eqn:E2; [apply Rltb_true in E2; lra|].
  assert (Hsame : forall v, In v (l1 ++ l2) -> Rleb v r = Rltb v r).
  { intros v Hv. destruct (Rltb v r) eqn:E3.
    - apply Rltb_true in E3. apply Rleb_true. lra.
    - apply Rltb_false in E3. apply Rleb_false. destruct (Req_dec v r) as [->|]; [contradiction|lra]. }
  rewrite (count_ext_in (fun v => Rleb v r) (fun v => Rltb v r) l1), (count_ext_in (fun v => Rleb v r) (fun v => Rltb v r) l2).
  - lia.
  - intros v Hv; apply Hsame, in_app_iff; auto.
  - intros v Hv; apply Hsame, in_app_iff; auto.
Qed.

Section Formula.
Variable psi : Z -> R.
Variables (p : ksg_params) (xs ys : matrix).
Hypothesis Hl : length xs = length ys.

Definition Dx := dist_x (metric_x p) xs.
Definition Dy := dist_y (metric_y p) ys.
Definition Dxy := dist_xy (metric_x p) (metric_y p) xs ys.

Definition row_pairs (i : nat) : list (R * R) := map (fun j => (Dx i j, Dy i j)) (seq 0 (length xs)).

Lemma combine_nth_seq : combine xs ys = map (fun i => (nth i xs [], nth i ys [])) (seq 0 (length xs)).
Proof.
  clear psi p. revert Hl. revert ys. induction xs as [|a l IH]; intros [|b l'] H; simpl in *; try discriminate; auto.
  f_equal. rewrite <- seq_shift, map_map. apply IH. lia.
Qed.

Lemma terms_rows k : terms psi p xs ys k = map (fun i => term psi (row_pairs i) k) (seq 0 (length xs)).
Proof.
  rewrite terms_map, combine_nth_seq, map_map. apply map_ext. intros i.
  rewrite map_map. reflexivity.
Qed.

Lemma row_pairs_perm i : (i < length xs)%nat ->
  Permutation (row_pairs i) ((0, 0)%R :: map (fun j => (Dx i j, Dy i j)) (others (length xs) i)).
Proof.
  intros Hi. unfold row_pairs. rewrite (Permutation_map _ (others_perm _ i Hi)). cbn [map].
  unfold Dx at 1, Dy at 1, dist_x, dist_y. rewrite !dist_self. reflexivity.
Qed.

Lemma row_pairs_length i : length (row_pairs i) = length xs.
Proof. unfold row_pairs. now rewrite map_length, seq_length. Qed.

(** Positive radius: the term is finite and as in the formula. *)
Lemma term_positive k i r : (i < length xs)%nat -> 1 <= k ->
  radius (metric_x p) (metric_y p) xs ys k i r -> (0 < r)%R -> (Z.to_nat k < length xs)%nat ->
  term psi (row_pairs i) k
  = Fin (psi (n_x (metric_x p) xs i r + 1)%Z + psi (n_y (metric_y p) xs ys i r + 1)%Z).
Proof.
  intros Hi Hk (Hin & Hlt & Hle) Hr Hkn.
  apply (is_term_unique psi (row_pairs i) k).
  - apply slow_term_is_term. now rewrite row_pairs_length.
  - apply is_term_perm with ((0, 0)%R :: map (fun j => (Dx i j, Dy i j)) (others (length xs) i)).
    { symmetry. now apply row_pairs_perm. }
    exists r. split.
    + assert (Hm : maxes ((0, 0)%R :: map (fun j => (Dx i j, Dy i j)) (others (length xs) i))
                   = 0%R :: map (dist_xy (metric_x p) (metric_y p) xs ys i) (others (length xs) i)).
      { unfold maxes. cbn [map fst snd]. rewrite map_map. f_equal. apply Rmax_left; lra. }
      rewrite Hm. split; [now right|]. rewrite !count_cons.
      destruct (Rltb 0 r) eqn:E1; [|apply Rltb_false in E1; lra].
      destruct (Rleb 0 r) eqn:E2; [|apply Rleb_false in E2; lra]. lia.
    + unfold term_at. cbn [map fst snd]. rewrite !map_map. cbn [fst snd]. rewrite !count_cons.
      destruct (Rltb 0 r) eqn:E1; [|apply Rltb_false in E1; lra].
      assert (Hx : count (fun v => Rltb v r) (map (fun j => Dx i j) (others (length xs) i)) = n_x (metric_x p) xs i r)
        by (rewrite count_map; reflexivity).
      assert (Hy : count (fun v => Rltb v r) (map (fun j => Dy i j) (others (length xs) i)) = n_y (metric_y p) xs ys i r)
        by (rewrite count_map; reflexivity).
      rewrite Hx, Hy. unfold digamma.
      assert (0 <= n_x (metric_x p) xs i r) by (apply (count_le_length)).
      assert (0 <= n_y (metric_y p) xs ys i r) by (apply (count_le_length)).
      destruct (Z.ltb_spec 0 (1 + n_x (metric_x p) xs i r)); [|lia].
      destruct (Z.ltb_spec 0 (1 + n_y (metric_y p) xs ys i r)); [|lia].
      cbn [fl_add]. rewrite !(Z.add_comm 1). reflexivity.
Qed.

(** Zero radius: minus infinity. *)
Lemma term_zero k i : (i < length xs)%nat -> 1 <= k ->
  radius (metric_x p) (metric_y p) xs ys k i 0 -> (Z.to_nat k < length xs)%nat ->
  term psi (row_pairs i) k = NInf.
Proof.
  intros Hi Hk (Hin & Hlt & Hle) Hkn.
  apply (is_term_unique psi (row_pairs i) k).
  - apply slow_term_is_term. now rewrite row_pairs_length.
  - apply is_term_perm with ((0, 0)%R :: map (fun j => (Dx i j, Dy i j)) (others (length xs) i)).
    { symmetry. now apply row_pairs_perm. }
    exists 0%R. split.
    + assert (Hm : maxes ((0, 0)%R :: map (fun j => (Dx i j, Dy i j)) (others (length xs) i))
                   = 0%R :: map (dist_xy (metric_x p) (metric_y p) xs ys i) (others (length xs) i)).
      { unfold maxes. cbn [map fst snd]. rewrite map_map. f_equal. apply Rmax_left; lra. }
      rewrite Hm. split; [now left|]. rewrite !count_cons.
      destruct (Rltb 0 0) eqn:E1; [apply Rltb_true in E1; lra|].
      destruct (Rleb 0 0) eqn:E2; [|apply Rleb_false in E2; lra].
      rewrite (count_none (fun w => Rltb w 0)); [lia|].
      intros v Hv. apply in_map_iff in Hv. destruct Hv as (j & <- & _). apply Rltb_false.
      unfold dist_xy, dist_x. eapply Rle_trans; [apply (dist_nonneg (metric_x p))|apply Rmax_l].
    + unfold term_at. cbn [map fst snd]. rewrite !map_map. cbn [fst snd].
      rewrite !count_none.
      * reflexivity.
      * intros v [<-|Hv]; [apply Rltb_false; lra|]. apply in_map_iff in Hv. destruct Hv as (j & <- & _).
        apply Rltb_false. apply dist_nonneg.
      * intros v [<-|Hv]; [apply Rltb_false; lra|]. apply in_map_iff in Hv. destruct Hv as (j & <- & _).
        apply Rltb_false. apply dist_nonneg.
Qed.

Lemma radius_exists k i : (i < length xs)%nat -> 1 <= k < zlen xs ->
  exists r, radius (metric_x p) (metric_y p) xs ys k i r /\ (0 <= r)%R.
Proof.
  intros Hi Hk.
  destruct (kth_smallest_exists k (map (dist_xy (metric_x p) (metric_y p) xs ys i) (others (length xs) i))) as [r Hr].
  - rewrite zlen_map, others_length by assumption. unfold zlen in Hk. lia.
  - exists r. split; [assumption|]. destruct Hr as [Hin _]. apply in_map_iff in Hin.
    destruct Hin as (j & <- & _). unfold dist_xy, dist_x.
    eapply Rle_trans; [apply (dist_nonneg (metric_x p))|apply Rmax_l].
Qed.

Lemma term_cases k i : (i < length xs)%nat -> 1 <= k < zlen xs ->
  (exists v, term psi (row_pairs i) k = Fin v) \/ term psi (row_pairs i) k = NInf.
Proof.
  intros Hi Hk. destruct (radius_exists k i Hi Hk) as (r & Hr & Hr0).
  assert (Hkn : (Z.to_nat k < length xs)%nat) by (unfold zlen in Hk; lia).
  destruct (Rle_lt_or_eq_dec 0 r Hr0) as [Hp|He].
  - left. eexists. apply (term_positive k i r); auto; lia.
  - right. subst r. apply term_zero; auto; lia.
Qed.

Lemma fl_sum_ninf l : Forall (fun v => (exists r, v = Fin r) \/ v = NInf) l -> In NInf l -> fl_sum l = NInf.
Proof.
  intros Hf Hin.
  assert (Hc : forall l, Forall (fun v => (exists r, v = Fin r) \/ v = NInf) l -> (exists r, fl_sum l = Fin r) \/ fl_sum l = NInf).
  { clear. induction 1 as [|v l Hv _ IH]; [left; exists 0%R; reflexivity|]. simpl.
    destruct Hv as [[r ->]| ->], IH as [[q ->]| ->]; simpl; eauto. }
  induction l as [|v l IH]; [destruct Hin|]. inversion Hf as [|? ? Hv Hf']; subst. simpl.
  destruct Hin as [->|Hin].
  - destruct (Hc l Hf') as [[r ->]| ->]; reflexivity.
  - rewrite (IH Hf' Hin). destruct Hv as [[r ->]| ->]; reflexivity.
Qed.

Lemma prediction_formula k r : 1 <= k < zlen xs ->
  (forall i, (i < length xs)%nat -> radius (metric_x p) (metric_y p) xs ys k i (r i) /\ (0 < r i)%R) ->
  prediction psi p xs ys k = Fin (Rmax 0 (ksg_formula psi (metric_x p) (metric_y p) xs ys k r)).
Proof.
  intros Hk Hr. unfold prediction, mean_term. rewrite terms_rows.
  assert (Hkn : (Z.to_nat k < length xs)%nat) by (unfold zlen in Hk; lia).
  rewrite (map_ext_in _ (fun i => Fin (psi (n_x (metric_x p) xs i (r i) + 1)%Z + psi (n_y (metric_y p) xs ys i (r i) + 1)%Z))).
  2:{ intros i Hi. apply in_seq in Hi. destruct (Hr i) as [H1 H2]; [lia|]. apply term_positive; auto; lia. }
  rewrite <- (map_map (fun i => (psi (n_x (metric_x p) xs i (r i) + 1)%Z + psi (n_y (metric_y p) xs ys i (r i) + 1)%Z)%R) Fin).
  rewrite fl_sum_Fin. unfold digamma.
  destruct (Z.ltb_spec 0 k); [|lia]. destruct (Z.ltb_spec 0 (zlen xs)); [|lia].
  cbn [fl_divp fl_sub fl_opp fl_add].
  set (S := rsum _).
  assert (E : ksg_formula psi (metric_x p) (metric_y p) xs ys k r = (psi k + - (S / INR (length xs)) + psi (zlen xs))%R).
  { unfold ksg_formula, rmean. rewrite map_length, seq_length. fold S. lra. }
  rewrite E. unfold py_max, fl_ltb.
  destruct (Rlt_dec _ _) as [H1|H1]; f_equal; symmetry; [apply Rmax_right|apply Rmax_left]; lra.
Qed.

Lemma prediction_zero_radius k i : 1 <= k < zlen xs -> (i < length xs)%nat ->
  radius (metric_x p) (metric_y p) xs ys k i 0 -> prediction psi p xs ys k = PInf.
Proof.
  intros Hk Hi Hr. unfold prediction, mean_term. rewrite terms_rows.
  assert (Hkn : (Z.to_nat k < length xs)%nat) by (unfold zlen in Hk; lia).
  rewrite fl_sum_ninf.
  - cbn [fl_divp fl_sub fl_opp]. unfold digamma.
    destruct (Z.ltb_spec 0 k); [|lia]. destruct (Z.ltb_spec 0 (zlen xs)); [|lia]. reflexivity.
  - apply Forall_forall. intros v Hv. apply in_map_iff in Hv. destruct Hv as (j & <- & Hj).
    apply in_seq in Hj. apply term_cases; [lia|assumption].
  - apply in_map_iff. exists i. split; [apply term_zero; auto; lia|]. apply in_seq. lia.
Qed.

(** The prediction is infinite exactly when some radius is 0. *)
Lemma positive_or_zero k : 1 <= k < zlen xs ->
  (exists r, forall i, (i < length xs)%nat -> radius (metric_x p) (metric_y p) xs ys k i (r i) /\ (0 < r i)%R) \/
  (exists i, (i < length xs)%nat /\ radius (metric_x p) (metric_y p) xs ys k i 0).
Proof.
  intros Hk.
  assert (H : forall m, (m <= length xs)%nat ->
    (exists r, forall i, (i < m)%nat -> radius (metric_x p) (metric_y p) xs ys k i (r i) /\ (0 < r i)%R) \/
    (exists i, (i < m)%nat /\ radius (metric_x p) (metric_y p) xs ys k i 0)).
  { induction m as [|m IH]; intros Hm; [left; exists (fun _ => 0%R); intros; lia|].
    destruct IH as [[r Hr]|(i & Hi & Hz)]; [lia| |right; exists i; split; [lia|assumption]].
    destruct (radius_exists k m) as (q & Hq & Hq0); [lia|assumption|].
    destruct (Rle_lt_or_eq_dec 0 q Hq0) as [Hp|He].
    - left. exists (fun i => if (i =? m)%nat then q else r i). intros i Hi.
      destruct (Nat.eqb_spec i m) as [->|]; [auto|]. apply Hr. lia.
    - subst q. right. exists m. split; [lia|assumption]. }
  destruct (H (length xs) (le_n _)) as [Hr|Hz]; auto.
Qed.

(** Radius 0 means k copies. *)
Lemma radius_zero_copies k i dx dy : rectangular dx xs -> rectangular dy ys -> (i < length xs)%nat -> 1 <= k ->
  radius (metric_x p) (metric_y p) xs ys k i 0 <->
  exists js, NoDup js /\ zlen js = k /\
    (forall j, In j js -> (j < length xs)%nat /\ j <> i /\ nth j xs [] = nth i xs [] /\ nth j ys [] = nth i ys []).
Proof.
  intros Hx Hy Hi Hk.
  assert (Hrow : forall j, (j < length xs)%nat -> length (nth j xs []) = dx /\ length (nth j ys []) = dy).
  { intros j Hj. unfold rectangular in *. rewrite Forall_forall in Hx, Hy. split; [apply Hx|apply Hy]; apply nth_In; lia. }
  assert (Hz : forall j, (j < length xs)%nat ->
     ((dist_xy (metric_x p) (metric_y p) xs ys i j <= 0)%R <-> nth j xs [] = nth i xs [] /\ nth j ys [] = nth i ys [])).
  { intros j Hj. destruct (Hrow i Hi) as [Hi1 Hi2]. destruct (Hrow j Hj) as [Hj1 Hj2].
    unfold dist_xy, dist_x, dist_y. split.
    - intros H.
      assert (H1 : (dist (metric_x p) (nth i xs []) (nth j xs []) <= 0)%R) by (eapply Rle_trans; [apply Rmax_l|exact H]).
      assert (H2 : (dist (metric_y p) (nth i ys []) (nth j ys []) <= 0)%R) by (eapply Rle_trans; [apply Rmax_r|exact H]).
      pose proof (dist_nonneg (metric_x p) (nth i xs []) (nth j xs [])).
      pose proof (dist_nonneg (metric_y p) (nth i ys []) (nth j ys [])).
      split; symmetry; eapply dist_zero; try congruence; apply Rle_antisym; eassumption.
    - intros [-> ->]. rewrite !dist_self. rewrite Rmax_left; lra. }
  set (D := dist_xy (metric_x p) (metric_y p) xs ys i).
  assert (HDpos : forall j, (0 <= D j)%R).
  { intros j. unfold D, dist_xy, dist_x. eapply Rle_trans; [apply (dist_nonneg (metric_x p))|apply Rmax_l]. }
  unfold radius. fold D. split.
  - intros (_ & _ & Hle). rewrite count_map in Hle.
    set (cs := filter (fun j => Rleb (D j) 0) (others (length xs) i)) in *.
    exists (firstn (Z.to_nat k) cs).
    assert (Hcs : forall j, In j cs -> (j < length xs)%nat /\ j <> i /\ nth j xs [] = nth i xs [] /\ nth j ys [] = nth i ys []).
    { intros j Hj. apply filter_In in Hj. destruct Hj as [Ho Hd]. apply others_in in Ho. destruct Ho as [Ho1 Ho2].
      apply Rleb_true in Hd. apply (Hz j Ho1) in Hd. tauto. }
    split; [|split].
    + assert (Hnd : NoDup cs) by (apply NoDup_filter, NoDup_filter, seq_NoDup).
      rewrite <- (firstn_skipn (Z.to_nat k) cs) in Hnd. clear - Hnd.
      induction (firstn (Z.to_nat k) cs) as [|a l IH]; [constructor|]. simpl in Hnd.
      inversion Hnd as [|? ? H1 H2]; subst. constructor; [|auto]. intros H. apply H1, in_app_iff. now left.
    + unfold zlen. rewrite firstn_length. unfold count, zlen in Hle. fold cs in Hle. lia.
    + intros j Hj. apply Hcs. rewrite <- (firstn_skipn (Z.to_nat k) cs). apply in_app_iff. now left.
  - intros (js & Hnd & Hlen & Hjs). split; [|split].
    + destruct js as [|j js]; [unfold zlen in Hlen; simpl in Hlen; lia|].
      destruct (Hjs j (or_introl eq_refl)) as (H1 & H2 & H3).
      apply in_map_iff. exists j. split; [|apply others_in; auto].
      apply Hz in H3; [|assumption]. apply Rle_antisym; [exact H3|apply HDpos].
    + rewrite count_none; [lia|]. intros v Hv. apply in_map_iff in Hv. destruct Hv as (j & <- & _).
      apply Rltb_false, HDpos.
    + rewrite count_map. unfold count. rewrite <- Hlen. unfold zlen. apply inj_le. apply NoDup_incl_length; [assumption|].
      intros j Hj. destruct (Hjs j Hj) as (H1 & H2 & H3). apply filter_In. split; [apply others_in; auto|].
      apply Rleb_true. now apply Hz.
Qed.

(** Bounds *)
Lemma n_ge_k k i r : (i < length xs)%nat ->
  no_ties (metric_x p) (metric_y p) xs ys -> radius (metric_x p) (metric_y p) xs ys k i r ->
  k - 1 <= n_x (metric_x p) xs i r /\ k - 1 <= n_y (metric_y p) xs ys i r.
Proof.
  intros Hi Hnt Hr. pose proof (kth_count_no_ties k _ r (Hnt i Hi) Hr) as E.
  rewrite count_map in E. rewrite <- E. split; apply count_mono; intros j _ Hj; apply Rltb_true in Hj; apply Rltb_true;
    unfold dist_xy in Hj; eapply Rle_lt_trans; try exact Hj; [apply Rmax_l|apply Rmax_r].
Qed.

Hypothesis psi_mono : forall a b, 1 <= a <= b -> (psi a <= psi b)%R.

Lemma formula_upper k r : 1 <= k < zlen xs ->
  no_ties (metric_x p) (metric_y p) xs ys ->
  (forall i, (i < length xs)%nat -> radius (metric_x p) (metric_y p) xs ys k i (r i)) ->
  (ksg_formula psi (metric_x p) (metric_y p) xs ys k r <= psi (zlen xs) - psi k)%R.
Proof.
  intros Hk Hnt Hr. unfold ksg_formula.
  assert (H : (2 * psi k <= rmean (map (fun i => psi (n_x (metric_x p) xs i (r i) + 1)%Z + psi (n_y (metric_y p) xs ys i (r i) + 1)%Z) (seq 0 (length xs))))%R); [|lra].
  apply rmean_lower.
  { unfold zlen in Hk; destruct (length xs); [simpl in *; lia|discriminate]. }
  apply Forall_forall. intros v Hv. apply in_map_iff in Hv. destruct Hv as (i & <- & Hi). apply in_seq in Hi.
  destruct (n_ge_k k i (r i)) as [H1 H2]; [lia|assumption|apply Hr; lia|].
  pose proof (psi_mono k (n_x (metric_x p) xs i (r i) + 1)).
  pose proof (psi_mono k (n_y (metric_y p) xs ys i (r i) + 1)).
  assert (psi k <= psi (n_x (metric_x p) xs i (r i) + 1)%Z)%R by (apply psi_mono; lia).
  assert (psi k <= psi (n_y (metric_y p) xs ys i (r i) + 1)%Z)%R by (apply psi_mono; lia).
  lra.
Qed.
End Formula.

(** Identical variables attain the bound. *)
Lemma formula_identical psi p xs k r : metric_x p = metric_y p -> 1 <= k < zlen xs ->
  no_ties (metric_x p) (metric_y p) xs xs ->
  (forall i, (i < length xs)%nat -> radius (metric_x p) (metric_y p) xs xs k i (r i)) ->
  ksg_formula psi (metric_x p) (metric_y p) xs xs k r = (psi (zlen xs) - psi k)%R.
Proof.
  intros Hm Hk Hnt Hr. unfold ksg_formula.
  rewrite (rmean_const (2 * psi k)); [lra| |].
  - unfold zlen in Hk; destruct (length xs); [simpl in *; lia|discriminate].
  - apply Forall_forall. intros v Hv. apply in_map_iff in Hv. destruct Hv as (i & <- & Hi). apply in_seq in Hi.
    pose proof (kth_count_no_ties k _ (r i) (Hnt i ltac:(lia)) (Hr i ltac:(lia))) as E.
    rewrite count_map in E.
    assert (Hx : n_x (metric_x p) xs i (r i) = k - 1).
    { rewrite <- E. apply count_ext_in. intros j _. unfold dist_xy, dist_x, dist_y. rewrite Hm.
      now rewrite Rmax_left by lra. }
    assert (Hy : n_y (metric_y p) xs xs i (r i) = k - 1).
    { rewrite <- E. apply count_ext_in. intros j _. unfold dist_xy, dist_x, dist_y. rewrite Hm.
      now rewrite Rmax_left by lra. }
    rewrite Hx, Hy. replace (k - 1 + 1) with k by lia. lra.
Qed.

(** ** Reading the predictions *)
Lemma fold_set_get {V} (g : Z -> V) ks mi k : In k ks ->
  dict_get (fold_left (fun mi k => dict_set mi k (g k)) ks mi) k = Some (g k).
Proof.
  intros Hin. induction ks as [|j ks IH] using rev_ind; [destruct Hin|].
  rewrite fold_left_app. cbn [fold_left]. destruct (Z.eq_dec j k) as [->|Hne].
  - apply dict_get_set_eq.
  - rewrite dict_get_set_neq by assumption. apply IH. apply in_app_iff in Hin. destruct Hin as [|[|[]]]; [assumption|congruence].
Qed.

Lemma fold_set_all {V} (g : Z -> V) ks : NoDup ks ->
  forall mi, (mi = [] \/ dict_keys mi = ks) ->
  fold_left (fun mi k => dict_set mi k (g k)) ks mi = map (fun k => (k, g k)) ks.
Proof.
  intros Hnd mi Hmi.
  pose proof (write_fold (fun k (_ : unit) => g k) (map (fun k => (k, tt)) ks) [] mi) as H.
  assert (Hk : dict_keys (map (fun k => (k, tt)) ks) = ks)
    by (unfold dict_keys; rewrite map_map; apply map_id).
  simpl in H. rewrite Hk, map_map in H. simpl in H. rewrite <- H by auto.
  clear. revert mi; induction ks as [|k ks IH]; intros mi; simpl; auto.
Qed.

Lemma get_after_update s g k : In k (neighborhoods (params s)) ->
  exists d, get_predictions (fit_update s g) = Ok d /\ dict_get d k = Some (g k).
Proof.
  intros Hk. eexists. split; [reflexivity|]. apply fold_set_get. now apply nub_in.
Qed.

Lemma get_after_update_new p chunk g :
  get_predictions (fit_update (ksg_new p chunk) g) = Ok (map (fun k => (k, g k)) (nub (neighborhoods p))).
Proof.
  unfold get_predictions. cbn [fitted fit_update mi_dict ksg_new params]. f_equal.
  apply fold_set_all; [apply nub_nodup|now left].
Qed.

(** ** C07 *)
Lemma ksg_equation_8 psi argsort s x y xs ys k r :
  valid_argsort argsort -> valid_params (params s) -> NoDup (neighborhoods (params s)) -> 0 < chunk_size s ->
  product_space_values (standardize (params s)) x y = Ok (xs, ys) ->
  (forall k, In k (neighborhoods (params s)) -> k < zlen x) ->
  In k (neighborhoods (params s)) ->
  (forall i, (i < length xs)%nat ->
     radius (metric_x (params s)) (metric_y (params s)) xs ys k i (r i) /\ (0 < r i)%R) ->
  exists s' d, fast_fit psi argsort s x y = (s', Ok tt) /\ slow_fit psi s x y = (s', Ok tt) /\
    get_predictions s' = Ok d /\
    dict_get d k = Some (Fin (Rmax 0 (ksg_formula psi (metric_x (params s)) (metric_y (params s)) xs ys k r))).
Proof.
  intros Ha Hv Hnd Hc Hps Hn Hk Hr.
  destruct (product_space_values_length _ _ _ _ _ Hps) as [Hl Hlx].
  assert (Hm : zmax_list (neighborhoods (params s)) < zlen xs).
  { unfold zlen. rewrite Hlx. apply Hn. apply zmax_list_in. apply Hv. }
  pose proof (slow_fit_spec psi s x y xs ys Hv Hps Hm) as Es.
  destruct (get_after_update s (prediction psi (params s) xs ys) k Hk) as (d & Hd & Hg).
  exists (fit_update s (prediction psi (params s) xs ys)), d.
  rewrite (fits_agree psi argsort s x y) by assumption. repeat split; auto.
  rewrite Hg. f_equal. apply prediction_formula; auto.
  destruct Hv as [_ Hv]. specialize (Hv k Hk). specialize (Hn k Hk). unfold zlen in *. lia.
Qed.

(** ** C13 *)
Lemma scale_row_inj m n row row' : length row = n -> length row' = n ->
  scale_row m n row = scale_row m n row' -> row = row'.
Proof.
  intros H1 H2 H. apply (nth_ext _ _ 0%R 0%R); [congruence|]. intros j Hj.
  apply (f_equal (fun l => nth j l 0%R)) in H. unfold scale_row in H.
  rewrite !nth_map_seq in H by lia.
  pose proof (column_scale_pos (column m j)) as Hp.
  apply (f_equal (fun v => (v * column_scale (column m j))%R)) in H.
  unfold Rdiv in H. rewrite !Rmult_assoc, Rinv_l, !Rmult_1_r in H by lra. lra.
Qed.

Lemma space_rows std dx dy x y xs ys : rectangular dx x -> rectangular dy y ->
  product_space_values std x y = Ok (xs, ys) ->
  length x = length y /\ rectangular dx xs /\ rectangular dy ys /\
  (forall i j, (i < length x)%nat -> (j < length x)%nat ->
     (nth j xs [] = nth i xs [] <-> nth j x [] = nth i x []) /\
     (nth j ys [] = nth i ys [] <-> nth j y [] = nth i y [])).
Proof.
  intros Hx Hy H. unfold product_space_values in H.
  destruct (Nat.eqb_spec (length x) (length y)) as [Hl|]; [|discriminate]. cbn [negb] in H.
  split; [assumption|]. destruct std.
  - destruct (standard_scaler_cases dx x Hx) as [[E _]|(Hne & Hd & E)]; rewrite E in H; cbn [bind] in H; [discriminate|].
    destruct (standard_scaler_cases dy y Hy) as [[E' _]|(Hne' & Hd' & E')]; rewrite E' in H; cbn [bind] in H; [discriminate|].
    injection H as <- <-.
    assert (R1 : forall d m, rectangular d (map (scale_row m d) m)).
    { intros d m. unfold rectangular. apply Forall_map, Forall_forall. intros r _. unfold scale_row.
      now rewrite map_length, seq_length. }
    split; [apply R1|]. split; [apply R1|]. intros i j Hi Hj.
    assert (N : forall d m i, (i < length m)%nat -> nth i (map (scale_row m d) m) [] = scale_row m d (nth i m [])).
    { intros d m i0 Hi0. rewrite nth_indep with (d' := scale_row m d []) by now rewrite map_length. apply map_nth. }
    rewrite !N by lia. unfold rectangular in *. rewrite Forall_forall in Hx, Hy.
    split; split; try congruence; intros H; eapply scale_row_inj; try exact H; try apply Hx; try apply Hy; apply nth_In; lia.
  - injection H as <- <-. repeat split; auto.
Qed.

Lemma ksg_duplicates psi s dx dy x y k :
  valid_params (params s) -> rectangular dx x -> rectangular dy y ->
  (forall k, In k (neighborhoods (params s)) -> k < zlen x) -> In k (neighborhoods (params s)) ->
  forall s' d, slow_fit psi s x y = (s', Ok tt) -> get_predictions s' = Ok d ->
  (dict_get d k = Some PInf <->
   exists i js, (i < length x)%nat /\ NoDup js /\ zlen js = k /\
     (forall j, In j js -> (j < length x)%nat /\ j <> i /\ nth j x [] = nth i x [] /\ nth j y [] = nth i y [])).
Proof.
  intros Hv Hx Hy Hn Hk s' d Hfit Hget.
  destruct (fit_errors_slow psi s x y) as [(xs & ys & Hps & Hm)|Ee]; [|congruence].
  rewrite (slow_fit_spec psi s x y xs ys Hv Hps Hm) in Hfit. injection Hfit as <-.
  destruct (get_after_update s (prediction psi (params s) xs ys) k Hk) as (d' & Hd & Hg).
  rewrite Hget in Hd. injection Hd as <-. rewrite Hg.
  destruct (product_space_values_length _ _ _ _ _ Hps) as [Hl Hlx].
  destruct (space_rows _ dx dy x y xs ys Hx Hy Hps) as (Hlxy & Hx' & Hy' & Hrows).
  assert (Hk1 : 1 <= k < zlen xs).
  { destruct Hv as [_ Hv]. specialize (Hv k Hk). specialize (Hn k Hk). unfold zlen in *. lia. }
  split.
  - intros H. injection H as H.
    destruct (positive_or_zero psi (params s) xs ys Hl k Hk1) as [[r Hr]|(i & Hi & Hz)].
    + rewrite (prediction_formula psi (params s) xs ys Hl k r Hk1 Hr) in H. discriminate.
    + apply (radius_zero_copies psi (params s) xs ys Hl k i dx dy Hx' Hy' Hi ltac:(lia)) in Hz.
      destruct Hz as (js & Hnd & Hlen & Hjs). exists i, js. split; [lia|]. split; [assumption|]. split; [assumption|]. intros j Hj. destruct (Hjs j Hj) as (A & B & C & D).
      split; [lia|]. split; [assumption|]. split; apply (Hrows i j ltac:(lia) ltac:(lia)); assumption.
  - intros (i & js & Hi & Hnd & Hlen & Hjs). f_equal.
    apply (prediction_zero_radius psi (params s) xs ys Hl k i Hk1); [lia|].
    apply (radius_zero_copies psi (params s) xs ys Hl k i dx dy Hx' Hy' ltac:(lia) ltac:(lia)).
    exists js. split; [assumption|]. split; [assumption|]. intros j Hj. destruct (Hjs j Hj) as (A & B & C & D).
      split; [lia|]. split; [assumption|]. split; apply (Hrows i j ltac:(lia) ltac:(lia)); assumption.
Qed.

(** ** C10 *)
Definition fl_nonneg (v : fl) : Prop := match v with Fin r => (0 <= r)%R | PInf => True | _ => False end.

Lemma py_max_nonneg v : v <> NaN -> fl_nonneg (py_max (Fin 0) v).
Proof.
  intros H. destruct v; unfold py_max; simpl; auto; try lra; try congruence.
  destruct (Rlt_dec 0 r); simpl; lra.
Qed.

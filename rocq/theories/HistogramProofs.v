(** The histogram estimator computes the plug-in mutual information of the cells. *)
From Coq Require Import Permutation.
From Verif Require Import Base BaseLemmas UtilsModel UtilsSpec UtilsProofs KsgFitProofs KsgThms KsgHistory
  HistogramModel HistogramSpec PluginProofs.
Open Scope R_scope.

(** ** The double loop *)
Lemma fold_cond {A} (c : A -> bool) (t : A -> R) l m :
  fold_left (fun mi j => if c j then mi + t j else mi) l m
  = m + rsum (map (fun j => if c j then t j else 0) l).
Proof.
  revert m. induction l as [|j l IH]; intros m; cbn [fold_left map]; [cbn; lra|].
  rewrite IH, rsum_cons. destruct (c j); lra.
Qed.

Lemma fold_plus {A} (t : A -> R) l m :
  fold_left (fun mi j => mi + t j) l m = m + rsum (map t l).
Proof.
  revert m. induction l as [|j l IH]; intros m; cbn [fold_left map]; [cbn; lra|].
  rewrite IH, rsum_cons. lra.
Qed.

Lemma map_nth_seq {A B} (f : A -> B) (l : list A) d :
  map (fun i => f (nth i l d)) (seq 0 (length l)) = map f l.
Proof.
  induction l as [|a l IH]; cbn [length seq map]; [reflexivity|].
  f_equal. rewrite <- seq_shift, map_map. exact IH.
Qed.

Lemma nth_map_in {A B} (f : A -> B) l i d d' : (i < length l)%nat -> nth i (map f l) d' = f (nth i l d).
Proof. intros H. rewrite nth_indep with (d' := f d) by now rewrite map_length. apply map_nth. Qed.

Lemma hist_loop_sum U V (p : label -> label -> R) (px py : label -> R) :
  let p_xy := map (fun a => map (fun b => p a b) V) U in
  hist_loop (length U) (length V) p_xy (map px U) (map py V)
  = rsum (map (fun a => rsum (map (fun b =>
      if Rltb 0 (p a b) then p a b * (ln (p a b) - ln (px a) - ln (py b)) else 0) V)) U).
Proof.
  intros p_xy. unfold hist_loop.
  transitivity (fold_left (fun mi i => mi + rsum (map (fun j =>
      if Rltb 0 (nth j (nth i p_xy []) 0)
      then nth j (nth i p_xy []) 0 *
           (ln (nth j (nth i p_xy []) 0) - ln (nth i (map px U) 0) - ln (nth j (map py V) 0)) else 0)
      (seq 0 (length V)))) (seq 0 (length U)) 0).
  { assert (Hf : forall l m (f g : R -> nat -> R), (forall m i, f m i = g m i) -> fold_left f l m = fold_left g l m).
    { clear. intros l m f g H. revert m. induction l as [|i l IH]; intros m; simpl; [reflexivity|]. rewrite H. apply IH. }
    apply Hf. intros m i. cbv zeta. rewrite fold_cond. reflexivity. }
  rewrite fold_plus, Rplus_0_l.
  match goal with |- _ = rsum (map ?F U) => rewrite <- (map_nth_seq F U []) end.
  f_equal. apply map_ext_in. intros i Hi. apply in_seq in Hi.
  match goal with |- _ = rsum (map ?F V) => rewrite <- (map_nth_seq F V []) end.
  f_equal. apply map_ext_in. intros j Hj. apply in_seq in Hj.
  unfold p_xy. rewrite (nth_map_in _ U i []) by lia. rewrite !(nth_map_in _ V j []) by lia.
  rewrite (nth_map_in _ U i []) by lia. reflexivity.
Qed.

Lemma NoDup_list_prod {A B} (U : list A) (V : list B) : NoDup U -> NoDup V -> NoDup (list_prod U V).
Proof.
  intros HU HV. induction HU as [|w W Hw HW IH]; cbn [list_prod]; [constructor|].
  assert (HV' : forall l, NoDup l -> NoDup (map (fun y : B => (w, y)) l ++ list_prod W V)).
  { intros l Hl. induction Hl as [|z l Hz Hl IHl]; cbn [map app]; [assumption|].
    constructor; [|assumption]. rewrite in_app_iff. intros [H|H].
    - apply in_map_iff in H. destruct H as (z' & E & H). congruence.
    - apply in_prod_iff in H. tauto. }
  apply HV', HV.
Qed.

(** ** From the table of counts to the plug-in MI *)
Section Table.
  Variables (U V : list label) (s : list (label * label)).
  Hypothesis HU : NoDup U.
  Hypothesis HV : NoDup V.
  Hypothesis Hs : s <> [].
  Hypothesis HinU : forall q, In q s -> In (fst q) U.
  Hypothesis HinV : forall q, In q s -> In (snd q) V.

  Let n := INR (length s).
  Let cab a b := num (fun r => is_a label_dec a r && is_b label_dec b r) s.
  Let ca a := num (is_a label_dec (B := label) a) s.
  Let cb b := num (is_b label_dec (A := label) b) s.

  Lemma cab_sum_b a : rsum (map (fun b => cab a b) V) = ca a.
  Proof.
    transitivity (rsum (map (fun b => INR (length (filter (fun x => if label_dec (snd x) b then true else false)
                    (filter (is_a label_dec a) s))) * 1) V)).
    - apply rsum_map_ext. intros b _. unfold cab, num. rewrite Rmult_1_r. f_equal.
      induction s as [|r s' IH] in |- *; [reflexivity|]. cbn [filter].
      unfold is_b at 1. destruct (is_a label_dec a r); cbn [andb filter].
      + destruct (label_dec (snd r) b); cbn [length]; auto.
      + auto.
    - rewrite (sum_over_occurrences label_dec snd (fun _ => 1)); [|assumption|].
      + rewrite rsum_const, Rmult_1_r. reflexivity.
      + intros x Hx. apply filter_In in Hx. apply HinV, Hx.
  Qed.

  Lemma cab_sum_a b : rsum (map (fun a => cab a b) U) = cb b.
  Proof.
    transitivity (rsum (map (fun a => INR (length (filter (fun x => if label_dec (fst x) a then true else false)
                    (filter (is_b label_dec b) s))) * 1) U)).
    - apply rsum_map_ext. intros a _. unfold cab, num. rewrite Rmult_1_r. f_equal.
      induction s as [|r s' IH] in |- *; [reflexivity|]. cbn [filter].
      unfold is_a at 1. destruct (is_b label_dec b r); cbn [andb filter].
      + destruct (label_dec (fst r) a); cbn [andb length]; auto.
      + rewrite andb_false_r. auto.
    - rewrite (sum_over_occurrences label_dec fst (fun _ => 1)); [|assumption|].
      + rewrite rsum_const, Rmult_1_r. reflexivity.
      + intros x Hx. apply filter_In in Hx. apply HinU, Hx.
  Qed.

  Lemma ca_sum : rsum (map ca U) = n.
  Proof.
    rewrite (rsum_map_ext _ (fun a => ca a * 1)) by (intros; lra).
    unfold ca, num, is_a. rewrite (sum_over_occurrences label_dec fst (fun _ => 1)); auto.
    rewrite rsum_const, Rmult_1_r. reflexivity.
  Qed.

  Lemma table_total : rsum (map rsum (map (fun a => map (fun b => cab a b) V) U)) = n.
  Proof.
    rewrite map_map. rewrite (rsum_map_ext _ ca) by (intros; apply cab_sum_b). apply ca_sum.
  Qed.

  Lemma n_pos : 0 < n.
  Proof. apply INR_length_pos, Hs. Qed.

  Lemma table_mi :
    rsum (map (fun a => rsum (map (fun b =>
      if Rltb 0 (cab a b / n) then cab a b / n * (ln (cab a b / n) - ln (ca a / n) - ln (cb b / n)) else 0) V)) U)
    = plugin_mi label_dec label_dec s.
  Proof.
    pose proof n_pos as Hn.
    set (f := fun q : label * label =>
      ln (n * cab (fst q) (snd q) / (ca (fst q) * cb (snd q))) / n).
    assert (Hflat : forall (W : list label), 
      rsum (map (fun a => rsum (map (fun b => cab a b * f (a, b)) V)) W)
      = rsum (map (fun q => cab (fst q) (snd q) * f q) (list_prod W V))).
    { induction W as [|w W IH]; cbn [map list_prod]; [reflexivity|].
      rewrite rsum_cons, map_app, rsum_app, map_map, IH. reflexivity. }
    transitivity (rsum (map (fun a => rsum (map (fun b => cab a b * f (a, b)) V)) U)).
    - apply rsum_map_ext. intros a _. apply rsum_map_ext. intros b _.
      assert (0 <= cab a b) by apply pos_INR.
      assert (H1 : cab a b <= ca a).
      { apply le_INR, filter_length_le. intros x _ E. apply andb_prop in E. apply E. }
      assert (H2 : cab a b <= cb b).
      { apply le_INR, filter_length_le. intros x _ E. apply andb_prop in E. apply E. }
      destruct (Rltb 0 (cab a b / n)) eqn:E.
      + apply Rltb_true in E.
        assert (0 < cab a b).
        { apply Rmult_lt_reg_r with (/ n); [apply Rinv_0_lt_compat; assumption|]. unfold Rdiv in E. lra. }
        unfold f. cbn [fst snd]. unfold Rdiv. rewrite !ln_mult, !ln_Rinv, !ln_mult; try lra;
          try (apply Rinv_0_lt_compat); try (apply Rmult_lt_0_compat); lra.
      + apply Rltb_false in E.
        assert (cab a b = 0).
        { apply Rle_antisym; [|assumption]. apply Rmult_le_reg_r with (/ n); [apply Rinv_0_lt_compat; assumption|].
          unfold Rdiv in E. lra. }
        rewrite H0. lra.
    - rewrite Hflat.
      rewrite (rsum_map_ext _ (fun q => INR (length (filter (fun x => if pair_dec label_dec label_dec x q then true else false) s)) * f q)).
      + rewrite (sum_over_occurrences (pair_dec label_dec label_dec) (fun x => x) f).
        * unfold plugin_mi, rmean. rewrite map_length. fold n.
          unfold f, Rdiv. rewrite (rsum_map_ext _ (fun q => / n * ln (n * cab (fst q) (snd q) * / (ca (fst q) * cb (snd q))))) by (intros; lra).
          rewrite rsum_scal. unfold cab, ca, cb. lra.
        * apply NoDup_list_prod; assumption.
        * intros [a b] Hq. apply in_prod; [apply (HinU _ Hq)|apply (HinV _ Hq)].
      + intros [a b] _. cbn [fst snd]. unfold cab, num. f_equal. f_equal. f_equal. apply filter_ext.
        intros [a' b']. unfold is_a, is_b. cbn [fst snd].
        destruct (label_dec a' a), (label_dec b' b), (pair_dec label_dec label_dec (a', b') (a, b)); simpl; congruence.
  Qed.
End Table.

(** ** The cells *)
Lemma fold_min_spec t v : In (fold_left Rmin t v) (v :: t) /\ forall w, In w (v :: t) -> fold_left Rmin t v <= w.
Proof.
  revert v. induction t as [|a t IH]; intros v; cbn [fold_left].
  - split; [now left|]. intros w [<-|[]]. lra.
  - destruct (IH (Rmin v a)) as [H1 H2]. split.
    + destruct H1 as [<-|H1]; [|right; now right].
      unfold Rmin; destruct (Rle_dec v a); [now left|right; now left].
    + intros w Hw. assert (H0 := H2 _ (or_introl eq_refl)).
      pose proof (Rmin_l v a). pose proof (Rmin_r v a).
      destruct Hw as [<-|[<-|Hw]]; try lra. apply H2. now right.
Qed.

Lemma fold_max_spec t v : In (fold_left Rmax t v) (v :: t) /\ forall w, In w (v :: t) -> w <= fold_left Rmax t v.
Proof.
  revert v. induction t as [|a t IH]; intros v; cbn [fold_left].
  - split; [now left|]. intros w [<-|[]]. lra.
  - destruct (IH (Rmax v a)) as [H1 H2]. split.
    + destruct H1 as [<-|H1]; [|right; now right].
      unfold Rmax; destruct (Rle_dec v a); [right; now left|now left].
    + intros w Hw. assert (H0 := H2 _ (or_introl eq_refl)).
      pose proof (Rmax_l v a). pose proof (Rmax_r v a).
      destruct Hw as [<-|[<-|Hw]]; try lra. apply H2. now right.
Qed.

Lemma outer_edges_range col : col <> [] -> value_range col (fst (outer_edges col)) (snd (outer_edges col)).
Proof.
  destruct col as [|v t]; [congruence|]. intros _. unfold outer_edges.
  destruct (fold_min_spec t v) as [H1 H2]. destruct (fold_max_spec t v) as [H3 H4].
  set (lo := fold_left Rmin t v) in *. set (hi := fold_left Rmax t v) in *.
  destruct (Req_EM_T lo hi) as [E|E]; cbn [fst snd].
  - left. split.
    + intros a b Ha Hb. pose proof (H2 a Ha). pose proof (H4 a Ha). pose proof (H2 b Hb). pose proof (H4 b Hb). lra.
    + exists lo. repeat split; auto; lra.
  - right. repeat split; auto. pose proof (H2 hi H3). lra.
Qed.

Lemma value_range_unique col lo hi lo' hi' :
  value_range col lo hi -> value_range col lo' hi' -> lo = lo' /\ hi = hi'.
Proof.
  intros [[He (v & Hv & -> & ->)]|(H1 & H2 & H3 & H4)] [[He' (v' & Hv' & -> & ->)]|(H1' & H2' & H3' & H4')].
  - rewrite (He v v' Hv Hv'). auto.
  - pose proof (He _ _ H1' H2'). lra.
  - pose proof (He' _ _ H1 H2). lra.
  - pose proof (H4 _ H1'). pose proof (H4' _ H1). pose proof (H4 _ H2'). pose proof (H4' _ H2). lra.
Qed.

Lemma value_range_bounds col lo hi v : value_range col lo hi -> In v col -> lo < hi /\ lo <= v <= hi.
Proof.
  intros [[He (w & Hw & -> & ->)]|(H1 & H2 & H3 & H4)] Hv.
  - rewrite (He v w Hv Hw). lra.
  - split; [assumption|auto].
Qed.

Lemma count_leq_seq k n : (k < n)%nat -> length (filter (fun i => (i <=? k)%nat) (seq 0 n)) = S k.
Proof.
  intros H. replace n with (S k + (n - S k))%nat by lia. rewrite seq_app, filter_app, app_length.
  assert (E1 : filter (fun i => (i <=? k)%nat) (seq 0 (S k)) = seq 0 (S k)).
  {
    assert (G : forall l, (forall i, In i l -> (i <=? k)%nat = true) -> filter (fun i => (i <=? k)%nat) l = l).
    { induction l as [|a l IH]; intros G; [reflexivity|]. cbn [filter]. rewrite (G a (or_introl eq_refl)).
      f_equal. apply IH. intros; apply G; now right. }
    apply G. intros i Hi. apply in_seq in Hi. apply Nat.leb_le. lia. }
  assert (E2 : filter (fun i => (i <=? k)%nat) (seq (0 + S k) (n - S k)) = []).
  { assert (G : forall l, (forall i, In i l -> (i <=? k)%nat = false) -> filter (fun i => (i <=? k)%nat) l = []).
    { induction l as [|a l IH]; intros G; [reflexivity|]. cbn [filter]. rewrite (G a (or_introl eq_refl)).
      apply IH. intros; apply G; now right. }
    apply G. intros i Hi. apply in_seq in Hi. apply Nat.leb_gt. lia. }
  rewrite E1, E2, seq_length. cbn [length]. lia.
Qed.

Lemma filter_map_length {A B} (p : B -> bool) (f : A -> B) l :
  length (filter p (map f l)) = length (filter (fun a => p (f a)) l).
Proof. induction l as [|a l IH]; simpl; [reflexivity|]. destruct (p (f a)); simpl; congruence. Qed.

Lemma raw_index_cell lo hi n v k :
  lo < hi -> (k < n)%nat ->
  (lo + INR k * ((hi - lo) / INR n) <= v < lo + (INR k + 1) * ((hi - lo) / INR n) \/ (S k = n /\ v = hi)) ->
  raw_index (linspace lo hi n) v = S k.
Proof.
  intros Hlh Hk Hv. assert (Hn : 0 < INR n) by (apply lt_0_INR; lia).
  set (w := (hi - lo) / INR n) in *.
  assert (Hw : 0 < w) by (apply Rdiv_lt_0_compat; lra).
  assert (Hnw : INR n * w = hi - lo) by (unfold w; field; lra).
  unfold raw_index, searchsorted_right, linspace. rewrite last_last.
  rewrite filter_app, app_length, filter_map_length. fold w.
  destruct Hv as [[H1 H2]|[<- ->]].
  - assert (Hlast : v < hi).
    { assert (INR k + 1 <= INR n) by (rewrite <- S_INR; apply le_INR; lia). nra. }
    destruct (Req_EM_T v hi) as [E|_]; [lra|].
    assert (Hf : filter (fun e => Rleb e v) [hi] = []).
    { cbn [filter]. destruct (Rleb hi v) eqn:E; [apply Rleb_true in E; lra|reflexivity]. }
    rewrite Hf. cbn [length]. rewrite Nat.add_0_r.
    rewrite <- (count_leq_seq k n Hk) at 1. f_equal. apply filter_ext. intros i.
    destruct (Nat.leb_spec i k) as [Hi|Hi].
    + apply Rleb_true. apply le_INR in Hi. nra.
    + apply Rleb_false. apply le_INR in Hi. rewrite S_INR in Hi. nra.
  - destruct (Req_EM_T hi hi) as [_|E]; [|congruence].
    assert (Hf : filter (fun e => Rleb e hi) [hi] = [hi]).
    { cbn [filter]. destruct (Rleb hi hi) eqn:E; [reflexivity|apply Rleb_false in E; lra]. }
    rewrite Hf. cbn [length].
    pose proof (count_leq_seq k (S k) Hk) as Hcount.
    replace (length (filter (fun a => Rleb (lo + INR a * w) hi) (seq 0 (S k))))
      with (length (filter (fun i => (i <=? k)%nat) (seq 0 (S k)))); [lia|].
    f_equal. apply filter_ext_in. intros i Hi. apply in_seq in Hi.
    replace (i <=? k)%nat with true by (symmetry; apply Nat.leb_le; lia).
    symmetry. apply Rleb_true. assert (INR i <= INR (S k)) by (apply le_INR; lia). nra.
Qed.

Lemma cell_exists lo hi n v :
  lo < hi -> (0 < n)%nat -> lo <= v <= hi ->
  exists k, (k < n)%nat /\
  (lo + INR k * ((hi - lo) / INR n) <= v < lo + (INR k + 1) * ((hi - lo) / INR n) \/ (S k = n /\ v = hi)).
Proof.
  intros Hlh Hn Hv. assert (Hn' : 0 < INR n) by (apply lt_0_INR; lia).
  set (w := (hi - lo) / INR n).
  assert (Hw : 0 < w) by (apply Rdiv_lt_0_compat; lra).
  assert (Hnw : INR n * w = hi - lo) by (unfold w; field; lra).
  assert (G : forall m, (m <= n)%nat -> v < lo + INR m * w ->
     exists k, (k < m)%nat /\ lo + INR k * w <= v < lo + (INR k + 1) * w).
  { induction m as [|m IH]; intros Hm Hlt; [simpl in Hlt; lra|].
    destruct (Rlt_dec v (lo + INR m * w)) as [H|H].
    - destruct IH as (k & Hk & Hk2); [lia|assumption|]. exists k. split; [lia|assumption].
    - exists m. split; [lia|]. rewrite S_INR in Hlt. lra. }
  destruct (Rlt_dec v hi) as [H|H].
  - destruct (G n) as (k & Hk & Hk2); [lia|lra|]. exists k. auto.
  - exists (n - 1)%nat. split; [lia|]. right. split; [lia|lra].
Qed.

Lemma in_cell_exists col n v : In v col -> (0 < n)%nat -> exists k, in_cell col n v k.
Proof.
  intros Hv Hn. assert (Hc : col <> []) by (intros ->; destruct Hv).
  pose proof (outer_edges_range col Hc) as Hr.
  destruct (value_range_bounds _ _ _ _ Hr Hv) as [H1 H2].
  destruct (cell_exists _ _ n v H1 Hn H2) as (k & Hk & Hk2).
  exists k. exists (fst (outer_edges col)), (snd (outer_edges col)). auto.
Qed.

Lemma in_cell_raw col n v k :
  In v col -> in_cell col n v k -> raw_index (let '(lo, hi) := outer_edges col in linspace lo hi n) v = S k.
Proof.
  intros Hv (lo & hi & Hr & Hk & Hc). assert (Hne : col <> []) by (intros ->; destruct Hv).
  destruct (value_range_unique _ _ _ _ _ Hr (outer_edges_range col Hne)) as [-> ->].
  destruct (value_range_bounds _ _ _ _ Hr Hv) as [H1 H2].
  destruct (outer_edges col) as [lo hi]. cbn [fst snd] in *. apply raw_index_cell; assumption.
Qed.

Lemma in_cell_lt col n v k : in_cell col n v k -> (k < n)%nat.
Proof. intros (lo & hi & _ & H & _). exact H. Qed.

(** Rescaling does not change cells. *)
Lemma in_cell_affine a b col n v k :
  0 < a -> In v col -> in_cell col n v k -> in_cell (map (fun u => a * u + b) col) n (a * v + b) k.
Proof.
  intros Ha Hv (lo & hi & Hr & Hk & Hc).
  destruct Hr as [[He (w & Hw & -> & ->)]|(H1 & H2 & H3 & H4)].
  - exists (a * v + b - 1 / 2), (a * v + b + 1 / 2). split.
    + left. split.
      * intros p q Hp Hq. apply in_map_iff in Hp, Hq. destruct Hp as (p' & <- & Hp). destruct Hq as (q' & <- & Hq).
        now rewrite (He p' q' Hp Hq).
      * exists (a * v + b). split; [|split; reflexivity]. apply in_map_iff. eauto.
    + split; [assumption|]. rewrite (He v w Hv Hw) in *. cbv zeta in *.
      replace (a * w + b + 1 / 2 - (a * w + b - 1 / 2)) with 1 by lra.
      replace (w + 1 / 2 - (w - 1 / 2)) with 1 in Hc by lra.
      destruct Hc as [Hc|Hc]; [left; lra|exfalso; lra].
  - exists (a * lo + b), (a * hi + b). split.
    + right. split; [apply in_map_iff; eauto|]. split; [apply in_map_iff; eauto|]. split; [nra|].
      intros p Hp. apply in_map_iff in Hp. destruct Hp as (p' & <- & Hp). specialize (H4 _ Hp). nra.
    + split; [assumption|]. cbv zeta in *. set (w := (hi - lo) / INR n) in *.
      replace ((a * hi + b - (a * lo + b)) / INR n) with (a * w) by (unfold w; unfold Rdiv; ring).
      destruct Hc as [Hc|[Hc ->]]; [left|right; auto].
      split; nra.
Qed.

Lemma cells_of_exists d n m : rectangular d m -> (0 < n)%nat -> exists labs, cells_of n m labs.
Proof.
  intros Hr Hn. unfold cells_of.
  assert (G : forall m', (forall row, In row m' -> In row m) ->
     exists labs, Forall2 (fun row lab => length lab = length row /\
      forall j, (j < length row)%nat -> in_cell (coords m j) n (nth j row 0) (nth j lab O)) m' labs).
  { induction m' as [|row m' IH]; intros Hsub; [exists []; constructor|].
    destruct IH as (labs & IH); [intros; apply Hsub; now right|].
    assert (Hrow : exists lab, length lab = length row /\
       forall j, (j < length row)%nat -> in_cell (coords m j) n (nth j row 0) (nth j lab O)).
    { assert (G : forall k, exists lab, length lab = k /\
          forall j, (j < k)%nat -> in_cell (coords m j) n (nth j row 0) (nth j lab O)).
      { induction k as [|k (lab & Hl & Hc)]; [exists []; split; [reflexivity|lia]|].
        destruct (in_cell_exists (coords m k) n (nth k row 0)) as (c & Hc').
        - apply in_map_iff. exists row. split; [reflexivity|]. apply Hsub. now left.
        - assumption.
        - exists (lab ++ [c]). rewrite app_length. split; [cbn [length]; lia|]. intros j Hj.
          destruct (Nat.eq_dec j k) as [->|Hne].
          + rewrite app_nth2, Hl, Nat.sub_diag by lia. exact Hc'.
          + rewrite app_nth1 by lia. apply Hc. lia. }
      apply G. }
    destruct Hrow as (lab & Hlab). exists (lab :: labs). now constructor. }
  apply G. auto.
Qed.

Lemma cells_affine d n a b m labs :
  rectangular d m -> (forall j, (j < d)%nat -> 0 < a j) ->
  cells_of n m labs -> cells_of n (affine_rows a b m) labs.
Proof.
  intros Hr Ha H. unfold cells_of in *.
  assert (G : forall m' labs', (forall row, In row m' -> In row m) ->
    Forall2 (fun row lab => length lab = length row /\
      forall j, (j < length row)%nat -> in_cell (coords m j) n (nth j row 0) (nth j lab O)) m' labs' ->
    Forall2 (fun row lab => length lab = length row /\
      forall j, (j < length row)%nat -> in_cell (coords (affine_rows a b m) j) n (nth j row 0) (nth j lab O))
      (affine_rows a b m') labs').
  { intros m' labs' Hsub F. induction F as [|row lab m' labs' [Hl Hc] F IH]; [constructor|].
    cbn [affine_rows map]. constructor; [|apply IH; intros; apply Hsub; now right].
    assert (Hrow : In row m) by (apply Hsub; now left).
    assert (Hd : length row = d) by (unfold rectangular in Hr; rewrite Forall_forall in Hr; auto).
    rewrite map_length, seq_length. split; [assumption|]. intros j Hj.
    rewrite nth_map_seq by assumption.
    change (coords (affine_rows a b m) j) with (column (affine_rows a b m) j).
    rewrite (column_affine d) by (auto; lia).
    apply in_cell_affine; [apply Ha; lia| |apply Hc; assumption].
    apply in_map_iff. eauto. }
  apply G; auto.
Qed.

(** The scaler is a change of units with positive factors. *)
Lemma scaler_is_affine d m :
  rectangular d m -> m <> [] ->
  scaler_transform m
  = affine_rows (fun j => / column_scale (column m j)) (fun j => - rmean (column m j) / column_scale (column m j)) m.
Proof.
  intros Hr Hm. unfold scaler_transform, affine_rows. rewrite (ncols_rect d) by assumption.
  apply map_ext_in. intros row Hrow. unfold rectangular in Hr. rewrite Forall_forall in Hr.
  rewrite (Hr _ Hrow). apply map_ext. intros j. pose proof (column_scale_pos (column m j)). field. lra.
Qed.

Lemma cells_scaler d n m labs :
  rectangular d m -> m <> [] -> cells_of n m labs -> cells_of n (scaler_transform m) labs.
Proof.
  intros Hr Hm H. rewrite (scaler_is_affine d) by assumption. apply cells_affine with d; auto.
  intros j _. apply Rinv_0_lt_compat, column_scale_pos.
Qed.

(** ** Index vectors *)
Lemma product_range_spec n d lab :
  In lab (product_range n d) <-> length lab = d /\ Forall (fun k => (k < n)%nat) lab.
Proof.
  revert lab. induction d as [|d IH]; intros lab; cbn [product_range].
  - split; [intros [<-|[]]; auto|]. intros [H _]. destruct lab; [now left|discriminate].
  - rewrite in_flat_map. split.
    + intros (i & Hi & H). apply in_map_iff in H. destruct H as (l & <- & H). apply IH in H.
      apply in_seq in Hi. split; [simpl; lia|]. constructor; [lia|apply H].
    + intros [Hl Hf]. destruct lab as [|i l]; [discriminate|]. inversion Hf; subst.
      exists i. split; [apply in_seq; lia|]. apply in_map, IH. split; [simpl in Hl; lia|assumption].
Qed.

Lemma NoDup_flat_map_cons (l : list nat) (P : list (list nat)) :
  NoDup l -> NoDup P -> NoDup (flat_map (fun i => map (cons i) P) l).
Proof.
  intros Hl HP. induction Hl as [|i l Hi Hl IH]; cbn [flat_map]; [constructor|].
  assert (G : forall Q, NoDup Q -> NoDup (map (cons i) Q ++ flat_map (fun i => map (cons i) P) l)).
  { induction 1 as [|q Q Hq HQ IHQ]; cbn [map app]; [assumption|].
    constructor; [|assumption]. rewrite in_app_iff. intros [H|H].
    - apply in_map_iff in H. destruct H as (q' & E & H). congruence.
    - apply in_flat_map in H. destruct H as (j & Hj & H). apply in_map_iff in H. destruct H as (q' & E & H). congruence. }
  apply G, HP.
Qed.

Lemma product_range_NoDup n d : NoDup (product_range n d).
Proof.
  induction d as [|d IH]; cbn [product_range]; [repeat constructor; auto|].
  apply NoDup_flat_map_cons; [apply seq_NoDup|assumption].
Qed.

Lemma product_range_length n d : length (product_range n d) = (n ^ d)%nat.
Proof.
  induction d as [|d IH]; cbn [product_range]; [reflexivity|].
  assert (G : forall l, length (flat_map (fun i => map (cons i) (product_range n d)) l) = (length l * n ^ d)%nat).
  { induction l as [|i l IHl]; cbn [flat_map length]; [reflexivity|].
    rewrite app_length, map_length, IHl, IH. lia. }
  rewrite G, seq_length. simpl. lia.
Qed.

Lemma cells_labels d n m labs lab :
  rectangular d m -> cells_of n m labs -> In lab labs -> In lab (product_range n d).
Proof.
  intros Hr H Hin. apply product_range_spec.
  unfold cells_of in H.
  assert (G : forall m' labs', (forall row, In row m' -> In row m) ->
    Forall2 (fun row lab => length lab = length row /\
      forall j, (j < length row)%nat -> in_cell (coords m j) n (nth j row 0) (nth j lab O)) m' labs' ->
    In lab labs' -> length lab = d /\ Forall (fun k => (k < n)%nat) lab).
  { clear H Hin. intros m' labs' Hsub F. induction F as [|row lab' m' labs' [Hl Hc] F IH]; [intros []|].
    intros [->|Hin]; [|apply IH; [intros; apply Hsub; now right|assumption]].
    assert (Hd : length row = d). { unfold rectangular in Hr. rewrite Forall_forall in Hr. apply Hr, Hsub. now left. }
    split; [lia|]. apply Forall_forall. intros k Hk. apply (In_nth _ _ O) in Hk. destruct Hk as (j & Hj & <-).
    eapply in_cell_lt, Hc. lia. }
  eapply G; eauto.
Qed.

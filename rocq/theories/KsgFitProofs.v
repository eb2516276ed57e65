(** What the two [fit] methods of ksg.py compute. *)
From Coq Require Import Permutation.
From Verif Require Import Base BaseLemmas UtilsModel UtilsSpec UtilsProofs KsgModel KsgSpec KsgProofs.
Open Scope Z_scope.

(** ** Dictionaries *)
Lemma dict_keys_set {V} (d : zdict V) k v :
  dict_keys (dict_set d k v) = if in_dec Z.eq_dec k (dict_keys d) then dict_keys d else dict_keys d ++ [k].
Proof.
  induction d as [|[k' v'] d IH]; [reflexivity|]. cbn [dict_set].
  destruct (Z.eqb_spec k k') as [->|Hne].
  - destruct (in_dec Z.eq_dec k' (dict_keys ((k', v') :: d))) as [|n]; [reflexivity|].
    exfalso; apply n; now left.
  - unfold dict_keys in *. cbn [map fst]. rewrite IH.
    destruct (in_dec Z.eq_dec k (map fst d)) as [H|H];
      destruct (in_dec Z.eq_dec k (k' :: map fst d)) as [H'|H']; auto.
    + exfalso. apply H'. now right.
    + exfalso. destruct H' as [->|H']; [congruence|contradiction].
Qed.

Lemma dict_get_in {V} (d : zdict V) k : In k (dict_keys d) <-> exists v, dict_get d k = Some v.
Proof.
  induction d as [|[k' v'] d IH]; simpl.
  - split; [tauto|]. intros [v H]; discriminate.
  - destruct (Z.eqb_spec k k') as [->|Hne].
    + split; eauto.
    + rewrite <- IH. split; [intros [H|H]; [congruence|assumption]|auto].
Qed.

Lemma dict_keys_append (d : zdict (list fl)) k v : dict_keys (dict_append d k v) = dict_keys d.
Proof.
  unfold dict_append. destruct (dict_get d k) eqn:E; [|reflexivity].
  rewrite dict_keys_set. destruct (in_dec _ _ _) as [|n]; [reflexivity|].
  exfalso. apply n, dict_get_in. eauto.
Qed.

Lemma dict_get_append_eq (d : zdict (list fl)) k v :
  dict_get (dict_append d k v) k = option_map (fun l => l ++ [v]) (dict_get d k).
Proof.
  unfold dict_append. destruct (dict_get d k) eqn:E; simpl; [|assumption]. apply dict_get_set_eq.
Qed.

Lemma dict_get_append_neq (d : zdict (list fl)) k k' v :
  k <> k' -> dict_get (dict_append d k v) k' = dict_get d k'.
Proof. intros H. unfold dict_append. destruct (dict_get d k); auto. now apply dict_get_set_neq. Qed.

Lemma append_fold_get ns (v : Z -> fl) (d : zdict (list fl)) k :
  dict_get (fold_left (fun d k => dict_append d k (v k)) ns d) k
  = option_map (fun l => l ++ repeat (v k) (count_occ Z.eq_dec ns k)) (dict_get d k).
Proof.
  revert d; induction ns as [|j ns IH]; intros d; simpl.
  - destruct (dict_get d k); simpl; auto. now rewrite app_nil_r.
  - rewrite IH. destruct (Z.eq_dec j k) as [->|Hne].
    + rewrite dict_get_append_eq. destruct (dict_get d k); simpl; auto.
      now rewrite <- app_assoc.
    + now rewrite dict_get_append_neq.
Qed.

Lemma append_fold_keys ns (v : Z -> fl) (d : zdict (list fl)) :
  dict_keys (fold_left (fun d k => dict_append d k (v k)) ns d) = dict_keys d.
Proof.
  revert d; induction ns as [|j ns IH]; intros d; simpl; auto. now rewrite IH, dict_keys_append.
Qed.

(** The distinct neighborhoods in order of first occurrence. *)
Definition nub (ns : list Z) : list Z := dict_keys (empty_dict ns).

Lemma empty_fold_keys ns (d : zdict (list fl)) : NoDup (dict_keys d) ->
  let d' := fold_left (fun d k => dict_set d k []) ns d in
  NoDup (dict_keys d') /\ (forall k, In k (dict_keys d') <-> In k (dict_keys d) \/ In k ns) /\
  (forall k, (forall l, dict_get d k = Some l -> l = []) ->
             In k (dict_keys d) \/ In k ns -> dict_get d' k = Some []).
Proof.
  revert d; induction ns as [|j ns IH]; intros d Hd; simpl.
  - repeat split; auto; try tauto. intros k Hk [H|[]]. apply dict_get_in in H. destruct H as [v Hv].
    rewrite Hv. f_equal. auto.
  - assert (Hd' : NoDup (dict_keys (dict_set d j []))).
    { rewrite dict_keys_set. destruct (in_dec _ _ _) as [|n]; [assumption|].
      apply (Permutation_NoDup (Permutation_cons_append _ _)). now constructor. }
    destruct (IH _ Hd') as (H1 & H2 & H3). split; [assumption|]. 
    assert (Hkeys : forall k, In k (dict_keys (dict_set d j [])) <-> In k (dict_keys d) \/ j = k).
    { intros k. rewrite dict_keys_set. destruct (in_dec _ _ _) as [i|n].
      - split; [auto|]. intros [H|<-]; auto.
      - rewrite in_app_iff. simpl. intuition. }
    split.
    + intros k. rewrite H2, Hkeys. tauto.
    + intros k Hk Hin. apply H3.
      * intros l Hl. destruct (Z.eq_dec j k) as [->|Hne].
        -- rewrite dict_get_set_eq in Hl. congruence.
        -- rewrite dict_get_set_neq in Hl by assumption. auto.
      * rewrite Hkeys. tauto.
Qed.

Lemma nub_nodup ns : NoDup (nub ns).
Proof. apply (empty_fold_keys ns []). constructor. Qed.

Lemma nub_in ns k : In k (nub ns) <-> In k ns.
Proof.
  unfold nub, empty_dict. destruct (empty_fold_keys ns [] (NoDup_nil _)) as (_ & H & _).
  rewrite H. simpl. tauto.
Qed.

Lemma empty_get ns k : In k ns -> dict_get (empty_dict ns) k = Some [].
Proof.
  intros Hk. destruct (empty_fold_keys ns [] (NoDup_nil _)) as (_ & _ & H).
  apply H; [discriminate|auto].
Qed.

(** Rewriting a whole dictionary in key order. *)
Lemma dict_set_app_old {V} (a b : zdict V) k v0 v :
  ~ In k (dict_keys a) -> dict_set (a ++ (k, v0) :: b) k v = a ++ (k, v) :: b.
Proof.
  induction a as [|[k' v'] a IH]; simpl; intros H.
  - now rewrite Z.eqb_refl.
  - destruct (Z.eqb_spec k k') as [->|Hne]; [exfalso; apply H; now left|].
    rewrite IH; auto.
Qed.

Lemma dict_set_app_new {V} (a : zdict V) k v :
  ~ In k (dict_keys a) -> dict_set a k v = a ++ [(k, v)].
Proof.
  induction a as [|[k' v'] a IH]; simpl; intros H; auto.
  destruct (Z.eqb_spec k k') as [->|Hne]; [exfalso; apply H; now left|]. rewrite IH; auto.
Qed.

Lemma write_fold {V W} (g : Z -> V -> W) (dg : zdict V) (done rest : zdict W) :
  NoDup (dict_keys done ++ dict_keys dg) ->
  (rest = [] \/ dict_keys rest = dict_keys dg) ->
  fold_left (fun mi kv => dict_set mi (fst kv) (g (fst kv) (snd kv))) dg (done ++ rest)
  = done ++ map (fun kv => (fst kv, g (fst kv) (snd kv))) dg.
Proof.
  revert done rest; induction dg as [|[k l] dg IH]; intros done rest Hnd Hr; simpl.
  - destruct Hr as [->|Hr]; [reflexivity|]. destruct rest; [reflexivity|discriminate].
  - assert (Hk : ~ In k (dict_keys done)).
    { intros H. apply NoDup_remove_2 in Hnd. apply Hnd. apply in_app_iff. now left. }
    assert (Hnd' : NoDup (dict_keys (done ++ [(k, g k l)]) ++ dict_keys dg)).
    { unfold dict_keys in *. rewrite map_app, <- app_assoc. exact Hnd. }
    destruct Hr as [->|Hr].
    + rewrite app_nil_r, dict_set_app_new by assumption.
      rewrite <- (app_nil_r (done ++ [(k, g k l)])). rewrite IH by auto.
      rewrite <- app_assoc. reflexivity.
    + destruct rest as [|[k' w] rest]; [discriminate|]. injection Hr as -> Hr.
      rewrite dict_set_app_old by assumption.
      replace (done ++ (k, g k l) :: rest) with ((done ++ [(k, g k l)]) ++ rest)
        by (rewrite <- app_assoc; reflexivity).
      rewrite IH by auto. rewrite <- app_assoc. reflexivity.
Qed.

Lemma dict_by_keys {V} (d : zdict V) (f : Z -> V) : NoDup (dict_keys d) ->
  (forall k, In k (dict_keys d) -> dict_get d k = Some (f k)) -> d = map (fun k => (k, f k)) (dict_keys d).
Proof.
  induction d as [|[k v] d IH]; intros Hnd H; [reflexivity|].
  inversion Hnd as [|? ? Hk Hnd']; subst. simpl. f_equal.
  - specialize (H k (or_introl eq_refl)). simpl in H. rewrite Z.eqb_refl in H. congruence.
  - apply IH; auto. intros j Hj. specialize (H j (or_intror Hj)). simpl in H.
    destruct (Z.eqb_spec j k) as [E|]; [subst j; contradiction|assumption].
Qed.

Lemma dict_get_map_keys {V} (f : Z -> V) keys k : In k keys -> dict_get (map (fun k => (k, f k)) keys) k = Some (f k).
Proof.
  induction keys as [|j keys IH]; simpl; [tauto|]. intros H.
  destruct (Z.eqb_spec k j) as [->|Hne]; [reflexivity|]. destruct H as [->|H]; [congruence|auto].
Qed.

Lemma write_predictions_gen psi total n dg mi (f : Z -> list fl) :
  NoDup (dict_keys dg) -> (forall k, In k (dict_keys dg) -> dict_get dg k = Some (f k)) ->
  write_predictions psi total n dg mi
  = fold_left (fun mi k => dict_set mi k
      (py_max (Fin 0) (fl_add (fl_sub (digamma psi k) (total (f k))) (digamma psi n)))) (dict_keys dg) mi.
Proof.
  intros Hnd Hf. unfold write_predictions.
  rewrite (dict_by_keys dg f Hnd Hf) at 1. generalize (dict_keys dg) as ks. clear.
  intros ks. revert mi. induction ks as [|k ks IH]; intros mi; simpl; auto.
Qed.

(** ** The rows of the distance matrices *)
Definition pairs_from (p : ksg_params) (xs ys : matrix) (z : list R * list R) : list (R * R) :=
  combine (distances_from (metric_x p) xs (fst z)) (distances_from (metric_y p) ys (snd z)).

Definition rows (p : ksg_params) (xs ys : matrix) : list (list (R * R)) :=
  map (pairs_from p xs ys) (combine xs ys).

Lemma pairs_from_length p xs ys z : length xs = length ys -> length (pairs_from p xs ys z) = length xs.
Proof.
  intros H. unfold pairs_from, distances_from. rewrite combine_length, !map_length. lia.
Qed.

Lemma pairs_from_fst p xs ys z : length xs = length ys ->
  map fst (pairs_from p xs ys z) = distances_from (metric_x p) xs (fst z) /\
  map snd (pairs_from p xs ys z) = distances_from (metric_y p) ys (snd z).
Proof.
  intros H. unfold pairs_from.
  assert (Hl : length (distances_from (metric_x p) xs (fst z)) = length (distances_from (metric_y p) ys (snd z)))
    by (unfold distances_from; rewrite !map_length; assumption).
  revert Hl. generalize (distances_from (metric_x p) xs (fst z)), (distances_from (metric_y p) ys (snd z)).
  clear. induction l as [|a l IH]; intros [|b l'] Hl; simpl in *; try discriminate; auto.
  destruct (IH l') as [E1 E2]; [lia|]. now rewrite E1, E2.
Qed.

Section Fits.
Variable psi : Z -> R.

Definition terms (p : ksg_params) (xs ys : matrix) (k : Z) : list fl :=
  map (fun ps => term psi ps k) (rows p xs ys).

(** The mean of the digamma terms. *)
Definition mean_term (p : ksg_params) (xs ys : matrix) (k : Z) : fl :=
  fl_divp (fl_sum (terms p xs ys k)) (INR (length xs)).

Definition prediction (p : ksg_params) (xs ys : matrix) (k : Z) : fl :=
  py_max (Fin 0) (fl_add (fl_sub (digamma psi k) (mean_term p xs ys k)) (digamma psi (zlen xs))).

(** The prediction with the mean term counted [m] times. *)
Definition prediction_times (m : nat) (p : ksg_params) (xs ys : matrix) (k : Z) : fl :=
  py_max (Fin 0) (fl_add (fl_sub (digamma psi k) (fl_sum (repeat (mean_term p xs ys k) m)))
                         (digamma psi (zlen xs))).

Lemma prediction_times_1 p xs ys k : prediction_times 1 p xs ys k = prediction p xs ys k.
Proof. unfold prediction_times, prediction. simpl. now rewrite fl_add_0_r. Qed.

(** *** slow *)
Lemma slow_point_term p xs ys i : length xs = length ys -> (i < length xs)%nat ->
  forall d, slow_point psi p xs ys d i
  = fold_left (fun d k => dict_append d k (term psi (nth i (rows p xs ys) []) k)) (neighborhoods p) d.
Proof.
  intros Hl Hi d. unfold slow_point, rows.
  assert (E : nth i (map (pairs_from p xs ys) (combine xs ys)) []
              = pairs_from p xs ys (nth i xs [], nth i ys [])).
  { rewrite nth_indep with (d' := pairs_from p xs ys ([], [])) by (rewrite map_length, combine_length; lia).
    rewrite map_nth, combine_nth by assumption. reflexivity. }
  rewrite E. unfold term. destruct (pairs_from_fst p xs ys (nth i xs [], nth i ys []) Hl) as [-> ->].
  reflexivity.
Qed.

Lemma rows_length p xs ys : length xs = length ys -> length (rows p xs ys) = length xs.
Proof. intros H. unfold rows. rewrite map_length, combine_length. lia. Qed.

Lemma slow_fold_get p xs ys k m :
  length xs = length ys -> (m <= length xs)%nat -> In k (neighborhoods p) ->
  let d := fold_left (slow_point psi p xs ys) (seq 0 m) (empty_dict (neighborhoods p)) in
  dict_get d k = Some (concat (map (fun i => repeat (term psi (nth i (rows p xs ys) []) k)
                                   (count_occ Z.eq_dec (neighborhoods p) k)) (seq 0 m))) /\
  dict_keys d = nub (neighborhoods p).
Proof.
  intros Hl Hm Hk. induction m as [|m IH]; cbv zeta.
  - simpl. split; [now apply empty_get|reflexivity].
  - rewrite seq_S, fold_left_app. cbn [fold_left Nat.add].
    destruct IH as [IH1 IH2]; [lia|].
    rewrite slow_point_term by lia.
    rewrite append_fold_get, append_fold_keys, IH1, IH2. split; [|reflexivity].
    cbn [option_map]. rewrite map_app, concat_app. simpl. now rewrite app_nil_r.
Qed.

Lemma fl_sum_repeat_concat {A} (t : A -> fl) m (l : list A) :
  fl_sum (concat (map (fun a => repeat (t a) m) l)) = fl_sum (repeat (fl_sum (map t l)) m).
Proof.
  induction m as [|m IHm].
  - simpl. induction l; simpl; auto.
  - simpl. rewrite <- IHm. clear IHm. induction l as [|a l IH]; simpl; [f_equal; lra|].
    rewrite !fl_sum_app, IH. rewrite <- !fl_add_assoc. f_equal.
    rewrite !fl_add_assoc. f_equal. apply fl_add_comm.
Qed.

Lemma concat_repeat_length {A B} (t : A -> B) m (l : list A) :
  length (concat (map (fun a => repeat (t a) m) l)) = (m * length l)%nat.
Proof.
  induction l as [|a l IH]; simpl; [lia|]. rewrite app_length, repeat_length, IH. lia.
Qed.

Lemma fl_sum_repeat_divp v m n : (0 < n)%R -> (0 < m)%nat ->
  fl_divp (fl_sum (repeat v m)) (INR m * n) = fl_divp v n.
Proof.
  intros Hn Hm. destruct v as [r| | |].
  - assert (E : forall m, fl_sum (repeat (Fin r) m) = Fin (INR m * r)).
    { clear. induction m as [|m IH]; simpl; [f_equal; lra|].
      rewrite IH. simpl. f_equal. destruct m; simpl; lra. }
    rewrite E. simpl. f_equal. field. split; [lra|]. apply not_0_INR. lia.
  - assert (E : forall m, (0 < m)%nat -> fl_sum (repeat PInf m) = PInf).
    { clear. induction m as [|m IH]; intros H; [lia|]. simpl. destruct m; [reflexivity|].
      rewrite IH by lia. reflexivity. }
    now rewrite E.
  - assert (E : forall m, (0 < m)%nat -> fl_sum (repeat NInf m) = NInf).
    { clear. induction m as [|m IH]; intros H; [lia|]. simpl. destruct m; [reflexivity|].
      rewrite IH by lia. reflexivity. }
    now rewrite E.
  - assert (E : forall m, (0 < m)%nat -> fl_sum (repeat NaN m) = NaN).
    { clear. induction m as [|m IH]; intros H; [lia|]. simpl. destruct m; [reflexivity|].
      rewrite IH by lia. reflexivity. }
    now rewrite E.
Qed.

Lemma map_nth_rows {A B} (f : A -> B) (l : list A) d :
  map (fun i => f (nth i l d)) (seq 0 (length l)) = map f l.
Proof. rewrite <- (map_map (fun i => nth i l d) f). now rewrite map_nth_seq_self. Qed.

Lemma slow_mean p xs ys k : length xs = length ys -> xs <> [] -> In k (neighborhoods p) ->
  fl_mean (concat (map (fun i => repeat (term psi (nth i (rows p xs ys) []) k)
                      (count_occ Z.eq_dec (neighborhoods p) k)) (seq 0 (length xs))))
  = mean_term p xs ys k.
Proof.
  intros Hl Hne Hk. unfold fl_mean. rewrite concat_repeat_length, fl_sum_repeat_concat, seq_length.
  rewrite mult_INR, fl_sum_repeat_divp.
  - unfold mean_term, terms. rewrite <- (rows_length p xs ys Hl) at 1.
    now rewrite (map_nth_rows (fun ps => term psi ps k)).
  - now apply INR_length_pos.
  - now apply count_occ_In.
Qed.

(** *** fast *)
Variable argsort : list R -> list nat.
Hypothesis Hargsort : valid_argsort argsort.

Lemma combine_py_slice {A B} (a : list A) (b : list B) i j :
  length a = length b -> combine (py_slice a i j) (py_slice b i j) = py_slice (combine a b) i j.
Proof.
  intros H. unfold py_slice, zlen. rewrite combine_length, <- H, Nat.min_id.
  rewrite <- combine_firstn. f_equal.
  generalize (Z.to_nat (py_clamp (Z.of_nat (length a)) i)) as n. clear i j.
  revert b H; induction a as [|r a IH]; intros [|s b] H n; simpl in *; try discriminate.
  - now rewrite !skipn_nil.
  - destruct n; simpl; auto.
Qed.

Lemma combine_map {A B C D} (f : A -> C) (g : B -> D) a b :
  combine (map f a) (map g b) = map (fun z => (f (fst z), g (snd z))) (combine a b).
Proof.
  revert b; induction a as [|x a IH]; intros [|y b]; simpl; auto. now rewrite IH.
Qed.

Lemma in_py_slice {A} (l : list A) i j a : In a (py_slice l i j) -> In a l.
Proof.
  unfold py_slice. intros H.
  assert (Hf : forall n (l : list A), In a (firstn n l) -> In a l)
    by (intros n l' H'; rewrite <- (firstn_skipn n l'); apply in_app_iff; auto).
  apply Hf in H.
  rewrite <- (firstn_skipn (Z.to_nat (py_clamp (zlen l) i)) l). apply in_app_iff; auto.
Qed.

Lemma fast_chunk_terms p xs ys d sl :
  length xs = length ys -> (forall k, In k (neighborhoods p) -> (Z.to_nat k < length xs)%nat) ->
  fast_chunk psi argsort p xs ys d sl
  = fold_left (fun d k => dict_append d k
      (fl_sum (map (fun ps => fl_divp (term psi ps k) (INR (length xs))) (py_slice (rows p xs ys) (fst sl) (snd sl)))))
      (neighborhoods p) d.
Proof.
  intros Hl Hk. unfold fast_chunk. rewrite combine_map, combine_py_slice by assumption.
  assert (G : forall ns d, (forall k, In k ns -> (Z.to_nat k < length xs)%nat) ->
     fold_left (fun d k => dict_append d k
       (fl_sum (map (fun v => fl_divp v (INR (length xs)))
         (map (fun r => fast_term psi argsort (fst r) (snd r) k)
           (map (fun z => (distances_from (metric_x p) xs (fst z), distances_from (metric_y p) ys (snd z)))
              (py_slice (combine xs ys) (fst sl) (snd sl))))))) ns d
     = fold_left (fun d k => dict_append d k
      (fl_sum (map (fun ps => fl_divp (term psi ps k) (INR (length xs))) (py_slice (rows p xs ys) (fst sl) (snd sl)))))
      ns d).
  { intros ns. induction ns as [|k ns IH]; intros d0 Hns; [reflexivity|].
    cbn [fold_left]. rewrite IH by (intros; apply Hns; now right). f_equal. f_equal. f_equal.
    unfold rows. rewrite py_slice_map, !map_map. apply map_ext_in. intros z Hz. cbn [fst snd].
    f_equal. destruct (pairs_from_fst p xs ys z Hl) as [<- <-].
    apply fast_term_term; [assumption|].
    rewrite pairs_from_length by assumption. apply Hns. now left. }
  apply G. assumption.
Qed.

Lemma fast_fold_get p xs ys k slices :
  length xs = length ys -> (forall k, In k (neighborhoods p) -> (Z.to_nat k < length xs)%nat) ->
  In k (neighborhoods p) ->
  let d := fold_left (fast_chunk psi argsort p xs ys) slices (empty_dict (neighborhoods p)) in
  dict_get d k = Some (concat (map (fun sl => repeat
      (fl_sum (map (fun ps => fl_divp (term psi ps k) (INR (length xs))) (py_slice (rows p xs ys) (fst sl) (snd sl))))
      (count_occ Z.eq_dec (neighborhoods p) k)) slices)) /\
  dict_keys d = nub (neighborhoods p).
Proof.
  intros Hl Hns Hk. induction slices as [|sl slices IH] using rev_ind; cbv zeta.
  - simpl. split; [now apply empty_get|reflexivity].
  - rewrite fold_left_app. cbn [fold_left]. destruct IH as [IH1 IH2].
    rewrite fast_chunk_terms by assumption.
    rewrite append_fold_get, append_fold_keys, IH1, IH2. split; [|reflexivity].
    cbn [option_map]. rewrite map_app, concat_app. simpl. now rewrite app_nil_r.
Qed.

Lemma fast_total p xs ys k slices chunk :
  length xs = length ys -> xs <> [] -> 0 < chunk -> chunker (zlen xs) chunk = Ok slices ->
  fl_sum (concat (map (fun sl => repeat
      (fl_sum (map (fun ps => fl_divp (term psi ps k) (INR (length xs))) (py_slice (rows p xs ys) (fst sl) (snd sl))))
      (count_occ Z.eq_dec (neighborhoods p) k)) slices))
  = fl_sum (repeat (mean_term p xs ys k) (count_occ Z.eq_dec (neighborhoods p) k)).
Proof.
  intros Hl Hne Hc Hs. rewrite fl_sum_repeat_concat. f_equal. f_equal.
  assert (Hr : rows p xs ys <> []).
  { intros E. apply (f_equal (@length _)) in E. rewrite rows_length in E by assumption.
    destruct xs; [congruence|discriminate]. }
  destruct (chunker_partition (rows p xs ys) chunk Hr Hc) as (sl' & Hs' & Hcat & _).
  unfold zlen in Hs, Hs'. rewrite rows_length in Hs' by assumption.
  rewrite Hs in Hs'. injection Hs' as <-.
  unfold mean_term, terms.
  rewrite <- (fl_sum_divp _ _ (INR_length_pos xs Hne)), map_map.
  rewrite <- Hcat at 1. rewrite concat_map, fl_sum_concat, !map_map. reflexivity.
Qed.
End Fits.

(** ** The two [fit] methods *)
Lemma zmax_list_ge l k : In k l -> k <= zmax_list l.
Proof.
  unfold zmax_list. generalize (hd 0 l) as h. induction l as [|a l IH]; intros h H; [destruct H|].
  cbn [fold_right]. destruct H as [->|H]; [lia|]. specialize (IH h H). lia.
Qed.

Lemma zmax_list_in l : l <> [] -> In (zmax_list l) l.
Proof.
  intros Hl. unfold zmax_list.
  assert (H : forall h l, In (fold_right Z.max h l) l \/ fold_right Z.max h l = h).
  { intros h l'. induction l' as [|a l' IH]; simpl; [auto|].
    destruct (Z.max_spec a (fold_right Z.max h l')) as [[_ ->]|[_ ->]]; [|auto].
    destruct IH as [IH|IH]; [auto|]. rewrite IH. auto. }
  destruct (H (hd 0 l) l) as [Hi|He]; [assumption|]. rewrite He.
  destruct l; [congruence|now left].
Qed.

Lemma zmin_list_le l k : In k l -> zmin_list l <= k.
Proof.
  unfold zmin_list. generalize (hd 0 l) as h. induction l as [|a l IH]; intros h H; [destruct H|].
  cbn [fold_right]. destruct H as [->|H]; [lia|]. specialize (IH h H). lia.
Qed.

Lemma zmin_list_in l : l <> [] -> In (zmin_list l) l.
Proof.
  intros Hl. unfold zmin_list.
  assert (H : forall h l, In (fold_right Z.min h l) l \/ fold_right Z.min h l = h).
  { intros h l'. induction l' as [|a l' IH]; simpl; [auto|].
    destruct (Z.min_spec a (fold_right Z.min h l')) as [[_ ->]|[_ ->]]; [auto|].
    destruct IH as [IH|IH]; [auto|]. rewrite IH. auto. }
  destruct (H (hd 0 l) l) as [Hi|He]; [assumption|]. rewrite He.
  destruct l; [congruence|now left].
Qed.

Lemma product_space_values_length std x y xs ys :
  product_space_values std x y = Ok (xs, ys) -> length xs = length ys /\ length xs = length x.
Proof.
  unfold product_space_values.
  destruct (Nat.eqb_spec (length x) (length y)) as [Hl|]; [|discriminate]. cbn [negb].
  destruct std.
  - unfold standard_scaler. destruct x as [|rx x]; [discriminate|].
    destruct rx; [discriminate|]. cbn [bind].
    destruct y as [|ry y]; [discriminate|]. destruct ry; [discriminate|]. cbn [bind].
    intros H. injection H as <- <-. unfold scaler_transform.
    rewrite !map_length. simpl in *. lia.
  - intros H. injection H as <- <-. auto.
Qed.

(** The object after a successful fit which computed the predictions [g]. *)
Definition fit_update (s : ksg_state) (g : Z -> fl) : ksg_state :=
  {| params := params s; chunk_size := chunk_size s; fitted := true;
     mi_dict := fold_left (fun mi k => dict_set mi k (g k)) (nub (neighborhoods (params s))) (mi_dict s) |}.

Lemma valid_params_facts p n : valid_params p -> zmax_list (neighborhoods p) < Z.of_nat n ->
  (0 < n)%nat /\ (forall k, In k (neighborhoods p) -> (Z.to_nat k < n)%nat).
Proof.
  intros [Hne H1] Hmax. split.
  - pose proof (zmax_list_in _ Hne) as Hin. apply H1 in Hin. lia.
  - intros k Hk. pose proof (zmax_list_ge _ _ Hk). specialize (H1 k Hk). lia.
Qed.

Lemma fold_set_ext {V} (g h : Z -> V) ks mi : (forall k, In k ks -> g k = h k) ->
  fold_left (fun mi k => dict_set mi k (g k)) ks mi = fold_left (fun mi k => dict_set mi k (h k)) ks mi.
Proof.
  revert mi; induction ks as [|k ks IH]; intros mi H; [reflexivity|]. cbn [fold_left].
  rewrite (H k) by now left. apply IH. intros; apply H; now right.
Qed.

Lemma fit_update_ext s g h : (forall k, In k (neighborhoods (params s)) -> g k = h k) ->
  fit_update s g = fit_update s h.
Proof.
  intros H. unfold fit_update. f_equal. apply fold_set_ext. intros k Hk. apply H. now apply (proj1 (nub_in _ _)).
Qed.

Lemma slow_fit_spec psi s x y xs ys :
  valid_params (params s) -> product_space_values (standardize (params s)) x y = Ok (xs, ys) ->
  zmax_list (neighborhoods (params s)) < zlen xs ->
  slow_fit psi s x y = (fit_update s (prediction psi (params s) xs ys), Ok tt).
Proof.
  intros Hv Hps Hmax. unfold slow_fit. rewrite Hps.
  destruct (Z.leb_spec (zlen xs) (zmax_list (neighborhoods (params s)))); [lia|].
  destruct (product_space_values_length _ _ _ _ _ Hps) as [Hl _].
  destruct (valid_params_facts _ _ Hv Hmax) as [Hn Hk].
  assert (Hxne : xs <> []) by (intros ->; simpl in Hn; lia).
  set (d := fold_left (slow_point psi (params s) xs ys) (seq 0 (length xs)) (empty_dict (neighborhoods (params s)))).
  assert (Hd : forall k, In k (neighborhoods (params s)) -> _ /\ _) by
    (intros k Hin; exact (slow_fold_get psi (params s) xs ys k (length xs) Hl (le_n _) Hin)).
  fold d in Hd.
  assert (Hkeys : dict_keys d = nub (neighborhoods (params s))).
  { destruct Hv as [Hne _]. pose proof (zmax_list_in _ Hne) as Hin. now apply Hd in Hin. }
  unfold fit_update. do 2 f_equal.
  rewrite (write_predictions_gen psi fl_mean (zlen xs) d (mi_dict s) (fun k =>
     concat (map (fun i => repeat (term psi (nth i (rows (params s) xs ys) []) k)
        (count_occ Z.eq_dec (neighborhoods (params s)) k)) (seq 0 (length xs))))).
  - rewrite Hkeys. apply fold_set_ext. intros k Hin. apply (proj1 (nub_in _ _)) in Hin.
    cbv beta. rewrite (slow_mean psi (params s) xs ys k Hl Hxne Hin). reflexivity.
  - rewrite Hkeys. apply nub_nodup.
  - rewrite Hkeys. intros k Hin. apply (proj1 (nub_in _ _)) in Hin. now apply Hd in Hin.
Qed.

Lemma fast_fit_spec psi argsort s x y xs ys :
  valid_argsort argsort -> valid_params (params s) -> 0 < chunk_size s ->
  product_space_values (standardize (params s)) x y = Ok (xs, ys) ->
  zmax_list (neighborhoods (params s)) < zlen xs ->
  fast_fit psi argsort s x y
  = (fit_update s (fun k => prediction_times psi (count_occ Z.eq_dec (neighborhoods (params s)) k)
                                       (params s) xs ys k), Ok tt).
Proof.
  intros Ha Hv Hc Hps Hmax. unfold fast_fit. rewrite Hps.
  destruct (Z.leb_spec (zlen xs) (zmax_list (neighborhoods (params s)))); [lia|].
  destruct (product_space_values_length _ _ _ _ _ Hps) as [Hl _].
  destruct (valid_params_facts _ _ Hv Hmax) as [Hn Hk].
  assert (Hxne : xs <> []) by (intros ->; simpl in Hn; lia).
  destruct (chunker_error_iff (zlen xs) (chunk_size s)) as [_ Hok].
  destruct Hok as [slices Hsl]; [unfold zlen; lia|assumption|]. rewrite Hsl.
  set (d := fold_left (fast_chunk psi argsort (params s) xs ys) slices (empty_dict (neighborhoods (params s)))).
  assert (Hd : forall k, In k (neighborhoods (params s)) -> _ /\ _) by
    (intros k Hin; exact (fast_fold_get psi argsort Ha (params s) xs ys k slices Hl Hk Hin)).
  fold d in Hd.
  assert (Hkeys : dict_keys d = nub (neighborhoods (params s))).
  { destruct Hv as [Hne _]. pose proof (zmax_list_in _ Hne) as Hin. now apply Hd in Hin. }
  unfold fit_update. do 2 f_equal.
  rewrite (write_predictions_gen psi fl_sum (zlen xs) d (mi_dict s) (fun k =>
     concat (map (fun sl => repeat
      (fl_sum (map (fun ps => fl_divp (term psi ps k) (INR (length xs))) (py_slice (rows (params s) xs ys) (fst sl) (snd sl))))
      (count_occ Z.eq_dec (neighborhoods (params s)) k)) slices))).
  - rewrite Hkeys. apply fold_set_ext. intros k Hin. apply (proj1 (nub_in _ _)) in Hin.
    rewrite (fast_total psi (params s) xs ys k slices (chunk_size s)) by assumption. reflexivity.
  - rewrite Hkeys. apply nub_nodup.
  - rewrite Hkeys. intros k Hin. apply (proj1 (nub_in _ _)) in Hin. now apply Hd in Hin.
Qed.

Lemma fast_fit_spec_nodup psi argsort s x y xs ys :
  valid_argsort argsort -> valid_params (params s) -> NoDup (neighborhoods (params s)) ->
  0 < chunk_size s ->
  product_space_values (standardize (params s)) x y = Ok (xs, ys) ->
  zmax_list (neighborhoods (params s)) < zlen xs ->
  fast_fit psi argsort s x y = (fit_update s (prediction psi (params s) xs ys), Ok tt).
Proof.
  intros Ha Hv Hnd Hc Hps Hmax. rewrite (fast_fit_spec psi argsort s x y xs ys) by assumption.
  f_equal. apply fit_update_ext. intros k Hin.
  rewrite (proj1 (NoDup_count_occ' Z.eq_dec _) Hnd k Hin). now rewrite prediction_times_1.
Qed.

(** Failing inputs. *)
Lemma fit_errors_fast psi argsort s x y :
  valid_params (params s) ->
  (exists xs ys, product_space_values (standardize (params s)) x y = Ok (xs, ys) /\
      zmax_list (neighborhoods (params s)) < zlen xs /\ 0 < chunk_size s) \/
  fast_fit psi argsort s x y = (s, Err ValueError).
Proof.
  intros Hv. unfold fast_fit, product_space_values.
  destruct (negb _); [now right|].
  assert (H : (exists xs ys, (if standardize (params s) then
     do x' <- standard_scaler x; do y' <- standard_scaler y; Ok (x', y') else Ok (x, y)) = Ok (xs, ys)) \/
     (if standardize (params s) then
     do x' <- standard_scaler x; do y' <- standard_scaler y; Ok (x', y') else Ok (x, y)) = Err ValueError).
  { destruct (standardize (params s)); [|left; eauto].
    unfold standard_scaler. destruct x as [|[|] x]; cbn [bind]; auto.
    destruct y as [|[|] y]; cbn [bind]; auto. left; eauto. }
  destruct H as [(xs & ys & ->)| ->]; [|now right].
  destruct (Z.leb_spec (zlen xs) (zmax_list (neighborhoods (params s)))); [now right|].
  destruct (Z.ltb_spec 0 (chunk_size s)) as [Hc|Hc]; [left; exists xs, ys; auto|].
  rewrite (proj1 (chunker_error_iff (zlen xs) (chunk_size s))) by auto. now right.
Qed.

Lemma fit_errors_slow psi s x y :
  (exists xs ys, product_space_values (standardize (params s)) x y = Ok (xs, ys) /\
      zmax_list (neighborhoods (params s)) < zlen xs) \/
  slow_fit psi s x y = (s, Err ValueError).
Proof.
  unfold slow_fit, product_space_values.
  destruct (negb _); [now right|].
  assert (H : (exists xs ys, (if standardize (params s) then
     do x' <- standard_scaler x; do y' <- standard_scaler y; Ok (x', y') else Ok (x, y)) = Ok (xs, ys)) \/
     (if standardize (params s) then
     do x' <- standard_scaler x; do y' <- standard_scaler y; Ok (x', y') else Ok (x, y)) = Err ValueError).
  { destruct (standardize (params s)); [|left; eauto].
    unfold standard_scaler. destruct x as [|[|] x]; cbn [bind]; auto.
    destruct y as [|[|] y]; cbn [bind]; auto. left; eauto. }
  destruct H as [(xs & ys & ->)| ->]; [|now right].
  destruct (Z.leb_spec (zlen xs) (zmax_list (neighborhoods (params s)))); [now right|].
  left; exists xs, ys; auto.
Qed.

(** Lemmas about [src/bmi/utils.py]. *)
From Coq Require Import Ascii String Permutation.
From Verif Require Import Base BaseLemmas UtilsModel UtilsSpec.
Open Scope Z_scope.
Ltac Zify.zify_post_hook ::= Z.div_mod_to_equations.

(** ** chunker *)
Lemma chunker_error_iff n size :
  (n <= 0 \/ size <= 0 -> chunker n size = Err ValueError) /\
  (0 < n -> 0 < size -> exists sl, chunker n size = Ok sl).
Proof.
  unfold chunker. split.
  - intros H. destruct (Z.leb_spec n 0); simpl; auto.
    destruct (Z.leb_spec size 0); simpl; auto. lia.
  - intros Hn Hs. destruct (Z.leb_spec n 0); [lia|]. destruct (Z.leb_spec size 0); [lia|].
    simpl; eauto.
Qed.

Lemma chunks_prefix {A} (X : list A) size k :
  0 < size ->
  (Z.of_nat k - 1) * size < zlen X \/ k = 0%nat ->
  List.concat (map (fun s => py_slice X (fst s) (snd s))
         (map (fun i => (0 + Z.of_nat i * size, Z.min (zlen X) (0 + Z.of_nat i * size + size)))
              (seq 0 k)))
  = firstn (Z.to_nat (Z.min (zlen X) (Z.of_nat k * size))) X.
Proof.
  intros Hs. induction k as [|k IH]; intros Hk.
  - simpl. rewrite Z.min_r by apply zlen_nonneg. reflexivity.
  - rewrite seq_S, !map_app, concat_app, IH by (destruct k; [now right|left; nia]).
    clear IH. cbn [map List.concat fst snd Nat.add]. rewrite app_nil_r.
    destruct Hk as [Hk|Hk]; [|lia].
    assert (H1 : Z.of_nat k * size < zlen X) by nia.
    rewrite (Z.min_r (zlen X) (Z.of_nat k * size)) by lia.
    rewrite py_slice_bounds by nia.
    replace (Z.to_nat (Z.min (zlen X) (Z.of_nat (S k) * size)))
      with (Z.to_nat (Z.of_nat k * size) +
            Z.to_nat (Z.min (zlen X) (0 + Z.of_nat k * size + size) - (0 + Z.of_nat k * size)))%nat by nia.
    rewrite firstn_skipn_add. f_equal.
Qed.

Lemma ceil_bounds n size :
  0 < n -> 0 < size ->
  let c := (n - 0 + size - 1) / size in
  1 <= c /\ (c - 1) * size < n /\ n <= c * size.
Proof. intros Hn Hs c. subst c. nia. Qed.

Lemma chunker_partition {A} (X : list A) size :
  X <> [] -> 0 < size ->
  exists sl, chunker (zlen X) size = Ok sl /\
    List.concat (map (fun s => py_slice X (fst s) (snd s)) sl) = X /\
    Forall (fun s => 1 <= zlen (py_slice X (fst s) (snd s)) <= size) sl /\
    Forall (fun s => zlen (py_slice X (fst s) (snd s)) = size) (removelast sl) /\
    (zlen sl - 1) * size < zlen X <= zlen sl * size.
Proof.
  intros HX Hs.
  assert (Hn : 0 < zlen X) by (destruct X; [congruence|unfold zlen; simpl; lia]).
  unfold chunker. destruct (Z.leb_spec (zlen X) 0); [lia|]. destruct (Z.leb_spec size 0); [lia|].
  cbn [orb]. eexists; split; [reflexivity|].
  unfold py_range.
  rewrite (map_map _ (fun start => (start, Z.min (zlen X) (start + size)))).
  destruct (ceil_bounds (zlen X) size Hn Hs) as (Hc1 & Hc2 & Hc3).
  set (c := (zlen X - 0 + size - 1) / size) in *.
  assert (Hk : Z.of_nat (Z.to_nat c) = c) by lia.
  destruct (Z.to_nat c) as [|k] eqn:Ek; [lia|].
  split; [|split; [|split]].
  - rewrite chunks_prefix by (auto; left; nia).
    rewrite Z.min_l by nia. unfold zlen. rewrite Nat2Z.id. apply firstn_all.
  - apply Forall_map, Forall_forall. intros i Hi. apply in_seq in Hi. cbn [fst snd].
    rewrite py_slice_length by nia. nia.
  - rewrite removelast_map, removelast_seq.
    apply Forall_map, Forall_forall. intros i Hi. apply in_seq in Hi. cbn [fst snd].
    rewrite py_slice_length by nia. nia.
  - rewrite zlen_map.
    replace (zlen (seq 0 (S k))) with c by (unfold zlen; rewrite seq_length; lia). nia.
Qed.

(** ** Standardization *)
Lemma ncols_rect d m : rectangular d m -> m <> [] -> ncols m = d.
Proof. intros H Hm. destruct m; [congruence|]. inversion H; auto. Qed.

Lemma standard_scaler_ok d m :
  rectangular d m -> m <> [] -> (0 < d)%nat -> standard_scaler m = Ok (scaler_transform m).
Proof.
  intros H Hm Hd. destruct m as [|row m]; [congruence|]. inversion H; subst.
  destruct row; [simpl in Hd; lia|reflexivity].
Qed.

Lemma nth_map_seq {A} (f : nat -> A) n j dflt : (j < n)%nat -> nth j (map f (seq 0 n)) dflt = f j.
Proof.
  intros Hj. rewrite nth_indep with (d' := f 0%nat) by now rewrite map_length, seq_length.
  rewrite map_nth, seq_nth by assumption. reflexivity.
Qed.

Lemma column_scaler d m j :
  rectangular d m -> m <> [] -> (j < d)%nat ->
  column (scaler_transform m) j
  = map (fun v => ((v - rmean (column m j)) / column_scale (column m j))%R) (column m j).
Proof.
  intros H Hm Hj. unfold column, scaler_transform. rewrite !map_map. apply map_ext. intros row.
  rewrite (ncols_rect d) by assumption.
  rewrite nth_map_seq by assumption. reflexivity.
Qed.

Lemma scaler_shape d m :
  rectangular d m -> m <> [] ->
  List.length (scaler_transform m) = List.length m /\ rectangular d (scaler_transform m).
Proof.
  intros H Hm. unfold scaler_transform. split; [now rewrite map_length|].
  apply Forall_map, Forall_forall. intros row _. rewrite map_length, seq_length.
  now apply ncols_rect.
Qed.

Lemma variance_nonneg l : (0 <= variance l)%R.
Proof.
  unfold variance, rmean. destruct l as [|a l].
  - unfold rsum; simpl. unfold Rdiv. lra.
  - apply Rmult_le_pos.
    + apply rsum_nonneg, Forall_map, Forall_forall. intros v _. apply Rle_0_sqr.
    + apply Rlt_le, Rinv_0_lt_compat, INR_length_pos. discriminate.
Qed.

Lemma column_scale_pos l : (0 < column_scale l)%R.
Proof.
  unfold column_scale. destruct (Req_EM_T (variance l) 0); [lra|].
  apply sqrt_lt_R0. pose proof (variance_nonneg l). lra.
Qed.

Lemma rsum_centred l : l <> [] -> rsum (map (fun v => (v - rmean l)%R) l) = 0%R.
Proof.
  intros Hl. rewrite rsum_minus, rsum_const, map_id.
  unfold rmean. pose proof (INR_length_pos l Hl). field. lra.
Qed.

Lemma variance_zero_constant l :
  l <> [] -> variance l = 0%R -> Forall (fun v => v = rmean l) l.
Proof.
  intros Hl Hv.
  assert (Hs : rsum (map (fun v => ((v - rmean l) * (v - rmean l))%R) l) = 0%R).
  { unfold variance in Hv. unfold rmean at 1 in Hv. rewrite map_length in Hv.
    pose proof (INR_length_pos l Hl) as Hp.
    apply Rmult_integral in Hv. destruct Hv as [Hv|Hv]; [exact Hv|].
    pose proof (Rinv_neq_0_compat (INR (List.length l))). lra. }
  apply rsum_zero_all in Hs.
  - rewrite Forall_map in Hs. eapply Forall_impl; [|exact Hs]. cbv beta. intros v Hv0. nra.
  - apply Forall_map, Forall_forall. intros v _. apply Rle_0_sqr.
Qed.

Lemma constant_mean l c : l <> [] -> Forall (fun v => v = c) l -> rmean l = c.
Proof.
  intros Hl H. unfold rmean.
  replace l with (map (fun _ => c) l) at 1.
  - rewrite rsum_const. pose proof (INR_length_pos l Hl). field. lra.
  - clear Hl. induction H; simpl; congruence.
Qed.

Lemma constant_variance l c : l <> [] -> Forall (fun v => v = c) l -> variance l = 0%R.
Proof.
  intros Hl H. unfold variance. rewrite (constant_mean l c) by assumption.
  apply constant_mean.
  - destruct l; [congruence|discriminate].
  - apply Forall_map. eapply Forall_impl; [|exact H]. cbv beta. intros v ->. lra.
Qed.

Lemma map_constant_id {A} (f : A -> R) l c : Forall (fun a => f a = c) l -> Forall (fun v => v = c) (map f l).
Proof. intros. now apply Forall_map. Qed.

Lemma column_nonnil m j : m <> [] -> column m j <> [].
Proof. destruct m; [congruence|discriminate]. Qed.

Lemma column_length m j : List.length (column m j) = List.length m.
Proof. apply map_length. Qed.

Lemma standardized_column d m j :
  rectangular d m -> m <> [] -> (j < d)%nat ->
  let c := column (scaler_transform m) j in
  rsum c = 0%R /\
  ((exists v w, In v (column m j) /\ In w (column m j) /\ v <> w) ->
     rsum (map (fun v => (v * v)%R) c) = INR (List.length m)) /\
  ((forall v w, In v (column m j) -> In w (column m j) -> v = w) -> Forall (fun v => v = 0%R) c) /\
  (exists a b, (0 < a)%R /\ c = map (fun v => (a * v + b)%R) (column m j)).
Proof.
  intros Hr Hm Hj c. subst c. rewrite (column_scaler d) by assumption.
  pose proof (column_nonnil m j Hm) as Hc.
  pose proof (column_length m j) as Hlen.
  set (l := column m j) in *.
  pose proof (column_scale_pos l) as Hsp.
  split; [|split; [|split]].
  - transitivity (rsum (map (fun v => (/ column_scale l * (v - rmean l))%R) l)).
    + f_equal. apply map_ext. intros v. unfold Rdiv. lra.
    + rewrite rsum_scal, rsum_centred by assumption. lra.
  - intros (v & w & Hv & Hw & Hvw). rewrite map_map.
    assert (Hvar : variance l <> 0%R).
    { intros H0. apply variance_zero_constant in H0; [|assumption].
      rewrite Forall_forall in H0. apply H0 in Hv. apply H0 in Hw. congruence. }
    transitivity (rsum (map (fun v => (/ variance l * ((v - rmean l) * (v - rmean l)))%R) l)).
    + f_equal. apply map_ext. intros u. unfold column_scale.
      destruct (Req_EM_T (variance l) 0) as [|_]; [contradiction|].
      pose proof (variance_nonneg l) as Hnn.
      rewrite <- (sqrt_sqrt (variance l) Hnn) at 3.
      assert (sqrt (variance l) <> 0%R) by (intros H0; apply sqrt_eq_0 in H0; lra).
      field. assumption.
    + rewrite rsum_scal.
      assert (Hs : rsum (map (fun v => ((v - rmean l) * (v - rmean l))%R) l)
                   = (variance l * INR (List.length m))%R).
      { unfold variance. unfold rmean at 3. rewrite map_length, Hlen.
        pose proof (INR_length_pos m Hm). field. lra. }
      rewrite Hs. field. assumption.
  - intros Hconst. apply Forall_map, Forall_forall. intros v Hv.
    rewrite (constant_mean l v Hc).
    + unfold Rdiv. lra.
    + apply Forall_forall. intros w Hw. auto.
  - exists (/ column_scale l)%R, (- rmean l / column_scale l)%R. split.
    + now apply Rinv_0_lt_compat.
    + apply map_ext. intros v. unfold Rdiv. lra.
Qed.

(** *** The heap *)
Lemma heap_write_length h r m : List.length (heap_write h r m) = List.length h.
Proof. revert r; induction h as [|a h IH]; intros [|r]; simpl; auto. Qed.

Lemma heap_read_write_eq h r m : (r < List.length h)%nat -> heap_read (heap_write h r m) r = m.
Proof.
  unfold heap_read. revert r; induction h as [|a h IH]; intros [|r] H; simpl in *; auto; try lia.
  apply IH. lia.
Qed.

Lemma heap_read_write_neq h r r' m : r <> r' -> heap_read (heap_write h r m) r' = heap_read h r'.
Proof.
  unfold heap_read. revert r r'; induction h as [|a h IH]; intros [|r] [|r'] H; simpl in *; auto; try lia.
Qed.

Lemma heap_read_app1 h1 h2 r : (r < List.length h1)%nat -> heap_read (h1 ++ h2) r = heap_read h1 r.
Proof. intros. unfold heap_read. now apply app_nth1. Qed.

Lemma heap_read_last h m : heap_read (h ++ [m]) (List.length h) = m.
Proof. unfold heap_read. rewrite app_nth2, Nat.sub_diag by lia. reflexivity. Qed.

Lemma product_space_init_spec std h x y :
  (x < List.length h)%nat -> (y < List.length h)%nat ->
  let '(h', r) := product_space_init std h x y in
  (forall q, (q < List.length h)%nat -> heap_read h' q = heap_read h q) /\
  match r with
  | Ok s => (List.length h <= ps_x s < List.length h')%nat /\ (List.length h <= ps_y s < List.length h')%nat /\
            ps_x s <> ps_y s /\
            product_space_values std (heap_read h x) (heap_read h y)
            = Ok (heap_read h' (ps_x s), heap_read h' (ps_y s))
  | Err e => product_space_values std (heap_read h x) (heap_read h y) = Err e
  end.
Proof.
  intros Hx Hy. unfold product_space_init, np_array.
  set (n := List.length h).
  set (mx := heap_read h x) in *. set (my := heap_read (h ++ [mx]) y) in *.
  assert (Emy : my = heap_read h y) by (apply heap_read_app1; assumption).
  rewrite <- Emy. rewrite app_length. cbn [List.length]. fold n.
  assert (E1 : heap_read ((h ++ [mx]) ++ [my]) n = mx).
  { rewrite heap_read_app1 by (rewrite app_length; simpl; lia). apply heap_read_last. }
  assert (E2 : heap_read ((h ++ [mx]) ++ [my]) (n + 1)%nat = my).
  { replace (n + 1)%nat with (List.length (h ++ [mx])) by (rewrite app_length; reflexivity).
    apply heap_read_last. }
  rewrite E1, E2. unfold product_space_values.
  assert (Hold : forall q, (q < n)%nat -> heap_read ((h ++ [mx]) ++ [my]) q = heap_read h q).
  { intros q Hq. rewrite !heap_read_app1; auto. rewrite app_length; simpl; lia. }
  destruct (Nat.eqb_spec (List.length mx) (List.length my)) as [Hl|Hl]; cbn [negb];
    [|split; [exact Hold|reflexivity]].
  destruct std.
  2:{ split; [exact Hold|]. cbn [ps_x ps_y]. rewrite !app_length. simpl.
      split; [fold n; lia|]. split; [fold n; lia|]. split; [lia|]. now rewrite E1, E2. }
  unfold fit_transform_inplace. rewrite E1.
  destruct (standard_scaler mx) as [mx'|e] eqn:Ex; [|split; [exact Hold|reflexivity]].
  cbn [bind].
  assert (E3 : heap_read (heap_write ((h ++ [mx]) ++ [my]) n mx') (n + 1)%nat = my).
  { rewrite heap_read_write_neq by lia. exact E2. }
  rewrite E3.
  destruct (standard_scaler my) as [my'|e] eqn:Ey.
  2:{ split; [|reflexivity]. intros q Hq. rewrite heap_read_write_neq by lia. auto. }
  split.
  - intros q Hq. rewrite !heap_read_write_neq by lia. auto.
  - cbn [ps_x ps_y]. rewrite !heap_write_length, !app_length. simpl. fold n.
    split; [lia|]. split; [lia|]. split; [lia|].
    rewrite heap_read_write_eq by (rewrite heap_write_length, !app_length; simpl; fold n; lia).
    rewrite heap_read_write_neq by lia.
    rewrite heap_read_write_eq by (rewrite !app_length; simpl; fold n; lia).
    reflexivity.
Qed.

(** *** Indexing *)
Lemma hstack_length a b : List.length a = List.length b -> List.length (hstack a b) = List.length a.
Proof. intros H. unfold hstack. rewrite map_length, combine_length. lia. Qed.

Lemma hstack_rect da db a b :
  rectangular da a -> rectangular db b -> rectangular (da + db) (hstack a b).
Proof.
  intros Ha Hb. unfold hstack. apply Forall_map, Forall_forall. intros [r1 r2] Hin.
  unfold rectangular in *. rewrite Forall_forall in Ha, Hb.
  simpl. rewrite app_length. f_equal.
  - apply Ha. eapply in_combine_l; eauto.
  - apply Hb. eapply in_combine_r; eauto.
Qed.

Lemma nth_error_hstack a b i :
  List.length a = List.length b ->
  nth_error (hstack a b) i =
  match nth_error a i, nth_error b i with
  | Some r1, Some r2 => Some (r1 ++ r2)
  | _, _ => None
  end.
Proof.
  unfold hstack. revert b i; induction a as [|r a IH]; intros [|s b] i H; simpl in *; try discriminate.
  - now destruct i.
  - destruct i; simpl; auto.
Qed.

Lemma py_index_hstack a b i :
  List.length a = List.length b ->
  py_index (hstack a b) i = (do r <- py_index a i; do s <- py_index b i; Ok (r ++ s)).
Proof.
  intros H. unfold py_index. unfold zlen. rewrite hstack_length by assumption. rewrite <- H.
  destruct (_ <? 0); [reflexivity|]. rewrite nth_error_hstack by assumption.
  destruct (nth_error a _) eqn:E1; destruct (nth_error b _) eqn:E2; auto.
Qed.

Lemma py_slice_hstack a b i j :
  List.length a = List.length b -> py_slice (hstack a b) i j = hstack (py_slice a i j) (py_slice b i j).
Proof.
  intros H. unfold py_slice, zlen. rewrite hstack_length by assumption. rewrite <- H.
  unfold hstack. rewrite skipn_map, firstn_map. f_equal.
  rewrite <- combine_firstn. f_equal.
  generalize (Z.to_nat (py_clamp (Z.of_nat (List.length a)) i)) as k. clear i j.
  revert b H; induction a as [|r a IH]; intros [|s b] H k; simpl in *; try discriminate.
  - now rewrite !skipn_nil.
  - destruct k; simpl; auto.
Qed.

(** *** Change of units *)
Lemma affine_rows_rect d a b m : rectangular d m -> rectangular d (affine_rows a b m).
Proof.
  intros H. apply Forall_map. eapply Forall_impl; [|exact H]. cbv beta. intros row Hr.
  now rewrite map_length, seq_length.
Qed.

Lemma affine_rows_nonnil a b m : m <> [] -> affine_rows a b m <> [].
Proof. destruct m; [congruence|discriminate]. Qed.

Lemma column_affine d a b m j :
  rectangular d m -> (j < d)%nat ->
  column (affine_rows a b m) j = map (fun v => (a j * v + b j)%R) (column m j).
Proof.
  intros H Hj. unfold column, affine_rows. rewrite !map_map. apply map_ext_in. intros row Hrow.
  unfold rectangular in H. rewrite Forall_forall in H. apply H in Hrow.
  rewrite nth_map_seq by lia. reflexivity.
Qed.

Lemma rmean_affine a b l : l <> [] -> rmean (map (fun v => (a * v + b)%R) l) = (a * rmean l + b)%R.
Proof.
  intros Hl. unfold rmean. rewrite map_length, rsum_plus, rsum_const, rsum_scal, map_id.
  pose proof (INR_length_pos l Hl). field. lra.
Qed.

Lemma variance_affine a b l : l <> [] -> variance (map (fun v => (a * v + b)%R) l) = (a * a * variance l)%R.
Proof.
  intros Hl. unfold variance. rewrite rmean_affine by assumption. rewrite map_map.
  transitivity (rmean (map (fun v => (a * a * v + 0)%R) (map (fun v => ((v - rmean l) * (v - rmean l))%R) l))).
  - f_equal. rewrite map_map. apply map_ext. intros v. lra.
  - rewrite rmean_affine; [lra|]. destruct l; [congruence|discriminate].
Qed.

Lemma column_scale_affine a b l :
  l <> [] -> (0 < a)%R -> variance l <> 0%R ->
  column_scale (map (fun v => (a * v + b)%R) l) = (a * column_scale l)%R.
Proof.
  intros Hl Ha Hv. unfold column_scale. rewrite variance_affine by assumption.
  destruct (Req_EM_T (variance l) 0); [contradiction|].
  destruct (Req_EM_T (a * a * variance l) 0) as [E|_].
  - exfalso. pose proof (variance_nonneg l). assert (0 < variance l)%R by lra.
    assert (0 < a * a * variance l)%R by (apply Rmult_lt_0_compat; nra). lra.
  - rewrite sqrt_mult by (nra || apply variance_nonneg). now rewrite sqrt_square by lra.
Qed.

Lemma scaler_affine d a b m :
  rectangular d m -> m <> [] -> (forall j, (j < d)%nat -> (0 < a j)%R) ->
  scaler_transform (affine_rows a b m) = scaler_transform m.
Proof.
  intros Hr Hm Ha. unfold scaler_transform.
  rewrite (ncols_rect d (affine_rows a b m)) by auto using affine_rows_rect, affine_rows_nonnil.
  rewrite (ncols_rect d m) by assumption.
  transitivity (map (fun row => map (fun j : nat =>
     ((a j * nth j row 0 + b j - rmean (column (affine_rows a b m) j)) / column_scale (column (affine_rows a b m) j))%R)
       (seq 0 d)) m).
  - unfold affine_rows at 3. rewrite map_map. apply map_ext_in. intros row Hrow.
    apply map_ext_in. intros j Hj. apply in_seq in Hj.
    unfold rectangular in Hr. rewrite Forall_forall in Hr. apply Hr in Hrow.
    rewrite nth_map_seq by lia. reflexivity.
  - apply map_ext_in. intros row Hrow. apply map_ext_in. intros j Hj. apply in_seq in Hj.
    rewrite (column_affine d) by (auto; lia).
    assert (Hc := column_nonnil m j Hm).
    assert (Haj : (0 < a j)%R) by (apply Ha; lia).
    rewrite rmean_affine by assumption.
    destruct (Req_EM_T (variance (column m j)) 0) as [E|E].
    + apply variance_zero_constant in E; [|assumption]. rewrite Forall_forall in E.
      rewrite <- (E (nth j row 0%R)).
      * unfold Rdiv. lra.
      * unfold column. apply in_map_iff. eauto.
    + rewrite column_scale_affine by assumption.
      pose proof (column_scale_pos (column m j)). field. lra.
Qed.

(** ** The statements in the form used by UtilsProps.v *)
Lemma standardized_columns_full d m j :
  rectangular d m -> m <> [] -> (j < d)%nat ->
  exists out, standard_scaler m = Ok out /\
    List.length out = List.length m /\ rectangular d out /\
    rsum (coords out j) = 0%R /\
    (~ all_equal (coords m j) -> rsum (map (fun v => (v * v)%R) (coords out j)) = INR (List.length m)) /\
    (all_equal (coords m j) -> Forall (fun v => v = 0%R) (coords out j)) /\
    (exists a b, (0 < a)%R /\ coords out j = map (fun v => (a * v + b)%R) (coords m j)).
Proof.
  intros Hr Hm Hj. exists (scaler_transform m).
  destruct (scaler_shape d m Hr Hm) as [Hs1 Hs2].
  destruct (standardized_column d m j Hr Hm Hj) as (H1 & H2 & H3 & H4).
  split; [apply (standard_scaler_ok d); auto; lia|].
  change (coords (scaler_transform m) j) with (column (scaler_transform m) j).
  change (coords m j) with (column m j).
  repeat split; auto.
  intros Hne. apply H2.
  destruct (Classical_Prop.classic
    (exists v w, In v (column m j) /\ In w (column m j) /\ v <> w)) as [He|He]; [exact He|].
  exfalso. apply Hne. intros v w Hv Hw. destruct (Req_EM_T v w) as [|Hd]; auto.
  exfalso. apply He. eauto.
Qed.

Lemma product_space_values_spec std dx dy x y :
  rectangular dx x -> rectangular dy y -> (0 < dx)%nat -> (0 < dy)%nat -> x <> [] ->
  (List.length x <> List.length y -> product_space_values std x y = Err ValueError) /\
  (List.length x = List.length y ->
     exists x' y', product_space_values std x y = Ok (x', y') /\
       (std = false -> x' = x /\ y' = y) /\
       (std = true -> standard_scaler x = Ok x' /\ standard_scaler y = Ok y')).
Proof.
  intros Hx Hy Hdx Hdy Hnx. unfold product_space_values.
  destruct (Nat.eqb_spec (List.length x) (List.length y)) as [Hl|Hl]; cbn [negb]; split;
    intros H; try congruence; try contradiction.
  destruct std.
  - assert (Hny : y <> []) by (intros ->; destruct x; simpl in Hl; congruence).
    rewrite (standard_scaler_ok dx x), (standard_scaler_ok dy y) by assumption.
    cbn [bind]. do 2 eexists. split; [reflexivity|]. split; [discriminate|auto].
  - do 2 eexists. split; [reflexivity|]. split; [auto|discriminate].
Qed.

Lemma getitem_spec h s dx dy :
  let x := heap_read h (ps_x s) in
  let y := heap_read h (ps_y s) in
  List.length x = List.length y -> rectangular dx x -> rectangular dy y ->
  List.length (space_xy h s) = List.length x /\
  space_len h s = zlen x /\
  rectangular (dx + dy) (space_xy h s) /\
  (forall i r1 r2, nth_error x i = Some r1 -> nth_error y i = Some r2 ->
     nth_error (space_xy h s) i = Some (r1 ++ r2)) /\
  (forall i, space_getitem_int h s i = py_index (space_xy h s) i) /\
  (forall a b, space_getitem_slice h s a b = py_slice (space_xy h s) a b).
Proof.
  intros x y Hl Hx Hy. unfold space_xy, space_getitem_int, space_getitem_slice. fold x y.
  split; [now apply hstack_length|]. split; [reflexivity|].
  split; [now apply hstack_rect|].
  split; [|split].
  - intros i r1 r2 H1 H2. rewrite nth_error_hstack by assumption. now rewrite H1, H2.
  - intros i. now rewrite py_index_hstack.
  - intros a b. now rewrite py_slice_hstack.
Qed.

Lemma units_do_not_matter d a b m :
  rectangular d m -> m <> [] -> (0 < d)%nat -> (forall j, (j < d)%nat -> (0 < a j)%R) ->
  standard_scaler (affine_rows a b m) = standard_scaler m.
Proof.
  intros Hr Hm Hd Ha.
  rewrite !(standard_scaler_ok d) by auto using affine_rows_rect, affine_rows_nonnil.
  now rewrite (scaler_affine d).
Qed.

Lemma product_space_units dx dy a b a' b' x y :
  rectangular dx x -> rectangular dy y -> x <> [] -> y <> [] -> (0 < dx)%nat -> (0 < dy)%nat ->
  (forall j, (j < dx)%nat -> (0 < a j)%R) -> (forall j, (j < dy)%nat -> (0 < a' j)%R) ->
  product_space_values true (affine_rows a b x) (affine_rows a' b' y) = product_space_values true x y.
Proof.
  intros. unfold product_space_values.
  rewrite (units_do_not_matter dx), (units_do_not_matter dy) by assumption.
  unfold affine_rows. rewrite !map_length. reflexivity.
Qed.

Lemma add_noise_spec noise d points std seed :
  rectangular d points -> points <> [] ->
  List.length (noise seed std (List.length points) d) = List.length points -> rectangular d (noise seed std (List.length points) d) ->
  let out := add_noise noise points std seed in
  List.length out = List.length points /\ rectangular d out /\
  forall i j, (i < List.length points)%nat -> (j < d)%nat ->
    (nth j (nth i out []) 0 = nth j (nth i points []) 0 + nth j (nth i (noise seed std (List.length points) d) []) 0)%R.
Proof.
  intros Hp Hne Hl Hr. cbn zeta. unfold add_noise. rewrite (ncols_rect d points Hp Hne).
  generalize dependent (noise seed std (List.length points) d). intros ns Hl Hr. clear Hne.
  revert ns Hl Hr. induction Hp as [|p points Hp Hps IH]; intros [|q ns] Hl Hr; cbn in Hl; try discriminate.
  - cbn. repeat split; [constructor|]. intros; lia.
  - inversion Hr as [|? ? Hq Hr']; subst. destruct (IH ns ltac:(lia) Hr') as (H1 & H2 & H3).
    cbn [combine map fst snd]. split; [cbn; rewrite H1; reflexivity|]. split.
    + constructor; [rewrite map_length, combine_length; lia|exact H2].
    + intros [|i] j Hi Hj; cbn [nth]; [|apply H3; cbn in Hi; lia].
      clear -Hq Hj. revert q Hq j Hj. induction p as [|a p IH]; intros [|b q] Hq j Hj; cbn in *; try lia.
      destruct j as [|j]; [reflexivity|]. apply IH; lia.
Qed.

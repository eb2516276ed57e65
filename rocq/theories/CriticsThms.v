(** Grids, critics and integration. *)
From Verif Require Import Base UtilsModel JaxModel SamplersModel BmmModel ObjectivesModel ObjectivesSpec ObjectivesProofs CriticsModel CriticsSpec BaseLemmas.
Open Scope R_scope.
Local Notation length := List.length.

Lemma linspace_ticks lo hi n : (0 < n)%nat -> linspace lo hi (Z.of_nat n) = Ok (map (tick lo hi n) (seq 0 n)).
Proof.
  intros Hn. unfold linspace. replace (Z.of_nat n <? 0)%Z with false by (symmetry; apply Z.ltb_ge; lia).
  rewrite Nat2Z.id. f_equal. apply map_ext. intros i. unfold tick. rewrite minus_IZR, <- INR_IZR_INZ. reflexivity.
Qed.

Lemma map_results_all {A B} (f : A -> result B) (g : A -> B) l : (forall a, In a l -> f a = Ok (g a)) -> map_results f l = Ok (map g l).
Proof.
  induction l as [|a l IH]; intros H; [reflexivity|]. cbn. rewrite (H a (or_introl eq_refl)), IH; [reflexivity|].
  intros b Hb. apply H. right. exact Hb.
Qed.

Lemma combine_maps {A B C} (f : A -> B) (g : A -> C) l : combine (map f l) (map g l) = map (fun a => (f a, g a)) l.
Proof. induction l as [|a l IH]; [reflexivity|]. cbn. f_equal. exact IH. Qed.

Lemma nth_error_seq n i : (i < n)%nat -> nth_error (seq 0 n) i = Some i.
Proof.
  intros H. rewrite (nth_error_nth' _ 0%nat) by (rewrite seq_length; exact H). rewrite seq_nth by exact H. reflexivity.
Qed.

Lemma grid_of {V} (fn : matrix -> matrix -> result (list V)) (f : list R -> list R -> V) xr yr n : (0 < n)%nat ->
  (forall xs ys, length xs = length ys -> fn xs ys = Ok (map (fun p => f (fst p) (snd p)) (combine xs ys))) ->
  exists g, make_grid fn xr yr (Z.of_nat n) = Ok g /\
    table_of g n (fun i j => f [tick (fst xr) (snd xr) n i] [tick (fst (or_else yr xr)) (snd (or_else yr xr)) n j]).
Proof.
  intros Hn Hf. unfold make_grid. rewrite !linspace_ticks by exact Hn. cbn [bind].
  set (yt := tick (fst (or_else yr xr)) (snd (or_else yr xr)) n). set (xt := tick (fst xr) (snd xr) n).
  rewrite combine_maps, map_map. eexists. split.
  - apply (map_results_all _ (fun r => map (fun p => f (fst p) (snd p)) (combine (fst r) (snd r)))).
    intros [a b] H. apply in_map_iff in H. destruct H as (x & E & _). injection E as <- <-.
    apply Hf. cbn. rewrite !map_length. reflexivity.
  - rewrite map_map. cbn [fst snd]. split.
    + rewrite map_length, seq_length. reflexivity.
    + apply Forall_forall. intros row H. apply in_map_iff in H. destruct H as (i & <- & _).
      rewrite combine_maps, !map_length, seq_length. reflexivity.
    + intros i j Hi Hj. eexists. split; [rewrite (map_nth_error _ _ _ (nth_error_seq n i Hi)); reflexivity|].
      rewrite combine_maps, !map_map. rewrite (map_nth_error _ _ _ (nth_error_seq n j Hj)). reflexivity.
Qed.

Lemma grid_negative {V} (fn : matrix -> matrix -> result (list V)) xr yr n : (n < 0)%Z -> make_grid fn xr yr n = Err ValueError.
Proof. intros H. unfold make_grid, linspace. replace (n <? 0)%Z with true by (symmetry; apply Z.ltb_lt; exact H). reflexivity. Qed.

Lemma pdf_grid {J} (d : joint_distribution J) xr yr n : (0 < n)%nat -> exists g, grid_sampler_pdf d xr yr (Z.of_nat n) = Ok g /\
  table_of g n (fun i j => fl_exp (log_prob (dist_joint d)
    [tick (fst xr) (snd xr) n i; tick (fst (or_else yr xr)) (snd (or_else yr xr)) n j])).
Proof. intros Hn. apply (grid_of _ (fun x y => fl_exp (log_prob (dist_joint d) (x ++ y)))); [exact Hn|]. reflexivity. Qed.
Lemma pmi_grid {J} (d : joint_distribution J) xr yr n : (0 < n)%nat -> exists g, grid_sampler_pmi d xr yr (Z.of_nat n) = Ok g /\
  table_of g n (fun i j => point_pmi d [tick (fst xr) (snd xr) n i] [tick (fst (or_else yr xr)) (snd (or_else yr xr)) n j]).
Proof.
  intros Hn. apply grid_of; [exact Hn|]. intros xs ys H. unfold jd_pmi. rewrite H, Nat.eqb_refl. reflexivity.
Qed.
Lemma critic_grid f xr yr n : (0 < n)%nat -> exists g, grid_critic (Some f) xr yr (Z.of_nat n) = Ok g /\
  table_of g n (fun i j => f [tick (fst xr) (snd xr) n i] [tick (fst (or_else yr xr)) (snd (or_else yr xr)) n j]).
Proof. intros Hn. apply (grid_of _ f); [exact Hn|]. reflexivity. Qed.

(** ** Pictures *)
Lemma transposed_at {V} (g : list (list V)) n f : (0 < n)%nat -> table_of g n f -> table_of (transposed g) n (fun i j => f j i).
Proof.
  intros Hn [Hr Hc Ha]. unfold transposed.
  assert (Hh : length (hd [] g) = n).
  { destruct g as [|r g]; [cbn in Hr; lia|]. inversion Hc; assumption. }
  rewrite Hh.
  assert (Hf : forall j, (j < n)%nat -> flat_map (fun row => match nth_error row j with Some v => [v] | None => [] end) g = map (fun i => f i j) (seq 0 n)).
  { intros j Hj. rewrite <- Hr in *. clear Hh Hn.
    enough (H : forall k (h : list (list V)), (forall i, (i < length h)%nat -> exists row, nth_error h i = Some row /\ nth_error row j = Some (f (k + i)%nat j)) ->
      flat_map (fun row => match nth_error row j with Some v => [v] | None => [] end) h = map (fun i => f i j) (seq k (length h))).
    { apply H. intros i Hi. apply Ha; assumption. }
    intros k h. revert k. induction h as [|r h IH]; intros k H; [reflexivity|]. cbn.
    destruct (H 0%nat) as (row & E1 & E2); [cbn; lia|]. cbn in E1. injection E1 as <-. rewrite E2, Nat.add_0_r. cbn. f_equal.
    apply IH. intros i Hi. destruct (H (S i)) as (row & E1 & E3); [cbn; lia|]. exists row. split; [exact E1|].
    rewrite <- Nat.add_succ_comm in E3. exact E3. }
  split.
  - rewrite map_length, seq_length. reflexivity.
  - apply Forall_forall. intros row H. apply in_map_iff in H. destruct H as (j & <- & Hj). apply in_seq in Hj.
    rewrite Hf by lia. rewrite map_length, seq_length. reflexivity.
  - intros i j Hi Hj. eexists. split; [rewrite (map_nth_error _ _ _ (nth_error_seq n i Hi)); reflexivity|].
    rewrite Hf by exact Hi. rewrite (map_nth_error _ _ _ (nth_error_seq n j Hj)). reflexivity.
Qed.

Lemma tick_in_cell lo hi n i : (2 <= n)%nat -> (i < n)%nat -> lo <= hi -> in_cell (lo, hi) n i (tick lo hi n i).
Proof.
  intros Hn Hi Hl. unfold in_cell, tick. cbn [fst snd]. rewrite S_INR.
  assert (N : 2 <= INR n) by (apply (le_INR 2); exact Hn).
  assert (I : INR i <= INR n - 1).
  { enough (INR i + 1 <= INR n) by lra. rewrite <- S_INR. apply le_INR. lia. }
  assert (I0 : 0 <= INR i) by apply pos_INR.
  set (a := INR i) in *. set (m := INR n) in *. clearbody a m.
  assert (E1 : a / m <= a / (m - 1)).
  { unfold Rdiv. apply Rmult_le_compat_l; [exact I0|]. apply Rinv_le_contravar; lra. }
  assert (E2 : a / (m - 1) <= (a + 1) / m).
  { apply (Rmult_le_reg_r (m * (m - 1))); [apply Rmult_lt_0_compat; lra|].
    replace (a / (m - 1) * (m * (m - 1))) with (a * m) by (field; lra).
    replace ((a + 1) / m * (m * (m - 1))) with ((a + 1) * (m - 1)) by (field; lra). lra. }
  replace (a * ((hi - lo) / (m - 1))) with ((hi - lo) * (a / (m - 1))) by (field; lra).
  split; apply Rplus_le_compat_l, Rmult_le_compat_l; lra.
Qed.

Lemma table_drawn {V} (g : list (list V)) n f xr yr i j : (2 <= n)%nat -> fst xr <= snd xr -> fst yr <= snd yr ->
  table_of g n (fun i j => f j i) -> (i < n)%nat -> (j < n)%nat ->
  drawn_at {| pic_rows := g; pic_extent := Some (xr, yr) |} (tick (fst xr) (snd xr) n i) (tick (fst yr) (snd yr) n j) (f i j).
Proof.
  intros Hn Hx Hy [Hr Hc Ha] Hi Hj. destruct (Ha j i Hj Hi) as (row & E1 & E2).
  exists xr, yr, j, i, row. cbn [pic_rows pic_extent]. repeat split; try assumption.
  1,2: rewrite (proj1 (Forall_forall _ _) Hc row (nth_error_In _ _ E1)); destruct xr as [a b]; apply (tick_in_cell a b n i Hn Hi Hx).
  1,2: rewrite Hr; destruct yr as [a b]; apply (tick_in_cell a b n j Hn Hj Hy).
Qed.

Lemma plot_drawn {V} (g : list (list V)) n f xr yr : (2 <= n)%nat -> fst xr <= snd xr -> fst (or_else yr xr) <= snd (or_else yr xr) ->
  table_of g n f -> exists p, plot_grid g (Some xr) yr = Ok p /\
    forall i j, (i < n)%nat -> (j < n)%nat ->
      drawn_at p (tick (fst xr) (snd xr) n i) (tick (fst (or_else yr xr)) (snd (or_else yr xr)) n j) (f i j).
Proof.
  intros Hn Hx Hy Ht. exists {| pic_rows := transposed g; pic_extent := Some (xr, or_else yr xr) |}.
  split; [destruct yr; reflexivity|]. intros i j Hi Hj. apply table_drawn; try assumption. apply transposed_at; [lia|exact Ht].
Qed.

Lemma reshape_rows {V} (rows : list (list V)) cols : Forall (fun r => length r = cols) rows -> reshape (concat rows) (length rows) cols = rows.
Proof.
  induction rows as [|r rows IH]; intros H; [reflexivity|]. inversion H as [|a b Ha Hb]; subst. cbn. f_equal.
  - rewrite firstn_app, firstn_all, Nat.sub_diag. cbn. apply app_nil_r.
  - rewrite skipn_app, skipn_all, Nat.sub_diag. cbn. apply IH. exact Hb.
Qed.

Lemma combine_concat {A B} (a : list (list A)) (b : list (list B)) : Forall2 (fun x y => length x = length y) a b ->
  combine (concat a) (concat b) = concat (map (fun p => combine (fst p) (snd p)) (combine a b)).
Proof.
  induction 1 as [|x y a b H _ IH]; [reflexivity|]. cbn. rewrite <- IH. clear IH. revert y H.
  induction x as [|u x IHx]; intros [|v y] H; try discriminate; [reflexivity|]. cbn. f_equal. apply IHx. injection H as H. exact H.
Qed.

Lemma pmi_picture_drawn {J} (d : joint_distribution J) lo hi n : (2 <= n)%nat -> lo <= hi ->
  exists p, pmi_picture d lo hi (Z.of_nat n) = Ok p /\
    forall i j, (i < n)%nat -> (j < n)%nat -> drawn_at p (tick lo hi n i) (tick lo hi n j) (point_pmi d [tick lo hi n i] [tick lo hi n j]).
Proof.
  intros Hn Hl. unfold pmi_picture. rewrite !linspace_ticks by lia. cbn [bind meshgrid]. set (t := tick lo hi n). set (xs := map t (seq 0 n)).
  assert (Lx : length xs = n) by (unfold xs; rewrite map_length, seq_length; reflexivity).
  set (X := map (fun _ => xs) xs). set (Y := map (fun v => map (fun _ => v) xs) xs).
  assert (E : jd_pmi d (map (fun v => [v]) (concat X)) (map (fun v => [v]) (concat Y)) =
    Ok (concat (map (fun y => map (fun x => point_pmi d [x] [y]) xs) xs))).
  { unfold jd_pmi. rewrite !map_length.
    assert (F2 : Forall2 (fun x y : list R => length x = length y) X Y).
    { unfold X, Y. generalize xs at 2 4 as l. induction l as [|a l IH]; [constructor|]. cbn. constructor; [rewrite map_length; reflexivity|exact IH]. }
    assert (L : length (concat X) = length (concat Y)).
    { clear - F2. induction F2 as [|x y a b H _ IH]; [reflexivity|]. cbn. rewrite !app_length, H, IH. reflexivity. }
    rewrite L, Nat.eqb_refl. cbn [negb]. f_equal.
    assert (C : forall (f : R -> list R) a b, combine (map f a) (map f b) = map (fun p => (f (fst p), f (snd p))) (combine a b)).
    { intros f a. induction a as [|u a IH]; intros [|v b]; try reflexivity. cbn. f_equal. apply IH. }
    rewrite C, map_map, (combine_concat _ _ F2), concat_map, map_map. f_equal.
    unfold X, Y. rewrite combine_maps, map_map. apply map_ext. intros y. cbn [fst snd].
    rewrite <- (map_id xs) at 1. rewrite combine_maps, map_map. apply map_ext. intros x. reflexivity. }
  rewrite E. cbn [bind]. eexists. split; [reflexivity|]. intros i j Hi Hj.
  assert (HX : length X = n) by (unfold X; rewrite map_length; exact Lx).
  assert (HH : length (hd [] X) = n).
  { unfold X. destruct xs as [|a l] eqn:Ex; [cbn in Lx; lia|]. cbn [map hd]. exact Lx. }
  rewrite HX, HH.
  replace (reshape (concat (map (fun y => map (fun x => point_pmi d [x] [y]) xs) xs)) n n)
    with (map (fun y => map (fun x => point_pmi d [x] [y]) xs) xs).
  2:{ symmetry. set (m := map _ xs). replace n with (length m) at 1 by (unfold m; rewrite map_length; exact Lx).
      apply reshape_rows. apply Forall_forall. intros r H. apply in_map_iff in H. destruct H as (y & <- & _). rewrite map_length. exact Lx. }
  apply (table_drawn _ n (fun i j => point_pmi d [t i] [t j]) (lo, hi) (lo, hi)); try assumption. split.
  - rewrite map_length. exact Lx.
  - apply Forall_forall. intros r H. apply in_map_iff in H. destruct H as (y & <- & _). rewrite map_length. exact Lx.
  - assert (Hx : forall a, (a < n)%nat -> nth_error xs a = Some (t a)) by (intros a Ha; apply map_nth_error, nth_error_seq, Ha).
    intros a b Ha Hb. eexists. split; [apply map_nth_error, Hx, Ha|]. rewrite (map_nth_error _ _ _ (Hx b Hb)). reflexivity.
Qed.

(** ** Degrees of freedom *)
Lemma concat_finite m : concat (finite m) = map Fin (concat m).
Proof. unfold finite. symmetry. apply concat_map. Qed.

Lemma concat_nonnil {V} (m : list (list V)) rows cols : (0 < rows)%nat -> (0 < cols)%nat -> rectangular m rows cols -> concat m <> [].
Proof.
  intros Hr Hc [L F] E. destruct m as [|r m]; [cbn in L; lia|]. inversion F as [|a b Ha Hb]; subst.
  destruct r; [cbn in Hc; lia|discriminate].
Qed.

Lemma rsum_add_const l c : rsum (map (fun v => v + c) l) = rsum l + INR (length l) * c.
Proof.
  induction l as [|a l IH]; [cbn; ring|]. change (length (a :: l)) with (S (length l)). rewrite S_INR.
  unfold rsum in *. cbn [map fold_right]. rewrite IH. ring.
Qed.

Lemma rsum_centred l : l <> [] -> rsum (map (fun v => v - rmean l) l) = 0.
Proof.
  intros H. unfold Rminus. rewrite rsum_add_const. unfold rmean.
  assert (INR (length l) <> 0) by (apply not_0_INR; destruct l; [congruence|discriminate]). field. assumption.
Qed.

Lemma rect_ext (a b : list (list R)) rows cols : rectangular a rows cols -> rectangular b rows cols ->
  (forall i j, (i < rows)%nat -> (j < cols)%nat -> at_ a i j = at_ b i j) -> a = b.
Proof.
  intros [La Fa] [Lb Fb] H. apply (nth_ext _ _ [] []); [congruence|]. intros i Hi.
  rewrite Forall_forall in Fa, Fb.
  assert (Ea : length (nth i a []) = cols) by (apply Fa, nth_In; exact Hi).
  assert (Eb : length (nth i b []) = cols) by (apply Fb, nth_In; lia).
  apply (nth_ext _ _ 0 0); [congruence|]. intros j Hj. apply H; lia.
Qed.

Lemma finite_inj a b : finite a = finite b -> a = b.
Proof.
  assert (I : forall x y : list R, map Fin x = map Fin y -> x = y).
  { induction x as [|u x IH]; intros [|v y] E; try discriminate; [reflexivity|]. injection E as -> E. f_equal. apply IH, E. }
  revert b. induction a as [|x a IH]; intros [|y b] E; try discriminate; [reflexivity|]. injection E as E1 E2. f_equal; [apply I, E1|apply IH, E2].
Qed.

Lemma rect_map (h : list R -> R -> R) m rows cols : rectangular m rows cols -> rectangular (map (fun r => map (h r) r) m) rows cols.
Proof.
  intros [L F]. split; [rewrite map_length; exact L|]. apply Forall_forall. intros r H. apply in_map_iff in H.
  destruct H as (x & <- & Hx). rewrite map_length. rewrite Forall_forall in F. apply F, Hx.
Qed.

Lemma at_map' (h : list R -> R -> R) m i j rows cols : rectangular m rows cols -> (i < rows)%nat -> (j < cols)%nat ->
  at_ (map (fun r => map (h r) r) m) i j = h (nth i m []) (at_ m i j).
Proof.
  intros [L F] Hi Hj. unfold at_. rewrite (nth_indep _ [] (map (h []) [])) by (rewrite map_length; lia).
  rewrite (map_nth (fun r => map (h r) r)). rewrite (nth_indep _ 0 (h (nth i m []) 0)); [apply map_nth|].
  rewrite map_length. rewrite Forall_forall in F. rewrite F; [exact Hj|apply nth_In; lia].
Qed.

Lemma dv_dofs m rows cols : (0 < rows)%nat -> (0 < cols)%nat -> rectangular m rows cols ->
  exists m', remove_dv_dofs (Array2 (finite m)) = Ok (finite m') /\ rectangular m' rows cols /\ rsum (concat m') = 0 /\
    forall i j, (i < rows)%nat -> (j < cols)%nat -> at_ m' i j = at_ m i j - rmean (concat m).
Proof.
  intros Hr Hc R0. assert (N := concat_nonnil m rows cols Hr Hc R0).
  exists (map (fun r => map (fun v => v - rmean (concat m)) r) m). split; [|split; [|split]].
  - cbn. rewrite concat_finite, ObjectivesProofs.fl_mean_Fin by exact N. f_equal. unfold finite. rewrite !map_map.
    apply map_ext. intros r. rewrite !map_map. reflexivity.
  - apply (rect_map (fun _ v => v - rmean (concat m)) m rows cols R0).
  - rewrite <- concat_map. apply rsum_centred. exact N.
  - intros i j Hi Hj. apply (at_map' (fun _ v => v - rmean (concat m)) m i j rows cols R0 Hi Hj).
Qed.

Lemma nce_dofs m rows cols : (0 < rows)%nat -> (0 < cols)%nat -> rectangular m rows cols ->
  exists m', remove_nce_dofs (Array2 (finite m)) = Ok (finite m') /\ rectangular m' rows cols /\
    (forall i, (i < rows)%nat -> rsum (nth i m' []) = 0) /\
    forall i j, (i < rows)%nat -> (j < cols)%nat -> at_ m' i j = at_ m i j - rmean (nth i m []).
Proof.
  intros Hr Hc R0. pose proof R0 as [L F]. rewrite Forall_forall in F.
  exists (map (fun r => map (fun v => v - rmean r) r) m). split; [|split; [|split]].
  - cbn. f_equal. unfold finite. rewrite !map_map. apply map_ext_in. intros r Hin. rewrite !map_map.
    rewrite ObjectivesProofs.fl_mean_Fin; [reflexivity|]. intros ->. specialize (F _ Hin). cbn in F. lia.
  - apply (rect_map (fun r v => v - rmean r) m rows cols R0).
  - intros i Hi. rewrite (nth_indep _ [] (map (fun v => v - rmean []) [])) by (rewrite map_length; lia).
    rewrite (map_nth (fun r => map (fun v => v - rmean r) r)). apply rsum_centred. intros E.
    assert (H : length (nth i m []) = cols) by (apply F, nth_In; lia). rewrite E in H. cbn in H. lia.
  - intros i j Hi Hj. apply (at_map' (fun r v => v - rmean r) m i j rows cols R0 Hi Hj).
Qed.

Lemma rmean_shift l c : l <> [] -> rmean (map (fun v => v + c) l) = rmean l + c.
Proof.
  intros H. unfold rmean. rewrite rsum_add_const, map_length.
  assert (INR (length l) <> 0) by (apply not_0_INR; destruct l; [congruence|discriminate]). field. assumption.
Qed.

Lemma dv_dofs_iff a b rows cols : (0 < rows)%nat -> (0 < cols)%nat -> rectangular a rows cols -> rectangular b rows cols ->
  (remove_dv_dofs (Array2 (finite a)) = remove_dv_dofs (Array2 (finite b)) <->
   exists c, forall i j, (i < rows)%nat -> (j < cols)%nat -> at_ a i j = at_ b i j + c).
Proof.
  intros Hr Hc Ra Rb. destruct (dv_dofs a rows cols Hr Hc Ra) as (a' & Ea & Ra' & _ & Ha).
  destruct (dv_dofs b rows cols Hr Hc Rb) as (b' & Eb & Rb' & _ & Hb). rewrite Ea, Eb. split.
  - intros E. injection E as E. apply finite_inj in E. subst b'. exists (rmean (concat a) - rmean (concat b)).
    intros i j Hi Hj. specialize (Ha i j Hi Hj). specialize (Hb i j Hi Hj). lra.
  - intros (c & H). do 2 f_equal. apply (rect_ext _ _ rows cols Ra' Rb'). intros i j Hi Hj.
    rewrite Ha, Hb, H by assumption.
    assert (E : a = map (fun r => map (fun v => v + c) r) b).
    { apply (rect_ext _ _ rows cols Ra (rect_map (fun _ v => v + c) b rows cols Rb)). intros i' j' Hi' Hj'.
      rewrite (at_map' (fun _ v => v + c) b i' j' rows cols Rb Hi' Hj'). apply H; assumption. }
    rewrite E, <- concat_map, rmean_shift by (apply (concat_nonnil b rows cols Hr Hc Rb)). ring.
Qed.

Lemma nce_dofs_iff a b rows cols : (0 < rows)%nat -> (0 < cols)%nat -> rectangular a rows cols -> rectangular b rows cols ->
  (remove_nce_dofs (Array2 (finite a)) = remove_nce_dofs (Array2 (finite b)) <->
   exists c, forall i j, (i < rows)%nat -> (j < cols)%nat -> at_ a i j = at_ b i j + c i).
Proof.
  intros Hr Hc Ra Rb. destruct (nce_dofs a rows cols Hr Hc Ra) as (a' & Ea & Ra' & _ & Ha).
  destruct (nce_dofs b rows cols Hr Hc Rb) as (b' & Eb & Rb' & _ & Hb). rewrite Ea, Eb. split.
  - intros E. injection E as E. apply finite_inj in E. subst b'. exists (fun i => rmean (nth i a []) - rmean (nth i b [])).
    intros i j Hi Hj. specialize (Ha i j Hi Hj). specialize (Hb i j Hi Hj). lra.
  - intros (c & H). do 2 f_equal. apply (rect_ext _ _ rows cols Ra' Rb'). intros i j Hi Hj.
    rewrite Ha, Hb, H by assumption. destruct Ra as [La Fa], Rb as [Lb Fb]. rewrite Forall_forall in Fa, Fb.
    assert (E : nth i a [] = map (fun v => v + c i) (nth i b [])).
    { apply (nth_ext _ _ 0 (0 + c i)).
      - rewrite map_length, Fa, Fb; [reflexivity|apply nth_In; lia|apply nth_In; lia].
      - intros k Hk. rewrite (map_nth (fun v => v + c i)). apply H; [exact Hi|]. rewrite Fa in Hk; [exact Hk|apply nth_In; lia]. }
    rewrite E, rmean_shift; [ring|]. intros N.
    assert (L : length (nth i b []) = cols) by (apply Fb, nth_In; lia). rewrite N in L. cbn in L. lia.
Qed.

(** ** Objectives on the points of a grid *)
Lemma combine_map2 {A B C D} (f : A -> C) (g : B -> D) a b : combine (map f a) (map g b) = map (fun p => (f (fst p), g (snd p))) (combine a b).
Proof. revert b. induction a as [|u a IH]; intros [|v b]; try reflexivity. cbn. f_equal. apply IH. Qed.

Lemma mean_paired_map {A B P Q} (f : P -> Q -> R) (a : A -> P) (b : B -> Q) is js :
  mean_paired f (map a is) (map b js) = mean_paired (fun i j => f (a i) (b j)) is js.
Proof. unfold mean_paired. rewrite combine_map2, map_map. reflexivity. Qed.

Lemma indexed_map {A B} (f : A -> B) l : indexed (map f l) = map (fun p => (fst p, f (snd p))) (indexed l).
Proof. unfold indexed. rewrite map_length, <- (map_id (seq 0 (length l))) at 1. apply (combine_map2 (fun i : nat => i) f). Qed.

Lemma mean_exp_map {A B P Q} (f : P -> Q -> R) (a : A -> P) (b : B -> Q) is js :
  mean_exp_unpaired f (map a is) (map b js) = mean_exp_unpaired (fun i j => f (a i) (b j)) is js.
Proof.
  unfold mean_exp_unpaired. rewrite map_length, !indexed_map, map_map. f_equal. f_equal. apply map_ext. intros p.
  rewrite map_map. reflexivity.
Qed.

Lemma infonce_map {A B P Q} (f : P -> Q -> R) (a : A -> P) (b : B -> Q) is js :
  textbook_infonce f (map a is) (map b js) = textbook_infonce (fun i j => f (a i) (b j)) is js.
Proof.
  unfold textbook_infonce. rewrite combine_map2, map_map. f_equal. apply map_ext. intros p. cbn [fst snd]. rewrite map_map. reflexivity.
Qed.

Section Ext.
  Context {P Q : Type}.
  Variables (f g : P -> Q -> R) (xs : list P) (ys : list Q).
  Hypothesis E : forall x y, In x xs -> In y ys -> f x y = g x y.

  Lemma mean_paired_ext : mean_paired f xs ys = mean_paired g xs ys.
  Proof using E.
    unfold mean_paired. f_equal. apply map_ext_in. intros [x y] H. cbn. apply E; [exact (in_combine_l _ _ _ _ H)|exact (in_combine_r _ _ _ _ H)].
  Qed.
  Lemma mean_exp_ext : mean_exp_unpaired f xs ys = mean_exp_unpaired g xs ys.
  Proof using E.
    unfold mean_exp_unpaired. f_equal. f_equal. apply map_ext_in. intros [i x] H. f_equal. apply map_ext_in. intros [j y] H'. cbn.
    destruct (Nat.eqb i j); [reflexivity|]. rewrite E; [reflexivity|exact (in_combine_r _ _ _ _ H)|exact (in_combine_r _ _ _ _ H')].
  Qed.
  Lemma infonce_ext : textbook_infonce f xs ys = textbook_infonce g xs ys.
  Proof using E.
    unfold textbook_infonce. f_equal. apply map_ext_in. intros [x y] H. cbn [fst snd].
    assert (Hx := in_combine_l _ _ _ _ H). assert (Hy := in_combine_r _ _ _ _ H). rewrite E by assumption.
    do 3 f_equal. apply map_ext_in. intros y' Hy'. rewrite E by assumption. reflexivity.
  Qed.
End Ext.

Lemma table_at (g : list (list R)) n f i j : table_of g n f -> (i < n)%nat -> (j < n)%nat -> at_ g i j = f i j.
Proof.
  intros [_ _ H] Hi Hj. destruct (H i j Hi Hj) as (row & E1 & E2). unfold at_.
  rewrite (nth_error_nth g i [] E1). exact (nth_error_nth row j 0 E2).
Qed.
Lemma table_rect {V} (g : list (list V)) n f : table_of g n f -> rectangular g n n.
Proof. intros [H1 H2 _]. split; assumption. Qed.

Section Batches.
  Context {P Q : Type}.
  Variables (f g : P -> Q -> R) (px : nat -> P) (py : nat -> Q) (n : nat) (a b : list (list R)).
  Hypothesis n0 : (0 < n)%nat.
  Hypothesis ta : table_of a n (fun i j => f (px i) (py j)).
  Hypothesis tb : table_of b n (fun i j => g (px i) (py j)).
  Variables is js : list nat.
  Hypothesis two : (2 <= length is)%nat.
  Hypothesis same : length is = length js.
  Hypothesis hi : Forall (fun i => (i < n)%nat) is.
  Hypothesis hj : Forall (fun j => (j < n)%nat) js.

  Lemma same_dv : remove_dv_dofs (Array2 (finite a)) = remove_dv_dofs (Array2 (finite b)) ->
    lin_donsker_varadhan f (map px is) (map py js) = lin_donsker_varadhan g (map px is) (map py js).
  Proof using n0 ta tb two same hi hj.
    intros H. destruct (proj1 (dv_dofs_iff a b n n n0 n0 (table_rect _ _ _ ta) (table_rect _ _ _ tb)) H) as (c & Hc).
    assert (L : (2 <= length (map px is))%nat) by (rewrite map_length; exact two).
    assert (S : length (map px is) = length (map py js)) by (rewrite !map_length; exact same).
    rewrite !dv_textbook by assumption. f_equal. rewrite <- (dv_shift g c _ _ L S). unfold textbook_dv.
    rewrite !mean_paired_map, !mean_exp_map.
    assert (E : forall i j, In i is -> In j js -> f (px i) (py j) = g (px i) (py j) + c).
    { intros i j Hi Hj. rewrite Forall_forall in hi, hj. rewrite <- (table_at a n _ i j ta (hi i Hi) (hj j Hj)), <- (table_at b n _ i j tb (hi i Hi) (hj j Hj)).
      apply Hc; auto. }
    rewrite (mean_paired_ext _ _ is js E), (mean_exp_ext _ _ is js E). reflexivity.
  Qed.

  Lemma same_infonce : remove_nce_dofs (Array2 (finite a)) = remove_nce_dofs (Array2 (finite b)) ->
    lin_infonce f (map px is) (map py js) = lin_infonce g (map px is) (map py js).
  Proof using n0 ta tb two same hi hj.
    intros H. destruct (proj1 (nce_dofs_iff a b n n n0 n0 (table_rect _ _ _ ta) (table_rect _ _ _ tb)) H) as (c & Hc).
    assert (N : map px is <> []) by (destruct is; [cbn in two; lia|discriminate]).
    assert (S : length (map px is) = length (map py js)) by (rewrite !map_length; exact same).
    rewrite !infonce_textbook by assumption. f_equal. rewrite !infonce_map.
    rewrite <- (infonce_x_offset (fun i j => g (px i) (py j)) c is js). apply infonce_ext.
    intros i j Hi Hj. rewrite Forall_forall in hi, hj. rewrite <- (table_at a n _ i j ta (hi i Hi) (hj j Hj)), <- (table_at b n _ i j tb (hi i Hi) (hj j Hj)).
    apply Hc; auto.
  Qed.
End Batches.

Lemma grid_dv f g xr yr n a b is js : (0 < n)%nat -> grid_critic (Some f) xr yr (Z.of_nat n) = Ok a -> grid_critic (Some g) xr yr (Z.of_nat n) = Ok b ->
  remove_dv_dofs (Array2 (finite a)) = remove_dv_dofs (Array2 (finite b)) ->
  (2 <= length is)%nat -> length is = length js -> Forall (fun i => (i < n)%nat) is -> Forall (fun j => (j < n)%nat) js ->
  let xs := map (fun i => [tick (fst xr) (snd xr) n i]) is in
  let ys := map (fun j => [tick (fst (or_else yr xr)) (snd (or_else yr xr)) n j]) js in
  lin_donsker_varadhan f xs ys = lin_donsker_varadhan g xs ys.
Proof.
  intros Hn Ea Eb H L2 L Hi Hj. destruct (critic_grid f xr yr n Hn) as (a' & Ea' & Ta). destruct (critic_grid g xr yr n Hn) as (b' & Eb' & Tb).
  rewrite Ea in Ea'. injection Ea' as <-. rewrite Eb in Eb'. injection Eb' as <-.
  exact (same_dv f g (fun i => [tick (fst xr) (snd xr) n i]) (fun j => [tick (fst (or_else yr xr)) (snd (or_else yr xr)) n j]) n a b Hn Ta Tb is js L2 L Hi Hj H).
Qed.
Lemma grid_infonce f g xr yr n a b is js : (0 < n)%nat -> grid_critic (Some f) xr yr (Z.of_nat n) = Ok a -> grid_critic (Some g) xr yr (Z.of_nat n) = Ok b ->
  remove_nce_dofs (Array2 (finite a)) = remove_nce_dofs (Array2 (finite b)) ->
  (2 <= length is)%nat -> length is = length js -> Forall (fun i => (i < n)%nat) is -> Forall (fun j => (j < n)%nat) js ->
  let xs := map (fun i => [tick (fst xr) (snd xr) n i]) is in
  let ys := map (fun j => [tick (fst (or_else yr xr)) (snd (or_else yr xr)) n j]) js in
  lin_infonce f xs ys = lin_infonce g xs ys.
Proof.
  intros Hn Ea Eb H L2 L Hi Hj. destruct (critic_grid f xr yr n Hn) as (a' & Ea' & Ta). destruct (critic_grid g xr yr n Hn) as (b' & Eb' & Tb).
  rewrite Ea in Ea'. injection Ea' as <-. rewrite Eb in Eb'. injection Eb' as <-.
  exact (same_infonce f g (fun i => [tick (fst xr) (snd xr) n i]) (fun j => [tick (fst (or_else yr xr)) (snd (or_else yr xr)) n j]) n a b Hn Ta Tb is js L2 L Hi Hj H).
Qed.

(** ** Integration with a known pointwise mutual information *)
Section Integration.
  Context {P Q : Type}.
  Implicit Types (f : P -> Q -> R) (xs : list P) (ys : list Q).

  Lemma mc_value f xs ys : xs <> [] -> length xs = length ys -> monte_carlo f xs ys = Ok (Fin (mean_paired f xs ys)).
  Proof.
    intros N L. unfold monte_carlo. rewrite L, Nat.eqb_refl. cbn [negb]. f_equal. rewrite ObjectivesProofs.fl_mean_Fin.
    - reflexivity.
    - apply vmap_pairs_nonnil; assumption.
  Qed.
  Lemma mc_mismatch f xs ys : length xs <> length ys -> monte_carlo f xs ys = Err ValueError.
  Proof. intros H. unfold monte_carlo. apply Nat.eqb_neq in H. rewrite H. reflexivity. Qed.

  Lemma nwj_shifted_value f xs ys : (2 <= length xs)%nat -> length xs = length ys ->
    nwj_shifted f xs ys = Fin (mean_paired f xs ys + 1 - mean_exp_unpaired f xs ys).
  Proof.
    intros H L. unfold nwj_shifted. rewrite nwj_textbook by assumption. f_equal. unfold textbook_nwj.
    rewrite mean_exp_shift, mean_paired_shift; [|destruct xs; [cbn in H; lia|discriminate]|exact L].
    rewrite <- Rmult_assoc, <- exp_plus. replace (-1 + 1) with 0 by ring. rewrite exp_0. ring.
  Qed.

  Lemma nwj_shifted_below f xs ys : (2 <= length xs)%nat -> length xs = length ys ->
    exists w d, nwj_shifted f xs ys = Fin w /\ lin_donsker_varadhan f xs ys = Fin d /\ w <= d /\ (w = d <-> mean_exp_unpaired f xs ys = 1).
  Proof.
    intros H L. exists (mean_paired f xs ys + 1 - mean_exp_unpaired f xs ys), (textbook_dv f xs ys).
    split; [apply nwj_shifted_value; assumption|]. split; [apply dv_textbook; assumption|]. unfold textbook_dv.
    pose proof (mean_exp_pos f xs ys H L) as Hp. set (m := mean_exp_unpaired f xs ys) in *.
    pose proof (PluginProofs.ln_le_minus1 m Hp). split; [lra|]. split; intros E.
    - apply PluginProofs.ln_eq_minus1; lra.
    - rewrite E, ln_1. lra.
  Qed.

  (** A constant bias. *)
  Lemma constant_bias f c xs ys : (2 <= length xs)%nat -> length xs = length ys ->
    monte_carlo (fun x y => f x y + c) xs ys = Ok (Fin (mean_paired f xs ys + c)) /\
    lin_donsker_varadhan (fun x y => f x y + c) xs ys = lin_donsker_varadhan f xs ys /\
    lin_infonce (fun x y => f x y + c) xs ys = lin_infonce f xs ys /\
    nwj_shifted (fun x y => f x y + c) xs ys = Fin (mean_paired f xs ys + c + 1 - exp c * mean_exp_unpaired f xs ys).
  Proof.
    intros H L. assert (N : xs <> []) by (destruct xs; [cbn in H; lia|discriminate]).
    split; [rewrite mc_value, mean_paired_shift by assumption; reflexivity|].
    split; [rewrite !dv_textbook, dv_shift by assumption; reflexivity|].
    split; [rewrite !infonce_textbook by assumption; rewrite (infonce_x_offset f (fun _ => c)); reflexivity|].
    rewrite nwj_shifted_value, mean_paired_shift, mean_exp_shift by assumption. reflexivity.
  Qed.

  (** A bias depending on X. *)
  Lemma mean_paired_plus f (g : P -> R) xs ys : length xs = length ys ->
    mean_paired (fun x y => f x y + g x) xs ys = mean_paired f xs ys + rmean (map g xs).
  Proof.
    intros L. unfold mean_paired, rmean. rewrite !map_length.
    assert (C : length (combine xs ys) = length xs) by (rewrite combine_length; lia). rewrite C.
    assert (E : rsum (map (fun p : P * Q => f (fst p) (snd p) + g (fst p)) (combine xs ys)) =
      rsum (map (fun p => f (fst p) (snd p)) (combine xs ys)) + rsum (map g xs)).
    { clear C. revert ys L. induction xs as [|x xs IH]; intros [|y ys] L; try discriminate; [cbn; ring|].
      unfold rsum in *. cbn [combine map fold_right fst snd]. injection L as L. rewrite IH by exact L. ring. }
    rewrite E. unfold Rdiv. ring.
  Qed.

  Lemma mean_exp_between f (g : P -> R) B xs ys : (2 <= length xs)%nat -> length xs = length ys ->
    (forall x, In x xs -> - B <= g x <= B) ->
    exp (- B) * mean_exp_unpaired f xs ys <= mean_exp_unpaired (fun x y => f x y + g x) xs ys <= exp B * mean_exp_unpaired f xs ys.
  Proof.
    intros H L HB. unfold mean_exp_unpaired.
    assert (D : 0 < INR (length xs) * (INR (length xs) - 1)) by (apply (n_elements_pos xs) in H; exact H || lra).
    set (D0 := INR (length xs) * (INR (length xs) - 1)) in *.
    assert (M : forall (u v : nat * P -> R) (l : list (nat * P)), (forall p, In p l -> u p <= v p) -> rsum (map u l) <= rsum (map v l)).
    { intros u v l. induction l as [|p l IH]; intros Hp; [cbn; lra|]. unfold rsum in *. cbn [map fold_right].
      pose proof (Hp p (or_introl eq_refl)). assert (fold_right Rplus 0 (map u l) <= fold_right Rplus 0 (map v l)) by (apply IH; intros q Hq; apply Hp; right; exact Hq). lra. }
    set (row := fun (h : P -> Q -> R) (p : nat * P) => rsum (map (fun q : nat * Q => if Nat.eqb (fst p) (fst q) then 0 else exp (h (snd p) (snd q))) (indexed ys))).
    assert (S : forall p, row (fun x y => f x y + g x) p = exp (g (snd p)) * row f p).
    { intros p. unfold row. rewrite <- rsum_scal. f_equal. apply map_ext. intros q. destruct (Nat.eqb _ _); [ring|]. rewrite exp_plus. ring. }
    assert (R0 : forall p, 0 <= row f p).
    { intros p. unfold row. apply rsum_nonneg, Forall_map, Forall_forall. intros q _. destruct (Nat.eqb _ _); [lra|apply Rlt_le, exp_pos]. }
    assert (I : forall p, In p (indexed xs) -> - B <= g (snd p) <= B).
    { intros [i x] Hp. apply HB. exact (in_combine_r _ _ _ _ Hp). }
    change (exp (- B) * (rsum (map (row f) (indexed xs)) / D0) <= rsum (map (row (fun x y => f x y + g x)) (indexed xs)) / D0 <= exp B * (rsum (map (row f) (indexed xs)) / D0)).
    assert (X : forall u v, u <= v -> exp u <= exp v).
    { intros u v [Huv | ->]; [left; apply exp_increasing; exact Huv|right; reflexivity]. }
    assert (A1 : exp (- B) * rsum (map (row f) (indexed xs)) <= rsum (map (row (fun x y => f x y + g x)) (indexed xs))).
    { rewrite <- rsum_scal. apply M. intros p Hp. rewrite S. apply Rmult_le_compat_r; [apply R0|]. apply X, I, Hp. }
    assert (A2 : rsum (map (row (fun x y => f x y + g x)) (indexed xs)) <= exp B * rsum (map (row f) (indexed xs))).
    { rewrite <- rsum_scal. apply M. intros p Hp. rewrite S. apply Rmult_le_compat_r; [apply R0|]. apply X, I, Hp. }
    unfold Rdiv. rewrite <- !Rmult_assoc. assert (0 <= / D0) by (apply Rlt_le, Rinv_0_lt_compat, D).
    split; apply Rmult_le_compat_r; assumption.
  Qed.

  Lemma x_bias f (g : P -> R) B xs ys : (2 <= length xs)%nat -> length xs = length ys -> (forall x, In x xs -> - B <= g x <= B) ->
    monte_carlo (fun x y => f x y + g x) xs ys = Ok (Fin (mean_paired f xs ys + rmean (map g xs))) /\
    lin_infonce (fun x y => f x y + g x) xs ys = lin_infonce f xs ys /\
    exists d d', lin_donsker_varadhan f xs ys = Fin d /\ lin_donsker_varadhan (fun x y => f x y + g x) xs ys = Fin d' /\
      d + rmean (map g xs) - B <= d' <= d + rmean (map g xs) + B.
  Proof.
    intros H L HB. assert (N : xs <> []) by (destruct xs; [cbn in H; lia|discriminate]).
    split; [rewrite mc_value, mean_paired_plus by assumption; reflexivity|].
    split; [rewrite !infonce_textbook, infonce_x_offset by assumption; reflexivity|].
    exists (textbook_dv f xs ys), (textbook_dv (fun x y => f x y + g x) xs ys).
    split; [apply dv_textbook; assumption|]. split; [apply dv_textbook; assumption|]. unfold textbook_dv.
    rewrite mean_paired_plus by exact L. destruct (mean_exp_between f g B xs ys H L HB) as [H1 H2].
    pose proof (mean_exp_pos f xs ys H L) as Hp. pose proof (mean_exp_pos (fun x y => f x y + g x) xs ys H L) as Hq.
    set (m := mean_exp_unpaired f xs ys) in *. set (m' := mean_exp_unpaired (fun x y => f x y + g x) xs ys) in *.
    assert (L1 : - B + ln m <= ln m').
    { rewrite <- (ln_exp (- B)), <- ln_mult by (try apply exp_pos; exact Hp). apply Rcomplements.ln_le; [|exact H1].
      apply Rmult_lt_0_compat; [apply exp_pos|exact Hp]. }
    assert (L2 : ln m' <= B + ln m).
    { rewrite <- (ln_exp B), <- ln_mult by (try apply exp_pos; exact Hp). apply Rcomplements.ln_le; [exact Hq|exact H2]. }
    lra.
  Qed.
End Integration.

Lemma biased_setup (f : list R -> list R -> R) xs ys : (2 <= length xs)%nat -> length xs = length ys ->
  monte_carlo (biased f) xs ys = Ok (Fin (mean_paired f xs ys + 1 / 2)) /\
  lin_donsker_varadhan (biased f) xs ys = lin_donsker_varadhan f xs ys /\
  lin_infonce (biased f) xs ys = lin_infonce f xs ys /\
  nwj_shifted (biased f) xs ys = Fin (mean_paired f xs ys + 3 / 2 - exp (1 / 2) * mean_exp_unpaired f xs ys).
Proof.
  intros H L. unfold biased. destruct (constant_bias f (5 / 10) xs ys H L) as (-> & -> & -> & ->).
  replace (5 / 10) with (1 / 2) by lra. repeat split. f_equal. lra.
Qed.

Lemma sin_square_setup (f : list R -> list R -> R) xs ys : (2 <= length xs)%nat -> length xs = length ys ->
  let shift := rmean (map (fun x => sin (hd 0 x * hd 0 x)) xs) in
  monte_carlo (sin_square f) xs ys = Ok (Fin (mean_paired f xs ys + shift)) /\
  lin_infonce (sin_square f) xs ys = lin_infonce f xs ys /\
  exists d d', lin_donsker_varadhan f xs ys = Fin d /\ lin_donsker_varadhan (sin_square f) xs ys = Fin d' /\ d + shift - 1 <= d' <= d + shift + 1.
Proof. intros H L. unfold sin_square. apply x_bias; [exact H|exact L|]. intros x _. apply SIN_bound. Qed.

Lemma ground_truth_spec l : (2 <= length l)%nat -> let '(mean, std, err) := ground_truth l in
  INR (length l) * mean = rsum (map fst l) /\ 0 <= std /\
  (INR (length l) - 1) * (std * std) = rsum (map (fun v => (fst v - mean) ^ 2) l) /\ INR (length l) * err = rsum (map snd l).
Proof.
  intros H. unfold ground_truth. cbv beta iota zeta. rewrite map_map, map_length.
  assert (N : 2 <= INR (length l)) by (apply (le_INR 2); exact H).
  set (q := rsum (map (fun x => (fst x - rmean (map fst l)) ^ 2) l)).
  assert (Q0 : 0 <= q).
  { unfold q. apply rsum_nonneg, Forall_map, Forall_forall. intros v _. apply pow2_ge_0. }
  split; [unfold rmean; rewrite map_length; field; lra|]. split; [apply sqrt_pos|].
  split; [|unfold rmean; rewrite map_length; field; lra].
  rewrite sqrt_sqrt; [field; lra|]. apply Rmult_le_pos; [exact Q0|]. apply Rlt_le, Rinv_0_lt_compat. lra.
Qed.

(** ** Swapped arguments *)
Lemma swapped {J} (d : joint_distribution J) : sample_profile d = Err ValueError /\ plot_pmi d = Err ValueError.
Proof.
  split; [reflexivity|]. unfold plot_pmi. destruct (pmi_picture d (-10) 10 3000) as [p|e] eqn:E; [reflexivity|].
  exfalso. destruct (pmi_picture_drawn d (-10) 10 3000) as (p & E' & _); [lia|lra|]. change (Z.of_nat 3000) with 3000%Z in E'. congruence.
Qed.

Lemma right_order {J} (d : joint_distribution J) n k : sample_any d (Number n) (RandomKey k) = jd_sample d n k.
Proof. reflexivity. Qed.

Lemma critics_rejects {J} (d : joint_distribution J) xr yr n (a : list fl) (g : list (list fl)) : 
  grid_critic None xr yr n = Err TypeError /\ ((n < 0)%Z -> grid_sampler_pmi d xr yr n = Err ValueError /\ grid_sampler_pdf d xr yr n = Err ValueError) /\
  remove_dv_dofs (Array1 a) = Err AssertionError /\ remove_nce_dofs (Array1 a) = Err AssertionError /\ plot_grid g None (Some xr) = Err TypeError.
Proof. split; [reflexivity|]. split; [intros H; split; apply grid_negative, H|]. repeat split. Qed.

(** ** Statements collected *)
Lemma all_grids {J} (d : joint_distribution J) f xr yr n : (0 < n)%nat ->
  let x i := tick (fst xr) (snd xr) n i in
  let y j := match yr with Some yr => tick (fst yr) (snd yr) n j | None => tick (fst xr) (snd xr) n j end in
  (exists g, grid_sampler_pdf d xr yr (Z.of_nat n) = Ok g /\ table_of g n (fun i j => fl_exp (log_prob (dist_joint d) [x i; y j]))) /\
  (exists g, grid_sampler_pmi d xr yr (Z.of_nat n) = Ok g /\ table_of g n (fun i j => point_pmi d [x i] [y j])) /\
  (exists g, grid_critic (Some f) xr yr (Z.of_nat n) = Ok g /\ table_of g n (fun i j => f [x i] [y j])).
Proof.
  intros Hn. pose proof (pdf_grid d xr yr n Hn) as H1. pose proof (pmi_grid d xr yr n Hn) as H2. pose proof (critic_grid f xr yr n Hn) as H3.
  destruct yr; exact (conj H1 (conj H2 H3)).
Qed.

Lemma dv_dofs_all a b rows cols : (0 < rows)%nat -> (0 < cols)%nat -> rectangular a rows cols -> rectangular b rows cols ->
  (exists a', remove_dv_dofs (Array2 (finite a)) = Ok (finite a') /\ rectangular a' rows cols /\ rsum (concat a') = 0 /\
     exists c, forall i j, (i < rows)%nat -> (j < cols)%nat -> at_ a i j = at_ a' i j + c) /\
  (remove_dv_dofs (Array2 (finite a)) = remove_dv_dofs (Array2 (finite b)) <->
   exists c, forall i j, (i < rows)%nat -> (j < cols)%nat -> at_ a i j = at_ b i j + c).
Proof.
  intros Hr Hc Ra Rb. split; [|apply dv_dofs_iff; assumption]. destruct (dv_dofs a rows cols Hr Hc Ra) as (a' & E & Ra' & S & H).
  exists a'. repeat (split; [assumption|]). exists (rmean (concat a)). intros i j Hi Hj. rewrite H by assumption. ring.
Qed.
Lemma nce_dofs_all a b rows cols : (0 < rows)%nat -> (0 < cols)%nat -> rectangular a rows cols -> rectangular b rows cols ->
  (exists a', remove_nce_dofs (Array2 (finite a)) = Ok (finite a') /\ rectangular a' rows cols /\
     (forall i, (i < rows)%nat -> rsum (nth i a' []) = 0) /\
     exists c, forall i j, (i < rows)%nat -> (j < cols)%nat -> at_ a i j = at_ a' i j + c i) /\
  (remove_nce_dofs (Array2 (finite a)) = remove_nce_dofs (Array2 (finite b)) <->
   exists c, forall i j, (i < rows)%nat -> (j < cols)%nat -> at_ a i j = at_ b i j + c i).
Proof.
  intros Hr Hc Ra Rb. split; [|apply nce_dofs_iff; assumption]. destruct (nce_dofs a rows cols Hr Hc Ra) as (a' & E & Ra' & S & H).
  exists a'. repeat (split; [assumption|]). exists (fun i => rmean (nth i a [])). intros i j Hi Hj. rewrite H by assumption. ring.
Qed.

Lemma setups (f : list R -> list R -> R) xs ys : (2 <= length xs)%nat -> length xs = length ys ->
  (monte_carlo (biased f) xs ys = Ok (Fin (mean_paired f xs ys + 1 / 2)) /\
   lin_donsker_varadhan (biased f) xs ys = lin_donsker_varadhan f xs ys /\
   lin_infonce (biased f) xs ys = lin_infonce f xs ys /\
   nwj_shifted (biased f) xs ys = Fin (mean_paired f xs ys + 3 / 2 - exp (1 / 2) * mean_exp_unpaired f xs ys)) /\
  let shift := rmean (map (fun x => sin (hd 0 x * hd 0 x)) xs) in
  monte_carlo (sin_square f) xs ys = Ok (Fin (mean_paired f xs ys + shift)) /\
  lin_infonce (sin_square f) xs ys = lin_infonce f xs ys /\
  exists d d', lin_donsker_varadhan f xs ys = Fin d /\ lin_donsker_varadhan (sin_square f) xs ys = Fin d' /\
    d + shift - 1 <= d' <= d + shift + 1.
Proof. intros H L. split; [apply biased_setup|apply sin_square_setup]; assumption. Qed.

(** General lemmas about sequences, sums and floats. *)
From Verif Require Import Base.
From Coq Require Import Permutation.
Open Scope Z_scope.

Lemma firstn_skipn_add {A} (l : list A) (a b : nat) :
  firstn (a + b) l = firstn a l ++ firstn b (skipn a l).
Proof.
  revert l; induction a as [|a IH]; intros l; simpl; [reflexivity|].
  destruct l as [|x l]; simpl; [now rewrite firstn_nil|].
  now rewrite IH.
Qed.

Lemma zlen_nonneg {A} (l : list A) : 0 <= zlen l.
Proof. unfold zlen; lia. Qed.

Lemma zlen_map {A B} (f : A -> B) l : zlen (map f l) = zlen l.
Proof. unfold zlen; now rewrite map_length. Qed.

Lemma py_slice_bounds {A} (l : list A) a b :
  0 <= a -> a <= b -> b <= zlen l ->
  py_slice l a b = firstn (Z.to_nat (b - a)) (skipn (Z.to_nat a) l).
Proof.
  intros Ha Hab Hb. unfold py_slice, py_clamp.
  destruct (Z.ltb_spec a 0); [lia|]. destruct (Z.ltb_spec b 0); [lia|].
  rewrite !Z.min_r, !Z.max_r by lia. reflexivity.
Qed.

Lemma py_slice_length {A} (l : list A) a b :
  0 <= a -> a <= b -> b <= zlen l -> zlen (py_slice l a b) = b - a.
Proof.
  intros Ha Hab Hb. rewrite py_slice_bounds by assumption.
  unfold zlen in *. rewrite firstn_length, skipn_length. lia.
Qed.

Lemma py_slice_map {A B} (f : A -> B) (l : list A) a b :
  py_slice (map f l) a b = map f (py_slice l a b).
Proof. unfold py_slice. now rewrite zlen_map, skipn_map, firstn_map. Qed.

Lemma removelast_map {A B} (f : A -> B) (l : list A) :
  removelast (map f l) = map f (removelast l).
Proof.
  induction l as [|a [|b l] IH]; simpl in *; auto. now rewrite IH.
Qed.

Lemma removelast_seq a n : removelast (seq a (S n)) = seq a n.
Proof. rewrite seq_S. apply removelast_last. Qed.

(** ** Dictionaries *)
Lemma dict_get_set_eq {V} (d : zdict V) k v : dict_get (dict_set d k v) k = Some v.
Proof.
  induction d as [|[k' v'] d IH]; simpl; [now rewrite Z.eqb_refl|].
  destruct (k =? k') eqn:E; simpl; rewrite E; auto.
Qed.

Lemma dict_get_set_neq {V} (d : zdict V) k k' v :
  k <> k' -> dict_get (dict_set d k v) k' = dict_get d k'.
Proof.
  intros Hne. induction d as [|[j w] d IH]; simpl.
  - destruct (Z.eqb_spec k' k); congruence.
  - destruct (Z.eqb_spec k j); simpl.
    + subst. destruct (Z.eqb_spec k' j); congruence.
    + destruct (Z.eqb_spec k' j); auto.
Qed.

(** ** Sums *)
Lemma rsum_app l1 l2 : rsum (l1 ++ l2) = (rsum l1 + rsum l2)%R.
Proof. induction l1 as [|a l IH]; simpl; [lra|]. unfold rsum in *; simpl; rewrite IH; lra. Qed.

Lemma rsum_cons a l : rsum (a :: l) = (a + rsum l)%R.
Proof. reflexivity. Qed.

Lemma rsum_perm l1 l2 : Permutation l1 l2 -> rsum l1 = rsum l2.
Proof. induction 1; simpl; unfold rsum in *; simpl; lra. Qed.

Lemma rsum_scal {A} (f : A -> R) c l : rsum (map (fun a => c * f a)%R l) = (c * rsum (map f l))%R.
Proof. induction l as [|a l IH]; simpl; rewrite ?rsum_cons; [unfold rsum; simpl; lra|]. rewrite IH; lra. Qed.

Lemma rsum_plus {A} (f g : A -> R) l :
  rsum (map (fun a => f a + g a)%R l) = (rsum (map f l) + rsum (map g l))%R.
Proof. induction l as [|a l IH]; simpl; rewrite ?rsum_cons; [unfold rsum; simpl; lra|]. rewrite IH; lra. Qed.

Lemma rsum_minus {A} (f g : A -> R) l :
  rsum (map (fun a => f a - g a)%R l) = (rsum (map f l) - rsum (map g l))%R.
Proof. induction l as [|a l IH]; simpl; rewrite ?rsum_cons; [unfold rsum; simpl; lra|]. rewrite IH; lra. Qed.

Lemma rsum_const {A} (c : R) (l : list A) : rsum (map (fun _ => c) l) = (INR (length l) * c)%R.
Proof.
  induction l as [|a l IH]; [simpl; unfold rsum; simpl; lra|].
  cbn [map]. rewrite rsum_cons, IH. cbn [length]. rewrite S_INR. lra.
Qed.

Lemma rsum_le {A} (f g : A -> R) l :
  (forall a, In a l -> (f a <= g a)%R) -> (rsum (map f l) <= rsum (map g l))%R.
Proof.
  induction l as [|a l IH]; intros H; simpl; rewrite ?rsum_cons; [unfold rsum; simpl; lra|].
  assert (f a <= g a)%R by (apply H; now left).
  assert (rsum (map f l) <= rsum (map g l))%R by (apply IH; intros; apply H; now right). lra.
Qed.

Lemma rsum_nonneg l : Forall (fun v => (0 <= v)%R) l -> (0 <= rsum l)%R.
Proof. induction 1; unfold rsum in *; simpl; lra. Qed.

Lemma rsum_zero_all l : Forall (fun v => (0 <= v)%R) l -> rsum l = 0%R -> Forall (fun v => v = 0%R) l.
Proof.
  induction 1 as [|a l Ha Hl IH]; intros H; constructor.
  - pose proof (rsum_nonneg l Hl). rewrite rsum_cons in H. lra.
  - apply IH. pose proof (rsum_nonneg l Hl). rewrite rsum_cons in H. lra.
Qed.

Lemma rsum_swap {A B} (f : A -> B -> R) la lb :
  rsum (map (fun a => rsum (map (f a) lb)) la) = rsum (map (fun b => rsum (map (fun a => f a b) la)) lb).
Proof.
  induction la as [|a la IH]; cbn [map].
  - rewrite rsum_const. unfold rsum; simpl; lra.
  - rewrite rsum_cons, IH, <- rsum_plus. f_equal.
Qed.

Lemma rmean_perm l1 l2 : Permutation l1 l2 -> rmean l1 = rmean l2.
Proof. intros H. unfold rmean. now rewrite (rsum_perm _ _ H), (Permutation_length H). Qed.

Lemma INR_length_pos {A} (l : list A) : l <> [] -> (0 < INR (length l))%R.
Proof. intros H. destruct l; [congruence|]. apply lt_0_INR. simpl; lia. Qed.

(** ** Floats *)
Arguments fl_add !a !b.
Lemma fl_add_comm a b : fl_add a b = fl_add b a.
Proof. destruct a, b; simpl; auto. now rewrite Rplus_comm. Qed.

Lemma fl_add_assoc a b c : fl_add a (fl_add b c) = fl_add (fl_add a b) c.
Proof. destruct a, b, c; simpl; auto. now rewrite Rplus_assoc. Qed.

Lemma fl_add_0_l a : fl_add (Fin 0) a = a.
Proof. destruct a; simpl; auto. now rewrite Rplus_0_l. Qed.

Lemma fl_add_0_r a : fl_add a (Fin 0) = a.
Proof. now rewrite fl_add_comm, fl_add_0_l. Qed.

Lemma fl_sum_app l1 l2 : fl_sum (l1 ++ l2) = fl_add (fl_sum l1) (fl_sum l2).
Proof.
  induction l1 as [|a l IH]; simpl; [now rewrite fl_add_0_l|].
  now rewrite <- fl_add_assoc, IH.
Qed.

Lemma fl_sum_concat ls : fl_sum (concat ls) = fl_sum (map fl_sum ls).
Proof. induction ls as [|l ls IH]; simpl; auto. now rewrite fl_sum_app, IH. Qed.

Lemma fl_sum_perm l1 l2 : Permutation l1 l2 -> fl_sum l1 = fl_sum l2.
Proof.
  induction 1 as [|x l l' H IH|x y l|l l' l'' H1 IH1 H2 IH2]; simpl; auto.
  - now rewrite IH.
  - now rewrite !fl_add_assoc, (fl_add_comm y x).
  - congruence.
Qed.

Lemma fl_divp_add a b n : (0 < n)%R -> fl_divp (fl_add a b) n = fl_add (fl_divp a n) (fl_divp b n).
Proof. intros Hn. destruct a, b; simpl; auto. f_equal. field. lra. Qed.

Lemma fl_sum_divp l n : (0 < n)%R -> fl_sum (map (fun d => fl_divp d n) l) = fl_divp (fl_sum l) n.
Proof.
  intros Hn. induction l as [|a l IH]; simpl.
  - f_equal. unfold Rdiv; lra.
  - now rewrite IH, fl_divp_add.
Qed.

Lemma fl_sum_Fin l : fl_sum (map Fin l) = Fin (rsum l).
Proof. induction l as [|a l IH]; simpl; auto. rewrite IH. reflexivity. Qed.

Lemma Rltb_true x y : Rltb x y = true <-> (x < y)%R.
Proof. unfold Rltb. destruct (Rlt_dec x y); split; intros; auto; congruence. Qed.
Lemma Rltb_false x y : Rltb x y = false <-> (y <= x)%R.
Proof. unfold Rltb. destruct (Rlt_dec x y); split; intros; auto; try congruence; lra. Qed.
Lemma Rleb_true x y : Rleb x y = true <-> (x <= y)%R.
Proof. unfold Rleb. destruct (Rle_dec x y); split; intros; auto; congruence. Qed.
Lemma Rleb_false x y : Rleb x y = false <-> (y < x)%R.
Proof. unfold Rleb. destruct (Rle_dec x y); split; intros; auto; try congruence; lra. Qed.
Lemma Reqb_true x y : Reqb x y = true <-> x = y.
Proof. unfold Reqb. destruct (Req_EM_T x y); split; intros; auto; congruence. Qed.

(** ** Means *)
Lemma rsum_lower c l : Forall (fun v => (c <= v)%R) l -> (INR (length l) * c <= rsum l)%R.
Proof.
  induction 1 as [|v l Hv _ IH]; [unfold rsum; simpl; lra|].
  rewrite rsum_cons. cbn [length]. rewrite S_INR. lra.
Qed.

Lemma rsum_upper c l : Forall (fun v => (v <= c)%R) l -> (rsum l <= INR (length l) * c)%R.
Proof.
  induction 1 as [|v l Hv _ IH]; [unfold rsum; simpl; lra|].
  rewrite rsum_cons. cbn [length]. rewrite S_INR. lra.
Qed.

Lemma rmean_mul l : l <> [] -> (rmean l * INR (length l) = rsum l)%R.
Proof. intros H. unfold rmean. field. pose proof (INR_length_pos l H). lra. Qed.

Lemma rmean_lower c l : l <> [] -> Forall (fun v => (c <= v)%R) l -> (c <= rmean l)%R.
Proof.
  intros Hne H. apply rsum_lower in H. pose proof (INR_length_pos l Hne) as Hp.
  rewrite <- (rmean_mul l Hne) in H. apply Rmult_le_reg_r with (INR (length l)); lra.
Qed.

Lemma rmean_upper c l : l <> [] -> Forall (fun v => (v <= c)%R) l -> (rmean l <= c)%R.
Proof.
  intros Hne H. apply rsum_upper in H. pose proof (INR_length_pos l Hne) as Hp.
  rewrite <- (rmean_mul l Hne) in H. apply Rmult_le_reg_r with (INR (length l)); lra.
Qed.

Lemma rmean_const c l : l <> [] -> Forall (fun v => v = c) l -> rmean l = c.
Proof.
  intros Hne H. apply Rle_antisym; [apply rmean_upper|apply rmean_lower]; auto;
    eapply Forall_impl; [|exact H| |exact H]; simpl; intros; lra.
Qed.

Lemma sdict_get_set_eq {V} (d : sdict V) k v : sdict_get (sdict_set d k v) k = Some v.
Proof.
  induction d as [|[k' v'] d IH]; simpl; [now rewrite String.eqb_refl|].
  destruct (String.eqb k k') eqn:E; simpl; rewrite E; auto.
Qed.

Lemma sdict_get_set_neq {V} (d : sdict V) k k' v : k <> k' -> sdict_get (sdict_set d k v) k' = sdict_get d k'.
Proof.
  intros Hne. assert (E0 : String.eqb k' k = false) by (apply String.eqb_neq; congruence).
  induction d as [|[k1 v1] d IH]; simpl; [now rewrite E0|].
  destruct (String.eqb_spec k k1) as [<-|H1]; simpl; [now rewrite E0|].
  destruct (String.eqb k' k1); auto.
Qed.

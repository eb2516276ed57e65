(** Proofs about the arrays built by _matrix_utils.py. *)
From Verif Require Import Base BaseLemmas UtilsModel JaxModel SamplersModel GaussianModel MatrixUtilsModel MatrixUtilsSpec.
Open Scope R_scope.
Local Notation length := List.length.

(** ** Arrays as functions *)

Lemma shape_rows m r c : has_shape m r c = true <->
  length m = r /\ forall i, (i < r)%nat -> length (nth i m []) = c.
Proof.
  unfold has_shape. rewrite andb_true_iff, Nat.eqb_eq, forallb_forall. split; intros [H1 H2]; split; auto.
  - intros i Hi. apply Nat.eqb_eq, H2, nth_In. lia.
  - intros row Hrow. apply Nat.eqb_eq. destruct (In_nth m row [] Hrow) as (i & Hi & <-). apply H2. lia.
Qed.

Lemma update_length {A} (l : list A) i f : length (update l i f) = length l.
Proof. revert i. induction l as [|a l IH]; intros [|i]; cbn; auto. Qed.

Lemma nth_update {A} (l : list A) i f d k : (i < length l)%nat ->
  nth k (update l i f) d = if (k =? i)%nat then f (nth i l d) else nth k l d.
Proof.
  revert i k. induction l as [|a l IH]; intros [|i] k H; cbn in H; try lia.
  - destruct k; reflexivity.
  - destruct k; cbn; [reflexivity|]. rewrite IH by lia. reflexivity.
Qed.

Lemma entries_ext n m f g : (forall i j, (i < n)%nat -> (j < n)%nat -> f i j = g i j) ->
  has_entries n m f -> has_entries n m g.
Proof. intros H [H1 H2]. split; auto. intros. rewrite H2 by auto. auto. Qed.

Lemma np_full_entries n v : has_entries n (np_full n n v) (fun _ _ => v).
Proof.
  split.
  - apply shape_rows. unfold np_full. rewrite repeat_length. split; auto. intros i Hi.
    rewrite nth_indep with (d' := repeat v n) by (rewrite repeat_length; auto). rewrite nth_repeat. apply repeat_length.
  - intros i j Hi Hj. unfold entry, np_full.
    rewrite nth_indep with (d' := repeat v n) by (rewrite repeat_length; auto). rewrite nth_repeat.
    rewrite nth_indep with (d' := v) by (rewrite repeat_length; auto). apply nth_repeat.
Qed.

Lemma nth_map_seq {A} (f : nat -> A) lo n d i : (i < n)%nat -> nth i (map f (seq lo n)) d = f (lo + i)%nat.
Proof.
  intros H. rewrite nth_indep with (d' := f 0%nat) by (rewrite map_length, seq_length; auto).
  rewrite map_nth, seq_nth by auto. reflexivity.
Qed.

Lemma np_eye_entries n : has_entries n (np_eye n) (fun i j => if (i =? j)%nat then 1 else 0).
Proof.
  split.
  - apply shape_rows. unfold np_eye. rewrite map_length, seq_length. split; auto. intros i Hi.
    rewrite nth_map_seq by auto. rewrite map_length, seq_length. reflexivity.
  - intros i j Hi Hj. unfold entry, np_eye. rewrite !nth_map_seq by auto. reflexivity.
Qed.

Lemma nth_combine_seq {A} (l : list A) lo d i : (i < length l)%nat ->
  nth i (combine (seq lo (length l)) l) (0%nat, d) = ((lo + i)%nat, nth i l d).
Proof. intros H. rewrite combine_nth by (rewrite seq_length; auto). rewrite seq_nth by auto. reflexivity. Qed.

Lemma modify_block_entries n m f lo hi g : has_entries n m f ->
  has_entries n (modify_block m lo hi g) (fun i j =>
    if ((lo <=? i)%nat && (i <? hi)%nat) && ((lo <=? j)%nat && (j <? hi)%nat) then g i j (f i j) else f i j).
Proof.
  intros [Hs He]. apply shape_rows in Hs as [Hl Hr].
  assert (Hrow : forall i, (i < n)%nat -> nth i (modify_block m lo hi g) [] =
     if (lo <=? i)%nat && (i <? hi)%nat
     then map (fun jw => if (lo <=? fst jw)%nat && (fst jw <? hi)%nat then g i (fst jw) (snd jw) else snd jw)
              (combine (seq 0 (length (nth i m []))) (nth i m []))
     else nth i m []).
  { intros i Hi. unfold modify_block.
    set (h := fun ir : nat * list R => _).
    rewrite nth_indep with (d' := h (0%nat, [])) by (rewrite map_length, combine_length, seq_length; lia).
    rewrite map_nth, nth_combine_seq by lia. unfold h. cbn [fst snd]. reflexivity. }
  split.
  - apply shape_rows. split.
    + unfold modify_block. rewrite map_length, combine_length, seq_length. lia.
    + intros i Hi. rewrite Hrow by auto. destruct (_ && _); [|auto].
      rewrite map_length, combine_length, seq_length. rewrite Hr by auto. lia.
  - intros i j Hi Hj. unfold entry. rewrite Hrow by auto.
    rewrite <- (He i j Hi Hj). unfold entry.
    destruct ((lo <=? i)%nat && (i <? hi)%nat); cbn [andb]; [|reflexivity].
    set (h := fun jw : nat * R => _).
    rewrite nth_indep with (d' := h (0%nat, 0)) by (rewrite map_length, combine_length, seq_length, Hr; auto; lia).
    rewrite map_nth, nth_combine_seq by (rewrite Hr; auto). unfold h. cbn [fst snd]. reflexivity.
Qed.

Lemma modify_entries n m f a b g : has_entries n m f -> (a < n)%nat -> (b < n)%nat ->
  exists m', modify m a b g = Ok m' /\
    has_entries n m' (fun i j => if (i =? a)%nat && (j =? b)%nat then g (f i j) else f i j).
Proof.
  intros [Hs He] Ha Hb. apply shape_rows in Hs as [Hl Hr]. unfold modify.
  rewrite (nth_error_nth' m []) by lia. rewrite Hr by auto.
  destruct (Nat.ltb_spec b n) as [_|H]; [|lia].
  eexists. split; [reflexivity|]. split.
  - apply shape_rows. rewrite update_length. split; auto. intros i Hi.
    rewrite nth_update by lia. destruct (Nat.eqb_spec i a) as [->|]; [rewrite update_length|]; auto.
  - intros i j Hi Hj. unfold entry. rewrite nth_update by lia.
    destruct (Nat.eqb_spec i a) as [->|]; cbn [andb]; [|apply (He i j); auto].
    rewrite nth_update by (rewrite Hr; auto).
    destruct (Nat.eqb_spec j b) as [->|]; rewrite <- (He a) by auto; reflexivity.
Qed.

Lemma modify_out_of_range n m f a b g : has_entries n m f -> (n <= a)%nat \/ (n <= b)%nat -> modify m a b g = Err IndexError.
Proof.
  intros [Hs _] H. apply shape_rows in Hs as [Hl Hr]. unfold modify.
  destruct (nth_error m a) as [row|] eqn:E; [|reflexivity].
  assert (Ha : (a < n)%nat) by (rewrite <- Hl; apply nth_error_Some; rewrite E; discriminate).
  rewrite (nth_error_nth' m []) in E by lia. injection E as <-. rewrite Hr by auto.
  destruct (Nat.ltb_spec b n); [lia | reflexivity].
Qed.

(** ** Loops *)

Lemma loop_err {A} (body : A -> nat -> result A) l e : fold_left (fun r i => do a <- r; body a i) l (Err e) = Err e.
Proof. induction l; cbn; auto. Qed.

Lemma loop_step {A} lo hi (body : A -> nat -> result A) a : (lo <= hi)%nat ->
  loop lo (S hi) body a = (do a' <- loop lo hi body a; body a' hi).
Proof.
  intros H. unfold loop. replace (S hi - lo)%nat with (S (hi - lo)) by lia.
  rewrite seq_S, fold_left_app. cbn [fold_left]. replace (lo + (hi - lo))%nat with hi by lia. reflexivity.
Qed.

Lemma loop_empty {A} lo hi (body : A -> nat -> result A) a : (hi <= lo)%nat -> loop lo hi body a = Ok a.
Proof. intros H. unfold loop. replace (hi - lo)%nat with 0%nat by lia. reflexivity. Qed.

(** A loop each of whose steps changes the entries by [u t]. *)
Fixpoint iterate (u : nat -> nat -> nat -> R -> R) (lo k : nat) (i j : nat) (v : R) : R :=
  match k with O => v | S k' => u (lo + k')%nat i j (iterate u lo k' i j v) end.

Lemma loop_entries n body u lo hi f m : (lo <= hi)%nat ->
  (forall t m f, (lo <= t < hi)%nat -> has_entries n m f ->
     exists m', body m t = Ok m' /\ has_entries n m' (fun i j => u t i j (f i j))) ->
  has_entries n m f ->
  exists m', loop lo hi body m = Ok m' /\ has_entries n m' (fun i j => iterate u lo (hi - lo) i j (f i j)).
Proof.
  intros Hle Hb Hm. remember (hi - lo)%nat as k eqn:Hk. revert hi Hle Hk Hb.
  induction k as [|k IH]; intros hi Hle Hk Hb.
  - exists m. rewrite loop_empty by lia. auto.
  - destruct hi as [|hi]; [lia|].
    destruct (IH hi) as (m1 & E1 & H1); [lia|lia| |].
    { intros t m' f' Ht. apply Hb. lia. }
    destruct (Hb hi m1 _ ltac:(lia) H1) as (m2 & E2 & H2).
    exists m2. rewrite loop_step, E1 by lia. split; [exact E2|].
    eapply entries_ext; [|exact H2]. intros i j _ _. cbn [iterate]. f_equal. lia.
Qed.

(** When only the step [t0] touches the entry. *)
Lemma iterate_single u lo k i j v t0 :
  (forall t w, (lo <= t < lo + k)%nat -> t <> t0 -> u t i j w = w) ->
  iterate u lo k i j v = if (lo <=? t0)%nat && (t0 <? lo + k)%nat then u t0 i j v else v.
Proof.
  induction k as [|k IH]; intros H; cbn [iterate].
  - destruct (Nat.leb_spec lo t0), (Nat.ltb_spec t0 (lo + 0)); cbn; auto; lia.
  - rewrite IH by (intros; apply H; lia).
    destruct (Nat.eq_dec (lo + k) t0) as [E|E].
    + subst t0.
      destruct (Nat.leb_spec lo (lo + k)), (Nat.ltb_spec (lo + k) (lo + k)), (Nat.ltb_spec (lo + k) (lo + S k)); cbn; auto; lia.
    + rewrite H by lia.
      destruct (Nat.leb_spec lo t0), (Nat.ltb_spec t0 (lo + k)), (Nat.ltb_spec t0 (lo + S k)); cbn; auto; lia.
Qed.

(** Case analysis on the comparisons of indices. *)
Ltac cases1 :=
  match goal with
  | |- context [(?a <? ?b)%nat] => destruct (Nat.ltb_spec a b)
  | |- context [(?a <=? ?b)%nat] => destruct (Nat.leb_spec a b)
  | |- context [(?a =? ?b)%nat] => destruct (Nat.eqb_spec a b)
  end.
Ltac cases := repeat (cases1; try (exfalso; lia); cbn [andb orb negb]); auto.

(** ** parametrised_correlation_matrix *)

Lemma assign_pair n a b c m f : (a < n)%nat -> (b < n)%nat -> has_entries n m f ->
  exists m', (do m <- assign m a b c; assign m b a c) = Ok m' /\
    has_entries n m' (fun i j => if ((i =? a)%nat && (j =? b)%nat) || ((i =? b)%nat && (j =? a)%nat) then c else f i j).
Proof.
  intros Ha Hb Hm. unfold assign.
  destruct (modify_entries n m f a b (fun _ => c) Hm Ha Hb) as (m1 & -> & H1). cbn [bind].
  destruct (modify_entries n m1 _ b a (fun _ => c) H1 Hb Ha) as (m2 & -> & H2).
  exists m2. split; [reflexivity|]. eapply entries_ext; [|exact H2]. intros i j _ _. cbn. cases.
Qed.

(** Both triangles of a block. *)
Lemma fill_block n lo hi c m f : (lo <= hi)%nat -> (hi <= n)%nat -> has_entries n m f ->
  exists m', loop lo hi (fun m i => loop lo i (fun m j => do m <- assign m i j c; assign m j i c) m) m = Ok m' /\
    has_entries n m' (fun i j =>
      if ((lo <=? i)%nat && (i <? hi)%nat) && ((lo <=? j)%nat && (j <? hi)%nat) && negb (i =? j)%nat then c else f i j).
Proof.
  intros Hlo Hhi Hm.
  destruct (loop_entries n (fun m i => loop lo i (fun m j => do m <- assign m i j c; assign m j i c) m)
    (fun t i j v => if (((i =? t)%nat && (lo <=? j)%nat && (j <? t)%nat) || ((j =? t)%nat && (lo <=? i)%nat && (i <? t)%nat)) then c else v)
    lo hi f m Hlo) as (m' & E & H); [|exact Hm|].
  - intros t m1 f1 Ht H1.
    destruct (loop_entries n (fun m j => do m <- assign m t j c; assign m j t c)
      (fun s i j v => if (((i =? t)%nat && (j =? s)%nat) || ((i =? s)%nat && (j =? t)%nat)) then c else v)
      lo t f1 m1) as (m2 & E2 & H2); [lia| |exact H1|].
    { intros s m3 f3 Hs H3. apply assign_pair; auto; lia. }
    exists m2. split; [exact E2|]. eapply entries_ext; [|exact H2]. intros i j Hi Hj. cbn beta.
    destruct (Nat.eq_dec i t) as [->|Hit].
    + rewrite iterate_single with (t0 := j); [|intros s w Hs Hn; cbn beta; cases].
      replace (lo + (t - lo))%nat with t by lia. cases.
    + rewrite iterate_single with (t0 := i); [|intros s w Hs Hn; cbn beta; cases].
      replace (lo + (t - lo))%nat with t by lia. cases.
  - exists m'. split; [exact E|]. eapply entries_ext; [|exact H]. intros i j Hi Hj. cbn beta.
    rewrite iterate_single with (t0 := Nat.max i j); [|intros s w Hs Hn; cbn beta; cases].
    replace (lo + (hi - lo))%nat with hi by lia. cases.
Qed.

(** X_i and Y_i for i < k. *)
Lemma fill_pairs n dx k (c : nat -> R) m f : (k <= dx)%nat -> (dx + k <= n)%nat -> has_entries n m f ->
  exists m', loop 0 k (fun m i => do m <- assign m i (dx + i)%nat (c i); assign m (dx + i)%nat i (c i)) m = Ok m' /\
    has_entries n m' (fun i j =>
      if (i <? k)%nat && (j =? dx + i)%nat then c i else if (j <? k)%nat && (i =? dx + j)%nat then c j else f i j).
Proof.
  intros Hk Hn Hm.
  destruct (loop_entries n (fun m i => do m <- assign m i (dx + i)%nat (c i); assign m (dx + i)%nat i (c i))
    (fun t i j v => if ((i =? t)%nat && (j =? dx + t)%nat) || ((i =? dx + t)%nat && (j =? t)%nat) then c t else v)
    0 k f m) as (m' & E & H); [lia| |exact Hm|].
  - intros t m1 f1 Ht H1. apply assign_pair; auto; lia.
  - exists m'. split; [exact E|]. eapply entries_ext; [|exact H]. intros i j Hi Hj. cbn beta.
    rewrite iterate_single with (t0 := Nat.min i j); [|intros s w Hs Hne; cbn beta; cases].
    replace (0 + (k - 0))%nat with k by lia.
    destruct (Nat.le_ge_cases i j) as [Hij|Hij]; [rewrite Nat.min_l by auto|rewrite Nat.min_r by auto]; cases.
Qed.

Definition valid_parameters (dim_x dim_y k : Z) (c cx cy : R) : Prop :=
  (1 <= k <= dim_x)%Z /\ (k <= dim_y)%Z /\ -1 <= c <= 1 /\ -1 <= cx <= 1 /\ -1 <= cy <= 1.

Lemma validate_spec dim_x dim_y k c cx cy :
  (validate dim_x dim_y k c cx cy = Ok tt <-> valid_parameters dim_x dim_y k c cx cy) /\
  (validate dim_x dim_y k c cx cy = Ok tt \/ validate dim_x dim_y k c cx cy = Err ValueError).
Proof.
  unfold validate, valid_parameters.
  destruct (Z.ltb_spec (Z.min (Z.min dim_x dim_y) k) 1); [split; [split; [discriminate|lia]|auto]|].
  destruct (Z.ltb_spec dim_x k); cbn [orb]; [split; [split; [discriminate|lia]|auto]|].
  destruct (Z.ltb_spec dim_y k); cbn [orb]; [split; [split; [discriminate|lia]|auto]|].
  unfold Rltb.
  destruct (Rlt_dec _ _) as [Hlt|Hlt]; cbn [orb].
  - split; [split; [discriminate|]|auto]. intros (_ & _ & H2 & H3 & H4). exfalso. revert Hlt. unfold Rmin.
    repeat destruct (Rle_dec _ _); lra.
  - destruct (Rlt_dec 1 _) as [Hlt2|Hlt2]; cbn [orb].
    + split; [split; [discriminate|]|auto]. intros (_ & _ & H2 & H3 & H4). exfalso. revert Hlt2. unfold Rmax.
      repeat destruct (Rle_dec _ _); lra.
    + split; [|auto]. split; [|auto]. intros _. split; [lia|]. split; [lia|].
      assert (H2 := Rmin_l (Rmin cx cy) c). assert (H3 := Rmin_r (Rmin cx cy) c).
      assert (H4 := Rmin_l cx cy). assert (H5 := Rmin_r cx cy).
      assert (H6 := Rmax_l (Rmax cx cy) c). assert (H7 := Rmax_r (Rmax cx cy) c).
      assert (H8 := Rmax_l cx cy). assert (H9 := Rmax_r cx cy). lra.
Qed.

Lemma parametrised_ok dim_x dim_y k c cx cy : valid_parameters dim_x dim_y k c cx cy ->
  exists m, parametrised_correlation_matrix dim_x dim_y k c cx cy = Ok m /\
    has_entries (Z.to_nat dim_x + Z.to_nat dim_y) m (block_correlation (Z.to_nat dim_x) (Z.to_nat k) c cx cy).
Proof.
  intros Hv. unfold parametrised_correlation_matrix.
  rewrite (proj2 (proj1 (validate_spec dim_x dim_y k c cx cy)) Hv). cbn [bind].
  destruct Hv as (H1 & H2 & _).
  set (dx := Z.to_nat dim_x). set (dy := Z.to_nat dim_y). set (k' := Z.to_nat k).
  destruct (fill_pairs (dx + dy) dx k' (fun _ => c) _ _ ltac:(lia) ltac:(lia) (np_eye_entries (dx + dy))) as (m1 & -> & E1).
  cbn [bind].
  destruct (fill_block (dx + dy) 0 dx cx m1 _ ltac:(lia) ltac:(lia) E1) as (m2 & -> & E2). cbn [bind].
  destruct (fill_block (dx + dy) dx (dx + dy) cy m2 _ ltac:(lia) ltac:(lia) E2) as (m3 & -> & E3).
  exists m3. split; [reflexivity|]. eapply entries_ext; [|exact E3]. intros i j Hi Hj. cbn beta.
  unfold block_correlation. cases.
Qed.

Lemma parametrised_rejects dim_x dim_y k c cx cy : ~ valid_parameters dim_x dim_y k c cx cy ->
  parametrised_correlation_matrix dim_x dim_y k c cx cy = Err ValueError.
Proof.
  intros Hv. unfold parametrised_correlation_matrix.
  destruct (validate_spec dim_x dim_y k c cx cy) as [H1 [H2|H2]].
  - elim Hv. apply H1, H2.
  - rewrite H2. reflexivity.
Qed.

(** ** canonical_correlation *)

Lemma canonical_ok rho additional_y : (0 <= additional_y)%Z ->
  exists m, canonical_correlation rho additional_y = Ok m /\
    let dx := length rho in
    has_entries (dx + (dx + Z.to_nat additional_y)) m (fun i j =>
      if (i =? j)%nat then 1
      else if (i <? dx)%nat && (j =? dx + i)%nat then nth i rho 0
      else if (j <? dx)%nat && (i =? dx + j)%nat then nth j rho 0 else 0).
Proof.
  intros Ha. unfold canonical_correlation. set (dx := length rho).
  destruct (Z.ltb_spec (Z.of_nat dx + additional_y) 0); [lia|].
  replace (Z.to_nat (Z.of_nat dx + additional_y)) with (dx + Z.to_nat additional_y)%nat by lia.
  set (dy := (dx + Z.to_nat additional_y)%nat). cbn zeta.
  assert (H1 := np_full_entries (dx + dy) 0).
  assert (H2 := modify_block_entries _ _ _ 0 dx (fun i j _ => entry (np_eye dx) (i - 0) (j - 0)) H1).
  assert (H3 := modify_block_entries _ _ _ dx (dx + dy) (fun i j _ => entry (np_eye dy) (i - dx) (j - dx)) H2).
  destruct (fill_pairs (dx + dy) dx dx (fun i => nth i rho 0) _ _ ltac:(lia) ltac:(lia) H3) as (m & E & Hm).
  unfold assign_block. rewrite E. exists m. split; [reflexivity|].
  eapply entries_ext; [|exact Hm]. intros i j Hi Hj. cbn beta.
  assert (He1 : (i < dx)%nat -> (j < dx)%nat -> entry (np_eye dx) (i - 0) (j - 0) = if (i =? j)%nat then 1 else 0).
  { intros A B. rewrite (proj2 (np_eye_entries dx)) by lia. rewrite !Nat.sub_0_r. reflexivity. }
  assert (He2 : (dx <= i)%nat -> (dx <= j)%nat -> entry (np_eye dy) (i - dx) (j - dx) = if (i =? j)%nat then 1 else 0).
  { intros A B. rewrite (proj2 (np_eye_entries dy)) by lia. cases. }
  destruct (Nat.lt_ge_cases i dx) as [A|A]; destruct (Nat.lt_ge_cases j dx) as [B|B].
  - rewrite He1 by auto. cases.
  - cases.
  - cases.
  - rewrite He2 by auto. cases.
Qed.

Lemma canonical_error rho additional_y : (additional_y < 0)%Z -> rho <> [] ->
  exists e, canonical_correlation rho additional_y = Err e.
Proof.
  intros Ha Hr. unfold canonical_correlation. set (dx := length rho).
  destruct (Z.ltb_spec (Z.of_nat dx + additional_y) 0); [eexists; reflexivity|].
  set (dy := Z.to_nat (Z.of_nat dx + additional_y)). cbn zeta. exists IndexError.
  assert (H1 := np_full_entries (dx + dy) 0).
  assert (H2 := modify_block_entries _ _ _ 0 dx (fun i j _ => entry (np_eye dx) (i - 0) (j - 0)) H1).
  assert (H3 := modify_block_entries _ _ _ dx (dx + dy) (fun i j _ => entry (np_eye dy) (i - dx) (j - dx)) H2).
  destruct (fill_pairs (dx + dy) dx dy (fun i => nth i rho 0) _ _ ltac:(lia) ltac:(lia) H3) as (m & E & Hm).
  unfold assign_block, loop in *.
  replace (dx - 0)%nat with (dy + (dx - dy))%nat by lia. rewrite seq_app, fold_left_app.
  replace (dy - 0)%nat with dy in E by lia. rewrite E.
  destruct (dx - dy)%nat as [|q] eqn:Hq; [lia|]. cbn [seq fold_left bind].
  unfold assign. rewrite (modify_out_of_range _ _ _ _ _ _ Hm) by lia. cbn [bind].
  apply loop_err.
Qed.

Lemma parametrised_symmetric dim_x dim_y k c cx cy m : parametrised_correlation_matrix dim_x dim_y k c cx cy = Ok m ->
  forall i j, (i < Z.to_nat dim_x + Z.to_nat dim_y)%nat -> (j < Z.to_nat dim_x + Z.to_nat dim_y)%nat ->
    entry m i j = entry m j i /\ entry m i i = 1.
Proof.
  intros Hm i j Hi Hj.
  assert (Hv : valid_parameters dim_x dim_y k c cx cy).
  { apply validate_spec. unfold parametrised_correlation_matrix in Hm.
    destruct (validate _ _ _ _ _ _) as [[]|]; [reflexivity|discriminate]. }
  destruct (parametrised_ok _ _ _ _ _ _ Hv) as (m' & E & _ & He). rewrite Hm in E. injection E as <-.
  rewrite !He by auto. unfold block_correlation. split; cases.
Qed.

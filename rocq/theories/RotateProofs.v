(** Generators of rotations, spirals and fixed rotations. *)
From Coquelicot Require Import Coquelicot.
From Verif Require Import Base BaseLemmas UtilsModel JaxModel SamplersModel GaussianModel MatrixUtilsModel MatrixUtilsSpec MatrixUtilsProofs
  TransformsModel TransformsSpec ExpmProofs.
Open Scope R_scope.
Local Notation length := List.length.

(** ** Arrays *)

Lemma nth_map_in {A B} (f : A -> B) l i d d' : (i < length l)%nat -> nth i (map f l) d' = f (nth i l d).
Proof. intros H. rewrite (nth_indep _ d' (f d)) by (rewrite map_length; exact H). apply map_nth. Qed.

Lemma combine_app {A B} (a1 a2 : list A) (b1 b2 : list B) : length a1 = length b1 -> combine (a1 ++ a2) (b1 ++ b2) = combine a1 b1 ++ combine a2 b2.
Proof. revert b1. induction a1 as [|a a1 IH]; intros [|b b1] H; cbn in H; try lia; [reflexivity|]. cbn. rewrite IH by lia. reflexivity. Qed.

Lemma square_entries n m : square_array n m <-> has_shape m n n = true.
Proof.
  unfold square_array, has_shape. rewrite andb_true_iff, Nat.eqb_eq, forallb_forall, Forall_forall.
  split; intros [H1 H2]; split; auto; intros row Hr; specialize (H2 row Hr); apply Nat.eqb_eq; auto.
Qed.

Lemma square_row n m i : square_array n m -> (i < n)%nat -> length (nth i m []) = n.
Proof. intros [H1 H2] Hi. rewrite Forall_forall in H2. apply H2, nth_In. lia. Qed.

Lemma square_cols n m : square_array n m -> (0 < n)%nat -> ncols m = n.
Proof. intros H Hn. unfold ncols. destruct m as [|r m]; [destruct H as [H _]; cbn in H; lia|]. apply (square_row n (r :: m) 0 H Hn). Qed.

Lemma scale_square n m c : square_array n m -> square_array n (mat_scale m c).
Proof.
  intros [H1 H2]. split; [unfold mat_scale; rewrite map_length; exact H1|].
  unfold mat_scale. rewrite Forall_map. eapply Forall_impl; [|exact H2]. intros row Hr. rewrite map_length. exact Hr.
Qed.

Lemma scale_entry n m c i j : square_array n m -> (i < n)%nat -> (j < n)%nat -> entry (mat_scale m c) i j = entry m i j * c.
Proof.
  intros H Hi Hj. assert (Hr := square_row n m i H Hi). destruct H as [H1 _]. unfold entry, mat_scale.
  rewrite (nth_map_in _ _ i []) by lia. rewrite (nth_map_in _ _ j 0) by lia. reflexivity.
Qed.

Lemma scale_skew n m c : square_array n m -> skew_symmetric n m -> skew_symmetric n (mat_scale m c).
Proof. intros H Hs i j Hi Hj. rewrite !(scale_entry n) by auto. rewrite (Hs i j) by auto. ring. Qed.

Lemma add_square n a b : square_array n a -> square_array n b -> square_array n (mat_add a b).
Proof.
  intros [A1 A2] [B1 B2]. split; [unfold mat_add; rewrite map_length, combine_length; lia|].
  unfold mat_add. rewrite Forall_map. apply Forall_forall. intros [r s] Hin. cbn [fst snd].
  rewrite map_length, combine_length. rewrite Forall_forall in A2, B2.
  rewrite (A2 r) by (eapply in_combine_l; eauto). rewrite (B2 s) by (eapply in_combine_r; eauto). lia.
Qed.

Lemma add_entry n a b i j : square_array n a -> square_array n b -> (i < n)%nat -> (j < n)%nat ->
  entry (mat_add a b) i j = entry a i j + entry b i j.
Proof.
  intros A B Hi Hj. assert (Ra := square_row n a i A Hi). assert (Rb := square_row n b i B Hi).
  destruct A as [A1 _], B as [B1 _]. unfold entry, mat_add.
  rewrite (nth_map_in _ _ i ([], [])) by (rewrite combine_length; lia). rewrite combine_nth by lia. cbn [fst snd].
  rewrite (nth_map_in _ _ j (0, 0)) by (rewrite combine_length; lia). rewrite combine_nth by lia. reflexivity.
Qed.

Lemma add_skew n a b : square_array n a -> square_array n b -> skew_symmetric n a -> skew_symmetric n b -> skew_symmetric n (mat_add a b).
Proof. intros A B Sa Sb i j Hi Hj. rewrite !(add_entry n) by auto. rewrite (Sa i j), (Sb i j) by auto. ring. Qed.

Lemma dot_sum n u v : length u = n -> length v = n -> dot_product u v = sum_below n (fun i => nth i u 0 * nth i v 0).
Proof.
  revert u v. induction n as [|n IH]; intros u v Hu Hv.
  - destruct u; [|discriminate]. reflexivity.
  - destruct (exists_last (l := u)) as (u' & x & ->); [destruct u; discriminate|].
    destruct (exists_last (l := v)) as (v' & y & ->); [destruct v; discriminate|].
    rewrite app_length in Hu, Hv. cbn in Hu, Hv.
    assert (Lu : length u' = n) by lia. assert (Lv : length v' = n) by lia.
    rewrite sum_S. rewrite !app_nth2 by lia. rewrite Lu, Lv, Nat.sub_diag. cbn [nth].
    unfold dot_product. rewrite combine_app by lia.
    rewrite map_app, rsum_app. cbn [combine map fst snd]. rewrite rsum_cons. change (rsum []) with 0.
    rewrite Rplus_0_r. f_equal.
    fold (dot_product u' v'). rewrite (IH u' v' Lu Lv). apply sum_ext. intros i Hi. rewrite !app_nth1 by lia. reflexivity.
Qed.

Lemma mat_vec_image n m x : square_array n m -> length x = n -> is_image n m x (mat_vec m x).
Proof.
  intros H Hx. assert (L := proj1 H). split; [unfold mat_vec; rewrite map_length; exact L|].
  intros i Hi. unfold mat_vec. rewrite (nth_map_in _ _ i []) by lia. rewrite (dot_sum n) by (auto; apply (square_row n); auto). reflexivity.
Qed.

Lemma mat_col_length m j : length (mat_col m j) = length m.
Proof. apply map_length. Qed.

Lemma mat_col_nth n m i j : square_array n m -> (i < n)%nat -> nth i (mat_col m j) 0 = entry m i j.
Proof.
  intros [H _] Hi. unfold mat_col, entry. rewrite (nth_map_in _ _ i []) by lia. reflexivity.
Qed.

Lemma mul_square n a b : square_array n a -> square_array n b -> square_array n (mat_mul a b).
Proof.
  intros A B. assert (La := proj1 A). split; [unfold mat_mul; rewrite map_length; exact La|].
  unfold mat_mul. rewrite Forall_map. apply Forall_forall. intros row Hr. rewrite map_length, seq_length.
  apply (square_cols n); auto. destruct n; [destruct a; [destruct Hr|discriminate]|lia].
Qed.

Lemma mul_entry n a b i j : square_array n a -> square_array n b -> (i < n)%nat -> (j < n)%nat ->
  entry (mat_mul a b) i j = sum_below n (fun l => entry a i l * entry b l j).
Proof.
  intros A B Hi Hj. assert (La := proj1 A). unfold entry at 1. unfold mat_mul.
  rewrite (nth_map_in _ _ i []) by lia.
  rewrite (square_cols n b B) by lia. rewrite ExpmProofs.nth_map_seq by auto.
  rewrite (dot_sum n) by (first [apply (square_row n); auto|rewrite mat_col_length; apply B]).
  apply sum_ext. intros l Hl. rewrite (mat_col_nth n) by auto. reflexivity.
Qed.

Lemma vec_mat_image n m x : square_array n m -> (0 < n)%nat -> length x = n -> is_row_image n m x (vec_mat x m).
Proof.
  intros H Hn Hx. unfold vec_mat. rewrite (square_cols n m H Hn). split; [rewrite map_length, seq_length; reflexivity|].
  intros j Hj. rewrite ExpmProofs.nth_map_seq by auto. rewrite (dot_sum n) by (first [exact Hx|rewrite mat_col_length; apply H]).
  apply sum_ext. intros l Hl. rewrite (mat_col_nth n) by auto. reflexivity.
Qed.

Lemma norm2_dot x : dot_product x x = norm2 x.
Proof. rewrite (dot_sum (length x)) by reflexivity. unfold norm2. apply sum_ext. intros. ring. Qed.

Lemma list_eq n (x y : list R) : length x = n -> length y = n -> (forall i, (i < n)%nat -> nth i x 0 = nth i y 0) -> x = y.
Proof. intros Hx Hy H. apply (nth_ext x y 0 0); [lia|]. intros i Hi. apply H. lia. Qed.

(** ** Orthogonal maps *)

Lemma square_of_sum n f : (sum_below n f) ^ 2 = sum_below n (fun l => sum_below n (fun m => f l * f m)).
Proof.
  rewrite (sum_ext n (fun l => sum_below n (fun m => f l * f m)) (fun l => f l * sum_below n f)) by (intros; apply sum_scal).
  rewrite sum_scal_r. ring.
Qed.

Lemma image_norm n q x y : orthogonal n q -> length x = n -> is_image n q x y -> norm2 y = norm2 x.
Proof.
  intros (_ & C & _) Hx [Ly E]. unfold norm2. rewrite Ly, Hx.
  rewrite (sum_ext n _ (fun i => sum_below n (fun l => sum_below n (fun m => (entry q i l * nth l x 0) * (entry q i m * nth m x 0))))).
  2:{ intros i Hi. rewrite E by auto. apply square_of_sum. }
  rewrite sum_swap. apply sum_ext. intros l Hl. rewrite sum_swap.
  rewrite (sum_ext n _ (fun m => kronecker l m * (nth l x 0 * nth m x 0))).
  - rewrite (sum_kronecker n (fun m => nth l x 0 * nth m x 0)) by auto. ring.
  - intros m Hm. rewrite <- (C l m Hl Hm), <- sum_scal_r. apply sum_ext. intros. ring.
Qed.

Lemma row_image_norm n q x y : orthogonal n q -> length x = n -> is_row_image n q x y -> norm2 y = norm2 x.
Proof.
  intros (_ & _ & C) Hx [Ly E]. unfold norm2. rewrite Ly, Hx.
  rewrite (sum_ext n _ (fun i => sum_below n (fun l => sum_below n (fun m => (nth l x 0 * entry q l i) * (nth m x 0 * entry q m i))))).
  2:{ intros i Hi. rewrite E by auto. apply square_of_sum. }
  rewrite sum_swap. apply sum_ext. intros l Hl. rewrite sum_swap.
  rewrite (sum_ext n _ (fun m => kronecker l m * (nth l x 0 * nth m x 0))).
  - rewrite (sum_kronecker n (fun m => nth l x 0 * nth m x 0)) by auto. ring.
  - intros m Hm. rewrite <- (C l m Hl Hm), <- sum_scal_r. apply sum_ext. intros. ring.
Qed.

(** A left inverse recovers the argument. *)
Lemma image_cancel n p q x y i : inverse_pair n p q -> is_image n q x y -> (i < n)%nat ->
  sum_below n (fun l => entry p i l * nth l y 0) = nth i x 0.
Proof.
  intros P [Ly E] Hi.
  rewrite (sum_ext n _ (fun l => sum_below n (fun m => (entry p i l * entry q l m) * nth m x 0))).
  2:{ intros l Hl. rewrite E by auto. rewrite <- sum_scal. apply sum_ext. intros. ring. }
  rewrite sum_swap. rewrite (sum_ext n _ (fun m => kronecker i m * nth m x 0)).
  - apply (sum_kronecker n (fun m => nth m x 0)), Hi.
  - intros m Hm. rewrite <- (P i m Hi Hm), <- sum_scal_r. reflexivity.
Qed.

Lemma image_injective n p q x x' y : inverse_pair n p q -> length x = n -> length x' = n ->
  is_image n q x y -> is_image n q x' y -> x = x'.
Proof.
  intros P Lx Lx' E E'. apply (list_eq n); auto. intros i Hi.
  rewrite <- (image_cancel n p q x y i P E Hi). apply (image_cancel n p q x' y i P E' Hi).
Qed.

Lemma row_image_injective n p q x x' y : inverse_pair n q p -> length x = n -> length x' = n ->
  is_row_image n q x y -> is_row_image n q x' y -> x = x'.
Proof.
  intros P Lx Lx' E E'.
  assert (K : forall z, is_row_image n q z y -> forall i, (i < n)%nat -> sum_below n (fun l => nth l y 0 * entry p l i) = nth i z 0).
  { intros z [_ Ez] i Hi.
    rewrite (sum_ext n _ (fun l => sum_below n (fun m => nth m z 0 * (entry q m l * entry p l i)))).
    2:{ intros l Hl. rewrite Ez by auto. rewrite <- sum_scal_r. apply sum_ext. intros. ring. }
    rewrite sum_swap. rewrite (sum_ext n _ (fun m => nth m z 0 * kronecker m i)).
    - apply (sum_kronecker_r n (fun m => nth m z 0)), Hi.
    - intros m Hm. rewrite <- (P m i Hm Hi), <- sum_scal. reflexivity. }
  apply (list_eq n); auto. intros i Hi. rewrite <- (K x E i Hi). apply (K x' E' i Hi).
Qed.

Definition transpose (n : nat) (q : matrix) : matrix := map (fun i => map (fun j => entry q j i) (seq 0 n)) (seq 0 n).

Lemma transpose_square n q : square_array n (transpose n q).
Proof. apply (tabulated_square n (fun i j => entry q j i)). Qed.

Lemma transpose_entry n q i j : (i < n)%nat -> (j < n)%nat -> entry (transpose n q) i j = entry q j i.
Proof. apply (tabulated_entry n (fun i j => entry q j i)). Qed.

Lemma orthogonal_inverse n q : orthogonal n q -> inverse_pair n (transpose n q) q /\ inverse_pair n q (transpose n q).
Proof.
  intros (_ & C & D). split; intros i j Hi Hj.
  - rewrite <- (C i j Hi Hj). apply sum_ext. intros l Hl. rewrite transpose_entry by auto. reflexivity.
  - rewrite <- (D i j Hi Hj). apply sum_ext. intros l Hl. rewrite transpose_entry by auto. reflexivity.
Qed.

Lemma orthogonal_transpose n q : orthogonal n q -> orthogonal n (transpose n q).
Proof.
  intros (_ & C & D). split; [apply transpose_square|]. split; intros i j Hi Hj.
  - rewrite <- (D i j Hi Hj). apply sum_ext. intros l Hl. rewrite !transpose_entry by auto. reflexivity.
  - rewrite <- (C i j Hi Hj). apply sum_ext. intros l Hl. rewrite !transpose_entry by auto. reflexivity.
Qed.

(** Composition of images. *)
Lemma image_compose n a b x y z : is_image n b x y -> is_image n a y z ->
  forall m, square_array n m -> (forall i j, (i < n)%nat -> (j < n)%nat -> entry m i j = sum_below n (fun l => entry a i l * entry b l j)) ->
  is_image n m x z.
Proof.
  intros [Ly Ey] [Lz Ez] m _ Hm. split; [exact Lz|]. intros i Hi. rewrite Ez by auto.
  rewrite (sum_ext n _ (fun l => sum_below n (fun k => (entry a i l * entry b l k) * nth k x 0))).
  2:{ intros l Hl. rewrite Ey by auto. rewrite <- sum_scal. apply sum_ext. intros. ring. }
  rewrite sum_swap. apply sum_ext. intros k Hk. rewrite Hm by auto. rewrite <- sum_scal_r. reflexivity.
Qed.

Lemma image_unique n m x y z : is_image n m x y -> is_image n m x z -> y = z.
Proof. intros [Ly Ey] [Lz Ez]. apply (list_eq n); auto. intros i Hi. rewrite Ey, Ez by auto. reflexivity. Qed.

(** ** so_generator and skew_symmetrize *)

Lemma generator_ok n i j : (0 <= i < j)%Z -> (j < n)%Z -> exists m, so_generator n i j = Ok m /\ square_array (Z.to_nat n) m /\
  forall k l, (k < Z.to_nat n)%nat -> (l < Z.to_nat n)%nat -> entry m k l = generator_entry (Z.to_nat i) (Z.to_nat j) k l.
Proof.
  intros H1 H2. unfold so_generator.
  destruct (Z.ltb_spec n 2); [lia|]. destruct (Z.leb_spec 0 i); [|lia]. destruct (Z.ltb_spec i j); [|lia]. destruct (Z.ltb_spec j n); [|lia].
  cbn [andb negb]. set (N := Z.to_nat n). set (I := Z.to_nat i). set (J := Z.to_nat j).
  assert (HI : (I < N)%nat) by (unfold I, N; lia). assert (HJ : (J < N)%nat) by (unfold J, N; lia). assert (HIJ : (I < J)%nat) by (unfold I, J; lia).
  unfold assign.
  destruct (modify_entries N _ _ I J (fun _ => -1) (np_full_entries N 0) HI HJ) as (m1 & -> & E1). cbn [bind].
  destruct (modify_entries N m1 _ J I (fun _ => 1) E1 HJ HI) as (m2 & -> & E2).
  exists m2. split; [reflexivity|]. destruct E2 as [S2 E2]. split; [apply square_entries, S2|].
  intros k l Hk Hl. rewrite E2 by auto. unfold generator_entry. cases.
Qed.

Lemma generator_accepted n i j : (exists m, so_generator n i j = Ok m) <-> (0 <= i < j)%Z /\ (j < n)%Z.
Proof.
  split.
  - intros [m E]. unfold so_generator in E.
    destruct (Z.ltb_spec n 2); [discriminate|]. destruct (Z.leb_spec 0 i); [|discriminate]. destruct (Z.ltb_spec i j); [|discriminate].
    destruct (Z.ltb_spec j n); [|discriminate]. lia.
  - intros [H1 H2]. destruct (generator_ok n i j H1 H2) as (m & E & _). eauto.
Qed.

Lemma generator_rejected n i j : ~ ((0 <= i < j)%Z /\ (j < n)%Z) -> so_generator n i j = Err ValueError.
Proof.
  intros H. unfold so_generator.
  destruct (Z.ltb_spec n 2); [reflexivity|]. destruct (Z.leb_spec 0 i); [|reflexivity]. destruct (Z.ltb_spec i j); [|reflexivity].
  destruct (Z.ltb_spec j n); [|reflexivity]. exfalso. lia.
Qed.

Lemma generator_skew i j k l : (i < j)%nat -> generator_entry i j k l = - generator_entry i j l k.
Proof. intros H. unfold generator_entry. repeat (cases1; try (exfalso; lia); cbn [andb orb negb]); try lra. Qed.

Lemma symmetrize_ok n a : square_array n a -> exists b, skew_symmetrize a = Ok b /\ square_array n b /\ skew_symmetric n b /\
  forall i j, (i < n)%nat -> (j < n)%nat -> entry b i j = (entry a i j - entry a j i) / 2.
Proof.
  intros H. unfold skew_symmetrize. assert (L := proj1 H). rewrite L. apply square_entries in H. rewrite H. cbn [negb].
  eexists. split; [reflexivity|]. split; [apply (tabulated_square n (fun i j => / 2 * (entry a i j - entry a j i)))|].
  split; intros i j Hi Hj; rewrite !(tabulated_entry n (fun i j => / 2 * (entry a i j - entry a j i))) by auto; field.
Qed.

Lemma square_eq n a b : square_array n a -> square_array n b -> (forall i j, (i < n)%nat -> (j < n)%nat -> entry a i j = entry b i j) -> a = b.
Proof.
  intros A B H. apply (nth_ext a b [] []); [rewrite (proj1 A), (proj1 B); reflexivity|].
  intros i Hi. rewrite (proj1 A) in Hi. apply (list_eq n); [apply square_row; auto|apply square_row; auto|].
  intros j Hj. apply (H i j Hi Hj).
Qed.

Lemma symmetrize_skew n a : square_array n a -> skew_symmetric n a -> skew_symmetrize a = Ok a.
Proof.
  intros H Hs. destruct (symmetrize_ok n a H) as (b & E & B & _ & F). rewrite E. f_equal.
  apply (square_eq n); auto. intros i j Hi Hj. rewrite F by auto. rewrite (Hs j i) by auto. field.
Qed.

Lemma symmetrize_idempotent a b : skew_symmetrize a = Ok b -> skew_symmetrize b = Ok b.
Proof.
  intros E. assert (S : square_array (length a) a).
  { unfold skew_symmetrize in E. destruct (has_shape a (length a) (length a)) eqn:Hs; [|discriminate]. apply square_entries, Hs. }
  destruct (symmetrize_ok _ a S) as (b' & E' & B & K & _). rewrite E in E'. injection E' as <-. apply (symmetrize_skew (length a)); auto.
Qed.

(** ** Spirals *)

Lemma eye_square n : square_array n (np_eye n).
Proof. apply square_entries, (np_eye_entries n). Qed.

Lemma init_ok n g initial speed : square_array n g -> match initial with None => True | Some m => square_array n m end ->
  spiral_init g initial speed = Ok {| sp_initial := match initial with None => np_eye n | Some m => m end; sp_generator := mat_scale g speed |}.
Proof.
  intros H Hm. assert (S := scale_square n g speed H). unfold spiral_init. rewrite (proj1 S).
  assert (S' := S). apply square_entries in S'. rewrite S'. cbn [negb].
  destruct initial as [m|]; [|reflexivity]. apply square_entries in Hm. rewrite Hm. reflexivity.
Qed.

Lemma init_rejected g initial speed e : spiral_init g initial speed = Err e -> e = ValueError /\
  (~ square_array (length g) g \/ exists m, initial = Some m /\ ~ square_array (length g) m).
Proof.
  unfold spiral_init. assert (L : length (mat_scale g speed) = length g) by apply map_length. rewrite L.
  destruct (has_shape (mat_scale g speed) (length g) (length g)) eqn:Hs; cbn [negb].
  - destruct initial as [m|]; [|discriminate].
    destruct (has_shape m (length g) (length g)) eqn:Hm; [discriminate|]. intros [= <-]. split; [reflexivity|].
    right. exists m. split; [reflexivity|]. intros K. apply square_entries in K. congruence.
  - intros [= <-]. split; [reflexivity|]. left. intros K. apply (scale_square _ _ speed), square_entries in K. congruence.
Qed.

Lemma init_inv g initial speed s : spiral_init g initial speed = Ok s -> square_array (length g) g /\
  sp_generator s = mat_scale g speed /\ sp_initial s = match initial with None => np_eye (length g) | Some m => m end /\
  square_array (length g) (sp_initial s).
Proof.
  unfold spiral_init. assert (L : length (mat_scale g speed) = length g) by apply map_length. rewrite L.
  destruct (has_shape (mat_scale g speed) (length g) (length g)) eqn:Hs; cbn [negb]; [|discriminate].
  assert (G : square_array (length g) g).
  { apply square_entries in Hs. destruct Hs as [_ Hs]. split; [reflexivity|]. unfold mat_scale in Hs. rewrite Forall_map in Hs.
    eapply Forall_impl; [|exact Hs]. intros row Hr. cbn in Hr. rewrite map_length in Hr. exact Hr. }
  destruct initial as [m|].
  - destruct (has_shape m (length g) (length g)) eqn:Hm; cbn [negb]; [|discriminate]. intros [= <-]. cbn.
    repeat split; auto; try apply G. apply square_entries, Hm. apply square_entries, Hm.
  - intros [= <-]. cbn. repeat split; auto; try apply G; apply eye_square.
Qed.

Section Spiral.
  Variables (expm : matrix -> matrix) (n : nat) (g : matrix) (initial : option matrix) (speed : R) (s : spiral).
  Hypothesis He : is_expm expm.
  Hypothesis Hg : skew_symmetric (length g) g.
  Hypothesis Hn : n = length g.
  Hypothesis Hs : spiral_init g initial speed = Ok s.

  Let m0 := match initial with None => np_eye n | Some m => m end.
  (* The rotation applied to the points with squared norm r. *)
  Let q r := expm (mat_scale (mat_scale g speed) r).

  Lemma spiral_square : square_array n g /\ square_array n m0.
  Proof.
    destruct (init_inv _ _ _ _ Hs) as (A & _ & C & D). unfold m0. rewrite Hn. split; [exact A|]. rewrite <- C. exact D.
  Qed.

  Lemma rotation_orthogonal r : orthogonal n (q r).
  Proof.
    destruct spiral_square as [G _]. unfold q. rewrite <- Hn in Hg. apply expm_orthogonal; auto.
    - apply scale_square, scale_square, G.
    - apply scale_skew; [apply scale_square, G|]. apply scale_skew; auto.
  Qed.

  Lemma spiral_parts x : length x = n -> exists z y, spiral_call expm s x = Ok y /\
    is_image n (q (norm2 x)) x z /\ is_image n m0 z y.
  Proof.
    intros Lx. destruct spiral_square as [G M]. assert (Q := rotation_orthogonal (norm2 x)).
    destruct (init_inv _ _ _ _ Hs) as (_ & Eg & Em & _).
    exists (mat_vec (q (norm2 x)) x), (mat_vec m0 (mat_vec (q (norm2 x)) x)).
    assert (I1 := mat_vec_image n (q (norm2 x)) x (proj1 Q) Lx).
    assert (I2 := mat_vec_image n m0 _ M (proj1 I1)).
    split; [|split; auto].
    unfold spiral_call. rewrite Eg. unfold mat_scale at 1. rewrite map_length, Lx, Hn, Nat.eqb_refl. cbn [negb].
    rewrite norm2_dot. fold (q (norm2 x)). rewrite Em. rewrite <- Hn. fold m0. f_equal.
    apply (image_unique n (mat_mul m0 (q (norm2 x))) x).
    - apply mat_vec_image; auto. apply mul_square; auto. apply Q.
    - eapply image_compose; [exact I1|exact I2|apply mul_square; auto; apply Q|]. intros. apply mul_entry; auto. apply Q.
  Qed.

  Lemma spiral_length_checked x : length x <> n -> spiral_call expm s x = Err TypeError.
  Proof.
    intros Lx. unfold spiral_call. destruct (init_inv _ _ _ _ Hs) as (_ & -> & _). unfold mat_scale. rewrite map_length, <- Hn.
    apply Nat.eqb_neq in Lx. rewrite Lx. reflexivity.
  Qed.

  Lemma eye_image x y : is_image n (np_eye n) x y -> length x = n -> y = x.
  Proof.
    intros [Ly E] Lx. apply (list_eq n); auto. intros i Hi. rewrite E by auto.
    rewrite <- (sum_kronecker n (fun l => nth l x 0) i Hi). apply sum_ext. intros l Hl.
    destruct (np_eye_entries n) as [_ K]. rewrite K by auto. reflexivity.
  Qed.

  Lemma spiral_norm : initial = None -> forall x, length x = n -> exists y, spiral_call expm s x = Ok y /\ length y = n /\
    norm2 y = norm2 x /\ is_image n (q (norm2 x)) x y /\ orthogonal n (q (norm2 x)).
  Proof.
    intros E0 x Lx. destruct (spiral_parts x Lx) as (z & y & E & I1 & I2). exists y. split; [exact E|].
    unfold m0 in I2. rewrite E0 in I2. rewrite (eye_image z y I2 (proj1 I1)) in *.
    split; [apply I1|]. split; [|split; [exact I1|apply rotation_orthogonal]].
    apply (image_norm n (q (norm2 x))); auto. apply rotation_orthogonal.
  Qed.

  (* An inverse of the initial matrix. *)
  Variable m1 : matrix.
  Hypothesis inv_l : inverse_pair n m1 m0.
  Hypothesis inv_r : inverse_pair n m0 m1.
  Hypothesis sq1 : square_array n m1.

  Lemma spiral_injective x x' y : length x = n -> length x' = n -> spiral_call expm s x = Ok y -> spiral_call expm s x' = Ok y -> x = x'.
  Proof.
    intros Lx Lx' E E'.
    destruct (spiral_parts x Lx) as (z & y1 & E1 & I1 & I2). rewrite E1 in E. injection E as ->.
    destruct (spiral_parts x' Lx') as (z' & y2 & E2 & I1' & I2'). rewrite E2 in E'. injection E' as ->.
    assert (z = z') as <- by (apply (image_injective n m1 m0 z z' y); auto; [apply I1|apply I1']).
    assert (N : norm2 x = norm2 x').
    { rewrite <- (image_norm n _ x z (rotation_orthogonal (norm2 x)) Lx I1).
      apply (image_norm n _ x' z (rotation_orthogonal (norm2 x')) Lx' I1'). }
    rewrite <- N in I1'. destruct (orthogonal_inverse n _ (rotation_orthogonal (norm2 x))) as [P _].
    apply (image_injective n _ _ x x' z P); auto.
  Qed.

  Lemma image_back a b x y : inverse_pair n a b -> square_array n b -> length y = n -> is_image n b y x -> is_image n a x y.
  Proof.
    intros P _ Ly I. split; [exact Ly|]. intros i Hi. symmetry. apply (image_cancel n a b y x i P I Hi).
  Qed.

  Lemma spiral_surjective y : length y = n -> exists x, length x = n /\ spiral_call expm s x = Ok y.
  Proof.
    intros Ly. set (z := mat_vec m1 y). assert (Iz : is_image n m1 y z) by (apply mat_vec_image; auto).
    set (t := transpose n (q (norm2 z))). set (x := mat_vec t z).
    assert (Q := rotation_orthogonal (norm2 z)). assert (Lz : length z = n) by apply Iz.
    assert (Ix : is_image n t z x) by (apply mat_vec_image; auto; apply transpose_square).
    assert (Lx : length x = n) by apply Ix. exists x. split; [exact Lx|].
    assert (N : norm2 x = norm2 z) by (apply (image_norm n t); auto; apply orthogonal_transpose, Q).
    destruct (spiral_parts x Lx) as (z' & y' & E & I1 & I2). rewrite E. f_equal. rewrite N in I1.
    destruct (orthogonal_inverse n _ Q) as [_ P].
    assert (z' = z) as -> by (eapply image_unique; [exact I1|]; apply (image_back _ t); auto; apply transpose_square).
    eapply image_unique; [exact I2|]. apply (image_back m0 m1); auto.
  Qed.
End Spiral.

(** A generator which is not skew-symmetric is accepted, and the map need not be injective or preserve norms. *)
Lemma flow_1x1 c t : flow 1 (entry [[c]]) t 0 0 = exp (c * t).
Proof.
  unfold flow. rewrite <- (is_pseries_unique _ _ _ (is_exp_Reals (c * t))). unfold PSeries. apply Series_ext. intros k.
  unfold coef. assert (P : power_entry 1 (entry [[c]]) k 0 0 = c ^ k).
  { induction k as [|k IH]; [reflexivity|]. cbn [power_entry pow]. rewrite <- IH. unfold sum_below. cbn. ring. }
  rewrite P, Rpow_mult_distr. unfold Rdiv. ring.
Qed.

Lemma spiral_1x1 expm c x : is_expm expm -> exists s, spiral_init [[c]] None 1 = Ok s /\ spiral_call expm s [x] = Ok [exp (c * (x * x)) * x].
Proof.
  intros He. assert (S : square_array 1 [[c]]) by (split; repeat constructor).
  eexists. split; [apply (init_ok 1); auto|].
  unfold spiral_call. cbn [length sp_generator sp_initial mat_scale map Nat.eqb negb].
  assert (Hd : dot_product [x] [x] = x * x) by (unfold dot_product; cbn; ring). rewrite Hd.
  assert (S' : square_array 1 [[c * 1 * (x * x)]]) by (split; repeat constructor).
  assert (K := expm_entries expm 1 _ 0 0 He S' ltac:(lia) ltac:(lia)). rewrite flow_1x1 in K.
  destruct (He 1%nat _ S') as [[L1 L2] _].
  destruct (expm [[c * 1 * (x * x)]]) as [|r [|r' l]]; try discriminate. inversion L2 as [|? ? Hr _]; subst.
  destruct r as [|v [|v' r]]; try discriminate. unfold entry in K. cbn [nth] in K.
  unfold mat_vec, mat_mul, np_eye, dot_product, mat_col, ncols. cbn. rewrite K.
  replace (c * 1 * (x * x) * 1) with (c * (x * x)) by ring. f_equal. f_equal. ring.
Qed.

(** ** The fixed rotations of rotate.py *)

Definition skew_square (n : nat) (m : matrix) : Prop := square_array n m /\ skew_symmetric n m.

Lemma generator_skew_square n i j : (0 <= i < j)%Z -> (j < n)%Z -> exists m, so_generator n i j = Ok m /\ skew_square (Z.to_nat n) m.
Proof.
  intros H1 H2. destruct (generator_ok n i j H1 H2) as (m & E & S & F). exists m. split; [exact E|]. split; [exact S|].
  intros k l Hk Hl. rewrite !F by auto. apply generator_skew. lia.
Qed.

Lemma rotation_spec expm n so x : is_expm expm -> skew_square n so -> (0 < n)%nat -> length x = n ->
  is_row_image n (expm so) x (vec_mat x (expm so)) /\ orthogonal n (expm so).
Proof.
  intros He [S K] Hn Lx. assert (O := expm_orthogonal expm n so He S K). split; [|exact O]. apply vec_mat_image; auto. apply O.
Qed.

Lemma rotate_x_spec expm dim : is_expm expm -> (3 <= dim)%Z -> exists q, orthogonal (Z.to_nat dim) q /\
  forall x, length x = Z.to_nat dim -> exists y, rotate_x expm dim x = Ok y /\ is_row_image (Z.to_nat dim) q x y.
Proof.
  intros He Hd. unfold rotate_x.
  destruct (generator_skew_square dim 0 1) as (a & -> & A1 & A2); [lia|lia|].
  destruct (generator_skew_square dim 1 2) as (b & -> & B1 & B2); [lia|lia|].
  destruct (generator_skew_square dim 0 2) as (c & -> & C1 & C2); [lia|lia|].
  cbn [bind]. set (so := mat_add _ _).
  assert (S : skew_square (Z.to_nat dim) so).
  { unfold so. split.
    - repeat (apply add_square || apply scale_square); auto.
    - repeat (apply add_skew || apply scale_skew || apply add_square || apply scale_square); auto. }
  exists (expm so). split; [apply expm_orthogonal; auto; apply S|].
  intros x Lx. rewrite (proj1 (proj1 S)), Lx, Nat.eqb_refl. cbn [negb]. eexists. split; [reflexivity|].
  apply (rotation_spec expm (Z.to_nat dim)); auto. lia.
Qed.

Lemma rotate_y_spec expm dim : is_expm expm -> (3 <= dim)%Z -> exists q, orthogonal (Z.to_nat dim) q /\
  forall x, length x = Z.to_nat dim -> exists y, rotate_y expm dim x = Ok y /\ is_row_image (Z.to_nat dim) q x y.
Proof.
  intros He Hd. unfold rotate_y.
  destruct (generator_skew_square dim 0 1) as (a & -> & A1 & A2); [lia|lia|].
  destruct (generator_skew_square dim 1 2) as (b & -> & B1 & B2); [lia|lia|].
  cbn [bind]. set (so := mat_add _ _).
  assert (S : skew_square (Z.to_nat dim) so).
  { unfold so. split.
    - repeat (apply add_square || apply scale_square); auto.
    - repeat (apply add_skew || apply scale_skew || apply add_square || apply scale_square); auto. }
  exists (expm so). split; [apply expm_orthogonal; auto; apply S|].
  intros x Lx. rewrite (proj1 (proj1 S)), Lx, Nat.eqb_refl. cbn [negb]. eexists. split; [reflexivity|].
  apply (rotation_spec expm (Z.to_nat dim)); auto. lia.
Qed.

Lemma rotation_isometry n q (f : list R -> result (list R)) : orthogonal n q ->
  (forall x, length x = n -> exists y, f x = Ok y /\ is_row_image n q x y) ->
  (forall x y, length x = n -> f x = Ok y -> length y = n /\ norm2 y = norm2 x) /\
  (forall x x' y, length x = n -> length x' = n -> f x = Ok y -> f x' = Ok y -> x = x') /\
  (forall y, length y = n -> exists x, length x = n /\ f x = Ok y).
Proof.
  intros O H. split; [|split].
  - intros x y Lx E. destruct (H x Lx) as (y' & E' & I). rewrite E in E'. injection E' as <-. split; [apply I|].
    apply (row_image_norm n q); auto.
  - intros x x' y Lx Lx' E E'. destruct (H x Lx) as (y1 & E1 & I1). destruct (H x' Lx') as (y2 & E2 & I2).
    rewrite E in E1. injection E1 as <-. rewrite E' in E2. injection E2 as <-.
    destruct (orthogonal_inverse n q O) as [_ P]. apply (row_image_injective n (transpose n q) q x x' y); auto.
  - intros y Ly. set (x := map (fun j => sum_below n (fun l => nth l y 0 * entry q j l)) (seq 0 n)).
    assert (Lx : length x = n) by (unfold x; rewrite map_length, seq_length; reflexivity).
    exists x. split; [exact Lx|]. destruct (H x Lx) as (y' & E & [Ly' I]). rewrite E. f_equal. apply (list_eq n); auto.
    intros j Hj. rewrite I by auto.
    rewrite (sum_ext n _ (fun l => sum_below n (fun m => nth m y 0 * (entry q l m * entry q l j)))).
    2:{ intros l Hl. unfold x. rewrite ExpmProofs.nth_map_seq by auto. rewrite <- sum_scal_r. apply sum_ext. intros. ring. }
    rewrite sum_swap. rewrite (sum_ext n _ (fun m => nth m y 0 * kronecker m j)).
    + apply (sum_kronecker_r n (fun m => nth m y 0)), Hj.
    + intros m Hm. destruct O as (_ & C & _). rewrite <- (C m j Hm Hj), <- sum_scal. reflexivity.
Qed.

(** ** The formulas *)

Lemma power_ext n a b k : (forall i j, (i < n)%nat -> (j < n)%nat -> a i j = b i j) -> forall i j, (i < n)%nat -> (j < n)%nat ->
  power_entry n a k i j = power_entry n b k i j.
Proof.
  intros H. induction k as [|k IH]; intros i j Hi Hj; [reflexivity|]. cbn [power_entry]. apply sum_ext. intros l Hl. rewrite H, IH by auto. reflexivity.
Qed.

Lemma expm_of_entries expm n m a : is_expm expm -> square_array n m -> (forall i j, (i < n)%nat -> (j < n)%nat -> entry m i j = a i j) ->
  is_exponential n a (expm m).
Proof.
  intros He Hm Ha. destruct (He n m Hm) as [S E]. split; [exact S|]. intros i j Hi Hj.
  apply (is_series_ext (fun k => power_entry n (entry m) k i j / INR (fact k))); [|apply E; auto].
  intros k. rewrite (power_ext n _ a k Ha) by auto. reflexivity.
Qed.

Lemma spiral_formula expm g initial speed s x : is_expm expm -> spiral_init g initial speed = Ok s -> length x = length g ->
  exists q z y, spiral_call expm s x = Ok y /\ is_exponential (length g) (fun i j => speed * norm2 x * entry g i j) q /\
    is_image (length g) q x z /\ match initial with None => y = z | Some m => is_image (length g) m z y end.
Proof.
  intros He Hs Lx. destruct (init_inv _ _ _ _ Hs) as (G & Eg & Em & M). set (n := length g) in *.
  set (q := expm (mat_scale (mat_scale g speed) (norm2 x))).
  assert (Sq : square_array n (mat_scale (mat_scale g speed) (norm2 x))) by (apply scale_square, scale_square, G).
  assert (Q : square_array n q) by apply (He n _ Sq).
  assert (I1 := mat_vec_image n q x Q Lx).
  assert (I2 := mat_vec_image n (sp_initial s) _ M (proj1 I1)).
  exists q, (mat_vec q x), (mat_vec (sp_initial s) (mat_vec q x)). split; [|split; [|split; [exact I1|]]].
  - unfold spiral_call. rewrite Eg. unfold mat_scale at 1. rewrite map_length. fold n. rewrite Lx, Nat.eqb_refl. cbn [negb].
    rewrite norm2_dot. fold q. f_equal. apply (image_unique n (mat_mul (sp_initial s) q) x).
    + apply mat_vec_image; auto. apply mul_square; auto.
    + eapply image_compose; [exact I1|exact I2|apply mul_square; auto|]. intros. apply mul_entry; auto.
  - apply expm_of_entries; auto. intros i j Hi Hj. rewrite (scale_entry n) by (auto; apply scale_square, G). rewrite (scale_entry n) by auto. ring.
  - destruct initial as [m|]; [rewrite Em in *; exact I2|]. rewrite Em in *. apply (eye_image n); auto. apply I1.
Qed.

Lemma rotate_x_formula expm dim x : is_expm expm -> (3 <= dim)%Z -> length x = Z.to_nat dim -> exists q y, rotate_x expm dim x = Ok y /\
  is_exponential (Z.to_nat dim) (fun k l => 2 * generator_entry 0 1 k l - generator_entry 1 2 k l - generator_entry 0 2 k l) q /\
  is_row_image (Z.to_nat dim) q x y.
Proof.
  intros He Hd Lx. unfold rotate_x.
  destruct (generator_ok dim 0 1) as (a & -> & A1 & A2); [lia|lia|].
  destruct (generator_ok dim 1 2) as (b & -> & B1 & B2); [lia|lia|].
  destruct (generator_ok dim 0 2) as (c & -> & C1 & C2); [lia|lia|].
  cbn [bind]. set (so := mat_add _ _). set (n := Z.to_nat dim) in *.
  assert (S : square_array n so) by (unfold so; repeat (apply add_square || apply scale_square); auto).
  exists (expm so), (vec_mat x (expm so)). rewrite (proj1 S), Lx, Nat.eqb_refl. cbn [negb]. split; [reflexivity|]. split.
  - apply expm_of_entries; auto. intros k l Hk Hl. unfold so.
    repeat first [rewrite (add_entry n) by (auto; repeat (apply add_square || apply scale_square); auto)
                 |rewrite (scale_entry n) by (auto; repeat (apply add_square || apply scale_square); auto)].
    rewrite A2, B2, C2 by auto. change (Z.to_nat 0) with 0%nat; change (Z.to_nat 1) with 1%nat; change (Z.to_nat 2) with 2%nat. ring.
  - apply vec_mat_image; auto; [apply (He n _ S)|unfold n; lia].
Qed.

Lemma rotate_y_formula expm dim x : is_expm expm -> (3 <= dim)%Z -> length x = Z.to_nat dim -> exists q y, rotate_y expm dim x = Ok y /\
  is_exponential (Z.to_nat dim) (fun k l => generator_entry 0 1 k l + 2 * generator_entry 1 2 k l) q /\
  is_row_image (Z.to_nat dim) q x y.
Proof.
  intros He Hd Lx. unfold rotate_y.
  destruct (generator_ok dim 0 1) as (a & -> & A1 & A2); [lia|lia|].
  destruct (generator_ok dim 1 2) as (b & -> & B1 & B2); [lia|lia|].
  cbn [bind]. set (so := mat_add _ _). set (n := Z.to_nat dim) in *.
  assert (S : square_array n so) by (unfold so; repeat (apply add_square || apply scale_square); auto).
  exists (expm so), (vec_mat x (expm so)). rewrite (proj1 S), Lx, Nat.eqb_refl. cbn [negb]. split; [reflexivity|]. split.
  - apply expm_of_entries; auto. intros k l Hk Hl. unfold so.
    repeat first [rewrite (add_entry n) by (auto; repeat (apply add_square || apply scale_square); auto)
                 |rewrite (scale_entry n) by (auto; repeat (apply add_square || apply scale_square); auto)].
    rewrite A2, B2 by auto. change (Z.to_nat 0) with 0%nat; change (Z.to_nat 1) with 1%nat; change (Z.to_nat 2) with 2%nat. ring.
  - apply vec_mat_image; auto; [apply (He n _ S)|unfold n; lia].
Qed.

Lemma rotate_isometry expm dim f : is_expm expm -> (3 <= dim)%Z -> f = rotate_x expm dim \/ f = rotate_y expm dim ->
  (forall x y, length x = Z.to_nat dim -> f x = Ok y -> length y = Z.to_nat dim /\ norm2 y = norm2 x) /\
  (forall x x' y, length x = Z.to_nat dim -> length x' = Z.to_nat dim -> f x = Ok y -> f x' = Ok y -> x = x') /\
  (forall y, length y = Z.to_nat dim -> exists x, length x = Z.to_nat dim /\ f x = Ok y).
Proof.
  intros He Hd [->| ->].
  - destruct (rotate_x_spec expm dim He Hd) as (q & O & H). exact (rotation_isometry _ q _ O H).
  - destruct (rotate_y_spec expm dim He Hd) as (q & O & H). exact (rotation_isometry _ q _ O H).
Qed.

(** Norm preservation and bijectivity, with the hypotheses spelled out. *)
Lemma spiral_preserves_norm expm g speed s x : is_expm expm -> skew_symmetric (length g) g -> spiral_init g None speed = Ok s ->
  length x = length g -> exists q y, spiral_call expm s x = Ok y /\ orthogonal (length g) q /\ is_image (length g) q x y /\
    norm2 y = norm2 x /\ forall x', length x' = length g -> norm2 x' = norm2 x -> exists y', spiral_call expm s x' = Ok y' /\ is_image (length g) q x' y'.
Proof.
  intros He Hg Hs Lx. destruct (spiral_norm expm (length g) g None speed s He Hg eq_refl Hs eq_refl x Lx) as (y & E & Ly & N & I & O).
  exists (expm (mat_scale (mat_scale g speed) (norm2 x))), y. repeat (split; auto).
  intros x' Lx' Nx. destruct (spiral_norm expm (length g) g None speed s He Hg eq_refl Hs eq_refl x' Lx') as (y' & E' & _ & _ & I' & _).
  exists y'. split; [exact E'|]. rewrite <- Nx. exact I'.
Qed.

Lemma eye_inverse n : inverse_pair n (np_eye n) (np_eye n).
Proof.
  intros i j Hi Hj. destruct (np_eye_entries n) as [_ K].
  rewrite (sum_ext n _ (fun l => kronecker i l * kronecker l j)).
  - apply (sum_kronecker n (fun l => kronecker l j)), Hi.
  - intros l Hl. rewrite !K by auto. reflexivity.
Qed.

Lemma spiral_bijective expm g initial speed s : is_expm expm -> skew_symmetric (length g) g -> spiral_init g initial speed = Ok s ->
  match initial with None => True | Some m => exists m', square_array (length g) m' /\ inverse_pair (length g) m m' /\ inverse_pair (length g) m' m end ->
  forall y, length y = length g -> exists x, length x = length g /\ spiral_call expm s x = Ok y /\
    forall x', length x' = length g -> spiral_call expm s x' = Ok y -> x' = x.
Proof.
  intros He Hg Hs Hm.
  assert (exists m1, square_array (length g) m1 /\ inverse_pair (length g) (match initial with None => np_eye (length g) | Some m => m end) m1 /\
    inverse_pair (length g) m1 (match initial with None => np_eye (length g) | Some m => m end)) as (m1 & S1 & R1 & L1).
  { destruct initial as [m|]; [exact Hm|]. exists (np_eye (length g)). split; [apply eye_square|]. split; apply eye_inverse. }
  intros y Ly.
  destruct (spiral_surjective expm (length g) g initial speed s He Hg eq_refl Hs m1 R1 S1 y Ly) as (x & Lx & E).
  exists x. split; [exact Lx|]. split; [exact E|]. intros x' Lx' E'.
  exact (spiral_injective expm (length g) g initial speed s He Hg eq_refl Hs m1 L1 x' x y Lx' Lx E' E).
Qed.

(** ** Rotations of the plane *)

Lemma flow_plane c t : let e := flow 2 (entry [[0; - c]; [c; 0]]) t in
  e 0%nat 0%nat = cos (c * t) /\ e 1%nat 0%nat = sin (c * t) /\ e 0%nat 1%nat = - sin (c * t) /\ e 1%nat 1%nat = cos (c * t).
Proof.
  set (a := entry [[0; - c]; [c; 0]]). cbn zeta.
  assert (Dc : forall t, is_derive (fun t => cos (c * t)) t (- (c * sin (c * t)))) by (intros s; auto_derive; [exact I|ring]).
  assert (Ds : forall t, is_derive (fun t => sin (c * t)) t (c * cos (c * t))) by (intros s; auto_derive; [exact I|ring]).
  assert (D0 : forall j t, is_derive (fun s => flow 2 a s 0 j) t (- (c * flow 2 a t 1 j))).
  { intros j s. assert (D := flow_left 2 a s 0 j ltac:(lia)).
    replace (- (c * flow 2 a s 1 j)) with (sum_below 2 (fun l => a 0%nat l * flow 2 a s l j)); [exact D|].
    unfold sum_below, a, entry. cbn. ring. }
  assert (D1 : forall j t, is_derive (fun s => flow 2 a s 1 j) t (c * flow 2 a t 0 j)).
  { intros j s. assert (D := flow_left 2 a s 1 j ltac:(lia)).
    replace (c * flow 2 a s 0 j) with (sum_below 2 (fun l => a 1%nat l * flow 2 a s l j)); [exact D|].
    unfold sum_below, a, entry. cbn. ring. }
  assert (K : forall j u v, (forall t, is_derive u t (- (c * v t))) -> (forall t, is_derive v t (c * u t)) ->
    u 0 = flow 2 a 0 0 j -> v 0 = flow 2 a 0 1 j -> forall t, flow 2 a t 0 j = u t /\ flow 2 a t 1 j = v t).
  { intros j u v Du Dv U0 V0 s.
    set (h := fun s => (flow 2 a s 0 j - u s) * (flow 2 a s 0 j - u s) + (flow 2 a s 1 j - v s) * (flow 2 a s 1 j - v s)).
    assert (H : h s = 0).
    { rewrite (constant_of_derivative h); [unfold h; rewrite U0, V0; ring|]. intros r. unfold h.
      assert (A := is_derive_minus (K := R_AbsRing) (V := R_NormedModule) _ _ _ _ _ (D0 j r) (Du r)).
      assert (B := is_derive_minus (K := R_AbsRing) (V := R_NormedModule) _ _ _ _ _ (D1 j r) (Dv r)).
      assert (P := is_derive_plus (K := R_AbsRing) (V := R_NormedModule) _ _ _ _ _ (product_derive _ _ _ _ _ A A) (product_derive _ _ _ _ _ B B)).
      unfold plus, minus, opp in P. cbn in P. unfold plus, opp in P. cbn in P.
      match type of P with is_derive _ _ ?v => replace v with 0 in P by ring end. exact P. }
    unfold h in H.
    assert (Z1 : 0 <= (flow 2 a s 0 j - u s) * (flow 2 a s 0 j - u s)) by apply Rle_0_sqr.
    assert (Z2 : 0 <= (flow 2 a s 1 j - v s) * (flow 2 a s 1 j - v s)) by apply Rle_0_sqr.
    split; apply Rminus_diag_uniq, Rsqr_0_uniq; unfold Rsqr; lra. }
  destruct (K 0%nat (fun t => cos (c * t)) (fun t => sin (c * t)) Dc Ds) with (t := t) as [E1 E2].
  { rewrite flow_0, Rmult_0_r, cos_0. reflexivity. }
  { rewrite flow_0, Rmult_0_r, sin_0. reflexivity. }
  destruct (K 1%nat (fun t => - sin (c * t)) (fun t => cos (c * t))) with (t := t) as [E3 E4].
  { intros s. apply (is_derive_opp (K := R_AbsRing) (V := R_NormedModule) _ _ _ (Ds s)). }
  { intros s. replace (c * - sin (c * s)) with (- (c * sin (c * s))) by ring. apply Dc. }
  { rewrite flow_0, Rmult_0_r, sin_0. cbn. ring. }
  { rewrite flow_0, Rmult_0_r, cos_0. reflexivity. }
  auto.
Qed.

(** The example of the documentation string of Spiral. *)
Lemma plane_spiral expm speed x y : is_expm expm -> exists s, spiral_init [[0; -1]; [1; 0]] None speed = Ok s /\
  let t := speed * (x * x + y * y) in
  spiral_call expm s [x; y] = Ok [x * cos t - y * sin t; x * sin t + y * cos t].
Proof.
  intros He. assert (S : square_array 2 [[0; -1]; [1; 0]]) by (split; repeat constructor).
  assert (E := init_ok 2 [[0; -1]; [1; 0]] None speed S I). eexists. split; [exact E|]. cbn zeta.
  destruct (spiral_formula expm _ _ _ _ [x; y] He E eq_refl) as (q & z & w & C & Q & Iz & ->). rewrite C. f_equal.
  cbn [length] in Q, Iz.
  set (t := speed * (x * x + y * y)). set (m := [[0; - t]; [t; 0]]).
  assert (N : norm2 [x; y] = x * x + y * y) by (unfold norm2, sum_below; cbn; ring).
  assert (F : forall i j, (i < 2)%nat -> (j < 2)%nat -> entry q i j = flow 2 (entry m) 1 i j).
  { intros i j Hi Hj. destruct Q as [_ Q]. specialize (Q i j Hi Hj). rewrite <- (is_series_unique _ _ Q).
    unfold flow, PSeries. apply Series_ext. intros k. rewrite pow1, Rmult_1_r. unfold coef. f_equal. apply power_ext; auto.
    rewrite N. intros i' j' Hi' Hj'. destruct i' as [|[|i']], j' as [|[|j']]; try lia; unfold m, entry, t; cbn; ring. }
  destruct (flow_plane t 1) as (F1 & F2 & F3 & F4). rewrite Rmult_1_r in *. fold m in F1, F2, F3, F4.
  destruct Iz as [Lz Z]. destruct z as [|z0 [|z1 [|]]]; try discriminate.
  assert (Z0 := Z 0%nat ltac:(lia)). assert (Z1 := Z 1%nat ltac:(lia)).
  unfold sum_below in Z0, Z1. cbn [nth seq map] in Z0, Z1.
  rewrite !F in Z0, Z1 by lia. rewrite F1, F3 in Z0. rewrite F2, F4 in Z1. cbn in Z0, Z1.
  rewrite Z0, Z1. f_equal; [ring|]. f_equal. ring.
Qed.

(** ** Generators which are not skew-symmetric *)

Lemma not_skew_not_injective expm : is_expm expm -> exists g s x x', spiral_init g None 1 = Ok s /\ length x = length g /\ length x' = length g /\
  x <> x' /\ spiral_call expm s x = spiral_call expm s x' /\ exists y, spiral_call expm s x = Ok y /\ norm2 y <> norm2 x.
Proof.
  intros He. set (f := fun x => exp (- (1) * (x * x)) * x).
  assert (E2 : exp (- (1)) < / 2).
  { rewrite exp_Ropp. apply Rinv_lt_contravar; [apply Rmult_lt_0_compat; [lra|apply exp_pos]|].
    assert (H := exp_ineq1 1 ltac:(lra)). lra. }
  assert (Hh : f 1 < f (/ 2)).
  { unfold f. replace (- (1) * (1 * 1)) with (- (1)) by ring. replace (- (1) * (/ 2 * / 2)) with (- / 4) by field.
    assert (K := exp_ineq1 (- / 4) ltac:(lra)).
    assert (K2 : exp (- (1)) = exp (- / 4) * exp (- / 4) * (exp (- / 4) * exp (- / 4))) by (rewrite <- !exp_plus; f_equal; field).
    assert (B : exp (- / 4) < 64 / 81).
    { rewrite exp_Ropp. assert (K3 := exp_ineq1 (/ 8) ltac:(lra)). replace (64 / 81) with (/ (81 / 64)) by field.
      apply Rinv_lt_contravar; [apply Rmult_lt_0_compat; [lra|apply exp_pos]|]. replace (/ 4) with (/ 8 + / 8) by field. rewrite exp_plus. nra. }
    set (v := exp (- / 4)) in *. assert (0 < v) by apply exp_pos. rewrite K2.
    assert (v * v < 4096 / 6561) by nra. assert (v * v * v < / 2) by nra.
    replace (v * v * (v * v) * 1) with (v * v * v * v) by ring. nra. }
  destruct (IVT (fun x => f x - f 1) 0 (/ 2)) as (x & Hx & Ex).
  { apply continuity_minus; [|apply continuity_const; intros ? ?; reflexivity].
    intros t. apply continuity_pt_filterlim. apply (ex_derive_continuous f). unfold f. auto_derive. auto. }
  { lra. }
  { unfold f. replace (- (1) * (1 * 1)) with (- (1)) by ring. assert (P := exp_pos (- (1))). rewrite Rmult_0_r. lra. }
  { lra. }
  destruct (spiral_1x1 expm (- (1)) 1 He) as (s & Es & C1). destruct (spiral_1x1 expm (- (1)) x He) as (s' & Es' & Cx).
  rewrite Es in Es'. injection Es' as <-.
  exists [[- (1)]], s, [1], [x]. split; [exact Es|]. split; [reflexivity|]. split; [reflexivity|].
  split; [intros [= H]; lra|]. split.
  - rewrite C1, Cx. do 2 f_equal. fold (f x) (f 1). lra.
  - eexists. split; [exact C1|]. unfold norm2, sum_below. cbn. replace (- (1) * (1 * 1)) with (- (1)) by ring.
    assert (P := exp_pos (- (1))). nra.
Qed.

Lemma generator_is_skew n i j m : so_generator n i j = Ok m -> skew_symmetric (Z.to_nat n) m.
Proof.
  intros E. destruct (proj1 (generator_accepted n i j) (ex_intro _ m E)) as [H1 H2].
  destruct (generator_skew_square n i j H1 H2) as (m' & E' & _ & S). rewrite E in E'. injection E' as <-. exact S.
Qed.

Lemma init_accepted n g initial speed : square_array n g -> match initial with None => True | Some m => square_array n m end ->
  exists s, spiral_init g initial speed = Ok s.
Proof. intros. eexists. apply (init_ok n); auto. Qed.

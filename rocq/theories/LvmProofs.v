(** The covariance of the latent variable model is that of its mixing matrix. *)
From Verif Require Import Base BaseLemmas UtilsModel JaxModel SamplersModel GaussianModel MatrixUtilsModel MatrixUtilsSpec MatrixUtilsProofs.
Open Scope R_scope.
Local Notation length := List.length.

Lemma lvm_init_spec dim_x dim_y k alpha lambd ex ey bx by_ hx hy :
  let r := lvm_init dim_x dim_y k alpha lambd ex ey bx by_ hx hy in
  ((exists p, r = Ok p) <-> (0 <= k <= dim_x /\ k <= dim_y)%Z) /\
  ((exists p, r = Ok p) \/ r = Err ValueError) /\
  forall p, r = Ok p -> valid_lvm p /\ Z.of_nat (lv_dim_x p) = dim_x /\ Z.of_nat (lv_dim_y p) = dim_y /\
    Z.of_nat (lv_n_interacting p) = k /\ lv_alpha p = alpha /\ lv_lambd p = lambd /\ lv_epsilon_x p = ex /\
    lv_beta_x p = bx /\ lv_eta_x p = hx /\ (ey = Some (lv_epsilon_y p) \/ ey = None /\ lv_epsilon_y p = ex) /\
    (by_ = Some (lv_beta_y p) \/ by_ = None /\ lv_beta_y p = bx) /\
    (hy = Some (lv_eta_y p) \/ hy = None /\ lv_eta_y p = hx).
Proof.
  cbn zeta. unfold lvm_init.
  destruct (Z.leb_spec 0 k); cbn [andb negb]; [destruct (Z.leb_spec k (Z.min dim_x dim_y)); cbn [negb]|].
  - split; [split; [lia|eauto]|]. split; [eauto|]. intros p E. injection E as <-. unfold valid_lvm. cbn.
    repeat match goal with |- _ /\ _ => split end; try lia; try reflexivity.
    + destruct ey; cbn; auto.
    + destruct by_; cbn; auto.
    + destruct hy; cbn; auto.
  - split; [split; [intros [p E]; discriminate|lia]|]. split; [auto|]. discriminate.
  - split; [split; [intros [p E]; discriminate|lia]|]. split; [auto|]. discriminate.
Qed.

Definition cov_entry (p : lvm) (i j : nat) : R :=
  let dx := lv_dim_x p in let k := lv_n_interacting p in
  lv_alpha p ^ 2 +
  match (i <? dx)%nat, (j <? dx)%nat with
  | true, true => lv_beta_x p ^ 2 +
      (if (i =? j)%nat then lv_epsilon_x p ^ 2 + (if (i <? k)%nat then lv_lambd p ^ 2 else lv_eta_x p ^ 2) else 0)
  | false, false => lv_beta_y p ^ 2 +
      (if (i =? j)%nat then lv_epsilon_y p ^ 2 + (if (i - dx <? k)%nat then lv_lambd p ^ 2 else lv_eta_y p ^ 2) else 0)
  | true, false => if (j =? dx + i)%nat && (i <? k)%nat then lv_lambd p ^ 2 else 0
  | false, true => if (i =? dx + j)%nat && (j <? k)%nat then lv_lambd p ^ 2 else 0
  end.

Lemma increase_diagonal n lo hi v m f : (lo <= hi)%nat -> (hi <= n)%nat -> has_entries n m f ->
  exists m', loop lo hi (fun c i => increase c i i v) m = Ok m' /\
    has_entries n m' (fun i j => if (i =? j)%nat && ((lo <=? i)%nat && (i <? hi)%nat) then f i j + v else f i j).
Proof.
  intros H1 H2 Hm.
  destruct (loop_entries n (fun c i => increase c i i v)
    (fun t i j w => if (i =? t)%nat && (j =? t)%nat then w + v else w) lo hi f m H1) as (m' & E & H); [|exact Hm|].
  - intros t m1 f1 Ht Hf. destruct (modify_entries n m1 f1 t t (fun w => w + v) Hf ltac:(lia) ltac:(lia)) as (m2 & E2 & F2).
    exists m2. split; [exact E2|]. exact F2.
  - exists m'. split; [exact E|]. eapply entries_ext; [|exact H]. intros i j Hi Hj. cbn beta.
    rewrite iterate_single with (t0 := i); [|intros s w Hs Hn; cbn beta; cases].
    replace (lo + (hi - lo))%nat with hi by lia. cases.
Qed.

Lemma increase_interacting n dx k v m f : (k <= dx)%nat -> (dx + k <= n)%nat -> has_entries n m f ->
  exists m', loop 0 k (fun c i =>
      do c <- increase c i (dx + i)%nat v; do c <- increase c (dx + i)%nat i v; do c <- increase c i i v;
      increase c (dx + i)%nat (dx + i)%nat v) m = Ok m' /\
    has_entries n m' (fun i j =>
      if ((i <? k)%nat && ((j =? i)%nat || (j =? dx + i)%nat)) ||
         (((dx <=? i)%nat && (i <? dx + k)%nat) && ((j =? i)%nat || (i =? dx + j)%nat)) then f i j + v else f i j).
Proof.
  intros H1 H2 Hm.
  destruct (loop_entries n (fun c i =>
      do c <- increase c i (dx + i)%nat v; do c <- increase c (dx + i)%nat i v; do c <- increase c i i v;
      increase c (dx + i)%nat (dx + i)%nat v)
    (fun t i j w => if ((i =? t)%nat || (i =? dx + t)%nat) && ((j =? t)%nat || (j =? dx + t)%nat) then w + v else w)
    0 k f m ltac:(lia)) as (m' & E & H); [|exact Hm|].
  - intros t m1 f1 Ht Hf. cbn zeta. unfold increase.
    destruct (modify_entries n m1 _ t (dx + t) (fun w => w + v) Hf ltac:(lia) ltac:(lia)) as (m2 & -> & F2). cbn [bind].
    destruct (modify_entries n m2 _ (dx + t) t (fun w => w + v) F2 ltac:(lia) ltac:(lia)) as (m3 & -> & F3). cbn [bind].
    destruct (modify_entries n m3 _ t t (fun w => w + v) F3 ltac:(lia) ltac:(lia)) as (m4 & -> & F4). cbn [bind].
    destruct (modify_entries n m4 _ (dx + t) (dx + t) (fun w => w + v) F4 ltac:(lia) ltac:(lia)) as (m5 & -> & F5).
    exists m5. split; [reflexivity|]. eapply entries_ext; [|exact F5]. intros i j Hi Hj. cbn beta. clear - Ht H1. cases.
  - exists m'. split; [exact E|]. eapply entries_ext; [|exact H]. intros i j Hi Hj. cbn beta.
    rewrite iterate_single with (t0 := if (i <? dx)%nat then i else if (j <? dx)%nat then j else (i - dx)%nat).
    2:{ intros s w Hs Hn. cbn beta. revert Hn. cases; intros; try reflexivity; exfalso; lia. }
    replace (0 + (k - 0))%nat with k by lia. clear - H1. cases.
Qed.

Lemma covariance_entries p : valid_lvm p ->
  exists m, covariance p = Ok m /\ has_entries (lv_dim_x p + lv_dim_y p) m (cov_entry p).
Proof.
  intros [Hx Hy]. unfold covariance. cbn zeta. set (dx := lv_dim_x p) in *. set (k := lv_n_interacting p) in *.
  set (n := (dx + lv_dim_y p)%nat).
  assert (E1 := np_full_entries n (lv_alpha p ^ 2)).
  assert (E2 := modify_block_entries _ _ _ 0 dx (fun _ _ w => w + lv_beta_x p ^ 2) E1).
  assert (E3 := modify_block_entries _ _ _ dx n (fun _ _ w => w + lv_beta_y p ^ 2) E2).
  unfold increase_block.
  destruct (increase_diagonal n 0 dx (lv_epsilon_x p ^ 2) _ _ ltac:(lia) ltac:(lia) E3) as (m1 & -> & F1). cbn [bind].
  destruct (increase_diagonal n dx n (lv_epsilon_y p ^ 2) _ _ ltac:(lia) ltac:(lia) F1) as (m2 & -> & F2). cbn [bind].
  destruct (increase_interacting n dx k (lv_lambd p ^ 2) _ _ ltac:(lia) ltac:(lia) F2) as (m3 & -> & F3). cbn [bind].
  destruct (increase_diagonal n k dx (lv_eta_x p ^ 2) _ _ ltac:(lia) ltac:(lia) F3) as (m4 & -> & F4). cbn [bind].
  destruct (increase_diagonal n (k + dx) n (lv_eta_y p ^ 2) _ _ ltac:(lia) ltac:(lia) F4) as (m5 & -> & F5).
  exists m5. split; [reflexivity|]. eapply entries_ext; [|exact F5]. intros i j Hi Hj. cbn beta.
  unfold cov_entry. fold dx k. clear - Hx Hy Hi Hj. unfold n in *. clear n. clearbody dx k.
  set (a := lv_alpha p ^ 2). set (bx := lv_beta_x p ^ 2). set (by_ := lv_beta_y p ^ 2). set (l := lv_lambd p ^ 2).
  set (ex := lv_epsilon_x p ^ 2). set (ey := lv_epsilon_y p ^ 2). set (hx := lv_eta_x p ^ 2). set (hy := lv_eta_y p ^ 2).
  clearbody a bx by_ l ex ey hx hy.
  destruct (Nat.lt_ge_cases i dx), (Nat.lt_ge_cases j dx), (Nat.eq_dec i j) as [Hij|Hij]; try subst j; cases; try ring.
Qed.

(** ** Mixing *)

Lemma inner_app a b c d : length a = length c -> inner (a ++ b) (c ++ d) = inner a c + inner b d.
Proof.
  revert c. induction a as [|x a IH]; intros [|y c] H; cbn in H; try lia.
  - cbn [app]. unfold inner at 2. cbn. ring.
  - cbn [app]. unfold inner in *. cbn [combine map]. rewrite !rsum_cons, IH by lia. ring.
Qed.

Lemma inner_zero_l n l : inner (repeat 0 n) l = 0.
Proof.
  revert l. induction n as [|n IH]; intros [|x l]; try reflexivity.
  unfold inner in *. cbn [repeat combine map]. rewrite rsum_cons, IH. cbn. ring.
Qed.

Lemma inner_comm a b : inner a b = inner b a.
Proof.
  revert b. induction a as [|x a IH]; intros [|y b]; try reflexivity.
  unfold inner in *. cbn [combine map]. rewrite !rsum_cons, IH. cbn. ring.
Qed.

Lemma inner_zero_r n l : inner l (repeat 0 n) = 0.
Proof. rewrite inner_comm. apply inner_zero_l. Qed.

Lemma one_hot_length n i v : length (one_hot n i v) = n.
Proof. unfold one_hot. rewrite update_length. apply repeat_length. Qed.

Lemma inner_one_hot n i v l : (i < n)%nat -> inner (one_hot n i v) l = v * nth i l 0.
Proof.
  revert i l. induction n as [|n IH]; intros i l H; [lia|].
  destruct l as [|x l].
  { unfold inner. rewrite combine_nil. destruct i; cbn; ring. }
  destruct i as [|i].
  - unfold one_hot, inner. cbn [repeat update combine map]. rewrite rsum_cons.
    fold (inner (repeat 0 n) l). rewrite inner_zero_l. cbn. ring.
  - unfold one_hot, inner in *. cbn [repeat update combine map]. rewrite rsum_cons, IH by lia. cbn. ring.
Qed.

Lemma nth_one_hot n i v j : (i < n)%nat -> nth j (one_hot n i v) 0 = if (i =? j)%nat then v else 0.
Proof.
  intros H. unfold one_hot. rewrite nth_update by (rewrite repeat_length; auto).
  rewrite (Nat.eqb_sym i j). destruct (j =? i)%nat; [reflexivity|].
  destruct (Nat.lt_ge_cases j n).
  - rewrite nth_repeat. reflexivity.
  - apply nth_overflow. rewrite repeat_length. auto.
Qed.

Lemma inner_one_hots n i j v w : (i < n)%nat -> (j < n)%nat ->
  inner (one_hot n i v) (one_hot n j w) = if (i =? j)%nat then v * w else 0.
Proof. intros Hi Hj. rewrite inner_one_hot, nth_one_hot by auto. rewrite Nat.eqb_sym. destruct (i =? j)%nat; ring. Qed.

Lemma z_length p i : length (z_coefficients p i) = lv_n_interacting p.
Proof. unfold z_coefficients. destruct (_ <? _)%nat; [apply one_hot_length|apply repeat_length]. Qed.

Lemma inner_z p i j : inner (z_coefficients p i) (z_coefficients p j)
  = if (i =? j)%nat && (i <? lv_n_interacting p)%nat then lv_lambd p * lv_lambd p else 0.
Proof.
  unfold z_coefficients. destruct (Nat.ltb_spec i (lv_n_interacting p)), (Nat.ltb_spec j (lv_n_interacting p)).
  - rewrite inner_one_hots by auto. cases.
  - rewrite inner_zero_r. cases.
  - rewrite inner_zero_l. cases.
  - rewrite inner_zero_l. cases.
Qed.

Lemma tail_length (b : bool) n i v : length (if b then one_hot n i v else repeat 0 n) = n.
Proof. destruct b; [apply one_hot_length|apply repeat_length]. Qed.

Lemma inner_tail n k i j v : (k <= n)%nat -> (i < n)%nat -> (j < n)%nat ->
  inner (if (k <=? i)%nat then one_hot (n - k) (i - k) v else repeat 0 (n - k))
        (if (k <=? j)%nat then one_hot (n - k) (j - k) v else repeat 0 (n - k))
  = if (i =? j)%nat && (k <=? i)%nat then v * v else 0.
Proof.
  intros Hk Hi Hj. destruct (Nat.leb_spec k i), (Nat.leb_spec k j).
  - rewrite inner_one_hots by lia. cases.
  - rewrite inner_zero_r. cases.
  - rewrite inner_zero_l. cases.
  - rewrite inner_zero_l. cases.
Qed.

Lemma mixing_x_length p i : length (mixing_x p i) = n_latent p.
Proof. unfold mixing_x, n_latent. cbn zeta. rewrite !app_length, z_length, tail_length, one_hot_length, !repeat_length. cbn [length]. lia. Qed.

Lemma mixing_y_length p i : length (mixing_y p i) = n_latent p.
Proof. unfold mixing_y, n_latent. cbn zeta. rewrite !app_length, z_length, tail_length, one_hot_length, !repeat_length. cbn [length]. lia. Qed.

Lemma inner_3 a b c d e f : inner [a; b; c] [d; e; f] = a * d + b * e + c * f.
Proof. unfold inner. cbn. ring. Qed.

Lemma inner_xx p i j : valid_lvm p -> (i < lv_dim_x p)%nat -> (j < lv_dim_x p)%nat ->
  inner (mixing_x p i) (mixing_x p j) = cov_entry p i j.
Proof.
  intros [Hx Hy] Hi Hj. unfold mixing_x. cbn zeta.
  rewrite inner_app by reflexivity.
  rewrite inner_app by (rewrite !z_length; reflexivity).
  rewrite inner_app by (rewrite !one_hot_length; reflexivity).
  rewrite inner_app by reflexivity.
  rewrite inner_app by (rewrite !tail_length; reflexivity).
  rewrite inner_3, inner_z, inner_one_hots, !inner_zero_l, inner_tail by auto.
  unfold cov_entry. cases; ring.
Qed.

Lemma inner_yy p i j : valid_lvm p -> (i < lv_dim_y p)%nat -> (j < lv_dim_y p)%nat ->
  inner (mixing_y p i) (mixing_y p j) = cov_entry p (lv_dim_x p + i) (lv_dim_x p + j).
Proof.
  intros [Hx Hy] Hi Hj. unfold mixing_y. cbn zeta.
  rewrite inner_app by reflexivity.
  rewrite inner_app by (rewrite !z_length; reflexivity).
  rewrite inner_app by reflexivity.
  rewrite inner_app by (rewrite !one_hot_length; reflexivity).
  rewrite inner_app by reflexivity.
  rewrite inner_3, inner_z, inner_one_hots, !inner_zero_l, inner_tail by auto.
  unfold cov_entry. cases; ring.
Qed.

Lemma inner_xy p i j : valid_lvm p -> (i < lv_dim_x p)%nat -> (j < lv_dim_y p)%nat ->
  inner (mixing_x p i) (mixing_y p j) = cov_entry p i (lv_dim_x p + j).
Proof.
  intros [Hx Hy] Hi Hj. unfold mixing_x, mixing_y. cbn zeta.
  rewrite inner_app by reflexivity.
  rewrite inner_app by (rewrite !z_length; reflexivity).
  rewrite inner_app by (rewrite one_hot_length, repeat_length; reflexivity).
  rewrite inner_app by (rewrite one_hot_length, repeat_length; reflexivity).
  rewrite inner_app by (rewrite tail_length, repeat_length; reflexivity).
  rewrite inner_3, inner_z, !inner_zero_l, !inner_zero_r.
  unfold cov_entry. cases; ring.
Qed.

Lemma cov_entry_sym p i j : cov_entry p i j = cov_entry p j i.
Proof. unfold cov_entry. cases; subst; try ring; cases. Qed.

Lemma mixing_rows p mix : mixing p = Ok mix ->
  mix = (map (mixing_x p) (seq 0 (lv_dim_x p)) ++ map (mixing_y p) (seq 0 (lv_dim_y p)))%list.
Proof. unfold mixing. destruct (_ ++ _)%list; [discriminate|]. intros E. injection E as <-. reflexivity. Qed.

Lemma mixing_ok p : (exists mix, mixing p = Ok mix) <-> (0 < lv_dim_x p + lv_dim_y p)%nat.
Proof.
  unfold mixing. destruct (_ ++ _)%list eqn:E.
  - split; [intros [m H]; discriminate|]. apply (f_equal (@List.length _)) in E.
    rewrite app_length, !map_length, !seq_length in E. cbn in E. lia.
  - split; [|eauto]. intros _. apply (f_equal (@List.length _)) in E.
    rewrite app_length, !map_length, !seq_length in E. cbn in E. lia.
Qed.

Lemma nth_rows p i : (i < lv_dim_x p + lv_dim_y p)%nat ->
  nth i (map (mixing_x p) (seq 0 (lv_dim_x p)) ++ map (mixing_y p) (seq 0 (lv_dim_y p)))%list []
  = if (i <? lv_dim_x p)%nat then mixing_x p i else mixing_y p (i - lv_dim_x p).
Proof.
  intros H. destruct (Nat.ltb_spec i (lv_dim_x p)).
  - rewrite app_nth1 by (rewrite map_length, seq_length; auto). apply nth_map_seq. auto.
  - rewrite app_nth2 by (rewrite map_length, seq_length; auto). rewrite map_length, seq_length.
    apply nth_map_seq. lia.
Qed.

Lemma mixing_covariance p c mix : valid_lvm p -> covariance p = Ok c -> mixing p = Ok mix ->
  has_shape mix (lv_dim_x p + lv_dim_y p) (n_latent p) = true /\
  has_entries (lv_dim_x p + lv_dim_y p) c (fun i j => inner (nth i mix []) (nth j mix [])).
Proof.
  intros Hv Hc Hm. rewrite (mixing_rows p mix Hm).
  destruct (covariance_entries p Hv) as (c' & E & Hs & He). rewrite Hc in E. injection E as <-. split.
  - apply shape_rows. rewrite app_length, !map_length, !seq_length. split; [reflexivity|].
    intros i Hi. rewrite nth_rows by auto. destruct (_ <? _)%nat; [apply mixing_x_length|apply mixing_y_length].
  - split; [exact Hs|]. intros i j Hi Hj. rewrite He, !nth_rows by auto.
    destruct (Nat.ltb_spec i (lv_dim_x p)), (Nat.ltb_spec j (lv_dim_x p)).
    + symmetry. apply inner_xx; auto.
    + rewrite inner_xy by (auto; lia). f_equal. lia.
    + rewrite inner_comm, inner_xy by (auto; lia). rewrite cov_entry_sym. f_equal. lia.
    + rewrite inner_yy by (auto; lia). f_equal; lia.
Qed.

(** ** Labels *)

Lemma labels_count p : valid_lvm p ->
  length (latent_variable_labels p) = n_latent p /\ length (xy_labels p) = (lv_dim_x p + lv_dim_y p)%nat.
Proof.
  intros _. unfold latent_variable_labels, xy_labels, n_latent. cbn zeta.
  rewrite !app_length, !map_length, !seq_length. cbn [length]. lia.
Qed.

(** ** Correlations *)

Lemma correlation_entries p c : valid_lvm p -> correlation p = Ok c ->
  length c = (lv_dim_x p + lv_dim_y p)%nat /\
  forall i j, (i < lv_dim_x p + lv_dim_y p)%nat -> (j < lv_dim_x p + lv_dim_y p)%nat ->
    length (nth i c []) = (lv_dim_x p + lv_dim_y p)%nat /\
    nth j (nth i c []) NaN = np_div (cov_entry p i j) (sqrt (cov_entry p i i * cov_entry p j j)).
Proof.
  intros Hv. unfold correlation. destruct (covariance_entries p Hv) as (m & -> & Hs & He). cbn [bind]. intros E. injection E as <-.
  apply shape_rows in Hs as [Hl _]. rewrite Hl. set (n := (lv_dim_x p + lv_dim_y p)%nat) in *.
  rewrite map_length, seq_length. split; [reflexivity|]. intros i j Hi Hj.
  rewrite nth_map_seq by auto. cbn [Nat.add].
  rewrite map_length, seq_length. split; [reflexivity|].
  rewrite nth_map_seq by auto. rewrite !nth_map_seq by auto. cbn [Nat.add].
  rewrite !He by auto. reflexivity.
Qed.

Lemma correlation_ok p : valid_lvm p -> exists c, correlation p = Ok c.
Proof. intros Hv. unfold correlation. destruct (covariance_entries p Hv) as (m & -> & _). cbn [bind]; eexists; reflexivity. Qed.

Lemma np_div_value a b : b <> 0 -> np_div a b = Fin (a / b).
Proof. intros H. unfold np_div, Reqb. destruct (Req_EM_T b 0); [contradiction|reflexivity]. Qed.

Lemma sqrt_same v : 0 <= v -> sqrt (v * v) = v.
Proof. intros. apply sqrt_square. auto. Qed.

Lemma cov_diag_nonneg p i : 0 <= cov_entry p i i.
Proof.
  assert (H := fun x : R => pow2_ge_0 x).
  unfold cov_entry. cases; repeat apply Rplus_le_le_0_compat; try apply pow2_ge_0; lra.
Qed.

Lemma unit_diagonal p c i : valid_lvm p -> correlation p = Ok c -> (i < lv_dim_x p + lv_dim_y p)%nat ->
  cov_entry p i i <> 0 -> nth i (nth i c []) NaN = Fin 1.
Proof.
  intros Hv Hc Hi Hne. destruct (correlation_entries p c Hv Hc) as [_ H]. destruct (H i i Hi Hi) as [_ ->].
  rewrite sqrt_same by apply cov_diag_nonneg. rewrite np_div_value by auto. f_equal. field. auto.
Qed.

Lemma zero_variance p c i : valid_lvm p -> correlation p = Ok c -> (i < lv_dim_x p + lv_dim_y p)%nat ->
  cov_entry p i i = 0 -> nth i (nth i c []) NaN = NaN.
Proof.
  intros Hv Hc Hi Hz. destruct (correlation_entries p c Hv Hc) as [_ H]. destruct (H i i Hi Hi) as [_ ->].
  rewrite Hz, Rmult_0_l, sqrt_0. unfold np_div, Reqb, Rltb.
  destruct (Req_EM_T 0 0); [|lra]. destruct (Rlt_dec 0 0); [lra|reflexivity].
Qed.

Lemma dense_correlation dim_x dim_y alpha epsilon p c s :
  dense_init dim_x dim_y alpha epsilon = Ok p -> correlation p = Ok c -> correlation_strength p = Ok s ->
  s = alpha ^ 2 / (alpha ^ 2 + epsilon ^ 2) /\
  forall i j, (i < lv_dim_x p + lv_dim_y p)%nat -> (j < lv_dim_x p + lv_dim_y p)%nat ->
    nth j (nth i c []) NaN = Fin (if (i =? j)%nat then 1 else s).
Proof.
  unfold dense_init. intros Hp Hc Hs.
  destruct (proj2 (proj2 (lvm_init_spec dim_x dim_y 0 alpha 0 epsilon (Some epsilon) 0 (Some 0) 0 (Some 0))) p Hp) as (Hv & _).
  assert (Hf : lv_n_interacting p = 0%nat /\ lv_alpha p = alpha /\ lv_epsilon_x p = epsilon /\ lv_epsilon_y p = epsilon /\
    lv_beta_x p = 0 /\ lv_beta_y p = 0 /\ lv_eta_x p = 0 /\ lv_eta_y p = 0 /\ lv_lambd p = 0).
  { unfold lvm_init in Hp. destruct (negb _); [discriminate|]. injection Hp as <-. cbn. repeat split; reflexivity. }
  destruct Hf as (F1 & F2 & F3 & F4 & F5 & F6 & F7 & F8 & F9).
  unfold correlation_strength, py_div, Reqb in Hs. rewrite F2, F3 in Hs.
  destruct (Req_EM_T _ _) as [|Hne]; [discriminate|]. injection Hs as <-. split; [reflexivity|].
  intros i j Hi Hj. destruct (correlation_entries p c Hv Hc) as [_ H]. destruct (H i j Hi Hj) as [_ ->].
  assert (Hd : forall t, cov_entry p t t = alpha ^ 2 + epsilon ^ 2).
  { intros t. unfold cov_entry. rewrite F1, F2, F3, F4, F5, F6, F7, F8, F9. cases; ring. }
  rewrite !Hd, sqrt_same by (assert (A := pow2_ge_0 alpha); assert (B := pow2_ge_0 epsilon); lra).
  rewrite np_div_value by auto. f_equal.
  destruct (Nat.eqb_spec i j) as [->|Hij].
  - rewrite Hd. field. auto.
  - f_equal. unfold cov_entry. rewrite F1, F2, F3, F4, F5, F6, F7, F8, F9. cases; ring.
Qed.

Lemma sparse_correlation dim_x dim_y k beta lambd epsilon eta p c s :
  sparse_init dim_x dim_y k beta lambd epsilon eta = Ok p -> correlation p = Ok c -> correlation_interacting p = Ok s ->
  s = lambd ^ 2 / (beta ^ 2 + epsilon ^ 2 + lambd ^ 2) /\
  (forall i, (i < lv_n_interacting p)%nat ->
     nth (lv_dim_x p + i) (nth i c []) NaN = Fin s /\ nth i (nth (lv_dim_x p + i) c []) NaN = Fin s) /\
  (forall i j, (i < lv_dim_x p)%nat -> (j < lv_dim_y p)%nat -> (i <> j \/ lv_n_interacting p <= i)%nat ->
     cov_entry p i i <> 0 -> cov_entry p (lv_dim_x p + j) (lv_dim_x p + j) <> 0 ->
     nth (lv_dim_x p + j) (nth i c []) NaN = Fin 0).
Proof.
  unfold sparse_init. cbn zeta. intros Hp Hc Hs.
  destruct (proj2 (proj2 (lvm_init_spec dim_x dim_y k 0 lambd epsilon (Some epsilon) beta (Some beta) (default eta lambd) (Some (default eta lambd)))) p Hp) as (Hv & _).
  assert (Hf : lv_alpha p = 0 /\ lv_epsilon_x p = epsilon /\ lv_epsilon_y p = epsilon /\
    lv_beta_x p = beta /\ lv_beta_y p = beta /\ lv_lambd p = lambd).
  { unfold lvm_init in Hp. destruct (negb _); [discriminate|]. injection Hp as <-. cbn. repeat split; reflexivity. }
  destruct Hf as (F1 & F2 & F3 & F4 & F5 & F6).
  unfold correlation_interacting, py_div, Reqb in Hs. rewrite F2, F4, F6 in Hs.
  destruct (Req_EM_T _ _) as [|Hne]; [discriminate|]. injection Hs as <-. split; [reflexivity|].
  destruct (correlation_entries p c Hv Hc) as [_ H]. destruct Hv as [Hx Hy]. split.
  - intros i Hi.
    assert (A := pow2_ge_0 beta). assert (B := pow2_ge_0 epsilon). assert (C := pow2_ge_0 lambd).
    assert (D1 : cov_entry p i i = beta ^ 2 + epsilon ^ 2 + lambd ^ 2).
    { unfold cov_entry. rewrite F1, F2, F3, F4, F5, F6. cases; ring. }
    assert (D2 : cov_entry p (lv_dim_x p + i) (lv_dim_x p + i) = beta ^ 2 + epsilon ^ 2 + lambd ^ 2).
    { unfold cov_entry. rewrite F1, F2, F3, F4, F5, F6. cases; ring. }
    assert (D3 : cov_entry p i (lv_dim_x p + i) = lambd ^ 2).
    { unfold cov_entry. rewrite F1, F6. cases; ring. }
    split.
    + destruct (H i (lv_dim_x p + i)%nat ltac:(lia) ltac:(lia)) as [_ ->].
      rewrite D1, D2, D3, sqrt_same by lra. apply np_div_value. auto.
    + destruct (H (lv_dim_x p + i)%nat i ltac:(lia) ltac:(lia)) as [_ ->].
      rewrite D1, D2, cov_entry_sym, D3, sqrt_same by lra. apply np_div_value. auto.
  - intros i j Hi Hj Hij N1 N2. destruct (H i (lv_dim_x p + j)%nat ltac:(lia) ltac:(lia)) as [_ ->].
    assert (D3 : cov_entry p i (lv_dim_x p + j) = 0).
    { unfold cov_entry. rewrite F1. cases; ring. }
    assert (P1 := cov_diag_nonneg p i). assert (P2 := cov_diag_nonneg p (lv_dim_x p + j)).
    rewrite D3, np_div_value; [f_equal; unfold Rdiv; ring|].
    apply Rgt_not_eq, sqrt_lt_R0. apply Rmult_lt_0_compat; lra.
Qed.

Lemma lvm_computed p : valid_lvm p ->
  (exists c, covariance p = Ok c) /\ ((exists mix, mixing p = Ok mix) <-> (0 < lv_dim_x p + lv_dim_y p)%nat).
Proof.
  intros Hv. split; [|apply mixing_ok]. destruct (covariance_entries p Hv) as (c & E & _). eauto.
Qed.

Lemma correlation_diagonal p c k i : valid_lvm p -> covariance p = Ok c -> correlation p = Ok k ->
  (i < lv_dim_x p + lv_dim_y p)%nat ->
  (entry c i i <> 0 -> nth i (nth i k []) NaN = Fin 1) /\ (entry c i i = 0 -> nth i (nth i k []) NaN = NaN).
Proof.
  intros Hv Hc Hk Hi. destruct (covariance_entries p Hv) as (c' & E & _ & He). rewrite Hc in E. injection E as <-.
  rewrite He by auto. split; intros H.
  - eapply unit_diagonal; eauto.
  - eapply zero_variance; eauto.
Qed.

Lemma sparse_correlation_entries dim_x dim_y k beta lambd epsilon eta p m c s :
  sparse_init dim_x dim_y k beta lambd epsilon eta = Ok p -> covariance p = Ok m -> correlation p = Ok c ->
  correlation_interacting p = Ok s ->
  s = lambd ^ 2 / (beta ^ 2 + epsilon ^ 2 + lambd ^ 2) /\
  (forall i, (i < lv_n_interacting p)%nat ->
     nth (lv_dim_x p + i) (nth i c []) NaN = Fin s /\ nth i (nth (lv_dim_x p + i) c []) NaN = Fin s) /\
  (forall i j, (i < lv_dim_x p)%nat -> (j < lv_dim_y p)%nat -> (i <> j \/ lv_n_interacting p <= i)%nat ->
     entry m i i <> 0 -> entry m (lv_dim_x p + j) (lv_dim_x p + j) <> 0 ->
     nth (lv_dim_x p + j) (nth i c []) NaN = Fin 0).
Proof.
  intros Hp Hm Hc Hs. destruct (sparse_correlation _ _ _ _ _ _ _ _ _ _ Hp Hc Hs) as (H1 & H2 & H3).
  split; [exact H1|]. split; [exact H2|]. intros i j Hi Hj Hij N1 N2.
  destruct (proj2 (proj2 (lvm_init_spec dim_x dim_y k 0 lambd epsilon (Some epsilon) beta (Some beta) (default eta lambd) (Some (default eta lambd)))) p Hp) as (Hv & _).
  destruct (covariance_entries p Hv) as (m' & E & _ & He). rewrite Hm in E. injection E as <-.
  apply H3; auto; rewrite <- He by lia; auto.
Qed.

(** The latent variables' labels describe the columns of the mixing matrix. *)
From Verif Require Import Base BaseLemmas UtilsModel JaxModel SamplersModel GaussianModel MatrixUtilsModel MatrixUtilsSpec MatrixUtilsProofs LvmProofs.
From Coq Require Import String.
Open Scope R_scope.
Local Notation length := List.length.

Lemma row_of p mix r : mixing p = Ok mix -> (r < lv_dim_x p + lv_dim_y p)%nat ->
  nth r mix [] = if (r <? lv_dim_x p)%nat then mixing_x p r else mixing_y p (r - lv_dim_x p).
Proof. intros Hm Hr. rewrite (mixing_rows p mix Hm). rewrite nth_rows by auto. reflexivity. Qed.

Lemma nth_app_at {A} (a b : list A) d i : nth (length a + i) (a ++ b) d = nth i b d.
Proof. rewrite app_nth2 by lia. f_equal. lia. Qed.

Lemma nth_app_in {A} (a b : list A) d i : (i < length a)%nat -> nth i (a ++ b) d = nth i a d.
Proof. intros. apply app_nth1. auto. Qed.

Lemma nth_error_app_at {A} (a b : list A) i : nth_error (a ++ b) (length a + i) = nth_error b i.
Proof. rewrite nth_error_app2 by lia. f_equal. lia. Qed.

Lemma nth_error_map_seq {A} (f : nat -> A) lo n i : (i < n)%nat -> nth_error (map f (seq lo n)) i = Some (f (lo + i)%nat).
Proof.
  intros H. rewrite nth_error_map.
  rewrite (nth_error_nth' (seq lo n) 0%nat) by (rewrite seq_length; auto). rewrite seq_nth by auto. reflexivity.
Qed.

Lemma nth_repeat0 n i : nth i (repeat 0 n) 0 = 0.
Proof. revert i. induction n as [|n IH]; intros [|i]; cbn; auto. Qed.

Lemma nth_z p r i : (i < lv_n_interacting p)%nat ->
  nth i (z_coefficients p r) 0 = if (r =? i)%nat then lv_lambd p else 0.
Proof.
  intros Hi. unfold z_coefficients. destruct (Nat.ltb_spec r (lv_n_interacting p)).
  - apply nth_one_hot. auto.
  - rewrite nth_repeat0. destruct (Nat.eqb_spec r i); [lia|reflexivity].
Qed.

Lemma nth_tail n k r i v : (k <= r -> r < n)%nat -> (i < n - k)%nat ->
  nth i (if (k <=? r)%nat then one_hot (n - k) (r - k) v else repeat 0 (n - k)) 0 = if (r =? k + i)%nat then v else 0.
Proof.
  intros Hr Hi. destruct (Nat.leb_spec k r).
  - rewrite nth_one_hot by lia. destruct (Nat.eqb_spec (r - k) i), (Nat.eqb_spec r (k + i)); try reflexivity; lia.
  - rewrite nth_repeat0. destruct (Nat.eqb_spec r (k + i)); [lia|reflexivity].
Qed.

Section Loadings.
  Variables (p : lvm) (mix : matrix).
  Hypothesis Hv : valid_lvm p.
  Hypothesis Hm : mixing p = Ok mix.
  Let dx := lv_dim_x p.
  Let dy := lv_dim_y p.
  Let k := lv_n_interacting p.

  Lemma loading_common : loading p mix "$U_\mathrm{all}$" (fun _ => lv_alpha p) /\
    loading p mix "$U_X$" (fun r => if (r <? dx)%nat then lv_beta_x p else 0) /\
    loading p mix "$U_Y$" (fun r => if (r <? dx)%nat then 0 else lv_beta_y p).
  Proof.
    split; [|split]; [exists 0%nat|exists 1%nat|exists 2%nat]; (split; [reflexivity|split; [unfold n_latent; lia|]]);
      intros r Hr; unfold entry; rewrite (row_of p mix r Hm Hr); unfold dx; destruct (r <? lv_dim_x p)%nat; reflexivity.
  Qed.

  Lemma loading_z i : (i < k)%nat ->
    loading p mix (label "Z" i) (fun r => if (r =? i)%nat || (r =? dx + i)%nat then lv_lambd p else 0).
  Proof.
    intros Hi. destruct Hv as [Hx Hy]. exists (3 + i)%nat. split; [|split; [unfold n_latent; lia|]].
    - unfold latent_variable_labels. cbn zeta. rewrite (nth_error_app_at [_; _; _] _ i).
      rewrite nth_error_app1 by (rewrite map_length, seq_length; auto). rewrite nth_error_map_seq by auto. reflexivity.
    - intros r Hr. unfold entry. rewrite (row_of p mix r Hm Hr).
      assert (E : forall t, length (z_coefficients p t) = k) by (intros; apply z_length).
      destruct (Nat.ltb_spec r (lv_dim_x p)).
      + unfold mixing_x. cbn zeta. rewrite (nth_app_at [_; _; _] _ _ i), nth_app_in by (rewrite E; auto).
        rewrite nth_z by auto. unfold dx, k in *.
        destruct (Nat.eqb_spec r i); cbn [orb]; [reflexivity|]. destruct (Nat.eqb_spec r (lv_dim_x p + i)); [lia|reflexivity].
      + unfold mixing_y. cbn zeta. rewrite (nth_app_at [_; _; _] _ _ i), nth_app_in by (rewrite E; auto).
        rewrite nth_z by auto. unfold dx, k in *.
        destruct (Nat.eqb_spec (r - lv_dim_x p) i), (Nat.eqb_spec r i), (Nat.eqb_spec r (lv_dim_x p + i)); cbn [orb]; try reflexivity; lia.
  Qed.

  Ltac lengths := repeat (rewrite app_length || rewrite map_length || rewrite seq_length || rewrite repeat_length
      || rewrite one_hot_length || rewrite z_length || rewrite tail_length); cbn [length].

  Lemma loading_e i : (i < dx)%nat ->
    loading p mix (label "E" i) (fun r => if (r =? i)%nat then lv_epsilon_x p else 0).
  Proof.
    intros Hi. destruct Hv as [Hx Hy]. exists (3 + (k + i))%nat. split; [|split; [unfold n_latent, dx, dy, k in *; lia|]].
    - unfold latent_variable_labels. cbn zeta. rewrite (nth_error_app_at [_; _; _]).
      rewrite nth_error_app2 by (lengths; unfold k; lia). lengths.
      rewrite nth_error_app1 by (lengths; unfold dx, k in *; lia).
      rewrite nth_error_map_seq by (unfold dx, k in *; lia). do 2 f_equal. unfold k. lia.
    - intros r Hr. unfold entry. rewrite (row_of p mix r Hm Hr).
      destruct (Nat.ltb_spec r (lv_dim_x p)); [unfold mixing_x|unfold mixing_y]; cbn zeta;
        rewrite (nth_app_at [_; _; _]); rewrite app_nth2 by (lengths; unfold k; lia); lengths;
        rewrite app_nth1 by (lengths; unfold dx, k in *; lia).
      + rewrite nth_one_hot by lia. unfold k, dx in *. replace (lv_n_interacting p + i - lv_n_interacting p)%nat with i by lia. reflexivity.
      + rewrite nth_repeat0. unfold dx in *. destruct (Nat.eqb_spec r i); [lia|reflexivity].
  Qed.

  Lemma loading_f i : (i < dy)%nat ->
    loading p mix (label "F" i) (fun r => if (r =? dx + i)%nat then lv_epsilon_y p else 0).
  Proof.
    intros Hi. destruct Hv as [Hx Hy]. exists (3 + (k + (dx + i)))%nat. split; [|split; [unfold n_latent, dx, dy, k in *; lia|]].
    - unfold latent_variable_labels. cbn zeta. rewrite (nth_error_app_at [_; _; _]).
      rewrite nth_error_app2 by (lengths; unfold k; lia). lengths.
      rewrite nth_error_app2 by (lengths; unfold dx, k in *; lia). lengths.
      rewrite nth_error_app1 by (lengths; unfold dx, dy, k in *; lia).
      rewrite nth_error_map_seq by (unfold dx, dy, k in *; lia). do 2 f_equal. unfold k, dx. lia.
    - intros r Hr. unfold entry. rewrite (row_of p mix r Hm Hr).
      destruct (Nat.ltb_spec r (lv_dim_x p)); [unfold mixing_x|unfold mixing_y]; cbn zeta;
        rewrite (nth_app_at [_; _; _]); rewrite app_nth2 by (lengths; unfold k; lia); lengths;
        rewrite app_nth2 by (lengths; unfold dx, k in *; lia); lengths;
        rewrite app_nth1 by (lengths; unfold dx, dy, k in *; lia).
      + rewrite nth_repeat0. unfold dx in *. destruct (Nat.eqb_spec r (lv_dim_x p + i)); [lia|reflexivity].
      + rewrite nth_one_hot by lia. unfold k, dx, dy in *.
        replace (lv_n_interacting p + (lv_dim_x p + i) - lv_n_interacting p - lv_dim_x p)%nat with i by lia.
        destruct (Nat.eqb_spec (r - lv_dim_x p) i), (Nat.eqb_spec r (lv_dim_x p + i)); try reflexivity; lia.
  Qed.

  Lemma loading_v i : (k <= i < dx)%nat ->
    loading p mix (label "V" i) (fun r => if (r =? i)%nat then lv_eta_x p else 0).
  Proof.
    intros Hi. destruct Hv as [Hx Hy]. exists (3 + (k + (dx + (dy + (i - k)))))%nat. split; [|split; [unfold n_latent, dx, dy, k in *; lia|]].
    - unfold latent_variable_labels. cbn zeta. rewrite (nth_error_app_at [_; _; _]).
      rewrite nth_error_app2 by (lengths; unfold k; lia). lengths.
      rewrite nth_error_app2 by (lengths; unfold dx, k in *; lia). lengths.
      rewrite nth_error_app2 by (lengths; unfold dx, dy, k in *; lia). lengths.
      rewrite nth_error_app1 by (lengths; unfold dx, dy, k in *; lia).
      rewrite nth_error_map_seq by (unfold dx, dy, k in *; lia). do 2 f_equal. unfold k, dx, dy in *. lia.
    - intros r Hr. unfold entry. rewrite (row_of p mix r Hm Hr).
      destruct (Nat.ltb_spec r (lv_dim_x p)); [unfold mixing_x|unfold mixing_y]; cbn zeta;
        rewrite (nth_app_at [_; _; _]); rewrite app_nth2 by (lengths; unfold k; lia); lengths;
        rewrite app_nth2 by (lengths; unfold dx, k in *; lia); lengths;
        rewrite app_nth2 by (lengths; unfold dx, dy, k in *; lia); lengths;
        rewrite app_nth1 by (lengths; unfold dx, dy, k in *; lia).
      + rewrite nth_tail by (unfold dx, dy, k in *; lia). unfold k, dx, dy in *.
        match goal with |- (if (r =? ?a)%nat then _ else _) = _ => replace a with i by lia end. reflexivity.
      + rewrite nth_repeat0. unfold dx in *. destruct (Nat.eqb_spec r i); [lia|reflexivity].
  Qed.

  Lemma loading_w i : (k <= i < dy)%nat ->
    loading p mix (label "W" i) (fun r => if (r =? dx + i)%nat then lv_eta_y p else 0).
  Proof.
    intros Hi. destruct Hv as [Hx Hy]. exists (3 + (k + (dx + (dy + ((dx - k) + (i - k))))))%nat. split; [|split; [unfold n_latent, dx, dy, k in *; lia|]].
    - unfold latent_variable_labels. cbn zeta. rewrite (nth_error_app_at [_; _; _]).
      rewrite nth_error_app2 by (lengths; unfold k; lia). lengths.
      rewrite nth_error_app2 by (lengths; unfold dx, k in *; lia). lengths.
      rewrite nth_error_app2 by (lengths; unfold dx, dy, k in *; lia). lengths.
      rewrite nth_error_app2 by (lengths; unfold dx, dy, k in *; lia). lengths.
      rewrite nth_error_map_seq by (unfold dx, dy, k in *; lia). do 2 f_equal. unfold k, dx, dy in *. lia.
    - intros r Hr. unfold entry. rewrite (row_of p mix r Hm Hr).
      destruct (Nat.ltb_spec r (lv_dim_x p)); [unfold mixing_x|unfold mixing_y]; cbn zeta;
        rewrite (nth_app_at [_; _; _]); rewrite app_nth2 by (lengths; unfold k; lia); lengths;
        rewrite app_nth2 by (lengths; unfold dx, k in *; lia); lengths;
        rewrite app_nth2 by (lengths; unfold dx, dy, k in *; lia); lengths;
        rewrite app_nth2 by (lengths; unfold dx, dy, k in *; lia); lengths.
      + rewrite nth_repeat0. unfold dx in *. destruct (Nat.eqb_spec r (lv_dim_x p + i)); [lia|reflexivity].
      + rewrite nth_tail by (unfold dx, dy, k in *; lia). unfold k, dx, dy in *.
        match goal with |- (if (_ =? ?a)%nat then _ else _) = _ => replace a with i by lia end.
        destruct (Nat.eqb_spec (r - lv_dim_x p) i), (Nat.eqb_spec r (lv_dim_x p + i)); try reflexivity; lia.
  Qed.
End Loadings.

Lemma row_labels p :
  (forall i, (i < lv_dim_x p)%nat -> nth_error (xy_labels p) i = Some ("$X_" ++ decimal (S i) ++ "$")%string) /\
  (forall j, (j < lv_dim_y p)%nat ->
     nth_error (xy_labels p) (lv_dim_x p + j) = Some ("$Y_" ++ decimal (S j) ++ "$")%string).
Proof.
  unfold xy_labels. split.
  - intros i Hi. rewrite nth_error_app1 by (rewrite map_length, seq_length; auto). rewrite nth_error_map_seq by auto.
    unfold label. rewrite Nat.add_1_r. reflexivity.
  - intros j Hj. replace (lv_dim_x p + j)%nat with (length (map (label "X") (seq 0 (lv_dim_x p))) + j)%nat
      by now rewrite map_length, seq_length.
    rewrite nth_error_app_at, nth_error_map_seq by auto. unfold label. rewrite Nat.add_1_r. reflexivity.
Qed.

(** Concrete generator, data and objects for the examples about training. *)
From Coq Require Import String Permutation Lia Lra.
From Verif Require Import Base BaseLemmas UtilsModel UtilsSpec JaxModel ObjectivesModel TrainingLogModel TrainingModel TrainingSpec
  TrainingLogProofs TrainingProofs TrainingThms MineThms.
Open Scope Z_scope.
Local Notation length := List.length.

(** A generator: keys are integers, draws are deterministic. *)
Definition demo : prng :=
  {| key := Z; prng_key := fun s => s;
     split := fun k n => map (fun i => 100 * k + Z.of_nat i) (seq 0 n);
     choice := fun _ n m => map (fun i => (n - 1 - i)%nat) (seq 0 m);
     permutation := fun _ n => rev (seq 0 n);
     randint := fun k a b => a |}.

Lemma demo_ok : prng_ok demo.
Proof.
  split.
  - intros k n. cbn. now rewrite map_length, seq_length.
  - intros k n m Hm. cbn [choice demo]. split; [now rewrite map_length, seq_length|]. split.
    + assert (G : forall a, (a + m <= n)%nat -> NoDup (map (fun i => (n - 1 - i)%nat) (seq a m))); [|now apply G].
      clear Hm. induction m as [|m IH]; intros a Ha; [constructor|]. cbn [seq map]. constructor; [|apply IH; lia].
      intros Hin. apply in_map_iff in Hin as (i & Hi & Hj). rewrite in_seq in Hj. lia.
    + apply Forall_forall. intros j Hj. apply in_map_iff in Hj as (i & <- & Hi). rewrite in_seq in Hi. lia.
  - intros k n. cbn. symmetry. apply Permutation_rev.
Qed.

Definition demo_np (_ : Z) (n : nat) : list nat := rev (seq 0 n).
Lemma demo_np_ok s n : Permutation (demo_np s n) (seq 0 n).
Proof. symmetry. apply Permutation_rev. Qed.

(** Four paired points. *)
Definition demo_x : matrix := [[0]; [1]; [2]; [3]]%R.
Definition demo_y : matrix := [[10]; [11]; [12]; [13]]%R.

(** A "critic" counting the updates applied to it; the optimiser has no state. *)
Definition demo_grad {A} (_ : Z -> A) (c : Z) : Z := c.
Definition demo_adam_init (_ : R) (_ : Z) : unit := tt.
Definition demo_adam_update (_ : R) (_ : Z) (o : unit) (_ : Z) : Z * unit := (1, o).
Definition demo_train f every max_n :=
  basic_training demo demo_grad demo_adam_init demo_adam_update Z.add 7 0 f demo_x demo_y None None None (Some 2%nat) every max_n true 1%R.

(** A log in which the given test values were recorded. *)
Definition demo_log (vals : list fl) : training_log :=
  fold_left (fun l v => log_test_mi l (1 + zlen (mi_test_history l)) v) vals
    {| max_n_steps := 100; early_stopping := true; train_smooth_factor := 1 / 10; train_history_in_info := false;
       test_history_in_info := true; mi_train_history := []; mi_test_history := []; mi_test_best := None;
       logs_since_mi_test_best := 0; log_info := [] |}.

Lemma demo_log_reachable vals : log_reachable (demo_log vals) /\ test_values (demo_log vals) = vals.
Proof.
  unfold demo_log.
  assert (G : forall l, log_reachable l -> log_reachable (fold_left (fun l v => log_test_mi l (1 + zlen (mi_test_history l)) v) vals l) /\
     test_values (fold_left (fun l v => log_test_mi l (1 + zlen (mi_test_history l)) v) vals l) = (test_values l ++ vals)%list).
  { induction vals as [|v vals IH]; intros l Hl; [now rewrite app_nil_r|]. cbn [fold_left].
    destruct (IH _ (reach_test l (1 + zlen (mi_test_history l)) v Hl)) as [A B]. split; [assumption|].
    rewrite B. unfold test_values. cbn [log_test_mi mi_test_history]. rewrite map_app, <- app_assoc. reflexivity. }
  apply G. apply (reach_init 100 true (1 / 10) false true). unfold log_init.
  now rewrite (proj2 (Rleb_true (1 / 10) (1 / 2))) by lra.
Qed.

(** A log with ten training values. *)
Definition demo_history (vals : list R) : training_log :=
  {| max_n_steps := 100; early_stopping := true; train_smooth_factor := 1 / 10; train_history_in_info := false;
     test_history_in_info := true; mi_train_history := combine (step_numbers (length vals)) (map Fin vals); mi_test_history := [];
     mi_test_best := None; logs_since_mi_test_best := 0; log_info := [] |}.
Lemma demo_history_values vals : map snd (mi_train_history (demo_history vals)) = map Fin vals.
Proof.
  cbn [demo_history mi_train_history]. apply KsgThms.combine_snd. unfold step_numbers. rewrite !map_length. now rewrite seq_length.
Qed.

(** Parameters of an estimator. *)
Definition demo_params (b : Z) : neural_params :=
  {| np_formula_name := "demo"; np_batch_size := b; np_max_n_steps := 10; np_train_test_split := Some (1 / 2)%R;
     np_test_every_n_steps := 1; np_learning_rate := 1; np_standardize := false; np_seed := 42 |}.
Definition demo_estimator (b : Z) : neural (C := Z) demo :=
  {| ne_formula := fun c _ _ => Fin (IZR c); ne_formula_test := fun c _ _ => Fin (IZR c);
     ne_factory := fun _ _ _ => Ok 0; ne_trained_critic := None; ne_params := demo_params b |}.

Lemma demo_split : exists xtr xte ytr yte,
  train_test_split demo demo_np demo_x demo_y (Some (1 / 2)%R) 4201 = Ok (xtr, xte, ytr, yte) /\ length xtr = 2%nat /\ length ytr = 2%nat.
Proof.
  destruct (split_is_partition demo demo_np demo_x demo_y (1 / 2) 4201 demo_np_ok eq_refl) as (xtr & xte & ytr & yte & E & _ & H1 & _ & _ & H2 & _).
  - lra.
  - cbn. lra.
  - exists xtr, xte, ytr, yte. split; [assumption|].
    assert (length xtr = 2)%nat; [|split; congruence].
    cbn [demo_x length] in H2. change (INR 4) with (INR (2 * 2)) in H2. rewrite mult_INR in H2. change (INR 2) with 2%R in H2.
    destruct H2 as [H2 H3].
    assert (A : (INR (length xtr) <= INR 2)%R) by (cbn; lra). apply INR_le in A.
    assert (B : (INR 2 < INR (length xtr + 1))%R) by (rewrite plus_INR; cbn; lra). apply INR_lt in B. lia.
Qed.

Lemma demo_params_ok b : 0 < b -> neural_params_valid (demo_params b) = true.
Proof.
  intros H. unfold neural_params_valid. cbn. rewrite (proj2 (Rltb_true 0 1)) by lra.
  apply Z.ltb_lt in H. now rewrite H.
Qed.

(** A layer initialiser. *)
Definition demo_init (_ : Z) (i o : nat) : matrix * list R := (repeat (repeat 1%R i) o, repeat 0%R o).
Lemma demo_init_ok (k : Z) i o : rectangular i (fst (demo_init k i o)) /\
  length (fst (demo_init k i o)) = o /\ length (snd (demo_init k i o)) = o.
Proof.
  cbn. rewrite !repeat_length. split; [|auto]. apply Forall_forall. intros r Hr. apply repeat_spec in Hr as ->. apply repeat_length.
Qed.

(** MINE's parameters. *)
Definition demo_mine (b : Z) : mine (C := Z) demo :=
  {| mine_ps := {| mp_batch_size := b; mp_max_n_steps := 10; mp_train_test_split := Some (1 / 2)%R;
                   mp_test_every_n_steps := 1; mp_learning_rate := 1; mp_smoothing_alpha := 9 / 10;
                   mp_standardize := false; mp_seed := 42 |};
     mine_create := fun _ _ _ => Ok 0; mine_trained_critic := None |}.
Definition demo_mine_grad (_ : Z -> fl) (c : Z) : list fl := [Fin (IZR c)].
Definition demo_mine_update (_ : R) (_ : list fl) (o : unit) (_ : Z) : Z * unit := (1, o).
Definition demo_critic (c : Z) (x y : list R) : R := IZR c.

Lemma demo_mine_ok b : 0 < b -> mine_params_valid (mine_ps demo (demo_mine b)) = true.
Proof.
  intros H. unfold mine_params_valid. cbn. apply Z.ltb_lt in H. rewrite H.
  repeat match goal with |- context [Rltb ?a ?b] => rewrite (proj2 (Rltb_true a b)) by lra end. reflexivity.
Qed.

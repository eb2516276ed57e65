(** Proofs about MINEEstimator and about the choice of backend. *)
From Coq Require Import String Permutation Lia Lra FunctionalExtensionality.
From Verif Require Import Base BaseLemmas UtilsModel JaxModel ObjectivesModel ObjectivesSpec ObjectivesProofs TrainingLogModel TrainingModel TrainingSpec
  TrainingLogProofs TrainingProofs TrainingThms KsgThms.
Open Scope Z_scope.
Local Notation length := List.length.

Lemma loop_log_fields {K S} (os : S -> K -> result (S * fl)) tv every keys : forall n s l l' s',
  training_loop os tv every keys n s l = Ok (l', s') ->
  test_history_in_info l' = test_history_in_info l /\ train_history_in_info l' = train_history_in_info l /\
  train_smooth_factor l' = train_smooth_factor l.
Proof.
  induction keys as [|k keys IH]; intros n s l l' s' H; [cbn in H; injection H as <- <-; auto|]. cbn [training_loop] in H.
  destruct (os s k) as [[s1 v1]|]; [|discriminate]. cbn [bind] in H. destruct (every =? 0); [discriminate|].
  destruct (n mod every =? 0).
  - destruct (tv s1 k); [|discriminate]. cbn [bind] in H. destruct (early_stop _); [injection H as <- <-; auto|].
    apply IH in H. exact H.
  - cbn [bind] in H. destruct (early_stop _); [injection H as <- <-; auto|]. apply IH in H. exact H.
Qed.

Lemma info_of_log log T values : mi_train_history log = combine (step_numbers T) values -> length values = T ->
  test_history_in_info log = true -> train_history_in_info log = false ->
  sdict_get (additional_information log) "n_training_steps" = Some (InfoInt (zlen (mi_train_history log))) /\
  sdict_get (additional_information log) "test_history" = Some (InfoHistory (mi_test_history log)).
Proof.
  intros A5 A1 Hin1 Hin2. unfold additional_information. rewrite Hin1, Hin2. unfold sdict_merge. cbn [fold_left fst snd].
  rewrite sdict_get_set_eq, sdict_get_set_neq, sdict_get_set_eq by discriminate. split; [|reflexivity]. do 2 f_equal.
  rewrite A5. unfold zlen. rewrite combine_length. unfold step_numbers at 2. rewrite map_length, seq_length, A1, Nat.min_id.
  clear - A1.
  destruct T as [|T]; [reflexivity|].
  destruct (rev (combine (step_numbers (S T)) values)) as [|[a b] r] eqn:Er.
  + apply (f_equal (@List.length _)) in Er. rewrite rev_length, combine_length in Er. unfold step_numbers in Er.
    rewrite map_length, seq_length, A1 in Er. cbn in Er. lia.
  + assert (Hc : combine (step_numbers (S T)) values = (rev r ++ [(a, b)])%list).
    { rewrite <- (rev_involutive (combine _ _)), Er. reflexivity. }
    assert (Hm : map fst (combine (step_numbers (S T)) values) = step_numbers (S T)).
    { apply combine_fst. unfold step_numbers. now rewrite map_length, seq_length, A1. }
    rewrite Hc, map_app in Hm. cbn [map fst] in Hm. unfold step_numbers in Hm.
    replace (S T) with (T + 1)%nat in Hm by lia. rewrite seq_app, map_app in Hm. cbn [seq map] in Hm.
    apply app_inj_tail in Hm as [_ ->]. lia.
Qed.

Section MineEst.
  Context (J : prng) {C U O : Type}.
  Variables (cv : C -> list R -> list R -> R) (gradient : (C -> fl) -> C -> list fl) (adam_init : R -> C -> O)
    (adam_update : R -> list fl -> O -> C -> U * O) (apply_updates : C -> U -> C) (np : Z -> nat -> list nat).
  Let est := @mine_estimate_with_info J C U O cv gradient adam_init adam_update apply_updates np.
  Let train := mine_training J cv gradient adam_init adam_update apply_updates.

  Lemma mine_total (HJ : prng_ok J) rng c xs ys xt yt alpha bs every max_n early lr :
    every <> 0 -> length xs = length ys -> (forall b, bs = Some b -> (b <= length xs)%nat) ->
    exists log c', train rng c xs ys xt yt alpha bs every max_n early lr = Ok (log, c').
  Proof.
    intros Hev Hl Hb. unfold train, mine_training. destruct (new_log_ok (Z.of_nat max_n) early) as (l0 & E0). rewrite E0. cbn [bind].
    set (os := mine_one_step J cv gradient adam_update apply_updates alpha lr xs ys bs).
    match goal with |- context [training_loop os ?b _ _ _ _ _] => set (tv := b) end.
    assert (Hos : forall s k, True -> exists s' v, os s k = Ok (s', v) /\ True).
    { intros [[c0 o0] d0] k _. unfold os, mine_one_step, split2. pose proof (ok_split J HJ k 2) as Hs.
      destruct (split J k 2) as [|k1 [|k2 [|]]]; try discriminate. cbn [bind].
      assert (exists bx bp bu, sample_paired_unpaired J k1 xs ys bs = Ok (bx, bp, bu)) as (bx & bp & bu & ->).
      { destruct bs as [b|].
        - destruct (sample_spec J HJ k1 xs ys b Hl (Hb b eq_refl)) as (bx & bp & bu & E & _). eauto.
        - destruct (sample_all_spec J HJ k1 xs ys Hl) as (bu & E & _). eauto. }
      cbn [bind]. destruct (mine_step _ _ _ _ _ _ _ _ _ _ _ _) as [[[c1 o1] v] d1]. eauto. }
    assert (Htv : forall s k, True -> exists v, tv s k = Ok v).
    { intros [[c0 o0] d0] k _. unfold tv, mine_test_value, split2. pose proof (ok_split J HJ k 2) as Hs.
      destruct (split J k 2) as [|k1 [|k2 [|]]]; try discriminate. cbn [bind]. eauto. }
    destruct (loop_total os tv every (fun _ => True) (split J rng max_n) Hev Hos Htv 1 (c, adam_init lr c, NInf) l0 I) as (l1 & [[c1 o1] d1] & E1 & _).
    rewrite E1. cbn [bind].
    destruct (finish_total l1) as (l2 & E2 & _).
    - apply loop_log_fields in E1 as (_ & _ & ->). destruct (new_log_spec _ _ _ E0) as (_ & _ & _ & _ & _ & _ & -> & _). lra.
    - rewrite E2. cbn [bind]. eauto.
  Qed.

  Definition mine_with (e : mine J) (o : option C) : mine J :=
    {| mine_ps := mine_ps J e; mine_create := mine_create J e; mine_trained_critic := o |}.

  Lemma mine_any_critic (e : mine J) o x y :
    snd (est (mine_with e o) x y) = snd (est e x y) /\
    fst (est (mine_with e o) x y) =
      match mine_trained_critic J (fst (est (mine_with e None) x y)) with
      | Some c => mine_with e (Some c)
      | None => mine_with e o
      end.
  Proof.
    unfold est, mine_estimate_with_info. cbn [mine_ps mine_with mine_create].
    match goal with |- context [match ?r with Ok _ => _ | Err _ => _ end] => destruct r as [[[c|] r0]|ex] end;
      cbn; split; reflexivity.
  Qed.

  Lemma mine_calls_spec calls : forall e o,
    after_calls (fun e x y => fst (est e x y)) (mine_with e o) calls =
      mine_with e (match last_some (map (fun p => mine_trained_critic J (fst (est (mine_with e None) (fst p) (snd p)))) calls) with
                     | Some c => Some c | None => o end).
  Proof.
    induction calls as [|[x y] calls IH]; intros e o; [reflexivity|]. cbn [after_calls map last_some fst snd].
    rewrite (proj2 (mine_any_critic e o x y)).
    destruct (mine_trained_critic J (fst (est (mine_with e None) x y))) as [c|]; rewrite IH;
      destruct (last_some _); reflexivity.
  Qed.

  Lemma mine_history (e : mine J) calls x y : mine_trained_critic J e = None ->
    mine_trained_critic J (after_calls (fun e x y => fst (est e x y)) e calls)
      = last_some (map (fun p => mine_trained_critic J (fst (est e (fst p) (snd p)))) calls) /\
    snd (est (after_calls (fun e x y => fst (est e x y)) e calls) x y) = snd (est e x y).
  Proof.
    intros Hn. assert (E : e = mine_with e None) by (destruct e; unfold mine_with; cbn in *; now rewrite Hn).
    split.
    - rewrite E at 1. rewrite mine_calls_spec. cbn. rewrite <- E. now destruct (last_some _).
    - rewrite E at 1. rewrite mine_calls_spec. apply mine_any_critic.
  Qed.

  Lemma mine_batch_too_large (e : mine J) x y k1 k2 k3 xs ys xtr xte ytr yte :
    split J (prng_key J (mp_seed (mine_ps J e))) 3 = [k1; k2; k3] ->
    product_space_values (mp_standardize (mine_ps J e)) x y = Ok (xs, ys) ->
    train_test_split J np xs ys (mp_train_test_split (mine_ps J e)) k2 = Ok (xtr, xte, ytr, yte) ->
    zlen xtr < mp_batch_size (mine_ps J e) ->
    est e x y = (e, Ok {| mi_estimate := NaN; result_info := [("batch_size_larger_than_train"%string, InfoBool true)] |}).
  Proof.
    intros H1 H2 H3 H4. unfold est, mine_estimate_with_info, split3. rewrite H1. cbn [bind]. rewrite H2. cbn [bind].
    rewrite H3. cbn [bind]. rewrite (proj2 (Z.ltb_lt _ _) H4). reflexivity.
  Qed.

  Lemma mine_trained (e : mine J) x y k1 k2 k3 xs ys xtr xte ytr yte c0 : prng_ok J ->
    mine_params_valid (mine_ps J e) = true ->
    split J (prng_key J (mp_seed (mine_ps J e))) 3 = [k1; k2; k3] ->
    product_space_values (mp_standardize (mine_ps J e)) x y = Ok (xs, ys) ->
    train_test_split J np xs ys (mp_train_test_split (mine_ps J e)) k2 = Ok (xtr, xte, ytr, yte) ->
    length xtr = length ytr ->
    mp_batch_size (mine_ps J e) <= zlen xtr ->
    mine_create J e k1 (ncols xs) (ncols ys) = Ok c0 ->
    exists log c,
      train k3 c0 xtr ytr (Some xte) (Some yte) (mp_smoothing_alpha (mine_ps J e))
        (Some (Z.to_nat (mp_batch_size (mine_ps J e)))) (mp_test_every_n_steps (mine_ps J e))
        (Z.to_nat (mp_max_n_steps (mine_ps J e))) true (mp_learning_rate (mine_ps J e)) = Ok (log, c) /\
      est e x y = ({| mine_ps := mine_ps J e; mine_create := mine_create J e; mine_trained_critic := Some c |},
                   Ok {| mi_estimate := final_mi log; result_info := additional_information log |}) /\
      sdict_get (additional_information log) "n_training_steps" = Some (InfoInt (zlen (mi_train_history log))) /\
      sdict_get (additional_information log) "test_history" = Some (InfoHistory (mi_test_history log)).
  Proof.
    intros HJ Hv H1 H2 H3 Hl H4 H5. unfold mine_params_valid in Hv.
    repeat (apply andb_true_iff in Hv as [Hv ?]).
    match goal with H : (Rltb 0 _ && Rltb _ 1)%bool = true |- _ => apply andb_true_iff in H as [Ha1 Ha2] end.
    apply Rltb_true in Ha1, Ha2. apply Z.ltb_lt in Hv.
    repeat match goal with H : (0 <? _) = true |- _ => apply Z.ltb_lt in H end.
    destruct (mine_total HJ k3 c0 xtr ytr (Some xte) (Some yte) (mp_smoothing_alpha (mine_ps J e))
        (Some (Z.to_nat (mp_batch_size (mine_ps J e)))) (mp_test_every_n_steps (mine_ps J e))
        (Z.to_nat (mp_max_n_steps (mine_ps J e))) true (mp_learning_rate (mine_ps J e))) as (log & c & E); [lia|assumption| |].
    { intros b [= <-]. unfold zlen in H4. lia. }
    exists log, c. split; [exact E|]. split.
    - unfold est, mine_estimate_with_info, split3. rewrite H1. cbn [bind]. rewrite H2. cbn [bind]. rewrite H3. cbn [bind].
      rewrite (proj2 (Z.ltb_ge _ _) H4). rewrite H5. cbn [bind]. fold train. rewrite E. cbn [bind]. reflexivity.
    - pose proof E as E'. unfold train in E'.
      apply mine_schedule in E' as (critics & opts & values & ds & A0 & A1 & _ & _ & _ & _ & A5 & _);
        [|assumption|lra|assumption| |].
      + apply (info_of_log _ _ _ A5 A1).
        * unfold train, mine_training in E. destruct (new_log _ _) as [l0|] eqn:E0; [|discriminate]. cbn [bind] in E.
          destruct (new_log_spec _ _ _ E0) as (_ & _ & _ & _ & _ & _ & _ & T1 & T2).
          destruct (training_loop _ _ _ _ _ _ _) as [[l1 [[c1 o1] d1]]|] eqn:E1; [|discriminate]. cbn [bind] in E.
          destruct (finish l1) as [l2|] eqn:E2; [|discriminate]. injection E as <- <-.
          apply loop_log_fields in E1 as (K1 & K2 & _). destruct (finish_keeps _ _ E2) as (_ & _ & _ & _ & _ & F6 & F7). congruence.
        * unfold train, mine_training in E. destruct (new_log _ _) as [l0|] eqn:E0; [|discriminate]. cbn [bind] in E.
          destruct (new_log_spec _ _ _ E0) as (_ & _ & _ & _ & _ & _ & _ & T1 & T2).
          destruct (training_loop _ _ _ _ _ _ _) as [[l1 [[c1 o1] d1]]|] eqn:E1; [|discriminate]. cbn [bind] in E.
          destruct (finish l1) as [l2|] eqn:E2; [|discriminate]. injection E as <- <-.
          apply loop_log_fields in E1 as (K1 & K2 & _). destruct (finish_keeps _ _ E2) as (_ & _ & _ & _ & _ & F6 & F7). congruence.
      + intros ->. unfold zlen in H4. cbn in H4. lia.
      + intros [= Hz]. lia.
  Qed.
End MineEst.

(** ** The choice of the training backend *)
Lemma take_same_length {A B} (xs : list A) (ys : list B) idx : length xs = length ys -> length (take xs idx) = length (take ys idx).
Proof.
  intros H. induction idx as [|i idx IH]; [reflexivity|]. cbn [take].
  destruct (nth_error xs i) eqn:E1, (nth_error ys i) eqn:E2; cbn; try congruence.
  - apply nth_error_None in E2. assert (nth_error xs i <> None) by congruence. apply nth_error_Some in H0. lia.
  - apply nth_error_None in E1. assert (nth_error ys i <> None) by congruence. apply nth_error_Some in H0. lia.
Qed.

Section Backend.
  Context (J : prng) (HJ : prng_ok J) {C G U O : Type}.
  Variables (gradient : (C -> fl) -> C -> G) (adam_init : R -> C -> O) (adam_update : R -> G -> O -> C -> U * O)
            (apply_updates : C -> U -> C) (np : Z -> nat -> list nat).
  Variables (cv : C -> list R -> list R -> R) (factory : list nat -> key J -> nat -> nat -> result C).
  Let est := @estimate_with_info J C G U O gradient adam_init adam_update apply_updates np.

  Lemma training_formula_irrelevant rng c f g (xs ys : matrix) ft xt yt b every max_n early lr :
    length xs = length ys -> (1 <= b <= length xs)%nat ->
    (forall c bx by_, bx <> [] -> length bx = length by_ -> f c bx by_ = g c bx by_) ->
    basic_training J gradient adam_init adam_update apply_updates rng c f xs ys (Some ft) xt yt (Some b) every max_n early lr =
    basic_training J gradient adam_init adam_update apply_updates rng c g xs ys (Some ft) xt yt (Some b) every max_n early lr.
  Proof.
    intros Hl Hb Hfg. unfold basic_training.
    match goal with |- context [training_loop ?a _ _ _ _ _ _] => set (os1 := a) end.
    match goal with |- _ = (do log <- _; do (_, _) <- training_loop ?a _ _ _ _ _ _; _) => set (os2 := a) end.
    assert (os1 = os2) as ->; [|reflexivity].
    extensionality s. extensionality k. destruct s as [c0 o0]. unfold os1, os2.
    destruct (get_batch_spec J xs ys k b HJ Hl ltac:(lia)) as (bx & by_ & E & L1 & L2 & _). rewrite E. cbn [bind].
    assert (Hne : bx <> []) by (destruct bx; [cbn in L1; lia|discriminate]).
    assert (Hf : (fun c => fl_opp (f c bx by_)) = (fun c => fl_opp (g c bx by_))).
    { extensionality c1. now rewrite Hfg by congruence. }
    unfold basic_step. rewrite (Hfg c0) by congruence. cbv zeta. now rewrite Hf.
  Qed.

  Lemma standard_scaler_length (m m' : matrix) : standard_scaler m = Ok m' -> length m' = length m.
  Proof.
    unfold standard_scaler. destruct m as [|[|a row] m]; try discriminate. intros [= <-].
    unfold scaler_transform. now rewrite ?map_length.
  Qed.

  Lemma backend_irrelevant o hidden p e1 e2 :
    variational_init J cv factory o "quadratic" hidden p = Ok e1 ->
    variational_init J cv factory o "linear" hidden p = Ok e2 ->
    ne_params J e1 = ne_params J e2 /\
    forall x y, snd (est e1 x y) = snd (est e2 x y) /\
      ne_trained_critic J (fst (est e1 x y)) = ne_trained_critic J (fst (est e2 x y)).
  Proof.
    unfold variational_init, neural_init. cbn [String.eqb Ascii.eqb Bool.eqb bind].
    set (p' := {| np_formula_name := _ |}). destruct (neural_params_valid p') eqn:Hv; [|discriminate].
    intros [= <-] [= <-]. split; [reflexivity|]. intros x y.
    unfold neural_params_valid in Hv. apply andb_true_iff in Hv as [Hv _]. apply andb_true_iff in Hv as [Hv _]. apply Z.ltb_lt in Hv.
    unfold est, estimate_with_info. cbn [ne_params ne_formula ne_formula_test ne_factory].
    destruct (split3 J _) as [[[k1 k2] k3]|]; [|cbn; auto]. cbn [bind].
    destruct (product_space_values (np_standardize p') x y) as [[xs ys]|] eqn:Es; [|cbn; auto]. cbn [bind].
    destruct (train_test_split J np xs ys (np_train_test_split p') k2) as [[[[xtr xte] ytr] yte]|] eqn:Et; [|cbn; auto]. cbn [bind].
    destruct (Z.ltb_spec (zlen xtr) (np_batch_size p')); [cbn; auto|].
    destruct (factory hidden k1 (ncols xtr) (ncols ytr)) as [c0|]; [|cbn; auto]. cbn [bind].
    rewrite (training_formula_irrelevant k3 c0 (quadratic_formula cv o) (linear_formula cv o)).
    - match goal with |- context [match ?r with Ok _ => _ | Err _ => _ end] => destruct r as [[[c|] r0]|ex] end; cbn; auto.
    - assert (Hl : length xs = length ys).
      { unfold product_space_values in Es. destruct (Nat.eqb_spec (length x) (length y)); [|discriminate]. cbn [negb] in Es.
        destruct (np_standardize p'); [|congruence].
        destruct (standard_scaler x) eqn:E1; [|discriminate]. destruct (standard_scaler y) eqn:E2; [|discriminate].
        apply standard_scaler_length in E1, E2. cbn in Es. congruence. }
      unfold train_test_split, sk_train_test_split in Et. destruct (np_train_test_split p'); [|congruence].
      destruct (negb _); [discriminate|]. destruct (negb _); [discriminate|]. destruct (_ =? 0)%nat; [discriminate|].
      injection Et as <- _ <- _. now apply take_same_length.
    - unfold zlen in *. lia.
    - intros c bx by_ Hb Hlb. destruct (backends_agree (cv c) bx by_ Hb Hlb) as (A & B & D). destruct o; cbn; congruence.
  Qed.
End Backend.

(** ** Consequences for the warnings *)
Lemma window_one (vals : list R) i : (1 <= i <= length vals)%nat -> window_mean 1 vals i = nth (i - 1) vals 0%R.
Proof.
  intros H. unfold window_mean.
  destruct (skipn (i - 1) vals) as [|v r] eqn:E.
  - apply (f_equal (@List.length R)) in E. rewrite skipn_length in E. cbn in E. lia.
  - assert (nth (i - 1) vals 0%R = v) as ->.
    { rewrite <- (firstn_skipn (i - 1) vals), E. rewrite app_nth2; rewrite firstn_length; [|lia].
      replace (i - 1 - Nat.min (i - 1) (length vals))%nat with 0%nat by lia. reflexivity. }
    cbn. unfold rmean. cbn. lra.
Qed.

Lemma negative_final_flagged l (vals : list R) l' :
  map snd (mi_train_history l) = map Fin vals -> log_info l = [] -> (train_smooth_factor l <= 1 / 2)%R ->
  let w := Z.to_nat (py_int (train_smooth_factor l * IZR (zlen vals))) in
  (1 <= w)%nat -> (window_mean w vals (length vals) < 0)%R -> finish l = Ok l' ->
  has_flag "max_training_mi_decreased" l'.
Proof.
  intros H1 H2 H3 w Hw Hneg Hf. destruct (detect_cases l vals H1 H2 H3) as (l1 & E & _ & _ & _ & _ & _ & _ & _ & D & _).
  rewrite E in Hf. injection Hf as <-. apply D. split; [assumption|]. exists (length vals). split.
  - split; [|lia]. unfold w. pose proof (zlen_nonneg vals) as Hz.
    destruct (Rle_dec 0 (train_smooth_factor l * IZR (zlen vals))) as [Hp|Hp].
    + pose proof (py_int_spec _ Hp) as [A _]. apply IZR_le in Hz.
      assert (IZR (py_int (train_smooth_factor l * IZR (zlen vals))) <= IZR (zlen vals))%R.
      { assert (train_smooth_factor l * IZR (zlen vals) <= 1 / 2 * IZR (zlen vals))%R by (apply Rmult_le_compat_r; lra). lra. }
      apply le_IZR in H. unfold zlen in *. lia.
    + pose proof (py_int_neg (train_smooth_factor l * IZR (zlen vals))). assert (py_int (train_smooth_factor l * IZR (zlen vals)) <= 0) by (apply H; lra). lia.
  - fold w. lra.
Qed.

Lemma short_run_never_increasing l (vals : list R) l' :
  map snd (mi_train_history l) = map Fin vals -> log_info l = [] -> train_smooth_factor l = (1 / 10)%R ->
  (10 <= length vals < 20)%nat -> finish l = Ok l' ->
  (has_flag "training_mi_still_increasing" l' <-> (last vals 0 < 0)%R).
Proof.
  intros H1 H2 H3 Hn Hf. destruct (detect_cases l vals H1 H2 ltac:(lra)) as (l1 & E & _ & _ & _ & _ & _ & _ & _ & _ & D).
  rewrite E in Hf. injection Hf as <-. rewrite D.
  assert (Z.to_nat (py_int (train_smooth_factor l * IZR (zlen vals))) = 1%nat) as ->.
  { rewrite H3. unfold zlen. set (n := Z.of_nat (length vals)). assert (Hz : 10 <= n < 20) by (unfold n; lia).
    destruct Hz as [Hz1 Hz2]. apply IZR_le in Hz1. apply IZR_lt in Hz2.
    pose proof (py_int_spec (1 / 10 * IZR n)) as [A B]; [lra|].
    assert (C1 : (IZR (py_int (1 / 10 * IZR n)) < IZR 2)%R) by lra. apply lt_IZR in C1.
    assert (C2 : (IZR 0 < IZR (py_int (1 / 10 * IZR n)))%R) by lra. apply lt_IZR in C2. lia. }
  replace (length vals - (1 - 1))%nat with (length vals) by lia. rewrite window_one by lia.
  assert (nth (length vals - 1) vals 0%R = last vals 0%R) as ->.
  { destruct (exists_last (l := vals)) as (r & a & ->); [intros ->; cbn in Hn; lia|].
    rewrite last_last, app_length. cbn [length]. rewrite Nat.add_sub. now rewrite app_nth2, Nat.sub_diag by lia. }
  split; [intros [_ ?]; lra|intros; split; [lia|lra]].
Qed.

(** ** The weights of MINE's moving average *)
Lemma first_step_correction alpha D : (0 < alpha < 1)%R -> (0 < D)%R -> (D / weighted alpha ([] ++ [D]) = 1 / (1 - alpha))%R.
Proof. intros Ha HD. cbn. field. split; lra. Qed.

Lemma variational_init_spec (J : prng) {C} (cv : C -> list R -> list R -> R)
    (factory : list nat -> key J -> nat -> nat -> result C) o backend hidden p :
  let known := backend = "quadratic"%string \/ backend = "linear"%string in
  let valid := 0 < np_batch_size p /\ 0 < np_max_n_steps p /\ (0 < np_learning_rate p)%R in
  ((exists e, variational_init J cv factory o backend hidden p = Ok e) <-> known /\ valid) /\
  (~ known -> variational_init J cv factory o backend hidden p = Err ValueError) /\
  (known -> ~ valid -> variational_init J cv factory o backend hidden p = Err ValidationError) /\
  forall e, variational_init J cv factory o backend hidden p = Ok e ->
    let q := ne_params J e in
    np_batch_size q = np_batch_size p /\ np_max_n_steps q = np_max_n_steps p /\ np_train_test_split q = np_train_test_split p /\
    np_test_every_n_steps q = np_test_every_n_steps p /\ np_learning_rate q = np_learning_rate p /\
    np_standardize q = np_standardize p /\ np_seed q = np_seed p /\
    ne_trained_critic J e = None /\ ne_factory J e = factory hidden /\ ne_formula_test J e = linear_formula cv o.
Proof.
  intros known valid. unfold variational_init, neural_init.
  match goal with |- context [neural_params_valid ?p'] =>
    assert (Hv : neural_params_valid p' = true <-> valid); [|destruct (neural_params_valid p') eqn:Ev] end.
  { unfold neural_params_valid. cbn [np_batch_size np_max_n_steps np_learning_rate].
    rewrite !andb_true_iff, !Z.ltb_lt, Rltb_true. unfold valid. tauto. }
  all: destruct (String.eqb_spec backend "quadratic") as [->|N1]; [|destruct (String.eqb_spec backend "linear") as [->|N2]]; cbn [bind].
  all: apply conj; [apply conj; [intros [e He]; first [discriminate|split; [unfold known; auto|apply Hv; reflexivity]]
                      |intros [K V]; first [solve [eauto]|exfalso; apply Hv in V; discriminate|exfalso; destruct K; contradiction]]|].
  all: apply conj; [intros K; first [reflexivity|exfalso; apply K; unfold known; auto]|].
  all: apply conj; [intros K V; first [reflexivity|exfalso; apply V, Hv; reflexivity|exfalso; destruct K; contradiction]|].
  all: intros e He; try discriminate; injection He as <-; cbn; repeat split.
Qed.

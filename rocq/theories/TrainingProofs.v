(** Proofs about batches, splits, the training loops and the estimator classes. *)
From Coq Require Import String Permutation.
From Verif Require Import Base BaseLemmas UtilsModel UtilsSpec KsgFitProofs KsgThms JaxModel ObjectivesModel ObjectivesProofs TrainingLogModel TrainingModel
  TrainingSpec TrainingLogProofs.
Open Scope Z_scope.
Local Notation length := List.length.

(** ** Taking rows *)
Lemma take_in_range {A} (l : list A) idx d : Forall (fun i => (i < length l)%nat) idx ->
  take l idx = map (fun i => nth i l d) idx.
Proof.
  induction 1 as [|i idx Hi H IH]; [reflexivity|]. cbn [take map].
  rewrite (nth_error_nth' l d Hi), IH. reflexivity.
Qed.

Lemma take_length {A} (l : list A) idx : Forall (fun i => (i < length l)%nat) idx -> length (take l idx) = length idx.
Proof.
  induction 1 as [|i idx Hi H IH]; [reflexivity|]. cbn [take]. destruct (nth_error l i) eqn:E.
  - cbn. now rewrite IH.
  - apply nth_error_None in E. lia.
Qed.

Lemma take_nth_error {A} (l : list A) idx j : Forall (fun i => (i < length l)%nat) idx ->
  nth_error (take l idx) j = match nth_error idx j with Some i => nth_error l i | None => None end.
Proof.
  intros H. revert j. induction H as [|i idx Hi H IH]; intros j; cbn [take].
  - now destruct j.
  - destruct (nth_error l i) as [a|] eqn:E; [|apply nth_error_None in E; lia].
    destruct j; cbn [nth_error]; [now rewrite E|apply IH].
Qed.

Lemma nth_error_combine {A B} (xs : list A) (ys : list B) i :
  nth_error (combine xs ys) i = match nth_error xs i, nth_error ys i with Some a, Some b => Some (a, b) | _, _ => None end.
Proof.
  revert ys i. induction xs as [|x xs IH]; intros [|y ys] [|i]; cbn; auto. now destruct (nth_error xs i).
Qed.

Lemma take_combine {A B} (xs : list A) (ys : list B) idx : length xs = length ys ->
  combine (take xs idx) (take ys idx) = take (combine xs ys) idx.
Proof.
  intros Hl. induction idx as [|i idx IH]; [reflexivity|]. cbn [take]. rewrite nth_error_combine.
  destruct (nth_error xs i) eqn:E1, (nth_error ys i) eqn:E2; cbn [combine]; try congruence.
  - apply nth_error_None in E2. assert (nth_error xs i <> None) by congruence. apply nth_error_Some in H. lia.
  - apply nth_error_None in E1. assert (nth_error ys i <> None) by congruence. apply nth_error_Some in H. lia.
Qed.

Lemma take_app {A} (l : list A) i1 i2 : take l (i1 ++ i2) = (take l i1 ++ take l i2)%list.
Proof. induction i1 as [|i i1 IH]; cbn; [reflexivity|]. destruct (nth_error l i); cbn; congruence. Qed.

Lemma take_seq {A} (l : list A) : take l (seq 0 (length l)) = l.
Proof.
  destruct l as [|d l']; [reflexivity|]. set (l := d :: l').
  rewrite (take_in_range l _ d) by (apply Forall_forall; intros i Hi; apply in_seq in Hi; lia).
  apply nth_ext with d d; [now rewrite map_length, seq_length|]. intros n Hn. rewrite map_length, seq_length in Hn.
  rewrite (nth_indep _ d (nth 0 l d)) by (rewrite map_length, seq_length; lia).
  rewrite (map_nth (fun i => nth i l d) _ 0%nat). now rewrite seq_nth.
Qed.

Lemma take_perm {A} (l : list A) i1 i2 : Permutation i1 i2 -> Permutation (take l i1) (take l i2).
Proof.
  induction 1 as [|i i1 i2 H IH|i j i1|i1 i2 i3 H1 IH1 H2 IH2]; cbn [take]; auto.
  - destruct (nth_error l i); auto.
  - destruct (nth_error l i), (nth_error l j); auto. apply perm_swap.
  - eapply perm_trans; eassumption.
Qed.

Lemma perm_in_range p n : Permutation p (seq 0 n) -> Forall (fun i => (i < n)%nat) p.
Proof. intros H. apply Forall_forall. intros i Hi. apply (Permutation_in _ H), in_seq in Hi. lia. Qed.

Lemma take_sub_batch {A} (l : list A) idx : NoDup idx -> Forall (fun i => (i < length l)%nat) idx -> sub_batch (take l idx) l.
Proof.
  intros Hn Hr. exists idx. split; [assumption|]. rewrite take_length by assumption. split; [reflexivity|].
  intros j Hj. destruct (nth_error idx j) as [i|] eqn:E; [|apply nth_error_None in E; lia]. exists i. split; [reflexivity|].
  rewrite Forall_forall in Hr. split; [apply Hr; eapply nth_error_In; eassumption|].
  rewrite take_nth_error by (apply Forall_forall; assumption). now rewrite E.
Qed.

(** ** Batches *)
Lemma get_batch_spec {A B} J (xs : list A) (ys : list B) k b : prng_ok J -> length xs = length ys ->
  (b <= length xs)%nat ->
  exists bx by_, get_batch J xs ys k (Some b) = Ok (bx, by_) /\ length bx = b /\ length by_ = b /\
    sub_batch (combine bx by_) (combine xs ys).
Proof.
  intros HJ Hl Hb. unfold get_batch. destruct (Nat.ltb_spec (length xs) b); [lia|].
  destruct (ok_choice J HJ k (length xs) b Hb) as (H1 & H2 & H3).
  do 2 eexists. split; [reflexivity|]. split; [now rewrite take_length|].
  split; [rewrite take_length; [assumption|now rewrite <- Hl]|].
  rewrite take_combine by assumption. apply take_sub_batch; [assumption|].
  rewrite combine_length, <- Hl, Nat.min_id. assumption.
Qed.

Lemma get_batch_too_large {A B} J (xs : list A) (ys : list B) k b :
  (length xs < b)%nat -> get_batch J xs ys k (Some b) = Err ValueError.
Proof. intros H. unfold get_batch. destruct (Nat.ltb_spec (length xs) b); [reflexivity|lia]. Qed.

(** ** Train/test split *)
Definition train_rows (t : R) (n : nat) : nat := Z.to_nat (Int_part (t * INR n)).

Lemma split_is_partition {A B} J np (xs : list A) (ys : list B) t k :
  (forall s n, Permutation (np s n) (seq 0 n)) -> length xs = length ys ->
  (0 < t < 1)%R -> (1 <= t * INR (length xs))%R ->
  exists xtr xte ytr yte, train_test_split J np xs ys (Some t) k = Ok (xtr, xte, ytr, yte) /\
    Permutation (combine xtr ytr ++ combine xte yte) (combine xs ys) /\
    length xtr = length ytr /\ length xte = length yte /\
    (length xtr + length xte)%nat = length xs /\
    (INR (length xtr) <= t * INR (length xs) < INR (length xtr) + 1)%R /\ (1 <= length xte)%nat.
Proof.
  intros Hp Hl Ht Hge. unfold train_test_split, sk_train_test_split.
  rewrite (proj2 (Nat.eqb_eq _ _) Hl). cbn [negb].
  rewrite (proj2 (Rltb_true 0 t)), (proj2 (Rltb_true t 1)) by lra. cbn [andb negb].
  set (n := length xs) in *. set (nt := Z.to_nat (Int_part (t * INR n))).
  pose proof (base_Int_part (t * INR n)) as [B1 B2].
  assert (Hip : 1 <= Int_part (t * INR n)).
  { assert (IZR (Int_part (t * INR n)) > 0)%R by lra. apply Rgt_lt, lt_IZR in H. lia. }
  assert (Hnt : INR nt = IZR (Int_part (t * INR n))) by (unfold nt; rewrite INR_IZR_INZ, Z2Nat.id by lia; reflexivity).
  assert (Hlt : (nt < n)%nat).
  { apply INR_lt. rewrite Hnt. assert (0 < INR n)%R by (pose proof (pos_INR n); nra). nra. }
  destruct (Nat.eqb_spec nt 0) as [E0|E0]; [unfold nt in E0; lia|].
  set (p := np (randint J k 0 1000) n). pose proof (Hp (randint J k 0 1000) n) as Hperm. fold p in Hperm.
  assert (Hpl : length p = n) by (rewrite (Permutation_length Hperm); apply seq_length).
  assert (Hr : Forall (fun i => (i < n)%nat) p) by now apply perm_in_range.
  set (te := firstn (n - nt) p). set (tr := firstn nt (skipn (n - nt) p)).
  assert (Etr : tr = skipn (n - nt) p) by (unfold tr; apply firstn_all2; rewrite skipn_length; lia).
  assert (Htr : Forall (fun i => (i < n)%nat) tr).
  { rewrite Etr. apply Forall_forall. intros i Hi. rewrite Forall_forall in Hr. apply Hr.
    rewrite <- (firstn_skipn (n - nt) p). apply in_or_app. now right. }
  assert (Hte : Forall (fun i => (i < n)%nat) te).
  { apply Forall_forall. intros i Hi. rewrite Forall_forall in Hr. apply Hr.
    rewrite <- (firstn_skipn (n - nt) p). apply in_or_app. now left. }
  assert (Ltr : length tr = nt) by (rewrite Etr, skipn_length; lia).
  assert (Lte : length te = (n - nt)%nat) by (unfold te; rewrite firstn_length; lia).
  do 4 eexists. split; [reflexivity|].
  rewrite !take_length by (try rewrite <- Hl; assumption). rewrite !take_combine by assumption.
  split; [|split; [reflexivity|]; split; [reflexivity|]; split; [|split]].
  - rewrite <- take_app. assert (Permutation (tr ++ te) (seq 0 n)).
    { rewrite Etr. eapply perm_trans; [apply Permutation_app_comm|]. unfold te. now rewrite firstn_skipn. }
    rewrite (take_perm (combine xs ys) _ _ H). 
    replace n with (length (combine xs ys)) by (rewrite combine_length, <- Hl; unfold n; lia). now rewrite take_seq.
  - unfold n in *. lia.
  - rewrite Ltr, Hnt. lra.
  - lia.
Qed.

Lemma split_rejects {A B} J np (xs : list A) (ys : list B) t k :
  length xs = length ys -> (t <= 0 \/ 1 <= t \/ t * INR (length xs) < 1)%R ->
  train_test_split J np xs ys (Some t) k = Err ValueError.
Proof.
  intros Hl H. unfold train_test_split, sk_train_test_split.
  rewrite (proj2 (Nat.eqb_eq _ _) Hl). cbn [negb].
  destruct (Rltb 0 t && Rltb t 1) eqn:E; [|reflexivity]. cbn [negb].
  apply andb_true_iff in E as [E1 E2]. apply Rltb_true in E1, E2.
  destruct H as [H|[H|H]]; [lra|lra|].
  assert (Z.to_nat (Int_part (t * INR (length xs))) = 0)%nat as ->; [|reflexivity].
  pose proof (base_Int_part (t * INR (length xs))) as [B1 B2].
  assert (Int_part (t * INR (length xs)) < 1) by (apply lt_IZR; lra). lia.
Qed.

(** ** The loop *)
Section Loop.
  Context {K S : Type} (one_step : S -> K -> result (S * fl)) (test_value : S -> K -> result fl) (every : Z).
  Let loop := training_loop one_step test_value every.

  Definition numbers (n0 n : nat) : list Z := map Z.of_nat (seq (n0 + 1) n).

  Lemma early_stop_train l n v : early_stop (log_train_mi l n v) = early_stop l.
  Proof. reflexivity. Qed.

  Lemma filter_le_all (h : list (Z * fl)) t : Forall (fun p => fst p <= t) h -> filter (fun p => fst p <=? t) h = h.
  Proof.
    induction 1 as [|p h Hp H IH]; [reflexivity|]. cbn [filter]. destruct (Z.leb_spec (fst p) t); [now rewrite IH|lia].
  Qed.
  Lemma filter_le_none (h : list (Z * fl)) t : Forall (fun p => t < fst p) h -> filter (fun p => fst p <=? t) h = [].
  Proof.
    induction 1 as [|p h Hp H IH]; [reflexivity|]. cbn [filter]. destruct (Z.leb_spec (fst p) t); [lia|assumption].
  Qed.

  Lemma loop_spec keys : forall n0 s l l' s',
    log_reachable l -> early_stop l = false -> Forall (fun p => fst p <= Z.of_nat n0) (mi_test_history l) ->
    loop keys (Z.of_nat n0 + 1) s l = Ok (l', s') ->
    exists tr tests,
      (length tr <= length keys)%nat /\ run one_step s (firstn (length tr) keys) tr /\
      log_reachable l' /\ early_stopping l' = early_stopping l /\ log_info l' = log_info l /\
      train_smooth_factor l' = train_smooth_factor l /\
      s' = last (map fst tr) s /\
      mi_train_history l' = (mi_train_history l ++ combine (numbers n0 (length tr)) (map snd tr))%list /\
      mi_test_history l' = (mi_test_history l ++ tests)%list /\
      map fst tests = filter (fun t => t mod every =? 0) (numbers n0 (length tr)) /\
      (forall t v, In (t, v) tests -> exists i s_t k_t, t = Z.of_nat (n0 + 1 + i) /\
         nth_error (map fst tr) i = Some s_t /\ nth_error keys i = Some k_t /\ test_value s_t k_t = Ok v) /\
      (forall t, Z.of_nat n0 <= t < Z.of_nat (n0 + length tr) -> early_stopping l = true ->
         ~ stalled (map snd (filter (fun p => fst p <=? t) (mi_test_history l')))) /\
      ((length tr < length keys)%nat -> early_stopping l = true /\ stalled (test_values l') /\
         Z.of_nat (n0 + length tr) mod every = 0) /\
      (keys = [] \/ every <> 0) /\ (keys <> [] -> tr <> []).
  Proof.
    induction keys as [|k keys IH]; intros n0 s l l' s' Hr Hes Hle H.
    - cbn in H. injection H as <- <-. exists [], []. cbn [length firstn map last combine numbers seq filter].
      rewrite !app_nil_r. split; [auto|]. split; [constructor|]. split; [assumption|]. do 7 (split; [reflexivity|]).
      split; [intros t v []|]. split; [intros t Ht; cbn in Ht; lia|]. split; [lia|]. split; [now left|congruence].
    - cbn [loop training_loop] in H. unfold loop in H. cbn [training_loop] in H.
      destruct (one_step s k) as [[s1 v1]|] eqn:E1; [|discriminate]. cbn [bind] in H.
      destruct (Z.eqb_spec every 0) as [|Hev]; [discriminate|].
      set (n := Z.of_nat n0 + 1) in *. set (l1 := log_train_mi l n v1) in *.
      assert (Hr1 : log_reachable l1) by now constructor.
      (* the log after the (possible) test and the tests performed *)
      assert (Hmid : exists l2 tests1, (if n mod every =? 0 then do v <- test_value s1 k; Ok (log_test_mi l1 n v) else Ok l1) = Ok l2 /\
        log_reachable l2 /\ early_stopping l2 = early_stopping l /\ log_info l2 = log_info l /\ train_smooth_factor l2 = train_smooth_factor l /\
        mi_train_history l2 = (mi_train_history l ++ [(n, v1)])%list /\ mi_test_history l2 = (mi_test_history l ++ tests1)%list /\
        map fst tests1 = filter (fun t => t mod every =? 0) [n] /\ (forall t v, In (t, v) tests1 -> t = n /\ test_value s1 k = Ok v) /\
        (early_stop l2 = true -> n mod every = 0)).
      { destruct (Z.eqb_spec (n mod every) 0) as [Em|Em].
        - destruct (test_value s1 k) as [v|] eqn:Ev; [|discriminate]. exists (log_test_mi l1 n v), [(n, v)].
          cbn [bind filter map fst]. split; [reflexivity|]. split; [now constructor|]. do 3 (split; [reflexivity|]).
          split; [reflexivity|]. split; [reflexivity|]. split; [now rewrite (proj2 (Z.eqb_eq _ _) Em)|].
          split; [|auto]. intros t w [[= <- <-]|[]]. auto.
        - exists l1, []. split; [reflexivity|]. split; [assumption|]. do 3 (split; [reflexivity|]). split; [reflexivity|].
          split; [cbn; now rewrite app_nil_r|]. cbn [filter map]. split; [now rewrite (proj2 (Z.eqb_neq _ _) Em)|].
          split; [intros t w []|]. unfold l1. rewrite early_stop_train. congruence. }
      destruct Hmid as (l2 & tests1 & E2 & Hr2 & A1 & A2 & A3 & A4 & A5 & A6 & A7 & A8).
      rewrite E2 in H. cbn [bind] in H.
      assert (T1 : Forall (fun p : Z * fl => fst p = n) tests1).
      { apply Forall_forall. intros [t v] Hin. now apply A7 in Hin as [-> _]. }
      destruct (early_stop l2) eqn:Es.
      + injection H as <- <-. exists [(s1, v1)], tests1. cbn [length firstn map last combine numbers seq fst snd].
        assert (Hn1 : Z.of_nat (n0 + 1) = n) by (unfold n; lia). rewrite Hn1.
        split; [lia|]. split; [econstructor; [exact E1|constructor]|]. do 4 (split; [assumption|]). split; [reflexivity|].
        split; [assumption|]. split; [assumption|]. split; [assumption|]. split; [|split; [|split; [|split]]].
        * intros t v Hin. apply A7 in Hin as [-> Hv]. exists 0%nat, s1, k. split; [unfold n; lia|]. auto.
        * intros t Ht He. assert (t = Z.of_nat n0) by lia. subst t. rewrite A5, filter_app, filter_le_all by assumption.
          rewrite filter_le_none, app_nil_r.
          -- intros Hst. assert (early_stop l = true) by (apply early_stop_iff; auto). congruence.
          -- eapply Forall_impl; [|exact T1]. cbn. intros p ->. unfold n. lia.
        * intros _. apply early_stop_iff in Es as [Es1 Es2]; [|assumption]. split; [congruence|]. split; [assumption|].
          now apply A8.
        * now right.
        * intros _. discriminate.
      + replace (n + 1) with (Z.of_nat (n0 + 1) + 1) in H by (unfold n; lia).
        destruct (IH (n0 + 1)%nat s1 l2 l' s') as (tr & tests & B1 & B2 & B3 & B4 & B4i & B4f & B5 & B6 & B7 & B8 & B9 & B10 & B11 & B12 & _); auto.
        { rewrite A5. apply Forall_app. split.
          - eapply Forall_impl; [|exact Hle]. cbn. intros; lia.
          - eapply Forall_impl; [|exact T1]. cbn. intros p ->. unfold n. lia. }
        exists ((s1, v1) :: tr), (tests1 ++ tests)%list.
        assert (Hnum : numbers n0 (Datatypes.S (length tr)) = n :: numbers (n0 + 1) (length tr)).
        { unfold numbers. cbn [seq map]. f_equal; [unfold n; lia|]. do 2 f_equal. lia. }
        assert (Tm : Forall (fun p : Z * fl => Z.of_nat (n0 + 1) < fst p) tests).
        { apply Forall_forall. intros p Hp. assert (Hin : In (fst p) (map fst tests)) by now apply in_map.
          rewrite B8 in Hin. apply filter_In in Hin as [Hin _]. unfold numbers in Hin. apply in_map_iff in Hin as (i & <- & Hi).
          apply in_seq in Hi. lia. }
        cbn [length firstn map combine fst snd]. rewrite Hnum. cbn [filter combine].
        split; [lia|]. split; [econstructor; eassumption|]. split; [assumption|]. split; [congruence|]. split; [congruence|]. split; [congruence|].
        split; [rewrite B5; destruct tr as [|p tr]; [reflexivity|]; cbn [map]; clear; revert p; induction tr as [|q tr IH]; intros p; [reflexivity|]; cbn [map last] in *; apply IH|].
        split; [rewrite B6, A4, <- app_assoc; reflexivity|]. split; [rewrite B7, A5, <- app_assoc; reflexivity|].
        split.
        { rewrite map_app, A6, B8. cbn [filter]. destruct (n mod every =? 0); reflexivity. }
        split; [|split; [|split; [|split]]].
        * intros t v Hin. apply in_app_or in Hin as [Hin|Hin].
          -- apply A7 in Hin as [-> Hv]. exists 0%nat, s1, k. split; [unfold n; lia|]. auto.
          -- apply B9 in Hin as (i & st & kt & -> & C1 & C2 & C3). exists (Datatypes.S i), st, kt. split; [lia|]. auto.
        * intros t Ht He. destruct (Z.eq_dec t (Z.of_nat n0)) as [->|Hne].
          -- rewrite B7, A5, <- app_assoc, filter_app, filter_le_all by assumption.
             rewrite filter_le_none, app_nil_r.
             ++ intros Hst. assert (early_stop l = true) by (apply early_stop_iff; auto). congruence.
             ++ apply Forall_app. split.
                ** eapply Forall_impl; [|exact T1]. cbn. intros p ->. unfold n. lia.
                ** eapply Forall_impl; [|exact Tm]. cbn. intros; lia.
          -- apply B10; [lia|congruence].
        * intros Hlt. destruct B11 as (C1 & C2 & C3); [lia|]. split; [congruence|]. split; [assumption|].
          rewrite <- C3. do 2 f_equal. lia.
        * now right.
        * intros _. discriminate.
  Qed.

  (** Progress. *)
  Lemma loop_total (Inv : S -> Prop) keys : every <> 0 ->
    (forall s k, Inv s -> exists s' v, one_step s k = Ok (s', v) /\ Inv s') ->
    (forall s k, Inv s -> exists v, test_value s k = Ok v) ->
    forall n s l, Inv s -> exists l' s', loop keys n s l = Ok (l', s') /\ Inv s'.
  Proof.
    intros Hev Hs Ht. induction keys as [|k keys IH]; intros n s l Hi; [exists l, s; split; [reflexivity|assumption]|].
    unfold loop. cbn [training_loop]. destruct (Hs s k Hi) as (s1 & v1 & -> & Hi1). cbn [bind].
    rewrite (proj2 (Z.eqb_neq _ _) Hev).
    destruct (n mod every =? 0).
    - destruct (Ht s1 k Hi1) as (v & ->). cbn [bind]. destruct (early_stop _); [eauto|]. apply IH, Hi1.
    - cbn [bind]. destruct (early_stop _); [eauto|]. apply IH, Hi1.
  Qed.
End Loop.

Lemma loop_zero_interval {K S} (one_step : S -> K -> result (S * fl)) test_value k keys n s l s' v :
  one_step s k = Ok (s', v) -> training_loop one_step test_value 0 (k :: keys) n s l = Err ZeroDivisionError.
Proof. intros H. cbn [training_loop]. rewrite H. reflexivity. Qed.

(** [finish] always succeeds and only adds information. *)
Lemma finish_total l : (train_smooth_factor l <= 1 / 2)%R ->
  exists l', finish l = Ok l' /\ mi_train_history l' = mi_train_history l /\ mi_test_history l' = mi_test_history l /\
    mi_test_best l' = mi_test_best l /\ logs_since_mi_test_best l' = logs_since_mi_test_best l /\
    early_stopping l' = early_stopping l /\ train_history_in_info l' = train_history_in_info l /\
    test_history_in_info l' = test_history_in_info l.
Proof.
  intros Hf. unfold finish, detect_warnings.
  set (vals := map snd (mi_train_history l)). set (w := py_int (train_smooth_factor l * IZR (zlen vals))).
  destruct (Z.ltb_spec w 1); [eexists; split; [reflexivity|]; repeat split|].
  assert (H2 : 2 * w <= zlen vals).
  { assert (Hpos : (0 <= train_smooth_factor l * IZR (zlen vals))%R).
    { destruct (Rle_dec 0 (train_smooth_factor l * IZR (zlen vals))); [assumption|].
      pose proof (py_int_neg (train_smooth_factor l * IZR (zlen vals))). fold w in H0. assert (w <= 0) by (apply H0; lra). lia. }
    pose proof (py_int_spec _ Hpos) as [A _]. fold w in A. apply le_IZR. rewrite mult_IZR.
    pose proof (zlen_nonneg vals) as Hz. apply IZR_le in Hz. nra. }
  assert (Hcl : forall a vs, length (cumsum_from a vs) = length vs).
  { intros a vs. revert a. induction vs; cbn; auto. }
  assert (Hlen : zlen (smoothed w vals) = zlen vals + 1 - w).
  { unfold smoothed, zlen. rewrite map_length, combine_length, skipn_length. 
    set (cs := cumsum_from (Fin 0) (Fin 0 :: vals)).
    assert (Hc : length cs = Datatypes.S (length vals)) by (unfold cs; rewrite Hcl; reflexivity).
    unfold py_slice. rewrite firstn_length, skipn_length. unfold zlen in *. rewrite Hc.
    unfold py_clamp. destruct (Z.ltb_spec 0 0); [lia|]. destruct (Z.ltb_spec (- w) 0); [|lia]. lia. }
  destruct (Z.leb_spec (w + 1) (zlen (smoothed w vals))); [|lia]. cbn [negb].
  assert (Hix : forall j, 1 <= j <= zlen (smoothed w vals) -> exists v, py_index (smoothed w vals) (- j) = Ok v).
  { intros j Hj. unfold py_index. destruct (Z.ltb_spec (- j) 0); [|lia].
    destruct (Z.ltb_spec (- j + zlen (smoothed w vals)) 0); [lia|].
    destruct (nth_error (smoothed w vals) (Z.to_nat (- j + zlen (smoothed w vals)))) eqn:E; [eauto|].
    apply nth_error_None in E. unfold zlen in *. lia. }
  destruct (Hix 1) as (v1 & E1); [lia|]. destruct (Hix w) as (v2 & E2); [lia|].
  change (-1) with (- (1)). rewrite E1, E2. cbn [bind].
  eexists. split; [reflexivity|]. repeat split.
Qed.

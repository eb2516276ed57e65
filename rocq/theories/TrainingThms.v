(** Theorems about the two training procedures and the estimator classes. *)
From Coq Require Import String Permutation.
From Verif Require Import Base BaseLemmas UtilsModel UtilsSpec UtilsProofs KsgFitProofs KsgThms PluginProofs JaxModel ObjectivesModel ObjectivesProofs
  TrainingLogModel TrainingModel TrainingSpec TrainingLogProofs TrainingProofs.
Open Scope Z_scope.
Local Notation length := List.length.

Lemma fl_opp_opp a : fl_opp (fl_opp a) = a.
Proof. destruct a; cbn; try reflexivity. f_equal. lra. Qed.

Lemma numbers_0 n : numbers 0 n = step_numbers n.
Proof. reflexivity. Qed.

Lemma run_length {K S} (os : S -> K -> result (S * fl)) s ks tr : run os s ks tr -> length ks = length tr.
Proof. induction 1; cbn; congruence. Qed.

Lemma run_nth {K S} (os : S -> K -> result (S * fl)) s ks tr : run os s ks tr ->
  forall i k, nth_error ks i = Some k -> exists s0 p, nth_error (s :: map fst tr) i = Some s0 /\ nth_error tr i = Some p /\ os s0 k = Ok p.
Proof.
  induction 1 as [s|s k ks s' v tr H1 H2 IH]; intros i k0 Hi; [destruct i; discriminate|].
  destruct i as [|i]; cbn [nth_error] in Hi.
  - injection Hi as <-. exists s, (s', v). auto.
  - destruct (IH i k0 Hi) as (s0 & p & A & B & C). exists s0, p. cbn [map fst nth_error]. auto.
Qed.

Lemma nth_error_firstn {A} (l : list A) n i : (i < n)%nat -> nth_error (firstn n l) i = nth_error l i.
Proof. revert l i. induction n; intros [|a l] [|i] H; cbn; auto; try lia. apply IHn. lia. Qed.

Lemma new_log_spec n e l : new_log n e = Ok l -> log_reachable l /\ early_stop l = false /\ mi_test_history l = [] /\
  mi_train_history l = [] /\ early_stopping l = e /\ log_info l = [] /\ train_smooth_factor l = (1 / 10)%R /\ test_history_in_info l = true
  /\ train_history_in_info l = false.
Proof.
  intros H. split; [eapply reach_init, H|]. unfold new_log, log_init in H. destruct (Rleb _ _); [|discriminate].
  injection H as <-. cbn. unfold early_stop. cbn. rewrite andb_false_r. repeat split.
Qed.

Lemma new_log_ok n e : exists l, new_log n e = Ok l.
Proof. unfold new_log, log_init. rewrite (proj2 (Rleb_true _ _)) by lra. eauto. Qed.

Lemma in_step_numbers t n : In t (step_numbers n) -> 1 <= t <= Z.of_nat n.
Proof. unfold step_numbers. intros H. apply in_map_iff in H as (i & <- & Hi). apply in_seq in Hi. lia. Qed.

Lemma map_fst_ext {B} (l : list (Z * B)) (f : Z -> B) : (forall t v, In (t, v) l -> v = f t) -> l = map (fun t => (t, f t)) (map fst l).
Proof.
  induction l as [|[t v] l IH]; intros H; [reflexivity|]. cbn. rewrite (H t v) by now left.
  rewrite <- IH by (intros; apply H; now right). reflexivity.
Qed.

(** ** basic_training *)
Section BasicThm.
  Context (J : prng) (HJ : prng_ok J) {C G U O : Type}.
  Variables (gradient : (C -> fl) -> C -> G) (adam_init : R -> C -> O) (adam_update : R -> G -> O -> C -> U * O)
            (apply_updates : C -> U -> C).
  Variables (rng : key J) (c : C) (f : C -> matrix -> matrix -> fl) (xs ys : matrix)
            (ft : option (C -> matrix -> matrix -> fl)) (xt yt : option matrix) (bs : option nat) (every : Z)
            (max_n : nat) (early : bool) (lr : R).
  Let run_training := basic_training J gradient adam_init adam_update apply_updates rng c f xs ys ft xt yt bs every max_n early lr.
  Let test_formula := match ft with Some g => g | None => f end.
  Let x_test := match xt with Some a => a | None => xs end.
  Let y_test := match yt with Some a => a | None => ys end.

  Lemma basic_schedule log c' : run_training = Ok (log, c') ->
    exists (critics : list C) (opts : list O) (values : list fl),
      let T := length critics in
      length opts = T /\ length values = T /\ (T <= max_n)%nat /\ (1 <= max_n -> 1 <= T)%nat /\
      c' = last critics c /\
      mi_train_history log = combine (step_numbers T) values /\
      (forall i, (i < T)%nat -> exists k bx by_ c0 o0, nth_error (split J rng max_n) i = Some k /\
         get_batch J xs ys k bs = Ok (bx, by_) /\
         nth_error (c :: critics) i = Some c0 /\ nth_error (adam_init lr c :: opts) i = Some o0 /\
         nth_error values i = Some (f c0 bx by_) /\
         (let '(u, o1) := adam_update lr (gradient (fun c => fl_opp (f c bx by_)) c0) o0 c0 in
          nth_error critics i = Some (apply_updates c0 u) /\ nth_error opts i = Some o1)) /\
      mi_test_history log = map (fun t => (t, test_formula (nth (Z.to_nat t) (c :: critics) c) x_test y_test))
                                (filter (fun t => t mod every =? 0) (step_numbers T)) /\
      (forall t, 0 <= t < Z.of_nat T -> early = true ->
         ~ stalled (map snd (filter (fun p => fst p <=? t) (mi_test_history log)))) /\
      ((T < max_n)%nat -> early = true /\ stalled (test_values log) /\ Z.of_nat T mod every = 0) /\
      log_reachable log.
  Proof.
    unfold run_training, basic_training. fold test_formula x_test y_test.
    destruct (new_log (Z.of_nat max_n) early) as [l0|] eqn:E0; [|discriminate]. cbn [bind].
    destruct (new_log_spec _ _ _ E0) as (R0 & Es0 & Th0 & Tr0 & Ea0 & In0 & Sf0 & _).
    match goal with |- context [training_loop ?a ?b _ _ _ _ _] => set (os := a); set (tv := b) end.
    destruct (training_loop os tv every (split J rng max_n) 1 (c, adam_init lr c) l0) as [[l1 [c1 o1]]|] eqn:E1; [|discriminate].
    cbn [bind]. destruct (finish l1) as [l2|] eqn:E2; [|discriminate]. cbn [bind]. intros [= <- <-].
    change 1 with (Z.of_nat 0 + 1) in E1. apply loop_spec in E1; [|assumption|assumption|now rewrite Th0].
    destruct E1 as (tr & tests & B1 & B2 & B3 & B4 & B4i & B4f & B5 & B6 & B7 & B8 & B9 & B10 & B11 & B12 & B13).
    destruct (finish_keeps _ _ E2) as (F1 & F2 & F3 & F4 & F5 & F6 & F7).
    assert (Hkl : length (split J rng max_n) = max_n) by apply (ok_split J HJ).
    rewrite Hkl in *. rewrite Tr0 in B6. rewrite Th0 in B7. cbn [app] in B6, B7. rewrite numbers_0 in *.
    exists (map (fun p => fst (fst p)) tr), (map (fun p => snd (fst p)) tr), (map snd tr). cbv zeta. rewrite !map_length.
    split; [reflexivity|].
    assert (Hlast : forall (l : list (C * O * fl)) a o, last (map (fun p => fst (fst p)) l) a = fst (last (map fst l) (a, o))).
    { intros l. induction l as [|p l IH]; intros a o; [reflexivity|]. destruct l as [|q l]; [reflexivity|].
      cbn [map last] in *. apply IH. }
    assert (Hcrit : forall i, fst (nth i ((c, adam_init lr c) :: map fst tr) (c, adam_init lr c)) = nth i (c :: map (fun p => fst (fst p)) tr) c).
    { intros i. destruct i as [|i]; [reflexivity|]. cbn [nth]. rewrite <- (map_map fst fst). symmetry. apply (map_nth fst _ (c, adam_init lr c)). }
    split; [reflexivity|]. split; [assumption|]. split.
    { intros Hm. destruct tr; [|cbn; lia]. exfalso. apply B13; [|reflexivity]. intros E. rewrite E in Hkl. cbn in Hkl. lia. }
    split.
    { rewrite (Hlast _ _ (adam_init lr c)), <- B5. reflexivity. }
    split; [congruence|]. split; [|split; [|split; [|split]]].
    - intros i Hi. pose proof (run_length _ _ _ _ B2) as Hrl. rewrite firstn_length, Hkl in Hrl.
      destruct (nth_error (split J rng max_n) i) as [k|] eqn:Ek; [|apply nth_error_None in Ek; lia].
      assert (Ek' : nth_error (firstn (length tr) (split J rng max_n)) i = Some k) by (rewrite nth_error_firstn; [assumption|lia]).
      destruct (run_nth _ _ _ _ B2 i k Ek') as (s0 & p & N1 & N2 & N3).
      destruct s0 as [c0 o0]. unfold os in N3.
      destruct (get_batch J xs ys k bs) as [[bx by_]|] eqn:Eb; [|discriminate]. cbn [bind] in N3.
      unfold basic_step in N3. destruct (adam_update _ _ _ _) as [u o'] eqn:Eu. injection N3 as <-.
      exists k, bx, by_, c0, o0. split; [reflexivity|]. split; [assumption|].
      split.
      { destruct i; cbn [nth_error] in *; [congruence|]. rewrite nth_error_map in *. destruct (nth_error tr i) as [[[]]|]; cbn in *; congruence. }
      split.
      { destruct i; cbn [nth_error] in *; [congruence|]. rewrite nth_error_map in *. destruct (nth_error tr i) as [[[]]|]; cbn in *; congruence. }
      rewrite !nth_error_map, N2. cbn [option_map fst snd]. rewrite fl_opp_opp, Eu. auto.
    - rewrite F2, B7, <- B8. apply map_fst_ext. intros t v Hin. apply B9 in Hin as (i & st & kt & -> & N1 & N2 & N3).
      rewrite Nat2Z.id. cbn [Nat.add]. rewrite <- Hcrit. cbn [nth].
      rewrite (nth_error_nth _ _ (c, adam_init lr c) N1). destruct st as [ct ot]. unfold tv in N3. injection N3 as <-. reflexivity.
    - intros t Ht He. rewrite F2. apply B10; [cbn in *; lia|congruence].
    - intros Hlt. destruct B11 as (D1 & D2 & D3); [assumption|]. split; [congruence|]. split; [|assumption].
      unfold test_values in *. now rewrite F2.
    - apply (reach_finish l1); assumption.
  Qed.

  Lemma basic_total : every <> 0 ->
    (forall b, bs = Some b -> (b <= length xs)%nat) ->
    exists log c', run_training = Ok (log, c').
  Proof.
    intros Hev Hb. unfold run_training, basic_training. destruct (new_log_ok (Z.of_nat max_n) early) as (l0 & E0). rewrite E0. cbn [bind].
    match goal with |- context [training_loop ?a ?b _ _ _ _ _] => set (os := a); set (tv := b) end.
    assert (Hos : forall s k, True -> exists s' v, os s k = Ok (s', v) /\ True).
    { intros [c0 o0] k _. unfold os. destruct bs as [b|].
      - unfold get_batch. destruct (Nat.ltb_spec (length xs) b); [specialize (Hb b eq_refl); lia|]. cbn [bind].
        destruct (basic_step _ _ _ _ _ _ _ _ _) as [[c1 o1] v]. eauto.
      - cbn [get_batch bind]. destruct (basic_step _ _ _ _ _ _ _ _ _) as [[c1 o1] v]. eauto. }
    assert (Htv : forall s k, True -> exists v, tv s k = Ok v) by (intros [c0 o0] k _; cbn; eauto).
    assert (Hfac : forall keys n s l l' s', training_loop os tv every keys n s l = Ok (l', s') -> train_smooth_factor l' = train_smooth_factor l).
    { induction keys as [|k keys IH]; intros n s l l' s' H; [cbn in H; congruence|]. cbn [training_loop] in H.
      destruct (os s k) as [[s1 v1]|]; [|discriminate]. cbn [bind] in H. destruct (every =? 0); [discriminate|].
      destruct (n mod every =? 0).
      - destruct (tv s1 k); [|discriminate]. cbn [bind] in H. destruct (early_stop _); [injection H as <- <-; reflexivity|].
        apply IH in H. rewrite H. reflexivity.
      - cbn [bind] in H. destruct (early_stop _); [injection H as <- <-; reflexivity|]. apply IH in H. rewrite H. reflexivity. }
    destruct (loop_total os tv every (fun _ => True) (split J rng max_n) Hev Hos Htv 1 (c, adam_init lr c) l0 I) as (l1 & [c1 o1] & E1 & _).
    rewrite E1. cbn [bind].
    destruct (finish_total l1) as (l2 & E2 & _).
    - apply Hfac in E1. rewrite E1. destruct (new_log_spec _ _ _ E0) as (_ & _ & _ & _ & _ & _ & -> & _). lra.
    - rewrite E2. cbn [bind]. eauto.
  Qed.
End BasicThm.

(** ** NeuralEstimatorBase *)
Section NeuralThm.
  Context (J : prng) {C G U O : Type}.
  Variables (gradient : (C -> fl) -> C -> G) (adam_init : R -> C -> O) (adam_update : R -> G -> O -> C -> U * O)
            (apply_updates : C -> U -> C) (np : Z -> nat -> list nat).
  Let est := @estimate_with_info J C G U O gradient adam_init adam_update apply_updates np.

  (** The result of one estimate, not looking at the stored critic. *)
  Lemma estimate_any_critic (e : neural J) o x y :
    snd (est (with_critic e o) x y) = snd (est e x y) /\
    fst (est (with_critic e o) x y) =
      match ne_trained_critic J (fst (est (with_critic e None) x y)) with
      | Some c => with_critic e (Some c)
      | None => with_critic e o
      end.
  Proof.
    unfold est, estimate_with_info. cbn [ne_params with_critic ne_formula ne_formula_test ne_factory].
    match goal with |- context [match ?r with Ok _ => _ | Err _ => _ end] => destruct r as [[[c|] r0]|ex] end;
      cbn; split; reflexivity.
  Qed.

  Lemma after_calls_spec calls : forall e o,
    after_calls (fun e x y => fst (est e x y)) (with_critic e o) calls =
      with_critic e (match last_some (map (fun p => ne_trained_critic J (fst (est (with_critic e None) (fst p) (snd p)))) calls) with
                     | Some c => Some c | None => o end).
  Proof.
    induction calls as [|[x y] calls IH]; intros e o; [reflexivity|]. cbn [after_calls map last_some fst snd].
    rewrite (proj2 (estimate_any_critic e o x y)).
    destruct (ne_trained_critic J (fst (est (with_critic e None) x y))) as [c|]; rewrite IH;
      destruct (last_some _); reflexivity.
  Qed.

  Lemma neural_history (e : neural J) calls x y : ne_trained_critic J e = None ->
    ne_trained_critic J (after_calls (fun e x y => fst (est e x y)) e calls) = last_some (map (fun p => ne_trained_critic J (fst (est e (fst p) (snd p)))) calls) /\
    snd (est (after_calls (fun e x y => fst (est e x y)) e calls) x y) = snd (est e x y).
  Proof.
    intros Hn. assert (E : e = with_critic e None) by (destruct e; unfold with_critic; cbn in *; now rewrite Hn).
    split.
    - rewrite E at 1. rewrite after_calls_spec. cbn. rewrite <- E. now destruct (last_some _).
    - rewrite E at 1. rewrite after_calls_spec. apply estimate_any_critic.
  Qed.

  Lemma neural_batch_too_large (e : neural J) x y k1 k2 k3 xs ys xtr xte ytr yte :
    split J (prng_key J (np_seed (ne_params J e))) 3 = [k1; k2; k3] ->
    product_space_values (np_standardize (ne_params J e)) x y = Ok (xs, ys) ->
    train_test_split J np xs ys (np_train_test_split (ne_params J e)) k2 = Ok (xtr, xte, ytr, yte) ->
    zlen xtr < np_batch_size (ne_params J e) ->
    est e x y = (e, Ok {| mi_estimate := NaN; result_info := [("batch_size_larger_than_train"%string, InfoBool true)] |}).
  Proof.
    intros H1 H2 H3 H4. unfold est, estimate_with_info, split3. rewrite H1. cbn [bind]. rewrite H2. cbn [bind].
    rewrite H3. cbn [bind]. rewrite (proj2 (Z.ltb_lt _ _) H4). reflexivity.
  Qed.

  Lemma neural_trained (e : neural J) x y k1 k2 k3 xs ys xtr xte ytr yte c0 : prng_ok J ->
    neural_params_valid (ne_params J e) = true ->
    split J (prng_key J (np_seed (ne_params J e))) 3 = [k1; k2; k3] ->
    product_space_values (np_standardize (ne_params J e)) x y = Ok (xs, ys) ->
    train_test_split J np xs ys (np_train_test_split (ne_params J e)) k2 = Ok (xtr, xte, ytr, yte) ->
    np_batch_size (ne_params J e) <= zlen xtr ->
    ne_factory J e k1 (ncols xtr) (ncols ytr) = Ok c0 ->
    np_test_every_n_steps (ne_params J e) <> 0 ->
    exists log c,
      basic_training J gradient adam_init adam_update apply_updates k3 c0 (ne_formula J e) xtr ytr
        (Some (ne_formula_test J e)) (Some xte) (Some yte) (Some (Z.to_nat (np_batch_size (ne_params J e))))
        (np_test_every_n_steps (ne_params J e)) (Z.to_nat (np_max_n_steps (ne_params J e))) true
        (np_learning_rate (ne_params J e)) = Ok (log, c) /\
      est e x y = (with_critic e (Some c), Ok {| mi_estimate := final_mi log; result_info := additional_information log |}) /\
      sdict_get (additional_information log) "n_training_steps" = Some (InfoInt (zlen (mi_train_history log))) /\
      sdict_get (additional_information log) "test_history" = Some (InfoHistory (mi_test_history log)).
  Proof.
    intros HJ Hv H1 H2 H3 H4 H5 H6. unfold neural_params_valid in Hv.
    apply andb_true_iff in Hv as [Hv Hv3]. apply andb_true_iff in Hv as [Hv1 Hv2]. apply Z.ltb_lt in Hv1, Hv2.
    destruct (basic_total J gradient adam_init adam_update apply_updates k3 c0 (ne_formula J e) xtr ytr
        (Some (ne_formula_test J e)) (Some xte) (Some yte) (Some (Z.to_nat (np_batch_size (ne_params J e))))
        (np_test_every_n_steps (ne_params J e)) (Z.to_nat (np_max_n_steps (ne_params J e))) true
        (np_learning_rate (ne_params J e)) H6) as (log & c & E).
    { intros b [= <-]. unfold zlen in H4. lia. }
    exists log, c. split; [exact E|].
    pose proof (basic_schedule J HJ _ _ _ _ _ _ _ _ _ _ _ _ _ _ _ _ _ _ _ E) as (critics & opts & values & _ & A1 & A2 & A3 & A4 & A5 & _).
    split.
    - unfold est, estimate_with_info, split3. rewrite H1. cbn [bind]. rewrite H2. cbn [bind]. rewrite H3. cbn [bind].
      rewrite (proj2 (Z.ltb_ge _ _) H4). rewrite H5. cbn [bind]. rewrite E. cbn [bind]. reflexivity.
    - assert (Hin : test_history_in_info log = true /\ train_history_in_info log = false).
      { unfold basic_training in E.
        destruct (new_log _ _) as [l0|] eqn:E0; [|discriminate]. cbn [bind] in E.
        destruct (new_log_spec _ _ _ E0) as (_ & _ & _ & _ & _ & _ & _ & T1 & T2).
        match type of E with context [training_loop ?a ?b _ _ _ _ _] => set (os := a) in E; set (tv := b) in E end.
        assert (Hk : forall keys n s l l' s', training_loop os tv (np_test_every_n_steps (ne_params J e)) keys n s l = Ok (l', s') ->
          test_history_in_info l' = test_history_in_info l /\ train_history_in_info l' = train_history_in_info l).
        { induction keys as [|k keys IH]; intros n s l l' s' H; [cbn in H; injection H as <- <-; auto|]. cbn [training_loop] in H.
          destruct (os s k) as [[s1 v1]|]; [|discriminate]. cbn [bind] in H. destruct (_ =? 0); [discriminate|].
          destruct (n mod _ =? 0).
          - destruct (tv s1 k); [|discriminate]. cbn [bind] in H. destruct (early_stop _); [injection H as <- <-; auto|].
            apply IH in H. exact H.
          - cbn [bind] in H. destruct (early_stop _); [injection H as <- <-; auto|]. apply IH in H. exact H. }
        destruct (training_loop os tv _ _ _ _ _) as [[l1 [c1 o1]]|] eqn:E1; [|discriminate]. cbn [bind] in E.
        destruct (finish l1) as [l2|] eqn:E2; [|discriminate]. injection E as <- <-.
        apply Hk in E1 as [K1 K2]. destruct (finish_keeps _ _ E2) as (_ & _ & _ & _ & _ & F6 & F7). rewrite F6, F7, K1, K2. auto. }
      destruct Hin as [Hin1 Hin2]. unfold additional_information. rewrite Hin1, Hin2. unfold sdict_merge. cbn [fold_left fst snd].
      rewrite sdict_get_set_eq, sdict_get_set_neq, sdict_get_set_eq by discriminate. split; [|reflexivity]. do 2 f_equal.
      rewrite A5. unfold zlen. rewrite combine_length. unfold step_numbers at 2. rewrite map_length, seq_length, A1, Nat.min_id.
      set (T := length critics) in *. clearbody T. clear - A1.
      destruct T as [|T]; [reflexivity|].
      destruct (rev (combine (step_numbers (S T)) values)) as [|[a b] r] eqn:Er.
      + apply (f_equal (@List.length _)) in Er. rewrite rev_length, combine_length in Er. unfold step_numbers in Er.
        rewrite map_length, seq_length, A1 in Er. cbn in Er. lia.
      + assert (Hc : combine (step_numbers (S T)) values = (rev r ++ [(a, b)])%list).
        { rewrite <- (rev_involutive (combine _ _)), Er. reflexivity. }
        assert (Hm : map fst (combine (step_numbers (S T)) values) = step_numbers (S T)).
        { apply combine_fst. unfold step_numbers. now rewrite map_length, seq_length, A1. }
        rewrite Hc, map_app in Hm. cbn [map fst] in Hm. unfold step_numbers in Hm.
        replace (S T) with (T + 1)%nat in Hm by lia. rewrite seq_app, map_app in Hm. cbn [seq map] in Hm.
        apply app_inj_tail in Hm as [_ ->]. lia.
  Qed.

  Lemma neural_zero_interval (e : neural J) x y k1 k2 k3 xs ys xtr xte ytr yte c0 : prng_ok J ->
    neural_params_valid (ne_params J e) = true ->
    split J (prng_key J (np_seed (ne_params J e))) 3 = [k1; k2; k3] ->
    product_space_values (np_standardize (ne_params J e)) x y = Ok (xs, ys) ->
    train_test_split J np xs ys (np_train_test_split (ne_params J e)) k2 = Ok (xtr, xte, ytr, yte) ->
    np_batch_size (ne_params J e) <= zlen xtr ->
    ne_factory J e k1 (ncols xtr) (ncols ytr) = Ok c0 ->
    np_test_every_n_steps (ne_params J e) = 0 ->
    est e x y = (e, Err ZeroDivisionError).
  Proof.
    intros HJ Hv H1 H2 H3 H4 H5 H6. unfold neural_params_valid in Hv.
    apply andb_true_iff in Hv as [Hv Hv3]. apply andb_true_iff in Hv as [Hv1 Hv2]. apply Z.ltb_lt in Hv1, Hv2.
    unfold est, estimate_with_info, split3. rewrite H1. cbn [bind]. rewrite H2. cbn [bind]. rewrite H3. cbn [bind].
    rewrite (proj2 (Z.ltb_ge _ _) H4). rewrite H5. cbn [bind]. unfold basic_training. rewrite H6.
    destruct (new_log_ok (Z.of_nat (Z.to_nat (np_max_n_steps (ne_params J e)))) true) as (l0 & ->). cbn [bind].
    pose proof (ok_split J HJ k3 (Z.to_nat (np_max_n_steps (ne_params J e)))) as Hl.
    destruct (split J k3 (Z.to_nat (np_max_n_steps (ne_params J e)))) as [|k keys]; [cbn in Hl; lia|].
    cbn [training_loop]. unfold get_batch at 1. destruct (Nat.ltb_spec (length xtr) (Z.to_nat (np_batch_size (ne_params J e)))); [unfold zlen in H4; lia|].
    cbn [bind]. unfold basic_step at 1. destruct (adam_update _ _ _ _) as [u o]. cbn [bind]. reflexivity.
  Qed.
End NeuralThm.

(** ** MINE *)
Lemma weighted_snoc a ds d : weighted a (ds ++ [d]) = (a * weighted a ds + (1 - a) * d)%R.
Proof.
  induction ds as [|e ds IH]; cbn [weighted app length pow]; [lra|].
  rewrite IH, app_length. cbn [length]. rewrite Nat.add_1_r. cbn [pow]. lra.
Qed.

Lemma weighted_total a n : weighted a (repeat 1%R n) = (1 - a ^ n)%R.
Proof. induction n as [|n IH]; cbn [weighted repeat pow]; [lra|]. rewrite repeat_length, IH. lra. Qed.

Lemma weighted_pos a ds : (0 < a < 1)%R -> Forall (fun d => (0 < d)%R) ds -> ds <> [] -> (0 < weighted a ds)%R.
Proof.
  intros Ha H. induction H as [|d ds Hd H IH]; [congruence|]. intros _. cbn [weighted].
  assert (0 < a ^ length ds)%R by (apply pow_lt; lra).
  assert (0 < (1 - a) * a ^ length ds * d)%R by (repeat apply Rmult_lt_0_compat; lra).
  destruct ds as [|d' ds]; [cbn [weighted]; lra|]. specialize (IH ltac:(discriminate)). lra.
Qed.

Lemma mean_exp_pos vs : vs <> [] -> (0 < mean_exp vs)%R.
Proof.
  intros H. unfold mean_exp, rmean. rewrite map_length. pose proof (INR_length_pos vs H).
  apply Rdiv_lt_0_compat; [|assumption]. apply rsum_exp_pos. assumption.
Qed.

Lemma mine_logmeanexp_value vs : vs <> [] -> mine_logmeanexp vs = Fin (ln (mean_exp vs)).
Proof.
  intros H. unfold mine_logmeanexp, logsumexp. rewrite map_map. cbn [exp_part].
  pose proof (INR_length_pos vs H). pose proof (rsum_exp_pos (fun v => v) vs H) as Hs.
  rewrite !fl_log_pos by assumption. cbn. f_equal. unfold mean_exp, rmean. rewrite map_length. unfold Rdiv.
  change (map exp vs) with (map (fun a => exp a) vs). rewrite ln_mult, ln_Rinv; [lra|assumption|assumption|]. now apply Rinv_0_lt_compat.
Qed.

(** [log W] with [log 0 = -inf]. *)
Lemma smoothing_step alpha W D : (0 < alpha < 1)%R -> (0 <= W)%R -> (0 < D)%R ->
  logaddexp (fl_add (fl_log alpha) (fl_log W)) (fl_add (fl_log (1 - alpha)) (Fin (ln D)))
  = Fin (ln (alpha * W + (1 - alpha) * D)).
Proof.
  intros Ha HW HD. assert (0 < (1 - alpha) * D)%R by (apply Rmult_lt_0_compat; lra).
  assert (0 <= alpha * W)%R by (apply Rmult_le_pos; lra).
  unfold logaddexp, logsumexp. cbn [map]. rewrite !rsum_cons. cbn [rsum fold_right].
  rewrite (fl_log_pos alpha), (fl_log_pos (1 - alpha)) by lra. cbn [fl_add exp_part].
  rewrite exp_plus, !exp_ln by lra.
  destruct (Req_dec W 0) as [->|Hne].
  - assert (fl_log 0 = NInf) as -> by (unfold fl_log; rewrite (proj2 (Rltb_false 0 0)) by lra; reflexivity).
    cbn [fl_add exp_part]. rewrite fl_log_pos by lra. do 2 f_equal. lra.
  - rewrite (fl_log_pos W) by lra. cbn [fl_add exp_part]. rewrite exp_plus, !exp_ln by lra.
    rewrite fl_log_pos by lra. do 2 f_equal. lra.
Qed.

Section MineThm.
  Context (J : prng) {C U O : Type}.
  Variables (cv : C -> list R -> list R -> R) (gradient : (C -> fl) -> C -> list fl) (adam_init : R -> C -> O)
            (adam_update : R -> list fl -> O -> C -> U * O) (apply_updates : C -> U -> C).

  Lemma mine_one_batch c xs yp yu W alpha : (0 < alpha < 1)%R -> (0 <= W)%R -> combine xs yu <> [] ->
    let D := mean_exp (vmap2 cv c xs yu) in
    let W' := (alpha * W + (1 - alpha) * D)%R in
    exists grad,
      mine_value_neg_grad_log_denom cv gradient c xs yp yu (fl_log W) alpha
      = (fl_sub (T_mean cv c xs yp) (Fin (ln D)), grad, Fin (ln W')) /\ (0 < W')%R /\
      forall gp gu, gradient (fun c => T_mean cv c xs yp) c = map Fin gp -> gradient (fun c => T_lme cv c xs yu) c = map Fin gu ->
        grad = map (fun p => Fin (D / W' * snd p - fst p)) (combine gp gu).
  Proof.
    intros Ha HW Hne D W'. assert (Hv : vmap2 cv c xs yu <> []) by (unfold vmap2; destruct (combine xs yu); [congruence|discriminate]).
    pose proof (mean_exp_pos _ Hv) as HD. fold D in HD.
    assert (HW' : (0 < W')%R).
    { unfold W'. assert (0 < (1 - alpha) * D)%R by (apply Rmult_lt_0_compat; lra). assert (0 <= alpha * W)%R by (apply Rmult_le_pos; lra). lra. }
    assert (E : T_lme cv c xs yu = Fin (ln D)) by (apply mine_logmeanexp_value; assumption).
    unfold mine_value_neg_grad_log_denom. rewrite E. rewrite smoothing_step by assumption. fold W'.
    eexists. split; [reflexivity|]. split; [assumption|].
    intros gp gu -> ->. rewrite combine_map, map_map. apply map_ext. intros [a b]. cbn [fst snd fl_sub fl_opp fl_add fl_exp fl_mult].
    replace (ln D + - ln W')%R with (ln (D / W')).
    2:{ unfold Rdiv. rewrite ln_mult, ln_Rinv; [lra|assumption|assumption|]. now apply Rinv_0_lt_compat. }
    rewrite exp_ln by (apply Rdiv_lt_0_compat; assumption). f_equal. 
  Qed.

  Lemma mine_carry xs ys bs alpha lr : (0 < alpha < 1)%R ->
    (forall k bx bp bu, sample_paired_unpaired J k xs ys bs = Ok (bx, bp, bu) -> combine bx bu <> []) ->
    forall keys c o ds tr, Forall (fun d => (0 < d)%R) ds ->
    run (mine_one_step J cv gradient adam_update apply_updates alpha lr xs ys bs) (c, o, fl_log (weighted alpha ds)) keys tr ->
    exists ds', length ds' = length tr /\ Forall (fun d => (0 < d)%R) ds' /\
      forall i, (i < length tr)%nat -> exists k D c0 o0 d0 c1 o1 d1 v,
        nth_error keys i = Some k /\ nth_error ds' i = Some D /\
        nth_error ((c, o, fl_log (weighted alpha ds)) :: map fst tr) i = Some (c0, o0, d0) /\ nth_error tr i = Some (c1, o1, d1, v) /\
        d1 = Fin (ln (weighted alpha (ds ++ firstn (S i) ds'))) /\
        mine_step_spec (J := J) cv gradient adam_update apply_updates alpha lr xs ys bs k c0 o0 (ds ++ firstn i ds') c1 o1 v D.
  Proof.
    intros Ha Hne. induction keys as [|k keys IH]; intros c o ds tr Hds H.
    - inversion H; subst. exists []. split; [reflexivity|]. split; [constructor|]. cbn. lia.
    - inversion H as [|s0 k0 ks0 s1 v1 tr1 E1 E2]; subst. unfold mine_one_step in E1.
      destruct (split2 J k) as [[ks kt]|] eqn:Es; [|discriminate]. cbn [bind] in E1.
      destruct (sample_paired_unpaired J ks xs ys bs) as [[[bx bp] bu]|] eqn:Eb; [|discriminate]. cbn [bind] in E1.
      pose proof (Hne _ _ _ _ Eb) as Hnb.
      assert (HW : (0 <= weighted alpha ds)%R).
      { destruct ds as [|d0 ds0]; [cbn; lra|]. left. now apply weighted_pos; [| |discriminate]. }
      destruct (mine_one_batch c bx bp bu (weighted alpha ds) alpha Ha HW Hnb) as (grad & Eg & HW' & Hgrad).
      unfold mine_step in E1. rewrite Eg in E1. destruct (adam_update lr grad o c) as [u o'] eqn:Eu. injection E1 as <- <-.
      set (D := mean_exp (vmap2 cv c bx bu)) in *.
      assert (HD : (0 < D)%R) by (apply mean_exp_pos; unfold vmap2; destruct (combine bx bu); [congruence|discriminate]).
      rewrite <- weighted_snoc in *.
      assert (Hl : Fin (ln (weighted alpha (ds ++ [D]))) = fl_log (weighted alpha (ds ++ [D]))) by now rewrite fl_log_pos.
      rewrite Hl in E2. apply IH in E2 as (ds' & L1 & L2 & L3); [|apply Forall_app; split; [assumption|now constructor]].
      exists (D :: ds'). split; [cbn; now rewrite L1|]. split; [now constructor|].
      intros [|i] Hi.
      + exists k, D, c, o, (fl_log (weighted alpha ds)), (apply_updates c u), o', (Fin (ln (weighted alpha (ds ++ [D])))), (fl_sub (T_mean cv c bx bp) (Fin (ln D))).
        cbn [nth_error firstn]. do 4 (split; [reflexivity|]). split; [reflexivity|]. rewrite app_nil_r.
        exists ks, kt, bx, bp, bu. split; [unfold split2 in Es; destruct (split J k 2) as [|? [|? [|]]]; congruence|]. split; [assumption|]. split; [reflexivity|]. split; [reflexivity|].
        intros gp gu G1 G2. rewrite <- (Hgrad gp gu G1 G2), Eu. reflexivity.
      + cbn [length] in Hi. destruct (L3 i ltac:(lia)) as (k1 & D1 & c0 & o0 & d0 & c1 & o1 & d1 & v & M1 & M2 & M3 & M4 & M5 & M6).
        exists k1, D1, c0, o0, d0, c1, o1, d1, v. cbn [nth_error map fst firstn]. rewrite <- Hl in M3.
        rewrite <- !app_assoc in M5, M6. cbn [app] in M5, M6. auto 10.
  Qed.

  Definition not_empty_batches (xs ys : matrix) bs : Prop :=
    forall k bx bp bu, sample_paired_unpaired J k xs ys bs = Ok (bx, bp, bu) -> combine bx bu <> [].

  Lemma batches_not_empty (HJ : prng_ok J) (xs ys : matrix) bs : length xs = length ys -> xs <> [] -> bs <> Some 0%nat ->
    not_empty_batches xs ys bs.
  Proof.
    intros Hl Hx Hb k bx bp bu. unfold sample_paired_unpaired, split2. rewrite (proj2 (Nat.eqb_eq _ _) Hl). cbn [negb].
    pose proof (ok_split J HJ k 2) as Hs. destruct (split J k 2) as [|k1 [|k2 [|]]]; try discriminate. cbn [bind].
    assert (Hlx : length xs <> 0%nat) by (destruct xs; [congruence|discriminate]).
    assert (Hgoal : length bx <> 0%nat -> length bu <> 0%nat -> combine bx bu <> []).
    { destruct bx, bu; cbn; congruence. }
    destruct bs as [b|].
    - destruct (Nat.ltb_spec (length xs) b); [discriminate|]. intros [= <- <- <-]. apply Hgoal.
      + destruct (ok_choice J HJ k1 (length xs) b H) as (A1 & A2 & A3). rewrite take_length, A1 by assumption. congruence.
      + destruct (ok_choice J HJ k2 (length xs) b H) as (A1 & A2 & A3). rewrite take_length, A1 by now rewrite <- Hl. congruence.
    - intros [= <- <- <-]. apply Hgoal; [assumption|].
      rewrite (Permutation_length (take_perm ys _ _ (ok_permutation J HJ k2 (length ys)))), take_seq. congruence.
  Qed.

  (** mine_training follows the schedule of basic_training, with MINE's steps. *)
  Lemma mine_schedule (HJ : prng_ok J) rng c xs ys xt yt alpha bs every max_n early lr log c' :
    mine_training J cv gradient adam_init adam_update apply_updates rng c xs ys xt yt alpha bs every max_n early lr = Ok (log, c') ->
    (0 < alpha < 1)%R -> length xs = length ys -> xs <> [] -> bs <> Some 0%nat ->
    let x_test := match xt with Some a => a | None => xs end in
    let y_test := match yt with Some a => a | None => ys end in
    exists (critics : list C) (opts : list O) (values : list fl) (denoms : list R),
      let T := length critics in
      length opts = T /\ length values = T /\ length denoms = T /\ (T <= max_n)%nat /\ (1 <= max_n -> 1 <= T)%nat /\
      c' = last critics c /\
      mi_train_history log = combine (step_numbers T) values /\
      (forall i, (i < T)%nat -> exists k D c0 o0 c1 o1 v,
         nth_error (split J rng max_n) i = Some k /\ nth_error denoms i = Some D /\ (0 < D)%R /\
         nth_error (c :: critics) i = Some c0 /\ nth_error (adam_init lr c :: opts) i = Some o0 /\
         nth_error critics i = Some c1 /\ nth_error opts i = Some o1 /\ nth_error values i = Some v /\
         mine_step_spec (J := J) cv gradient adam_update apply_updates alpha lr xs ys bs k c0 o0 (firstn i denoms) c1 o1 v D) /\
      map fst (mi_test_history log) = filter (fun t => t mod every =? 0) (step_numbers T) /\
      (forall t v, In (t, v) (mi_test_history log) -> exists perm, Permutation perm (seq 0 (length y_test)) /\
         v = mine_value cv (nth (Z.to_nat t) (c :: critics) c) x_test y_test (take y_test perm)) /\
      (forall t, 0 <= t < Z.of_nat T -> early = true ->
         ~ stalled (map snd (filter (fun p => fst p <=? t) (mi_test_history log)))) /\
      ((T < max_n)%nat -> early = true /\ stalled (test_values log) /\ Z.of_nat T mod every = 0) /\
      log_reachable log.
  Proof.
    intros E Ha Hlxy Hx0 Hb0 x_test y_test. pose proof (batches_not_empty HJ xs ys bs Hlxy Hx0 Hb0) as Hne.
    unfold mine_training in E. fold x_test y_test in E.
    destruct (new_log (Z.of_nat max_n) early) as [l0|] eqn:E0; [|discriminate]. cbn [bind] in E.
    destruct (new_log_spec _ _ _ E0) as (R0 & Es0 & Th0 & Tr0 & Ea0 & In0 & Sf0 & _).
    set (os := mine_one_step J cv gradient adam_update apply_updates alpha lr xs ys bs) in *.
    destruct (training_loop os _ every (split J rng max_n) 1 _ l0) as [[l1 [[c1 o1] d1]]|] eqn:E1; [|discriminate].
    cbn [bind] in E. destruct (finish l1) as [l2|] eqn:E2; [|discriminate]. cbn [bind] in E. injection E as <- <-.
    change 1 with (Z.of_nat 0 + 1) in E1. apply loop_spec in E1; [|assumption|assumption|now rewrite Th0].
    destruct E1 as (tr & tests & B1 & B2 & B3 & B4 & B4i & B4f & B5 & B6 & B7 & B8 & B9 & B10 & B11 & B12 & B13).
    destruct (finish_keeps _ _ E2) as (F1 & F2 & F3 & F4 & F5 & F6 & F7).
    assert (Hkl : length (split J rng max_n) = max_n) by apply (ok_split J HJ).
    rewrite Hkl in *. rewrite Tr0 in B6. rewrite Th0 in B7. cbn [app] in B6, B7. rewrite numbers_0 in *.
    assert (H0 : NInf = fl_log (weighted alpha [])) by (cbn; unfold fl_log; now rewrite (proj2 (Rltb_false 0 0)) by lra).
    rewrite H0 in B2. destruct (mine_carry xs ys bs alpha lr Ha Hne _ _ _ [] tr (Forall_nil _) B2) as (ds & L1 & L2 & L3).
    set (cr := fun p : C * O * fl * fl => fst (fst (fst p))).
    set (op := fun p : C * O * fl * fl => snd (fst (fst p))).
    exists (map cr tr), (map op tr), (map snd tr), ds. cbv zeta. rewrite !map_length.
    assert (Hlast : forall l a o d, last (map cr l) a = fst (fst (last (map fst l) (a, o, d)))).
    { intros l. induction l as [|p l IH]; intros a o d; [reflexivity|]. destruct l as [|q l]; [reflexivity|].
      cbn [map last] in *. apply IH. }
    split; [reflexivity|]. split; [reflexivity|]. split; [assumption|]. split; [assumption|]. split.
    { intros Hm. destruct tr; [|cbn; lia]. exfalso. apply B13; [|reflexivity]. intros En. rewrite En in Hkl. cbn in Hkl. lia. }
    split.
    { rewrite (Hlast _ _ (adam_init lr c) NInf), <- B5. reflexivity. }
    split; [congruence|]. split; [|split; [congruence|]; split; [|split; [|split]]].
    - intros i Hi. destruct (L3 i Hi) as (k & D & c2 & o2 & d2 & c3 & o3 & d3 & v & M1 & M2 & M3 & M4 & _ & M6). cbn [app] in M6.
      exists k, D, c2, o2, c3, o3, v. rewrite nth_error_firstn in M1 by assumption.
      split; [assumption|]. split; [assumption|].
      split; [rewrite Forall_forall in L2; apply L2; eapply nth_error_In; eassumption|].
      assert (N1 : nth_error (c :: map cr tr) i = Some c2).
      { destruct i; cbn [nth_error] in *; [congruence|]. rewrite nth_error_map in *. destruct (nth_error tr i) as [[[[]]]|]; cbn in *; congruence. }
      assert (N2 : nth_error (adam_init lr c :: map op tr) i = Some o2).
      { destruct i; cbn [nth_error] in *; [congruence|]. rewrite nth_error_map in *. destruct (nth_error tr i) as [[[[]]]|]; cbn in *; congruence. }
      rewrite !nth_error_map, M4. cbn [option_map]. auto 10.
    - intros t v Hin. rewrite F2, B7 in Hin. apply B9 in Hin as (i & st & kt & -> & N1 & N2 & N3).
      destruct st as [[ct ot] dt]. unfold mine_test_value in N3. destruct (split2 J kt) as [[k1 k2]|]; [|discriminate].
      cbn [bind] in N3. injection N3 as <-. exists (permutation J k2 (length y_test)). split; [apply (ok_permutation J HJ)|].
      rewrite Nat2Z.id. cbn [Nat.add nth].
      assert (nth i (map cr tr) c = ct) as ->; [|reflexivity].
      apply nth_error_nth. rewrite nth_error_map. rewrite nth_error_map in N1. destruct (nth_error tr i) as [[st v]|]; [|discriminate].
      cbn in *. unfold cr. cbn. now injection N1 as ->.
    - intros t Ht He. rewrite F2. apply B10; [cbn in *; lia|congruence].
    - intros Hlt. destruct B11 as (D1 & D2 & D3); [assumption|]. split; [congruence|]. split; [|assumption].
      unfold test_values in *. now rewrite F2.
    - apply (reach_finish l1); assumption.
  Qed.

  Lemma sample_spec (HJ : prng_ok J) k (xs ys : matrix) b : length xs = length ys -> (b <= length xs)%nat ->
    exists bx bp bu, sample_paired_unpaired J k xs ys (Some b) = Ok (bx, bp, bu) /\
      length bx = b /\ length bp = b /\ length bu = b /\
      sub_batch (combine bx bp) (combine xs ys) /\ sub_batch bu ys.
  Proof.
    intros Hl Hb. unfold sample_paired_unpaired, split2. rewrite (proj2 (Nat.eqb_eq _ _) Hl). cbn [negb].
    pose proof (ok_split J HJ k 2) as Hs. destruct (split J k 2) as [|k1 [|k2 [|]]]; try discriminate. cbn [bind].
    destruct (Nat.ltb_spec (length xs) b); [lia|].
    destruct (ok_choice J HJ k1 (length xs) b Hb) as (A1 & A2 & A3). destruct (ok_choice J HJ k2 (length xs) b Hb) as (B1 & B2 & B3).
    do 3 eexists. split; [reflexivity|]. rewrite !take_length by (first [assumption | rewrite <- Hl; assumption]).
    split; [assumption|]. split; [assumption|]. split; [assumption|]. split.
    - rewrite take_combine by assumption. apply take_sub_batch; [assumption|].
      rewrite combine_length, <- Hl, Nat.min_id. assumption.
    - apply take_sub_batch; [assumption|now rewrite <- Hl].
  Qed.

  Lemma sample_all_spec (HJ : prng_ok J) k (xs ys : matrix) : length xs = length ys ->
    exists bu, sample_paired_unpaired J k xs ys None = Ok (xs, ys, bu) /\ Permutation bu ys.
  Proof.
    intros Hl. unfold sample_paired_unpaired, split2. rewrite (proj2 (Nat.eqb_eq _ _) Hl). cbn [negb].
    pose proof (ok_split J HJ k 2) as Hs. destruct (split J k 2) as [|k1 [|k2 [|]]]; try discriminate. cbn [bind].
    eexists. split; [reflexivity|]. eapply perm_trans; [apply take_perm, (ok_permutation J HJ)|]. now rewrite take_seq.
  Qed.

  Lemma sample_keys k k' a b a' b' (xs ys : matrix) bs bx bp bu bx' bp' bu' :
    split J k 2 = [a; b] -> split J k' 2 = [a'; b'] ->
    sample_paired_unpaired J k xs ys bs = Ok (bx, bp, bu) -> sample_paired_unpaired J k' xs ys bs = Ok (bx', bp', bu') ->
    (a = a' -> bx = bx' /\ bp = bp') /\ (b = b' -> bu = bu').
  Proof.
    intros E E'. unfold sample_paired_unpaired, split2. rewrite E, E'. cbn [bind].
    destruct (negb _); [discriminate|]. destruct bs as [n|].
    - destruct (_ <? n)%nat; [discriminate|]. intros [= <- <- <-] [= <- <- <-]. split; intros ->; auto.
    - intros [= <- <- <-] [= <- <- <-]. split; [auto|]. now intros ->.
  Qed.
End MineThm.

(** ** Critics *)
Section MlpThm.
  Context (J : prng) (HJ : prng_ok J) (linear_init : key J -> nat -> nat -> matrix * list R).
  Hypothesis Hinit : forall k i o, rectangular i (fst (linear_init k i o)) /\
    length (fst (linear_init k i o)) = o /\ length (snd (linear_init k i o)) = o.

  Lemma affine_eq l z : layer_ok l -> length z = lin_in l ->
    linear_call l z = Ok (affine_map (weight l) (bias l) z) /\ length (affine_map (weight l) (bias l) z) = lin_out l.
  Proof.
    intros (H1 & H2 & H3) Hz. unfold linear_call. rewrite (proj2 (Nat.eqb_eq _ _) Hz). cbn [negb].
    split; [|unfold affine_map; now rewrite map_length, seq_length].
    f_equal. unfold affine_map. rewrite H3, <- H2.
    assert (Hwb : length (weight l) = length (bias l)) by congruence. clear H2 H3.
    revert Hwb. generalize (bias l) as b. revert H1. generalize (weight l) as W. induction W as [|row W IH]; intros H1 [|b0 b] Hwb; cbn in Hwb; try discriminate; [reflexivity|].
    inversion H1 as [|? ? Hrow HW]; subst. cbn [combine map length seq fst snd]. f_equal.
    - cbn [nth]. f_equal. f_equal. rewrite <- Hz in Hrow. clear - Hrow. revert z Hrow.
      induction row as [|a row IH]; intros [|c z] H; cbn in H; try discriminate; [reflexivity|].
      cbn [combine map seq length nth fst snd]. f_equal. rewrite (IH z) by lia. rewrite <- seq_shift, map_map. reflexivity.
    - rewrite (IH HW b) by lia. rewrite <- (seq_shift (length W)), map_map. reflexivity.
  Qed.

  Lemma relu_max v : relu v = Rmax 0 v.
  Proof. unfold relu, Rltb, Rmax. destruct (Rlt_dec v 0), (Rle_dec 0 v); lra. Qed.

  (** Chains of layers with matching dimensions. *)
  Fixpoint chained (d : nat) (ls : list linear) : Prop :=
    match ls with [] => True | l :: ls => layer_ok l /\ lin_in l = d /\ chained (lin_out l) ls end.
  Fixpoint out_dim (d : nat) (ls : list linear) : nat :=
    match ls with [] => d | l :: ls => out_dim (lin_out l) ls end.

  Lemma mlp_call_spec hidden final : forall d z, chained d hidden -> layer_ok final -> lin_in final = out_dim d hidden ->
    length z = d ->
    exists z', relu_layers hidden z = Ok z' /\ length z' = lin_in final /\
      affine_map (weight final) (bias final) z' = network (map layer_params (hidden ++ [final])) z.
  Proof.
    induction hidden as [|l hidden IH]; intros d z Hc Hf Hd Hz.
    - exists z. cbn in *. repeat split; congruence.
    - cbn [chained] in Hc. destruct Hc as (Hl & Hin & Hc). destruct (affine_eq l z Hl) as [E1 E2]; [congruence|].
      cbn [relu_layers]. rewrite E1. cbn [bind].
      destruct (IH (lin_out l) (map relu (affine_map (weight l) (bias l) z))) as (z' & A & B & D); auto.
      { now rewrite map_length. }
      exists z'. split; [assumption|]. split; [assumption|]. rewrite D. cbn [app map layer_params network].
      rewrite (map_ext relu (Rmax 0)) by apply relu_max.
      destruct (map layer_params (hidden ++ [final])) eqn:Em; [|reflexivity].
      apply map_eq_nil in Em. destruct hidden; discriminate.
  Qed.

  Lemma hidden_loop_cons a b k ins outs ks : hidden_loop J linear_init (a :: ins) (b :: outs) (k :: ks)
    = (do l <- new_linear J linear_init k a b; do rest <- hidden_loop J linear_init ins outs ks; Ok (l :: rest)).
  Proof. reflexivity. Qed.

  Lemma hidden_loop_spec d hidden ks : (0 < d)%nat -> Forall (fun h => (0 < h)%nat) hidden -> length ks = length hidden ->
    exists ls, hidden_loop J linear_init (d :: hidden) hidden ks = Ok ls /\
      map (fun l => (lin_in l, lin_out l)) ls = combine (d :: hidden) hidden /\ chained d ls /\
      out_dim d ls = last (d :: hidden) 0%nat.
  Proof.
    revert d ks. induction hidden as [|h hidden IH]; intros d ks Hd Hh Hk; destruct ks as [|k ks]; cbn in Hk; try discriminate.
    - exists []. cbn. auto.
    - inversion Hh as [|? ? Hh1 Hh2]; subst. destruct (IH h ks Hh1 Hh2 ltac:(lia)) as (ls & E & Em & Hc & Ho).
      rewrite hidden_loop_cons. unfold new_linear. destruct (Nat.eqb_spec d 0); [lia|].
      destruct (linear_init k d h) as [w b] eqn:Ei. cbn [bind]. rewrite E. cbn [bind].
      eexists. split; [reflexivity|]. split; [cbn [map combine lin_in lin_out]; f_equal; exact Em|].
      split; [|cbn [out_dim lin_out]; rewrite Ho; destruct hidden; reflexivity].
      cbn [chained lin_out lin_in]. split; [|split; [reflexivity|exact Hc]].
      pose proof (Hinit k d h) as Hs. rewrite Ei in Hs. exact Hs.
  Qed.

  Lemma mlp_spec k dx dy hidden : (0 < dx + dy)%nat -> Forall (fun h => (0 < h)%nat) hidden ->
    exists layers, mlp_init J linear_init k dx dy hidden = Ok layers /\
      map (fun l => (lin_in l, lin_out l)) layers = combine ((dx + dy)%nat :: hidden) (hidden ++ [1%nat]) /\
      (forall x y, length x = dx -> length y = dy -> exists v,
         mlp_call layers x y = Ok v /\ network (map layer_params layers) (x ++ y) = [v]) /\
      (forall x y, (length x + length y <> dx + dy)%nat -> mlp_call layers x y = Err TypeError).
  Proof.
    intros Hd Hh. unfold mlp_init, split2. pose proof (ok_split J HJ k 2) as Hs.
    destruct (split J k 2) as [|k1 [|k2 [|]]]; try discriminate. cbn [bind app tl].
    destruct (hidden_loop_spec (dx + dy) hidden (split J k2 (length hidden)) Hd Hh (ok_split J HJ _ _)) as (ls & E & Em & Hc & Ho).
    rewrite E. cbn [bind]. unfold new_linear.
    assert (Hlast : (0 < last ((dx + dy)%nat :: hidden) 0)%nat).
    { assert (Hin : In (last ((dx + dy)%nat :: hidden) 0%nat) ((dx + dy)%nat :: hidden)).
      { assert (exists l a, (dx + dy)%nat :: hidden = (l ++ [a])%list) as (l & a & ->) by (destruct (exists_last (l := (dx + dy)%nat :: hidden)) as (l & a & H); [discriminate|eauto]).
        rewrite last_last. apply in_or_app. right. now left. }
      destruct Hin as [<-|Hin]; [assumption|]. rewrite Forall_forall in Hh. now apply Hh. }
    destruct (Nat.eqb_spec (last ((dx + dy)%nat :: hidden) 0%nat) 0); [lia|].
    destruct (linear_init k1 (last ((dx + dy)%nat :: hidden) 0%nat) 1) as [w b] eqn:Ei. cbn [bind].
    set (final := {| lin_in := last ((dx + dy)%nat :: hidden) 0%nat; lin_out := 1; weight := w; bias := b |}).
    exists (ls ++ [final])%list. split; [reflexivity|].
    assert (Hf : layer_ok final).
    { pose proof (Hinit k1 (last ((dx + dy)%nat :: hidden) 0%nat) 1) as H. rewrite Ei in H. exact H. }
    assert (Hrl : removelast (ls ++ [final]) = ls) by apply removelast_last.
    assert (Hix : py_index (ls ++ [final]) (-1) = Ok final).
    { unfold py_index, zlen. rewrite app_length. cbn [List.length]. destruct (Z.ltb_spec (-1) 0); [|lia].
      destruct (Z.ltb_spec (-1 + Z.of_nat (length ls + 1)) 0); [lia|].
      replace (Z.to_nat (-1 + Z.of_nat (length ls + 1))) with (length ls) by lia.
      rewrite nth_error_app2, Nat.sub_diag by lia. reflexivity. }
    split; [|split].
    - rewrite map_app, Em. cbn [map lin_in lin_out final].
      assert (G : forall d, (combine (d :: hidden) hidden ++ [(last (d :: hidden) 0%nat, 1%nat)])%list = combine (d :: hidden) (hidden ++ [1%nat])).
      { clear. induction hidden as [|h hidden IH]; intros d; [reflexivity|]. change (((d, h) :: combine (h :: hidden) hidden ++ [(last (h :: hidden) 0%nat, 1%nat)])%list = ((d, h) :: combine (h :: hidden) (hidden ++ [1%nat]))%list).
        now rewrite IH. }
      apply G.
    - intros x y Hx Hy. destruct (mlp_call_spec ls final (dx + dy) (x ++ y) Hc Hf (eq_sym Ho) ltac:(rewrite app_length; lia)) as (z' & A & B & D).
      unfold mlp_call. rewrite Hrl, A. cbn [bind]. rewrite Hix. cbn [bind].
      destruct (affine_eq final z' Hf B) as [G1 G2]. rewrite G1. cbn [bind].
      rewrite <- D. destruct (affine_map (weight final) (bias final) z') as [|v [|]]; cbn in G2; try discriminate.
      exists v. split; reflexivity.
    - intros x y Hxy. unfold mlp_call. rewrite Hrl. destruct ls as [|l ls].
      + cbn [relu_layers bind]. rewrite Hix. cbn [bind]. unfold linear_call. cbn [lin_in final]. cbn [out_dim] in Ho. rewrite <- Ho.
        destruct (Nat.eqb_spec (length (x ++ y)) (dx + dy)) as [Eq|]; [rewrite app_length in Eq; lia|reflexivity].
      + cbn [relu_layers]. unfold linear_call at 1. cbn [chained] in Hc. destruct Hc as (_ & -> & _).
        destruct (Nat.eqb_spec (length (x ++ y)) (dx + dy)) as [Eq|]; [rewrite app_length in Eq; lia|reflexivity].
  Qed.
End MlpThm.

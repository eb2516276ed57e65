(** Proofs about the training log. *)
From Coq Require Import String.
From Verif Require Import Base BaseLemmas TrainingLogModel TrainingSpec.
Open Scope R_scope.
Local Notation length := List.length.

Lemma fl_ltb_trans a b c : fl_ltb a b = true -> fl_ltb b c = true -> fl_ltb a c = true.
Proof.
  destruct a, b, c; cbn; try congruence.
  destruct (Rlt_dec r r0), (Rlt_dec r0 r1), (Rlt_dec r r1); try congruence; lra.
Qed.
Lemma fl_ltb_irrefl a : fl_ltb a a = false.
Proof. destruct a; cbn; auto. destruct (Rlt_dec r r); [lra|auto]. Qed.
Lemma fl_ltb_nan_r a : fl_ltb a NaN = false.
Proof. now destruct a. Qed.
Lemma fl_nltb_ltb a b c : a <> NaN -> b <> NaN -> c <> NaN -> fl_ltb b a = false -> fl_ltb b c = true -> fl_ltb a c = true.
Proof.
  destruct a, b, c; cbn; try congruence.
  destruct (Rlt_dec r0 r), (Rlt_dec r0 r1), (Rlt_dec r r1); try congruence; lra.
Qed.

(** What is remembered about the recorded test values. *)
Definition best_of (vals : list fl) (b : option fl) : Prop :=
  match vals with
  | [] => b = None
  | NaN :: _ => b = Some NaN
  | _ => exists m, b = Some m /\ m <> NaN /\ In m vals /\ forall w, In w vals -> w <> NaN -> fl_ltb m w = false
  end.

Lemma best_improves vals b v : best_of vals b ->
  (match b with None => true | Some m => fl_ltb m v end) = true <-> improves vals v.
Proof.
  intros H. destruct vals as [|u vals]; cbn [best_of improves] in *; [subst; tauto|].
  destruct (match u with NaN => true | _ => false end) eqn:Eu.
  - destruct u; try discriminate. subst. cbn. split; [discriminate|]. intros ([] & _). reflexivity.
  - assert (Hu : u <> NaN) by (intros ->; discriminate).
    assert (H' : exists m, b = Some m /\ m <> NaN /\ In m (u :: vals) /\ forall w, In w (u :: vals) -> w <> NaN -> fl_ltb m w = false)
      by (destruct u; try assumption; congruence).
    destruct H' as (m & -> & Hm & Hin & Hmax). split.
    + intros E. split; [assumption|]. assert (Hv : v <> NaN) by (intros ->; now rewrite fl_ltb_nan_r in E).
      split; [assumption|]. intros w Hw Hwn. eapply fl_nltb_ltb; [..|exact E]; auto.
    + intros (_ & _ & Hall). now apply Hall.
Qed.

Lemma best_snoc vals b v : best_of vals b ->
  best_of (vals ++ [v]) (if (match b with None => true | Some m => fl_ltb m v end) then Some v else b).
Proof.
  intros H. destruct vals as [|u vals].
  - cbn in H. subst. cbn. destruct v; try reflexivity; eexists; (split; [reflexivity|]); (split; [discriminate|]); (split; [now left|]);
      intros w [<-|[]] _; apply fl_ltb_irrefl.
  - cbn [app best_of] in *. destruct (match u with NaN => true | _ => false end) eqn:Eu.
    + destruct u; try discriminate. subst. reflexivity.
    + assert (H' : exists m, b = Some m /\ m <> NaN /\ In m (u :: vals) /\ forall w, In w (u :: vals) -> w <> NaN -> fl_ltb m w = false)
        by (destruct u; try assumption; congruence).
      assert (G : exists m, (if (match b with None => true | Some m => fl_ltb m v end) then Some v else b) = Some m /\ m <> NaN /\
                 In m (u :: vals ++ [v]) /\ forall w, In w (u :: vals ++ [v]) -> w <> NaN -> fl_ltb m w = false).
      { destruct H' as (m & -> & Hm & Hin & Hmax). destruct (fl_ltb m v) eqn:E.
        - exists v. split; [reflexivity|]. split; [intros ->; now rewrite fl_ltb_nan_r in E|].
          split; [right; apply in_or_app; right; now left|].
          intros w Hw Hwn. destruct (fl_ltb v w) eqn:E2; [|reflexivity].
          assert (In w (u :: vals) \/ w = v) as [Hw'| ->].
          { destruct Hw as [->|Hw]; [left; now left|]. apply in_app_or in Hw as [Hw|[->|[]]]; [left; now right|now right]. }
          + rewrite <- (Hmax w Hw' Hwn). symmetry. eapply fl_ltb_trans; eassumption.
          + now rewrite fl_ltb_irrefl in E2.
        - exists m. split; [reflexivity|]. split; [assumption|]. split; [destruct Hin; [now left|right; apply in_or_app; now left]|].
          intros w Hw Hwn.
          assert (In w (u :: vals) \/ w = v) as [Hw'| ->].
          { destruct Hw as [->|Hw]; [left; now left|]. apply in_app_or in Hw as [Hw|[->|[]]]; [left; now right|now right]. }
          + now apply Hmax.
          + assumption. }
      destruct u; try exact G. congruence.
Qed.

(** The invariant of the log. *)
Definition log_inv (l : training_log) : Prop :=
  best_of (test_values l) (mi_test_best l) /\
  (0 <= logs_since_mi_test_best l)%Z /\
  ((0 < logs_since_mi_test_best l)%Z <-> exists pre a, test_values l = pre ++ [a] /\ ~ improves pre a) /\
  ((1 < logs_since_mi_test_best l)%Z <-> stalled (test_values l)).

Lemma app2_inj {A} (pre pre' : list A) a b a' b' : pre ++ [a; b] = pre' ++ [a'; b'] -> pre = pre' /\ a = a' /\ b = b'.
Proof.
  intros H. change [a; b] with ([a] ++ [b]) in H. change [a'; b'] with ([a'] ++ [b']) in H. rewrite !app_assoc in H.
  apply app_inj_tail in H as [H ->]. apply app_inj_tail in H as [-> ->]. auto.
Qed.

Lemma finish_keeps l l' : finish l = Ok l' ->
  mi_train_history l' = mi_train_history l /\ mi_test_history l' = mi_test_history l /\
  mi_test_best l' = mi_test_best l /\ logs_since_mi_test_best l' = logs_since_mi_test_best l /\
  early_stopping l' = early_stopping l /\ train_history_in_info l' = train_history_in_info l /\
  test_history_in_info l' = test_history_in_info l.
Proof.
  unfold finish, detect_warnings. destruct (_ <? 1)%Z; [intros [= <-]; repeat split|].
  destruct (negb _); [discriminate|].
  destruct (py_index _ (-1)); [|discriminate]. cbn [bind].
  destruct (py_index _ _); [|discriminate]. cbn [bind]. intros [= <-]. repeat split.
Qed.

Lemma log_inv_reachable l : log_reachable l -> log_inv l.
Proof.
  induction 1 as [n e f a b l H|l n v Hl IH|l n v Hl IH|l l' Hl IH Hf].
  - unfold log_init in H. destruct (Rleb f (1 / 2)); [|discriminate]. injection H as <-. unfold log_inv, test_values. cbn.
    split; [reflexivity|]. split; [lia|]. split.
    + split; [lia|]. intros (pre & a0 & E & _). destruct pre; discriminate.
    + split; [lia|]. intros (pre & a0 & b0 & E & _). destruct pre; discriminate.
  - exact IH.
  - destruct IH as (Hb & H0 & H1 & H2). unfold log_inv.
    assert (Ev : test_values (log_test_mi l n v) = test_values l ++ [v]) by (unfold test_values, log_test_mi; cbn; now rewrite map_app).
    rewrite Ev. unfold log_test_mi. cbn [mi_test_best logs_since_mi_test_best].
    split; [now apply best_snoc|].
    pose proof (best_improves _ _ v Hb) as Hi.
    destruct (match mi_test_best l with None => true | Some b => fl_ltb b v end) eqn:E.
    + assert (Hv : improves (test_values l) v) by now apply Hi.
      split; [lia|]. split; (split; [lia|]).
      * intros (pre & a & Ea & Hn). apply app_inj_tail in Ea as [Ea1 Ea2]. subst. contradiction.
      * intros (pre & a & b & Ea & _ & Hn). change [a; b] with ([a] ++ [b]) in Ea. rewrite app_assoc in Ea.
        apply app_inj_tail in Ea as [Ea1 Ea2]. subst v. exfalso. apply Hn. now rewrite <- Ea1.
    + assert (Hv : ~ improves (test_values l) v) by (intros Hv; apply Hi in Hv; congruence).
      split; [lia|]. split.
      * split; [|lia]. intros _. eauto.
      * split.
        -- intros Hlt. assert (Hpos : (0 < logs_since_mi_test_best l)%Z) by lia.
           apply H1 in Hpos as (pre & a & Ea & Hn). exists pre, a, v. rewrite Ea in *.
           split; [now rewrite <- app_assoc|]. split; assumption.
        -- intros (pre & a & b & Ea & Hn1 & Hn2). change [a; b] with ([a] ++ [b]) in Ea. rewrite app_assoc in Ea.
           apply app_inj_tail in Ea as [Ea _].
           assert (Hpos : (0 < logs_since_mi_test_best l)%Z) by (apply H1; eauto). lia.
  - destruct (finish_keeps _ _ Hf) as (_ & E2 & E3 & E4 & _). unfold log_inv, test_values in *. now rewrite E2, E3, E4.
Qed.

Lemma early_stop_iff l : log_reachable l ->
  early_stop l = true <-> early_stopping l = true /\ stalled (test_values l).
Proof.
  intros H. destruct (log_inv_reachable l H) as (_ & _ & _ & H2). unfold early_stop.
  rewrite andb_true_iff, Z.ltb_lt, H2. reflexivity.
Qed.

(** Finite values: the largest one is reported. *)
Lemma final_mi_max l vals : log_reachable l -> test_values l = map Fin vals -> vals <> [] ->
  exists m, final_mi l = Fin m /\ is_max m vals.
Proof.
  intros H E Hne. destruct (log_inv_reachable l H) as (Hb & _). rewrite E in Hb.
  destruct vals as [|v vals]; [congruence|]. cbn [map best_of] in Hb.
  destruct Hb as (m & Em & Hm & Hin & Hmax). unfold final_mi. rewrite Em.
  change (Fin v :: map Fin vals) with (map Fin (v :: vals)) in *.
  apply in_map_iff in Hin as (r & <- & Hr). exists r. split; [reflexivity|]. split; [assumption|].
  apply Forall_forall. intros w Hw. specialize (Hmax (Fin w)). cbn in Hmax.
  destruct (Rlt_dec r w); [|lra]. exfalso. assert (true = false); [|discriminate].
  apply Hmax; [|discriminate]. now apply (in_map Fin) in Hw.
Qed.

Lemma final_mi_nan_first l rest : log_reachable l -> test_values l = NaN :: rest -> final_mi l = NaN.
Proof.
  intros H E. destruct (log_inv_reachable l H) as (Hb & _). rewrite E in Hb. cbn in Hb. unfold final_mi. now rewrite Hb.
Qed.

Lemma final_mi_no_test l : log_reachable l -> test_values l = [] -> final_mi l = NaN.
Proof.
  intros H E. destruct (log_inv_reachable l H) as (Hb & _). rewrite E in Hb. cbn in Hb. unfold final_mi. now rewrite Hb.
Qed.

Lemma final_mi_not_nan l v rest : log_reachable l -> test_values l = v :: rest -> v <> NaN ->
  final_mi l <> NaN /\ In (final_mi l) (v :: rest) /\ forall w, In w (v :: rest) -> w <> NaN -> fl_ltb (final_mi l) w = false.
Proof.
  intros H E Hv. destruct (log_inv_reachable l H) as (Hb & _). rewrite E in Hb. cbn in Hb.
  assert (H' : exists m, mi_test_best l = Some m /\ m <> NaN /\ In m (v :: rest) /\ forall w, In w (v :: rest) -> w <> NaN -> fl_ltb m w = false)
    by (destruct v; try exact Hb; congruence).
  destruct H' as (m & Em & Hm). unfold final_mi. rewrite Em. exact Hm.
Qed.

(** In terms of finite values, stopping means the last two are at most an earlier one. *)
Lemma improves_finite pre v : improves (map Fin pre) (Fin v) <-> Forall (fun u => u < v) pre.
Proof.
  destruct pre as [|u pre]; cbn [map improves]; [split; auto|].
  split.
  - intros (_ & _ & H). apply Forall_forall. intros w Hw.
    specialize (H (Fin w) (in_map Fin (u :: pre) w Hw) ltac:(discriminate)). cbn in H. destruct (Rlt_dec w v); [assumption|discriminate].
  - intros H. split; [discriminate|]. split; [discriminate|]. intros w Hw _.
    change (Fin u :: map Fin pre) with (map Fin (u :: pre)) in Hw. apply in_map_iff in Hw as (r & <- & Hr).
    rewrite Forall_forall in H. specialize (H r Hr). cbn. destruct (Rlt_dec r v); [reflexivity|lra].
Qed.

Lemma not_all_below pre (v : R) : ~ Forall (fun u => u < v) pre <-> exists m, In m pre /\ v <= m.
Proof.
  split.
  - intros H. induction pre as [|u pre IH]; [exfalso; apply H; constructor|].
    destruct (Rlt_dec u v) as [Hlt|Hlt].
    + destruct IH as (m & Hm & Hle); [intros HF; apply H; now constructor|]. exists m. split; [now right|assumption].
    + exists u. split; [now left|lra].
  - intros (m & Hm & Hle) H. rewrite Forall_forall in H. specialize (H m Hm). lra.
Qed.

Lemma stalled_finite vals : stalled (map Fin vals) <->
  exists pre a b m, vals = pre ++ [a; b] /\ In m pre /\ a <= m /\ b <= m.
Proof.
  split.
  - intros (pre & a & b & E & H1 & H2).
    assert (Hp : exists pre' a' b', vals = pre' ++ [a'; b'] /\ pre = map Fin pre' /\ a = Fin a' /\ b = Fin b').
    { change [a; b] with ([a] ++ [b]) in E. rewrite app_assoc in E.
      apply map_eq_app in E as (l1 & l2 & -> & E1 & E2).
      apply map_eq_app in E1 as (l3 & l4 & -> & E3 & E4).
      destruct l2 as [|b' [|]]; cbn in E2; try discriminate. destruct l4 as [|a' [|]]; cbn in E4; try discriminate.
      injection E2 as <-. injection E4 as <-. exists l3, a', b'. now rewrite <- app_assoc. }
    destruct Hp as (pre' & a' & b' & -> & -> & -> & ->).
    change [Fin a'] with (map Fin [a']) in H2. rewrite <- map_app in H2.
    rewrite improves_finite, not_all_below in H1, H2.
    destruct H1 as (m & Hm & Ha). destruct H2 as (m2 & Hm2 & Hb).
    apply in_app_or in Hm2 as [Hm2|[<-|[]]].
    + destruct (Rle_dec m m2).
      * exists pre', a', b', m2. repeat split; auto; lra.
      * exists pre', a', b', m. repeat split; auto; lra.
    + exists pre', a', b', m. repeat split; auto; lra.
  - intros (pre & a & b & m & -> & Hm & Ha & Hb). exists (map Fin pre), (Fin a), (Fin b).
    split; [now rewrite map_app|]. change [Fin a] with (map Fin [a]). rewrite <- map_app.
    rewrite !improves_finite, !not_all_below. split; exists m; (split; [|assumption]); [assumption|apply in_or_app; now left].
Qed.

(** ** Diagnostics *)
Lemma cumsum_from_Fin vals : forall acc, cumsum_from (Fin acc) (map Fin vals)
  = map (fun i => Fin (acc + rsum (firstn (S i) vals))) (seq 0 (length vals)).
Proof.
  induction vals as [|v vals IH]; intros acc; [reflexivity|]. cbn [map cumsum_from fl_add length seq].
  f_equal; [cbn [firstn]; f_equal; cbn; lra|]. rewrite IH, <- seq_shift, map_map. apply map_ext. intros i.
  cbn [firstn]. rewrite !rsum_cons. f_equal. lra.
Qed.

Lemma cs_value vals : cumsum_from (Fin 0) (Fin 0 :: map Fin vals)
  = map (fun i => Fin (rsum (firstn i vals))) (seq 0 (S (length vals))).
Proof.
  change (Fin 0 :: map Fin vals) with (map Fin (0 :: vals)). rewrite cumsum_from_Fin. cbn [length].
  apply map_ext. intros i. cbn [firstn]. rewrite rsum_cons. f_equal. lra.
Qed.

Lemma rsum_firstn_diff (vals : list R) i w : rsum (firstn (i + w) vals) - rsum (firstn i vals) = rsum (firstn w (skipn i vals)).
Proof. rewrite firstn_skipn_add, rsum_app. lra. Qed.

Lemma skipn_seq k a n : skipn k (seq a n) = seq (a + k) (n - k).
Proof.
  revert a n. induction k as [|k IH]; intros a n; [now rewrite Nat.add_0_r, Nat.sub_0_r|].
  destruct n; [reflexivity|]. cbn [seq skipn]. rewrite IH. f_equal; lia.
Qed.
Lemma firstn_seq k a n : firstn k (seq a n) = seq a (Nat.min k n).
Proof. revert a n. induction k as [|k IH]; intros a [|n]; cbn; auto. now rewrite IH. Qed.

Lemma combine_map_same {A B C} (f : A -> B) (g : A -> C) l : combine (map f l) (map g l) = map (fun a => (f a, g a)) l.
Proof. induction l; cbn; congruence. Qed.

Lemma smoothed_value (w : nat) vals : (1 <= w <= length vals)%nat ->
  smoothed (Z.of_nat w) (map Fin vals)
  = map (fun i => Fin (window_mean w vals (i + w))) (seq 0 (S (length vals) - w)).
Proof.
  intros Hw. unfold smoothed. rewrite cs_value, Nat2Z.id.
  set (n := length vals) in *. set (F := fun i => Fin (rsum (firstn i vals))).
  assert (Hlen : zlen (map F (seq 0 (S n))) = Z.of_nat (S n)) by (unfold zlen; now rewrite map_length, seq_length).
  unfold py_slice. rewrite Hlen.
  assert (C0 : py_clamp (Z.of_nat (S n)) 0 = 0%Z) by (unfold py_clamp; cbn [Z.ltb]; change (0 <? 0)%Z with false; cbv iota; lia).
  assert (C1 : py_clamp (Z.of_nat (S n)) (- Z.of_nat w) = Z.of_nat (S n - w)).
  { unfold py_clamp. destruct (Z.ltb_spec (- Z.of_nat w) 0); lia. }
  rewrite C0, C1, Z.sub_0_r, Nat2Z.id. cbn [Z.to_nat skipn].
  rewrite skipn_map, firstn_map, skipn_seq, firstn_seq, Nat.min_l by lia.
  replace (seq (0 + w) (S n - w)) with (map (fun i => (i + w)%nat) (seq 0 (S n - w))).
  2:{ clear. generalize (S n - w)%nat as m. generalize 0%nat as a. intros a m. revert a.
      induction m as [|m IH]; intros a; cbn; [reflexivity|]. rewrite IH. reflexivity. }
  rewrite map_map, combine_map_same, map_map. apply map_ext_in. intros i Hi. apply in_seq in Hi.
  unfold F. cbn [fst snd fl_sub fl_opp fl_add fl_divp]. f_equal. unfold window_mean, rmean.
  replace (i + w - w)%nat with i by lia.
  rewrite firstn_length, skipn_length, Nat.min_l by lia. rewrite <- INR_IZR_INZ. f_equal.
  rewrite <- rsum_firstn_diff. lra.
Qed.

Lemma jnp_max_Fin (vals : list R) : vals <> [] -> exists m, jnp_max (map Fin vals) = Fin m /\ is_max m vals.
Proof.
  destruct vals as [|v vals]; [congruence|]. intros _. cbn [map jnp_max].
  revert v. induction vals as [|u vals IH]; intros v; cbn [map fold_left].
  - exists v. split; [reflexivity|]. split; [now left|]. constructor; [lra|constructor].
  - cbn [jnp_max2 fl_ltb]. destruct (Rlt_dec v u) as [Hlt|Hlt].
    + destruct (IH u) as (m & E & Hin & Hm). exists m. split; [assumption|]. split; [destruct Hin; [right; now left|right; now right]|].
      constructor; [|assumption]. inversion Hm; subst. lra.
    + destruct (IH v) as (m & E & Hin & Hm). exists m. split; [assumption|]. split; [destruct Hin; [now left|right; now right]|].
      inversion Hm; subst. constructor; [assumption|]. constructor; [lra|assumption].
Qed.

Lemma py_int_spec r : 0 <= r -> IZR (py_int r) <= r < IZR (py_int r) + 1.
Proof. intros H. unfold py_int. destruct (Rle_dec 0 r); [|lra]. pose proof (base_Int_part r). lra. Qed.

Lemma py_int_neg r : r <= 0 -> (py_int r <= 0)%Z.
Proof.
  intros H. unfold py_int. destruct (Rle_dec 0 r) as [H0|H0].
  - assert (r = 0) by lra. subst. pose proof (base_Int_part 0). apply le_IZR. lra.
  - pose proof (base_Int_part (- r)) as [A B]. assert (-1 < Int_part (- r))%Z by (apply lt_IZR; lra). lia.
Qed.

Definition info_value (c : bool) : option info := if c then Some (InfoBool true) else None.

Lemma detect_cases l (vals : list R) :
  map snd (mi_train_history l) = map Fin vals -> log_info l = [] -> train_smooth_factor l <= 1 / 2 ->
  let w := Z.to_nat (py_int (train_smooth_factor l * IZR (zlen vals))) in
  let n := length vals in
  exists l', finish l = Ok l' /\
    mi_train_history l' = mi_train_history l /\ mi_test_history l' = mi_test_history l /\ mi_test_best l' = mi_test_best l /\
    train_history_in_info l' = train_history_in_info l /\ test_history_in_info l' = test_history_in_info l /\
    (has_flag "early_stopping_not_triggered" l' <-> early_stopping l = true /\ early_stop l = false) /\
    (has_flag "training_too_short_for_diagnostics" l' <-> train_smooth_factor l * INR n < 1) /\
    (has_flag "max_training_mi_decreased" l' <-> (1 <= w)%nat /\
       exists i, (w <= i <= n)%nat /\ 105 / 100 * window_mean w vals n < window_mean w vals i) /\
    (has_flag "training_mi_still_increasing" l' <-> (1 <= w)%nat /\
       105 / 100 * window_mean w vals (n - (w - 1)) < window_mean w vals n).
Proof.
  intros Hv Hi Hf w n. unfold finish, detect_warnings. rewrite Hv, Hi.
  assert (Hz : zlen (map Fin vals) = zlen vals) by apply zlen_map. rewrite Hz.
  assert (Hzn : IZR (zlen vals) = INR n) by (unfold zlen, n; now rewrite INR_IZR_INZ).
  set (f := train_smooth_factor l) in *.
  set (b := early_stopping l && negb (early_stop l)).
  assert (Hb : b = true <-> early_stopping l = true /\ early_stop l = false).
  { unfold b. rewrite andb_true_iff, negb_true_iff. reflexivity. }
  assert (Hsmall : (py_int (f * IZR (zlen vals)) < 1)%Z <-> f * INR n < 1).
  { rewrite Hzn. destruct (Rle_dec 0 (f * INR n)) as [H0|H0].
    - pose proof (py_int_spec _ H0) as [A B]. split; intros H.
      + assert (py_int (f * INR n) <= 0)%Z by lia. apply IZR_le in H1. lra.
      + assert (IZR (py_int (f * INR n)) < 1) by lra. apply lt_IZR in H1. exact H1.
    - pose proof (py_int_neg (f * INR n)). split; intros; [lra|]. assert (py_int (f * INR n) <= 0)%Z by (apply H; lra). lia. }
  destruct (Z.ltb_spec (py_int (f * IZR (zlen vals))) 1) as [Hlt|Hge].
  - eexists. split; [reflexivity|]. do 5 (split; [reflexivity|]). unfold has_flag, flag. cbn [set_info log_info].
    assert (Hw0 : w = 0%nat) by (unfold w; lia). rewrite Hw0.
    split; [|split; [|split]].
    + rewrite sdict_get_set_neq by discriminate. destruct b; cbn; rewrite <- Hb; split; congruence.
    + rewrite sdict_get_set_eq. split; auto. intros _. now apply Hsmall.
    + rewrite sdict_get_set_neq by discriminate. destruct b; cbn; (split; [discriminate|lia]).
    + rewrite sdict_get_set_neq by discriminate. destruct b; cbn; (split; [discriminate|lia]).
  - assert (Ew : py_int (f * IZR (zlen vals)) = Z.of_nat w) by (unfold w; rewrite Z2Nat.id; lia).
    rewrite Ew. assert (Hw1 : (1 <= w)%nat) by lia.
    assert (Hpos : 0 <= f * INR n).
    { destruct (Rle_dec 0 (f * INR n)); [assumption|]. pose proof (py_int_neg (f * INR n)). rewrite Hzn in Hge. 
      assert (py_int (f * INR n) <= 0)%Z by (apply H; lra). lia. }
    assert (H2w : (2 * w <= n)%nat).
    { pose proof (py_int_spec _ Hpos) as [A _]. rewrite <- Hzn, Ew, <- INR_IZR_INZ in A. rewrite Hzn in A.
      apply INR_le. rewrite mult_INR. cbn [INR]. pose proof (pos_INR n). nra. }
    rewrite smoothed_value by (unfold n in H2w; lia). fold n.
    set (sm := map (fun i => Fin (window_mean w vals (i + w))) (seq 0 (S n - w))).
    assert (Hsl : zlen sm = Z.of_nat (S n - w)) by (unfold sm, zlen; now rewrite map_length, seq_length).
    destruct (Z.leb_spec (Z.of_nat w + 1) (zlen sm)) as [_|Hbad]; [|lia]. cbn [negb].
    assert (Hsm : sm = map Fin (map (fun i => window_mean w vals (i + w)) (seq 0 (S n - w)))) by (unfold sm; now rewrite map_map).
    assert (Hidx : forall j, (1 <= j <= S n - w)%nat -> py_index sm (- Z.of_nat j) = Ok (Fin (window_mean w vals (n - (j - 1))))).
    { intros j Hj. unfold py_index. rewrite Hsl. destruct (Z.ltb_spec (- Z.of_nat j) 0); [|lia].
      destruct (Z.ltb_spec (- Z.of_nat j + Z.of_nat (S n - w)) 0); [lia|].
      replace (Z.to_nat (- Z.of_nat j + Z.of_nat (S n - w))) with (S n - w - j)%nat by lia.
      unfold sm. rewrite nth_error_map. rewrite (nth_error_nth' (seq 0 (S n - w)) 0%nat) by (rewrite seq_length; lia).
      rewrite seq_nth by lia. cbn [option_map]. do 3 f_equal. lia. }
    change (-1)%Z with (- Z.of_nat 1)%Z. rewrite !Hidx by lia. cbn [bind].
    replace (n - (1 - 1))%nat with n by lia.
    destruct (jnp_max_Fin (map (fun i => window_mean w vals (i + w)) (seq 0 (S n - w)))) as (m & Em & Hin & Hmax).
    { replace (S n - w)%nat with (S (n - w)) by lia. discriminate. }
    rewrite <- Hsm in Em. rewrite Em.
    eexists. split; [reflexivity|]. do 5 (split; [reflexivity|]). unfold has_flag, flag. cbn [set_info log_info].
    cbn [times_1_05 fl_ltb].
    assert (Hdec : 105 / 100 * window_mean w vals n < m <-> exists i, (w <= i <= n)%nat /\ 105 / 100 * window_mean w vals n < window_mean w vals i).
    { split.
      - intros Hlt. apply in_map_iff in Hin as (i & <- & Hi'). apply in_seq in Hi'. exists (i + w)%nat. split; [lia|assumption].
      - intros (i & Hi' & Hlt). rewrite Forall_forall in Hmax. eapply Rlt_le_trans; [exact Hlt|]. apply Hmax.
        apply in_map_iff. exists (i - w)%nat. split; [f_equal; lia|apply in_seq; lia]. }
    assert (Hnot : ~ f * INR n < 1) by (rewrite <- Hsmall; lia).
    destruct (Rlt_dec (105 / 100 * window_mean w vals n) m) as [D1|D1];
      destruct (Rlt_dec (105 / 100 * window_mean w vals (n - (w - 1))) (window_mean w vals n)) as [D2|D2];
      (split; [|split; [|split]]); repeat (rewrite sdict_get_set_eq || rewrite sdict_get_set_neq by discriminate);
      destruct b; cbn; try rewrite <- Hb; intuition (try discriminate; auto).
Qed.

(** KSG: histories of calls, bounds on estimates, the repeated-neighborhood defect. *)
From Coq Require Import Permutation.
From Verif Require Import Base BaseLemmas UtilsModel UtilsSpec UtilsProofs KsgModel KsgSpec KsgProofs
  KsgFitProofs KsgThms KsgFormula.
Open Scope Z_scope.

(** ** Histories *)
(** What the two fits have in common. *)
Definition fit_law (F : fit_method) (p : ksg_params) (chunk : Z) : Prop :=
  forall x y,
    (exists g, forall s, params s = p -> chunk_size s = chunk -> F s x y = (fit_update s g, Ok tt)) \/
    (exists e, forall s, params s = p -> chunk_size s = chunk -> F s x y = (s, Err e)).

Lemma fast_law psi argsort p chunk : valid_argsort argsort -> valid_params p ->
  fit_law (fast_fit psi argsort) p chunk.
Proof.
  intros Ha Hv x y.
  destruct (fit_errors_fast psi argsort (ksg_new p chunk) x y Hv) as [(xs & ys & Hps & Hm & Hc)|E].
  - left. eexists. intros s Hp Hch. rewrite (fast_fit_spec psi argsort s x y xs ys).
    + rewrite Hp. reflexivity.
    + assumption.
    + now rewrite Hp.
    + rewrite Hch. exact Hc.
    + rewrite Hp. exact Hps.
    + rewrite Hp. exact Hm.
  - right. exists ValueError. intros s Hp Hch.
    destruct (fit_errors_fast psi argsort s x y) as [(xs & ys & Hps & Hm & Hc)|E']; [now rewrite Hp| |exact E'].
    exfalso. rewrite Hp in *. rewrite Hch in *.
    rewrite (fast_fit_spec psi argsort (ksg_new p chunk) x y xs ys) in E by assumption. discriminate.
Qed.

Lemma slow_law psi p chunk : valid_params p -> fit_law (slow_fit psi) p chunk.
Proof.
  intros Hv x y.
  destruct (fit_errors_slow psi (ksg_new p chunk) x y) as [(xs & ys & Hps & Hm)|E].
  - left. eexists. intros s Hp Hch. rewrite (slow_fit_spec psi s x y xs ys).
    + rewrite Hp. reflexivity.
    + now rewrite Hp.
    + rewrite Hp. exact Hps.
    + rewrite Hp. exact Hm.
  - right. exists ValueError. intros s Hp Hch.
    destruct (fit_errors_slow psi s x y) as [(xs & ys & Hps & Hm)|E']; [|exact E'].
    exfalso. rewrite Hp in *.
    rewrite (slow_fit_spec psi (ksg_new p chunk) x y xs ys) in E by assumption. discriminate.
Qed.

Section History.
Variables (F : fit_method) (p : ksg_params) (chunk : Z).
Hypothesis law : fit_law F p chunk.
Notation s0 := (ksg_new p chunk).

Definition state_for (acc : option (matrix * matrix)) : ksg_state :=
  match acc with None => s0 | Some (x, y) => fst (F s0 x y) end.

Definition acc_ok (acc : option (matrix * matrix)) : Prop :=
  match acc with None => True | Some (x, y) => accepted F s0 x y = true end.

Lemma update_again g h : fit_update (fit_update s0 g) h = fit_update s0 h.
Proof.
  unfold fit_update. cbn [params chunk_size mi_dict ksg_new]. f_equal.
  rewrite (fold_set_all g) by (auto using nub_nodup). 
  rewrite !fold_set_all; auto using nub_nodup.
  right. unfold dict_keys. rewrite map_map. apply map_id.
Qed.

Lemma fit_again acc x y : acc_ok acc ->
  snd (F (state_for acc) x y) = snd (F s0 x y) /\
  fst (F (state_for acc) x y) = state_for (if accepted F s0 x y then Some (x, y) else acc).
Proof.
  intros Hacc.
  assert (Hs : state_for acc = s0 \/ exists g, state_for acc = fit_update s0 g).
  { destruct acc as [[x' y']|]; [|now left]. right. unfold acc_ok, accepted in Hacc.
    destruct (law x' y') as [[g Hg]|[e He]].
    - exists g. unfold state_for. now rewrite Hg.
    - rewrite He in Hacc by reflexivity. discriminate. }
  assert (Hp : params (state_for acc) = p /\ chunk_size (state_for acc) = chunk)
    by (destruct Hs as [->|[g ->]]; split; reflexivity).
  destruct Hp as [Hp Hc].
  destruct (law x y) as [[g Hg]|[e He]].
  - unfold accepted. rewrite (Hg _ Hp Hc), (Hg s0 eq_refl eq_refl). cbn [fst snd state_for].
    rewrite (Hg s0 eq_refl eq_refl). split; [reflexivity|]. cbn [fst].
    destruct Hs as [->|[h ->]]; [reflexivity|apply update_again].
  - unfold accepted. rewrite (He _ Hp Hc), (He s0 eq_refl eq_refl). cbn [fst snd]. auto.
Qed.

Lemma acc_ok_step acc x y : acc_ok acc -> acc_ok (if accepted F s0 x y then Some (x, y) else acc).
Proof. intros H. destruct (accepted F s0 x y) eqn:E; auto. Qed.

Lemma run_state calls acc : acc_ok acc ->
  ksg_run F (state_for acc) calls = state_for (last_accepted F s0 acc calls) /\
  acc_ok (last_accepted F s0 acc calls).
Proof.
  revert acc; induction calls as [|c calls IH]; intros acc Hacc; [split; [reflexivity|assumption]|].
  destruct c as [x y|x y|]; cbn [ksg_run ksg_step fst last_accepted].
  - rewrite (proj2 (fit_again acc x y Hacc)). apply IH. now apply acc_ok_step.
  - rewrite estimate_unfold. cbn [fst]. rewrite (proj2 (fit_again acc x y Hacc)). apply IH. now apply acc_ok_step.
  - apply IH. assumption.
Qed.

Lemma history calls c :
  snd (ksg_step F (ksg_run F s0 calls) c) =
  match c with
  | CallFit x y => OutFit (snd (F s0 x y))
  | CallEstimate x y => OutEstimate (snd (estimate_with F s0 x y))
  | CallGet => OutGet (match last_accepted F s0 None calls with
                       | None => Err NotFitted
                       | Some (x, y) => get_predictions (fst (F s0 x y))
                       end)
  end.
Proof.
  destruct (run_state calls None I) as [Hr Hacc]. change (state_for None) with s0 in Hr. rewrite Hr.
  set (acc := last_accepted F s0 None calls) in *. clearbody acc.
  destruct c as [x y|x y|]; cbn [ksg_step snd].
  - now rewrite (proj1 (fit_again acc x y Hacc)).
  - rewrite !estimate_unfold. cbn [snd]. f_equal.
    destruct (fit_again acc x y Hacc) as [-> ->]. unfold accepted.
    destruct (snd (F s0 x y)); reflexivity.
  - destruct acc as [[x y]|]; reflexivity.
Qed.
End History.

(** When fits succeed. *)
Lemma fit_success psi argsort p chunk dx dy x y :
  valid_argsort argsort -> valid_params p -> rectangular dx x -> rectangular dy y -> (0 < dx)%nat -> (0 < dy)%nat ->
  (snd (slow_fit psi (ksg_new p chunk) x y)
   = if (length x =? length y)%nat && forallb (fun k => k <? zlen x) (neighborhoods p) then Ok tt else Err ValueError) /\
  (snd (fast_fit psi argsort (ksg_new p chunk) x y)
   = if (length x =? length y)%nat && forallb (fun k => k <? zlen x) (neighborhoods p) && (0 <? chunk)
     then Ok tt else Err ValueError).
Proof.
  intros Ha Hv Hx Hy Hdx Hdy.
  assert (Hmax : forall xs : matrix, zmax_list (neighborhoods p) < zlen xs <-> forallb (fun k => k <? zlen xs) (neighborhoods p) = true).
  { intros xs. rewrite forallb_forall. split.
    - intros H k Hk. apply Z.ltb_lt. pose proof (zmax_list_ge _ _ Hk). lia.
    - intros H. apply Z.ltb_lt, H, zmax_list_in. apply Hv. }
  assert (Hsp : forall xs ys, product_space_values (standardize p) x y = Ok (xs, ys) -> (length x =? length y)%nat = true /\ zlen xs = zlen x).
  { intros xs ys H. destruct (product_space_values_length _ _ _ _ _ H) as [_ E]. unfold zlen. rewrite E. split; [|reflexivity].
    unfold product_space_values in H. destruct (length x =? length y)%nat; [reflexivity|discriminate]. }
  assert (Hok : (length x =? length y)%nat = true -> forallb (fun k => k <? zlen x) (neighborhoods p) = true ->
      exists xs ys, product_space_values (standardize p) x y = Ok (xs, ys) /\ zlen xs = zlen x).
  { intros El Ef. apply Hmax in Ef. assert (Hne : x <> []).
    { intros ->. destruct Hv as [H1 H2]. specialize (H2 _ (zmax_list_in _ H1)). unfold zlen in Ef; simpl in Ef; lia. }
    apply Nat.eqb_eq in El.
    destruct (product_space_values_spec (standardize p) dx dy x y Hx Hy Hdx Hdy Hne) as [_ H].
    destruct (H El) as (xs & ys & E & _). exists xs, ys. split; [assumption|]. now apply Hsp in E. }
  split.
  - destruct (fit_errors_slow psi (ksg_new p chunk) x y) as [(xs & ys & Hps & Hm)|E].
    + rewrite (slow_fit_spec psi (ksg_new p chunk) x y xs ys Hv Hps Hm). cbn [snd].
      destruct (Hsp _ _ Hps) as [-> Hz]. cbn [params ksg_new] in Hm. rewrite Hz in Hm. apply (Hmax x) in Hm. now rewrite Hm.
    + rewrite E. cbn [snd]. destruct (length x =? length y)%nat eqn:El; [|reflexivity].
      destruct (forallb _ _) eqn:Ef; [|reflexivity]. exfalso.
      destruct (Hok eq_refl eq_refl) as (xs & ys & Hps & Hz). apply (Hmax x) in Ef. rewrite <- Hz in Ef.
      rewrite (slow_fit_spec psi (ksg_new p chunk) x y xs ys Hv Hps Ef) in E. discriminate.
  - destruct (fit_errors_fast psi argsort (ksg_new p chunk) x y Hv) as [(xs & ys & Hps & Hm & Hc)|E].
    + rewrite (fast_fit_spec psi argsort (ksg_new p chunk) x y xs ys Ha Hv Hc Hps Hm). cbn [snd].
      destruct (Hsp _ _ Hps) as [-> Hz]. cbn [params ksg_new] in Hm. rewrite Hz in Hm. apply (Hmax x) in Hm. rewrite Hm.
      cbn [chunk_size ksg_new] in Hc. destruct (Z.ltb_spec 0 chunk); [reflexivity|lia].
    + rewrite E. cbn [snd]. destruct (length x =? length y)%nat eqn:El; [|reflexivity].
      destruct (forallb _ _) eqn:Ef; [|reflexivity]. destruct (Z.ltb_spec 0 chunk) as [Hc|]; [|reflexivity]. exfalso.
      destruct (Hok eq_refl eq_refl) as (xs & ys & Hps & Hz). apply (Hmax x) in Ef. rewrite <- Hz in Ef.
      rewrite (fast_fit_spec psi argsort (ksg_new p chunk) x y xs ys Ha Hv Hc Hps Ef) in E. discriminate.
Qed.

(** ** Bounds *)
Lemma prediction_nonneg psi p xs ys k : length xs = length ys -> 1 <= k < zlen xs ->
  prediction psi p xs ys k = PInf \/ exists r, prediction psi p xs ys k = Fin r /\ (0 <= r)%R.
Proof.
  intros Hl Hk. destruct (positive_or_zero psi p xs ys Hl k Hk) as [[r Hr]|(i & Hi & Hz)].
  - right. rewrite (prediction_formula psi p xs ys Hl k r Hk Hr). eexists. split; [reflexivity|apply Rmax_l].
  - left. now apply (prediction_zero_radius psi p xs ys Hl k i).
Qed.

Lemma slow_success psi p chunk x y s : valid_params p ->
  slow_fit psi (ksg_new p chunk) x y = (s, Ok tt) ->
  exists xs ys, product_space_values (standardize p) x y = Ok (xs, ys) /\ length xs = length ys /\
    zlen xs = zlen x /\ (forall k, In k (neighborhoods p) -> 1 <= k < zlen xs) /\
    s = fit_update (ksg_new p chunk) (prediction psi p xs ys).
Proof.
  intros Hv H. destruct (fit_errors_slow psi (ksg_new p chunk) x y) as [(xs & ys & Hps & Hm)|E]; [|congruence].
  rewrite (slow_fit_spec psi (ksg_new p chunk) x y xs ys Hv Hps Hm) in H. injection H as <-.
  exists xs, ys. destruct (product_space_values_length _ _ _ _ _ Hps) as [H1 H2]. repeat split; auto.
  - unfold zlen; lia.
  - now apply Hv.
  - pose proof (zmax_list_ge _ _ H). cbn [params ksg_new] in Hm. lia.
Qed.

Lemma predictions_bounds psi p chunk x y s d k :
  valid_params p -> slow_fit psi (ksg_new p chunk) x y = (s, Ok tt) -> get_predictions s = Ok d ->
  (NoDup (dict_keys d) /\ (forall k, In k (dict_keys d) <-> In k (neighborhoods p))) /\
  (In k (neighborhoods p) ->
   dict_get d k = Some PInf \/ exists r, dict_get d k = Some (Fin r) /\ (0 <= r)%R).
Proof.
  intros Hv Hfit Hget. destruct (slow_success psi p chunk x y s Hv Hfit) as (xs & ys & Hps & Hl & Hz & Hk & ->).
  rewrite get_after_update_new in Hget. injection Hget as <-. split.
  - unfold dict_keys. rewrite map_map, map_id. split; [apply nub_nodup|apply nub_in].
  - intros Hin. rewrite dict_get_map_keys by now apply nub_in.
    destruct (prediction_nonneg psi p xs ys k Hl (Hk k Hin)) as [->|(r & -> & Hr)]; eauto.
Qed.

Lemma prediction_upper psi p xs ys k :
  (forall a b, 1 <= a <= b -> (psi a <= psi b)%R) ->
  length xs = length ys -> 1 <= k < zlen xs ->
  no_ties (metric_x p) (metric_y p) xs ys ->
  (forall i j, (i < length xs)%nat -> (j < length xs)%nat -> i <> j -> (0 < dist_xy (metric_x p) (metric_y p) xs ys i j)%R) ->
  exists r, prediction psi p xs ys k = Fin r /\ (0 <= r <= psi (zlen xs) - psi k)%R.
Proof.
  intros Hpsi Hl Hk Hnt Hpos.
  destruct (positive_or_zero psi p xs ys Hl k Hk) as [[r Hr]|(i & Hi & Hz)].
  - rewrite (prediction_formula psi p xs ys Hl k r Hk Hr). eexists. split; [reflexivity|]. split; [apply Rmax_l|].
    apply Rmax_lub.
    + pose proof (Hpsi k (zlen xs)). assert (psi k <= psi (zlen xs))%R by (apply Hpsi; lia). lra.
    + apply formula_upper; auto. intros i Hi. now apply Hr.
  - exfalso. destruct Hz as [Hin _]. apply in_map_iff in Hin. destruct Hin as (j & Hj & Ho).
    apply others_in in Ho. destruct Ho as [Ho1 Ho2].
    assert (0 < dist_xy (metric_x p) (metric_y p) xs ys i j)%R by (apply Hpos; auto). lra.
Qed.

Lemma predictions_upper psi p chunk x y xs ys s d k :
  (forall a b, 1 <= a <= b -> (psi a <= psi b)%R) ->
  valid_params p -> slow_fit psi (ksg_new p chunk) x y = (s, Ok tt) -> get_predictions s = Ok d ->
  product_space_values (standardize p) x y = Ok (xs, ys) -> In k (neighborhoods p) ->
  no_ties (metric_x p) (metric_y p) xs ys ->
  (forall i j, (i < length xs)%nat -> (j < length xs)%nat -> i <> j -> (0 < dist_xy (metric_x p) (metric_y p) xs ys i j)%R) ->
  exists r, dict_get d k = Some (Fin r) /\ (0 <= r <= psi (zlen x) - psi k)%R /\
    (xs = ys -> metric_x p = metric_y p -> r = (psi (zlen x) - psi k)%R).
Proof.
  intros Hpsi Hv Hfit Hget Hps Hin Hnt Hpos.
  destruct (slow_success psi p chunk x y s Hv Hfit) as (xs' & ys' & Hps' & Hl & Hz & Hk & ->).
  rewrite Hps in Hps'. injection Hps' as <- <-.
  rewrite get_after_update_new in Hget. injection Hget as <-.
  rewrite dict_get_map_keys by now apply nub_in.
  destruct (prediction_upper psi p xs ys k Hpsi Hl (Hk k Hin) Hnt Hpos) as (r & Hr & Hb).
  rewrite <- Hz. exists r. split; [now rewrite Hr|]. split; [assumption|]. intros <- Hm.
  destruct (positive_or_zero psi p xs xs Hl k (Hk k Hin)) as [[q Hq]|(i & Hi & Hzr)].
  - rewrite (prediction_formula psi p xs xs Hl k q (Hk k Hin) Hq) in Hr. injection Hr as <-.
    rewrite formula_identical in *; auto.
    + apply Rmax_right. assert (psi k <= psi (zlen xs))%R by (apply Hpsi; specialize (Hk k Hin); lia). lra.
    + intros i Hi. now apply Hq.
    + intros i Hi. now apply Hq.
  - rewrite (prediction_zero_radius psi p xs xs Hl k i (Hk k Hin) Hi Hzr) in Hr. discriminate.
Qed.

(** The estimate is the mean of the predictions. *)
Lemma list_extremes (l : list R) : l <> [] ->
  exists lo hi, In lo l /\ In hi l /\ Forall (fun v => (lo <= v <= hi)%R) l.
Proof.
  induction l as [|a l IH]; [congruence|]. intros _. destruct l as [|b l].
  - exists a, a. repeat split; simpl; auto. constructor; [lra|constructor].
  - destruct IH as (lo & hi & H1 & H2 & H3); [discriminate|].
    rewrite Forall_forall in H3.
    exists (Rmin a lo), (Rmax a hi). split; [|split].
    + unfold Rmin. destruct (Rle_dec a lo); [now left|now right].
    + unfold Rmax. destruct (Rle_dec a hi); [now right|now left].
    + apply Forall_forall. intros v [<-|Hv].
      * split; [apply Rmin_l|apply Rmax_l].
      * destruct (H3 v Hv). split; [eapply Rle_trans; [apply Rmin_r|]|eapply Rle_trans; [|apply Rmax_r]]; assumption.
Qed.

Lemma estimate_mean F p chunk x y s d (vals : list R) :
  fit_law F p chunk -> valid_params p ->
  F (ksg_new p chunk) x y = (s, Ok tt) -> get_predictions s = Ok d -> dict_values d = map Fin vals ->
  snd (estimate_with F (ksg_new p chunk) x y) = Ok (Fin (rmean vals)) /\
  exists lo hi, In lo vals /\ In hi vals /\ (lo <= rmean vals <= hi)%R.
Proof.
  intros Hlaw Hv Hfit Hget Hvals. rewrite estimate_unfold, Hfit. cbn [fst snd]. rewrite Hget. cbn [bind].
  rewrite Hvals, fl_sum_Fin. cbn [fl_divp]. split.
  - unfold rmean. do 4 f_equal. apply (f_equal (@length _)) in Hvals. unfold dict_values in Hvals.
    now rewrite !map_length in Hvals.
  - assert (Hne : vals <> []).
    { intros ->. destruct d; [|discriminate].
      destruct (Hlaw x y) as [[g Hg]|[e He]]; [|rewrite He in Hfit by reflexivity; discriminate].
      rewrite Hg in Hfit by reflexivity. injection Hfit as <-.
      rewrite get_after_update_new in Hget. injection Hget as E.
      destruct Hv as [Hne _]. destruct (neighborhoods p) as [|k ns] eqn:En; [congruence|].
      assert (In k (nub (k :: ns))) by (apply nub_in; now left).
      apply map_eq_nil in E. rewrite E in H. destruct H. }
    destruct (list_extremes vals Hne) as (lo & hi & H1 & H2 & H3). exists lo, hi. repeat split; auto.
    + apply rmean_lower; auto. eapply Forall_impl; [|exact H3]. simpl; intros; lra.
    + apply rmean_upper; auto. eapply Forall_impl; [|exact H3]. simpl; intros; lra.
Qed.

(** ** A repeated neighborhood *)
Definition dup_x : matrix := [[0]; [1]; [3]]%R.
Definition dup_params (ns : list Z) : ksg_params :=
  {| neighborhoods := ns; standardize := false; metric_x := Manhattan; metric_y := Manhattan |}.

Lemma dup_terms psi : mean_term psi (dup_params [1; 1]) dup_x dup_x 1 = Fin (2 * psi 1%Z).
Proof.
  assert (T : forall a b c : R, (0 < b < c)%R -> (a = 0)%R ->
     forall ps, Permutation [(a, a); (b, b); (c, c)] ps -> term psi ps 1 = Fin (2 * psi 1%Z)).
  { intros a b c Hbc -> ps HP.
    apply (is_term_unique psi ps 1).
    - apply slow_term_is_term. rewrite <- (Permutation_length HP). simpl. lia.
    - apply (is_term_perm psi _ _ _ _ HP).
      exists b. split.
      + unfold maxes. cbn [map fst snd]. rewrite !Rmax_left by lra. split; [simpl; auto|].
        rewrite !count_cons. change (count ?f []) with 0.
        repeat match goal with
        | |- context [Rltb ?u ?v] => destruct (Rltb u v) eqn:?E
        | |- context [Rleb ?u ?v] => destruct (Rleb u v) eqn:?E end;
        repeat match goal with
        | H : Rltb _ _ = true |- _ => apply Rltb_true in H
        | H : Rltb _ _ = false |- _ => apply Rltb_false in H
        | H : Rleb _ _ = true |- _ => apply Rleb_true in H
        | H : Rleb _ _ = false |- _ => apply Rleb_false in H end;
        try (exfalso; lra); simpl; lia.
      + unfold term_at. cbn [map fst snd]. rewrite !count_cons. change (count ?f []) with 0.
        repeat match goal with
        | |- context [Rltb ?u ?v] => destruct (Rltb u v) eqn:?E end;
        repeat match goal with
        | H : Rltb _ _ = true |- _ => apply Rltb_true in H
        | H : Rltb _ _ = false |- _ => apply Rltb_false in H end;
        try (exfalso; lra). cbn. f_equal. lra. }
  unfold mean_term. rewrite terms_map. unfold dup_x. cbn [combine map].
  assert (D : forall a b : R, pair_dist (dup_params [1; 1]) ([a], [a]) ([b], [b]) = (Rabs (a - b), Rabs (a - b))).
  { intros a b. unfold pair_dist. simpl. unfold rsum. simpl. f_equal; lra. }
  rewrite !D.
  replace (Rabs (0 - 0)) with 0%R by (rewrite Rabs_right; lra).
  replace (Rabs (0 - 1)) with 1%R by (rewrite Rabs_left; lra).
  replace (Rabs (0 - 3)) with 3%R by (rewrite Rabs_left; lra).
  replace (Rabs (1 - 0)) with 1%R by (rewrite Rabs_right; lra).
  replace (Rabs (1 - 1)) with 0%R by (rewrite Rabs_right; lra).
  replace (Rabs (1 - 3)) with 2%R by (rewrite Rabs_left; lra).
  replace (Rabs (3 - 0)) with 3%R by (rewrite Rabs_right; lra).
  replace (Rabs (3 - 1)) with 2%R by (rewrite Rabs_right; lra).
  replace (Rabs (3 - 3)) with 0%R by (rewrite Rabs_right; lra).
  rewrite (T 0 1 3)%R; [|lra|lra|reflexivity].
  rewrite (T 0 1 2)%R; [|lra|lra|apply perm_swap].
  rewrite (T 0 2 3)%R; [|lra|lra|].
  - simpl. f_equal. field.
  - eapply perm_trans; [apply perm_skip, perm_swap|]. eapply perm_trans; [apply perm_swap|]. apply perm_skip, perm_swap.
Qed.

Lemma repeated_neighborhood psi argsort chunk :
  valid_argsort argsort -> (psi 1%Z < 0)%R -> (psi 1%Z < psi 3%Z)%R -> 0 < chunk ->
  let s0 := ksg_new (dup_params [1; 1]) chunk in
  snd (slow_fit psi s0 dup_x dup_x) = Ok tt /\ snd (fast_fit psi argsort s0 dup_x dup_x) = Ok tt /\
  get_predictions (fst (slow_fit psi s0 dup_x dup_x)) = Ok [(1, Fin (psi 3%Z - psi 1%Z))] /\
  get_predictions (fst (fast_fit psi argsort s0 dup_x dup_x)) = Ok [(1, Fin (psi 3%Z - 3 * psi 1%Z))].
Proof.
  intros Ha H1 H3 Hc s0.
  assert (Hv : valid_params (params s0)).
  { split; [discriminate|]. simpl. intros k [<-|[<-|[]]]; lia. }
  assert (Hps : product_space_values (standardize (params s0)) dup_x dup_x = Ok (dup_x, dup_x)) by reflexivity.
  assert (Hm : zmax_list (neighborhoods (params s0)) < zlen dup_x) by reflexivity.
  rewrite (slow_fit_spec psi s0 dup_x dup_x dup_x dup_x Hv Hps Hm).
  rewrite (fast_fit_spec psi argsort s0 dup_x dup_x dup_x dup_x Ha Hv Hc Hps Hm). cbn [fst snd].
  split; [reflexivity|]. split; [reflexivity|].
  unfold s0. rewrite !get_after_update_new. cbn [params ksg_new dup_params neighborhoods].
  change (nub [1; 1]) with [1]. cbn [map].
  unfold prediction, prediction_times. change (count_occ Z.eq_dec [1; 1] 1) with 2%nat. cbn [repeat].
  change {| neighborhoods := [1; 1]; standardize := false; metric_x := Manhattan; metric_y := Manhattan |} with (dup_params [1; 1]).
  rewrite dup_terms. change (zlen dup_x) with 3.
  unfold digamma. change (0 <? 1) with true. change (0 <? 3) with true.
  cbn [fl_sum fold_right fl_sub fl_opp fl_add py_max]. unfold py_max, fl_ltb.
  split.
  - destruct (Rlt_dec _ _) as [|n]; [do 4 f_equal; lra|exfalso; lra].
  - destruct (Rlt_dec _ _) as [|n]; [do 4 f_equal; lra|exfalso; lra].
Qed.

Lemma repeated_neighborhood_refuted :
  exists ns x y p, make_params ns false Manhattan None = Ok p /\
  forall psi argsort chunk, valid_argsort argsort -> (psi 1%Z < 0)%R -> (psi 1%Z < psi 3%Z)%R -> 0 < chunk ->
  exists v w, v <> w /\
  get_predictions (fst (slow_fit psi (ksg_new p chunk) x y)) = Ok [(1, Fin v)] /\
  get_predictions (fst (fast_fit psi argsort (ksg_new p chunk) x y)) = Ok [(1, Fin w)].
Proof.
  exists [1; 1], dup_x, dup_x, (dup_params [1; 1]). split; [reflexivity|].
  intros psi argsort chunk Ha H1 H3 Hc.
  destruct (repeated_neighborhood psi argsort chunk Ha H1 H3 Hc) as (_ & _ & E1 & E2).
  do 2 eexists. split; [|split; [exact E1|exact E2]]. intros E. lra.
Qed.

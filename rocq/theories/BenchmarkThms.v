(** Proofs about tasks and runs of estimators ([BenchmarkModel]). *)
From Coq Require Import String.
From Verif Require Import Base UtilsModel JaxModel SamplersModel BaseLemmas UtilsSpec CsvProofs BenchmarkModel BenchmarkSpec
  BenchmarkProofs.
Open Scope Z_scope.
Local Notation length := List.length.

(** ** The heap *)
Lemma dwrite_length h : forall r d, length (dwrite h r d) = length h.
Proof. induction h as [|a h IH]; intros [|r] d; cbn; auto. Qed.
Lemma dread_dwrite_eq h : forall r d, (r < length h)%nat -> dread (dwrite h r d) r = d.
Proof.
  induction h as [|a h IH]; intros [|r] d H; cbn in *; try lia; try reflexivity. apply IH. lia.
Qed.
Lemma dread_dwrite_neq h : forall r r' d, r <> r' -> dread (dwrite h r d) r' = dread h r'.
Proof.
  induction h as [|a h IH]; intros [|r] [|r'] d H; cbn; try reflexivity; try congruence. apply IH. congruence.
Qed.
Lemma dread_app h d r : (r < length h)%nat -> dread (h ++ [d]) r = dread h r.
Proof. intros H. unfold dread. now rewrite app_nth1. Qed.
Lemma dread_new h d : dread (h ++ [d]) (length h) = d.
Proof. unfold dread. rewrite app_nth2, Nat.sub_diag by lia. reflexivity. Qed.
Lemma dupdate_length h r d : length (dupdate h r d) = length h.
Proof. apply dwrite_length. Qed.
Lemma dread_dupdate_eq h r d : (r < length h)%nat -> dread (dupdate h r d) r = sdict_merge (dread h r) d.
Proof. apply dread_dwrite_eq. Qed.
Lemma dread_dupdate_neq h r r' d : r <> r' -> dread (dupdate h r d) r' = dread h r'.
Proof. apply dread_dwrite_neq. Qed.

Lemma or_dict_spec h o h' r : valid_ref h o -> or_dict h o = (h', r) ->
  (length h <= length h')%nat /\ (r < length h')%nat /\ dread h' r = content h o /\
  (forall r', (r' < length h)%nat -> dread h' r' = dread h r') /\
  (o = Some r /\ h' = h \/ r = length h) /\ (content h o <> [] -> o = Some r /\ h' = h).
Proof.
  intros Hv. unfold or_dict. destruct o as [r0|]; cbn [valid_ref content] in *.
  - destruct (dread h r0) as [|kv d] eqn:E.
    + unfold dalloc. intros H. injection H as <- <-. rewrite app_length. cbn. rewrite dread_new.
      repeat split; try lia; auto; try congruence. intros. now apply dread_app.
    + intros H. injection H as <- <-. repeat split; auto.
  - unfold dalloc. intros H. injection H as <- <-. rewrite app_length. cbn. rewrite dread_new.
    repeat split; try lia; auto; try congruence. intros. now apply dread_app.
Qed.

Lemma sdict_get_app {V} (a b : sdict V) k :
  sdict_get (a ++ b) k = match sdict_get a k with Some v => Some v | None => sdict_get b k end.
Proof. induction a as [|[k' v'] a IH]; [reflexivity|]. cbn. destruct (String.eqb k k'); auto. Qed.

Lemma merge_updated d new : updated d new (sdict_merge d new).
Proof.
  intros k. unfold sdict_merge. induction new as [|[k' v] new IH] using rev_ind; [reflexivity|].
  rewrite fold_left_app, rev_app_distr. cbn [fold_left fst snd rev app sdict_get].
  destruct (String.eqb_spec k k') as [->|H].
  - apply sdict_get_set_eq.
  - rewrite sdict_get_set_neq by congruence. exact IH.
Qed.

(** ** Tasks *)
Section Tasks.
  Context {J : prng}.

  Lemma metadata_ok (t : task J) h dx dy mi :
    valid_ref h (t_params t) ->
    dim_x (t_sampler t) = Ok dx -> dim_y (t_sampler t) = Ok dy -> mutual_information (t_sampler t) = Ok mi ->
    fl_ltb mi (Fin 0) = false -> mi <> NaN ->
    exists h' m, metadata t h = (h', Ok m) /\
      md_id m = t_id t /\ md_name m = t_name t /\ md_dim_x m = dx /\ md_dim_y m = dy /\ md_mi m = mi /\
      dread h' (md_params m) = content h (t_params t) /\
      (content h (t_params t) <> [] -> t_params t = Some (md_params m)) /\
      (forall r, (r < length h)%nat -> dread h' r = dread h r) /\
      (md_params m < length h')%nat /\ (length h <= length h')%nat.
  Proof.
    intros Hv Hx Hy Hm Hpos Hnan. unfold metadata, pbind, lift, pret. rewrite Hx, Hy, Hm.
    destruct (or_dict h (t_params t)) as [h1 r] eqn:E.
    destruct (or_dict_spec _ _ _ _ Hv E) as (L & Lr & C & K & D & F).
    assert (N : non_negative_float mi = Ok mi).
    { unfold non_negative_float. destruct mi as [v| | |]; [|reflexivity|discriminate|congruence].
      cbn in Hpos. unfold Rleb. destruct (Rle_dec 0 v); [reflexivity|]. destruct (Rlt_dec v 0); [discriminate|lra]. }
    rewrite N. eexists h1, _. split; [reflexivity|]. cbn. repeat split; auto. intros HC. now apply F.
  Qed.

  Lemma metadata_error (t : task J) h :
    (exists e, dim_x (t_sampler t) = Err e) \/ (exists e, dim_y (t_sampler t) = Err e) \/
    (exists e, mutual_information (t_sampler t) = Err e) \/
    mutual_information (t_sampler t) = Ok NaN \/
    (exists mi, mutual_information (t_sampler t) = Ok mi /\ fl_ltb mi (Fin 0) = true) ->
    exists h' e, metadata t h = (h', Err e).
  Proof.
    intros H. unfold metadata, pbind, lift, pret.
    destruct (dim_x (t_sampler t)) as [dx|e]; [|eauto]. destruct (dim_y (t_sampler t)) as [dy|e]; [|eauto].
    destruct (mutual_information (t_sampler t)) as [mi|e]; [|eauto].
    destruct (or_dict h (t_params t)) as [h1 r].
    assert (N : non_negative_float mi = Err ValidationError).
    { destruct H as [[e H]|[[e H]|[[e H]|[H|[mi' [H H']]]]]]; try discriminate.
      - injection H as ->. reflexivity.
      - injection H as <-. destruct mi as [v| | |]; try discriminate; [|reflexivity].
        cbn in H' |- *. unfold Rleb. destruct (Rlt_dec v 0); [|discriminate]. destruct (Rle_dec 0 v); [lra|reflexivity]. }
    rewrite N. eauto.
  Qed.

  (** Every property is read off the metadata. *)
  Lemma task_properties (t : task J) h h' m : metadata t h = (h', Ok m) ->
    task_id t h = (h', Ok (md_id m)) /\ task_name t h = (h', Ok (md_name m)) /\
    task_params t h = (h', Ok (md_params m)) /\ task_dim_x t h = (h', Ok (md_dim_x m)) /\
    task_dim_y t h = (h', Ok (md_dim_y m)) /\ task_mi t h = (h', Ok (md_mi m)).
  Proof.
    intros H. unfold task_id, task_name, task_params, task_dim_x, task_dim_y, task_mi, pbind, pret. rewrite H. auto 10.
  Qed.

  Lemma metadata_inv (t : task J) h h' m : metadata t h = (h', Ok m) ->
    md_id m = t_id t /\ md_name m = t_name t /\ dim_x (t_sampler t) = Ok (md_dim_x m) /\
    dim_y (t_sampler t) = Ok (md_dim_y m) /\ mutual_information (t_sampler t) = Ok (md_mi m) /\
    (md_mi m = PInf \/ exists v, md_mi m = Fin v /\ (0 <= v)%R).
  Proof.
    unfold metadata, pbind, lift, pret.
    destruct (dim_x (t_sampler t)) as [dx|]; [|discriminate]. destruct (dim_y (t_sampler t)) as [dy|]; [|discriminate].
    destruct (mutual_information (t_sampler t)) as [mi|]; [|discriminate].
    destruct (or_dict h (t_params t)) as [h1 r]. unfold non_negative_float, Rleb.
    destruct mi as [v| | |]; try discriminate.
    - destruct (Rle_dec 0 v); [|discriminate]. intros H. injection H as <- <-. cbn. repeat split; eauto.
    - intros H. injection H as <- <-. cbn. repeat split; eauto.
  Qed.

  (** The samples of a task are those of its sampler, and survive the CSV file. *)
  Lemma task_file_round_trip show parse (good : R -> Prop) (t : task J) n seed xs ys dx dy :
    (forall r, good r -> parse (show r) = Some r) ->
    (forall r, good r -> contains_char comma (show r) = false /\ contains_char newline (show r) = false) ->
    task_sample t n seed = Ok (xs, ys) -> (0 < n)%nat -> length xs = n -> length ys = n ->
    (0 < dx + dy)%nat -> rectangular dx xs -> rectangular dy ys -> all_entries good xs -> all_entries good ys ->
    exists text, task_save_sample show t n seed = Ok text /\ read_sample parse text = Ok (xs, ys) /\
      read_sample_dims text = (dx, dy).
  Proof.
    intros H1 H2 Hs Hn Lx Ly Hd Rx Ry Gx Gy.
    assert (Cx : ncols xs = dx).
    { destruct xs as [|a xs]; [cbn in Lx; lia|]. inversion Rx; subst. reflexivity. }
    assert (Cy : ncols ys = dy).
    { destruct ys as [|a ys]; [cbn in Ly; lia|]. inversion Ry; subst. reflexivity. }
    unfold task_save_sample. rewrite Hs. cbn [bind]. rewrite Cx, Cy.
    destruct (proj2 (save_sample_accepts show (Arr2 dx xs) (Arr2 dy ys))) as [text Ht].
    { do 4 eexists. repeat split. congruence. }
    exists text. split; [exact Ht|]. eapply sample_round_trip; eauto.
  Qed.
End Tasks.

(** ** Runs *)
Section Runs.
  Context (parse : string -> option R) (files : string -> option string) (c : clock).

  Lemma run_effect tick e eid path tid seed info h h' res :
    valid_ref h info ->
    run_estimator parse files c tick e eid path tid seed info h = (h', res) ->
    (length h <= length h')%nat /\
    (forall r, (r < length h)%nat -> info <> Some r -> dread h' r = dread h r) /\
    match res with
    | Ok rr => exists xs ys, read_sample_file parse files path = Ok (xs, ys) /\
        rr_n_samples rr = zlen xs /\ rr_estimator_id rr = eid /\ rr_task_id rr = tid /\ rr_seed rr = seed /\
        (info = Some (rr_info rr) \/ (length h <= rr_info rr)%nat) /\ (rr_info rr < length h')%nat /\
        (content h info <> [] -> info = Some (rr_info rr)) /\
        updated (content h info) (recorded (estimator_call e path xs ys)) (dread h' (rr_info rr)) /\
        match estimator_call e path xs ys with
        | Returned r => rr_success rr = true /\ rr_mi rr = er_mi r /\
            rr_time rr = match er_time r with Some v => v | None => Fin (c (S tick) - c tick)%R end
        | Raised _ _ => rr_success rr = false /\ rr_mi rr = NaN /\ rr_time rr = NaN
        | Escaped _ => False
        end
    | Err ex => read_sample_file parse files path = Err ex \/
        exists xs ys, read_sample_file parse files path = Ok (xs, ys) /\ estimator_call e path xs ys = Escaped ex
    end.
  Proof.
    intros Hv. unfold run_estimator, pbind, lift, pret.
    destruct (or_dict h info) as [h1 i] eqn:E.
    destruct (or_dict_spec _ _ _ _ Hv E) as (L & Li & C & K & D & F).
    assert (D' : info = Some i \/ (length h <= i)%nat) by (destruct D as [[D _]|D]; [auto|right; lia]).
    assert (K' : forall r, (r < length h)%nat -> info <> Some r -> i <> r).
    { intros r Hr Hi ->. destruct D' as [D'|D']; [contradiction|lia]. }
    destruct (read_sample_file parse files path) as [[xs ys]|ex] eqn:Er.
    2:{ intros H. injection H as <- <-. repeat split; auto. }
    change (if external e then estimate_with_info_from_path e path else estimate_with_info e xs ys)
      with (estimator_call e path xs ys).
    destruct (estimator_call e path xs ys) as [r|msg out|ex] eqn:Ec.
    - cbn [timer_check timer_new tm_t0 tm_ticks]. intros H. injection H as <- <-. rewrite dupdate_length.
      split; [assumption|]. split.
      { intros r' Hr' Hi. rewrite dread_dupdate_neq by auto. auto. }
      exists xs, ys. split; [reflexivity|]. cbn. rewrite Ec. repeat split; auto.
      + intros HC. now apply F.
      + rewrite dread_dupdate_eq, C by assumption. apply merge_updated.
    - intros H. destruct out as [o|]; injection H as <- <-.
      + rewrite !dupdate_length. split; [assumption|]. split.
        { intros r' Hr' Hi. rewrite !dread_dupdate_neq by auto. auto. }
        exists xs, ys. split; [reflexivity|]. cbn. rewrite Ec. repeat split; auto.
        * intros HC. now apply F.
        * rewrite dread_dupdate_eq, dread_dupdate_eq, C by (rewrite ?dupdate_length; assumption). intros k.
          rewrite merge_updated, merge_updated. cbn.
          destruct (String.eqb k "subprocess_output"); [reflexivity|]. destruct (String.eqb k "error"); reflexivity.
      + rewrite dupdate_length. split; [assumption|]. split.
        { intros r' Hr' Hi. rewrite !dread_dupdate_neq by auto. auto. }
        exists xs, ys. split; [reflexivity|]. cbn. rewrite Ec. repeat split; auto.
        * intros HC. now apply F.
        * rewrite dread_dupdate_eq, C by assumption. apply merge_updated.
    - intros H. injection H as <- <-. repeat split; eauto 8.
  Qed.

  Lemma run_total tick e eid path tid seed info h xs ys :
    read_sample_file parse files path = Ok (xs, ys) ->
    (forall ex, estimator_call e path xs ys <> Escaped ex) ->
    exists h' rr, run_estimator parse files c tick e eid path tid seed info h = (h', Ok rr).
  Proof.
    intros Hr He. unfold run_estimator, pbind, lift, pret. destruct (or_dict h info) as [h1 i]. rewrite Hr.
    change (if external e then estimate_with_info_from_path e path else estimate_with_info e xs ys)
      with (estimator_call e path xs ys).
    destruct (estimator_call e path xs ys) as [r|msg out|ex] eqn:Ec.
    - cbn [timer_check timer_new tm_t0 tm_ticks]. eauto.
    - eauto.
    - exfalso. eapply He. reflexivity.
  Qed.

  Lemma run_all_frame qs : forall h h' rs, Forall (fun q => valid_ref h (rc_info q)) qs ->
    run_all parse files c qs h = (h', rs) ->
    (length h <= length h')%nat /\
    forall r, (r < length h)%nat -> Forall (fun q => rc_info q <> Some r) qs -> dread h' r = dread h r.
  Proof.
    induction qs as [|q qs IH]; intros h h' rs Hv H.
    - injection H as <- <-. auto.
    - cbn [run_all] in H. destruct (run_one parse files c q h) as [h1 r1] eqn:E1.
      destruct (run_all parse files c qs h1) as [h2 rs'] eqn:E2. injection H as <- <-.
      inversion Hv as [|q' qs' Hq Hqs]; subst.
      destruct (run_effect _ _ _ _ _ _ _ _ _ _ Hq E1) as (L1 & K1 & _).
      assert (Hv1 : Forall (fun q => valid_ref h1 (rc_info q)) qs).
      { eapply Forall_impl; [|exact Hqs]. cbv beta. intros q0 H0. destruct (rc_info q0); cbn in *; [lia|trivial]. }
      destruct (IH _ _ _ Hv1 E2) as (L2 & K2). split; [lia|].
      intros r Hr Hf. inversion Hf; subst. rewrite K2 by (try lia; assumption). now apply K1.
  Qed.

  Lemma not_passed r qs : ~ In r (passed qs) -> Forall (fun q => rc_info q <> Some r) qs.
  Proof.
    induction qs as [|q qs IH]; cbn [passed]; intros H; constructor.
    - intros E. rewrite E in H. apply H. now left.
    - apply IH. destruct (rc_info q); [cbn in H; tauto|assumption].
  Qed.
  Lemma valid_not_passed r h qs : Forall (fun q => valid_ref h (rc_info q)) qs -> (length h <= r)%nat ->
    Forall (fun q => rc_info q <> Some r) qs.
  Proof.
    intros Hv Hr. eapply Forall_impl; [|exact Hv]. cbv beta. intros q Hq E. rewrite E in Hq. cbn in Hq. lia.
  Qed.

  (** Runs which get pairwise different dictionaries (or none) do not disturb each other. *)
  Lemma run_all_independent qs : forall h h' rs, Forall (fun q => valid_ref h (rc_info q)) qs -> NoDup (passed qs) ->
    run_all parse files c qs h = (h', rs) ->
    Forall2 (fun q res => match res with
      | Ok rr => exists xs ys, read_sample_file parse files (rc_path q) = Ok (xs, ys) /\
          updated (content h (rc_info q)) (recorded (estimator_call (rc_estimator q) (rc_path q) xs ys))
                  (dread h' (rr_info rr))
      | Err _ => True end) qs rs.
  Proof.
    induction qs as [|q qs IH]; intros h h' rs Hv Hnd H.
    - injection H as <- <-. constructor.
    - cbn [run_all] in H. destruct (run_one parse files c q h) as [h1 r1] eqn:E1.
      destruct (run_all parse files c qs h1) as [h2 rs'] eqn:E2. injection H as <- <-.
      inversion Hv as [|q' qs' Hq Hqs]; subst.
      destruct (run_effect _ _ _ _ _ _ _ _ _ _ Hq E1) as (L1 & K1 & R1).
      assert (Hv1 : Forall (fun q => valid_ref h1 (rc_info q)) qs).
      { eapply Forall_impl; [|exact Hqs]. cbv beta. intros q0 H0. destruct (rc_info q0); cbn in *; [lia|trivial]. }
      destruct (run_all_frame _ _ _ _ Hv1 E2) as (L2 & K2).
      assert (Hnd' : NoDup (passed qs)).
      { cbn [passed] in Hnd. destruct (rc_info q); [now inversion Hnd|assumption]. }
      constructor.
      + destruct r1 as [rr|]; [|trivial]. destruct R1 as (xs & ys & R & _ & _ & _ & _ & O & Lr & _ & U & _).
        exists xs, ys. split; [assumption|]. rewrite K2; [assumption|assumption|].
        destruct O as [O|O].
        * apply not_passed. cbn [passed] in Hnd. rewrite O in Hnd. now inversion Hnd.
        * apply (valid_not_passed _ h); assumption.
      + specialize (IH _ _ _ Hv1 Hnd' E2).
        assert (Hc : Forall (fun q0 => content h1 (rc_info q0) = content h (rc_info q0)) qs).
        { apply Forall_forall. intros q0 Hin. rewrite Forall_forall in Hqs. specialize (Hqs q0 Hin).
          destruct (rc_info q0) as [r0|] eqn:E0; [|reflexivity]. cbn in Hqs |- *. apply K1; [assumption|].
          intros E. cbn [passed] in Hnd. rewrite E in Hnd. inversion Hnd as [|a l Hni Hnd2]; subst. apply Hni.
          clear -Hin E0. induction qs as [|q1 qs IH]; [destruct Hin|]. cbn [passed]. destruct Hin as [->|Hin].
          - rewrite E0. now left.
          - destruct (rc_info q1); [right|]; auto. }
        clear -IH Hc. induction IH as [|q0 r0 qs rs Hq Hqs IH]; [constructor|].
        inversion Hc as [|a l Hc1 Hc2]; subst. constructor; [|auto]. destruct r0; [|trivial]. now rewrite <- Hc1.
  Qed.
End Runs.

(** ** The forms used in the properties *)
Lemma run_reports parse files c tick e eid path tid seed info h h' rr :
  valid_ref h info ->
  run_estimator parse files c tick e eid path tid seed info h = (h', Ok rr) ->
  exists xs ys, read_sample_file parse files path = Ok (xs, ys) /\
    rr_estimator_id rr = eid /\ rr_task_id rr = tid /\ rr_seed rr = seed /\
    rr_n_samples rr = Z.of_nat (length xs) /\
    match estimator_call e path xs ys with
    | Returned r => rr_success rr = true /\ rr_mi rr = er_mi r /\
        rr_time rr = match er_time r with Some v => v | None => Fin (c (S tick) - c tick)%R end
    | Raised _ _ => rr_success rr = false /\ rr_mi rr = NaN /\ rr_time rr = NaN
    | Escaped _ => False
    end /\
    updated (content h info) (recorded (estimator_call e path xs ys)) (dread h' (rr_info rr)).
Proof.
  intros Hv H. destruct (run_effect _ _ _ _ _ _ _ _ _ _ _ _ _ Hv H) as (_ & _ & xs & ys & R1 & R2 & R3 & R4 & R5 & _ & _ & _ & R6 & R7).
  exists xs, ys. auto 10.
Qed.

Lemma run_success_iff parse files c tick e eid path tid seed info h h' rr xs ys :
  valid_ref h info -> read_sample_file parse files path = Ok (xs, ys) ->
  run_estimator parse files c tick e eid path tid seed info h = (h', Ok rr) ->
  (rr_success rr = true <-> exists r, estimator_call e path xs ys = Returned r).
Proof.
  intros Hv Hr H. destruct (run_reports _ _ _ _ _ _ _ _ _ _ _ _ _ Hv H) as (xs' & ys' & R1 & _ & _ & _ & _ & R & _).
  rewrite Hr in R1. injection R1 as <- <-. destruct (estimator_call e path xs ys) as [r|m o|ex].
  - destruct R as [-> _]. split; eauto.
  - destruct R as [-> _]. split; [discriminate|]. intros [r E]. discriminate.
  - destruct R.
Qed.

Lemma run_error_described parse files c tick e eid path tid seed info h h' rr xs ys message output :
  valid_ref h info -> read_sample_file parse files path = Ok (xs, ys) ->
  estimator_call e path xs ys = Raised message output ->
  run_estimator parse files c tick e eid path tid seed info h = (h', Ok rr) ->
  sdict_get (dread h' (rr_info rr)) "error" = Some (PStr message) /\
  (forall o, output = Some o -> sdict_get (dread h' (rr_info rr)) "subprocess_output" = Some (PStr o)).
Proof.
  intros Hv Hr He H. destruct (run_reports _ _ _ _ _ _ _ _ _ _ _ _ _ Hv H) as (xs' & ys' & R1 & _ & _ & _ & _ & _ & U).
  rewrite Hr in R1. injection R1 as <- <-. rewrite He in U. split.
  - rewrite U. destruct output; reflexivity.
  - intros o ->. rewrite U. reflexivity.
Qed.

Lemma run_raises parse files c tick e eid path tid seed info h h' ex :
  valid_ref h info ->
  run_estimator parse files c tick e eid path tid seed info h = (h', Err ex) ->
  read_sample_file parse files path = Err ex \/
  exists xs ys, read_sample_file parse files path = Ok (xs, ys) /\ estimator_call e path xs ys = Escaped ex.
Proof. intros Hv H. now destruct (run_effect _ _ _ _ _ _ _ _ _ _ _ _ _ Hv H) as (_ & _ & R). Qed.

Lemma run_all_leaves parse files c qs h h' rs :
  Forall (fun q => valid_ref h (rc_info q)) qs -> run_all parse files c qs h = (h', rs) ->
  forall r, (r < length h)%nat -> Forall (fun q => rc_info q <> Some r) qs -> dread h' r = dread h r.
Proof. intros Hv H. now apply (run_all_frame parse files c qs h h' rs). Qed.

Lemma task_sample_sampler {J} (t : task J) n seed : task_sample t n seed = sample (t_sampler t) n (SeedInt seed).
Proof. reflexivity. Qed.

Lemma saved_metadata {J} (t : task J) h h' m : metadata t h = (h', Ok m) ->
  forall doc, snd (save_metadata t h) = Ok doc ->
  exists params mi, depicts (PDict (dread h' (md_params m))) params /\ md_mi m = mi /\
    doc = YMap [("dim_x", YInt (md_dim_x m)); ("dim_y", YInt (md_dim_y m)); ("mi_true", YFloat mi);
                ("task_id", YStr (t_id t)); ("task_name", YStr (t_name t)); ("task_params", params)]%string.
Proof.
  intros H doc. destruct (metadata_inv t h h' m H) as (<- & <- & _).
  unfold save_metadata, pbind, read_dict, lift. rewrite H. cbn [snd].
  unfold dict_dump, metadata_dict. rewrite represent_PDict. cbn [represent_items].
  destruct (represent true false (PDict (dread h' (md_params m)))) as [n|] eqn:E.
  - cbn [represent bind]. intros D. injection D as <-. exists n, (md_mi m). split; [|split; reflexivity].
    eapply represent_sound. exact E.
  - cbn [bind represent]. discriminate.
Qed.

Lemma dict_dump_sound p n : dict_dump p = Ok n -> depicts p n.
Proof. apply represent_sound. Qed.

Lemma check_then_reset c t : exists v, timer_check_and_reset c t = (v, timer_reset c (snd (timer_check c t))) /\
    v = fst (timer_check c t).
Proof. eexists. split; reflexivity. Qed.

Lemma laps_and_gaps c k n : exists laps t,
  timer_run c (repeat TCheckAndReset (S n)) (timer_new c k) = (map Some laps, t) /\ length laps = S n /\
  (rsum laps + rsum (map (fun i => c (S k + 2 * i + 1)%nat - c (S k + 2 * i)%nat) (seq 0 (S n)))
   = c (S k + 2 * n + 1)%nat - c k)%R.
Proof. exact (laps_from c (S n) (timer_new c k)). Qed.

Lemma last_stored_laps n : forall r k, last_stored r k (repeat TCheckAndReset (S n)) = (k + 2 * n + 1)%nat.
Proof.
  induction n as [|n IH]; intros r k; [cbn; lia|].
  change (repeat TCheckAndReset (S (S n))) with (TCheckAndReset :: repeat TCheckAndReset (S n)).
  cbn [last_stored stored readings]. rewrite IH. lia.
Qed.

Lemma rsum_nonneg_map {A} (f : A -> R) l : (forall a, In a l -> (0 <= f a)%R) -> (0 <= rsum (map f l))%R.
Proof.
  induction l as [|a l IH]; intros H; cbn [map rsum fold_right]; [lra|].
  specialize (IH (fun b Hb => H b (or_intror Hb))). specialize (H a (or_introl eq_refl)). unfold rsum in IH. lra.
Qed.

Lemma laps_at_most_total c k n : monotone c -> exists laps t,
  timer_run c (repeat TCheckAndReset (S n)) (timer_new c k) = (map Some laps, t) /\
  (rsum laps <= tm_t0 t - c k)%R.
Proof.
  intros Hc. destruct (laps_and_gaps c k n) as (laps & t & H & _ & E). exists laps, t. split; [exact H|].
  destruct (timer_run_state c (repeat TCheckAndReset (S n)) (timer_new c k) k eq_refl) as [_ E2].
  rewrite H in E2. cbn [snd timer_new tm_ticks] in E2. rewrite last_stored_laps in E2. rewrite E2, <- E.
  assert (0 <= rsum (map (fun i => c (S k + 2 * i + 1)%nat - c (S k + 2 * i)%nat)%R (seq 0 (S n))))%R.
  { apply rsum_nonneg_map. intros i _. specialize (Hc (S k + 2 * i)%nat (S k + 2 * i + 1)%nat ltac:(lia)). lra. }
  lra.
Qed.

(** The file of a run: the fields in alphabetical order. *)
Lemma saved_run h r : run_result_dump h r =
  match dict_dump (PDict (dread h (rr_info r))) with
  | Ok info => Ok (YMap [("additional_information", info); ("estimator_id", YStr (rr_estimator_id r)); ("mi_estimate", YFloat (rr_mi r));
                         ("n_samples", YInt (rr_n_samples r)); ("seed", match rr_seed r with Some s => YInt s | None => YNull end);
                         ("success", YBool (rr_success r)); ("task_id", YStr (rr_task_id r)); ("time_in_seconds", YFloat (rr_time r))]%string)
  | Err e => Err e
  end.
Proof.
  unfold run_result_dump, dict_dump, run_result_dict. rewrite represent_PDict. cbn [represent_items].
  destruct (represent true false (PDict (dread h (rr_info r)))) as [n|]; destruct (rr_seed r); cbn [represent bind py_seed]; reflexivity.
Qed.

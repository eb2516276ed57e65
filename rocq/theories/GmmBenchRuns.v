(** Proofs about the rules of the benchmark of Bayesian mixtures. *)
From Coq Require Import String Ascii Lia.
From Verif Require Import Base BaseLemmas UtilsModel UtilsSpec JaxModel SamplersModel BenchmarkModel BenchmarkSpec BenchmarkProofs BenchmarkThms
  RulesModel RulesSpec RulesProofs RulesThms GmmBenchModel GmmBenchSpec GmmBenchQuantiles.
Open Scope Z_scope.
Local Notation length := List.length.
Local Notation chars := list_ascii_of_string.

Lemma match_joblib e t n s : e <> ""%string -> ~ occurs newline_char e -> t <> ""%string -> ~ occurs newline_char t ->
  ~ occurs "/" t -> 0 <= s ->
  match_path gmm_output (joblib_path e t n s)
  = Some [("estimator_id", e); ("task_id", t); ("n_samples", show_int n); ("seed", show_int s)]%string.
Proof.
  intros He Hen Ht Htn Hts H0. unfold joblib_path.
  pose proof (show_number_like n) as Nn. pose proof (show_number_like s) as Ns. pose proof (show_no_minus s H0) as Hs.
  generalize dependent (show_int n). generalize dependent (show_int s). clear s n H0. intros s Ns Hs n Nn.
  unfold match_path, gmm_output. rewrite chars_app, match_lit, !chars_app.
  set (tail := (chars t ++ chars "/" ++ chars n ++ chars "-" ++ chars s ++ chars ".joblib")%list).
  assert (E : match_chars [Lit "/"; Wild "task_id"; Lit "/"; Wild "n_samples"; Lit "-"; Wild "seed"; Lit ".joblib"] (chars "/" ++ tail)%list
    = Some [("task_id", t); ("n_samples", n); ("seed", s)]%string).
  { rewrite match_lit. apply match_task; auto; not_in. }
  rewrite (wild_longest "estimator_id" _ (chars e) _ _ (fun H => He (chars_nil _ H)) (no_newline _ Hen) E).
  - now rewrite string_chars.
  - intros a2 b2 Ha Eb. destruct a2 as [|c a2]; [easy|]. cbn [list_ascii_of_string app] in Eb. injection Eb as _ Eb.
    cbn [match_chars]. destruct (strip_prefix (chars "/") b2) as [r|] eqn:Er; [|reflexivity].
    apply strip_prefix_some in Er. subst b2.
    apply (match_needs [Wild "task_id"; Lit "/"; Wild "n_samples"; Lit "-"; Wild "seed"; Lit ".joblib"] r "/" "/"%char);
      [right; now left|now left|].
    assert (Hr : r = (chars n ++ chars "-" ++ chars s ++ chars ".joblib")%list).
    { unfold tail in Eb. unfold occurs in Hts. clear - Eb Hts Nn Ns.
      assert (G : forall (u v a q : list ascii), ~ In "/"%char u -> ~ In "/"%char v ->
                 (u ++ chars "/" ++ v = a ++ chars "/" ++ q -> q = v)%list).
      { induction u as [|x u IH]; intros v a q Hu Hv H; cbn in H.
        - destruct a as [|y a]; cbn in H; [congruence|]. injection H as _ H. destruct Hv. rewrite H. apply in_or_app. right. now left.
        - destruct a as [|y a]; cbn in H; [injection H as -> H; destruct Hu; now left|]. injection H as _ H.
          eapply IH; [intros ?; apply Hu; now right|exact Hv|exact H]. }
      eapply G; [exact Hts| |exact Eb]. apply no_slash_numbers; auto. not_in. }
    rewrite Hr. apply no_slash_numbers; auto. not_in.
Qed.

Lemma sample_not_joblib t n s : match_path gmm_output (sample_path t n s) = None.
Proof. reflexivity. Qed.
Lemma joblib_not_sample e t n s : match_path sample_output (joblib_path e t n s) = None.
Proof. reflexivity. Qed.
Lemma fill_joblib e t n s :
  fill gmm_output [("estimator_id", e); ("task_id", t); ("n_samples", show_int n); ("seed", show_int s)]%string = Ok (joblib_path e t n s).
Proof. reflexivity. Qed.
Lemma joblib_path_inj e t n s e' t' n' s' :
  usable_name e -> usable_name t -> ~ occurs "/" t -> 0 <= s -> usable_name e' -> usable_name t' -> ~ occurs "/" t' -> 0 <= s' ->
  joblib_path e t n s = joblib_path e' t' n' s' -> e = e' /\ t = t' /\ n = n' /\ s = s'.
Proof.
  intros He Ht Hs H0 He' Ht' Hs' H0' H. apply (f_equal (match_path gmm_output)) in H.
  rewrite !match_joblib in H by (unfold usable_name in *; tauto). injection H as E1 E2 E3 E4. auto using show_int_inj.
Qed.

Lemma gmm_expand_combinations {J : prng} es (ts : sdict (task J)) ns ss : gmm_expand es ts ns ss
  = map (fun q => match q with (e, t, n, s) => Ok (joblib_path e t n s) end) (combinations (map fst es) (map fst ts) ns ss).
Proof.
  assert (P : forall {A B C} (f : A * B -> C) l l', map f (list_prod l l') = flat_map (fun a => map (fun b => f (a, b)) l') l).
  { intros A B C f l l'. induction l as [|a l IH]; [reflexivity|]. cbn. now rewrite map_app, map_map, IH. }
  assert (F : forall {A B C} (f : A * B -> list C) l l', flat_map f (list_prod l l') = flat_map (fun a => flat_map (fun b => f (a, b)) l') l).
  { intros A B C f l l'. induction l as [|a l IH]; [reflexivity|]. cbn. rewrite flat_map_app, IH. f_equal.
    clear. induction l' as [|b l' IH]; [reflexivity|]. cbn. now rewrite IH. }
  unfold gmm_expand, combinations. rewrite P, F, F. reflexivity.
Qed.

Section Runs.
  Context {J : prng}.
  Variable es : sdict posterior_estimator.
  Variable ts : sdict (task J).
  Variables ns ss : list Z.
  Variable h0 : dheap.
  Variable show : R -> string.
  Variable parse : string -> option R.

  Let smp := sample_task ts show.
  Let app := apply_gmm_estimator es parse.
  Let mk := gmm_make_path es ts show parse.
  Let mk_all := gmm_make_all es ts show parse.

  Definition gtexts_ok (w : gworld) : Prop := forall p text, gtexts w p = Some text ->
    exists wc, match_path sample_output p = Some wc /\ smp wc = Ok text.
  Definition gruns_ok (w : gworld) : Prop := forall p r, sdict_get w p = Some (GRun r) ->
    exists w' wc, gtexts_ok w' /\ match_path gmm_output p = Some wc /\ app w' wc = Ok r.

  Lemma gmake_path_ok w p w' : gtexts_ok w -> gruns_ok w -> mk w p = Ok w' -> gtexts_ok w' /\ gruns_ok w'.
  Proof.
    intros Ht Hd. unfold mk, gmm_make_path. destruct (match_path sample_output p) as [wc|] eqn:E.
    - destruct (sample_task ts show wc) as [text|] eqn:Es; [|discriminate]. cbn [bind]. intros [= <-]. split.
      + intros q u. unfold gtexts. destruct (string_dec p q) as [<-|Hne].
        * rewrite sdict_get_set_eq. intros [= <-]. exists wc. split; [exact E|exact Es].
        * rewrite sdict_get_set_neq by auto. apply Ht.
      + intros q doc. destruct (string_dec p q) as [<-|Hne].
        * rewrite sdict_get_set_eq. discriminate.
        * rewrite sdict_get_set_neq by auto. apply Hd.
    - destruct (match_path gmm_output p) as [wc|] eqn:E2; [|discriminate].
      destruct (apply_gmm_estimator es parse w wc) as [doc|] eqn:Ea; [|discriminate]. cbn [bind]. intros [= <-]. split.
      + intros q u. unfold gtexts. destruct (string_dec p q) as [<-|Hne].
        * rewrite sdict_get_set_eq. discriminate.
        * rewrite sdict_get_set_neq by auto. apply Ht.
      + intros q d. destruct (string_dec p q) as [<-|Hne].
        * rewrite sdict_get_set_eq. intros [= <-]. exists w, wc. auto.
        * rewrite sdict_get_set_neq by auto. apply Hd.
  Qed.

  Lemma gmake_all_ok sched w w' : gtexts_ok w -> gruns_ok w -> mk_all sched w = Ok w' -> gtexts_ok w' /\ gruns_ok w'.
  Proof.
    revert w. induction sched as [|p sched IH]; intros w Ht Hd H; [injection H as <-; auto|].
    unfold mk_all in H. cbn [gmm_make_all] in H. destruct (gmm_make_path es ts show parse w p) as [w1|] eqn:E; [|discriminate].
    cbn [bind] in H. destruct (gmake_path_ok _ _ _ Ht Hd E). eapply IH; eauto.
  Qed.

  Lemma gempty_ok : gtexts_ok [] /\ gruns_ok [].
  Proof. split; intros p d H; discriminate. Qed.

  (** The sample which is read is the one of the task. *)
  Lemma read_back w tid t n s xs ys xy : usable_name tid -> 0 <= s -> sdict_get ts tid = Some t -> sample_ok show parse t n s xs ys ->
    gtexts_ok w -> read_sample_file parse (gtexts w) (sample_path tid n s) = Ok xy -> xy = (xs, ys).
  Proof.
    intros Ht Hs Gt (Hn & Hsm & Lx & Ly & dx & dy & Hd & Rx & Ry & Ax & Ay) Hw Rd.
    unfold read_sample_file in Rd. destruct (gtexts w (sample_path tid n s)) as [text|] eqn:Et; [|discriminate].
    destruct (Hw _ _ Et) as (wc & Hwc & Hsmp). rewrite match_sample in Hwc by (unfold usable_name in *; tauto). injection Hwc as <-.
    unfold smp, sample_task, wildcard, lookup in Hsmp. cbn [sdict_get String.eqb Ascii.eqb Bool.eqb bind] in Hsmp.
    rewrite !read_show in Hsmp. cbn [bind] in Hsmp. rewrite Gt in Hsmp. cbn [bind] in Hsmp.
    destruct (Z.ltb_spec n 0); [lia|].
    destruct (task_file_round_trip show parse (readable show parse) t (Z.to_nat n) s xs ys dx dy) as (text' & T1 & T2 & _); auto;
      try (intros r0 Hr0; unfold readable in Hr0; tauto); try lia.
    rewrite T1 in Hsmp. injection Hsmp as ->. rewrite T2 in Rd. congruence.
  Qed.

  Lemma apply_run w eid e tid t n s xs ys r : usable_name tid -> 0 <= s ->
    sdict_get es eid = Some e -> sdict_get ts tid = Some t -> sample_ok show parse t n s xs ys -> gtexts_ok w ->
    app w [("estimator_id", eid); ("task_id", tid); ("n_samples", show_int n); ("seed", show_int s)]%string = Ok r ->
    exists posterior, e xs ys = Ok posterior /\
      r = {| ri_posterior := posterior; ri_mi := array_mean posterior; ri_task_id := tid; ri_estimator_id := eid; ri_seed := s |}.
  Proof.
    intros Ht Hs Ge Gt Hsm Hw. unfold app, apply_gmm_estimator.
    rewrite (fill_sample _ tid n s) by reflexivity. cbn [bind]. unfold wildcard, lookup. cbn [sdict_get String.eqb Ascii.eqb Bool.eqb bind].
    rewrite Ge. cbn [bind]. rewrite read_show. cbn [bind].
    destruct (read_sample_file parse (gtexts w) (sample_path tid n s)) as [xy|] eqn:Rd; [|discriminate]. cbn [bind].
    rewrite (read_back _ _ _ _ _ _ _ _ Ht Hs Gt Hsm Hw Rd). cbn [fst snd].
    destruct (e xs ys) as [p|] eqn:Ep; [|discriminate]. cbn [bind]. intros [= <-]. eauto.
  Qed.

  Lemma task_row_id (t : task J) h nm h1 : valid_ref h0 (t_params t) -> extends h0 h -> task_id t h = (h1, Ok nm) ->
    nm = t_id t /\ extends h0 h1.
  Proof.
    intros Hv He. unfold task_id, pbind, pret. destruct (metadata t h) as [h' [m|]] eqn:E; [|discriminate]. intros [= <- <-].
    destruct (extends_content _ _ _ Hv He) as [_ Hv']. destruct (metadata_inv _ _ _ _ Hv' E) as (_ & _ & _ & D).
    split; [|eapply extends_trans; eauto]. unfold metadata, pbind, lift, pret in E.
    destruct (dim_x _); [|discriminate]. destruct (dim_y _); [|discriminate]. destruct (mutual_information _); [|discriminate].
    destruct (or_dict h (t_params t)). destruct (non_negative_float _); [|discriminate]. injection E as _ <-. reflexivity.
  Qed.

  Lemma gmm_row_ok w eid e tid t n s xs ys h h' row : usable_name eid -> usable_name tid -> ~ occurs "/" tid -> 0 <= s ->
    sdict_get es eid = Some e -> sdict_get ts tid = Some t -> valid_ref h0 (t_params t) -> sample_ok show parse t n s xs ys ->
    gruns_ok w -> extends h0 h -> gmm_row ts w (joblib_path eid tid n s) h = (h', Ok row) ->
    gmm_row_of h0 eid e t s xs ys row /\ extends h0 h'.
  Proof.
    intros He Ht Hts Hs Ge Gt Hv Hsm Hd Hh. unfold gmm_row.
    destruct (sdict_get w (joblib_path eid tid n s)) as [[text|r]|] eqn:Ew; try discriminate.
    destruct (Hd _ _ Ew) as (w' & wc & Hw' & Hm & Ha).
    rewrite match_joblib in Hm by (unfold usable_name in *; tauto). injection Hm as <-.
    destruct (apply_run w' eid e tid t n s xs ys r Ht Hs Ge Gt Hsm Hw' Ha) as (post & Ep & ->).
    cbn [ri_posterior ri_task_id ri_estimator_id ri_seed]. unfold lookup.
    unfold pbind, lift, pret. rewrite Gt.
    destruct (task_mi t h) as [h1 [mi|]] eqn:E1; [|discriminate]. destruct (task_row _ _ _ _ _ Hv Hh E1) as [Hmi X1].
    destruct (task_id t h1) as [h2 [i|]] eqn:E2; [|discriminate]. destruct (task_row_id _ _ _ _ Hv X1 E2) as [-> X2].
    destruct (task_name t h2) as [h3 [nm|]] eqn:E3; [|discriminate]. destruct (task_row_name _ _ _ _ _ Hv X2 E3) as [-> X3].
    destruct (task_params t h3) as [h4 [q|]] eqn:E4; [|discriminate]. destruct (task_row_params _ _ _ _ _ Hv X3 E4) as [Hp X4].
    unfold read_dict. intros H. assert (X : h' = h4) by congruence. subst h'. split; [|exact X4]. rewrite Hp in H.
    pose proof (summarize_ok post) as Sm. cbn zeta in Sm. set (sm := summarize post) in *. injection H as <-.
    unfold gmm_row_of. cbn [sdict_get String.eqb Ascii.eqb Bool.eqb].
    repeat match goal with |- _ /\ _ => split end; auto; [exists mi; auto|].
    exists post, (s_low sm), (s_mean sm), (s_high sm), (s_filtered sm), (s_used sm). auto 10.
  Qed.

  Lemma gmm_rows_ok sched w h' rows : gmm_config_ok show parse es ts ns ss h0 ->
    mk_all sched [] = Ok w -> gmm_results es ts ns ss w h0 = (h', Ok rows) ->
    Forall2 (fun q row => match q with (eid, tid, n, s) =>
       exists e t xs ys, sdict_get es eid = Some e /\ sdict_get ts tid = Some t /\ sample_ok show parse t n s xs ys /\
         gmm_row_of h0 eid e t s xs ys row end)
      (combinations (map fst es) (map fst ts) ns ss) rows.
  Proof.
    intros (Hes & Hts & Hss & Hsm) Hmk. destruct gempty_ok as [T0 D0]. destruct (gmake_all_ok _ _ _ T0 D0 Hmk) as [_ Hd].
    unfold gmm_results, pbind, lift. rewrite gmm_expand_combinations.
    assert (HQ : Forall (fun q => match q with (eid, tid, n, s) => In eid (map fst es) /\ In tid (map fst ts) /\ In n ns /\ In s ss end)
              (combinations (map fst es) (map fst ts) ns ss)).
    { apply Forall_forall. intros [[[eid tid] n] s] Hq. unfold combinations in Hq. rewrite !in_prod_iff in Hq. tauto. }
    revert HQ. generalize (combinations (map fst es) (map fst ts) ns ss). intros qs HQ.
    destruct (inputs_of _) as [paths|] eqn:Ei; [|discriminate].
    assert (paths = map (fun q => match q with (eid, tid, n, s) => joblib_path eid tid n s end) qs) as ->.
    { apply inputs_inv. rewrite <- Ei, map_map. f_equal. apply map_ext. intros [[[? ?] ?] ?]. reflexivity. }
    clear Ei. intros H. pose proof (extends_refl h0) as Hx. revert H.
    match goal with |- gmm_rows ts w ?l h0 = _ -> _ => remember h0 as h eqn:Eh in Hx at 2 |- * at 1 end.
    clear Eh. revert rows h' h Hx.
    induction HQ as [|[[[eid tid] n] s] qs (I1 & I2 & I3 & I4) _ IH]; intros rows h' h Hx H.
    - cbn in H. unfold pret in H. injection H as _ <-. constructor.
    - cbn [map gmm_rows] in H. unfold pbind, pret in H.
      destruct (in_keys _ _ I1) as (e & Ge). destruct (in_keys _ _ I2) as (t & Gt).
      rewrite Forall_forall in Hes, Hts, Hss. pose proof (Hes _ (in_get _ _ _ Ge)) as Ue. pose proof (Hts _ (in_get _ _ _ Gt)) as (Ut & Us & Uv).
      cbn [fst snd] in Ue, Ut, Us, Uv. destruct (Hsm tid t n s (in_get _ _ _ Gt) I3 I4) as (xs & ys & Hok).
      destruct (gmm_row ts w (joblib_path eid tid n s) h) as [h1 [row|]] eqn:Er; [|discriminate].
      destruct (gmm_row_ok _ _ _ _ _ _ _ _ _ _ _ _ Ue Ut Us (Hss _ I4) Ge Gt Uv Hok Hd Hx Er) as [Hrow Hx1].
      destruct (gmm_rows ts w _ h1) as [h2 [rows2|]] eqn:Err; [|discriminate]. injection H as <- <-.
      constructor; [exists e, t, xs, ys; auto|]. eapply IH; [exact Hx1|exact Err].
  Qed.

  (** ** A run which finishes *)
  Definition gpresent (w : gworld) (p : string) : Prop := sdict_get w p <> None.
  Lemma gmake_path_present w p w' : mk w p = Ok w' -> gpresent w' p /\ forall q, gpresent w q -> gpresent w' q.
  Proof.
    unfold mk, gmm_make_path, gpresent. intros H.
    assert (G : exists f, w' = sdict_set w p f).
    { destruct (match_path sample_output p) as [wc|].
      - destruct (sample_task ts show wc); [|discriminate]. injection H as <-. eauto.
      - destruct (match_path gmm_output p) as [wc|]; [|discriminate].
        destruct (apply_gmm_estimator es parse w wc); [|discriminate]. injection H as <-. eauto. }
    destruct G as (f & ->). split; [rewrite sdict_get_set_eq; discriminate|].
    intros q Hq. destruct (string_dec p q) as [<-|Hne]; [rewrite sdict_get_set_eq; discriminate|].
    now rewrite sdict_get_set_neq by auto.
  Qed.

  Lemma gmake_sample w tid t n s xs ys : usable_name tid -> 0 <= s -> sdict_get ts tid = Some t -> sample_ok show parse t n s xs ys ->
    exists w', mk w (sample_path tid n s) = Ok w'.
  Proof.
    intros Ht Hs Gt (Hn & Hsm & Lx & Ly & dx & dy & Hd & Rx & Ry & Ax & Ay). unfold mk, gmm_make_path.
    rewrite match_sample by (unfold usable_name in *; tauto).
    unfold sample_task, wildcard, lookup. cbn [sdict_get String.eqb Ascii.eqb Bool.eqb bind]. rewrite !read_show. cbn [bind]. rewrite Gt. cbn [bind].
    destruct (Z.ltb_spec n 0); [lia|].
    destruct (task_file_round_trip show parse (readable show parse) t (Z.to_nat n) s xs ys dx dy) as (text' & T1 & T2 & _); auto;
      try (intros r0 Hr0; unfold readable in Hr0; tauto); try lia.
    rewrite T1. cbn [bind]. eauto.
  Qed.

  Lemma gmake_run w eid e tid t n s xs ys : usable_name eid -> usable_name tid -> ~ occurs "/" tid -> 0 <= s ->
    sdict_get es eid = Some e -> sdict_get ts tid = Some t -> sample_ok show parse t n s xs ys ->
    (exists posterior, e xs ys = Ok posterior) ->
    gtexts_ok w -> gruns_ok w -> gpresent w (sample_path tid n s) ->
    exists w', mk w (joblib_path eid tid n s) = Ok w'.
  Proof.
    intros He Ht Hts Hs Ge Gt (Hn & Hsm & Lx & Ly & dx & dy & Hd & Rx & Ry & Ax & Ay) (post & Ep) Hw Hdocs Hp. unfold mk, gmm_make_path.
    rewrite joblib_not_sample, match_joblib by (unfold usable_name in *; tauto).
    assert (R : read_sample_file parse (gtexts w) (sample_path tid n s) = Ok (xs, ys)).
    { unfold gpresent in Hp. destruct (sdict_get w (sample_path tid n s)) as [[text|doc]|] eqn:Ew; [| |congruence].
      2:{ destruct (Hdocs _ _ Ew) as (w1 & wc & _ & Hm & _). rewrite sample_not_joblib in Hm. discriminate. }
      assert (Et : gtexts w (sample_path tid n s) = Some text) by (unfold gtexts; now rewrite Ew).
      unfold read_sample_file. rewrite Et. destruct (Hw _ _ Et) as (wc & Hwc & Hsmp).
      rewrite match_sample in Hwc by (unfold usable_name in *; tauto). injection Hwc as <-.
      unfold smp, sample_task, wildcard, lookup in Hsmp. cbn [sdict_get String.eqb Ascii.eqb Bool.eqb bind] in Hsmp.
      rewrite !read_show in Hsmp. cbn [bind] in Hsmp. rewrite Gt in Hsmp. cbn [bind] in Hsmp.
      destruct (Z.ltb_spec n 0); [lia|].
      destruct (task_file_round_trip show parse (readable show parse) t (Z.to_nat n) s xs ys dx dy) as (text' & T1 & T2 & _); auto;
        try (intros r0 Hr0; unfold readable in Hr0; tauto); try lia.
      rewrite T1 in Hsmp. injection Hsmp as ->. exact T2. }
    unfold apply_gmm_estimator. rewrite (fill_sample _ tid n s) by reflexivity. cbn [bind]. unfold wildcard, lookup.
    cbn [sdict_get String.eqb Ascii.eqb Bool.eqb bind]. rewrite Ge. cbn [bind]. rewrite read_show. cbn [bind].
    rewrite R. cbn [bind fst snd]. rewrite Ep. cbn [bind]. eauto.
  Qed.

  Lemma gcombinations_in : Forall (fun q => match q with (eid, tid, n, s) => In eid (map fst es) /\ In tid (map fst ts) /\ In n ns /\ In s ss end)
    (combinations (map fst es) (map fst ts) ns ss).
  Proof. apply Forall_forall. intros [[[eid tid] n] s] Hq. unfold combinations in Hq. rewrite !in_prod_iff in Hq. tauto. Qed.

  Lemma gschedule_runs : gmm_config_ok show parse es ts ns ss h0 -> posteriors_ok show parse es ts ns ss ->
    exists w, mk_all (gmm_schedule (map fst es) (map fst ts) ns ss) [] = Ok w /\ gtexts_ok w /\ gruns_ok w /\
    Forall (fun q => match q with (eid, tid, n, s) => gpresent w (joblib_path eid tid n s) end) (combinations (map fst es) (map fst ts) ns ss).
  Proof.
    intros (Hes & Hts & Hss & Hsm) Hest. unfold gmm_schedule. rewrite Forall_forall in Hes, Hts, Hss.
    assert (G : forall qs, Forall (fun q => match q with (eid, tid, n, s) => In eid (map fst es) /\ In tid (map fst ts) /\ In n ns /\ In s ss end) qs ->
      forall w, gtexts_ok w -> gruns_ok w -> exists w', mk_all (flat_map (fun q => match q with (eid, tid, n, s) => [sample_path tid n s; joblib_path eid tid n s] end) qs) w = Ok w' /\
        gtexts_ok w' /\ gruns_ok w' /\ (forall p, gpresent w p -> gpresent w' p) /\
        Forall (fun q => match q with (eid, tid, n, s) => gpresent w' (joblib_path eid tid n s) end) qs).
    { induction 1 as [|[[[eid tid] n] s] qs (I1 & I2 & I3 & I4) _ IH]; intros w Ht Hd.
      - exists w. repeat split; auto.
      - destruct (in_keys _ _ I1) as (e & Ge). destruct (in_keys _ _ I2) as (t & Gt).
        pose proof (Hes _ (in_get _ _ _ Ge)) as Ue. pose proof (Hts _ (in_get _ _ _ Gt)) as (Ut & Us & Uv). cbn [fst snd] in Ue, Ut, Us, Uv.
        destruct (Hsm tid t n s (in_get _ _ _ Gt) I3 I4) as (xs & ys & Hok).
        pose proof (Hest eid e tid t n s xs ys (in_get _ _ _ Ge) (in_get _ _ _ Gt) I3 I4 Hok) as Hpost.
        destruct (gmake_sample w tid t n s xs ys Ut (Hss _ I4) Gt Hok) as (w1 & E1).
        destruct (gmake_path_ok _ _ _ Ht Hd E1) as [Ht1 Hd1]. destruct (gmake_path_present _ _ _ E1) as [P1 P1'].
        destruct (gmake_run w1 eid e tid t n s xs ys Ue Ut Us (Hss _ I4) Ge Gt Hok Hpost Ht1 Hd1 P1) as (w2 & E2).
        destruct (gmake_path_ok _ _ _ Ht1 Hd1 E2) as [Ht2 Hd2]. destruct (gmake_path_present _ _ _ E2) as [P2 P2'].
        destruct (IH w2 Ht2 Hd2) as (w3 & E3 & Ht3 & Hd3 & P3 & P3'). exists w3. repeat split; auto.
        unfold mk_all. cbn [flat_map List.app gmm_make_all]. unfold mk in E1, E2. rewrite E1. cbn [bind]. rewrite E2. cbn [bind]. exact E3. }
    destruct gempty_ok as [T0 D0]. destruct (G _ gcombinations_in [] T0 D0) as (w & E & A & B & _ & D). exists w. auto.
  Qed.

  Lemma joblib_path_input eid tid n s : usable_name eid -> usable_name tid -> input_name (joblib_path eid tid n s) = Ok (joblib_path eid tid n s).
  Proof.
    intros (_ & _ & E1 & E2) (_ & _ & T1 & T2). unfold input_name, occurs in *.
    destruct (existsb _ _) eqn:Ex; [|reflexivity]. exfalso. apply existsb_exists in Ex as (c & Hin & Hc).
    assert (Hc' : c = "{"%char \/ c = "}"%char).
    { apply orb_true_iff in Hc as [Hc|Hc]; apply Ascii.eqb_eq in Hc; auto. }
    assert (Nn : forall z, ~ In c (chars (show_int z))).
    { intros z. apply show_no. destruct Hc' as [-> | ->]; not_in. }
    unfold joblib_path in Hin. rewrite !chars_app, !in_app_iff in Hin. pose proof (Nn n) as Nn1. pose proof (Nn s) as Nn2.
    destruct Hin as [H1|[H1|[H1|[H1|[H1|[H1|[H1|[H1|H1]]]]]]]]; try tauto;
      try (destruct Hc' as [-> | ->]; tauto); destruct Hc' as [-> | ->]; revert H1; not_in.
  Qed.

  Lemma gmm_row_total w eid e tid t n s xs ys h : usable_name eid -> usable_name tid -> ~ occurs "/" tid -> 0 <= s ->
    sdict_get es eid = Some e -> sdict_get ts tid = Some t -> valid_ref h0 (t_params t) -> sample_ok show parse t n s xs ys ->
    gtexts_ok w -> gruns_ok w -> extends h0 h -> tasks_described ts -> gpresent w (joblib_path eid tid n s) ->
    exists h' row, gmm_row ts w (joblib_path eid tid n s) h = (h', Ok row) /\ extends h0 h'.
  Proof.
    intros He Ht Hts Hs Ge Gt Hv Hsm Htx Hd Hh Htd Hp. unfold gmm_row, gpresent in *.
    destruct (sdict_get w (joblib_path eid tid n s)) as [[text|r]|] eqn:Ew; [| |congruence].
    { assert (Et : gtexts w (joblib_path eid tid n s) = Some text) by (unfold gtexts; now rewrite Ew).
      destruct (Htx _ _ Et) as (wc & Hm & _). rewrite joblib_not_sample in Hm. discriminate. }
    destruct (Hd _ _ Ew) as (w' & wc & Hw' & Hm & Ha).
    rewrite match_joblib in Hm by (unfold usable_name in *; tauto). injection Hm as <-.
    destruct (apply_run w' eid e tid t n s xs ys r Ht Hs Ge Gt Hsm Hw' Ha) as (post & Ep & ->).
    cbn [ri_posterior ri_task_id ri_estimator_id ri_seed]. unfold lookup.
    unfold pbind, lift, pret. rewrite Gt.
    destruct (Htd tid t (in_get _ _ _ Gt)) as (dx & dy & mi & D1 & D2 & D3 & D4 & D5).
    assert (M : forall h, extends h0 h -> exists h' m, metadata t h = (h', Ok m) /\ extends h0 h').
    { intros g Hg. destruct (extends_content _ _ _ Hv Hg) as [_ Hv'].
      destruct (metadata_ok t g dx dy mi Hv' D1 D2 D3 D4 D5) as (h' & m & E & _ & _ & _ & _ & _ & _ & _ & K & _ & L).
      exists h', m. split; [exact E|]. eapply extends_trans; [exact Hg|]. split; auto. }
    destruct (M h Hh) as (h1 & m1 & E1 & X1). destruct (M h1 X1) as (h2 & m2 & E2 & X2). destruct (M h2 X2) as (h3 & m3 & E3 & X3).
    destruct (M h3 X3) as (h4 & m4 & E4 & X4).
    unfold task_mi, task_id, task_name, task_params, pbind, pret. rewrite E1, E2, E3, E4. unfold read_dict. eauto.
  Qed.

  Lemma gmm_run_completes : gmm_config_ok show parse es ts ns ss h0 -> posteriors_ok show parse es ts ns ss -> tasks_described ts ->
    exists w h' rows, mk_all (gmm_schedule (map fst es) (map fst ts) ns ss) [] = Ok w /\ gmm_results es ts ns ss w h0 = (h', Ok rows).
  Proof.
    intros Hc He Htd. destruct (gschedule_runs Hc He) as (w & Hw & Ht & Hd & Hp). exists w.
    destruct Hc as (Hes & Hts & Hss & Hsm). rewrite Forall_forall in Hes, Hts, Hss.
    unfold gmm_results, pbind, lift. rewrite gmm_expand_combinations.
    pose proof gcombinations_in as HQ. revert HQ Hp. generalize (combinations (map fst es) (map fst ts) ns ss). intros qs HQ Hp.
    assert (Ei : inputs_of (map (fun q => match q with (eid, tid, n, s) => Ok (joblib_path eid tid n s) end) qs)
                 = Ok (map (fun q => match q with (eid, tid, n, s) => joblib_path eid tid n s end) qs)).
    { rewrite <- (inputs_names (map (fun q => match q with (eid, tid, n, s) => joblib_path eid tid n s end) qs)).
      - rewrite map_map. f_equal. apply map_ext. intros [[[? ?] ?] ?]. reflexivity.
      - apply Forall_map. eapply Forall_impl; [|exact HQ]. intros [[[eid tid] n] s] (I1 & I2 & _).
        destruct (in_keys _ _ I1) as (e & Ge). destruct (in_keys _ _ I2) as (t & Gt).
        apply joblib_path_input; [apply (Hes _ (in_get _ _ _ Ge))|apply (Hts _ (in_get _ _ _ Gt))]. }
    rewrite Ei. clear Ei.
    assert (G : forall h, extends h0 h -> exists h' rows,
      gmm_rows ts w (map (fun q => match q with (eid, tid, n, s) => joblib_path eid tid n s end) qs) h = (h', Ok rows)).
    { revert Hp. induction HQ as [|[[[eid tid] n] s] qs (I1 & I2 & I3 & I4) _ IH]; intros Hp h Hh.
      - cbn. unfold pret. eauto.
      - inversion Hp as [|? ? Hp1 Hp2]. subst. cbn [map gmm_rows]. unfold pbind, pret.
        destruct (in_keys _ _ I1) as (e & Ge). destruct (in_keys _ _ I2) as (t & Gt).
        pose proof (Hes _ (in_get _ _ _ Ge)) as Ue. pose proof (Hts _ (in_get _ _ _ Gt)) as (Ut & Us & Uv). cbn [fst snd] in Ue, Ut, Us, Uv.
        destruct (Hsm tid t n s (in_get _ _ _ Gt) I3 I4) as (xs & ys & Hok).
        destruct (gmm_row_total w eid e tid t n s xs ys h Ue Ut Us (Hss _ I4) Ge Gt Uv Hok Ht Hd Hh Htd Hp1) as (h1 & row & -> & Hh1).
        destruct (IH Hp2 h1 Hh1) as (h2 & rows & ->). eauto. }
    destruct (G h0 (extends_refl h0)) as (h' & rows & E). exists h', rows. auto.
  Qed.
End Runs.

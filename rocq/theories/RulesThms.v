(** Proofs about the workflow running the benchmark. *)
From Coq Require Import String Ascii DecimalString Lia.
From Verif Require Import Base BaseLemmas UtilsModel UtilsSpec JaxModel SamplersModel BenchmarkModel BenchmarkSpec BenchmarkProofs BenchmarkThms
  RulesModel RulesSpec RulesProofs.
Open Scope Z_scope.
Local Notation length := List.length.
Local Notation chars := list_ascii_of_string.

Lemma show_no c z : ~ In c (chars "-0123456789") -> ~ In c (chars (show_int z)).
Proof. intros H Hc. now apply show_int_chars in Hc. Qed.
Lemma show_no_minus z : 0 <= z -> ~ In "-"%char (chars (show_int z)).
Proof.
  intros H Hc. apply show_int_chars in Hc as [_ Hc]. specialize (Hc H). cbn in Hc.
  repeat (destruct Hc as [Hc|Hc]; [discriminate|]). exact Hc.
Qed.
Ltac not_in := intros H; cbn in H; repeat (destruct H as [H|H]; [discriminate|]); exact H.

Lemma match_end ps ext a2 b2 : ps = [Lit ext] -> a2 <> [] -> chars ext = (a2 ++ b2)%list -> match_chars ps b2 = None.
Proof.
  intros -> Ha E. cbn [match_chars]. destruct (strip_prefix (chars ext) b2) as [r|] eqn:Es; [|reflexivity].
  apply strip_prefix_some in Es. apply (f_equal (@List.length _)) in E, Es. rewrite app_length in E, Es.
  destruct a2; [easy|cbn in E; lia].
Qed.

Lemma match_numbers ext n (s : string) : ~ In "-"%char (chars ext) -> chars s <> [] -> ~ In "-"%char (chars s) -> ~ In newline_char (chars s) ->
  forall m, chars m <> [] -> ~ In newline_char (chars m) -> m = n ->
  match_chars [Wild "n_samples"; Lit "-"; Wild "seed"; Lit ext] (chars m ++ chars "-" ++ chars s ++ chars ext)%list
  = Some [("n_samples", n); ("seed", s)]%string.
Proof.
  intros Hext Hs Hsm Hsn m Hm Hmn <-.
  assert (E2 : match_chars [Lit "-"; Wild "seed"; Lit ext] (chars "-" ++ chars s ++ chars ext)%list = Some [("seed", s)]%string).
  { rewrite match_lit. rewrite (wild_longest "seed" [Lit ext] (chars s) (chars ext) []); auto.
    - now rewrite string_chars.
    - now apply no_newline.
    - replace (chars ext) with (chars ext ++ [])%list at 1 by apply app_nil_r. rewrite match_lit. reflexivity.
    - intros a2 b2 Ha E. now apply (match_end _ ext a2 b2). }
  rewrite (wild_longest "n_samples" _ (chars m) _ _ Hm (no_newline _ Hmn) E2).
  - now rewrite string_chars.
  - intros a2 b2 Ha E. apply (match_lit_first "-"%char); [reflexivity|]. intros Hin.
    destruct a2 as [|c a2]; [easy|]. cbn [chars app] in E. injection E as _ E.
    assert (Hin' : In "-"%char (chars s ++ chars ext)%list) by (rewrite E; apply in_or_app; now right).
    apply in_app_or in Hin'. tauto.
Qed.

(** The strings in place of the two numbers. *)
Definition number_like (s : string) : Prop := chars s <> [] /\ ~ In newline_char (chars s) /\ ~ In "/"%char (chars s).
Lemma show_number_like z : number_like (show_int z).
Proof. split; [apply show_int_nonempty|]. split; apply show_no; not_in. Qed.

Lemma no_slash_numbers n s ext : number_like n -> number_like s -> ~ In "/"%char (chars ext) ->
  ~ In "/"%char (chars n ++ chars "-" ++ chars s ++ chars ext)%list.
Proof.
  intros (_ & _ & Hn) (_ & _ & Hs) He H. apply in_app_or in H as [H|H]; [tauto|].
  apply in_app_or in H as [H|H]; [revert H; not_in|].
  apply in_app_or in H as [H|H]; tauto.
Qed.

Lemma match_task t n s ext : ~ In "-"%char (chars ext) -> ~ In "/"%char (chars ext) ->
  t <> ""%string -> ~ occurs newline_char t -> number_like n -> number_like s -> ~ In "-"%char (chars s) ->
  match_chars [Wild "task_id"; Lit "/"; Wild "n_samples"; Lit "-"; Wild "seed"; Lit ext]
    (chars t ++ chars "/" ++ chars n ++ chars "-" ++ chars s ++ chars ext)%list
  = Some [("task_id", t); ("n_samples", n); ("seed", s)]%string.
Proof.
  intros He1 He2 Ht Htn Nn Ns Hs.
  assert (E2 : match_chars [Lit "/"; Wild "n_samples"; Lit "-"; Wild "seed"; Lit ext]
     (chars "/" ++ chars n ++ chars "-" ++ chars s ++ chars ext)%list
     = Some [("n_samples", n); ("seed", s)]%string).
  { rewrite match_lit. destruct Nn as (? & ? & ?), Ns as (? & ? & ?). apply match_numbers; auto. }
  rewrite (wild_longest "task_id" _ (chars t) _ _ (fun H => Ht (chars_nil _ H)) (no_newline _ Htn) E2).
  - now rewrite string_chars.
  - intros a2 b2 Ha E. apply (match_lit_first "/"%char); [reflexivity|]. intros Hin.
    destruct a2 as [|c a2]; [easy|]. cbn [chars app] in E. injection E as _ E.
    apply (no_slash_numbers n s ext Nn Ns He2). cbn [chars app]. rewrite E. apply in_or_app. now right.
Qed.

Lemma match_sample_like t n s : t <> ""%string -> ~ occurs newline_char t -> number_like n -> number_like s -> ~ In "-"%char (chars s) ->
  match_path sample_output ("tasks/" ++ t ++ "/" ++ n ++ "-" ++ s ++ ".csv") = Some [("task_id", t); ("n_samples", n); ("seed", s)]%string.
Proof.
  intros Ht Htn Nn Ns Hs. unfold match_path, sample_output. rewrite chars_app, match_lit. rewrite !chars_app.
  apply match_task; auto; not_in.
Qed.

Lemma match_result_like e t n s : e <> ""%string -> ~ occurs newline_char e -> t <> ""%string -> ~ occurs newline_char t ->
  ~ occurs "/" t -> number_like n -> number_like s -> ~ In "-"%char (chars s) ->
  match_path apply_output ("results/" ++ e ++ "/" ++ t ++ "/" ++ n ++ "-" ++ s ++ ".yaml")
  = Some [("estimator_id", e); ("task_id", t); ("n_samples", n); ("seed", s)]%string.
Proof.
  intros He Hen Ht Htn Hts Nn Ns Hs. unfold match_path, apply_output. rewrite chars_app, match_lit, !chars_app.
  set (tail := (chars t ++ chars "/" ++ chars n ++ chars "-" ++ chars s ++ chars ".yaml")%list).
  assert (E : match_chars [Lit "/"; Wild "task_id"; Lit "/"; Wild "n_samples"; Lit "-"; Wild "seed"; Lit ".yaml"] (chars "/" ++ tail)%list
    = Some [("task_id", t); ("n_samples", n); ("seed", s)]%string).
  { rewrite match_lit. apply match_task; auto; not_in. }
  rewrite (wild_longest "estimator_id" _ (chars e) _ _ (fun H => He (chars_nil _ H)) (no_newline _ Hen) E).
  - now rewrite string_chars.
  - intros a2 b2 Ha Eb. destruct a2 as [|c a2]; [easy|]. cbn [chars app] in Eb. injection Eb as _ Eb.
    cbn [match_chars]. destruct (strip_prefix (chars "/") b2) as [r|] eqn:Er; [|reflexivity].
    apply strip_prefix_some in Er. subst b2.
    apply (match_needs [Wild "task_id"; Lit "/"; Wild "n_samples"; Lit "-"; Wild "seed"; Lit ".yaml"] r "/" "/"%char);
      [right; now left|now left|].
    (* the slash before [r] is the one after [t] *)
    assert (Hr : r = (chars n ++ chars "-" ++ chars s ++ chars ".yaml")%list).
    { unfold tail in Eb. unfold occurs in Hts. clear - Eb Hts Nn Ns.
      assert (G : forall (u v a q : list ascii), ~ In "/"%char u -> ~ In "/"%char v ->
                 (u ++ chars "/" ++ v = a ++ chars "/" ++ q -> q = v)%list).
      { induction u as [|x u IH]; intros v a q Hu Hv H; cbn in H.
        - destruct a as [|y a]; cbn in H; [congruence|]. injection H as _ H. destruct Hv. rewrite H. apply in_or_app. right. now left.
        - destruct a as [|y a]; cbn in H; [injection H as -> H; destruct Hu; now left|]. injection H as _ H.
          eapply IH; [intros ?; apply Hu; now right|exact Hv|exact H]. }
      eapply G; [exact Hts| |exact Eb]. apply no_slash_numbers; auto. not_in. }
    rewrite Hr. apply no_slash_numbers; auto. not_in.
Qed.

Lemma match_sample t n s : t <> ""%string -> ~ occurs newline_char t -> 0 <= s ->
  match_path sample_output (sample_path t n s) = Some [("task_id", t); ("n_samples", show_int n); ("seed", show_int s)]%string.
Proof. intros Ht Htn Hs. apply match_sample_like; auto using show_number_like, show_no_minus. Qed.

Lemma match_result e t n s : e <> ""%string -> ~ occurs newline_char e -> t <> ""%string -> ~ occurs newline_char t ->
  ~ occurs "/" t -> 0 <= s ->
  match_path apply_output (result_path e t n s)
  = Some [("estimator_id", e); ("task_id", t); ("n_samples", show_int n); ("seed", show_int s)]%string.
Proof. intros. apply match_result_like; auto using show_number_like, show_no_minus. Qed.

(** A negative seed: its sign goes to the number before it. *)
Lemma show_negative s : s < 0 -> show_int s = ("-" ++ show_int (- s))%string.
Proof. destruct s as [|p|p]; try lia. reflexivity. Qed.
Lemma string_app_assoc (a b c : string) : ((a ++ b) ++ c = a ++ b ++ c)%string.
Proof. induction a as [|x a IH]; [reflexivity|]. cbn. now rewrite IH. Qed.
Lemma minus_number_like n : number_like (show_int n ++ "-").
Proof.
  destruct (show_number_like n) as (A & B & C). unfold number_like. rewrite chars_app. split; [|split].
  - destruct (chars (show_int n)); [easy|discriminate].
  - intros H. apply in_app_or in H as [H|H]; [tauto|revert H; not_in].
  - intros H. apply in_app_or in H as [H|H]; [tauto|revert H; not_in].
Qed.

Lemma match_sample_negative t n s : t <> ""%string -> ~ occurs newline_char t -> s < 0 ->
  match_path sample_output (sample_path t n s) = Some [("task_id", t); ("n_samples", show_int n ++ "-"); ("seed", show_int (- s))]%string.
Proof.
  intros Ht Htn Hs.
  replace (sample_path t n s) with ("tasks/" ++ t ++ "/" ++ (show_int n ++ "-") ++ "-" ++ show_int (- s) ++ ".csv")%string.
  - apply match_sample_like; auto using show_number_like, minus_number_like. apply show_no_minus. lia.
  - unfold sample_path. rewrite (show_negative s Hs). now rewrite !string_app_assoc.
Qed.

Lemma match_result_negative e t n s : e <> ""%string -> ~ occurs newline_char e -> t <> ""%string -> ~ occurs newline_char t ->
  ~ occurs "/" t -> s < 0 ->
  match_path apply_output (result_path e t n s)
  = Some [("estimator_id", e); ("task_id", t); ("n_samples", show_int n ++ "-"); ("seed", show_int (- s))]%string.
Proof.
  intros He Hen Ht Htn Hts Hs.
  replace (result_path e t n s) with ("results/" ++ e ++ "/" ++ t ++ "/" ++ (show_int n ++ "-") ++ "-" ++ show_int (- s) ++ ".yaml")%string.
  - apply match_result_like; auto using show_number_like, minus_number_like. apply show_no_minus. lia.
  - unfold result_path. rewrite (show_negative s Hs). now rewrite !string_app_assoc.
Qed.

Lemma result_path_slash e a b n s : result_path e (a ++ "/" ++ b) n s = result_path (e ++ "/" ++ a) b n s.
Proof. unfold result_path. now rewrite !string_app_assoc. Qed.

Lemma sample_not_result t n s : match_path apply_output (sample_path t n s) = None.
Proof. reflexivity. Qed.
Lemma result_not_sample e t n s : match_path sample_output (result_path e t n s) = None.
Proof. reflexivity. Qed.
Lemma fill_result e t n s :
  fill results_input [("estimator_id", e); ("task_id", t); ("n_samples", show_int n); ("seed", show_int s)]%string = Ok (result_path e t n s).
Proof. unfold result_path. cbn. now rewrite !app_nil_r || reflexivity. Qed.

Lemma fill_sample (wc : wildcards) t n s : sdict_get wc "task_id" = Some t -> sdict_get wc "n_samples" = Some (show_int n) ->
  sdict_get wc "seed" = Some (show_int s) -> fill apply_input wc = Ok (sample_path t n s).
Proof. intros A B C. unfold apply_input, sample_path. cbn [fill]. rewrite A, B, C. reflexivity. Qed.

Lemma expand_combinations {J : prng} es (ts : sdict (task J)) ns ss : expand es ts ns ss
  = map (fun q => match q with (e, t, n, s) => Ok (result_path e t n s) end) (combinations (map fst es) (map fst ts) ns ss).
Proof.
  assert (P : forall {A B C} (f : A * B -> C) l l', map f (list_prod l l') = flat_map (fun a => map (fun b => f (a, b)) l') l).
  { intros A B C f l l'. induction l as [|a l IH]; [reflexivity|]. cbn. now rewrite map_app, map_map, IH. }
  assert (F : forall {A B C} (f : A * B -> list C) l l', flat_map f (list_prod l l') = flat_map (fun a => flat_map (fun b => f (a, b)) l') l).
  { intros A B C f l l'. induction l as [|a l IH]; [reflexivity|]. cbn. rewrite flat_map_app, IH. f_equal.
    clear. induction l' as [|b l' IH]; [reflexivity|]. cbn. now rewrite IH. }
  unfold expand, combinations. rewrite P, F, F. reflexivity.
Qed.

Lemma inputs_names l : Forall (fun p => input_name p = Ok p) l -> inputs_of (map Ok l) = Ok l.
Proof. induction 1 as [|p l H _ IH]; [reflexivity|]. cbn [map inputs_of]. cbn [bind]. rewrite H. cbn [bind]. now rewrite IH. Qed.

Lemma inputs_inv l ps : inputs_of (map Ok l) = Ok ps -> ps = l.
Proof.
  revert ps. induction l as [|p l IH]; intros ps H; [now injection H as <-|]. cbn [map inputs_of bind] in H.
  unfold input_name in H. destruct (existsb _ _); [discriminate|]. cbn [bind] in H.
  destruct (inputs_of (map Ok l)) as [qs|]; [|discriminate]. injection H as <-. now rewrite (IH qs eq_refl).
Qed.

Definition extends (h0 h : dheap) : Prop := (length h0 <= length h)%nat /\ forall r, (r < length h0)%nat -> dread h r = dread h0 r.
Lemma extends_refl h : extends h h.
Proof. split; auto. Qed.
Lemma extends_trans a b c : extends a b -> extends b c -> extends a c.
Proof. intros [A1 A2] [B1 B2]. split; [lia|]. intros r Hr. rewrite B2 by lia. auto. Qed.
Lemma extends_content h0 h o : valid_ref h0 o -> extends h0 h -> content h o = content h0 o /\ valid_ref h o.
Proof. intros Hv [A B]. destruct o; cbn in *; [|auto]. split; [auto|lia]. Qed.

Lemma metadata_inv {J : prng} (t : task J) h h' m : valid_ref h (t_params t) -> metadata t h = (h', Ok m) ->
  mutual_information (t_sampler t) = Ok (md_mi m) /\ md_name m = t_name t /\
  dread h' (md_params m) = content h (t_params t) /\ extends h h'.
Proof.
  intros Hv. unfold metadata, pbind, lift, pret.
  destruct (dim_x _); [|discriminate]. destruct (dim_y _); [|discriminate]. destruct (mutual_information _) as [mi|]; [|discriminate].
  destruct (or_dict h (t_params t)) as [h1 r] eqn:E. destruct (or_dict_spec _ _ _ _ Hv E) as (L & Lr & C & K & D & F).
  assert (N : forall v, non_negative_float mi = Ok v -> v = mi).
  { unfold non_negative_float. destruct mi; try destruct (Rleb _ _); congruence. }
  destruct (non_negative_float mi) as [v|]; [|discriminate]. intros [= <- <-]. cbn. rewrite (N v eq_refl).
  repeat split; auto.
Qed.

Section Runs.
  Context {J : prng}.
  Variable es : sdict estimator.
  Variable ts : sdict (task J).
  Variables ns ss : list Z.
  Variable h0 : dheap.
  Variable show : R -> string.
  Variable parse : string -> option R.
  Variable clock_of : string -> clock.

  Let smp := sample_task ts show.
  Let app := apply_estimator es h0 parse clock_of.
  Let mk := make_path es ts h0 show parse clock_of.
  Let mk_all := make_all es ts h0 show parse clock_of.

  Definition texts_ok (w : world) : Prop := forall p text, texts w p = Some text ->
    exists wc, match_path sample_output p = Some wc /\ smp wc = Ok text.
  Definition docs_ok (w : world) : Prop := forall p doc, sdict_get w p = Some (Doc doc) ->
    exists w' wc, texts_ok w' /\ match_path apply_output p = Some wc /\ app w' p wc = Ok doc.

  Lemma make_path_ok w p w' : texts_ok w -> docs_ok w -> mk w p = Ok w' -> texts_ok w' /\ docs_ok w'.
  Proof.
    intros Ht Hd. unfold mk, make_path. destruct (match_path sample_output p) as [wc|] eqn:E.
    - destruct (sample_task ts show wc) as [text|] eqn:Es; [|discriminate]. cbn [bind]. intros [= <-]. split.
      + intros q u. unfold texts. destruct (string_dec p q) as [<-|Hne].
        * rewrite sdict_get_set_eq. intros [= <-]. exists wc. split; [exact E|exact Es].
        * rewrite sdict_get_set_neq by auto. apply Ht.
      + intros q doc. destruct (string_dec p q) as [<-|Hne].
        * rewrite sdict_get_set_eq. discriminate.
        * rewrite sdict_get_set_neq by auto. apply Hd.
    - destruct (match_path apply_output p) as [wc|] eqn:E2; [|discriminate].
      destruct (apply_estimator es h0 parse clock_of w p wc) as [doc|] eqn:Ea; [|discriminate]. cbn [bind]. intros [= <-]. split.
      + intros q u. unfold texts. destruct (string_dec p q) as [<-|Hne].
        * rewrite sdict_get_set_eq. discriminate.
        * rewrite sdict_get_set_neq by auto. apply Ht.
      + intros q d. destruct (string_dec p q) as [<-|Hne].
        * rewrite sdict_get_set_eq. intros [= <-]. exists w, wc. auto.
        * rewrite sdict_get_set_neq by auto. apply Hd.
  Qed.

  Lemma make_all_ok sched w w' : texts_ok w -> docs_ok w -> mk_all sched w = Ok w' -> texts_ok w' /\ docs_ok w'.
  Proof.
    revert w. induction sched as [|p sched IH]; intros w Ht Hd H; [injection H as <-; auto|].
    unfold mk_all in H. cbn [make_all] in H. destruct (make_path es ts h0 show parse clock_of w p) as [w1|] eqn:E; [|discriminate].
    cbn [bind] in H. destruct (make_path_ok _ _ _ Ht Hd E). eapply IH; eauto.
  Qed.

  Lemma empty_ok : texts_ok [] /\ docs_ok [].
  Proof. split; intros p d H; discriminate. Qed.

  Lemma apply_row w eid e tid t n s xs ys : usable_name eid -> usable_name tid -> ~ occurs "/" tid -> 0 <= s ->
    sdict_get es eid = Some e -> sdict_get ts tid = Some t -> sample_ok show parse t n s xs ys ->
    texts_ok w -> forall doc,
    app w (result_path eid tid n s) [("estimator_id", eid); ("task_id", tid); ("n_samples", show_int n); ("seed", show_int s)]%string = Ok doc ->
    exists rr info idoc, doc = YMap [("additional_information", idoc); ("estimator_id", YStr eid); ("mi_estimate", YFloat (rr_mi rr));
       ("n_samples", YInt n); ("seed", YInt s); ("success", YBool (rr_success rr)); ("task_id", YStr tid); ("time_in_seconds", YFloat (rr_time rr))]%string /\
      match estimator_call e (sample_path tid n s) xs ys with
      | Returned r => rr_success rr = true /\ rr_mi rr = er_mi r /\
          rr_time rr = match er_time r with Some v => v | None => Fin (clock_of (result_path eid tid n s) 1%nat - clock_of (result_path eid tid n s) 0%nat)%R end
      | Raised _ _ => rr_success rr = false /\ rr_mi rr = NaN /\ rr_time rr = NaN
      | Escaped _ => False
      end /\
      updated [] (recorded (estimator_call e (sample_path tid n s) xs ys)) info /\ depicts (PDict info) idoc.
  Proof.
    intros He Ht Hts Hs Ge Gt (Hn & Hsm & Lx & Ly & dx & dy & Hd & Rx & Ry & Ax & Ay) Hw doc. unfold app, apply_estimator.
    rewrite (fill_sample _ tid n s) by reflexivity. cbn [bind]. unfold wildcard, lookup. cbn [sdict_get String.eqb Ascii.eqb Bool.eqb bind].
    rewrite Ge. cbn [bind]. rewrite read_show. cbn [bind].
    destruct (run_estimator _ _ _ _ _ _ _ _ _ _ _) as [h r] eqn:Er. destruct r as [rr|]; [|discriminate]. cbn [bind]. intros Hdoc.
    destruct (run_reports _ _ _ _ _ _ _ _ _ None _ _ _ I Er) as (xs' & ys' & Rd & Re & Rt & Rs & Rn & Rm & Ru).
    assert (Hxy : xs' = xs /\ ys' = ys).
    { unfold read_sample_file in Rd. destruct (texts w (sample_path tid n s)) as [text|] eqn:Et; [|discriminate].
      destruct (Hw _ _ Et) as (wc & Hwc & Hsmp). rewrite match_sample in Hwc by (unfold usable_name in *; tauto). injection Hwc as <-.
      unfold smp, sample_task, wildcard, lookup in Hsmp. cbn [sdict_get String.eqb Ascii.eqb Bool.eqb bind] in Hsmp.
      rewrite !read_show in Hsmp. cbn [bind] in Hsmp. rewrite Gt in Hsmp. cbn [bind] in Hsmp.
      destruct (Z.ltb_spec n 0); [lia|].
      destruct (task_file_round_trip show parse (readable show parse) t (Z.to_nat n) s xs ys dx dy) as (text' & T1 & T2 & _); auto;
        try (intros r0 Hr0; unfold readable in Hr0; tauto); try lia.
      rewrite T1 in Hsmp. injection Hsmp as ->. rewrite T2 in Rd. injection Rd as <- <-. auto. }
    destruct Hxy as [-> ->]. rewrite saved_run in Hdoc.
    destruct (dict_dump (PDict (dread h (rr_info rr)))) as [idoc|] eqn:Ed; [|discriminate]. injection Hdoc as <-.
    exists rr, (dread h (rr_info rr)), idoc. rewrite Re, Rt, Rs, Rn, Lx, Z2Nat.id by lia. repeat split; auto.
    now apply dict_dump_sound.
  Qed.

  Lemma task_row (t : task J) h mi h1 : valid_ref h0 (t_params t) -> extends h0 h -> task_mi t h = (h1, Ok mi) ->
    mutual_information (t_sampler t) = Ok mi /\ extends h0 h1.
  Proof.
    intros Hv He. unfold task_mi, pbind, pret. destruct (metadata t h) as [h' [m|]] eqn:E; [|discriminate]. intros [= <- <-].
    destruct (extends_content _ _ _ Hv He) as [_ Hv']. destruct (metadata_inv _ _ _ _ Hv' E) as (A & _ & _ & D).
    split; [exact A|]. eapply extends_trans; eauto.
  Qed.
  Lemma task_row_name (t : task J) h nm h1 : valid_ref h0 (t_params t) -> extends h0 h -> task_name t h = (h1, Ok nm) ->
    nm = t_name t /\ extends h0 h1.
  Proof.
    intros Hv He. unfold task_name, pbind, pret. destruct (metadata t h) as [h' [m|]] eqn:E; [|discriminate]. intros [= <- <-].
    destruct (extends_content _ _ _ Hv He) as [_ Hv']. destruct (metadata_inv _ _ _ _ Hv' E) as (_ & A & _ & D).
    split; [exact A|]. eapply extends_trans; eauto.
  Qed.
  Lemma task_row_params (t : task J) h r h1 : valid_ref h0 (t_params t) -> extends h0 h -> task_params t h = (h1, Ok r) ->
    dread h1 r = content h0 (t_params t) /\ extends h0 h1.
  Proof.
    intros Hv He. unfold task_params, pbind, pret. destruct (metadata t h) as [h' [m|]] eqn:E; [|discriminate]. intros [= <- <-].
    destruct (extends_content _ _ _ Hv He) as [Hc Hv']. destruct (metadata_inv _ _ _ _ Hv' E) as (_ & _ & A & D).
    split; [now rewrite A|]. eapply extends_trans; eauto.
  Qed.

  Lemma results_row_of w eid e tid t n s xs ys h h' row : usable_name eid -> usable_name tid -> ~ occurs "/" tid -> 0 <= s ->
    sdict_get es eid = Some e -> sdict_get ts tid = Some t -> valid_ref h0 (t_params t) -> sample_ok show parse t n s xs ys ->
    docs_ok w -> extends h0 h -> results_row ts w (result_path eid tid n s) h = (h', Ok row) ->
    row_of h0 (clock_of (result_path eid tid n s)) eid e tid t n s xs ys row /\ extends h0 h'.
  Proof.
    intros He Ht Hts Hs Ge Gt Hv Hsm Hd Hh. unfold results_row.
    destruct (sdict_get w (result_path eid tid n s)) as [[text|doc]|] eqn:Ew; try discriminate.
    destruct (Hd _ _ Ew) as (w' & wc & Hw' & Hm & Ha).
    rewrite match_result in Hm by (unfold usable_name in *; tauto). injection Hm as <-.
    destruct (apply_row w' eid e tid t n s xs ys He Ht Hts Hs Ge Gt Hsm Hw' doc Ha) as (rr & info & idoc & -> & Rm & Ru & Rdep).
    cbn [load_node map]. unfold lookup. cbn [sdict_get String.eqb Ascii.eqb Bool.eqb].
    unfold pbind, lift, pret. rewrite Gt.
    destruct (task_mi t h) as [h1 [mi|]] eqn:E1; [|discriminate]. destruct (task_row _ _ _ _ Hv Hh E1) as [Hmi X1].
    destruct (task_name t h1) as [h2 [nm|]] eqn:E2; [|discriminate]. destruct (task_row_name _ _ _ _ Hv X1 E2) as [-> X2].
    destruct (task_params t h2) as [h3 [r|]] eqn:E3; [|discriminate]. destruct (task_row_params _ _ _ _ Hv X2 E3) as [Hp X3].
    unfold read_dict. intros [= <- <-]. split; [|exact X3]. rewrite Hp. unfold row_of.
    cbn [sdict_set sdict_get String.eqb Ascii.eqb Bool.eqb].
    repeat match goal with |- _ /\ _ => split end; auto.
    - destruct (estimator_call e (sample_path tid n s) xs ys); [destruct Rm as (-> & -> & ->)|destruct Rm as (-> & -> & ->)|contradiction]; auto.
    - exists info, idoc. auto.
    - exists mi. auto.
  Qed.

  Lemma in_keys {V} (d : sdict V) k : In k (map fst d) -> exists v, sdict_get d k = Some v.
  Proof.
    induction d as [|[k' v] d IH]; [intros []|]. cbn [map fst sdict_get]. intros H. destruct (String.eqb_spec k k'); [eauto|].
    destruct H as [H|H]; [congruence|auto].
  Qed.

  Lemma in_get {V} (d : sdict V) k v : sdict_get d k = Some v -> In (k, v) d.
  Proof.
    induction d as [|[k' v'] d IH]; [discriminate|]. cbn [sdict_get]. destruct (String.eqb_spec k k') as [->|].
    - intros [= ->]. now left.
    - intros H. right. auto.
  Qed.

  Lemma results_rows_of sched w h' rows :
    Forall (fun e => usable_name (fst e)) es ->
    Forall (fun t => usable_name (fst t) /\ ~ occurs "/" (fst t) /\ valid_ref h0 (t_params (snd t))) ts ->
    Forall (Z.le 0) ss ->
    (forall tid t n s, In (tid, t) ts -> In n ns -> In s ss -> exists xs ys, sample_ok show parse t n s xs ys) ->
    mk_all sched [] = Ok w -> results es ts ns ss w h0 = (h', Ok rows) ->
    Forall2 (fun q row => match q with (eid, tid, n, s) =>
       exists e t xs ys, sdict_get es eid = Some e /\ sdict_get ts tid = Some t /\ sample_ok show parse t n s xs ys /\
         row_of h0 (clock_of (result_path eid tid n s)) eid e tid t n s xs ys row end)
      (combinations (map fst es) (map fst ts) ns ss) rows.
  Proof.
    intros Hes Hts Hss Hsm Hmk. destruct empty_ok as [T0 D0]. destruct (make_all_ok _ _ _ T0 D0 Hmk) as [_ Hd].
    unfold results, pbind, lift. unfold results_inputs. rewrite expand_combinations.
    assert (HQ : Forall (fun q => match q with (eid, tid, n, s) => In eid (map fst es) /\ In tid (map fst ts) /\ In n ns /\ In s ss end)
              (combinations (map fst es) (map fst ts) ns ss)).
    { apply Forall_forall. intros [[[eid tid] n] s] Hq. unfold combinations in Hq. rewrite !in_prod_iff in Hq. tauto. }
    revert HQ. generalize (combinations (map fst es) (map fst ts) ns ss). intros qs HQ.
    destruct (inputs_of _) as [paths|] eqn:Ei; [|discriminate].
    assert (paths = map (fun q => match q with (eid, tid, n, s) => result_path eid tid n s end) qs) as ->.
    { apply inputs_inv. rewrite <- Ei, map_map. f_equal. apply map_ext. intros [[[? ?] ?] ?]. reflexivity. }
    clear Ei. intros H. pose proof (extends_refl h0) as Hx. revert H.
    match goal with |- results_rows ts w ?l h0 = _ -> _ => remember h0 as h eqn:Eh in Hx at 2 |- * at 1 end.
    clear Eh. revert rows h' h Hx.
    induction HQ as [|[[[eid tid] n] s] qs (I1 & I2 & I3 & I4) _ IH]; intros rows h' h Hx H.
    - cbn in H. unfold pret in H. injection H as _ <-. constructor.
    - cbn [map results_rows] in H. unfold pbind, pret in H.
      destruct (in_keys _ _ I1) as (e & Ge). destruct (in_keys _ _ I2) as (t & Gt).
      rewrite Forall_forall in Hes, Hts, Hss. pose proof (Hes _ (in_get _ _ _ Ge)) as Ue. pose proof (Hts _ (in_get _ _ _ Gt)) as (Ut & Us & Uv).
      cbn in Ue, Ut, Us, Uv. destruct (Hsm tid t n s (in_get _ _ _ Gt) I3 I4) as (xs & ys & Hok).
      destruct (results_row ts w (result_path eid tid n s) h) as [h1 [row|]] eqn:Er; [|discriminate].
      destruct (results_row_of _ _ _ _ _ _ _ _ _ _ _ _ Ue Ut Us (Hss _ I4) Ge Gt Uv Hok Hd Hx Er) as [Hrow Hx1].
      destruct (results_rows ts w _ h1) as [h2 [rows2|]] eqn:Err; [|discriminate]. injection H as <- <-.
      constructor; [exists e, t, xs, ys; auto|]. eapply IH; [exact Hx1|exact Err].
  Qed.

  (** ** A run which finishes *)
  Definition fine (p : py) : bool := known p && unwrapped_once p.
  Lemma fine_set (d : sdict py) k v : Forall (fun kv => fine (snd kv) = true) d -> fine v = true ->
    Forall (fun kv => fine (snd kv) = true) (sdict_set d k v).
  Proof.
    intros Hd Hv. induction Hd as [|[k' v'] d H Hd IH]; cbn [sdict_set]; [repeat constructor; exact Hv|].
    destruct (String.eqb k k'); constructor; auto.
  Qed.
  Lemma fine_merge (b a : sdict py) : Forall (fun kv => fine (snd kv) = true) a -> Forall (fun kv => fine (snd kv) = true) b ->
    Forall (fun kv => fine (snd kv) = true) (sdict_merge a b).
  Proof.
    intros Ha Hb. revert a Ha. induction Hb as [|[k v] b H Hb IH]; intros a Ha; [exact Ha|]. cbn. apply IH. now apply fine_set.
  Qed.
  Lemma fine_dump (d : sdict py) : Forall (fun kv => fine (snd kv) = true) d -> exists n, dict_dump (PDict d) = Ok n.
  Proof.
    intros H. assert (A : known (PDict d) = true /\ unwrapped_once (PDict d) = true).
    { cbn. rewrite !forallb_forall. rewrite Forall_forall in H. split; intros [k v] Hin; specialize (H _ Hin); cbn in H;
        apply andb_true_iff in H; tauto. }
    now apply (dict_dump_succeeds _ (proj2 A)).
  Qed.

  Lemma run_info_fine files c e eid path tid seed xs ys h rr :
    read_sample_file parse files path = Ok (xs, ys) ->
    (forall r, estimator_call e path xs ys = Returned r -> Forall (fun kv => fine (snd kv) = true) (er_info r)) ->
    run_estimator parse files c 0 e eid path tid seed None h0 = (h, Ok rr) ->
    Forall (fun kv => fine (snd kv) = true) (dread h (rr_info rr)).
  Proof.
    intros Hr Hc. unfold run_estimator, pbind, lift, pret. cbn [or_dict dalloc]. rewrite Hr.
    change (if external e then estimate_with_info_from_path e path else estimate_with_info e xs ys)
      with (estimator_call e path xs ys).
    assert (L : (length h0 < length (h0 ++ [[]]))%nat) by (rewrite app_length; cbn; lia).
    destruct (estimator_call e path xs ys) as [r|msg out|ex] eqn:Ec; [..|discriminate].
    - cbn [timer_check timer_new tm_t0 tm_ticks]. intros [= <- <-]. cbn [rr_info].
      rewrite dread_dupdate_eq, dread_new by exact L. apply fine_merge; [constructor|auto].
    - destruct out as [o|]; intros [= <- <-]; cbn [rr_info];
        repeat (rewrite dread_dupdate_eq by (rewrite ?dupdate_length; exact L)); rewrite dread_new;
        repeat apply fine_merge; repeat constructor.
  Qed.

  Definition present (w : world) (p : string) : Prop := sdict_get w p <> None.
  Lemma make_path_present w p w' : mk w p = Ok w' -> present w' p /\ forall q, present w q -> present w' q.
  Proof.
    unfold mk, make_path, present. intros H.
    assert (G : exists f, w' = sdict_set w p f).
    { destruct (match_path sample_output p) as [wc|].
      - destruct (sample_task ts show wc); [|discriminate]. injection H as <-. eauto.
      - destruct (match_path apply_output p) as [wc|]; [|discriminate].
        destruct (apply_estimator es h0 parse clock_of w p wc); [|discriminate]. injection H as <-. eauto. }
    destruct G as (f & ->). split; [rewrite sdict_get_set_eq; discriminate|].
    intros q Hq. destruct (string_dec p q) as [<-|Hne]; [rewrite sdict_get_set_eq; discriminate|].
    now rewrite sdict_get_set_neq by auto.
  Qed.

  Lemma make_sample w tid t n s xs ys : usable_name tid -> 0 <= s -> sdict_get ts tid = Some t -> sample_ok show parse t n s xs ys ->
    exists w', mk w (sample_path tid n s) = Ok w'.
  Proof.
    intros Ht Hs Gt (Hn & Hsm & Lx & Ly & dx & dy & Hd & Rx & Ry & Ax & Ay). unfold mk, make_path.
    rewrite match_sample by (unfold usable_name in *; tauto).
    unfold sample_task, wildcard, lookup. cbn [sdict_get String.eqb Ascii.eqb Bool.eqb bind]. rewrite !read_show. cbn [bind]. rewrite Gt. cbn [bind].
    destruct (Z.ltb_spec n 0); [lia|].
    destruct (task_file_round_trip show parse (readable show parse) t (Z.to_nat n) s xs ys dx dy) as (text' & T1 & T2 & _); auto;
      try (intros r0 Hr0; unfold readable in Hr0; tauto); try lia.
    rewrite T1. cbn [bind]. eauto.
  Qed.

  Lemma make_result w eid e tid t n s xs ys : usable_name eid -> usable_name tid -> ~ occurs "/" tid -> 0 <= s ->
    sdict_get es eid = Some e -> sdict_get ts tid = Some t -> sample_ok show parse t n s xs ys ->
    (forall ex, estimator_call e (sample_path tid n s) xs ys <> Escaped ex) ->
    (forall r, estimator_call e (sample_path tid n s) xs ys = Returned r -> Forall (fun kv => fine (snd kv) = true) (er_info r)) ->
    texts_ok w -> docs_ok w -> present w (sample_path tid n s) ->
    exists w', mk w (result_path eid tid n s) = Ok w'.
  Proof.
    intros He Ht Hts Hs Ge Gt (Hn & Hsm & Lx & Ly & dx & dy & Hd & Rx & Ry & Ax & Ay) Hesc Hinfo Hw Hdocs Hp. unfold mk, make_path.
    rewrite result_not_sample, match_result by (unfold usable_name in *; tauto).
    assert (R : read_sample_file parse (texts w) (sample_path tid n s) = Ok (xs, ys)).
    { unfold present in Hp. destruct (sdict_get w (sample_path tid n s)) as [[text|doc]|] eqn:Ew; [| |congruence].
      2:{ destruct (Hdocs _ _ Ew) as (w1 & wc & _ & Hm & _). rewrite sample_not_result in Hm. discriminate. }
      assert (Et : texts w (sample_path tid n s) = Some text) by (unfold texts; now rewrite Ew).
      unfold read_sample_file. rewrite Et. destruct (Hw _ _ Et) as (wc & Hwc & Hsmp).
      rewrite match_sample in Hwc by (unfold usable_name in *; tauto). injection Hwc as <-.
      unfold smp, sample_task, wildcard, lookup in Hsmp. cbn [sdict_get String.eqb Ascii.eqb Bool.eqb bind] in Hsmp.
      rewrite !read_show in Hsmp. cbn [bind] in Hsmp. rewrite Gt in Hsmp. cbn [bind] in Hsmp.
      destruct (Z.ltb_spec n 0); [lia|].
      destruct (task_file_round_trip show parse (readable show parse) t (Z.to_nat n) s xs ys dx dy) as (text' & T1 & T2 & _); auto;
        try (intros r0 Hr0; unfold readable in Hr0; tauto); try lia.
      rewrite T1 in Hsmp. injection Hsmp as ->. exact T2. }
    unfold apply_estimator. rewrite (fill_sample _ tid n s) by reflexivity. cbn [bind]. unfold wildcard, lookup.
    cbn [sdict_get String.eqb Ascii.eqb Bool.eqb bind]. rewrite Ge. cbn [bind]. rewrite read_show. cbn [bind].
    destruct (run_total parse (texts w) (clock_of (result_path eid tid n s)) 0 e eid (sample_path tid n s) tid (Some s) None h0 xs ys R Hesc)
      as (h & rr & Er).
    rewrite Er. cbn [bind]. pose proof (run_info_fine _ _ _ _ _ _ _ _ _ _ _ R Hinfo Er) as Hf.
    destruct (fine_dump _ Hf) as (idoc & Ed). rewrite saved_run, Ed. cbn [bind]. eauto.
  Qed.

  Local Notation config_ok := (RulesSpec.config_ok show parse es ts ns ss h0).
  Local Notation estimators_ok := (RulesSpec.estimators_ok show parse es ts ns ss).
  Local Notation tasks_described := (RulesSpec.tasks_described ts).
  Local Notation schedule := (RulesSpec.schedule (map fst es) (map fst ts) ns ss).

  Lemma combinations_in : Forall (fun q => match q with (eid, tid, n, s) => In eid (map fst es) /\ In tid (map fst ts) /\ In n ns /\ In s ss end)
    (combinations (map fst es) (map fst ts) ns ss).
  Proof. apply Forall_forall. intros [[[eid tid] n] s] Hq. unfold combinations in Hq. rewrite !in_prod_iff in Hq. tauto. Qed.

  Lemma schedule_runs : config_ok -> estimators_ok -> exists w, mk_all schedule [] = Ok w /\ texts_ok w /\ docs_ok w /\
    Forall (fun q => match q with (eid, tid, n, s) => present w (result_path eid tid n s) end) (combinations (map fst es) (map fst ts) ns ss).
  Proof.
    intros (Hes & Hts & Hss & Hsm) Hest. unfold RulesSpec.schedule. rewrite Forall_forall in Hes, Hts, Hss.
    assert (G : forall qs, Forall (fun q => match q with (eid, tid, n, s) => In eid (map fst es) /\ In tid (map fst ts) /\ In n ns /\ In s ss end) qs ->
      forall w, texts_ok w -> docs_ok w -> exists w', mk_all (flat_map (fun q => match q with (eid, tid, n, s) => [sample_path tid n s; result_path eid tid n s] end) qs) w = Ok w' /\
        texts_ok w' /\ docs_ok w' /\ (forall p, present w p -> present w' p) /\
        Forall (fun q => match q with (eid, tid, n, s) => present w' (result_path eid tid n s) end) qs).
    { induction 1 as [|[[[eid tid] n] s] qs (I1 & I2 & I3 & I4) _ IH]; intros w Ht Hd.
      - exists w. repeat split; auto.
      - destruct (in_keys _ _ I1) as (e & Ge). destruct (in_keys _ _ I2) as (t & Gt).
        pose proof (Hes _ (in_get _ _ _ Ge)) as Ue. pose proof (Hts _ (in_get _ _ _ Gt)) as (Ut & Us & Uv). cbn in Ue, Ut, Us, Uv.
        destruct (Hsm tid t n s (in_get _ _ _ Gt) I3 I4) as (xs & ys & Hok).
        destruct (Hest eid e tid t n s xs ys (in_get _ _ _ Ge) (in_get _ _ _ Gt) I3 I4 Hok) as [Hesc Hinfo].
        destruct (make_sample w tid t n s xs ys Ut (Hss _ I4) Gt Hok) as (w1 & E1).
        destruct (make_path_ok _ _ _ Ht Hd E1) as [Ht1 Hd1]. destruct (make_path_present _ _ _ E1) as [P1 P1'].
        destruct (make_result w1 eid e tid t n s xs ys Ue Ut Us (Hss _ I4) Ge Gt Hok Hesc Hinfo Ht1 Hd1 P1) as (w2 & E2).
        destruct (make_path_ok _ _ _ Ht1 Hd1 E2) as [Ht2 Hd2]. destruct (make_path_present _ _ _ E2) as [P2 P2'].
        destruct (IH w2 Ht2 Hd2) as (w3 & E3 & Ht3 & Hd3 & P3 & P3'). exists w3. repeat split; auto.
        unfold mk_all. cbn [flat_map List.app make_all]. unfold mk in E1, E2. rewrite E1. cbn [bind]. rewrite E2. cbn [bind]. exact E3. }
    destruct empty_ok as [T0 D0]. destruct (G _ combinations_in [] T0 D0) as (w & E & A & B & _ & D). exists w. auto.
  Qed.

  Lemma usable_path_input eid tid n s : usable_name eid -> usable_name tid -> input_name (result_path eid tid n s) = Ok (result_path eid tid n s).
  Proof.
    intros (_ & _ & E1 & E2) (_ & _ & T1 & T2). unfold input_name, occurs in *.
    destruct (existsb _ _) eqn:Ex; [|reflexivity]. exfalso. apply existsb_exists in Ex as (c & Hin & Hc).
    assert (Hc' : c = "{"%char \/ c = "}"%char).
    { apply orb_true_iff in Hc as [Hc|Hc]; apply Ascii.eqb_eq in Hc; auto. }
    assert (Nn : forall z, ~ In c (chars (show_int z))).
    { intros z. apply show_no. destruct Hc' as [-> | ->]; not_in. }
    unfold result_path in Hin. rewrite !chars_app, !in_app_iff in Hin. pose proof (Nn n) as Nn1. pose proof (Nn s) as Nn2.
    destruct Hin as [H1|[H1|[H1|[H1|[H1|[H1|[H1|[H1|H1]]]]]]]]; try tauto;
      try (destruct Hc' as [-> | ->]; tauto); destruct Hc' as [-> | ->]; revert H1; not_in.
  Qed.

  Lemma results_row_total w eid e tid t n s xs ys h : usable_name eid -> usable_name tid -> ~ occurs "/" tid -> 0 <= s ->
    sdict_get es eid = Some e -> sdict_get ts tid = Some t -> valid_ref h0 (t_params t) -> sample_ok show parse t n s xs ys ->
    texts_ok w -> docs_ok w -> extends h0 h -> tasks_described -> present w (result_path eid tid n s) ->
    exists h' row, results_row ts w (result_path eid tid n s) h = (h', Ok row) /\ extends h0 h'.
  Proof.
    intros He Ht Hts Hs Ge Gt Hv Hsm Htx Hd Hh Htd Hp. unfold results_row, present in *.
    destruct (sdict_get w (result_path eid tid n s)) as [[text|doc]|] eqn:Ew; [| |congruence].
    { assert (Et : texts w (result_path eid tid n s) = Some text) by (unfold texts; now rewrite Ew).
      destruct (Htx _ _ Et) as (wc & Hm & _). rewrite result_not_sample in Hm. discriminate. }
    destruct (Hd _ _ Ew) as (w' & wc & Hw' & Hm & Ha).
    rewrite match_result in Hm by (unfold usable_name in *; tauto). injection Hm as <-.
    destruct (apply_row w' eid e tid t n s xs ys He Ht Hts Hs Ge Gt Hsm Hw' doc Ha) as (rr & info & idoc & -> & _).
    cbn [load_node map]. unfold lookup. cbn [sdict_get String.eqb Ascii.eqb Bool.eqb].
    unfold pbind, lift, pret. rewrite Gt.
    destruct (Htd tid t (in_get _ _ _ Gt)) as (dx & dy & mi & D1 & D2 & D3 & D4 & D5).
    assert (M : forall h, extends h0 h -> exists h' m, metadata t h = (h', Ok m) /\ extends h0 h').
    { intros g Hg. destruct (extends_content _ _ _ Hv Hg) as [_ Hv'].
      destruct (metadata_ok t g dx dy mi Hv' D1 D2 D3 D4 D5) as (h' & m & E & _ & _ & _ & _ & _ & _ & _ & K & _ & L).
      exists h', m. split; [exact E|]. eapply extends_trans; [exact Hg|]. split; auto. }
    destruct (M h Hh) as (h1 & m1 & E1 & X1). destruct (M h1 X1) as (h2 & m2 & E2 & X2). destruct (M h2 X2) as (h3 & m3 & E3 & X3).
    unfold task_mi, task_name, task_params, pbind, pret. rewrite E1, E2, E3. unfold read_dict. eauto.
  Qed.

  Lemma run_completes : config_ok -> estimators_ok -> tasks_described ->
    exists w h' rows, mk_all schedule [] = Ok w /\ results es ts ns ss w h0 = (h', Ok rows).
  Proof.
    intros Hc He Htd. destruct (schedule_runs Hc He) as (w & Hw & Ht & Hd & Hp). exists w.
    destruct Hc as (Hes & Hts & Hss & Hsm). rewrite Forall_forall in Hes, Hts, Hss.
    unfold results, pbind, lift, results_inputs. rewrite expand_combinations.
    pose proof combinations_in as HQ. revert HQ Hp. generalize (combinations (map fst es) (map fst ts) ns ss). intros qs HQ Hp.
    assert (Ei : inputs_of (map (fun q => match q with (eid, tid, n, s) => Ok (result_path eid tid n s) end) qs)
                 = Ok (map (fun q => match q with (eid, tid, n, s) => result_path eid tid n s end) qs)).
    { rewrite <- (inputs_names (map (fun q => match q with (eid, tid, n, s) => result_path eid tid n s end) qs)).
      - rewrite map_map. f_equal. apply map_ext. intros [[[? ?] ?] ?]. reflexivity.
      - apply Forall_map. eapply Forall_impl; [|exact HQ]. intros [[[eid tid] n] s] (I1 & I2 & _).
        destruct (in_keys _ _ I1) as (e & Ge). destruct (in_keys _ _ I2) as (t & Gt).
        apply usable_path_input; [apply (Hes _ (in_get _ _ _ Ge))|apply (Hts _ (in_get _ _ _ Gt))]. }
    rewrite Ei. clear Ei.
    assert (G : forall h, extends h0 h -> exists h' rows,
      results_rows ts w (map (fun q => match q with (eid, tid, n, s) => result_path eid tid n s end) qs) h = (h', Ok rows)).
    { revert Hp. induction HQ as [|[[[eid tid] n] s] qs (I1 & I2 & I3 & I4) _ IH]; intros Hp h Hh.
      - cbn. unfold pret. eauto.
      - inversion Hp as [|? ? Hp1 Hp2]. subst. cbn [map results_rows]. unfold pbind, pret.
        destruct (in_keys _ _ I1) as (e & Ge). destruct (in_keys _ _ I2) as (t & Gt).
        pose proof (Hes _ (in_get _ _ _ Ge)) as Ue. pose proof (Hts _ (in_get _ _ _ Gt)) as (Ut & Us & Uv). cbn in Ue, Ut, Us, Uv.
        destruct (Hsm tid t n s (in_get _ _ _ Gt) I3 I4) as (xs & ys & Hok).
        destruct (results_row_total w eid e tid t n s xs ys h Ue Ut Us (Hss _ I4) Ge Gt Uv Hok Ht Hd Hh Htd Hp1) as (h1 & row & -> & Hh1).
        destruct (IH Hp2 h1 Hh1) as (h2 & rows & ->). eauto. }
    destruct (G h0 (extends_refl h0)) as (h' & rows & E). exists h', rows. auto.
  Qed.

  (** ** Runs which cannot finish *)
  Lemma negative_seed_sample w tid n s : usable_name tid -> s < 0 -> mk w (sample_path tid n s) = Err ValueError.
  Proof.
    intros Ht Hs. unfold mk, make_path. rewrite match_sample_negative by (unfold usable_name in *; tauto).
    unfold sample_task, wildcard. cbn [sdict_get String.eqb Ascii.eqb Bool.eqb bind]. now rewrite read_int_trailing_minus.
  Qed.

  Lemma negative_seed_result w eid tid n s : usable_name eid -> usable_name tid -> ~ occurs "/" tid -> s < 0 -> texts_ok w ->
    exists ex, mk w (result_path eid tid n s) = Err ex.
  Proof.
    intros He Ht Hts Hs Hw. unfold mk, make_path. rewrite result_not_sample, match_result_negative by (unfold usable_name in *; tauto).
    unfold apply_estimator.
    assert (F : fill apply_input [("estimator_id", eid); ("task_id", tid); ("n_samples", show_int n ++ "-"); ("seed", show_int (- s))]%string
                = Ok (sample_path tid n s)).
    { unfold sample_path. rewrite (show_negative s Hs). cbn. now rewrite !string_app_assoc. }
    rewrite F. cbn [bind]. unfold wildcard, lookup. cbn [sdict_get String.eqb Ascii.eqb Bool.eqb bind].
    destruct (sdict_get es eid) as [e|]; [|cbn; eauto]. cbn [bind]. rewrite read_show. cbn [bind].
    assert (T : texts w (sample_path tid n s) = None).
    { destruct (texts w (sample_path tid n s)) as [text|] eqn:E; [|reflexivity]. destruct (Hw _ _ E) as (wc & Hm & Hsmp).
      rewrite match_sample_negative in Hm by (unfold usable_name in *; tauto). injection Hm as <-.
      unfold smp, sample_task, wildcard in Hsmp. cbn [sdict_get String.eqb Ascii.eqb Bool.eqb bind] in Hsmp.
      rewrite read_int_trailing_minus in Hsmp. discriminate. }
    unfold run_estimator, pbind, lift. cbn [or_dict dalloc]. unfold read_sample_file. rewrite T. cbn. eauto.
  Qed.

  Lemma negative_seed_never sched w eid tid n s :
    Forall (fun e => usable_name (fst e)) es -> Forall (fun t => usable_name (fst t) /\ ~ occurs "/" (fst t)) ts ->
    In eid (map fst es) -> In tid (map fst ts) -> In n ns -> In s ss -> s < 0 ->
    mk_all sched [] = Ok w -> exists h' ex, results es ts ns ss w h0 = (h', Err ex).
  Proof.
    intros Hes Hts I1 I2 I3 I4 Hneg Hmk. rewrite Forall_forall in Hes, Hts.
    destruct (in_keys _ _ I1) as (e & Ge). destruct (in_keys _ _ I2) as (t & Gt).
    pose proof (Hes _ (in_get _ _ _ Ge)) as Ue. pose proof (Hts _ (in_get _ _ _ Gt)) as (Ut & Us). cbn in Ue, Ut, Us.
    (* the file of that run is never there *)
    assert (G : forall sched w w', texts_ok w -> docs_ok w -> sdict_get w (result_path eid tid n s) = None -> mk_all sched w = Ok w' ->
              sdict_get w' (result_path eid tid n s) = None).
    { clear w Hmk. induction sched0 as [|p sched0 IH]; intros w w' Ht Hd Hnone H; [injection H as <-; exact Hnone|].
      unfold mk_all in H. cbn [make_all] in H. destruct (make_path es ts h0 show parse clock_of w p) as [w1|] eqn:E; [|discriminate].
      cbn [bind] in H. destruct (make_path_ok _ _ _ Ht Hd E) as [Ht1 Hd1]. eapply IH; [exact Ht1|exact Hd1| |exact H].
      destruct (string_dec p (result_path eid tid n s)) as [->|Hne].
      - destruct (negative_seed_result w eid tid n s Ue Ut Us Hneg Ht) as (ex & Hex). unfold mk in Hex. congruence.
      - unfold make_path in E. destruct (match_path sample_output p) as [wc|].
        + destruct (sample_task ts show wc); [|discriminate]. injection E as <-. now rewrite sdict_get_set_neq by auto.
        + destruct (match_path apply_output p) as [wc|]; [|discriminate].
          destruct (apply_estimator es h0 parse clock_of w p wc); [|discriminate]. injection E as <-. now rewrite sdict_get_set_neq by auto. }
    destruct empty_ok as [T0 D0]. specialize (G sched [] w T0 D0 eq_refl Hmk).
    unfold results, pbind, lift. destruct (results_inputs es ts ns ss) as [paths|ex] eqn:Ei; [|eauto].
    assert (Hin : In (result_path eid tid n s) paths).
    { unfold results_inputs in Ei. rewrite expand_combinations in Ei.
      assert (paths = map (fun q => match q with (eid, tid, n, s) => result_path eid tid n s end) (combinations (map fst es) (map fst ts) ns ss)) as ->.
      { apply inputs_inv. rewrite <- Ei, map_map. f_equal. apply map_ext. intros [[[? ?] ?] ?]. reflexivity. }
      apply in_map_iff. exists (eid, tid, n, s). split; [reflexivity|]. unfold combinations. rewrite !in_prod_iff. auto. }
    clear Ei. generalize h0. induction paths as [|p paths IH]; [destruct Hin|]. intros h. cbn [results_rows]. unfold pbind, pret.
    destruct (string_dec p (result_path eid tid n s)) as [->|Hne].
    - unfold results_row. rewrite G. unfold lift. eauto.
    - destruct Hin as [Hin|Hin]; [congruence|]. destruct (results_row ts w p h) as [h1 [row|ex]]; [|eauto].
      destruct (IH Hin h1) as (h2 & ex & ->). eauto.
  Qed.

  Lemma slash_in_task w eid a b n s : usable_name eid -> usable_name a -> usable_name b -> ~ occurs "/" b -> 0 <= s ->
    sdict_get es (eid ++ "/" ++ a) = None ->
    mk w (result_path eid (a ++ "/" ++ b) n s) = Err KeyError.
  Proof.
    intros He Ha Hb Hs Hs0 G. rewrite result_path_slash. unfold mk, make_path.
    rewrite result_not_sample, match_result; try (unfold usable_name in *; tauto).
    - unfold apply_estimator. rewrite (fill_sample _ b n s) by reflexivity. cbn [bind]. unfold wildcard, lookup.
      cbn [sdict_get String.eqb Ascii.eqb Bool.eqb bind]. now rewrite G.
    - destruct He as (H & _). destruct eid; [easy|discriminate].
    - unfold occurs, usable_name in *. rewrite !chars_app, !in_app_iff. intros [H|[H|H]]; try tauto. revert H. not_in.
  Qed.
End Runs.

Lemma show_int_inj a b : show_int a = show_int b -> a = b.
Proof. intros H. apply (f_equal read_int) in H. rewrite !read_show in H. now injection H. Qed.

Lemma result_path_inj e t n s e' t' n' s' :
  usable_name e -> usable_name t -> ~ occurs "/" t -> 0 <= s -> usable_name e' -> usable_name t' -> ~ occurs "/" t' -> 0 <= s' ->
  result_path e t n s = result_path e' t' n' s' -> e = e' /\ t = t' /\ n = n' /\ s = s'.
Proof.
  intros He Ht Hs H0 He' Ht' Hs' H0' H. apply (f_equal (match_path apply_output)) in H.
  rewrite !match_result in H by (unfold usable_name in *; tauto). injection H as E1 E2 E3 E4. auto using show_int_inj.
Qed.

Lemma sample_path_inj t n s t' n' s' : usable_name t -> 0 <= s -> usable_name t' -> 0 <= s' ->
  sample_path t n s = sample_path t' n' s' -> t = t' /\ n = n' /\ s = s'.
Proof.
  intros Ht H0 Ht' H0' H. apply (f_equal (match_path sample_output)) in H.
  rewrite !match_sample in H by (unfold usable_name in *; tauto). injection H as E2 E3 E4. auto using show_int_inj.
Qed.

Lemma run_rows J (es : sdict estimator) (ts : sdict (task J)) ns ss h0 show parse clock_of sched w h' rows :
  config_ok show parse es ts ns ss h0 ->
  make_all es ts h0 show parse clock_of sched [] = Ok w -> results es ts ns ss w h0 = (h', Ok rows) ->
  Forall2 (fun q row => match q with (eid, tid, n, s) =>
     exists e t xs ys, sdict_get es eid = Some e /\ sdict_get ts tid = Some t /\ sample_ok show parse t n s xs ys /\
       row_of h0 (clock_of (result_path eid tid n s)) eid e tid t n s xs ys row end)
    (combinations (map fst es) (map fst ts) ns ss) rows.
Proof. intros (A & B & C & D). now apply results_rows_of. Qed.

Lemma wrong_split_refuted :
  ~ (forall e t n s, usable_name e -> usable_name t -> 0 <= s ->
     match_path apply_output (result_path e t n s)
     = Some [("estimator_id", e); ("task_id", t); ("n_samples", show_int n); ("seed", show_int s)]%string) /\
  ~ (forall t n s, usable_name t ->
     match_path sample_output (sample_path t n s) = Some [("task_id", t); ("n_samples", show_int n); ("seed", show_int s)]%string).
Proof.
  assert (U : forall x, x = "KSG"%string \/ x = "a/b"%string -> usable_name x).
  { intros x Hx. unfold usable_name, occurs. destruct Hx as [-> | ->]; (split; [discriminate|]); repeat split; cbn; intuition discriminate. }
  split; intros H.
  - specialize (H "KSG" "a/b" 10 1)%string. cbv in H. specialize (H (U _ (or_introl eq_refl)) (U _ (or_intror eq_refl)) ltac:(discriminate)). discriminate.
  - specialize (H "KSG" 10 (-1))%string. cbv in H. specialize (H (U _ (or_introl eq_refl))). discriminate.
Qed.

(** Filling a pattern needs a value for each of its wildcards. *)
Lemma fill_needs ps (wc : wildcards) : (exists p, fill ps wc = Ok p) <-> forall n, In n (names ps) -> sdict_get wc n <> None.
Proof.
  split.
  - induction ps as [|[l|n] ps IH]; intros [p H] k I; cbn [fill names flat_map app] in *; [contradiction| |].
    + destruct (fill ps wc) as [r|] eqn:E; [|discriminate]. apply IH; eauto.
    + destruct (sdict_get wc n) as [v|] eqn:G; [|discriminate]. destruct (fill ps wc) as [r|] eqn:E; [|discriminate].
      destruct I as [<-|I]; [congruence|]. apply IH; eauto.
  - induction ps as [|[l|n] ps IH]; intros H; cbn [fill]; [eauto| |].
    + destruct IH as [r ->]; [exact H|]. cbn. eauto.
    + destruct (sdict_get wc n) as [v|] eqn:G; [|elim (H n); [left; reflexivity|exact G]].
      destruct IH as [r ->]; [intros k I; apply H; right; exact I|]. cbn. eauto.
Qed.

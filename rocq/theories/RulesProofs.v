(** Proofs about wildcards and decimal notation. *)
From Coq Require Import String Ascii DecimalString DecimalZ DecimalFacts Lia.
From Verif Require Import Base BaseLemmas UtilsModel UtilsSpec JaxModel SamplersModel BenchmarkModel BenchmarkSpec RulesModel RulesSpec.
Open Scope Z_scope.
Local Notation length := List.length.
Local Notation chars := list_ascii_of_string.

Lemma chars_app a b : chars (a ++ b)%string = (chars a ++ chars b)%list.
Proof. induction a as [|c a IH]; [reflexivity|]. cbn. now rewrite IH. Qed.
Lemma chars_nil a : chars a = [] -> a = ""%string.
Proof. now destruct a. Qed.
Lemma string_chars a : string_of_list_ascii (chars a) = a.
Proof. apply string_of_list_ascii_of_string. Qed.

(** ** Wildcards *)
Fixpoint longest (ps : list part) (s : list ascii) (n : string) (k : nat) : option wildcards :=
  match k with
  | O => None
  | S k' =>
      if existsb (Ascii.eqb newline_char) (firstn k s) then longest ps s n k'
      else match match_chars ps (skipn k s) with
           | Some m => Some ((n, string_of_list_ascii (firstn k s)) :: m)
           | None => longest ps s n k'
           end
  end.
Lemma match_wild n ps s : match_chars (Wild n :: ps) s = longest ps s n (length s).
Proof. cbn [match_chars]. generalize (length s). intros k. induction k as [|k IH]; [reflexivity|]. cbn [longest]. now rewrite IH. Qed.

Lemma wild_longest n ps a b m : a <> [] -> existsb (Ascii.eqb newline_char) a = false -> match_chars ps b = Some m ->
  (forall a2 b2, a2 <> [] -> b = (a2 ++ b2)%list -> match_chars ps b2 = None) ->
  match_chars (Wild n :: ps) (a ++ b)%list = Some ((n, string_of_list_ascii a) :: m).
Proof.
  intros Ha Hn Hm Hno. rewrite match_wild, app_length.
  assert (G : forall j, (j <= length b)%nat -> longest ps (a ++ b)%list n (length a + j) = Some ((n, string_of_list_ascii a) :: m)).
  { induction j as [|j IH]; intros Hj.
    - rewrite Nat.add_0_r. destruct (length a) as [|k] eqn:El; [destruct a; [easy|discriminate]|]. cbn [longest].
      rewrite <- El. rewrite firstn_app, Nat.sub_diag, firstn_all, firstn_O, app_nil_r, Hn.
      rewrite skipn_app, Nat.sub_diag, skipn_all. cbn [skipn app]. now rewrite Hm.
    - rewrite Nat.add_succ_r. cbn [longest].
      match goal with |- context [if existsb ?f ?l then _ else _] => destruct (existsb f l) end; [apply IH; lia|].
      assert (E : skipn (S (length a + j)) (a ++ b) = skipn (S j) b).
      { rewrite skipn_app. rewrite skipn_all2 by lia. cbn [app]. f_equal. lia. }
      rewrite E, (Hno (firstn (S j) b)); [apply IH; lia| |now rewrite firstn_skipn].
      destruct b; [cbn in Hj; lia|discriminate]. }
  apply G. reflexivity.
Qed.

Lemma longest_some ps s n k m : longest ps s n k = Some m ->
  exists j m', (0 < j <= k)%nat /\ match_chars ps (skipn j s) = Some m' /\ existsb (Ascii.eqb newline_char) (firstn j s) = false /\
    m = (n, string_of_list_ascii (firstn j s)) :: m'.
Proof.
  induction k as [|k IH]; [discriminate|]. cbn [longest]. intros H.
  destruct (existsb _ (firstn (S k) s)) eqn:En.
  - destruct (IH H) as (j & m' & ? & H2). exists j, m'. split; [lia|exact H2].
  - destruct (match_chars ps (skipn (S k) s)) as [m'|] eqn:Em.
    + injection H as <-. exists (S k), m'. repeat split; auto; lia.
    + destruct (IH H) as (j & m' & ? & H2). exists j, m'. split; [lia|exact H2].
Qed.

Lemma strip_prefix_some l s r : strip_prefix l s = Some r <-> s = (l ++ r)%list.
Proof.
  revert s. induction l as [|a l IH]; intros s; cbn.
  - split; congruence.
  - destruct s as [|b s]; [split; discriminate|]. destruct (Ascii.eqb_spec a b) as [<-|Hne].
    + rewrite IH. split; congruence.
    + split; [discriminate|]. congruence.
Qed.

(** A match gives back the path, and every literal part occurs in it. *)
Lemma match_chars_sound ps s m : match_chars ps s = Some m ->
  map fst m = names ps /\ (NoDup (names ps) -> fill ps m = Ok (string_of_list_ascii s)) /\
  Forall (fun kv => snd kv <> ""%string) m /\
  forall l c, In (Lit l) ps -> In c (chars l) -> In c s.
Proof.
  revert s m. induction ps as [|[l|n] ps IH]; intros s m H.
  - cbn in H. destruct s; [|discriminate]. injection H as <-. repeat split; auto; try (intros ? ? []).
  - cbn [match_chars] in H. destruct (strip_prefix (chars l) s) as [r|] eqn:E; [|discriminate].
    apply strip_prefix_some in E. subst s. destruct (IH _ _ H) as (H1 & H2 & H3 & H4). repeat split; auto.
    + intros Hnd. cbn [fill]. rewrite (H2 Hnd). cbn [bind]. f_equal.
      rewrite <- (string_chars (l ++ _)%string). f_equal. rewrite chars_app, list_ascii_of_string_of_list_ascii. reflexivity.
    + intros l' c [[= ->]|Hin] Hc; apply in_or_app; eauto.
  - rewrite match_wild in H. apply longest_some in H as (j & m' & Hj & H & _ & ->).
    destruct (IH _ _ H) as (H1 & H2 & H3 & H4). cbn [map fst names flat_map app]. repeat split.
    + now f_equal.
    + intros Hnd. inversion Hnd as [|? ? Hnotin Hnd']. subst.
      assert (F : forall qs, ~ In n (names qs) -> fill qs ((n, string_of_list_ascii (firstn j s)) :: m') = fill qs m').
      { induction qs as [|[l|k] qs IHq]; intros Hk; [reflexivity| |]; cbn [fill].
        - now rewrite IHq.
        - cbn in Hk. cbn [sdict_get]. destruct (String.eqb_spec k n); [tauto|]. rewrite IHq by tauto. reflexivity. }
      cbn [fill sdict_get]. rewrite String.eqb_refl, F by exact Hnotin. rewrite H2 by exact Hnd'. cbn [bind]. f_equal.
      rewrite <- (string_chars (_ ++ _)%string). f_equal. rewrite chars_app, !list_ascii_of_string_of_list_ascii. apply firstn_skipn.
    + constructor; [|exact H3]. cbn. intros E. apply (f_equal chars) in E. rewrite list_ascii_of_string_of_list_ascii in E.
      assert (s <> []). { intros ->. cbn in Hj. lia. }
      destruct s; [easy|]. destruct j; [lia|discriminate].
    + intros l c [?|Hin] Hc; [discriminate|]. rewrite <- (firstn_skipn j s). apply in_or_app. right. eauto.
Qed.

Lemma match_path_sound ps p m : NoDup (names ps) -> match_path ps p = Some m ->
  fill ps m = Ok p /\ map fst m = names ps /\ Forall (fun kv => snd kv <> ""%string) m.
Proof.
  intros Hnd H. destruct (match_chars_sound _ _ _ H) as (A & B & D & _). rewrite string_chars in B. auto.
Qed.

Lemma match_needs ps s l c : In (Lit l) ps -> In c (chars l) -> ~ In c s -> match_chars ps s = None.
Proof. intros Hl Hc Hs. destruct (match_chars ps s) eqn:E; [|reflexivity]. destruct Hs.
  destruct (match_chars_sound _ _ _ E) as (_ & _ & _ & H). eauto. Qed.

Lemma match_lit l ps r : match_chars (Lit l :: ps) (chars l ++ r)%list = match_chars ps r.
Proof. cbn [match_chars]. now rewrite (proj2 (strip_prefix_some _ _ _) eq_refl). Qed.
Lemma match_lit_first a l ps s : chars l = [a] -> ~ In a s -> match_chars (Lit l :: ps) s = None.
Proof. intros El Hs. eapply match_needs; [now left|rewrite El; now left|exact Hs]. Qed.

Lemma no_newline s : ~ In newline_char s -> existsb (Ascii.eqb newline_char) s = false.
Proof.
  intros H. destruct (existsb _ s) eqn:E; [|reflexivity]. apply existsb_exists in E as (x & Hx & He).
  apply Ascii.eqb_eq in He. now subst.
Qed.

(** ** Decimal notation *)
Lemma uint_digits u c : In c (chars (NilEmpty.string_of_uint u)) -> In c (chars "0123456789").
Proof. induction u; cbn; intros H; try tauto; destruct H as [<-|H]; auto 12; now apply IHu in H. Qed.

Lemma show_int_chars z c : In c (chars (show_int z)) -> In c (chars "-0123456789") /\ (0 <= z -> In c (chars "0123456789")).
Proof.
  assert (G : forall u, In c (chars (NilZero.string_of_uint u)) -> In c (chars "0123456789")).
  { intros u. destruct u; try apply uint_digits. cbn. tauto. }
  unfold show_int. destruct z as [|p|p]; cbn [Z.to_int NilZero.string_of_int].
  - cbn. tauto.
  - intros H. apply G in H. split; [right; exact H|auto].
  - cbn [chars]. intros [<-|H]; [split; [left; reflexivity|lia]|]. apply G in H. split; [right; exact H|lia].
Qed.

Lemma show_int_nonempty z : chars (show_int z) <> [].
Proof.
  unfold show_int. destruct z as [|p|p]; cbn [Z.to_int NilZero.string_of_int]; try discriminate.
  intros H. apply chars_nil in H. destruct (Pos.to_uint p); discriminate.
Qed.

Lemma read_show z : read_int (show_int z) = Ok z.
Proof.
  unfold read_int, show_int. rewrite NilZero.isi.
  - now rewrite DecimalZ.of_to.
  - destruct z; cbn; try discriminate. intros [= H]. now apply DecimalPos.Unsigned.to_uint_nonnil in H.
  - destruct z; cbn; try discriminate. intros [= H]. now apply DecimalPos.Unsigned.to_uint_nonnil in H.
Qed.

Lemma digits_acc u acc : digits_value (Zpos acc) (chars (NilEmpty.string_of_uint u)) = Some (Zpos (Pos.of_uint_acc u acc)).
Proof.
  revert acc. induction u; intros acc; cbn [NilEmpty.string_of_uint chars]; [reflexivity|..];
    cbn [digits_value]; cbn [digit_value nat_of_ascii]; change (digit_value _) with (@None Z) || idtac;
    match goal with |- context [digit_value ?c] => let v := eval vm_compute in (digit_value c) in change (digit_value c) with v end;
    cbn [Pos.of_uint_acc]; rewrite <- IHu; f_equal; lia.
Qed.
Lemma digits_zero u : digits_value 0 (chars (NilEmpty.string_of_uint u)) = Some (Z.of_N (Pos.of_uint u)).
Proof.
  induction u; cbn [NilEmpty.string_of_uint chars]; [reflexivity|..]; cbn [digits_value];
    match goal with |- context [digit_value ?c] => let v := eval vm_compute in (digit_value c) in change (digit_value c) with v end;
    cbn iota beta; [exact IHu|..]; cbn [Pos.of_uint Z.of_N]; rewrite <- digits_acc; f_equal; lia.
Qed.

Lemma show_numeral z : numeral (show_int z) z.
Proof.
  assert (P : forall p, NilZero.string_of_uint (Pos.to_uint p) = NilEmpty.string_of_uint (Pos.to_uint p)).
  { intros p. pose proof (DecimalPos.Unsigned.to_uint_nonnil p). now destruct (Pos.to_uint p). }
  assert (D : forall p, digits_value 0 (chars (NilEmpty.string_of_uint (Pos.to_uint p))) = Some (Zpos p)).
  { intros p. rewrite digits_zero, DecimalPos.Unsigned.of_to. reflexivity. }
  unfold numeral, show_int. destruct z as [|p|p]; cbn [Z.to_int NilZero.string_of_int].
  - reflexivity.
  - rewrite P. specialize (D p). pose proof (uint_digits (Pos.to_uint p)) as U.
    destruct (chars (NilEmpty.string_of_uint (Pos.to_uint p))) as [|c l] eqn:E.
    + apply chars_nil in E. pose proof (DecimalPos.Unsigned.to_uint_nonnil p). destruct (Pos.to_uint p); easy.
    + assert (Hc : In c (chars "0123456789")) by (apply U; now left). clear - D Hc.
      cbn in Hc. repeat (destruct Hc as [<-|Hc]; [exact D|]). destruct Hc.
  - cbn [chars]. rewrite P. split; [|apply D].
    intros E. apply chars_nil in E. pose proof (DecimalPos.Unsigned.to_uint_nonnil p). destruct (Pos.to_uint p); easy.
Qed.

Lemma read_int_trailing_minus s : read_int (s ++ "-") = Err ValueError.
Proof.
  unfold read_int. assert (G : forall t, NilEmpty.uint_of_string (t ++ "-") = None).
  { induction t as [|c t IH]; [reflexivity|]. cbn. now rewrite IH. }
  assert (Z0 : forall t, NilZero.uint_of_string (t ++ "-") = None).
  { intros t. unfold NilZero.uint_of_string. destruct t; [reflexivity|]. apply G. }
  destruct s as [|c s]; [reflexivity|]. cbn [append NilZero.int_of_string].
  destruct (Ascii.eqb c "-"); [now rewrite Z0|]. specialize (Z0 (String c s)). cbn [append] in Z0. now rewrite Z0.
Qed.

(** Which rule makes which file of [how_good_integration_is.smk], and what it takes the wildcards to be. *)
From Coq Require Import String Ascii Lia.
From Verif Require Import Base BaseLemmas UtilsModel SamplersModel BenchmarkModel RulesModel RulesSpec RulesProofs RulesThms IntegrationModel IntegrationSpec.
Local Notation length := List.length.
Local Notation chars := list_ascii_of_string.

(** ** A path which a pattern can give is matched *)
Lemma longest_found ps s n k j m : (0 < j <= k)%nat -> existsb (Ascii.eqb newline_char) (firstn j s) = false -> match_chars ps (skipn j s) = Some m ->
  exists m', longest ps s n k = Some m'.
Proof.
  intros Hj Hn Hm. induction k as [|k IH]; [lia|]. cbn [longest].
  destruct (Nat.eq_dec j (S k)) as [->|Hne].
  - rewrite Hn, Hm. eauto.
  - destruct IH as [m' E]; [lia|]. rewrite E. destruct (existsb _ (firstn (S k) s)); [eauto|]. destruct (match_chars ps (skipn (S k) s)); eauto.
Qed.
(** The path made of a pattern, literally. *)
Fixpoint spelled (ps : list part) (vs : list (list ascii)) : list ascii :=
  match ps, vs with
  | [], _ => []
  | Lit l :: ps, _ => (chars l ++ spelled ps vs)%list
  | Wild _ :: ps, v :: vs => (v ++ spelled ps vs)%list
  | Wild _ :: _, [] => []
  end.
Lemma match_complete ps : forall vs, length vs = length (names ps) -> Forall (fun v => v <> [] /\ ~ In newline_char v) vs ->
  exists m, match_chars ps (spelled ps vs) = Some m.
Proof.
  induction ps as [|[l|n] ps IH]; intros vs L F; cbn [spelled].
  - cbn. eauto.
  - destruct (IH vs L F) as [m E]. exists m. now rewrite match_lit.
  - destruct vs as [|v vs]; [discriminate|]. inversion F as [|? ? [Hv Hn] F']; subst. destruct (IH vs) as [m E]; [now injection L|exact F'|].
    rewrite match_wild. apply (longest_found ps _ n _ (length v) m).
    + rewrite app_length. destruct v; [easy|cbn; lia].
    + rewrite firstn_app, Nat.sub_diag, firstn_all, app_nil_r. now apply no_newline.
    + rewrite skipn_app, Nat.sub_diag, skipn_all. exact E.
Qed.
Lemma match_spells ps : forall s m, match_chars ps s = Some m ->
  map fst m = names ps /\ s = spelled ps (map (fun kv => chars (snd kv)) m) /\ Forall (fun kv => chars (snd kv) <> []) m.
Proof.
  induction ps as [|[l|n] ps IH]; intros s m E.
  - destruct s; [|discriminate]. injection E as <-. repeat split; constructor.
  - cbn [match_chars] in E. destruct (strip_prefix (chars l) s) as [r|] eqn:Er; [|discriminate]. apply strip_prefix_some in Er. subst s.
    destruct (IH _ _ E) as (A & B & C). cbn [names flat_map app spelled]. split; [exact A|]. split; [now rewrite <- B|exact C].
  - rewrite match_wild in E. apply longest_some in E as (j & m' & Hj & E & _ & ->). destruct (IH _ _ E) as (A & B & C).
    cbn [names flat_map app spelled map fst snd]. rewrite list_ascii_of_string_of_list_ascii. split; [f_equal; exact A|]. split.
    + now rewrite <- B, firstn_skipn.
    + constructor; [|exact C]. cbn. rewrite list_ascii_of_string_of_list_ascii. intros H. apply (f_equal (@List.length ascii)) in H. rewrite firstn_length in H. cbn in H. lia.
Qed.

(** ** Cutting at slashes *)
Fixpoint cut (l : list ascii) : list (list ascii) :=
  match l with
  | [] => [[]]
  | c :: l => if Ascii.eqb c "/" then [] :: cut l else match cut l with h :: t => (c :: h) :: t | [] => [[c]] end
  end.
Lemma cut_some l : exists h t, cut l = h :: t.
Proof. destruct l as [|c l]; cbn; [eauto|]. destruct (Ascii.eqb c "/"); [eauto|]. destruct (cut l); eauto. Qed.
Lemma cut_app a b : cut (a ++ "/"%char :: b) = (cut a ++ cut b)%list.
Proof.
  induction a as [|c a IH]; [reflexivity|]. cbn [app cut]. rewrite IH. destruct (Ascii.eqb c "/"); [reflexivity|].
  destruct (cut_some a) as (h & t & ->). reflexivity.
Qed.
Lemma cut_plain a : ~ In "/"%char a -> cut a = [a].
Proof.
  induction a as [|c a IH]; intros H; [reflexivity|]. cbn. destruct (Ascii.eqb_spec c "/"); [destruct H; subst; now left|].
  rewrite IH; [reflexivity|]. intros ?. apply H. now right.
Qed.
Lemma cut_one a x : cut a = [x] -> a = x.
Proof.
  revert x. induction a as [|c a IH]; intros x H; cbn in H; [congruence|]. destruct (cut_some a) as (h & t & E). rewrite E in H, IH.
  destruct (Ascii.eqb c "/"); [discriminate|]. injection H as <- ->. now rewrite (IH h eq_refl).
Qed.
(** One minus sign parts the text in one way. *)
Lemma minus_parts (a b c d : list ascii) : ~ In "-"%char a -> ~ In "-"%char b -> (a ++ "-"%char :: b = c ++ "-"%char :: d)%list -> c = a /\ d = b.
Proof.
  revert c. induction a as [|x a IH]; intros c Ha Hb H; destruct c as [|y c]; cbn in H.
  - injection H as ->. auto.
  - injection H as <- H. destruct Hb. rewrite H. apply in_or_app. right. now left.
  - injection H as -> H. destruct Ha. now left.
  - injection H as -> H. destruct (IH c) as [-> ->]; auto. intros ?. apply Ha. now right.
Qed.

(** ** The pieces of the outputs *)
Definition free (c : ascii) (l : list ascii) : Prop := ~ In c l.
Lemma show_free c z : ~ In c (chars "-0123456789") -> free c (chars (show_int z)).
Proof. intros H I. apply show_int_chars in I as [I _]. now apply H. Qed.
Lemma show_free_minus z : (0 <= z)%Z -> free "-" (chars (show_int z)).
Proof. intros H I. apply show_int_chars in I as [_ I]. specialize (I H). cbn in I. repeat destruct I as [I|I]; try discriminate; exact I. Qed.
Ltac absent := cbn; let H := fresh in intros H; repeat destruct H as [H|H]; try discriminate; exact H.
Lemma free_app c a b : free c a -> free c b -> free c (a ++ b)%list.
Proof. intros A B I. apply in_app_or in I as [I|I]; auto. Qed.
Lemma numbers_free c n s t : ~ In c (chars "-0123456789") -> ~ In c (chars "-") -> free c (chars t) -> free c (chars (show_int n) ++ chars "-" ++ chars (show_int s) ++ chars t)%list.
Proof. intros H H1 H2. repeat apply free_app; auto using show_free. Qed.
Lemma slashed l a b : chars l = (a ++ "/"%char :: b)%list -> forall x y, cut (x ++ chars l ++ y) = (cut (x ++ a) ++ cut (b ++ y))%list.
Proof. intros -> x y. rewrite <- cut_app. now rewrite <- !app_assoc. Qed.

(** What the rules can give, cut at slashes. *)
Lemma cut_sample a n s : cut (spelled (output Sample) [a; n; s]) = (cut a ++ [chars "samples"] ++ cut (n ++ "-"%char :: s ++ chars ".npz"))%list.
Proof.
  cbn [output spelled]. rewrite app_nil_r. change (chars "/samples/") with ("/"%char :: chars "samples" ++ ["/"%char])%list.
  rewrite <- app_comm_cons, cut_app, <- (app_assoc (chars "samples")). cbn [app]. rewrite cut_app. reflexivity.
Qed.
Lemma cut_estimate a e n s : cut (spelled (output Apply) [a; e; n; s])
  = (cut a ++ [chars "estimates"] ++ cut e ++ cut (n ++ "-"%char :: s ++ chars ".json"))%list.
Proof.
  cbn [output spelled]. rewrite app_nil_r. change (chars "/estimates/") with ("/"%char :: chars "estimates" ++ ["/"%char])%list.
  rewrite <- app_comm_cons, cut_app, <- (app_assoc (chars "estimates")). cbn [app]. rewrite cut_app. change (chars "/") with ["/"%char]. cbn [app]. rewrite cut_app. reflexivity.
Qed.
Lemma cut_table a : cut (spelled (output Assemble) [a]) = (cut a ++ [chars "estimates.csv"])%list.
Proof. cbn [output spelled]. rewrite app_nil_r. change (chars "/estimates.csv") with ("/"%char :: chars "estimates.csv"). now rewrite cut_app. Qed.
Lemma cut_truth a : cut (spelled (output Truth) [a]) = (cut a ++ [chars "ground_truth.json"])%list.
Proof. cbn [output spelled]. rewrite app_nil_r. change (chars "/ground_truth.json") with ("/"%char :: chars "ground_truth.json"). now rewrite cut_app. Qed.
Lemma cut_seed a s : cut (spelled (output Seed) [a; s]) = (cut a ++ [chars "_ground_truth_seeds"] ++ cut (s ++ chars ".json"))%list.
Proof.
  cbn [output spelled]. rewrite app_nil_r. change (chars "/_ground_truth_seeds/") with ("/"%char :: chars "_ground_truth_seeds" ++ ["/"%char])%list.
  rewrite <- app_comm_cons, cut_app, <- (app_assoc (chars "_ground_truth_seeds")). cbn [app]. rewrite cut_app. reflexivity.
Qed.

(** The values found for a pattern. *)
Definition values (m : wildcards) : list (list ascii) := map (fun kv => chars (snd kv)) m.
Lemma match_values r p : match match_path (output r) p with
  | Some m => map fst m = names (output r) /\ chars p = spelled (output r) (values m) /\ Forall (fun v => v <> []) (values m)
  | None => True
  end.
Proof.
  destruct (match_path (output r) p) as [m|] eqn:E; [|exact I]. destruct (match_spells _ _ _ E) as (A & B & C). split; [exact A|]. split; [exact B|].
  apply Forall_map. exact C.
Qed.
Lemma last_text (p : string) r m x y : chars p = spelled (output r) (values m) -> (exists u, chars p = u ++ [x])%list -> (exists u, spelled (output r) (values m) = u ++ [y])%list -> x = y.
Proof. intros -> [u Hu] [v Hv]. rewrite Hu in Hv. now apply app_inj_tail in Hv as [_ Hv]. Qed.
Lemma chars_inj a b : chars a = chars b -> a = b.
Proof. intros H. rewrite <- (string_chars a), <- (string_chars b). now rewrite H. Qed.
Lemma found r p vs : chars p = spelled (output r) vs -> length vs = length (names (output r)) -> Forall (fun v => v <> [] /\ ~ In newline_char v) vs ->
  exists m, match_path (output r) p = Some m.
Proof. intros E L F. unfold match_path. rewrite E. now apply match_complete. Qed.

(** ** What a match says *)
Ltac matched r p E :=
  let H := fresh in pose proof (match_values r p) as H; rewrite E in H; destruct H as (? & ? & ?).
Lemma sample_matched p m : match_path (output Sample) p = Some m -> exists a n s, m = [("setup", a); ("n_points", n); ("seed", s)]%string /\
  cut (chars p) = (cut (chars a) ++ [chars "samples"] ++ cut (chars n ++ "-"%char :: chars s ++ chars ".npz"))%list /\ exists u, chars p = (u ++ ["z"%char])%list.
Proof.
  intros E. matched Sample p E. destruct m as [|[k1 a] [|[k2 n] [|[k3 s] [|]]]]; try discriminate. cbn in H. injection H as -> -> ->. exists a, n, s.
  split; [reflexivity|]. rewrite H0. cbn [values map snd]. rewrite cut_sample. split; [reflexivity|].
  exists (chars a ++ chars "/samples/" ++ chars n ++ chars "-" ++ chars s ++ chars ".np")%list. cbn [output spelled]. now rewrite <- !app_assoc.
Qed.
Lemma estimate_matched p m : match_path (output Apply) p = Some m -> exists a e n s, m = [("setup", a); ("estimator", e); ("n_points", n); ("seed", s)]%string /\
  cut (chars p) = (cut (chars a) ++ [chars "estimates"] ++ cut (chars e) ++ cut (chars n ++ "-"%char :: chars s ++ chars ".json"))%list /\ exists u, chars p = (u ++ ["n"%char])%list.
Proof.
  intros E. matched Apply p E. destruct m as [|[k1 a] [|[k2 e] [|[k3 n] [|[k4 s] [|]]]]]; try discriminate. cbn in H. injection H as -> -> -> ->. exists a, e, n, s.
  split; [reflexivity|]. rewrite H0. cbn [values map snd]. rewrite cut_estimate. split; [reflexivity|].
  exists (chars a ++ chars "/estimates/" ++ chars e ++ chars "/" ++ chars n ++ chars "-" ++ chars s ++ chars ".jso")%list. cbn [output spelled]. now rewrite <- !app_assoc.
Qed.
Lemma table_matched p m : match_path (output Assemble) p = Some m -> exists a, m = [("setup", a)]%string /\
  cut (chars p) = (cut (chars a) ++ [chars "estimates.csv"])%list /\ exists u, chars p = (u ++ ["v"%char])%list.
Proof.
  intros E. matched Assemble p E. destruct m as [|[k1 a] [|]]; try discriminate. cbn in H. injection H as ->. exists a.
  split; [reflexivity|]. rewrite H0. cbn [values map snd]. rewrite cut_table. split; [reflexivity|].
  exists (chars a ++ chars "/estimates.cs")%list. cbn [output spelled]. now rewrite <- !app_assoc.
Qed.
Lemma truth_matched p m : match_path (output Truth) p = Some m -> exists a, m = [("setup", a)]%string /\
  cut (chars p) = (cut (chars a) ++ [chars "ground_truth.json"])%list /\ exists u, chars p = (u ++ ["n"%char])%list.
Proof.
  intros E. matched Truth p E. destruct m as [|[k1 a] [|]]; try discriminate. cbn in H. injection H as ->. exists a.
  split; [reflexivity|]. rewrite H0. cbn [values map snd]. rewrite cut_truth. split; [reflexivity|].
  exists (chars a ++ chars "/ground_truth.jso")%list. cbn [output spelled]. now rewrite <- !app_assoc.
Qed.
Lemma seed_matched p m : match_path (output Seed) p = Some m -> exists a s, m = [("setup", a); ("seed", s)]%string /\
  cut (chars p) = (cut (chars a) ++ [chars "_ground_truth_seeds"] ++ cut (chars s ++ chars ".json"))%list /\ exists u, chars p = (u ++ ["n"%char])%list.
Proof.
  intros E. matched Seed p E. destruct m as [|[k1 a] [|[k2 s] [|]]]; try discriminate. cbn in H. injection H as -> ->. exists a, s.
  split; [reflexivity|]. rewrite H0. cbn [values map snd]. rewrite cut_seed. split; [reflexivity|].
  exists (chars a ++ chars "/_ground_truth_seeds/" ++ chars s ++ chars ".jso")%list. cbn [output spelled]. now rewrite <- !app_assoc.
Qed.

(** ** The five kinds of paths *)
Lemma plain_chars s : plain_name s -> chars s <> [] /\ free newline_char (chars s) /\ free "/" (chars s).
Proof. intros (A & B & C). split; [intros H; apply A; now apply chars_nil|]. split; assumption. Qed.
Lemma number_value z : chars (show_int z) <> [] /\ ~ In newline_char (chars (show_int z)).
Proof. split; [apply show_int_nonempty|apply show_free; absent]. Qed.
Lemma spelled_sample S n s : chars (samples_path S n s) = spelled (output Sample) [chars S; chars (show_int n); chars (show_int s)].
Proof. unfold samples_path. cbn [output spelled]. now rewrite !chars_app, app_nil_r. Qed.
Lemma spelled_estimate S e n s : chars (estimate_path S e n s) = spelled (output Apply) [chars S; chars e; chars (show_int n); chars (show_int s)].
Proof. unfold estimate_path. cbn [output spelled]. now rewrite !chars_app, app_nil_r. Qed.
Lemma spelled_table S : chars (table_path S) = spelled (output Assemble) [chars S].
Proof. unfold table_path. cbn [output spelled]. now rewrite !chars_app, app_nil_r. Qed.
Lemma spelled_truth S : chars (truth_path S) = spelled (output Truth) [chars S].
Proof. unfold truth_path. cbn [output spelled]. now rewrite !chars_app, app_nil_r. Qed.
Lemma spelled_seed S s : chars (seed_path S s) = spelled (output Seed) [chars S; chars (show_int s)].
Proof. unfold seed_path. cbn [output spelled]. now rewrite !chars_app, app_nil_r. Qed.

Definition numbered (n s : Z) (t : string) : list ascii := (chars (show_int n) ++ "-"%char :: chars (show_int s) ++ chars t)%list.
Lemma numbered_free c n s t : ~ In c (chars "-0123456789") -> free c (chars t) -> free c (numbered n s t).
Proof.
  intros H H2. unfold numbered. apply free_app; [now apply show_free|]. intros [<-|I]; [apply H; now left|]. revert I. apply free_app; [now apply show_free|exact H2].
Qed.
Lemma pieces_sample S n s : plain_name S -> cut (chars (samples_path S n s)) = [chars S; chars "samples"; numbered n s ".npz"].
Proof.
  intros H. destruct (plain_chars _ H) as (_ & _ & F). rewrite spelled_sample, cut_sample, (cut_plain (chars S)) by exact F.
  fold (numbered n s ".npz"). rewrite (cut_plain (numbered n s ".npz")) by (apply numbered_free; absent). reflexivity.
Qed.
Lemma pieces_estimate S e n s : plain_name S -> plain_name e -> cut (chars (estimate_path S e n s)) = [chars S; chars "estimates"; chars e; numbered n s ".json"].
Proof.
  intros H He. destruct (plain_chars _ H) as (_ & _ & F). destruct (plain_chars _ He) as (_ & _ & Fe).
  rewrite spelled_estimate, cut_estimate, (cut_plain (chars S)), (cut_plain (chars e)) by assumption.
  fold (numbered n s ".json"). rewrite (cut_plain (numbered n s ".json")) by (apply numbered_free; absent). reflexivity.
Qed.
Lemma pieces_table S : plain_name S -> cut (chars (table_path S)) = [chars S; chars "estimates.csv"].
Proof. intros H. destruct (plain_chars _ H) as (_ & _ & F). now rewrite spelled_table, cut_table, (cut_plain (chars S)). Qed.
Lemma pieces_truth S : plain_name S -> cut (chars (truth_path S)) = [chars S; chars "ground_truth.json"].
Proof. intros H. destruct (plain_chars _ H) as (_ & _ & F). now rewrite spelled_truth, cut_truth, (cut_plain (chars S)). Qed.
Lemma pieces_seed S s : plain_name S -> cut (chars (seed_path S s)) = [chars S; chars "_ground_truth_seeds"; (chars (show_int s) ++ chars ".json")%list].
Proof.
  intros H. destruct (plain_chars _ H) as (_ & _ & F). rewrite spelled_seed, cut_seed, (cut_plain (chars S)) by exact F.
  rewrite (cut_plain (chars (show_int s) ++ chars ".json")); [reflexivity|]. apply free_app; [apply show_free|]; absent.
Qed.

(** Comparing pieces: [cut] gives at least one. *)
Lemma cut_nonempty l : cut l <> [].
Proof. destruct (cut_some l) as (h & t & ->). discriminate. Qed.
Lemma split2 {A} (x y k : A) c : [x; y] = (c ++ [k])%list -> c = [x] /\ k = y.
Proof. destruct c as [|? [|? [|]]]; cbn; intros H; try discriminate; injection H as -> ->; auto. Qed.
Lemma split3 {A} (x y z k : A) c d : c <> [] -> d <> [] -> [x; y; z] = (c ++ [k] ++ d)%list -> c = [x] /\ k = y /\ d = [z].
Proof.
  intros Hc Hd. destruct c as [|c1 [|c2 [|c3 [|]]]]; cbn; intros H; try easy; injection H.
  - intros. subst. auto.
  - intros E _ _ _. destruct d; [easy|discriminate].
Qed.
Lemma split4 {A} (x y z v k : A) c d e : c <> [] -> d <> [] -> e <> [] -> [x; y; z; v] = (c ++ [k] ++ d ++ e)%list -> c = [x] /\ k = y /\ d = [z] /\ e = [v].
Proof.
  intros Hc Hd He. destruct c as [|c1 [|c2 [|c3 [|c4 [|]]]]]; cbn; intros H; try easy.
  - injection H as -> -> H. destruct d as [|d1 [|d2 [|]]]; cbn in H; try easy; injection H; intros; subst; auto; easy.
  - injection H as _ _ _ H. destruct d as [|d1 d]; [easy|]. destruct d; destruct e; easy.
  - injection H as _ _ _ _ H. destruct d; easy.
Qed.
Lemma last_same {A} (u v : list A) x y : (u ++ [x] = v ++ [y])%list -> x = y.
Proof. intros H. now apply app_inj_tail in H as [_ H]. Qed.
Lemma none_matched r p : (forall m, match_path (output r) p <> Some m) -> match_path (output r) p = None.
Proof. intros H. destruct (match_path (output r) p) as [m|]; [now destruct (H m)|reflexivity]. Qed.
(** Endings. *)
Lemma end_sample S n s : exists u, chars (samples_path S n s) = (u ++ ["z"%char])%list.
Proof. exists (chars (S ++ "/samples/" ++ show_int n ++ "-" ++ show_int s ++ ".np")). unfold samples_path. rewrite !chars_app, <- !app_assoc. reflexivity. Qed.
Lemma end_estimate S e n s : exists u, chars (estimate_path S e n s) = (u ++ ["n"%char])%list.
Proof. exists (chars (S ++ "/estimates/" ++ e ++ "/" ++ show_int n ++ "-" ++ show_int s ++ ".jso")). unfold estimate_path. rewrite !chars_app, <- !app_assoc. reflexivity. Qed.
Lemma end_table S : exists u, chars (table_path S) = (u ++ ["v"%char])%list.
Proof. exists (chars (S ++ "/estimates.cs")). unfold table_path. rewrite !chars_app, <- !app_assoc. reflexivity. Qed.
Lemma end_truth S : exists u, chars (truth_path S) = (u ++ ["n"%char])%list.
Proof. exists (chars (S ++ "/ground_truth.jso")). unfold truth_path. rewrite !chars_app, <- !app_assoc. reflexivity. Qed.
Lemma end_seed S s : exists u, chars (seed_path S s) = (u ++ ["n"%char])%list.
Proof. exists (chars (S ++ "/_ground_truth_seeds/" ++ show_int s ++ ".jso")). unfold seed_path. rewrite !chars_app, <- !app_assoc. reflexivity. Qed.
Ltac wrong_end lem := let u := fresh in let Hu := fresh in destruct lem as [u Hu];
  match goal with H : exists v, _ = _ |- _ => let v := fresh in let Hv := fresh in destruct H as [v Hv]; rewrite Hv in Hu; apply last_same in Hu; discriminate end.

Lemma numbers_parsed n s t c d : (0 <= n)%Z -> (0 <= s)%Z -> free "-" (chars t) ->
  (chars c ++ "-"%char :: chars d ++ chars t)%list = numbered n s t -> c = show_int n /\ d = show_int s.
Proof.
  intros Hn Hs Ht H. unfold numbered in H. symmetry in H. apply minus_parts in H as [A B].
  - apply app_inv_tail in B. split; now apply chars_inj.
  - now apply show_free_minus.
  - apply free_app; [now apply show_free_minus|exact Ht].
Qed.
Ltac nonempty := apply cut_nonempty.

Lemma candidates_sample S n s : plain_name S -> (0 <= n)%Z -> (0 <= s)%Z ->
  candidates (samples_path S n s) = [(Sample, [("setup", S); ("n_points", show_int n); ("seed", show_int s)])]%string.
Proof.
  intros HS Hn Hs. destruct (plain_chars _ HS) as (S1 & S2 & _). unfold candidates. cbn [flat_map].
  rewrite (none_matched Apply), (none_matched Assemble), (none_matched Truth), (none_matched Seed).
  - destruct (found Sample (samples_path S n s) _ (spelled_sample S n s) eq_refl (Forall_cons _ (conj S1 S2) (Forall_cons _ (number_value n) (Forall_cons _ (number_value s) (Forall_nil _))))) as [m E].
    rewrite E. destruct (sample_matched _ _ E) as (a & c & d & -> & H & _). rewrite pieces_sample in H by exact HS.
    apply split3 in H as (A & _ & B); [|nonempty..]. apply cut_one in A, B. apply chars_inj in A. apply numbers_parsed in B as [-> ->]; auto; [|absent]. now subst a.
  - intros m E. destruct (seed_matched _ _ E) as (? & ? & _ & _ & ?). wrong_end (end_sample S n s).
  - intros m E. destruct (truth_matched _ _ E) as (? & _ & _ & ?). wrong_end (end_sample S n s).
  - intros m E. destruct (table_matched _ _ E) as (? & _ & _ & ?). wrong_end (end_sample S n s).
  - intros m E. destruct (estimate_matched _ _ E) as (? & ? & ? & ? & _ & _ & ?). wrong_end (end_sample S n s).
Qed.
Lemma estimate_understood S e n s m : plain_name S -> plain_name e -> (0 <= n)%Z -> (0 <= s)%Z -> match_path (output Apply) (estimate_path S e n s) = Some m ->
  m = [("setup", S); ("estimator", e); ("n_points", show_int n); ("seed", show_int s)]%string.
Proof.
  intros HS He Hn Hs E. destruct (estimate_matched _ _ E) as (a & b & c & d & -> & H & _). rewrite pieces_estimate in H by assumption.
  apply split4 in H as (A & _ & B & C); [|nonempty..]. apply cut_one in A, B, C. apply chars_inj in A, B. apply numbers_parsed in C as [-> ->]; auto; [|absent]. now subst a b.
Qed.
Lemma candidates_estimate S e n s : plain_name S -> plain_name e -> e <> "_ground_truth_seeds"%string -> (0 <= n)%Z -> (0 <= s)%Z ->
  candidates (estimate_path S e n s) = [(Apply, [("setup", S); ("estimator", e); ("n_points", show_int n); ("seed", show_int s)])]%string.
Proof.
  intros HS He Hne Hn Hs. destruct (plain_chars _ HS) as (S1 & S2 & _). destruct (plain_chars _ He) as (E1 & E2 & _). unfold candidates. cbn [flat_map].
  rewrite (none_matched Sample), (none_matched Assemble), (none_matched Truth), (none_matched Seed).
  - destruct (found Apply (estimate_path S e n s) _ (spelled_estimate S e n s) eq_refl (Forall_cons _ (conj S1 S2) (Forall_cons _ (conj E1 E2) (Forall_cons _ (number_value n) (Forall_cons _ (number_value s) (Forall_nil _)))))) as [m E].
    rewrite E. now rewrite (estimate_understood _ _ _ _ _ HS He Hn Hs E).
  - intros m E. destruct (seed_matched _ _ E) as (a & b & _ & H & _). rewrite pieces_estimate in H by assumption.
    assert (N := cut_nonempty (chars a)). assert (N' := cut_nonempty (chars b ++ chars ".json")).
    revert N' H. generalize (cut (chars b ++ chars ".json")). intros l N' H.
    destruct (cut (chars a)) as [|a1 [|a2 [|a3 r]]]; cbn [app] in H; [easy|discriminate H| |].
    + injection H as _ _ H _. apply Hne. now apply chars_inj.
    + injection H as _ _ _ H. destruct r as [|? []]; cbn [app] in H; [|discriminate..]. injection H as _ H. now rewrite <- H in N'.
  - intros m E. destruct (truth_matched _ _ E) as (a & _ & H & _). rewrite pieces_estimate in H by assumption.
    change [chars S; chars "estimates"; chars e; numbered n s ".json"] with ([chars S; chars "estimates"; chars e] ++ [numbered n s ".json"])%list in H.
    apply last_same in H. assert (F : free "g" (numbered n s ".json")) by (apply numbered_free; absent). apply F. rewrite H. now left.
  - intros m E. destruct (table_matched _ _ E) as (? & _ & _ & ?). wrong_end (end_estimate S e n s).
  - intros m E. destruct (sample_matched _ _ E) as (? & ? & ? & _ & _ & ?). wrong_end (end_estimate S e n s).
Qed.
Lemma candidates_table S : plain_name S -> candidates (table_path S) = [(Assemble, [("setup", S)])]%string.
Proof.
  intros HS. destruct (plain_chars _ HS) as (S1 & S2 & _). unfold candidates. cbn [flat_map].
  rewrite (none_matched Sample), (none_matched Apply), (none_matched Truth), (none_matched Seed).
  - destruct (found Assemble (table_path S) _ (spelled_table S) eq_refl (Forall_cons _ (conj S1 S2) (Forall_nil _))) as [m E].
    rewrite E. destruct (table_matched _ _ E) as (a & -> & H & _). rewrite pieces_table in H by exact HS. apply split2 in H as [A _]. apply cut_one in A. apply chars_inj in A. now subst a.
  - intros m E. destruct (seed_matched _ _ E) as (? & ? & _ & _ & ?). wrong_end (end_table S).
  - intros m E. destruct (truth_matched _ _ E) as (? & _ & _ & ?). wrong_end (end_table S).
  - intros m E. destruct (estimate_matched _ _ E) as (? & ? & ? & ? & _ & _ & ?). wrong_end (end_table S).
  - intros m E. destruct (sample_matched _ _ E) as (? & ? & ? & _ & _ & ?). wrong_end (end_table S).
Qed.
Lemma long {A} (x y k : A) c d e : c <> [] -> d <> [] -> [x; y] <> (c ++ [k] ++ d ++ e)%list.
Proof. intros Hc Hd H. apply (f_equal (@List.length A)) in H. rewrite !app_length in H. destruct c, d; try easy. cbn in H. lia. Qed.
Lemma candidates_truth S : plain_name S -> candidates (truth_path S) = [(Truth, [("setup", S)])]%string.
Proof.
  intros HS. destruct (plain_chars _ HS) as (S1 & S2 & _). unfold candidates. cbn [flat_map].
  rewrite (none_matched Sample), (none_matched Apply), (none_matched Assemble), (none_matched Seed).
  - destruct (found Truth (truth_path S) _ (spelled_truth S) eq_refl (Forall_cons _ (conj S1 S2) (Forall_nil _))) as [m E].
    rewrite E. destruct (truth_matched _ _ E) as (a & -> & H & _). rewrite pieces_truth in H by exact HS. apply split2 in H as [A _]. apply cut_one in A. apply chars_inj in A. now subst a.
  - intros m E. destruct (seed_matched _ _ E) as (a & b & _ & H & _). rewrite pieces_truth in H by exact HS.
    rewrite <- (app_nil_r (cut (chars b ++ _))) in H. now apply long in H; try nonempty.
  - intros m E. destruct (table_matched _ _ E) as (? & _ & _ & ?). wrong_end (end_truth S).
  - intros m E. destruct (estimate_matched _ _ E) as (a & b & c & d & _ & H & _). rewrite pieces_truth in H by exact HS. now apply long in H; try nonempty.
  - intros m E. destruct (sample_matched _ _ E) as (? & ? & ? & _ & _ & ?). wrong_end (end_truth S).
Qed.
Lemma candidates_seed S s : plain_name S -> candidates (seed_path S s) = [(Seed, [("setup", S); ("seed", show_int s)])]%string.
Proof.
  intros HS. destruct (plain_chars _ HS) as (S1 & S2 & _). unfold candidates. cbn [flat_map].
  rewrite (none_matched Sample), (none_matched Apply), (none_matched Assemble), (none_matched Truth).
  - destruct (found Seed (seed_path S s) _ (spelled_seed S s) eq_refl (Forall_cons _ (conj S1 S2) (Forall_cons _ (number_value s) (Forall_nil _)))) as [m E].
    rewrite E. destruct (seed_matched _ _ E) as (a & b & -> & H & _). rewrite pieces_seed in H by exact HS.
    apply split3 in H as (A & _ & B); [|nonempty..]. apply cut_one in A, B. apply app_inv_tail in B. apply chars_inj in A, B. now subst.
  - intros m E. destruct (truth_matched _ _ E) as (a & _ & H & _). rewrite pieces_seed in H by exact HS.
    change [chars S; chars "_ground_truth_seeds"; (chars (show_int s) ++ chars ".json")%list] with ([chars S; chars "_ground_truth_seeds"] ++ [(chars (show_int s) ++ chars ".json")%list])%list in H.
    apply last_same in H. assert (F : free "g" (chars (show_int s) ++ chars ".json")) by (apply free_app; [apply show_free|]; absent). apply F. rewrite H. now left.
  - intros m E. destruct (table_matched _ _ E) as (? & _ & _ & ?). wrong_end (end_seed S s).
  - intros m E. destruct (estimate_matched _ _ E) as (a & b & c & d & _ & H & _). rewrite pieces_seed in H by exact HS.
    apply (f_equal (@List.length _)) in H. rewrite !app_length in H. assert (N := cut_nonempty (chars a)). assert (N' := cut_nonempty (chars b)).
    assert (N2 := cut_nonempty (chars c ++ "-"%char :: chars d ++ chars ".json")). destruct (cut (chars a)), (cut (chars b)), (cut (_ ++ _)); try easy. cbn in H. lia.
  - intros m E. destruct (sample_matched _ _ E) as (? & ? & ? & _ & _ & ?). wrong_end (end_seed S s).
Qed.

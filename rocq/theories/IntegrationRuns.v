(** Proofs about the rules of [how_good_integration_is.smk]. *)
From Coq Require Import String Ascii Lia.
From Verif Require Import Base BaseLemmas UtilsModel JaxModel SamplersModel BmmModel BmmSpec BmmProofs BenchmarkModel BenchmarkProofs BenchmarkThms RulesModel RulesSpec RulesProofs RulesThms
  OutliersModel OutliersPlotThms IntegrationModel IntegrationSpec IntegrationPaths.
Local Notation length := List.length.
Local Notation chars := list_ascii_of_string.

(** Combinations in the order of [expand]. *)
Lemma map_prod {A B C} (f : A * B -> C) l l' : map f (list_prod l l') = flat_map (fun a => map (fun b => f (a, b)) l') l.
Proof. induction l as [|a l IH]; [reflexivity|]. cbn. now rewrite map_app, map_map, IH. Qed.
Lemma flat_map_prod {A B C} (f : A * B -> list C) l l' : flat_map f (list_prod l l') = flat_map (fun a => flat_map (fun b => f (a, b)) l') l.
Proof.
  induction l as [|a l IH]; [reflexivity|]. cbn. rewrite flat_map_app, IH. f_equal. clear. induction l' as [|b l' IH]; [reflexivity|]. cbn. now rewrite IH.
Qed.
Lemma in_runs es ns ss n s e : In (n, s, e) (runs es ns ss) <-> In n ns /\ In s ss /\ In e es.
Proof. unfold runs. rewrite !in_prod_iff. tauto. Qed.

Section Runs.
  Context {J : prng}.
  Variable setups : sdict (joint_distribution J * critic).
  Variable es : sdict (critic -> matrix -> matrix -> result fl).
  Variables ns ss : list Z.
  Let rn := run_rule setups es ns ss.
  Let mk := make_path setups es ns ss.
  Let mk_all := make_all setups es ns ss.

  (** Files made by rules from files made by rules. *)
  Inductive produced : string -> hfile -> Prop :=
  | Produced p f w r wc : (forall q g, sdict_get w q = Some g -> produced q g) -> candidates p = [(r, wc)] -> rn r w wc = Ok f -> produced p f.
  Definition honest (w : hworld) : Prop := forall q g, sdict_get w q = Some g -> produced q g.

  Lemma make_path_inv w p w' : mk w p = Ok w' -> exists r wc f, candidates p = [(r, wc)] /\ rn r w wc = Ok f /\ w' = sdict_set w p f.
  Proof.
    unfold mk, make_path. destruct (candidates p) as [|[r wc] [|]]; try discriminate. unfold rn.
    destruct (run_rule setups es ns ss r w wc) as [f|] eqn:E; [|discriminate]. cbn [bind]. intros [= <-]. exists r, wc, f. auto.
  Qed.
  Lemma make_path_honest w p w' : honest w -> mk w p = Ok w' -> honest w'.
  Proof.
    intros H E. destruct (make_path_inv _ _ _ E) as (r & wc & f & C & R & ->). intros q g. destruct (string_dec p q) as [<-|N].
    - rewrite sdict_get_set_eq. intros [= <-]. econstructor; eauto.
    - rewrite sdict_get_set_neq by auto. apply H.
  Qed.
  Lemma make_all_honest sched w w' : honest w -> mk_all sched w = Ok w' -> honest w'.
  Proof.
    revert w. induction sched as [|p sched IH]; intros w H E; [injection E as <-; exact H|].
    unfold mk_all in E. cbn [make_all] in E. destruct (make_path setups es ns ss w p) as [w1|] eqn:E1; [|discriminate]. cbn [bind] in E.
    eapply IH; [eapply make_path_honest; eauto|exact E].
  Qed.
  Lemma empty_honest : honest [].
  Proof. intros q g H. discriminate. Qed.

  (** What the rules say about the files. *)
  Lemma sample_said S n s f : plain_name S -> (0 <= n)%Z -> (0 <= s)%Z -> produced (samples_path S n s) f ->
    exists d c xs ys, sdict_get setups S = Some (d, c) /\ jd_sample d n (prng_key J s) = Ok (xs, ys) /\ f = HSample xs ys.
  Proof.
    intros HS Hn Hs P. inversion P as [p f' w r wc H C R]; subst. rewrite candidates_sample in C by assumption. injection C as <- <-.
    unfold rn, run_rule, sample_distribution in R. cbn in R. unfold lookup in R.
    destruct (sdict_get setups S) as [[d c]|]; [|discriminate]. cbn [bind fst snd] in R. rewrite !read_show in R. cbn [bind] in R. rewrite ?read_show in R. cbn [bind] in R.
    destruct (jd_sample d n (prng_key J s)) as [[xs ys]|] eqn:E; [|discriminate]. injection R as <-. exists d, c, xs, ys. auto.
  Qed.
  Lemma estimate_said S e n s f : plain_name S -> plain_name e -> (0 <= n)%Z -> (0 <= s)%Z -> produced (estimate_path S e n s) f ->
    exists row, f = HEstimate row /\ row_reports setups es S (n, s, e) row.
  Proof.
    intros HS He Hn Hs P. inversion P as [p f' w r wc H C R]; subst.
    destruct (plain_chars _ HS) as (S1 & S2 & _). destruct (plain_chars _ He) as (E1 & E2 & _).
    destruct (found Apply (estimate_path S e n s) _ (spelled_estimate S e n s) eq_refl
      (Forall_cons _ (conj S1 S2) (Forall_cons _ (conj E1 E2) (Forall_cons _ (number_value n) (Forall_cons _ (number_value s) (Forall_nil _)))))) as [m E].
    assert (I : In (Apply, m) (candidates (estimate_path S e n s))).
    { unfold candidates. apply in_flat_map. exists Apply. split; [right; now left|]. rewrite E. now left. }
    rewrite C in I. destruct I as [I|[]]. injection I as -> ->. rewrite (estimate_understood _ _ _ _ _ HS He Hn Hs E) in R. clear C E m.
    unfold rn, run_rule, apply_estimator in R. cbn -[append] in R.
    change (S ++ "/samples/" ++ show_int n ++ "-" ++ show_int s ++ ".npz" ++ "")%string with (samples_path S n s) in R.
    destruct (sdict_get w (samples_path S n s)) as [[xs ys|?|?|?|?]|] eqn:G; try discriminate.
    destruct (sample_said S n s _ HS Hn Hs (H _ _ G)) as (d & c & xs' & ys' & A & B & [= <- <-]).
    unfold lookup in R. rewrite A in R. cbn [bind snd] in R.
    destruct (sdict_get es e) as [est|] eqn:Ge; [|discriminate]. cbn [bind] in R.
    destruct (est c xs ys) as [v|] eqn:Ev; [|discriminate]. cbn [bind] in R. rewrite read_show in R. cbn [bind] in R. injection R as <-.
    eexists. split; [reflexivity|]. split; cbn; try reflexivity. exists d, c, est, xs, ys. auto.
  Qed.
  Lemma seed_said S s f : plain_name S -> produced (seed_path S s) f ->
    exists d c v, sdict_get setups S = Some (d, c) /\ monte_carlo_mi_estimate (prng_key J s) d 100000 = Ok v /\ f = HSeed v.
  Proof.
    intros HS P. inversion P as [p f' w r wc H C R]; subst. rewrite candidates_seed in C by assumption. injection C as <- <-.
    unfold rn, run_rule, single_seed in R. cbn -[monte_carlo_mi_estimate] in R. unfold lookup in R.
    destruct (sdict_get setups S) as [[d c]|]; [|discriminate]. cbn [bind fst snd] in R. rewrite read_show in R. cbn [bind] in R.
    destruct (monte_carlo_mi_estimate (prng_key J s) d 100000) as [v|] eqn:E; [|discriminate]. cbn [bind] in R. injection R as <-. exists d, c, v. auto.
  Qed.

  (** The paths in the input of the table. *)
  Lemma table_inputs S : flat_map (fun n => flat_map (fun s => map (fun e =>
      fill (output Apply) [("setup", S); ("n_points", show_int n); ("seed", show_int s); ("estimator", e)]%string) (map fst es)) ss) ns
    = map (fun q => Ok (estimate_path S (snd q) (fst (fst q)) (snd (fst q)))) (runs (map fst es) ns ss).
  Proof. unfold runs. rewrite map_prod, flat_map_prod. reflexivity. Qed.

  Theorem table_true sched w S f : plain_name S -> Forall plain_name (map fst es) -> Forall (Z.le 0) ns -> Forall (Z.le 0) ss ->
    mk_all sched [] = Ok w -> sdict_get w (table_path S) = Some f ->
    exists rows, f = HTable rows /\ Forall2 (row_reports setups es S) (runs (map fst es) ns ss) rows.
  Proof.
    intros HS He Hn Hs E G. assert (P := make_all_honest _ _ _ empty_honest E _ _ G). inversion P as [p f' w' r wc H C R]; subst.
    rewrite candidates_table in C by assumption. injection C as <- <-. unfold rn, run_rule, assemble_estimates in R.
    cbn [wildcard sdict_get fst snd String.eqb Ascii.eqb Bool.eqb] in R. unfold wildcard in R. cbn [sdict_get String.eqb Ascii.eqb Bool.eqb bind fst snd] in R. rewrite table_inputs in R.
    destruct (each (estimate_of w') _) as [rows|] eqn:Er; [|discriminate]. cbn [bind] in R. injection R as <-. exists rows. split; [reflexivity|].
    apply each_inv in Er. rewrite Forall_forall in He, Hn, Hs. clear P G E.
    assert (I : forall q, In q (runs (map fst es) ns ss) -> In q (runs (map fst es) ns ss)) by auto. revert I. revert rows Er.
    generalize (runs (map fst es) ns ss) at 1 2 4. intros l. induction l as [|[[n s] e] l IH]; intros rows Er I; inversion Er as [|? row ? rows' Ea Eb]; subst; constructor.
    - destruct (proj1 (in_runs _ _ _ _ _ _) (I _ (or_introl eq_refl))) as (In1 & In2 & In3). cbn [fst snd] in Ea. unfold estimate_of in Ea. cbn [bind] in Ea.
      destruct (sdict_get w' (estimate_path S e n s)) as [[?|g|?|?|?]|] eqn:Gg; try discriminate. injection Ea as ->.
      destruct (estimate_said S e n s _ HS (He _ In3) (Hn _ In1) (Hs _ In2) (H _ _ Gg)) as (row' & [= <-] & Q). exact Q.
    - apply IH; [exact Eb|]. intros q Iq. apply I. now right.
  Qed.
  Theorem truth_files sched w S f : plain_name S -> mk_all sched [] = Ok w -> sdict_get w (truth_path S) = Some f ->
    exists d c samples, sdict_get setups S = Some (d, c) /\ f = HTruth (OutliersModel.summary samples) samples /\
      Forall2 (fun s v => monte_carlo_mi_estimate (prng_key J s) d 100000 = Ok v) [0; 1; 2; 3; 4; 5; 6; 7; 8; 9]%Z samples.
  Proof.
    intros HS E G. assert (P := make_all_honest _ _ _ empty_honest E _ _ G). inversion P as [p f' w' r wc H C R]; subst.
    rewrite candidates_truth in C by assumption. injection C as <- <-. unfold rn, run_rule, estimate_ground_truth in R.
    unfold wildcard in R. cbn [sdict_get String.eqb Ascii.eqb Bool.eqb bind fst snd] in R.
    change (map (fun s => fill (output Seed) [("setup", S); ("seed", show_int s)]%string) truth_seeds) with (map (fun s => @Ok string (seed_path S s)) [0; 1; 2; 3; 4; 5; 6; 7; 8; 9]%Z) in R.
    destruct (each (seed_of w') _) as [samples|] eqn:Er; [|discriminate]. cbn [bind] in R. injection R as <-. apply each_inv in Er.
    assert (F : forall s v, seed_of w' (Ok (seed_path S s)) = Ok v -> exists d c, sdict_get setups S = Some (d, c) /\ monte_carlo_mi_estimate (prng_key J s) d 100000 = Ok v).
    { intros s v Ev. unfold seed_of in Ev. cbn [bind] in Ev. destruct (sdict_get w' (seed_path S s)) as [[?|?|?|g|?]|] eqn:Gg; try discriminate. injection Ev as ->.
      destruct (seed_said S s _ HS (H _ _ Gg)) as (d & c & v' & A & B & [= <-]). eauto. }
    assert (D : exists d c, sdict_get setups S = Some (d, c)).
    { inversion Er as [|? v ? l Ea Eb]; subst. destruct (F _ _ Ea) as (d & c & A & _). eauto. }
    destruct D as (d & c & D). exists d, c, samples. split; [exact D|]. split; [reflexivity|]. clear P G E H.
    revert samples Er. generalize [0; 1; 2; 3; 4; 5; 6; 7; 8; 9]%Z. intros l. induction l as [|s l IH]; intros samples Er; inversion Er as [|? v ? l' Ea Eb]; subst; constructor.
    - destruct (F _ _ Ea) as (d' & c' & A & B). congruence.
    - now apply IH.
  Qed.
End Runs.

(** The ground truth of [how_good_integration_is.smk], and what a biased critic changes in the tables. *)
From Coq Require Import String Lia Lra FunctionalExtensionality.
From Verif Require Import Base BaseLemmas UtilsModel JaxModel SamplersModel BmmModel BmmSpec BmmProofs BenchmarkModel RulesModel RulesSpec ObjectivesModel ObjectivesSpec
  ObjectivesProofs CriticsModel CriticsThms OutliersModel OutliersTasksSpec OutliersLoad IntegrationModel IntegrationSpec IntegrationPaths IntegrationRuns IntegrationTables.
Open Scope R_scope.
Local Notation length := List.length.

Section Truth.
  Context {J : prng}.
  Variable setups : sdict (joint_distribution J * critic).
  Let mk_all := make_all setups ESTIMATORS N_POINTS SEEDS.

  Theorem truth_holds sched w S d f file ls : plain_name S -> sdict_get setups S = Some (d, f) ->
    mk_all sched [] = Ok w -> sdict_get w (truth_path S) = Some file ->
    Forall2 (pmi_values d) [0; 1; 2; 3; 4; 5; 6; 7; 8; 9]%Z ls ->
    file = HTruth (summarized ls) (map (fun l => (Fin (fst (estimated l)), Fin (snd (estimated l)))) ls).
  Proof.
    intros HS G E F V. destruct (truth_files setups ESTIMATORS N_POINTS SEEDS sched w S file HS E F) as (d' & f' & samples & G' & -> & H).
    rewrite G in G'. injection G' as <- <-.
    assert (M : samples = map (fun l => (Fin (fst (estimated l)), Fin (snd (estimated l)))) ls).
    { clear F E. revert samples H. induction V as [|s l ss ls v _ IH]; intros samples H; inversion H; subst; cbn; [reflexivity|]. apply (f_equal2 cons); [|now apply IH].
      pose proof (estimate_values (fun _ _ _ _ => []) d s l v) as K. rewrite H2 in K. injection K as ->. reflexivity. }
    rewrite M. f_equal. apply summary_fin. assert (L : length ls = 10%nat); [|lia]. clear - V. repeat match goal with K : Forall2 _ _ _ |- _ => inversion K; clear K; subst end. reflexivity.
  Qed.

  Theorem bias_in_tables sched sched' w w' S S' d f f' g rows rows' : plain_name S -> plain_name S' ->
    sdict_get setups S = Some (d, f) -> sdict_get setups S' = Some (d, f') -> (forall x y, f' x y = f x y + g x) -> full_draws d ->
    mk_all sched [] = Ok w -> sdict_get w (table_path S) = Some (HTable rows) ->
    mk_all sched' [] = Ok w' -> sdict_get w' (table_path S') = Some (HTable rows') ->
    length rows = length rows' /\ Forall2 (bias_seen d f g) (runs bounds sizes twenty) (combine rows rows').
  Proof.
    intros HS HS' G G' Hf D E F E' F'.
    assert (Ef : f' = fun x y => f x y + g x) by (apply functional_extensionality; intros x; apply functional_extensionality; intros y; apply Hf). subst f'. clear Hf.
    destruct (table_holds setups sched w S d f _ HS G D E F) as (r1 & [= <-] & H).
    destruct (table_holds setups sched' w' S' d _ _ HS' G' D E' F') as (r2 & [= <-] & H').
    assert (I : forall q, In q (runs bounds sizes twenty) -> (8 <= fst (fst q))%Z).
    { intros [[n s] e] I. apply in_runs in I. pose proof sizes_large as Z. rewrite Forall_forall in Z. apply Z. tauto. }
    clear E F E' F'. revert rows' H' I. induction H as [|q r l rows R1 _ IH]; intros rows' H' I; inversion H' as [|? r' ? rows2 R2 H2]; subst; [cbn; auto|].
    destruct (IH rows2 H2) as [IH1 IH2]; [intros x Hx; apply I; now right|]. split; [cbn; congruence|]. cbn [combine]. constructor; [|exact IH2].
    destruct R1 as [_ A1 A2 (xs & ys & v & A3 & A4 & A5)], R2 as [_ B1 B2 (xs' & ys' & v' & B3 & B4 & B5)].
    rewrite A3 in B3. injection B3 as <- <-. split; [auto|]. exists xs, ys, v, v'. cbn [fst snd]. do 3 (split; [assumption|]).
    destruct (sample_sizes _ _ _ _ _ D A3) as (L0 & L1 & L2). assert (Hn := I q (or_introl eq_refl)).
    assert (L3 : (2 <= length xs)%nat) by lia. assert (L4 : length xs = length ys) by congruence.
    unfold bound_value in A4, B4. split; [|split; [|split]].
    - intros e. rewrite e in A4, B4. cbn in A4, B4. injection A4 as <-. injection B4 as <-. now rewrite infonce_x_offset.
    - intros e. rewrite e in A4, B4. cbn in A4, B4. injection A4 as <-. injection B4 as <-. now rewrite mean_paired_plus.
    - intros e b Hb. rewrite e in A4, B4. cbn in A4, B4. injection A4 as <-. injection B4 as <-.
      destruct (x_bias f g b xs ys L3 L4 (fun x _ => Hb x)) as (_ & _ & u & u' & U & U' & K). rewrite dv_textbook in U, U' by assumption.
      injection U as <-. injection U' as <-. exact K.
    - intros c Hc. assert (Eg : (fun x y => f x y + g x) = (fun x y => f x y + c)).
      { apply functional_extensionality; intros x; apply functional_extensionality; intros y. now rewrite Hc. }
      rewrite Eg in B4. split; intros e; rewrite e in A4, B4; cbn in A4, B4; injection A4 as <-; injection B4 as <-.
      + now rewrite dv_shift.
      + rewrite mean_paired_shift, mean_exp_shift; [ring| |assumption]. intros ->. cbn in L3. lia.
  Qed.
End Truth.

(** scale_tasks ([FiguresModel]). *)
From Coq Require Import String.
From Verif Require Import Base BaseLemmas UtilsModel JaxModel SamplersModel GaussianModel TransformsModel BenchmarkModel BenchmarkSpec BenchmarkThms TasksModel TasksSpec TasksProofs
  FiguresModel FiguresSpec.
Open Scope Z_scope.
Local Notation length := List.length.

Lemma derived_later {J} (base t : task J) h h' h'' id name ax new on_x on_y : ext h' h'' ->
  derived base t h h' id name ax new on_x on_y -> derived base t h h'' id name ax new on_x on_y.
Proof.
  intros E (Ut & Le & h1 & m & h2 & m' & M & M' & I & N & MI & X & Y & P & K & S).
  destruct (usable_ready _ _ Ut) as (dx & dy & mi & R & _).
  destruct (ready_metadata _ _ _ _ _ R) as (h3 & m0 & M0 & _ & I0 & N0 & X0 & Y0 & MI0 & C0 & _).
  assert (R' := ready_ext _ _ _ _ _ _ E R).
  destruct (ready_metadata _ _ _ _ _ R') as (h4 & m1 & M1 & _ & I1 & N1 & X1 & Y1 & MI1 & C1 & _).
  rewrite M' in M0. injection M0 as <- <-.
  split; [eapply usable_ext; eauto|]. split; [destruct E; lia|].
  exists h1, m, h4, m1. split; [exact M|]. split; [exact M1|].
  split; [congruence|]. split; [congruence|]. split; [congruence|]. split; [congruence|]. split; [congruence|]. split; [|split; [|exact S]].
  - rewrite C1, (ext_content _ _ _ E), <- C0 by apply Ut. exact P.
  - intros r Hr. destruct E as [L E]. rewrite E by lia. auto.
Qed.
Lemma derived_heap {J} (base t : task J) h h' id name ax new on_x on_y : derived base t h h' id name ax new on_x on_y -> ext h h'.
Proof. intros (_ & L & h1 & m & h2 & m' & _ & _ & _ & _ & _ & _ & _ & _ & K & _). now split. Qed.

Lemma scale_tasks_ok {J : prng} (tasks : sdict (task J)) : forall h, Forall (fun kt => usable (snd kt) h) tasks ->
  exists h' ts, scale_tasks tasks h = (h', Ok ts) /\ ext h h' /\ Forall2 (fun a b => fst b = fst a /\ rescaled h h' (snd a) (snd b)) tasks ts.
Proof.
  induction tasks as [|[key base] tasks IH]; intros h U; cbn [scale_tasks].
  - exists h, []. split; [reflexivity|]. split; [apply ext_refl|constructor].
  - inversion U as [|? ? U1 U2]; subst. cbn [snd] in U1. destruct (usable_ready _ _ U1) as (dx & dy & mi & R & _).
    destruct (ready_metadata _ _ _ _ _ R) as (h1 & m & M & X1 & I1 & N1 & _).
    assert (E1 : task_name base h = (h1, Ok (t_name base))) by (destruct (task_properties _ _ _ _ M) as (_ & Q & _); now rewrite Q, N1).
    unfold pbind at 1. rewrite E1. cbv beta iota. assert (R1 := ready_ext _ _ _ _ _ _ X1 R).
    destruct (step_id _ _ _ _ _ R1) as (h2 & E2 & X2). unfold pbind at 1. rewrite E2. cbv beta iota.
    assert (X02 : ext h h2) by (eapply ext_trans; eauto). assert (U3 := usable_ext _ _ _ X02 U1).
    destruct (rescale_derived base (Some (t_name base)) (Some (t_id base)) h2 U3) as (h3 & t & E3 & D).
    unfold pbind at 1. rewrite E3. cbv beta iota. assert (X3 := derived_heap _ _ _ _ _ _ _ _ _ _ D). assert (X03 : ext h h3) by (eapply ext_trans; eauto).
    destruct (IH h3) as (h4 & ts & E4 & X4 & F). { clear - U2 X03. induction U2; constructor; auto. eapply usable_ext; eauto. }
    unfold pbind at 1. rewrite E4. cbv beta iota. exists h4, ((key, t) :: ts). split; [reflexivity|]. split; [eapply ext_trans; eauto|]. constructor.
    + cbn [fst snd]. split; [reflexivity|]. unfold rescaled. apply (derived_later _ _ _ h3); [exact X4|]. apply (derived_ext _ _ h h2); [exact U1|exact X02|].
      destruct D as (Ut & Le & a1 & m1 & a2 & m2 & M1 & M2 & I & N & Rest). split; [exact Ut|]. split; [exact Le|]. exists a1, m1, a2, m2. split; [exact M1|]. split; [exact M2|].
      assert (R3 := ready_ext _ _ _ _ _ _ X02 R). destruct (ready_metadata _ _ _ _ _ R3) as (b1 & n1 & Q1 & _ & Q2 & Q3 & _). rewrite M1 in Q1. injection Q1 as <- <-.
      split; [rewrite I, Q2; reflexivity|]. split; [rewrite N, Q3; reflexivity|]. exact Rest.
    + clear - F X03 U2. induction F as [|a b l l' [A B] F IH]; constructor.
      * inversion U2; subst. split; [exact A|]. unfold rescaled in *. eapply derived_ext; eauto.
      * inversion U2; subst. auto.
Qed.

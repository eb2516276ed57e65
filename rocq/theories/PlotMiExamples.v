(** Concrete results for the statements in [PlotMiProps]. *)
From Coq Require Import String Ascii Sorted Lia Lra.
From Verif Require Import Base BaseLemmas UtilsModel JaxModel SamplersModel GaussianModel BenchmarkModel TasksModel TasksSpec TablesModel TablesSpec V2TableSpec
  GaussianSpec GammaSpec GammaExists TrainingExamples TasksExamples BasicExamples BasicThms PlotMiModel PlotMiSpec PlotMiThms PlotMiTails PlotMiFigure.
Open Scope R_scope.

Definition real_c (df : R) : R := student_correction digamma log_gamma df 3 3.
Definition run_of e t n x m : row := {| r_estimator := e; r_task := t; r_n := n; r_estimate := Fin x; r_true := Fin m |}.
Fixpoint strokes (n : nat) : string := match n with O => EmptyString | S n => String "|" (strokes n) end.
Fixpoint rank (l : list R) (x : R) : nat := match l with [] => O | y :: l => if Req_EM_T x y then O else S (rank l x) end.
Definition apart : formats := {| float_repr := float_repr ex_formats; float_fixed := fun _ x => strokes (rank exponents x) |}.
Lemma strokes_inj a b : strokes a = strokes b -> a = b.
Proof. revert b. induction a as [|a IH]; destruct b; cbn; try discriminate; [auto|]. intros [= H]. f_equal. auto. Qed.
Lemma rank_nth l i : NoDup l -> (i < List.length l)%nat -> rank l (nth i l 0) = i.
Proof.
  intros N. revert i. induction N as [|y l Ny N IH]; cbn; intros i L; [lia|]. destruct i; [destruct (Req_EM_T y y); congruence|].
  destruct (Req_EM_T (nth i l 0) y) as [E|_]; [destruct Ny; rewrite <- E; apply nth_In; lia|]. rewrite IH by lia. reflexivity.
Qed.
Lemma apart_ok : NoDup (map (float_fixed apart 5) exponents) /\ float_repr apart 2 = "2.0"%string.
Proof.
  split.
  - assert (N : NoDup exponents).
    { unfold exponents. repeat (apply NoDup_cons; [cbn; intros H; repeat destruct H as [H|H]; lra|]). apply NoDup_nil. }
    apply (NoDup_nth _ ""%string). intros i j Hi Hj H. rewrite map_length in Hi, Hj.
    rewrite !(nth_indep _ ""%string (float_fixed apart 5 0)) in H by (rewrite map_length; assumption). rewrite !map_nth in H. apply strokes_inj in H.
    now rewrite !rank_nth in H by assumption.
  - unfold apart, ex_formats, Reqb. cbn [float_repr]. destruct (Req_EM_T 2 _); [lra|]. destruct (Req_EM_T 2 _); [lra|]. destruct (Req_EM_T 2 _); [lra|]. reflexivity.
Qed.

(** Results of two estimators for a task of each kind; one estimate is too large. *)
Definition demo_results : list mrow :=
  [{| mr_run := run_of "CCA" "a" 10000 1 (ln (25 / 9)); mr_params := snd (power_sheet apart 1) |};
   {| mr_run := run_of "MINE" "a" 10000 4 (ln (25 / 9)); mr_params := snd (power_sheet apart 1) |};
   {| mr_run := run_of "CCA" "b" 10000 2 (ln (25 / 9) + real_c 1); mr_params := snd (student_sheet real_c 1) |};
   {| mr_run := run_of "CCA" "c" 10000 1 (ln (25 / 9) + real_c 3); mr_params := snd (student_sheet real_c 3) |}]%string.
Lemma demo_about : Forall (fun r => exists e, In e (tails_sheets apart real_c) /\ row_about r (sheet_mi e) (snd e)) demo_results.
Proof.
  unfold demo_results, tails_sheets. repeat constructor.
  - exists (power_sheet apart 1). split; [apply in_or_app; left; apply in_map; now left|]. split; reflexivity.
  - exists (power_sheet apart 1). split; [apply in_or_app; left; apply in_map; now left|]. split; reflexivity.
  - exists (student_sheet real_c 1). split; [apply in_or_app; right; apply in_map; now left|]. split; reflexivity.
  - exists (student_sheet real_c 3). split; [apply in_or_app; right; apply in_map; right; now left|]. split; reflexivity.
Qed.
Lemma demo_known : forall r, In r demo_results -> In (r_estimator (mr_run r)) (map style_id mi_styles).
Proof. intros r [<-|[<-|[<-|[<-|[]]]]]; cbn; tauto. Qed.
Lemma demo_columns : (exists r k, In r demo_results /\ has_parameter "alpha" r k) /\ (exists r k, In r demo_results /\ has_parameter "dof" r k).
Proof.
  split.
  - exists (nth 0 demo_results (hd {| mr_run := run_of "" "" 0 0 0; mr_params := [] |} [])), 1. split; [now left|]. now apply has_float.
  - exists (nth 2 demo_results (hd {| mr_run := run_of "" "" 0 0 0; mr_params := [] |} [])), 1. split; [right; right; now left|]. now apply (has_int _ _ 1).
Qed.
Lemma demo_tails : exists kept exponent freedom, figure_tails demo_results = Ok (exponent, freedom) /\
  shows_panel "alpha" kept true exponent /\ shows_panel "dof" kept true freedom /\
  map mc_estimator (pn_curves exponent) = ["CCA"]%string /\ map fst (pn_truth exponent) = [1] /\ map fst (pn_truth freedom) = [1; 3].
Proof.
  destruct (tails_figure apart digamma log_gamma gamma_functions_exist demo_results demo_about demo_known (proj1 demo_columns) (proj2 demo_columns))
    as (kept & e & f & E & K & Se & _ & _ & Sf & _).
  exists kept, e, f. split; [exact E|]. split; [exact Se|]. split; [exact Sf|].
  assert (Kp : kept = [nth 0 demo_results (hd {| mr_run := run_of "" "" 0 0 0; mr_params := [] |} []); nth 2 demo_results (hd {| mr_run := run_of "" "" 0 0 0; mr_params := [] |} []);
                       nth 3 demo_results (hd {| mr_run := run_of "" "" 0 0 0; mr_params := [] |} [])]).
  { assert (U : forall (P : mrow -> Prop) l a b, keeping P l a -> keeping P l b -> a = b).
    { clear. intros P l a b H. revert b. induction H; intros b K; inversion K; subst; try contradiction; f_equal; auto. }
    eapply U; [exact K|]. unfold demo_results. cbn [nth].
    apply keeping_yes; [cbn; apply Rltb_true; lra|]. apply keeping_no; [cbn; intros K4; apply Rltb_true in K4; lra|].
    apply keeping_yes; [cbn; apply Rltb_true; lra|]. apply keeping_yes; [cbn; apply Rltb_true; lra|]. apply keeping_nil. }
  assert (Q : forall x p l, shows_panel x kept true p -> StronglySorted Rlt l -> (forall k, In k l <-> exists r, In r kept /\ True /\ has_parameter x r k) -> map fst (pn_truth p) = l).
  { intros x p l S O V. assert (A := ml_order _ _ _ _ _ (sp_truth _ _ _ _ S)). assert (B := ml_values _ _ _ _ _ (sp_truth _ _ _ _ S)).
    assert (I : forall k, In k (map fst (pn_truth p)) <-> In k l) by (intros k; rewrite B, V; tauto). revert I A O. clear.
    generalize (map fst (pn_truth p)). intros m. revert l. induction m as [|a m IH]; intros [|b l] I A O; try reflexivity.
    - destruct (proj2 (I b) (or_introl eq_refl)).
    - destruct (proj1 (I a) (or_introl eq_refl)).
    - apply StronglySorted_inv in A as [A1 A2]. apply StronglySorted_inv in O as [O1 O2]. rewrite Forall_forall in A2, O2.
      assert (E : a = b). { destruct (proj1 (I a) (or_introl eq_refl)) as [|Ha]; [auto|]. destruct (proj2 (I b) (or_introl eq_refl)) as [|Hb]; [auto|]. specialize (A2 _ Hb). specialize (O2 _ Ha). lra. }
      subst b. f_equal. apply IH; auto. intros k. split; intros H.
      + destruct (proj1 (I k) (or_intror H)) as [<-|]; [|auto]. specialize (A2 _ H). lra.
      + destruct (proj2 (I k) (or_intror H)) as [<-|]; [|auto]. specialize (O2 _ H). lra. }
  split; [|split].
  - destruct (sp_sorted _ _ _ _ Se) as [N _]. assert (M : forall x, In x (map mc_estimator (pn_curves e)) <-> x = "CCA"%string).
    { intros x. rewrite (sp_all _ _ _ _ Se). split; [|intros ->; exists (nth 0 kept (hd {| mr_run := run_of "" "" 0 0 0; mr_params := [] |} [])); rewrite Kp; split; [now left|reflexivity]].
      intros (r & I & <-). rewrite Kp in I. destruct I as [<-|[<-|[<-|[]]]]; reflexivity. }
    revert N M. generalize (map mc_estimator (pn_curves e)). intros [|a [|b l]] N M.
    + destruct (proj2 (M "CCA"%string) eq_refl).
    + f_equal. apply M. now left.
    + exfalso. inversion N as [|? ? N1 _]; subst. apply N1. left. rewrite (proj1 (M a)), (proj1 (M b)); cbn; auto.
  - apply (Q "alpha"%string); [exact Se|repeat constructor|]. intros k. cbn [In]. rewrite Kp. split.
    + intros [<-|[]]. eexists. split; [left; reflexivity|]. split; [exact I|]. now apply has_float.
    + intros (r & [<-|[<-|[<-|[]]]] & _ & H); inversion H as [n G|v G]; cbn in G; try discriminate. injection G as ->. now left.
  - apply (Q "dof"%string); [exact Sf|repeat constructor; lra|]. intros k. cbn [In]. rewrite Kp. split.
    + intros [<-|[<-|[]]]; eexists; (split; [right; (left; reflexivity) + (right; left; reflexivity)|]); (split; [exact I|]); [now apply (has_int _ _ 1)|now apply (has_int _ _ 3)].
    + intros (r & [<-|[<-|[<-|[]]]] & _ & H); inversion H as [n G|v G]; cbn in G; try discriminate; injection G as <-; auto.
Qed.
Lemma strangers : ~ In "KSG"%string (map style_id mi_styles) /\ ~ In "R-BNSL"%string (map style_id mi_styles).
Proof. split; cbn; intuition discriminate. Qed.
Lemma length_of_Forall2 {A B} {P : A -> B -> Prop} {l m} : Forall2 P l m -> List.length l = List.length m.
Proof. induction 1; cbn; congruence. Qed.
Lemma demo_tails_tasks : exists h' d, tails_tasks (J := demo) apart ex_eigvals ex_mvn digamma log_gamma ex_mvt [] = (h', Ok d) /\ List.length d = 20%nat.
Proof.
  destruct (tails_built (J := demo) apart ex_eigvals ex_mvn digamma log_gamma ex_mvt (proj2 apart_ok) ex_eigvals_ok ex_mvt_ok gamma_functions_exist [] (proj1 apart_ok)) as (h0 & l & h' & d & _ & E & _ & S & _).
  exists h', d. split; [exact E|]. clear E. now rewrite <- (length_of_Forall2 S).
Qed.

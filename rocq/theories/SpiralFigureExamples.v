(** Concrete instances for the statements in [SpiralFigureProps]. *)
From Coq Require Import String Ascii Sorted Lia Lra.
From Verif Require Import Base BaseLemmas UtilsModel JaxModel SamplersModel GaussianModel TransformsModel TransformsSpec BenchmarkModel TasksModel TasksSpec TablesModel TablesSpec TrainingExamples TasksExamples BasicExamples
  ExpmProofs TasksGaussian PlotMiModel PlotMiSpec PlotMiTails PlotMiExamples SpiralFigureModel SpiralFigureSpec SpiralFigureThms.
Open Scope R_scope.

Definition ranked : formats := {| float_repr := fun x => strokes (rank speeds x); float_fixed := float_fixed ex_formats |}.
Lemma ranked_ok : NoDup (map (float_repr ranked) speeds).
Proof.
  assert (N : NoDup speeds).
  { unfold speeds. repeat (apply NoDup_cons; [cbn [In]; intros H; repeat destruct H as [H|H]; lra|]). apply NoDup_nil. }
  apply (NoDup_nth _ ""%string). intros i j Hi Hj H. rewrite map_length in Hi, Hj.
  rewrite !(nth_indep _ ""%string (float_repr ranked 0)) in H by (rewrite map_length; assumption). rewrite !map_nth in H. apply strokes_inj in H.
  now rewrite !rank_nth in H by assumption.
Qed.
Lemma demo_spiral_tasks : exists h' d, spiral_tasks (J := demo) ranked ex_eigvals ex_mvn series_expm [] = (h', Ok d) /\ List.length d = 7%nat.
Proof.
  destruct (spiral_tasks_built (J := demo) ranked ex_eigvals ex_mvn series_expm ex_eigvals_ok series_expm_ok [] ranked_ok) as (h0 & l & h' & d & _ & E & _ & _ & _ & S & _).
  exists h', d. split; [exact E|]. clear E. rewrite <- (length_of_Forall2 S). reflexivity.
Qed.
(** The rows of two tasks, with an estimate which is left out, and a row about no task. *)
Definition speed_row (s : R) (estimate : R) : mrow := {| mr_run := run_of "MINE" (sheet_id (spiral_sheet ranked s)) 10000 estimate (ln (5 / 3)); mr_params := [] |}.
Lemma demo_spiral_rows : exists h l, Forall2 (fun e t => reports (J := demo) h t (sheet_id e) (snd (fst (fst e))) 2 1 (sheet_mi e) (snd e)) (map (spiral_sheet ranked) speeds) l /\
  Forall (fun r => exists s, In s speeds /\ about_speed ranked s r) [speed_row 1 (1 / 2); speed_row (1 / 2) 4] /\
  exists h2 p, plot_performance l [speed_row 1 (1 / 2); speed_row (1 / 2) 4] h = (h2, Ok p) /\ pn_truth p = [(1, Fin (ln (5 / 3)))].
Proof.
  destruct (spiral_tasks_built (J := demo) ranked ex_eigvals ex_mvn series_expm ex_eigvals_ok series_expm_ok [] ranked_ok) as (h0 & l & h' & d & _ & _ & _ & G & _).
  exists h', l. split; [exact G|].
  assert (A : Forall (fun r => exists s, In s speeds /\ about_speed ranked s r) [speed_row 1 (1 / 2); speed_row (1 / 2) 4]).
  { constructor; [|constructor; [|constructor]]; [exists 1|exists (1 / 2)]; (split; [unfold speeds; cbn; tauto|split; reflexivity]). }
  split; [exact A|].
  destruct (spiral_shown ranked ranked_ok h' l G [speed_row 1 (1 / 2); speed_row (1 / 2) 4] ltac:(discriminate) A) as (h2 & kept & own & p & E & Ke & M & S & _ & T).
  { intros r [<-|[<-|[]]]; cbn; tauto. }
  exists h2, p. split; [exact E|]. clear E.
  assert (K : kept = [speed_row 1 (1 / 2)]).
  { clear - Ke. inversion Ke as [|a l s P K'|a l s P K']; subst.
    - inversion K' as [|b l' s' P' K2|b l' s' P' K2]; subst.
      + exfalso. cbn in P'. unfold Rltb in P'. destruct (Rlt_dec 4 3); [lra|discriminate].
      + inversion K2. reflexivity.
    - exfalso. apply P. cbn. unfold Rltb. destruct (Rlt_dec (1 / 2) 3); [reflexivity|lra]. }
  subst kept. assert (O : exists r', own = [r'] /\ forall s, has_parameter "speed" r' s <-> s = 1).
  { unfold marked_rows in M. inversion M as [|? r' ? ? [_ H] M']; subst. inversion M'; subst. exists r'. split; [reflexivity|]. intros s. rewrite H. split.
    - intros [I Q]. symmetry. eapply (same_speed ranked ranked_ok); [unfold speeds; cbn; tauto|exact I|exact Q].
    - intros ->. split; [unfold speeds; cbn; tauto|reflexivity]. }
  destruct O as (r' & -> & O). assert (V := ml_values _ _ _ _ _ (sp_truth _ _ _ _ S)). assert (L := ml_order _ _ _ _ _ (sp_truth _ _ _ _ S)).
  assert (Q : forall k, In k (map fst (pn_truth p)) <-> k = 1).
  { intros k. rewrite V. split; [intros (r & [<-|[]] & _ & H); now apply O|]. intros ->. exists r'. split; [now left|]. split; [exact I|]. now apply O. }
  clear - Q L T. destruct (pn_truth p) as [|[a u] [|[b v] q]].
  - destruct (proj2 (Q 1) eq_refl).
  - inversion T as [|? ? [_ T1] _]; subst. cbn in T1. rewrite T1. assert (a = 1) as -> by (apply Q; now left). reflexivity.
  - exfalso. assert (a = 1) by (apply Q; now left). assert (b = 1) by (apply Q; right; now left). subst. inversion L as [|? ? _ L1]; subst. inversion L1; subst. lra.
Qed.
Lemma demo_turn : eigvals_positive ex_eigvals /\ is_expm series_expm /\ spun (PI / 2) [0; 1] = [-1; 0].
Proof.
  split; [exact ex_eigvals_ok|]. split; [exact series_expm_ok|]. unfold spun. replace (PI / 2 * (0 * 0 + 1 * 1)) with (PI / 2) by lra. rewrite sin_PI2, cos_PI2. f_equal; [lra|f_equal; lra].
Qed.
Lemma three_four : dot_product [3; 4] [3; 4] = 25.
Proof. unfold dot_product. cbn. lra. Qed.

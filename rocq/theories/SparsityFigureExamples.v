(** Concrete instances for the statements in [SparsityFigureProps]. *)
From Coq Require Import String Ascii Lia Lra.
From Verif Require Import Base BaseLemmas UtilsModel JaxModel SamplersModel GaussianModel BenchmarkModel TasksModel TasksSpec TablesModel TrainingExamples TasksExamples BasicExamples
  HighMiSpec SparsitySpec SparsityExamples PlotMiModel PlotMiSpec PlotMiTails PlotMiExamples SparsityFigureModel SparsityFigureSpec SparsityFigureThms.
Open Scope R_scope.

Definition spread : formats := {| float_repr := float_repr ex_formats; float_fixed := fun _ x => strokes (rank alphas x) |}.
Lemma spread_ok : NoDup (map (float_fixed spread 5) alphas) /\ Forall (fun a => dashless (float_fixed spread 5 a)) alphas.
Proof.
  split.
  - assert (N : NoDup alphas).
    { unfold alphas, first_alpha. cbn [map]. repeat (apply NoDup_cons; [cbn [In]; intros H; repeat destruct H as [H|H]; lra|]). apply NoDup_nil. }
    apply (NoDup_nth _ ""%string). intros i j Hi Hj H. rewrite map_length in Hi, Hj.
    rewrite !(nth_indep _ ""%string (float_fixed spread 5 0)) in H by (rewrite map_length; assumption). rewrite !map_nth in H. apply strokes_inj in H.
    now rewrite !rank_nth in H by assumption.
  - apply Forall_forall. intros a _. unfold spread. cbn [float_fixed]. generalize (rank alphas a). unfold dashless. induction n; cbn; [tauto|]. intros [H|H]; [discriminate|contradiction].
Qed.
Lemma demo_sparsity_tasks : exists h' d, sparsity_tasks (J := demo) spread ex_eigvals ex_mvn ex_uniform [] = (h', Ok d) /\ List.length d = 19%nat.
Proof.
  destruct (sparsity_built (J := demo) spread ex_eigvals ex_mvn ex_uniform ex_eigvals_ok [] (proj1 spread_ok) (proj2 spread_ok)) as (h0 & l & h' & d & es & _ & E & _ & T & S & _).
  exists h', d. split; [exact E|]. clear E. rewrite <- (length_of_Forall2 S), <- (length_of_Forall2 T). reflexivity.
Qed.
Lemma demo_sparsity_rows : exists rows, List.length rows = 2%nat /\ Forall (fun r => exists c e, In c sparsity_cases /\ tuned_sheet spread c e /\ row_about r (sheet_mi e) (snd e)) rows /\
  (forall r, In r rows -> In (r_estimator (mr_run r)) (map style_id mi_styles)).
Proof.
  destruct (dense_fits (J := demo) spread ex_eigvals ex_mvn ex_uniform ex_eigvals_ok first_alpha ltac:(unfold first_alpha; lra) []) as (_ & _ & e & _ & _ & T & _).
  destruct (sparse_fits (J := demo) spread ex_eigvals ex_mvn ex_uniform ex_eigvals_ok 1 ltac:(lia) []) as (_ & _ & e' & _ & _ & T' & _).
  exists [{| mr_run := run_of "CCA" "a" 10000 1 (sheet_mi e); mr_params := snd e |}; {| mr_run := run_of "MINE" "b" 10000 4 (sheet_mi e'); mr_params := snd e' |}].
  split; [reflexivity|]. split.
  - constructor; [|constructor; [|constructor]].
    + exists (10%Z, first_alpha), e. split; [|split; [exact T|split; reflexivity]]. unfold sparsity_cases. apply in_or_app. left. apply in_map. unfold alphas. cbn [map]. do 9 right. left. lra.
    + exists (1%Z, 0), e'. split; [|split; [exact T'|split; reflexivity]]. unfold sparsity_cases. apply in_or_app. right. left. reflexivity.
  - intros r [<-|[<-|[]]]; cbn; tauto.
Qed.

(** Concrete instances for the statements in [HighMiFigureProps]. *)
From Coq Require Import String Ascii Sorted Lia Lra.
From Verif Require Import Base BaseLemmas UtilsModel JaxModel SamplersModel GaussianModel BenchmarkModel TasksModel TasksSpec TablesModel TablesSpec TrainingExamples TasksExamples BasicExamples
  HighMiSpec SparsitySpec SparsityExamples PlotMiModel PlotMiSpec PlotMiTails PlotMiExamples HighMiFigureModel HighMiFigureSpec HighMiFigureThms.
Open Scope R_scope.

Definition split_up : formats := {| float_repr := float_repr ex_formats; float_fixed := fun _ x => strokes (rank desired x) |}.
Lemma split_up_ok : NoDup (map (float_fixed split_up 3) desired).
Proof.
  assert (N : NoDup desired).
  { unfold desired. repeat (apply NoDup_cons; [cbn [In]; intros H; repeat destruct H as [H|H]; lra|]). apply NoDup_nil. }
  apply (NoDup_nth _ ""%string). intros i j Hi Hj H. rewrite map_length in Hi, Hj.
  rewrite !(nth_indep _ ""%string (float_fixed split_up 3 0)) in H by (rewrite map_length; assumption). rewrite !map_nth in H. apply strokes_inj in H.
  now rewrite !rank_nth in H by assumption.
Qed.
Lemma demo_high_mi_tasks expm : exists h' d, high_mi_tasks (J := demo) split_up ex_eigvals ex_mvn expm ex_uniform [] = (h', Ok d) /\ List.length d = 24%nat.
Proof.
  destruct (high_mi_built (J := demo) split_up ex_eigvals ex_mvn expm ex_uniform ex_eigvals_ok [] split_up_ok) as (h0 & l & h' & d & es & _ & E & _ & T & S & _).
  exists h', d. split; [exact E|]. clear E. rewrite <- (length_of_Forall2 S), <- (length_of_Forall2 T). reflexivity.
Qed.
Lemma demo_high_mi_rows : exists rows ps, Forall (fun r => exists c e, In c high_cases /\ high_sheet split_up c e /\ row_about r (sheet_mi e) (snd e)) rows /\
  (forall r, In r rows -> In (r_estimator (mr_run r)) (map style_id mi_styles)) /\ figure_high_mi rows = Ok ps /\ map fst ps = ["Half-cube"; "Spiral"]%string.
Proof.
  destruct (gaussian_fits (J := demo) split_up ex_eigvals ex_mvn ex_uniform ex_eigvals_ok 5 "Spiral" ltac:(lra) []) as (_ & _ & _ & _ & _ & (c & Hc & Wc & _) & _).
  set (e1 := (("spiral-" ++ "sparse-gaussian-" ++ float_fixed split_up 3 5)%string, ("Spiral" ++ " with " ++ float_fixed split_up 2 5 ++ " MI")%string, - ln (1 - c ^ 2),
         [("correlation", PFloat (Fin c)); ("desired_mi", PFloat (Fin 5)); ("true_mi", PFloat (Fin (- ln (1 - c ^ 2)))); ("dim", PInt 3); ("family_name", PStr "Spiral");
          ("speed", PFloat (Fin (1 / 3))); ("normalize_speed", PBool true)]%string) : sheet).
  set (e2 := (("half_cube-" ++ "sparse-gaussian-" ++ float_fixed split_up 3 5)%string, ("Half-cube" ++ " with " ++ float_fixed split_up 2 5 ++ " MI")%string, - ln (1 - c ^ 2),
         [("correlation", PFloat (Fin c)); ("desired_mi", PFloat (Fin 5)); ("true_mi", PFloat (Fin (- ln (1 - c ^ 2)))); ("dim", PInt 3); ("family_name", PStr "Half-cube")]%string) : sheet).
  set (rows := [{| mr_run := run_of "MINE" "a" 10000 4 (sheet_mi e1); mr_params := snd e1 |}; {| mr_run := run_of "CCA" "b" 10000 5 (sheet_mi e2); mr_params := snd e2 |}]).
  assert (A : Forall (about_high_mi split_up) rows).
  { constructor; [|constructor; [|constructor]].
    - exists (("Spiral", "spiral-", "Spiral", [("speed", PFloat (Fin (1 / 3))); ("normalize_speed", PBool true)]), 5)%string, e1.
      split; [|split; [exists c; split; [exact Hc|split; [exact Wc|reflexivity]]|split; reflexivity]].
      unfold high_cases, high_families. apply in_flat_map. eexists. split; [right; left; reflexivity|]. apply in_map_iff. exists 5. split; [reflexivity|]. unfold desired. cbn. tauto.
    - exists (("Half-cube", "half_cube-", "Half-cube", []), 5)%string, e2.
      split; [|split; [exists c; split; [exact Hc|split; [exact Wc|reflexivity]]|split; reflexivity]].
      unfold high_cases, high_families. apply in_flat_map. eexists. split; [right; right; left; reflexivity|]. apply in_map_iff. exists 5. split; [reflexivity|]. unfold desired. cbn. tauto. }
  assert (K : forall r, In r rows -> In (r_estimator (mr_run r)) (map style_id mi_styles)) by (intros r [<-|[<-|[]]]; cbn; tauto).
  destruct (high_mi_figure split_up rows ltac:(discriminate) A K) as (ps & E & [N S] & I & _). exists rows, ps. split; [exact A|]. split; [exact K|]. split; [exact E|]. clear E.
  assert (Q : forall f, In f (map fst ps) <-> f = "Spiral"%string \/ f = "Half-cube"%string).
  { intros f. rewrite I. split.
    - intros (r & [<-|[<-|[]]] & H); unfold has_family in H; cbn in H; injection H as <-; auto.
    - intros [->| ->]; [exists (nth 0 rows (nth 0 rows {| mr_run := run_of "" "" 0 0 0; mr_params := [] |}))|exists (nth 1 rows {| mr_run := run_of "" "" 0 0 0; mr_params := [] |})]; (split; [cbn; tauto|reflexivity]). }
  destruct (map fst ps) as [|a [|b [|x l]]].
  - destruct (proj2 (Q "Spiral"%string) (or_introl eq_refl)).
  - destruct (proj2 (Q "Spiral"%string) (or_introl eq_refl)) as [->|[]]. destruct (proj2 (Q "Half-cube"%string) (or_intror eq_refl)) as [G|[]]; discriminate.
  - inversion S as [|? ? _ O]; subst. inversion O as [|? ? L]; subst. inversion N as [|? ? N1 _]; subst. cbn in N1.
    destruct (proj1 (Q a) (or_introl eq_refl)) as [->| ->], (proj1 (Q b) (or_intror (or_introl eq_refl))) as [->| ->]; try reflexivity; try tauto. vm_compute in L. discriminate.
  - exfalso. inversion N as [|? ? N1 N2]; subst. inversion N2 as [|? ? N3 _]; subst. cbn in N1, N3.
    destruct (proj1 (Q a) (or_introl eq_refl)) as [->| ->], (proj1 (Q b) (or_intror (or_introl eq_refl))) as [->| ->], (proj1 (Q x) (or_intror (or_intror (or_introl eq_refl)))) as [->| ->]; tauto.
Qed.

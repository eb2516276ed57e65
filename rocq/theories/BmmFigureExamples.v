(** Concrete inputs for the statements in [BmmFigureProps]. *)
From Coq Require Import String Ascii Lia Lra.
From Verif Require Import Base BaseLemmas UtilsModel BenchmarkModel TablesModel RulesModel CriticsModel ConfigModel
  GmmBenchModel GmmBenchSpec BmmFigureModel BmmFigureThms GmmBenchExamples.
Open Scope R_scope.

Definition ex_scaler : y_scaler := {| ys_ids := ["a"; "b"]%string; ys_eps := 1 / 10 |}.
Definition wide_scaler : y_scaler := {| ys_ids := ["a"; "b"]%string; ys_eps := 7 / 10 |}.
Lemma ex_heights : get_y ex_scaler "b" 3 = Ok [6 / 10; 75 / 100; 9 / 10].
Proof.
  unfold get_y, ex_scaler, ys_n. cbn. unfold linspace. cbn -[IZR Rdiv]. replace (3 - 1)%Z with 2%Z by reflexivity. apply (f_equal (@Ok _)).
  repeat apply (f_equal2 cons); try reflexivity; cbn; lra.
Qed.
Lemma ex_strips : ys_eps ex_scaler < 1 / INR (ys_n ex_scaler) /\
  ~ Forall (strip wide_scaler 0) [7 / 10] /\ get_y wide_scaler "a" 1 = Ok [7 / 10].
Proof.
  split; [cbn; lra|]. split.
  - intros H. inversion H as [|? ? [_ X]]; subst. cbn in X. lra.
  - unfold get_y, wide_scaler, ys_n. cbn. unfold linspace. cbn. apply (f_equal (@Ok _)). apply (f_equal2 cons); [rewrite Rmult_0_l; lra|reflexivity].
Qed.
Definition ex_bmm_scaler : y_scaler := {| ys_ids := ["BMM"; "KSG"]%string; ys_eps := 1 / 10 |}.
Definition ex_rows_of (tasks : list string) : list row :=
  map (fun t => {| r_estimator := "KSG"; r_task := t; r_n := 5000; r_estimate := Fin (1 / 2); r_true := Fin 1 |}) tasks.
Definition ex_v2 : list row := ex_rows_of ["a"%string].
Lemma ex_panel : exists p, draw_panel ex_bmm_scaler ex_v2 [ex_record 1 0; ex_record 0 1] 5000 ["KSG"]%string "a" = Ok p /\ p_true p = Fin 1.
Proof.
  destruct (panel_fails ex_bmm_scaler ex_v2 [ex_record 1 0; ex_record 0 1] 5000 ["KSG"]%string "a") as [_ T].
  - now left.
  - intros e [<-|[]]. right. now left.
  - destruct T as [T _]; [eexists; split; [now left|reflexivity]|]. destruct T as (p & E).
    + intros r [<-|[<-|[]]] _; cbn; lra.
    + exists p. split; [exact E|]. destruct (panel_shows _ _ _ _ _ _ _ E) as (ys & _ & _ & _ & _ & ->). apply mean_same; [discriminate|repeat constructor].
Qed.
Lemma ex_not_drawn : draw_panel ex_bmm_scaler ex_v2 [ex_record 1 0] 5000 ["KSG"]%string "b" = Err KeyError /\
  draw_panel ex_bmm_scaler ex_v2 [{| g_task := "a"; g_seed := 0; g_true := Fin 1; g_low := 0; g_mean := 2; g_high := 1 |}] 5000 ["KSG"]%string "a" = Err ValueError.
Proof.
  split; [reflexivity|].
  destruct (panel_fails ex_bmm_scaler ex_v2 [{| g_task := "a"; g_seed := 0; g_true := Fin 1; g_low := 0; g_mean := 2; g_high := 1 |}] 5000 ["KSG"]%string "a") as [_ T].
  - now left.
  - intros e [<-|[]]. right. now left.
  - destruct T as [_ T]; [eexists; split; [now left|reflexivity]|]. apply T. intros H. specialize (H _ (or_introl eq_refl) eq_refl). cbn in H. lra.
Qed.
Lemma ex_figure :
  (forall t, In t (map fst figure_tasks) -> exists r, In r (ex_rows_of (map fst figure_tasks)) /\ r_task r = t) /\
  (forall r, In r [ex_record 1 0; ex_record 0 1] -> g_low r <= g_mean r <= g_high r).
Proof.
  split.
  - intros t I. exists {| r_estimator := "KSG"; r_task := t; r_n := 5000; r_estimate := Fin (1 / 2); r_true := Fin 1 |}. split; [|reflexivity].
    unfold ex_rows_of. apply in_map_iff. exists t. auto.
  - intros r [<-|[<-|[]]]; cbn; lra.
Qed.

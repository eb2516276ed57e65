(** Concrete inputs for the statements in [GmmBenchProps] and [BmmFigureProps]. *)
From Coq Require Import String Ascii Permutation.
From Verif Require Import Base BaseLemmas UtilsModel UtilsSpec JaxModel SamplersModel BenchmarkModel BenchmarkSpec BenchmarkExamples
  TrainingExamples TablesModel RulesModel RulesSpec RulesProofs RulesThms RulesExamples GmmBenchModel GmmBenchSpec GmmBenchQuantiles GmmBenchRuns GmmBenchTable.
Open Scope Z_scope.
Local Notation length := List.length.

Definition digit3 (r : R) : string := if Req_EM_T r 2 then "2" else if Req_EM_T r 1 then "1" else "0".
Definition parse3 (s : string) : option R :=
  if String.eqb s "2" then Some 2%R else if String.eqb s "1" then Some 1%R else if String.eqb s "0" then Some 0%R else None.
Lemma digit3_readable r : r = 0%R \/ r = 1%R \/ r = 2%R -> readable digit3 parse3 r.
Proof.
  intros H. unfold readable, digit3. destruct (Req_EM_T r 2) as [->|N2]; [repeat split|]. destruct (Req_EM_T r 1) as [->|N1]; [repeat split|].
  destruct H as [-> | [-> | ->]]; [repeat split|easy|easy].
Qed.
Lemma sample3 n s : 0 < n -> s = 0 \/ s = 1 \/ s = 2 ->
  sample_ok digit3 parse3 (@ex_task demo) n s (repeat [IZR s] (Z.to_nat n)) (repeat [0%R] (Z.to_nat n)).
Proof.
  intros Hn Hs. unfold sample_ok. rewrite !repeat_length. repeat split; auto. exists 1%nat, 1%nat. split; [lia|].
  assert (C : forall r k, rectangular 1 (repeat [r] k)).
  { intros r k. unfold rectangular. apply Forall_forall. intros x Hx. now apply repeat_spec in Hx as ->. }
  repeat split; auto; apply repeat_entries, digit3_readable; [destruct Hs as [-> | [-> | ->]]; auto|auto].
Qed.

(** A posterior with a value which is not a number. *)
Definition ex_posterior : posterior_estimator := fun xs ys => Ok [Fin 3; NaN; Fin 1].
Definition ex_gmm : sdict posterior_estimator := [("GMM", ex_posterior)]%string.
Definition ex_gmm_tasks : sdict (task demo) := [("demo", ex_task)]%string.
Definition ex_names : sdict string := [("demo", "A task")]%string.

Lemma ex_gmm_config : gmm_config_ok digit3 parse3 ex_gmm ex_gmm_tasks [5] [0; 1; 2] ex_heap.
Proof.
  split; [repeat constructor; cbn [fst]; usable|]. split.
  - repeat constructor; cbn [fst snd]; try usable.
  - split; [repeat constructor; discriminate|]. intros tid t n s [[= <- <-]|[]] Hn Hs. do 2 eexists. apply sample3.
    + destruct Hn as [<-|[]]; lia.
    + destruct Hs as [<-|[<-|[<-|[]]]]; auto.
Qed.
Lemma ex_posteriors_ok : posteriors_ok digit3 parse3 ex_gmm ex_gmm_tasks [5] [0; 1; 2].
Proof. intros eid e tid t n s xs ys [[= <- <-]|[]] _ _ _ _. eexists. reflexivity. Qed.
Lemma ex_gmm_described : tasks_described ex_gmm_tasks.
Proof.
  intros tid t [[= <- <-]|[]]. exists 1, 1, (Fin (1 / 2)). repeat split; [|discriminate].
  cbn. apply Rltb_false. lra.
Qed.
Lemma ex_gmm_run : exists w h' rows,
  gmm_make_all ex_gmm ex_gmm_tasks digit3 parse3 (gmm_schedule (map fst ex_gmm) (map fst ex_gmm_tasks) [5] [0; 1; 2]) [] = Ok w /\
  gmm_results ex_gmm ex_gmm_tasks [5] [0; 1; 2] w ex_heap = (h', Ok rows) /\ length rows = 3%nat.
Proof.
  destruct (gmm_run_completes ex_gmm ex_gmm_tasks [5] [0; 1; 2] ex_heap digit3 parse3 ex_gmm_config ex_posteriors_ok ex_gmm_described)
    as (w & h' & rows & Hw & Hr). exists w, h', rows. split; [exact Hw|]. split; [exact Hr|].
  pose proof (gmm_rows_ok ex_gmm ex_gmm_tasks [5] [0; 1; 2] ex_heap digit3 parse3 _ _ _ _ ex_gmm_config Hw Hr) as HF.
  assert (G : forall (A B : Type) (P : A -> B -> Prop) l m, Forall2 P l m -> length l = length m) by (induction 1; cbn; congruence).
  rewrite <- (G _ _ _ _ _ HF). reflexivity.
Qed.

(** Summaries. *)
Lemma ex_sorted : arranged [3%R; 1%R; 2%R] [1%R; 2%R; 3%R].
Proof.
  split.
  - apply (Permutation_cons_app [1%R; 2%R] [] 3%R). reflexivity.
  - intros i j [A B]. cbn in B. destruct i as [|[|[|i]]], j as [|[|[|j]]]; try lia; cbn; lra.
Qed.
Lemma ex_quantile : quantile (9 / 10) [3%R; 1%R; 2%R] = (28 / 10)%R.
Proof.
  apply (quantile_unique [3%R; 1%R; 2%R] (9 / 10)); [apply quantile_spec; [discriminate|lra]|].
  intros s Hs. rewrite (arranged_unique _ _ _ Hs ex_sorted). exists 1%nat, (8 / 10)%R. cbn. split; [lra|]. split; [lra|]. split; [lia|lra].
Qed.
Lemma ex_summary : summarizes [Fin 3; NaN; Fin 1] (12 / 10) 2 (28 / 10) 1 2.
Proof.
  exists [3%R; 1%R]. split; [repeat constructor; discriminate|]. split; [reflexivity|]. split; [reflexivity|]. split; [lia|]. split; [|discriminate].
  assert (A : arranged [3%R; 1%R] [1%R; 3%R]).
  { split; [apply perm_swap|]. intros i j [A B]. cbn in B. destruct i as [|[|i]], j as [|[|j]]; try lia; cbn; lra. }
  intros _. split; [|split; [split; cbn; [lia|lra]|]]; intros s Hs; rewrite (arranged_unique _ _ _ Hs A); [exists 0%nat, (1 / 10)%R|exists 0%nat, (9 / 10)%R];
    cbn; (split; [lra|]; split; [lra|]; split; [lia|lra]).
Qed.

(** Two records of one task, and a format. *)
Definition ex_format (v : fl) : string := match v with Fin r => if Rltb 0 r then "1.00" else "0.00" | _ => "nan" end.
Definition ex_record (m : R) (s : Z) : record := {| g_task := "a"; g_seed := s; g_true := Fin 1; g_low := m; g_mean := m; g_high := m |}.
Definition ex_row (e : string) (m : R) (s : Z) : sdict py :=
  [("task_id", PStr "a"); ("estimator_id", PStr e); ("seed", PInt s); ("mi_true", PFloat (Fin 1)); ("mi_q_low", PFloat (Fin m));
   ("mi_mean", PFloat (Fin m)); ("mi_q_high", PFloat (Fin m))]%string.
Lemma ex_records : map_rows read_record [ex_row "GMM" 1 0; ex_row "GMM" 0 1]%string = Ok [ex_record 1 0; ex_record 0 1].
Proof. reflexivity. Qed.
Lemma estimators_refuted : exists two_digits names rows table r,
  create_table two_digits names rows = Ok table /\ In r rows /\ (exists x, read_record r = Ok x /\
    forall row k, In row table -> sdict_get row k <> Some (PStr (cell two_digits x))).
Proof.
  set (rows := [ex_row "GMM" 1 0; ex_row "GMM-2" 0 0]%string).
  assert (F1 : Rltb 0 1 = true) by (apply Rltb_true; lra). assert (F0 : Rltb 0 0 = false) by (apply Rltb_false; lra).
  exists ex_format, [("a", "A")]%string, rows. eexists. exists (ex_row "GMM" 1 0).
  split; [unfold create_table; cbn; unfold ex_format, create_result_entry; cbn; rewrite F1, F0; reflexivity|].
  split; [now left|]. exists (ex_record 1 0). split; [reflexivity|].
  intros row k [<-|[]]. unfold cell, ex_record, ex_format. cbn [g_mean g_low g_high]. rewrite F1. cbn [sdict_get].
  repeat match goal with |- context [if String.eqb ?a ?b then _ else _] => destruct (String.eqb a b); [discriminate|] end. discriminate.
Qed.

(** A concrete configuration for the statements in [RulesProps]. *)
From Coq Require Import String Ascii.
From Verif Require Import Base BaseLemmas UtilsModel UtilsSpec JaxModel SamplersModel BenchmarkModel BenchmarkSpec BenchmarkExamples
  TrainingExamples RulesModel RulesSpec RulesProofs RulesThms.
Open Scope Z_scope.
Local Notation length := List.length.

Definition ex_digit (r : R) : string := if Req_EM_T r 1 then "1" else "0".
Lemma ex_digit_readable r : r = 0%R \/ r = 1%R -> readable ex_digit ex_parse r.
Proof.
  intros H. unfold readable, ex_digit. destruct (Req_EM_T r 1) as [->|Hn]; [repeat split|].
  destruct H as [-> | ->]; [repeat split|easy].
Qed.

Definition ex_estimators : sdict estimator := [("KSG-5", good_estimator); ("R-KSG", bad_estimator)]%string.
Definition ex_tasks : sdict (task demo) := [("normal-1v1", ex_task)]%string.
Definition ex_clocks (path : string) : clock := ex_clock.

Ltac usable := unfold usable_name, occurs; cbn; repeat split; intuition discriminate.

Lemma repeat_entries (P : R -> Prop) r n : P r -> all_entries P (repeat [r] n).
Proof. intros H. unfold all_entries. apply Forall_forall. intros x Hx. apply repeat_spec in Hx as ->. repeat constructor. exact H. Qed.

Lemma ex_sample n s : 0 < n -> s = 0 \/ s = 1 ->
  sample_ok ex_digit ex_parse (@ex_task demo) n s (repeat [IZR s] (Z.to_nat n)) (repeat [0%R] (Z.to_nat n)).
Proof.
  intros Hn Hs. unfold sample_ok. rewrite !repeat_length. repeat split; auto. exists 1%nat, 1%nat. split; [lia|].
  assert (C : forall r k, rectangular 1 (repeat [r] k)).
  { intros r k. unfold rectangular. apply Forall_forall. intros x Hx. now apply repeat_spec in Hx as ->. }
  repeat split; auto; apply repeat_entries, ex_digit_readable; [destruct Hs as [-> | ->]; auto|auto].
Qed.

Lemma ex_config : config_ok ex_digit ex_parse ex_estimators ex_tasks [2; 3] [0; 1] ex_heap.
Proof.
  split; [repeat constructor; cbn [fst]; usable|]. split.
  - repeat constructor; cbn [fst snd]; try usable.
  - split; [repeat constructor; discriminate|]. intros tid t n s [[= <- <-]|[]] Hn Hs. do 2 eexists. apply ex_sample.
    + destruct Hn as [<-|[<-|[]]]; lia.
    + destruct Hs as [<-|[<-|[]]]; auto.
Qed.

Lemma ex_estimators_ok : estimators_ok ex_digit ex_parse ex_estimators ex_tasks [2; 3] [0; 1].
Proof.
  intros eid e tid t n s xs ys He _ _ _ _. destruct He as [[= <- <-]|[[= <- <-]|[]]]; (split; [discriminate|]); intros r.
  - intros [= <-]. repeat constructor.
  - discriminate.
Qed.

Lemma ex_described : tasks_described ex_tasks.
Proof.
  intros tid t [[= <- <-]|[]]. exists 1, 1, (Fin (1 / 2)). repeat split; [|discriminate].
  cbn. apply Rltb_false. lra.
Qed.

(** A run of it, with the rows of the good and the failing estimator. *)
Lemma ex_run_rows : exists w h' rows,
  make_all ex_estimators ex_tasks ex_heap ex_digit ex_parse ex_clocks
    (schedule (map fst ex_estimators) (map fst ex_tasks) [2; 3] [0; 1]) [] = Ok w /\
  results ex_estimators ex_tasks [2; 3] [0; 1] w ex_heap = (h', Ok rows) /\ length rows = 8%nat /\
  (exists row, nth_error rows 0 = Some row /\ sdict_get row "mi_estimate" = Some (PFloat (Fin 2)) /\
     sdict_get row "mi_true" = Some (PFloat (Fin (1 / 2)))) /\
  (exists row, nth_error rows 7 = Some row /\ sdict_get row "success" = Some (PBool false) /\
     sdict_get row "n_samples" = Some (PInt 3) /\ sdict_get row "seed" = Some (PInt 1)).
Proof.
  destruct (run_completes ex_estimators ex_tasks [2; 3] [0; 1] ex_heap ex_digit ex_parse ex_clocks ex_config ex_estimators_ok ex_described)
    as (w & h' & rows & Hw & Hr). exists w, h', rows. split; [exact Hw|]. split; [exact Hr|].
  pose proof (run_rows _ _ _ _ _ _ _ _ _ _ _ _ _ ex_config Hw Hr) as HF. split.
  { clear Hr. assert (G : forall (A B : Type) (P : A -> B -> Prop) l m, Forall2 P l m -> length l = length m) by (induction 1; cbn; congruence).
    rewrite <- (G _ _ _ _ _ HF). reflexivity. }
  change (combinations _ _ _ _) with
    [("KSG-5", "normal-1v1", 2, 0); ("KSG-5", "normal-1v1", 2, 1); ("KSG-5", "normal-1v1", 3, 0); ("KSG-5", "normal-1v1", 3, 1);
     ("R-KSG", "normal-1v1", 2, 0); ("R-KSG", "normal-1v1", 2, 1); ("R-KSG", "normal-1v1", 3, 0); ("R-KSG", "normal-1v1", 3, 1)]%string in HF.
  repeat match goal with H : Forall2 _ (_ :: _) _ |- _ => inversion H; clear H; subst end.
  match goal with H : Forall2 _ [] _ |- _ => inversion H; clear H; subst end.
  cbv beta iota in *.
  split; eexists; (split; [reflexivity|]).
  - match goal with H : exists e t xs ys, sdict_get ex_estimators "KSG-5" = Some e /\ _ /\ sample_ok _ _ t 2 0 _ _ /\ _ |- _ =>
      destruct H as (e & t & xs & ys & Ge & Gt & S & Hrow) end.
    injection Ge as <-. injection Gt as <-. destruct S as (_ & S & L & _). destruct Hrow as (_ & _ & _ & _ & C & _ & M & _).
    cbn in C. destruct C as (_ & C & _). rewrite L in C. split; [exact C|]. destruct M as (mi & [= <-] & M). exact M.
  - match goal with H : exists e t xs ys, sdict_get ex_estimators "R-KSG" = Some e /\ _ /\ sample_ok _ _ t 3 1 _ _ /\ _ |- _ =>
      destruct H as (e & t & xs & ys & Ge & Gt & S & Hrow) end.
    injection Ge as <-. destruct Hrow as (_ & _ & N & Sd & C & _). cbn in C. tauto.
Qed.

Lemma ex_usable : usable_name "KSG-5" /\ usable_name "normal-1v1" /\ ~ occurs "/" "normal-1v1".
Proof. split; [usable|]. split; [usable|]. unfold occurs. cbn. intuition discriminate. Qed.

(** Concrete figures, and the claims which are false. *)
From Coq Require Import String.
From Verif Require Import Base BaseLemmas UtilsModel GaussianModel BenchmarkModel TablesModel TablesSpec TablesProofs TablesThms TablesExamples
  FiguresModel FiguresSpec FiguresProofs FiguresThms.
From Verif Require TasksSpec BenchmarkExamples TasksExamples TrainingExamples.
Open Scope R_scope.
Local Notation length := List.length.
Local Open Scope string_scope.

Lemma ln_two : ln (3 / 2) < Rabs (ln 2).
Proof.
  assert (0 < ln 2) by (rewrite <- ln_1; apply ln_increasing; lra). rewrite Rabs_right by lra. apply ln_increasing; lra.
Qed.
Lemma tol_pos : 0 < ln (3 / 2).
Proof. rewrite <- ln_1. apply ln_increasing; lra. Qed.
Lemma small_0 : small (Fin 0).
Proof. exists 0. split; [reflexivity|]. rewrite Rabs_R0. apply tol_pos. Qed.
Lemma not_small_2 : ~ small (Fin (ln 2)).
Proof. intros (x & E & H). injection E as <-. assert (L := ln_two). lra. Qed.

Lemma ex_needed : n_samples_needed [(5000, Fin 0); (1000, Fin (ln 2)); (2000, Fin 0)]%Z = Fin 2000.
Proof.
  eapply needed_unique; [apply needed_ok|]. left. exists 2000%Z. split; [reflexivity|]. split; [exists (Fin 0); cbn; auto|]. split.
  - intros m _ Hm v [E|[E|[E|[]]]]; injection E as <- <-; try lia; apply small_0.
  - intros k (v & [E|[E|[E|[]]]]) Hk; injection E as <- <-; try lia. exists 1000%Z. split; [exists (Fin (ln 2)); cbn; auto|]. split; [lia|].
    intros H. apply not_small_2, H. cbn. auto.
Qed.
Lemma ex_never : n_samples_needed [(1000, Fin 0); (2000, NaN)]%Z = PInf.
Proof.
  eapply needed_unique; [apply needed_ok|]. right. left. split; [reflexivity|]. exists 2000%Z. split; [exists NaN; cbn; auto|]. split.
  - intros H. destruct (H NaN) as (x & E & _); [cbn; auto|discriminate].
  - intros m (v & [E|[E|[]]]); injection E as <- <-; lia.
Qed.
(** Not the smallest size which is solved. *)
Lemma not_smallest : ~ (forall rows n v, In (n, v) rows -> small v -> exists m : Z, n_samples_needed rows = Fin (IZR m) /\ (m <= n)%Z).
Proof.
  intros H. destruct (H [(1000, Fin 0); (2000, NaN)]%Z 1000%Z (Fin 0)) as (m & E & _); [now left|apply small_0|]. rewrite ex_never in E. discriminate.
Qed.

(** KSG needs 2000 samples; one of two seeds of MINE fails at 5000 samples. *)
Definition ex_estimators : sdict bool := [("MINE", true); ("KSG", false)].
Definition ex_tasks : sdict (string * fl) := [("t1", ("Normal", Fin 1))].
Definition ex_names : sdict string := [("MINE", "Mine"); ("KSG", "Ksg")].
Definition ex_runs : list row :=
  [ex_row "KSG" "t1" 1000 2 1; ex_row "KSG" "t1" 2000 1 1; ex_row "KSG" "t1" 5000 1 1; ex_row "MINE" "t1" 5000 1 1; ex_row "MINE" "t1" 5000 (-1) 1].

Lemma ksg_kept n v m : ~ failed_run ex_estimators ex_runs (ex_row "KSG" "t1" n v m).
Proof. intros [H _]. discriminate. Qed.
Lemma ksg_error a : 0 < a -> error (ex_row "KSG" "t1" 0 a 1) = Fin (ln a).
Proof.
  intros H. unfold error. cbn [r_estimate r_true ex_row np_divide]. destruct (Reqb 1 0) eqn:E; [apply Reqb_true in E; lra|].
  cbn [np_ln]. unfold np_log. replace (a / 1) with a by field. destruct (Rltb 0 a) eqn:L; [reflexivity|apply Rltb_false in L; lra].
Qed.
Lemma mean_one x : mean_of [Fin x] (Fin x).
Proof.
  assert (M := mean_finite [Fin x] [x] ltac:(discriminate) eq_refl). unfold rmean in M. cbn in M. replace ((x + 0) / 1) with x in M by field. exact M.
Qed.
Lemma ksg_mean n w : mean_over ex_estimators ex_runs n error "KSG" "t1" w <->
  (n = 1000%Z /\ w = Fin (ln 2)) \/ (n = 2000%Z /\ w = Fin (ln 1)) \/ (n = 5000%Z /\ w = Fin (ln 1)).
Proof.
  assert (D : (n = 1000%Z \/ n = 2000%Z \/ n = 5000%Z) \/ seeds ex_runs "KSG" "t1" n = []).
  { destruct (Z.eq_dec n 1000); [auto|]. destruct (Z.eq_dec n 2000); [auto|]. destruct (Z.eq_dec n 5000); [auto|]. right. unfold seeds.
    change (runs ex_runs "KSG" "t1") with [ex_row "KSG" "t1" 1000 2 1; ex_row "KSG" "t1" 2000 1 1; ex_row "KSG" "t1" 5000 1 1]. cbn [filter r_n ex_row].
    destruct (Z.eqb_spec 1000 n); [lia|]. destruct (Z.eqb_spec 2000 n); [lia|]. destruct (Z.eqb_spec 5000 n); [lia|]. reflexivity. }
  assert (U : forall n a, seeds ex_runs "KSG" "t1" n = [ex_row "KSG" "t1" n a 1] -> 0 < a -> mean_over ex_estimators ex_runs n error "KSG" "t1" w <-> w = Fin (ln a)).
  { intros n0 a E H. unfold mean_over. rewrite E. split.
    - intros (s & K & _ & M). inversion K as [|? ? ? A B|? ? ? A B]; subst; [|exfalso; now apply A, ksg_kept]. inversion B; subst. cbn [map] in M.
      change (error (ex_row "KSG" "t1" n0 a 1)) with (error (ex_row "KSG" "t1" 0 a 1)) in M. rewrite ksg_error in M by exact H. eapply mean_unique; [exact M|apply mean_one].
    - intros ->. exists [ex_row "KSG" "t1" n0 a 1]. split; [constructor; [apply ksg_kept|constructor]|]. split; [discriminate|]. cbn [map].
      change (error (ex_row "KSG" "t1" n0 a 1)) with (error (ex_row "KSG" "t1" 0 a 1)). rewrite ksg_error by exact H. apply mean_one. }
  destruct D as [[->|[->| ->]]|E].
  - rewrite (U 1000%Z 2 eq_refl ltac:(lra)). intuition (auto; lia).
  - rewrite (U 2000%Z 1 eq_refl ltac:(lra)). intuition (auto; lia).
  - rewrite (U 5000%Z 1 eq_refl ltac:(lra)). intuition (auto; lia).
  - split.
    + intros (s & K & Hs & _). rewrite E in K. inversion K; subst. contradiction.
    + intros H. exfalso. destruct H as [[-> _]|[[-> _]|[-> _]]]; discriminate.
Qed.
Lemma ex_samples : samples_needed ex_estimators ex_runs "KSG" "t1" (Fin 2000).
Proof.
  split; [exists 2000%Z, (Fin (ln 1)); apply ksg_mean; auto|]. left. exists 2000%Z. split; [reflexivity|]. split; [exists (Fin (ln 1)); apply ksg_mean; auto|].
  assert (S : small (Fin (ln 1))) by (rewrite ln_1; apply small_0). split.
  - intros m (w & H) Hm. exists w. split; [exact H|]. apply ksg_mean in H as [[-> _]|[[_ ->]|[_ ->]]]; [lia|exact S|exact S].
  - intros k (w & H) Hk. exists 1000%Z. split; [exists (Fin (ln 2)); apply ksg_mean; auto|]. split.
    + apply ksg_mean in H as [[-> _]|[[-> _]|[-> _]]]; lia.
    + intros (u & A & B). apply ksg_mean in A as [[_ ->]|[[A _]|[A _]]]; [now apply not_small_2|discriminate|discriminate].
Qed.
Lemma ex_top : top_size ex_runs 5000%Z.
Proof. split; [eexists; split; [right; right; now left|reflexivity]|]. intros r H. cbn in H. intuition (subst; cbn; lia). Qed.
Lemma ex_fails : fails ex_estimators ex_runs "MINE" "t1" (Fin 1).
Proof.
  exists 5000%Z, [ex_row "MINE" "t1" 5000 (-1) 1]. split; [exact ex_top|]. split; [reflexivity|]. split; [discriminate|]. split; [|reflexivity].
  assert (E : seeds ex_runs "MINE" "t1" 5000 = [ex_row "MINE" "t1" 5000 1 1; ex_row "MINE" "t1" 5000 (-1) 1]) by reflexivity. rewrite E. constructor.
  - intros [_ [H|(m & L & H)]].
    + cbn in H. destruct (Rlt_dec _ _); [lra|discriminate].
    + assert (L' : largest (map r_estimate (seeds ex_runs "MINE" "t1" 5000)) (Fin 1)).
      { rewrite E. right. split; [discriminate|]. split; [now left|]. intros x [<-|[<-|[]]]; cbn; destruct (Rlt_dec _ _); try reflexivity; exfalso; lra. }
      rewrite (largest_unique _ _ _ L L') in H. cbn in H. destruct (Rlt_dec _ _); [lra|discriminate].
  - constructor; [|constructor]. split; [reflexivity|]. left. cbn. destruct (Rlt_dec _ _); [reflexivity|exfalso; lra].
Qed.
Lemma ex_table_exists : exists t, n_samples_table [] ex_estimators ex_tasks ex_names ex_runs = Ok t.
Proof.
  destruct (samples_table_total [] ex_estimators ex_tasks ex_names ex_runs) as [H|[_ (e & b & k & v & I & _ & N)]]; [exact H|].
  destruct I as [I|[I|[]]]; injection I as <- <-; discriminate.
Qed.

(** A task without results breaks the first figure, even if all estimators have names. *)
Definition ex_more_tasks : sdict (string * fl) := [("t1", ("Normal", Fin 1)); ("t2", ("Student", Fin 1))].
Lemma ex_missing : mi_estimate_figure [] ex_estimators ex_more_tasks ex_names ex_runs = Err ValueError.
Proof.
  destruct (estimate_figure_total [] ex_estimators ex_more_tasks ex_names ex_runs) as [[(e & b & k & v & I & _ & N) _]|[(_ & _ & H)|(_ & C & _)]].
  - destruct I as [I|[I|[]]]; injection I as <- <-; discriminate.
  - exact H.
  - exfalso. destruct (C "t2") as (e & v & n & _ & s & K & Hs & _); [cbn; auto|]. destruct s as [|r s]; [contradiction|].
    destruct (keeping_in _ _ _ r K) as [I _]; [now left|]. apply in_seeds in I as (I & _ & T & _). cbn in I. intuition (subst; discriminate).
Qed.
Lemma estimate_figure_incomplete : ~ (forall default estimators tasks names results,
  (forall e, In e (map fst estimators) -> sdict_get (sdict_merge default names) e <> None) -> exists r, mi_estimate_figure default estimators tasks names results = Ok r).
Proof.
  intros H. destruct (H [] ex_estimators ex_more_tasks ex_names ex_runs) as (r & E); [|rewrite ex_missing in E; discriminate].
  intros e [<-|[<-|[]]]; discriminate.
Qed.
(** Different numbers of samples may be annotated alike. *)
Lemma annotation_coarse : n_samples_annotator 10000 (Fin 1000) = "1k" /\ n_samples_annotator 10000 (Fin 1999) = "1k" /\ n_samples_annotator 999 PInf = ">0k".
Proof.
  destruct (annotations 10000 ltac:(lia)) as (_ & _ & _ & A). split; [exact (A 1000%Z ltac:(lia))|]. split; [exact (A 1999%Z ltac:(lia))|].
  destruct (annotations 999 ltac:(lia)) as (_ & B & _). exact B.
Qed.

Lemma ex_scale : Forall (fun kt => TasksSpec.usable (snd kt) BenchmarkExamples.ex_heap)
  [("wide", @TasksExamples.wide_task TrainingExamples.demo); ("narrow", BenchmarkExamples.ex_task)].
Proof. constructor; [apply TasksExamples.wide_usable|]. constructor; [apply TasksExamples.ex_usable|constructor]. Qed.

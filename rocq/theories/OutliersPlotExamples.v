(** Examples for the figure of the tasks with noise. *)
From Coq Require Import String Ascii Sorted ZArith Lia Lra Classical ClassicalEpsilon.
From Verif Require Import Base BaseLemmas UtilsModel JaxModel SamplersModel GaussianModel MatrixUtilsModel BmmModel MultivariateModel BenchmarkModel TasksModel TasksSpec
  MixturesModel PaperModel RulesModel OutliersModel DiscreteSpec OutliersSpec BmmSpec BmmProofs OutliersThms TrainingExamples BmmExamples ConfigSpec OutliersTasksSpec
  OutliersPlotModel OutliersPlotSpec OutliersPlotThms.
From mathcomp Require Import ssreflect.
From Verif Require Import MixturesSpec EigvalsExist MultivariateThms MultivariateExamples OutliersFactor OutliersMade OutliersTasks OutliersLoad OutliersTasksExamples OutliersPlotTruth.
Open Scope R_scope.
Local Notation length := List.length.

(** Three rows of a table. *)
Definition demo_parameter (text name : string) : result R :=
  if String.eqb text "mixing: 0.1" then Ok (1 / 10) else if String.eqb text "mixing: 0.001" then Ok (1 / 1000) else Err KeyError.
Definition demo_rows : list result_row :=
  [{| rr_task := "mixing-Gauss-Inlier-0.1"; rr_params := "mixing: 0.1"; rr_estimator := "KSG"; rr_estimate := Fin 1 |};
   {| rr_task := "mixing-Gauss-Inlier-0.001"; rr_params := "mixing: 0.001"; rr_estimator := "KSG"; rr_estimate := Fin 3 |};
   {| rr_task := "mixing-Gauss-Inlier-0.1"; rr_params := "mixing: 0.1"; rr_estimator := "KSG"; rr_estimate := Fin 2 |}]%string.
Definition demo_read : list (R * result_row) := combine [1 / 10; 1 / 1000; 1 / 10] demo_rows.
Lemma demo_reads : Forall2 (fun r kr => snd kr = r /\ demo_parameter (rr_params r) "mixing" = Ok (fst kr)) demo_rows demo_read /\
  (forall r, In r demo_rows -> In (rr_estimator r) (map fst styles)) /\ estimates_at demo_read "KSG" (1 / 10) = [Fin 1; Fin 2].
Proof.
  split; [repeat constructor|]. split.
  - cbn. intros r [<-|[<-|[<-|[]]]]; cbn; auto.
  - unfold estimates_at, demo_read. cbn [combine demo_rows filter fst snd rr_estimator map rr_estimate].
    assert (A : Reqb (1 / 10) (1 / 10) = true) by (unfold Reqb; destruct (Req_EM_T _ _); [reflexivity|lra]).
    assert (B : Reqb (1 / 1000) (1 / 10) = false) by (unfold Reqb; destruct (Req_EM_T _ _); [lra|reflexivity]).
    rewrite A B. reflexivity.
Qed.
Definition stranger : result_row := {| rr_task := "variance-2.0"; rr_params := "mixing: 0.1"; rr_estimator := "DoE"; rr_estimate := Fin 1 |}%string.
Lemma stranger_unknown : ~ In (rr_estimator stranger) (map fst styles).
Proof. cbn. intros H. repeat destruct H as [H|H]; discriminate || destruct H. Qed.

Lemma digits_number a b c : In a (list_ascii_of_string "0123456789.e+-") -> In b (list_ascii_of_string "0123456789.e+-") -> In c (list_ascii_of_string "0123456789.e+-") ->
  number_text (String a (String b (String c EmptyString))).
Proof. intros A B C. unfold number_text. cbn [list_ascii_of_string]. apply Forall_cons; [exact A|]. apply Forall_cons; [exact B|]. apply Forall_cons; [exact C|apply Forall_nil]. Qed.
Lemma demo_ids : inlier_id "mixing-Gauss-Inlier-0.1" /\ outlier_id "mixing-Gauss-Outlier-0.3" /\ variance_id "variance-2.0".
Proof.
  split; [|split]; [exists "0.1"%string|exists "0.3"%string|exists "2.0"%string]; (split; [|reflexivity]); apply digits_number; cbn; tauto.
Qed.
Lemma decider {A} (P : A -> Prop) : exists f : A -> bool, forall a, f a = true <-> P a.
Proof. exists (fun a => match excluded_middle_informative (P a) with left _ => true | right _ => false end). intros a. destruct (excluded_middle_informative (P a)); split; intros; auto; discriminate. Qed.
Lemma demo_deciders : exists f g k, (forall r, f r = true <-> inlier_id (rr_task r)) /\ (forall r, g r = true <-> outlier_id (rr_task r)) /\ (forall r, k r = true <-> variance_id (rr_task r)).
Proof.
  destruct (decider (fun r => inlier_id (rr_task r))) as [f Hf]. destruct (decider (fun r => outlier_id (rr_task r))) as [g Hg].
  destruct (decider (fun r => variance_id (rr_task r))) as [k Hk]. exists f, g, k. auto.
Qed.

(** Reading the printed fractions back. *)
Definition read_back (s : string) : result R := nth (String.length s) (map (fun x => Ok x) (levels ++ map (Rpower 2) exponents)) (Err ValueError).
Lemma read_back_place l x d : In x l -> nth (place l x) (map (fun y => Ok y : result R) l) d = Ok x.
Proof.
  induction l as [|a l IH]; [intros []|]. cbn [place]. intros I. destruct (Req_EM_T x a) as [->|N]; [reflexivity|]. cbn. apply IH. destruct I; [congruence|assumption].
Qed.
Lemma read_back_printed : Forall (fun a => read_back (float_repr printed a) = Ok a) levels.
Proof.
  apply Forall_forall. intros a I. unfold read_back, printed. cbn [float_repr].
  assert (L : forall n, String.length (bars n) = n) by (induction n; cbn; congruence).
  rewrite L. apply read_back_place. apply in_or_app. now left.
Qed.

(** Points at the origin: ten samples at every fraction. *)
Lemma origin_samples v l ds : 0 < v -> Forall (fun a => 0 <= a <= 1) l ->
  Forall2 (fun a d => contaminated_signal d a v /\ mixed_draws origin_tfp d a v) l ds -> exists lss, Forall2 (fun d ls => Forall2 (pmi_values d) ten ls) ds lss.
Proof.
  intros V A H. induction H as [|a d l ds [C M] _ IH]; [exists []; constructor|]. inversion A as [|? ? A1 A2]; subst. destruct (IH A2) as (lss & L).
  assert (P : forall seeds : list Z, exists ls, Forall2 (pmi_values d) seeds ls).
  { induction seeds as [|s seeds [ls E]]; [exists []; constructor|].
    destruct (origin_values d a v s C M) as (w & _ & P); [lra|lra|]. eexists. constructor; [exact P|exact E]. }
  destruct (P ten) as (ls & Q). exists (ls :: lss). constructor; assumption.
Qed.
Lemma origin_panel : exists eigvals cholesky curves line band, eigvals_symmetric eigvals /\ factorises cholesky /\
  mixing_panel demo_parameter printed origin_tfp eigvals cholesky demo_normal_draw read_back demo_rows "Gauss-Inlier" = Ok (curves, (line, band)) /\ length line = 9%nat.
Proof.
  destruct eigvals_exists as [e He]. destruct cholesky_exists as [c Hc].
  destruct (panel_truth printed origin_tfp e c demo_normal_draw He Hc demo_parameter read_back "Gauss-Inlier" 1) as (ds & C & Q); [left; auto|exact read_back_printed|].
  destruct (origin_samples 1 levels ds ltac:(lra) levels_range C) as (lss & L). specialize (Q lss L demo_rows).
  change (select ("mixing-" ++ "Gauss-Inlier") demo_rows) with demo_rows in Q. destruct demo_reads as (D1 & D2 & _).
  destruct (plot_made demo_parameter "mixing" demo_rows demo_read D1 D2) as (curves & E & _). rewrite E in Q. cbn [bind] in Q.
  do 5 eexists. split; [exact He|]. split; [exact Hc|]. split; [exact Q|]. rewrite combine_length map_length.
  assert (K : forall (X Y : Type) (P : X -> Y -> Prop) l l', Forall2 P l l' -> length l = length l') by (intros X Y P l l'; induction 1; cbn; auto).
  rewrite <- (K _ _ _ _ _ L), <- (K _ _ _ _ _ C). reflexivity.
Qed.
Lemma origin_acceptable : exists eigvals cholesky h' tasks, eigvals_symmetric eigvals /\ factorises cholesky /\ told_apart printed /\
  variance_tasks printed origin_tfp eigvals cholesky demo_normal_draw [] = (h', Ok tasks).
Proof.
  destruct eigvals_exists as [e He]. destruct cholesky_exists as [c Hc].
  destruct (variance_line printed origin_tfp e c demo_normal_draw He Hc [] printed_apart) as (ds & C & Q). destruct Q as (h' & ts & E & _).
  - clear - C. revert C. generalize exponents. intros l C. induction C as [|x d l ds [C1 C2] _ IH]; constructor; [|exact IH].
    eapply origin_average; eauto; [lra|apply exp_pos].
  - exists e, c, h', ts. split; [exact He|]. split; [exact Hc|]. split; [exact printed_apart|exact E].
Qed.

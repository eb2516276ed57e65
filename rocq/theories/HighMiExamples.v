(** Concrete searches and tasks ([HighMiModel]). *)
From Coq Require Import String.
From Verif Require Import Base BaseLemmas UtilsModel JaxModel SamplersModel GaussianModel TransformsModel BenchmarkModel TasksModel TasksSpec
  TrainingExamples TasksGaussian TasksProofs TasksExamples HighMiModel HighMiSpec HighMiProofs HighMiThms.
Open Scope R_scope.

(** Three steps: 1/2 is too large, 1/4 too small, 3/8 is close. *)
Local Notation step := (search_loop (fun x => Ok (Fin x)) (2 / 5) (1 / 20) (fun _ => 0)).
Lemma step_down n lo hi m v k : ~ within m (2 / 5) (1 / 20) -> 2 / 5 < m ->
  step (S n) {| bs_min := lo; bs_max := hi; bs_mid := m; bs_value := v; bs_draws := k |} =
  step n {| bs_min := lo; bs_max := m; bs_mid := 1 / 2 * (m + lo); bs_value := Fin m; bs_draws := k |}.
Proof.
  intros N L. cbn [search_loop bs_mid]. rewrite (proj2 (not_close _ _ _)) by (intros r E; now injection E as <-).
  cbn [fl_ltb]. unfold Rltb. destruct (Rlt_dec (2 / 5) m); [reflexivity|contradiction].
Qed.
Lemma step_up n lo hi m v k : ~ within m (2 / 5) (1 / 20) -> m < 2 / 5 ->
  step (S n) {| bs_min := lo; bs_max := hi; bs_mid := m; bs_value := v; bs_draws := k |} =
  step n {| bs_min := m; bs_max := hi; bs_mid := 1 / 2 * (hi + m); bs_value := Fin m; bs_draws := k |}.
Proof.
  intros N L. cbn [search_loop bs_mid]. rewrite (proj2 (not_close _ _ _)) by (intros r E; now injection E as <-).
  cbn [fl_ltb]. unfold Rltb. destruct (Rlt_dec (2 / 5) m); [exfalso; lra|reflexivity].
Qed.
Lemma three_steps : binsearch (fun x => Ok (Fin x)) (2 / 5) (1 / 20) (fun _ => 0) 0 1 3 = Ok (Some (3 / 8)).
Proof.
  unfold binsearch. change (Z.to_nat 3) with 3%nat.
  rewrite step_down by (unfold within; lra). rewrite step_up by (unfold within; lra). cbn [search_loop bs_mid].
  assert (C : close (Fin (1 / 2 * (1 / 2 * (0 + 1) + 1 / 2 * (1 / 2 * (0 + 1) + 0)))) (2 / 5) (1 / 20) = true).
  { apply close_within. eexists. split; [reflexivity|]. unfold within. lra. }
  rewrite C. cbn [bind bs_value bs_mid]. rewrite C. apply f_equal, f_equal. lra.
Qed.
(** A hypothesis of the completeness theorem met: the identity, target 2/5, ten steps. *)
Lemma ten_steps : exists x, binsearch (fun x => Ok (Fin x)) (2 / 5) (1 / 20) (fun _ => 0) 0 1 10 = Ok (Some x).
Proof.
  apply (search_complete _ _ _ _ (fun x => x) 0 1 (3 / 8) (17 / 40)); try lra.
  - split; [reflexivity|auto].
  - intros x H. unfold within. lra.
  - change (Z.to_nat 10) with 10%nat. lra.
Qed.
(** An error other than ValueError stops the search. *)
Lemma type_error : binsearch (fun _ => Err TypeError) 0 1 (fun _ => 0) 0 1 5000 = Err TypeError.
Proof. unfold binsearch. change (Z.to_nat 5000) with (S 4999). reflexivity. Qed.
(** A task of mutual information 1/2 with three-dimensional variables. *)
Definition ex_mvn (k : key demo) (mean : list R) (C : matrix) (n : nat) : matrix := repeat (repeat 0 (List.length C)) n.
Lemma half_nat : exists h' t, generate_sparse_gaussian_task ex_formats ex_eigvals ex_mvn (fun _ => 0) (1 / 2) "demo" 3 [] = (h', Ok (Some t)) /\
  sparse_task ex_formats (1 / 2) "demo" 3 t [] h'.
Proof.
  destruct (generate_found ex_eigvals demo ex_mvn ex_formats (fun _ => 0) (1 / 2) "demo" 3 [] ex_eigvals_ok ltac:(lia) ltac:(lra))
    as (h' & t & E & S & _). eauto.
Qed.

(** Points below 3/2 are not in the domain: the third draw is the first which is. *)
Lemma restarts_instance : let func x := if Rltb x (3 / 2) then Err ValueError else Ok (Fin x) in
  binsearch func 2 (1 / 10) (fun i => INR i) 0 1 4 = Ok (Some (INR 2)).
Proof.
  cbv zeta. unfold Rltb. apply (search_restarts _ 2 (1 / 10) (fun i => INR i) 0 1 4 2 (INR 2)).
  - destruct (Rlt_dec (1 / 2 * (0 + 1)) (3 / 2)); [reflexivity|exfalso; lra].
  - intros [|[|i]] Hi; [| |lia]; cbn [INR]; (destruct (Rlt_dec _ (3 / 2)); [reflexivity|exfalso; lra]).
  - cbn [INR]. destruct (Rlt_dec (1 + 1) (3 / 2)); [exfalso; lra|reflexivity].
  - unfold within. cbn [INR]. lra.
  - cbn. lia.
Qed.

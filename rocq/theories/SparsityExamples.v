(** Concrete tasks for the statements in [SparsityProps]: those of the figure, with 10 variables
    on either side and mutual information 1. *)
From Coq Require Import String.
From Verif Require Import Base BaseLemmas UtilsModel JaxModel SamplersModel GaussianModel MatrixUtilsModel TrainingSpec TrainingExamples
  BenchmarkModel BenchmarkSpec TasksModel TasksSpec TasksExamples BasicSpec BasicThms BasicExamples HighMiModel HighMiSpec SparsityModel SparsitySpec SparsityThms.
Open Scope R_scope.

Definition ex_uniform (_ : nat) : R := 5.

Lemma at_most_3 x : 9 <= x -> 2 <= ln x.
Proof.
  intros H. assert (E := exp_le_3). replace 2 with (ln (exp 1 * exp 1)).
  - assert (P := exp_pos 1). destruct (Rle_lt_or_eq_dec (exp 1 * exp 1) x) as [L| ->]; [nra| |lra].
    left. apply ln_increasing; [nra|exact L].
  - rewrite ln_mult, ln_exp by apply exp_pos. ring.
Qed.
Lemma coupling_large v : 18 <= v -> 1 <= coupling v.
Proof.
  intros H. unfold coupling. assert (9 <= (1 + v) ^ 2 / (1 + 2 * v)); [|assert (A := at_most_3 _ H0); lra].
  apply Rmult_le_reg_r with (1 + 2 * v); [lra|]. unfold Rdiv. rewrite Rmult_assoc, Rinv_l by lra. cbn [pow]. nra.
Qed.

Lemma ex_ten : INR (Z.to_nat 10) = 10.
Proof. rewrite INR_IZR_INZ, Z2Nat.id by lia. reflexivity. Qed.

Lemma ten_dims : (1 <= 10 <= 10 ^ 1000)%Z.
Proof. split; [lia|]. change 10%Z with (10 ^ 1)%Z at 1. apply Z.pow_le_mono_r; lia. Qed.

Lemma ex_alpha : exists a, get_initial_alpha (J := demo) ex_formats ex_eigvals ex_mvn ex_uniform 1 10 [] = ([], Ok a) /\ 0 < a < 10.
Proof.
  destruct (initial_alpha_found ex_formats ex_eigvals ex_mvn ex_uniform ex_eigvals_ok 1 10 [] ten_dims) as (a & E & Ra & _).
  - rewrite ex_ten. assert (H := coupling_large (100 * 10) ltac:(lra)). lra.
  - exists a. split; [exact E|exact Ra].
Qed.
Lemma ex_alpha_none : get_initial_alpha (J := demo) ex_formats ex_eigvals ex_mvn ex_uniform (-1) 10 [] = ([], Err AssertionError).
Proof. apply initial_alpha_none; [exact ex_eigvals_ok|lia|]. left. lra. Qed.

Lemma ex_two_pairs : pairs_mi 2 0 1 = ln (4 / 3).
Proof.
  unfold pairs_mi, coupling. cbn [INR]. replace ((1 + 1 ^ 2) ^ 2 / (1 + 2 * 1 ^ 2)) with (4 / 3) by field.
  replace ((1 + (1 ^ 2 + (1 + 1) * 0 ^ 2)) ^ 2 / (1 + 2 * (1 ^ 2 + (1 + 1) * 0 ^ 2))) with (4 / 3) by field. field.
Qed.
Lemma ex_all_pairs :
  latent_task (J := demo) ex_formats ex_mvn (lvm_task ex_formats ex_eigvals ex_mvn 2 2 0 (Some 1)) [] 2 2 0 1 (ln (4 / 3)).
Proof. rewrite <- ex_two_pairs. apply (all_pairs ex_formats ex_eigvals ex_mvn ex_eigvals_ok 2 0 1 []). lia. Qed.
Lemma ex_lambda : exists l, 0 < l < 10 /\ within (pairs_mi 2 0 l) (ln (4 / 3)) (1 / 10000) /\
  latent_task (J := demo) ex_formats ex_mvn (get_lambda_task ex_formats ex_eigvals ex_mvn ex_uniform (ln (4 / 3)) 2 0) [] 2 2 0 l (pairs_mi 2 0 l).
Proof.
  apply (lambda_found ex_formats ex_eigvals ex_mvn ex_uniform ex_eigvals_ok (ln (4 / 3)) 2 0 []).
  - split; [lia|]. apply Z.le_trans with 10%Z; [lia|]. apply ten_dims.
  - change (Z.to_nat 2) with 2%nat. assert (G : gentle (fun l => pairs_mi 2 0 l) (INR 2)) by (apply pairs_gentle; cbn [INR]; lra).
    rewrite <- ex_two_pairs. assert (A := proj1 G 0 1 ltac:(lra)). assert (B := proj1 G 1 10 ltac:(lra)). cbv beta in A, B. lra.
Qed.
Lemma ex_lambda_none : get_lambda_task (J := demo) ex_formats ex_eigvals ex_mvn ex_uniform (1 / 2) 10 10 [] = ([], Err AssertionError).
Proof.
  apply lambda_none; [exact ex_eigvals_ok|lia|]. left. rewrite pairs_at_0, ex_ten.
  assert (H := coupling_large (10 * 10 ^ 2) ltac:(lra)). lra.
Qed.

Lemma ex_interacting : forall k, (1 <= k <= 10)%Z -> exists l, 0 < l < 10 /\ within (INR (Z.to_nat k) * coupling (l ^ 2)) 1 (1 / 10000) /\
  latent_task (J := demo) ex_formats ex_mvn (get_n_interacting_task ex_formats ex_eigvals ex_mvn ex_uniform 1 10 k) [] 10 k 0 l
    (INR (Z.to_nat k) * coupling (l ^ 2)).
Proof.
  intros k Hk. apply (interacting_found ex_formats ex_eigvals ex_mvn ex_uniform ex_eigvals_ok 1 10 k [] ten_dims); [lia|].
  assert (H := coupling_large 100 ltac:(lra)). assert (1 <= INR (Z.to_nat k)) by (change 1 with (INR 1); apply le_INR; lia). nra.
Qed.
Lemma ex_interacting_none : get_n_interacting_task (J := demo) ex_formats ex_eigvals ex_mvn ex_uniform 1 10 0 [] = ([], Err AssertionError) /\
  get_n_interacting_task (J := demo) ex_formats ex_eigvals ex_mvn ex_uniform 1 10 11 [] = ([], Err ValueError).
Proof.
  split.
  - apply interacting_none; [exact ex_eigvals_ok|lia|lia|]. right. change (Z.to_nat 0) with 0%nat. cbn [INR]. lra.
  - apply interacting_reject; [lia|]. unfold within. lra.
Qed.

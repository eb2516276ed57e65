(** Examples for the combination of chi-squared variables. *)
From Verif Require Import Base BaseLemmas UtilsModel JaxModel SamplersModel GaussianModel MatrixUtilsModel BmmModel MultivariateModel BmmSpec TrainingExamples
  MixturesSpec EigvalsExist MultivariateThms MultivariateExamples ChiModel ChiSpec ChiProofs ChiThms ChiPlot.
Open Scope R_scope.
Local Notation length := List.length.

Lemma chi_oracles : exists eigvals cholesky, eigvals_symmetric eigvals /\ factorises cholesky.
Proof. destruct eigvals_exists as [e He]. destruct cholesky_exists as [c Hc]. eauto. Qed.
Definition still_draw : list R -> option matrix -> key demo -> nat -> matrix := fun mean _ _ n => repeat mean n.
Lemma still_points : draws_points still_draw.
Proof.
  intros mean scale k n. unfold still_draw. rewrite repeat_length. split; [reflexivity|].
  apply Forall_forall. intros z I. now rewrite (repeat_spec _ _ _ I).
Qed.
Lemma demo_three : exists k k0 k1, split demo (prng_key demo 21) 3 = [k; k0; k1].
Proof. cbn. eauto. Qed.
Lemma mixed_correlations : Forall (fun r => Rabs r < 1) [8 / 10; - (1 / 2)] /\ [8 / 10; - (1 / 2)] <> [].
Proof. split; [|discriminate]. repeat constructor; [rewrite Rabs_right|rewrite Rabs_left]; lra. Qed.
Lemma perfect_correlation : ~ Forall (fun r => Rabs r < 1) [1 / 2; 1].
Proof. intros H. inversion_clear H as [|? ? _ K]. inversion_clear K as [|? ? L _]. rewrite Rabs_R1 in L. lra. Qed.

(** Two signs that agree three times out of four. *)
Definition signs (f : list R * list R -> R) : R :=
  3 / 8 * f ([1], [1]) + 3 / 8 * f ([-1], [-1]) + 1 / 8 * f ([1], [-1]) + 1 / 8 * f ([-1], [1]).
Lemma signs_linear : linear signs.
Proof. split; [intros f g H; unfold signs; now rewrite !H|]. intros. unfold signs. ring. Qed.
Lemma signs_moments : canonical_moments [1 / 2] signs.
Proof. split; cbn [length]; intros i j Hi Hj; replace i with 0%nat by lia; replace j with 0%nat by lia; cbn; unfold signs; cbn; lra. Qed.
Lemma half_small : Forall (fun r => Rabs r < 1) [1 / 2].
Proof. repeat constructor. rewrite Rabs_right; lra. Qed.

(** Two independent variables with the moments of standard normal ones. *)
Definition three_points (f : R -> R) : R := 1 / 6 * f (sqrt 3) + 1 / 6 * f (- sqrt 3) + 2 / 3 * f 0.
Definition two_variables (f : R * R -> R) : R := three_points (fun u => three_points (fun v => f (u, v))).
Lemma two_linear : linear two_variables.
Proof. split; [intros f g H; unfold two_variables, three_points; now rewrite !H|]. intros. unfold two_variables, three_points. ring. Qed.
Lemma two_squares : standard_squares (length [1 / 2]) (fun _ z => fst z) (fun _ z => snd z) two_variables.
Proof.
  assert (P : sqrt 3 ^ 2 = 3) by (rewrite <- Rsqr_pow2; apply Rsqr_sqrt; lra).
  assert (M : (- sqrt 3) ^ 2 = 3) by (transitivity (sqrt 3 ^ 2); [ring|exact P]).
  assert (Z : 0 ^ 2 = 0) by ring.
  split; cbn [length]; unfold two_variables, three_points; cbn [fst snd]; intros; rewrite ?P, ?M, ?Z;
    try match goal with |- context [Nat.eqb ?i ?j] => replace (Nat.eqb i j) with true by (symmetry; apply Nat.eqb_eq; lia) end; lra.
Qed.

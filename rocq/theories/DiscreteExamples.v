(** Examples for the mixture with a binary Y. *)
From Coq Require Import String ZArith Lia Lra.
From Verif Require Import Base BaseLemmas UtilsModel JaxModel SamplersModel GaussianModel BmmModel DiscreteModel DiscreteSpec DiscreteThms
  BmmSpec TrainingExamples.
Open Scope R_scope.

(** A function which grows like the logarithm of the gamma function: zero on (0, 1]. *)
Fixpoint ladder (n : nat) (z : R) : R := match n with O => 0 | S n => ln (z - 1) + ladder n (z - 1) end.
Definition ex_log_gamma (z : R) : R := ladder (Z.to_nat (- Int_part (- z) - 1)) z.
Lemma ex_gamma_step : gamma_step ex_log_gamma.
Proof.
  intros z Hz. unfold ex_log_gamma.
  assert (B := base_Int_part (- z)).
  assert (N : (0 <= - Int_part (- z) - 1)%Z).
  { assert (- Int_part (- z) > 0)%Z; [|lia]. apply Z.lt_gt. apply lt_IZR. rewrite opp_IZR. lra. }
  assert (E : Int_part (- (z + 1)) = (Int_part (- z) - 1)%Z).
  { assert (B' := base_Int_part (- (z + 1))).
    assert (IZR (Int_part (- (z + 1))) < IZR (Int_part (- z)) ) by lra.
    assert (IZR (Int_part (- z)) - 2 < IZR (Int_part (- (z + 1)))) by lra.
    apply lt_IZR in H. rewrite <- minus_IZR in H0. apply lt_IZR in H0. lia. }
  rewrite E. replace (- (Int_part (- z) - 1) - 1)%Z with (Z.succ (- Int_part (- z) - 1)) by lia.
  rewrite Z2Nat.inj_succ by exact N. cbn [ladder]. replace (z + 1 - 1) with z by lra. reflexivity.
Qed.

(** Draws of points with labels, whatever the components. *)
Definition ex_rows (n : nat) : matrix := map (fun i => [INR i; - INR i; bit (Nat.even i)]) (seq 0 n).
Definition ex_labelled_tfp : tfp_draws demo := {| mixture_draw := fun _ _ _ n => ex_rows n; blockwise_draw := fun _ _ _ n => ex_rows n |}.
Lemma ex_rows_ok n : labelled_rows n (ex_rows n).
Proof.
  unfold labelled_rows, ex_rows. rewrite map_length, seq_length. split; [reflexivity|].
  apply Forall_map, Forall_forall. intros i _. do 3 eexists. reflexivity.
Qed.
Lemma ex_mixture_rows c nd sd bd g d k n : define_distribution ex_labelled_tfp c nd sd bd g = Ok d -> labelled_rows n (draw (dist_joint d) k n).
Proof. rewrite define_eq. unfold mixture. cbn. intros [= <-]. cbn [dist_joint draw tfd_mixture mixture_draw ex_labelled_tfp]. apply ex_rows_ok. Qed.

(** In the middle of the first cloud a one is likelier. *)
Lemma ex_first_cloud : 0 < discrete_pmi (-1) (-1) true.
Proof.
  apply profile_sign. cbn [cloud]. unfold student_plane, Rpower. apply Rmult_lt_compat_l.
  - apply Rinv_0_lt_compat. assert (P := PI_RGT_0). repeat lazymatch goal with |- 0 < _ * _ => apply Rmult_lt_0_compat end; lra.
  - apply exp_increasing. replace (1 + ((-1 - -1) ^ 2 + (-1 - -1) ^ 2) / (8 * (2 / 10))) with 1 by lra. rewrite ln_1, Rmult_0_r.
    replace (1 + ((-1 - 1) ^ 2 + (-1 - 1) ^ 2) / (5 * (2 / 10))) with 9 by lra.
    assert (0 < ln 9) by (rewrite <- ln_1; apply ln_increasing; lra). lra.
Qed.

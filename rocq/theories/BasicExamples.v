(** Concrete basic tasks for the statements in [BasicProps]. *)
From Coq Require Import String.
From Coquelicot Require Import Coquelicot.
From Verif Require Import Base UtilsModel JaxModel SamplersModel GaussianModel MatrixUtilsModel TransformsModel
  BaseLemmas TransformsSpec MatrixUtilsSpec TrainingSpec TrainingExamples SamplersSpec SamplersExamples BenchmarkModel BenchmarkSpec
  TasksModel TasksSpec GaussianSpec TasksGaussian TasksExamples EigvalsExist BasicSpec BasicGaussian BasicThms.
Open Scope Z_scope.
Local Notation length := List.length.

(** Draws which do not depend on the seed. *)
Definition ex_mvn (_ : key demo) (mu : list R) (_ : matrix) (n : nat) : matrix := repeat mu n.
Definition ex_mvt (_ : Z) (mu : list R) (_ : matrix) (_ : fl) (n : nat) : matrix := repeat mu n.
Lemma ex_mvt_ok : forall r mu D df k, length (ex_mvt r mu D df k) = k.
Proof. intros. apply repeat_length. Qed.
Lemma ex_correction df a b : student_correction (fun _ => 0%R) (fun _ => 0%R) df a b = 0%R.
Proof. unfold student_correction. cbv zeta. lra. Qed.
Lemma ex_strength : strength_correlation 2 = (4 / 5)%R.
Proof. unfold strength_correlation. lra. Qed.
Lemma ex_paired k c : c = (INR k / 2)%R -> paired_mi k (4 / 5) = (- c * ln (9 / 25))%R.
Proof. intros ->. unfold paired_mi. do 2 f_equal. lra. Qed.
Lemma ex_two : paired_mi 2 (4 / 5) = (- ln (9 / 25))%R.
Proof. rewrite (ex_paired 2 1) by (cbn [INR]; lra). lra. Qed.
Lemma ex_dense : dense_mi 2 3 (5 / 10) = (/ 2 * ln 2)%R.
Proof.
  unfold dense_mi. do 2 f_equal. change (2 + 3)%nat with 5%nat. cbn [INR]. field.
Qed.
Lemma ex_log_neg : (0 <= - ln (9 / 25))%R.
Proof. assert (ln (9 / 25) < ln 1)%R by (apply ln_increasing; lra). rewrite ln_1 in H. lra. Qed.

Ltac shown := unfold ex_formats, Reqb; cbn [float_repr float_fixed];
  repeat match goal with |- context [Req_EM_T ?a ?b] => destruct (Req_EM_T a b); try lra end.

Lemma repr_tenth : float_repr ex_formats (10 / 100) = "0.1"%string. Proof. apply ex_formats_ok. Qed.
Lemma repr_most : float_repr ex_formats (75 / 100) = "0.75"%string. Proof. apply ex_formats_ok. Qed.
Lemma repr_half : float_repr ex_formats (5 / 10) = "0.5"%string. Proof. apply ex_formats_ok. Qed.
Lemma repr_two : float_repr ex_formats 2 = "2.0"%string. Proof. apply ex_formats_ok. Qed.

Lemma additive_instance : exists mi, builds (task_additive_noise ex_formats demo_draws (10 / 100)) [] "1v1-additive-0.1"
    "Uniform 1 × 1 (additive noise=0.1)" 1 1 mi [("epsilon", PFloat (Fin (10 / 100)))]%string (noisy_pairs demo_draws (10 / 100)).
Proof.
  destruct (additive_build ex_formats demo_draws demo_ok demo_draws_ok (10 / 100) ltac:(lra)) as (mi & _ & _ & B).
  exists mi. specialize (B []). rewrite repr_tenth in B. exact B.
Qed.
Lemma bivariate_instance : builds (J := demo) (task_bivariate_normal ex_formats ex_eigvals ex_mvn (75 / 100)) [] "1v1-normal-0.75" "Bivariate normal 1 × 1" 1 1
    (- (1 / 2) * ln (7 / 16)) [("gaussian_correlation", PFloat (Fin (75 / 100)))]%string (normal_pairs ex_mvn 1 1 (constant_off (75 / 100))).
Proof.
  assert (B := bivariate_build ex_formats ex_eigvals ex_mvn ex_eigvals_ok (75 / 100) [] ltac:(lra)).
  rewrite repr_most in B. replace (paired_mi 1 (75 / 100)) with (- (1 / 2) * ln (7 / 16))%R in B; [exact B|].
  unfold paired_mi. cbn [INR]. do 2 f_equal. lra.
Qed.
Lemma bimodal_instance : exists erf, is_erf erf /\ exists h t, task_bimodal_gaussians (J := demo) ex_formats erf ex_eigvals ex_mvn (75 / 100) [] = (h, Ok t) /\
    usable t h.
Proof.
  eexists. assert (H : is_erf (fun x => 2 / sqrt PI * RInt (fun t => exp (- (t * t))) 0 x)%R) by (intros x; reflexivity).
  split; [exact H|].
  destruct (bimodal_build ex_formats ex_eigvals ex_mvn ex_eigvals_ok _ (75 / 100) [] H ltac:(lra)) as (h & t & _ & _ & E & U & _). eauto.
Qed.
Lemma latent_instance : exists mi, builds (J := demo) (task_multinormal_lvm ex_formats ex_eigvals ex_mvn 3 2 1 (1 / 2) 2 0 None None) []
    "multinormal-lvm-3-2-1-0.00000-0.00000-0.00000-0.00000" "Multinormal 3 × 2 (LVM)" 3 2 mi (latent_parameters 3 2 1 (1 / 2) 2 0 2)
    (normal_pairs ex_mvn 3 2 (normalised (latent_cov 3 1 (1 / 2) 2 0 2))).
Proof.
  destruct (latent_build ex_formats ex_eigvals ex_mvn ex_eigvals_ok 3 2 1 (1 / 2) 2 0 None None [] ltac:(lia) ltac:(lia) ltac:(lia)) as (C & _ & B).
  eexists. exact B.
Qed.
Lemma sparse_instance : builds (J := demo) (task_multinormal_sparse ex_formats ex_eigvals ex_mvn 4 3 3 2 (Some "Mine"%string)) []
    "multinormal-sparse-4-3-3-2.0" "Mine" 4 3 (- (3 / 2) * ln (9 / 25)) [("n_interacting", PInt 3); ("strength", PFloat (Fin 2))]%string
    (normal_pairs ex_mvn 4 3 (paired_off 4 3 (4 / 5))).
Proof.
  assert (B := sparse_build ex_formats ex_eigvals ex_mvn ex_eigvals_ok 4 3 3 2 (Some "Mine"%string) [] ltac:(lia) ltac:(lia) ltac:(lia)).
  cbv zeta in B. rewrite repr_two, ex_strength, (ex_paired _ (3 / 2)) in B by (change (Z.to_nat 3) with 3%nat; cbn [INR]; lra). exact B.
Qed.
Lemma pair_instance : builds (J := demo) (task_multinormal_2pair ex_formats ex_eigvals ex_mvn 25 25 2 None) []
    "multinormal-sparse-25-25-2-2.0" "Multinormal 25 × 25 (2-pair)" 25 25 (- ln (9 / 25))
    [("n_interacting", PInt 2); ("strength", PFloat (Fin 2))]%string (normal_pairs ex_mvn 25 25 (paired_off 25 2 (4 / 5))).
Proof.
  assert (B := pair_build ex_formats ex_eigvals ex_mvn ex_eigvals_ok 25 25 2 None [] ltac:(lia) ltac:(lia)).
  cbv zeta in B. rewrite repr_two, ex_strength, ex_two in B. exact B.
Qed.
Lemma dense_instance : builds (J := demo) (task_multinormal_dense ex_formats ex_eigvals ex_mvn 2 3 (5 / 10) None) []
    "multinormal-dense-2-3-0.5" "Multinormal 2 × 3 (dense)" 2 3 (/ 2 * ln 2)
    [("off_diag", PFloat (Fin (5 / 10))); ("covariance", listed 5 (constant_off (5 / 10)))]%string
    (normal_pairs ex_mvn 2 3 (constant_off (5 / 10))).
Proof.
  assert (B := dense_build ex_formats ex_eigvals ex_mvn ex_eigvals_ok 2 3 (5 / 10) None [] ltac:(lia) ltac:(lia) ltac:(lra) ltac:(cbn; lra)).
  cbv zeta in B. change (Z.to_nat 2) with 2%nat in B. change (Z.to_nat 3) with 3%nat in B. rewrite repr_half, ex_dense in B. exact B.
Qed.
Lemma dense_rejected_instance : exists eigvals, (let C := constant_correlation (2 + 3) 2 in eigvals_ok (Z.to_nat 2 + Z.to_nat 3) C (eigvals C)) /\
    task_multinormal_dense (J := demo) ex_formats eigvals ex_mvn 2 3 2 None [] = ([], Err ValueError).
Proof.
  destruct eigvals_exists as [eigvals H].
  assert (K := dense_eigvals 5 2 H). exists eigvals. cbv zeta. split; [exact K|].
  apply (dense_reject ex_formats eigvals ex_mvn (fun x => x) (fun x => x) ex_mvt 2 3 2 ltac:(lia) ltac:(lia) K); [left; lra|exact 1].
Qed.
Lemma student_identity_instance : builds (J := demo) (task_student_identity ex_eigvals (fun _ => 0%R) (fun _ => 0%R) ex_mvt 3 2 5 None) []
    "student-identity-3-2-5" "Student-t 3 × 2 (dof=5)" 3 2 0 [("dof", PInt 5)]%string (student_pairs ex_mvt 3 2 5 (constant_off 0)).
Proof.
  assert (B := student_identity_build (J := demo) ex_eigvals (fun _ => 0%R) (fun _ => 0%R) ex_mvt ex_eigvals_ok ex_mvt_ok 3 2 5 None []
    ltac:(lia) ltac:(lia) ltac:(lia) ltac:(rewrite ex_correction; lra)).
  cbv zeta in B. rewrite ex_correction in B. exact B.
Qed.
Lemma student_dense_instance : builds (J := demo) (task_student_dense ex_formats ex_eigvals (fun _ => 0%R) (fun _ => 0%R) ex_mvt 2 3 7 (5 / 10) None) []
    "student-dense-2-3-7-0.5" "Student-t 2 × 3 (dof=7, dense)" 2 3 (/ 2 * ln 2)
    [("dof", PInt 7); ("off_diag", PFloat (Fin (5 / 10))); ("dispersion", listed 5 (constant_off (5 / 10)))]%string
    (student_pairs ex_mvt 2 3 7 (constant_off (5 / 10))).
Proof.
  assert (L : (0 <= / 2 * ln 2)%R) by (assert (H := ln_increasing 1 2 ltac:(lra) ltac:(lra)); rewrite ln_1 in H; lra).
  assert (B := student_dense_build (J := demo) ex_formats ex_eigvals (fun _ => 0%R) (fun _ => 0%R) ex_mvt ex_eigvals_ok ex_mvt_ok 2 3 7 (5 / 10) None []
    ltac:(lia) ltac:(lia) ltac:(lia) ltac:(lra) ltac:(cbn; lra)).
  cbv zeta in B. change (Z.to_nat 2) with 2%nat in B. change (Z.to_nat 3) with 3%nat in B.
  rewrite repr_half, ex_dense, ex_correction, Rplus_0_r in B. exact (B L).
Qed.
Lemma student_sparse_instance : builds (J := demo) (task_student_sparse ex_formats ex_eigvals (fun _ => 0%R) (fun _ => 0%R) ex_mvt 4 3 5 3 2 None) []
    "student-sparse-4-3-5-3-2.0" "Student-t 4 × 3 (dof=5, sparse)" 4 3 (- (3 / 2) * ln (9 / 25))
    [("dof", PInt 5); ("n_interacting", PInt 3); ("strength", PFloat (Fin 2))]%string
    (student_pairs ex_mvt 4 3 5 (paired_off 4 3 (4 / 5))).
Proof.
  assert (B := student_sparse_build (J := demo) ex_formats ex_eigvals (fun _ => 0%R) (fun _ => 0%R) ex_mvt ex_eigvals_ok ex_mvt_ok 4 3 5 3 2 None []
    ltac:(lia) ltac:(lia) ltac:(lia) ltac:(lia)).
  cbv zeta in B.
  rewrite repr_two, ex_strength, (ex_paired _ (3 / 2)), ex_correction, Rplus_0_r in B by (change (Z.to_nat 3) with 3%nat; cbn [INR]; lra).
  apply B. assert (H := ex_log_neg). lra.
Qed.
Lemma student_pair_instance : builds (J := demo) (task_student_2pair ex_formats ex_eigvals (fun _ => 0%R) (fun _ => 0%R) ex_mvt 5 3 2 2 None) []
    "student-sparse-5-3-2-2-2.0" "Student-t 5 × 3 (dof=2, 2-pair)" 5 3 (- ln (9 / 25))
    [("dof", PInt 2); ("n_interacting", PInt 2); ("strength", PFloat (Fin 2))]%string
    (student_pairs ex_mvt 5 3 2 (paired_off 5 2 (4 / 5))).
Proof.
  assert (B := student_pair_build (J := demo) ex_formats ex_eigvals (fun _ => 0%R) (fun _ => 0%R) ex_mvt ex_eigvals_ok ex_mvt_ok 5 3 2 2 None []
    ltac:(lia) ltac:(lia) ltac:(lia)).
  cbv zeta in B. rewrite repr_two, ex_strength, ex_two, ex_correction, Rplus_0_r in B. exact (B ex_log_neg).
Qed.

(** Concrete instances for the statements in [PointwiseProps]. *)
From Coq Require Import String Lia Lra.
From Verif Require Import Base UtilsModel JaxModel SamplersModel GaussianModel BenchmarkModel TasksModel TasksSpec GaussianSpec TasksGaussian TrainingExamples TasksExamples BasicSpec BasicExamples
  PointwiseModel PointwiseSpec PointwiseThms.
Open Scope R_scope.
Local Notation length := List.length.

(** An estimator whose critic is the product. *)
Definition product_critic (x y : matrix) : result (fl * (list R -> list R -> R)) := Ok (Fin 0, fun u v => hd 0 u * hd 0 v).
Lemma pointwise_oracles : eigvals_positive ex_eigvals /\ (forall r mu D df k, length (ex_mvt r mu D df k) = k) /\
  (forall x y, exists ec, product_critic x y = Ok ec) /\
  Forall (fun df => 0 <= dense_mi 1 1 (5 / 10) + student_correction (fun _ => 0) (fun _ => 0) (IZR df) 1 1) [1; 2; 3; 5; 10]%Z.
Proof.
  split; [exact ex_eigvals_ok|]. split; [exact ex_mvt_ok|]. split; [unfold product_critic; eauto|].
  assert (L : 0 <= dense_mi 1 1 (5 / 10)).
  { unfold dense_mi. change (INR (1 + 1)) with (1 + 1). change (INR 1) with 1.
    assert (H := ln_increasing 1 ((1 + (1 - 1) * (5 / 10)) * (1 + (1 - 1) * (5 / 10)) / ((1 - 5 / 10) * (1 + (1 + 1 - 1) * (5 / 10)))) ltac:(lra) ltac:(lra)).
    rewrite ln_1 in H. lra. }
  apply Forall_forall. intros df _. unfold student_correction. rewrite !Rmult_0_r. lra.
Qed.
Lemma half_at_one : gaussian_logpdfratio 1 1 [[1; 1 / 2]; [1 / 2; 1]] = Ok (- (1 / 2) * ln (3 / 4) + 1 / 3).
Proof. rewrite gaussian_correlation by lra. apply f_equal. unfold normal_pmi. replace (1 - (1 / 2) ^ 2) with (3 / 4) by lra. lra. Qed.
Lemma cauchy_at_zero : student_logpdfratio (fun _ => 0) 0 0 1 [[1; 1 / 2]; [1 / 2; 1]] = Ok (- (1 / 2) * ln (3 / 4)).
Proof.
  rewrite student_correlation by (lra || lia). apply f_equal. unfold student_pmi. replace (1 - (1 / 2) ^ 2) with (3 / 4) by lra.
  replace (1 + (0 ^ 2 - 2 * (1 / 2) * 0 * 0 + 0 ^ 2) / (3 / 4) / 1) with 1 by lra. replace (1 + 0 ^ 2 / 1) with 1 by lra. rewrite ln_1. lra.
Qed.
Lemma unit_determinant : 0 < 1 * 1 - 0 ^ 2.
Proof. lra. Qed.
Lemma half_antidiagonal t : normal_pmi (1 / 2) t (- t) = - (1 / 2) * ln (3 / 4) - t ^ 2.
Proof. unfold normal_pmi. replace (1 - (1 / 2) ^ 2) with (3 / 4) by lra. field. Qed.
Lemma cauchy_antidiagonal : exists r, forall t, r < t -> 100 < student_pmi (fun _ => 0) 1 (1 / 2) t (-1 * t).
Proof. apply student_tails; [lra|lra|now right]. Qed.

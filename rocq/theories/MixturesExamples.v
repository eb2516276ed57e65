(** Concrete tasks for the statements in [MixturesProps]. *)
From Coq Require Import String.
From Verif Require Import Base UtilsModel JaxModel SamplersModel GaussianModel MatrixUtilsModel TransformsModel BmmModel
  MultivariateModel BenchmarkModel TasksModel MixturesModel BaseLemmas TransformsSpec ExpmProofs BmmSpec MatrixUtilsSpec
  TrainingExamples TasksExamples BmmExamples.
From mathcomp Require Import all_ssreflect ssralg matrix mxalgebra.
From Verif Require Import RStruct PosDef MatrixBridge GaussianSpec MultivariateSpec MultivariateExamples GmmMixSpec
  MixturesSpec MultivariateThms EigvalsExist MixturesThms MixturesMore.
Set Implicit Arguments.
Unset Strict Implicit.
Unset Printing Implicit Defensive.
Import GRing.Theory.
Local Open Scope ring_scope.

Lemma demo_rho : Rlt (Rabs (Rdiv 9 10)) 1.
Proof. rewrite Rabs_pos_eq; lra. Qed.

Lemma demo_x_posdef : posdef (sigma 1 1 [:: [:: IZR 1; Rdiv 9 10]; [:: Rdiv 9 10; IZR 1]]).
Proof. apply: two_posdef; lra. Qed.

Lemma demo_x : exists d : joint_distribution demo, normal_mixture d 1 1 2 (fun _ _ => IZR 0) (x_cov (Rdiv 9 10)).
Proof.
  have [e he] := eigvals_exists; have [c hc] := cholesky_exists.
  have [d [_ h]] := x_ok demo_tfp demo_normal_draw he hc demo_rho; by exists d.
Qed.

Lemma demo_x_refused : exists eigvals cholesky,
  task_x ex_formats demo_tfp eigvals cholesky demo_normal_draw 1 5 [::] = ([::], Err ValueError).
Proof.
  have [e he] := eigvals_exists; have [c hc] := cholesky_exists; exists e, c.
  by apply: x_task_bad => // -[]; rewrite Rabs_R1 => /Rlt_irrefl.
Qed.

Lemma demo_ai : exists eigvals cholesky d, ai_distribution (J := demo) demo_tfp eigvals cholesky demo_normal_draw = Ok d.
Proof.
  have [e he] := eigvals_exists; have [c hc] := cholesky_exists; exists e, c.
  have [d [h _]] := ai_ok demo_tfp demo_normal_draw he hc; by exists d.
Qed.

Lemma demo_ai_refused : exists eigvals cholesky,
  task_ai (J := demo) demo_tfp eigvals cholesky demo_normal_draw 0 [::] = ([::], Err ValueError).
Proof.
  have [e he] := eigvals_exists; have [c hc] := cholesky_exists; exists e, c; exact: ai_task_bad.
Qed.

Lemma demo_swirl : swirl (Rdiv PI 2) [:: IZR 1; IZR 0] = [:: IZR 0; IZR 1].
Proof.
  rewrite /swirl /=.
  have -> : Rmult (Rdiv PI 2) (Rplus (Rmult 1 1) (Rmult 0 0)) = Rdiv PI 2 by field.
  rewrite cos_PI2 sin_PI2; congr [:: _; _]; lazymatch goal with |- ?l = ?r => change (@eq R l r) end; ring.
Qed.

Lemma demo_galaxy_refused : exists eigvals cholesky,
  task_galaxy ex_formats demo_tfp eigvals cholesky demo_normal_draw series_expm 1 3 0 [::] = ([::], Err ValueError).
Proof.
  have [e he] := eigvals_exists; have [c hc] := cholesky_exists; exists e, c; exact: galaxy_task_bad.
Qed.

Lemma demo_not_bijection :
  ~ plane_bijection (fun x => [:: List.nth 0 x (IZR 0); Rmult (List.nth 1 x (IZR 0)) (List.nth 1 x (IZR 0))]).
Proof.
  move=> h; have [x [_ /= [_ e] _]] := h [:: IZR 0; IZR (-1)] erefl.
  have := Rle_0_sqr (List.nth 1 x (IZR 0)); rewrite /Rsqr e; lra.
Qed.

Lemma demo_waves : exists eigvals cholesky d,
  ridges_distribution (J := demo) demo_tfp eigvals cholesky demo_normal_draw 12 = Ok d.
Proof.
  have [e he] := eigvals_exists; have [c hc] := cholesky_exists; exists e, c.
  have [d [h _]] := ridges_ok demo_tfp demo_normal_draw he hc (erefl _ : Z.lt 0 12); by exists d.
Qed.

Lemma demo_concentric : exists eigvals cholesky d,
  concentric_distribution (J := demo) demo_tfp eigvals cholesky demo_normal_draw 3 5 = Ok d.
Proof.
  have [e he] := eigvals_exists; have [c hc] := cholesky_exists; exists e, c.
  have [d [h _]] := rings_ok demo_tfp demo_normal_draw he hc (isT : (0 < 3)%N) (erefl _ : Z.lt 0 5); by exists d.
Qed.

Lemma demo_concentric_refused : exists eigvals cholesky,
  task_concentric_multinormal (J := demo) demo_tfp eigvals cholesky demo_normal_draw (-2) 3 5 [::] = ([::], Err ValueError).
Proof.
  have [e he] := eigvals_exists; have [c hc] := cholesky_exists; exists e, c.
  apply: (proj2 (concentric_task_bad _ _ he hc _ _ _ _)) => //; lia.
Qed.

Lemma demo_inliers_both : exists eigvals cholesky (d : joint_distribution demo),
  inliers_distribution demo_tfp eigvals cholesky demo_normal_draw 3 3 2 2 (Rdiv 1 5) = Ok d /\
  normal_with_inliers d 3 3 (Rdiv 1 5) (block_correlation 3 2 (Rdiv (pow 2 2) (Rplus 1 (pow 2 2))) (IZR 0) (IZR 0)).
Proof.
  have [e he] := eigvals_exists; have [c hc] := cholesky_exists; exists e, c.
  by have [//|//|//|//|//||| d hd] := @inliers_ok demo demo_tfp e c demo_normal_draw he hc 3 3 2 2 (Rdiv 1 5); try lra; exists d.
Qed.

Lemma demo_inliers_accepted : exists eigvals cholesky d,
  inliers_distribution (J := demo) demo_tfp eigvals cholesky demo_normal_draw 3 3 2 2 (Rdiv 1 5) = Ok d.
Proof. by have [e [c [d [h _]]]] := demo_inliers_both; exists e, c, d. Qed.

Lemma demo_inliers : exists d : joint_distribution demo, normal_with_inliers d 3 3 (Rdiv 1 5)
  (block_correlation 3 2 (Rdiv (pow 2 2) (Rplus 1 (pow 2 2))) (IZR 0) (IZR 0)).
Proof. by have [e [c [d [_ h]]]] := demo_inliers_both; exists d. Qed.

Lemma demo_inliers_refused eigvals cholesky :
  task_multinormal_sparse_w_inliers ex_formats (fun _ => "20%"%string) demo_tfp eigvals cholesky demo_normal_draw 2 3 3 1 (Rdiv 1 5) 10 [::]
  = ([::], Err ValueError).
Proof.
  apply: (proj2 (inliers_task_bad _ _ _ _ _ _ _ _ _ _ _ _ _)); try lra.
  by left => -[_ h _ _ _]; lia.
Qed.

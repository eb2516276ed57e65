(** Concrete distributions for the statements in [PaperProps]. *)
From Verif Require Import Base UtilsModel JaxModel SamplersModel GaussianModel MatrixUtilsModel TransformsModel BmmModel
  MultivariateModel BenchmarkModel TasksModel MixturesModel PaperModel BaseLemmas TransformsSpec ExpmProofs BmmSpec MatrixUtilsSpec
  PaperSpec TrainingExamples TasksExamples BmmExamples.
From mathcomp Require Import all_ssreflect ssralg matrix mxalgebra.
From Verif Require Import RStruct PosDef MatrixBridge GaussianSpec MultivariateSpec MultivariateExamples GmmMixSpec
  MixturesSpec MultivariateThms EigvalsExist MixturesThms MixturesMore PaperThms.
Set Implicit Arguments.
Unset Strict Implicit.
Unset Printing Implicit Defensive.
Import GRing.Theory.
Local Open Scope ring_scope.

Lemma demo_balls_made : exists d : joint_distribution demo, ball_mixture d four_balls_parts.
Proof.
  have [e he] := eigvals_exists; have [c hc] := cholesky_exists.
  have [d [_ h]] := four_balls_ok demo_tfp demo_normal_draw he hc; by exists d.
Qed.
Lemma demo_corners_made : exists d : joint_distribution demo, ball_mixture d corners_parts.
Proof.
  have [e he] := eigvals_exists; have [c hc] := cholesky_exists.
  have [d [_ h]] := corners_ok demo_tfp demo_normal_draw he hc; by exists d.
Qed.
Lemma demo_proper : List.Forall proper four_balls_parts.
Proof. by repeat (constructor; first by rewrite /proper /=; lra). Qed.
Lemma demo_unit_weight : rsum (List.map weight four_balls_parts) = IZR 1.
Proof. rewrite /rsum /=; real_eq; field. Qed.
Lemma demo_small_x : exists d : joint_distribution demo,
  normal_mixture d 1 1 2 (fun _ _ => IZR 0) (fun k i j => Rmult (Rdiv 3 10) (x_cov (Rdiv 9 10) k i j)).
Proof.
  have [e he] := eigvals_exists; have [c hc] := cholesky_exists.
  have [d [s [_ _ h]]] := create_x_ok demo_tfp demo_normal_draw he hc (Z.le_refl 1); by exists d.
Qed.
Lemma demo_waves_made : exists eigvals cholesky d s,
  create_waves_distribution (J := demo) demo_tfp eigvals cholesky demo_normal_draw 12 1000 = Ok (d, s).
Proof.
  have [e he] := eigvals_exists; have [c hc] := cholesky_exists; exists e, c.
  have [d [s [h _ _]]] := @create_waves_ok demo demo_tfp e c demo_normal_draw he hc 12 1000 (Logic.eq_refl _) (fun h => ltac:(discriminate h)); by exists d, s.
Qed.
Lemma demo_refused : exists eigvals cholesky,
  create_ai_distribution (J := demo) demo_tfp eigvals cholesky demo_normal_draw 0 = Err ValueError.
Proof.
  have [e he] := eigvals_exists; have [c hc] := cholesky_exists; exists e, c.
  by have [_ _ -> _ _] := @create_bad demo demo_tfp e c demo_normal_draw series_expm he hc 0%Z (Logic.eq_refl _).
Qed.

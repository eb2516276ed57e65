(** Concrete distributions for the examples of MultivariateProps.v. *)
From Verif Require Import Base UtilsModel JaxModel SamplersModel GaussianModel BmmModel MultivariateModel BaseLemmas TrainingExamples.
From mathcomp Require Import all_ssreflect ssralg matrix mxalgebra.
From Verif Require Import RStruct PosDef MatrixBridge GaussianSpec GaussianProofs ExpectationProofs GaussianThms
  MultivariateSpec MultivariateProofs MultivariateThms GaussianExamples.
Set Implicit Arguments.
Unset Strict Implicit.
Unset Printing Implicit Defensive.
Import GRing.Theory.
Local Open Scope ring_scope.

(** Points of some draw. *)
Definition demo_normal_draw (loc : list R) (scale : option UtilsModel.matrix) (k : key demo) (n : nat) :=
  List.repeat loc n.
Definition demo_student_draw (df : fl) (loc : list R) (scale : option UtilsModel.matrix) (k : key demo) (n : nat) :=
  List.repeat loc n.

Lemma demo_normal_accepted cholesky : exists d d',
  normal_distribution demo_eigvals cholesky demo_normal_draw 1 1 demo_cov None = Ok d /\
  normal_distribution demo_eigvals cholesky demo_normal_draw 1 1 demo_cov (Some [:: IZR 4; IZR (-1)]) = Ok d'.
Proof.
  have [d h] := proj2 (@normal_accepts demo demo_eigvals cholesky demo_normal_draw 1 1 demo_cov None isT isT demo_cov_sym demo_cov_exact)
    (And3 (isT : has_shape demo_cov (1 + 1) (1 + 1)) (I : proper_mean (1 + 1) None) demo_posdef).
  have [d' h'] := proj2 (@normal_accepts demo demo_eigvals cholesky demo_normal_draw 1 1 demo_cov (Some [:: IZR 4; IZR (-1)]) isT isT demo_cov_sym demo_cov_exact)
    (And3 (isT : has_shape demo_cov (1 + 1) (1 + 1)) (erefl : proper_mean (1 + 1) (Some [:: IZR 4; IZR (-1)])) demo_posdef).
  by exists d, d'.
Qed.

Lemma demo_student_accepted cholesky psi lg : exists d d',
  student_distribution demo_eigvals cholesky demo_student_draw psi lg 1 1 (Fin 3) demo_cov None = Ok d /\
  student_distribution demo_eigvals cholesky demo_student_draw psi lg 1 1 (Fin 3) demo_cov (Some [:: IZR 4; IZR (-1)]) = Ok d'.
Proof.
  have p : Rlt 0 3 by lra.
  have [d h] := proj2 (@student_accepts_iff demo demo_eigvals cholesky demo_student_draw psi lg 1 1 3 demo_cov None isT isT demo_cov_sym demo_cov_exact)
    (And4 (isT : has_shape demo_cov (1 + 1) (1 + 1)) (I : proper_mean (1 + 1) None) demo_posdef p).
  have [d' h'] := proj2 (@student_accepts_iff demo demo_eigvals cholesky demo_student_draw psi lg 1 1 3 demo_cov (Some [:: IZR 4; IZR (-1)]) isT isT demo_cov_sym demo_cov_exact)
    (And4 (isT : has_shape demo_cov (1 + 1) (1 + 1)) (erefl : proper_mean (1 + 1) (Some [:: IZR 4; IZR (-1)])) demo_posdef p).
  by exists d, d'.
Qed.

(** A Cholesky factorisation for these matrices. *)
Lemma demo_cholesky : exists cholesky, cholesky_exact cholesky 1 1 demo_cov /\ cholesky_exact cholesky 1 1 skew.
Proof. have [f h] := cholesky_exists; exists f; split; exact: cholesky_exact_of. Qed.

(** ** An asymmetric covariance *)

Lemma skew_part : symmetric_part (sigma 1 1 skew) = sigma 1 1 (bivariate_cov (Rdiv 1 4) 1 1).
Proof.
  apply/matrixP => i j; rewrite !mxE /entry /skew /bivariate_cov.
  case: i => [[|[|i]] hi] //; case: j => [[|[|j]] hj] //=;
    lazymatch goal with |- ?l = ?r => change (@eq R l r) end.
  - change (Rmult (/ 2) (Rplus 1 1) = Rmult 1 (Rmult 1 1)); lra.
  - change (Rmult (/ 2) (Rplus (Rdiv 1 2) 0) = Rmult (Rmult (Rdiv 1 4) 1) 1); lra.
  - change (Rmult (/ 2) (Rplus 0 (Rdiv 1 2)) = Rmult (Rmult (Rdiv 1 4) 1) 1); lra.
  - change (Rmult (/ 2) (Rplus 1 1) = Rmult 1 (Rmult 1 1)); lra.
Qed.

Lemma skew_part_posdef : posdef (symmetric_part (sigma 1 1 skew)).
Proof. rewrite skew_part; apply: bivariate_posdef; lra. Qed.

Lemma skew_part_mi : Rlt 0 (gaussian_mi (symmetric_part (sigma 1 1 skew))).
Proof.
  rewrite skew_part bivariate_mi; try lra.
  have : Rlt (ln (Rminus 1 (pow (Rdiv 1 4) 2))) (ln 1) by apply: ln_increasing; lra.
  rewrite ln_1; set l := ln _; lra.
Qed.

Lemma asymmetric_wrong : exists eigvals cholesky C d,
  eigvals_exact eigvals 1 1 C /\ cholesky_exact cholesky 1 1 C /\
  normal_distribution eigvals cholesky demo_normal_draw 1 1 C None = Ok d /\
  posdef (symmetric_part (sigma 1 1 C)) /\
  (forall z, List.length z = (1 + 1)%N ->
     log_prob (dist_joint d) z = Fin (normal_log_density 0 (symmetric_part (sigma 1 1 C)) (to_cv (1 + 1) z))) /\
  analytic_mi d = Some (Fin 0) /\ Rlt 0 (gaussian_mi (symmetric_part (sigma 1 1 C))).
Proof.
  have [cholesky [_ ch]] := demo_cholesky.
  have [d h] : exists d, normal_distribution skew_eigvals cholesky demo_normal_draw (Z.of_nat 1) (Z.of_nat 1) skew None = Ok d.
  { eexists; apply: (proj2 (normal_ok _ _ _ _ _ _ _ _)); exists (built 1 1 skew None).
    split; [exact: skew_accepted | reflexivity]. }
  have ed : d = {| jd_dim_x := 1; jd_dim_y := 1;
      dist_joint := construct_normal cholesky demo_normal_draw (the_mean (1 + 1) None) skew;
      dist_x := construct_normal cholesky demo_normal_draw (List.firstn 1 (the_mean (1 + 1) None)) (square_slice skew 0 1);
      dist_y := construct_normal cholesky demo_normal_draw (List.skipn 1 (the_mean (1 + 1) None)) (square_slice skew 1 (1 + 1));
      analytic_mi := Some (split_multinormal_mi (built 1 1 skew None)) |}.
  { have [s [h1 ->]] := proj1 (normal_ok _ _ _ _ _ _ _ _) h.
    by have := skew_accepted; rewrite -[1%Z]/(Z.of_nat 1) h1 => -[->]. }
  exists skew_eigvals, cholesky, skew, d; split; first exact: skew_exact.
  split; first exact: ch.
  split; first exact: h.
  split; first exact: skew_part_posdef.
  split; last split; last exact: skew_part_mi.
  - move=> z hz; case: (ch) => c1 _ _; rewrite ed /=.
    have e := @normal_density_part (1 + 1) (the_mean (1 + 1) None) skew (cholesky skew) z skew_part_posdef c1 erefl hz.
    by rewrite e location_eq.
  - have d1 : \det (sigma 1 1 skew) = IZR 1.
    { rewrite -det_to_mx; cbn; lazymatch goal with |- ?l = ?r => change (@eq R l r) end; ring. }
    have d2 : \det (ulsubmx (sigma 1 1 skew)) = IZR 1 by rewrite det11 !mxE.
    have d3 : \det (drsubmx (sigma 1 1 skew)) = IZR 1 by rewrite det11 !mxE.
    have p : Rlt 0 1 by lra.
    have := @mi_clamped skew_eigvals 1 1 skew None _ skew_accepted.
    rewrite d1 d2 d3 => /(_ p p p) e; rewrite ed /= e; congr (Some (Fin _)).
    rewrite /gaussian_mi d1 d2 d3 Rmult_1_r /Rdiv Rinv_1 Rmult_1_r ln_1 Rmult_0_r.
    by rewrite /Rmax; case: (Rle_dec _ _).
Qed.

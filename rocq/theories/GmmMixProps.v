(** C64: the mixtures built from draws of the posterior. *)
From Verif Require Import Base UtilsModel JaxModel SamplersModel GaussianModel BmmModel MultivariateModel GmmModel
  BaseLemmas BmmSpec TrainingExamples GmmSpec.
From mathcomp Require Import all_ssreflect ssralg matrix mxalgebra.
From Verif Require Import RStruct PosDef MatrixBridge GaussianSpec MultivariateSpec GaussianExamples MultivariateExamples
  MultivariateThms GmmMixSpec GmmThms GmmExamples.
Set Implicit Arguments.
Unset Strict Implicit.
Unset Printing Implicit Defensive.
Import GRing.Theory.
Local Open Scope ring_scope.

(** C64: the covariance of each component of a draw is that of the scaled factor, and it is
    positive definite. *)
Theorem C64_covariances : forall prog K n l k, proper_latent K n l -> Rlt 0 (pg_jitter prog) -> (k < K)%coq_nat ->
  let C := List.nth k (dr_cov (draw_of_latent prog l)) nil in
  [/\ has_shape C n n,
      to_mx n n C = factored n (pg_jitter prog) (List.nth k (lt_tau l) nil) (List.nth k (lt_l_omega l) nil)
    & posdef (to_mx n n C)].
Proof. exact latent_posdef. Qed.
Print Assumptions C64_covariances.
Example C64_covariances_example : proper_latent 1 2 (one_component long_factor) /\ Rlt 0 (pg_jitter (sparse_program 3 2)).
Proof. split; [exact long_proper | rewrite /=; lra]. Qed.

(** C64: hence every draw gives a distribution, of the dimensions asked for. *)
Theorem C64_draws_accepted : forall (J : prng) T eigvals cholesky draw prog K (m n : nat) l,
  (0 < K)%N -> (0 < m)%N -> (0 < n)%N -> Rlt 0 (pg_jitter prog) -> proper_latent K (m + n) l ->
  List.Forall (eigvals_exact eigvals m n) (dr_cov (draw_of_latent prog l)) ->
  exists d, [/\ sample_into_bmm_distribution (J := J) T eigvals cholesky draw (draw_of_latent prog l) (Z.of_nat m) (Z.of_nat n) = Ok d,
                jd_dim_x d = m & jd_dim_y d = n].
Proof. exact @latent_accepted. Qed.
Print Assumptions C64_draws_accepted.
Example C64_draws_accepted_example : proper_latent 1 (1 + 1) (one_component long_factor) /\
  List.Forall (eigvals_exact demo_eigvals 1 1) (dr_cov (draw_of_latent (sparse_program 1 2) (one_component long_factor))).
Proof.
  split; first exact: long_proper. constructor=> //.
  rewrite -[component_covariance _ _ _]/(component_covariance (Rdiv 1 1000) [:: IZR 1; IZR 1] long_factor) long_cov; exact: demo_exact.
Qed.

(** C64: its density is the weighted sum of the normal densities with the drawn means and
    those covariances. *)
Theorem C64_draw_density : forall (J : prng) T eigvals cholesky draw prog K (m n : nat) l d,
  proper_latent K (m + n) l -> Rlt 0 (pg_jitter prog) ->
  List.Forall (fun C => eigvals_exact eigvals m n C /\ cholesky_exact cholesky m n C) (dr_cov (draw_of_latent prog l)) ->
  sample_into_bmm_distribution (J := J) T eigvals cholesky draw (draw_of_latent prog l) (Z.of_nat m) (Z.of_nat n) = Ok d ->
  let mu k := to_cv (m + n) (List.nth k (lt_mu l) nil) in
  let S k := factored (m + n) (pg_jitter prog) (List.nth k (lt_tau l) nil) (List.nth k (lt_l_omega l) nil) in
  let density k z := normal_density_at (mu k) (S k) z in
  forall z, List.length z = (m + n)%N ->
    has_density (dist_joint d) z
      (rsum (List.map (fun k => Rmult (List.nth k (lt_pi l) (IZR 0)) (density k (to_cv (m + n) z))) (List.seq 0 K))).
Proof. exact @latent_density. Qed.
Print Assumptions C64_draw_density.
Example C64_draw_density_example : exists cholesky d,
  List.Forall (fun C => eigvals_exact demo_eigvals 1 1 C /\ cholesky_exact cholesky 1 1 C)
    (dr_cov (draw_of_latent (sparse_program 1 2) (one_component long_factor))) /\
  sample_into_bmm_distribution gmm_tfp demo_eigvals cholesky demo_normal_draw
    (draw_of_latent (sparse_program 1 2) (one_component long_factor)) 1 1 = Ok d.
Proof.
  have [f h] := cholesky_exists.
  have [e [d hd]] := @build_corner f (sparse_program 1 2) long_factor _ _ erefl long_cov long_proper.
  exists f, d; rewrite e; split=> //; constructor=> //; split; [exact: demo_exact | exact: (@cholesky_exact_of f 1 1 (corner 25 15) isT h)].
Qed.

(** C64: for any proportions, means and covariances: the joint density and both marginal
    densities are mixtures of the components'. *)
Theorem C64_mixture_densities : forall (J : prng) T eigvals cholesky draw (g : gmm_draw) (m n : nat) d,
  sample_into_bmm_distribution (J := J) T eigvals cholesky draw g (Z.of_nat m) (Z.of_nat n) = Ok d ->
  good_proportions (dr_pi g) ->
  List.Forall (fun C => [/\ (sigma m n C)^T = sigma m n C, eigvals_ok (m + n) C (eigvals C) & cholesky_exact cholesky m n C]) (dr_cov g) ->
  let K := List.length (dr_pi g) in
  let p k := List.nth k (dr_pi g) (IZR 0) in
  let mu k := to_cv (m + n) (List.nth k (dr_mu g) nil) in
  let S k := sigma m n (List.nth k (dr_cov g) nil) in
  [/\ forall z, List.length z = (m + n)%N ->
        has_density (dist_joint d) z (mixture_of K p (fun k => normal_density_at (mu k) (S k) (to_cv (m + n) z))),
      forall x, List.length x = m ->
        has_density (dist_x d) x (mixture_of K p (fun k => normal_density_at (usubmx (mu k)) (ulsubmx (S k)) (to_cv m x)))
    & forall y, List.length y = n ->
        has_density (dist_y d) y (mixture_of K p (fun k => normal_density_at (dsubmx (mu k)) (drsubmx (S k)) (to_cv n y)))].
Proof. exact @build_densities. Qed.
Print Assumptions C64_mixture_densities.
Example C64_mixture_densities_example : exists cholesky d,
  (forall C, cholesky_ok (List.length C) C (cholesky C)) /\
  sample_into_bmm_distribution gmm_tfp demo_eigvals cholesky demo_normal_draw (corner_draw 25 15) 1 1 = Ok d.
Proof.
  have [f h] := cholesky_exists.
  have [_ [d hd]] := @build_corner f (sparse_program 1 2) long_factor _ _ erefl long_cov long_proper.
  by exists f, d.
Qed.

(** C64: arrays of other shapes fail the assertions, and nothing else does. *)
Theorem C64_assertions : forall (J : prng) T eigvals cholesky draw (g : gmm_draw) dim_x dim_y,
  (sample_into_bmm_distribution (J := J) T eigvals cholesky draw g dim_x dim_y = Err AssertionError) <->
  ~ (has_shape (dr_mu g) (List.length (dr_pi g)) (Z.to_nat (dim_x + dim_y)) /\ List.length (dr_cov g) = List.length (dr_pi g) /\
     List.Forall (fun C => has_shape C (Z.to_nat (dim_x + dim_y)) (Z.to_nat (dim_x + dim_y))) (dr_cov g)).
Proof. exact @build_assertion. Qed.
Print Assumptions C64_assertions.
Example C64_assertions_example : forall cholesky,
  sample_into_bmm_distribution gmm_tfp demo_eigvals cholesky demo_normal_draw (corner_draw 25 15) 1 2 = Err AssertionError.
Proof. by []. Qed.

(** C64: everything else refused raises ValueError. *)
Theorem C64_build_errors : forall (J : prng) T eigvals cholesky draw (g : gmm_draw) dim_x dim_y e,
  sample_into_bmm_distribution (J := J) T eigvals cholesky draw g dim_x dim_y = Err e -> e = AssertionError \/ e = ValueError.
Proof. exact @build_errors. Qed.
Print Assumptions C64_build_errors.
Example C64_build_errors_example : forall cholesky,
  sample_into_bmm_distribution gmm_tfp demo_eigvals cholesky demo_normal_draw (corner_draw 25 15) 0 2 = Err ValueError.
Proof. by []. Qed.

(** C64: an accepted mixture has the dimensions asked for, at least one component and no
    closed formula for its mutual information. *)
Theorem C64_build_dimensions : forall (J : prng) T eigvals cholesky draw (g : gmm_draw) (m n : nat) d,
  sample_into_bmm_distribution (J := J) T eigvals cholesky draw g (Z.of_nat m) (Z.of_nat n) = Ok d ->
  [/\ jd_dim_x d = m, jd_dim_y d = n, (0 < List.length (dr_pi g))%N & analytic_mi d = None].
Proof. exact @build_dims. Qed.
Print Assumptions C64_build_dimensions.
Example C64_build_dimensions_example : exists cholesky d,
  sample_into_bmm_distribution gmm_tfp demo_eigvals cholesky demo_normal_draw (corner_draw 25 15) 1 1 = Ok d.
Proof. have [f [d [_ h]]] := C64_mixture_densities_example; by exists f, d. Qed.

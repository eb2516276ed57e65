(** C73: the normal and Student distributions of the Bend and Mix Models. *)
From Verif Require Import Base UtilsModel JaxModel SamplersModel GaussianModel BmmModel MultivariateModel BaseLemmas TrainingExamples.
From mathcomp Require Import all_ssreflect ssralg matrix mxalgebra.
From Verif Require Import RStruct PosDef MatrixBridge GaussianSpec GaussianProofs ExpectationProofs GaussianThms
  MultivariateSpec MultivariateProofs MultivariateThms GaussianExamples MultivariateExamples.
Set Implicit Arguments.
Unset Strict Implicit.
Unset Printing Implicit Defensive.
Import GRing.Theory.
Local Open Scope ring_scope.

(** C73: a function doing what is asked of [jnp.linalg.cholesky] exists: every positive
    definite matrix has a lower triangular factor. *)
Theorem C73_cholesky_exists : exists cholesky : UtilsModel.matrix -> option UtilsModel.matrix,
  forall C, cholesky_ok (List.length C) C (cholesky C).
Proof. exact cholesky_exists. Qed.
Print Assumptions C73_cholesky_exists.

(** C73: which arguments are accepted by MultivariateNormalDistribution. *)
Theorem C73_normal_accepts : forall (J : prng) eigvals cholesky draw (m n : nat) C mean, (0 < m)%N -> (0 < n)%N ->
  (sigma m n C)^T = sigma m n C -> eigvals_exact eigvals m n C ->
  ((exists d, normal_distribution (J := J) eigvals cholesky draw (Z.of_nat m) (Z.of_nat n) C mean = Ok d) <->
   [/\ has_shape C (m + n) (m + n), proper_mean (m + n) mean & posdef (sigma m n C)]).
Proof. exact @normal_accepts. Qed.
Print Assumptions C73_normal_accepts.
Example C73_normal_accepts_example : (sigma 1 1 demo_cov)^T = sigma 1 1 demo_cov /\ eigvals_exact demo_eigvals 1 1 demo_cov /\
  posdef (sigma 1 1 demo_cov).
Proof. split; [exact demo_cov_sym|]; split; [exact demo_cov_exact | exact demo_posdef]. Qed.

(** C73: whatever is refused raises ValueError. *)
Theorem C73_normal_errors : forall (J : prng) eigvals cholesky draw dim_x dim_y C mean e,
  normal_distribution (J := J) eigvals cholesky draw dim_x dim_y C mean = Err e -> e = ValueError.
Proof. exact @normal_errors. Qed.
Print Assumptions C73_normal_errors.
Example C73_normal_errors_example :
  normal_distribution (J := demo) demo_eigvals (fun _ => None) demo_normal_draw 0 2 demo_cov None = Err ValueError.
Proof. reflexivity. Qed.

(** C73: the dimensions are those given, and the shapes of the three distributions agree
    with them. *)
Theorem C73_normal_dimensions : forall (J : prng) eigvals cholesky draw dim_x dim_y C mean d,
  normal_distribution (J := J) eigvals cholesky draw dim_x dim_y C mean = Ok d ->
  [/\ Z.of_nat (jd_dim_x d) = dim_x, Z.of_nat (jd_dim_y d) = dim_y, Z.le 1 dim_x, Z.le 1 dim_y &
      [/\ event_shape (dist_joint d) = [:: (jd_dim_x d + jd_dim_y d)%N],
          event_shape (dist_x d) = [:: jd_dim_x d] & event_shape (dist_y d) = [:: jd_dim_y d]]].
Proof. exact @normal_dims. Qed.
Print Assumptions C73_normal_dimensions.
Example C73_normal_dimensions_example : forall cholesky, exists d d',
  normal_distribution demo_eigvals cholesky demo_normal_draw 1 1 demo_cov None = Ok d /\
  normal_distribution demo_eigvals cholesky demo_normal_draw 1 1 demo_cov (Some [:: IZR 4; IZR (-1)]) = Ok d'.
Proof. exact demo_normal_accepted. Qed.

(** C73: the densities are the normal density with the given mean (zero by default) and
    covariance, and those of its two halves. *)
Theorem C73_normal_densities : forall (J : prng) eigvals cholesky draw (m n : nat) C mean d,
  (sigma m n C)^T = sigma m n C -> eigvals_ok (m + n) C (eigvals C) -> cholesky_exact cholesky m n C ->
  normal_distribution (J := J) eigvals cholesky draw (Z.of_nat m) (Z.of_nat n) C mean = Ok d ->
  let S := sigma m n C in
  let mu := location (m + n) mean in
  [/\ forall z, List.length z = (m + n)%N ->
        log_prob (dist_joint d) z = Fin (normal_log_density mu S (to_cv (m + n) z)),
      forall x, List.length x = m ->
        log_prob (dist_x d) x = Fin (normal_log_density (usubmx mu) (ulsubmx S) (to_cv m x))
    & forall y, List.length y = n ->
        log_prob (dist_y d) y = Fin (normal_log_density (dsubmx mu) (drsubmx S) (to_cv n y))].
Proof. exact @normal_densities. Qed.
Print Assumptions C73_normal_densities.
Example C73_normal_densities_example : exists cholesky d,
  eigvals_ok (1 + 1) demo_cov (demo_eigvals demo_cov) /\ cholesky_exact cholesky 1 1 demo_cov /\
  normal_distribution demo_eigvals cholesky demo_normal_draw 1 1 demo_cov (Some [:: IZR 4; IZR (-1)]) = Ok d.
Proof.
  have [f [h _]] := demo_cholesky; have [d [d' [_ h']]] := demo_normal_accepted f.
  exists f, d'; split; [exact (proj1 demo_cov_exact) | by split].
Qed.

(** C73: samples are drawn by TFP from the same distributions: the location is the mean and
    the scale a lower triangular factor of the covariance. *)
Theorem C73_normal_sample : forall (J : prng) eigvals cholesky normal_draw (m n : nat) C mean d,
  (sigma m n C)^T = sigma m n C -> eigvals_ok (m + n) C (eigvals C) -> cholesky_exact cholesky m n C ->
  normal_distribution (J := J) eigvals cholesky normal_draw (Z.of_nat m) (Z.of_nat n) C mean = Ok d ->
  let S := sigma m n C in
  let mu := location (m + n) mean in
  [/\ exists loc L, located mu S loc L /\ draw (dist_joint d) = normal_draw loc (Some L),
      exists loc L, located (usubmx mu) (ulsubmx S) loc L /\ draw (dist_x d) = normal_draw loc (Some L)
    & exists loc L, located (dsubmx mu) (drsubmx S) loc L /\ draw (dist_y d) = normal_draw loc (Some L)].
Proof. exact @normal_sample. Qed.
Print Assumptions C73_normal_sample.
Example C73_normal_sample_example : exists cholesky d,
  eigvals_ok (1 + 1) demo_cov (demo_eigvals demo_cov) /\ cholesky_exact cholesky 1 1 demo_cov /\
  normal_distribution demo_eigvals cholesky demo_normal_draw 1 1 demo_cov (Some [:: IZR 4; IZR (-1)]) = Ok d.
Proof. exact C73_normal_densities_example. Qed.

(** C73: the reported mutual information is the expectation of the distribution's own
    pointwise mutual information, under every expectation operator with that mean and
    covariance. *)
Theorem C73_normal_expected_pmi : forall (J : prng) eigvals cholesky draw (m n : nat) C mean d I E,
  (sigma m n C)^T = sigma m n C -> eigvals_ok (m + n) C (eigvals C) -> cholesky_exact cholesky m n C ->
  normal_distribution (J := J) eigvals cholesky draw (Z.of_nat m) (Z.of_nat n) C mean = Ok d ->
  expectation I E -> has_covariance I E (location (m + n) mean) (sigma m n C) ->
  exists pmi : 'cV[R]_(m + n) -> R,
    [/\ forall z, point_pmi d (of_cv (usubmx z)) (of_cv (dsubmx z)) = Fin (pmi z),
        I pmi & analytic_mi d = Some (Fin (E pmi))].
Proof. exact @normal_pmi_expected. Qed.
Print Assumptions C73_normal_expected_pmi.
Example C73_normal_expected_example : exists cholesky d,
  cholesky_exact cholesky 1 1 demo_cov /\
  normal_distribution demo_eigvals cholesky demo_normal_draw 1 1 demo_cov None = Ok d /\
  expectation demo_I demo_E /\ has_covariance demo_I demo_E (location (1 + 1) None) (sigma 1 1 demo_cov).
Proof.
  have [f [h _]] := demo_cholesky; have [d [d' [h' _]]] := demo_normal_accepted f.
  exists f, d; split=> //; split=> //; split; [exact demo_expectation | exact demo_has_covariance].
Qed.

(** C73: moving the mean moves the pointwise mutual information along. *)
Theorem C73_normal_shift : forall (J : prng) eigvals cholesky draw (m n : nat) C mx my d d0 x y,
  (sigma m n C)^T = sigma m n C -> eigvals_ok (m + n) C (eigvals C) -> cholesky_exact cholesky m n C ->
  List.length mx = m -> List.length my = n -> List.length x = m -> List.length y = n ->
  normal_distribution (J := J) eigvals cholesky draw (Z.of_nat m) (Z.of_nat n) C (Some (List.app mx my)) = Ok d ->
  normal_distribution (J := J) eigvals cholesky draw (Z.of_nat m) (Z.of_nat n) C None = Ok d0 ->
  point_pmi d (moved x mx) (moved y my) = point_pmi d0 x y.
Proof. exact @normal_shift. Qed.
Print Assumptions C73_normal_shift.
Example C73_normal_shift_example : exists cholesky d d',
  cholesky_exact cholesky 1 1 demo_cov /\
  normal_distribution demo_eigvals cholesky demo_normal_draw 1 1 demo_cov None = Ok d /\
  normal_distribution demo_eigvals cholesky demo_normal_draw 1 1 demo_cov (Some (List.app [:: IZR 4] [:: IZR (-1)])) = Ok d'.
Proof.
  have [f [h _]] := demo_cholesky; have [d [d' [h1 h2]]] := demo_normal_accepted f.
  by exists f, d, d'.
Qed.

(** C73: an asymmetric covariance is accepted, and then the reported mutual information is
    not that of the densities: here it is 0 while the densities have a positive one. *)
Theorem C73_asymmetric_refuted : exists eigvals cholesky C d,
  eigvals_exact eigvals 1 1 C /\ cholesky_exact cholesky 1 1 C /\
  normal_distribution eigvals cholesky demo_normal_draw 1 1 C None = Ok d /\
  posdef (symmetric_part (sigma 1 1 C)) /\
  (forall z, List.length z = (1 + 1)%N ->
     log_prob (dist_joint d) z = Fin (normal_log_density 0 (symmetric_part (sigma 1 1 C)) (to_cv (1 + 1) z))) /\
  analytic_mi d = Some (Fin 0) /\ Rlt 0 (gaussian_mi (symmetric_part (sigma 1 1 C))).
Proof. exact asymmetric_wrong. Qed.
Print Assumptions C73_asymmetric_refuted.

(** C73: the same for MultivariateStudentDistribution. *)
Theorem C73_student_accepts : forall (J : prng) eigvals cholesky draw psi log_gamma (m n : nat) df C mean,
  (0 < m)%N -> (0 < n)%N -> (sigma m n C)^T = sigma m n C -> eigvals_exact eigvals m n C ->
  ((exists d, student_distribution (J := J) eigvals cholesky draw psi log_gamma (Z.of_nat m) (Z.of_nat n) (Fin df) C mean = Ok d) <->
   [/\ has_shape C (m + n) (m + n), proper_mean (m + n) mean, posdef (sigma m n C) & Rlt 0 df]).
Proof. exact @student_accepts_iff. Qed.
Print Assumptions C73_student_accepts.
Example C73_student_accepts_example : forall cholesky psi lg, exists d d',
  student_distribution demo_eigvals cholesky demo_student_draw psi lg 1 1 (Fin 3) demo_cov None = Ok d /\
  student_distribution demo_eigvals cholesky demo_student_draw psi lg 1 1 (Fin 3) demo_cov (Some [:: IZR 4; IZR (-1)]) = Ok d'.
Proof. exact demo_student_accepted. Qed.

Theorem C73_student_densities : forall (J : prng) eigvals cholesky draw psi log_gamma (m n : nat) df C mean d,
  (sigma m n C)^T = sigma m n C -> eigvals_ok (m + n) C (eigvals C) -> cholesky_exact cholesky m n C ->
  student_distribution (J := J) eigvals cholesky draw psi log_gamma (Z.of_nat m) (Z.of_nat n) (Fin df) C mean = Ok d ->
  let S := sigma m n C in
  let mu := location (m + n) mean in
  [/\ forall z, List.length z = (m + n)%N ->
        log_prob (dist_joint d) z = Fin (student_log_density log_gamma df mu S (to_cv (m + n) z)),
      forall x, List.length x = m ->
        log_prob (dist_x d) x = Fin (student_log_density log_gamma df (usubmx mu) (ulsubmx S) (to_cv m x))
    & forall y, List.length y = n ->
        log_prob (dist_y d) y = Fin (student_log_density log_gamma df (dsubmx mu) (drsubmx S) (to_cv n y))].
Proof. exact @student_densities. Qed.
Print Assumptions C73_student_densities.
Example C73_student_densities_example : exists cholesky d,
  cholesky_exact cholesky 1 1 demo_cov /\
  student_distribution demo_eigvals cholesky demo_student_draw demo_psi ln 1 1 (Fin 3) demo_cov (Some [:: IZR 4; IZR (-1)]) = Ok d.
Proof.
  have [f [h _]] := demo_cholesky; have [d [d' [_ h']]] := demo_student_accepted f demo_psi ln.
  by exists f, d'.
Qed.

Theorem C73_student_sample : forall (J : prng) eigvals cholesky student_draw psi log_gamma (m n : nat) df C mean d,
  (sigma m n C)^T = sigma m n C -> eigvals_ok (m + n) C (eigvals C) -> cholesky_exact cholesky m n C ->
  student_distribution (J := J) eigvals cholesky student_draw psi log_gamma (Z.of_nat m) (Z.of_nat n) df C mean = Ok d ->
  let S := sigma m n C in
  let mu := location (m + n) mean in
  [/\ exists loc L, located mu S loc L /\ draw (dist_joint d) = student_draw df loc (Some L),
      exists loc L, located (usubmx mu) (ulsubmx S) loc L /\ draw (dist_x d) = student_draw df loc (Some L)
    & exists loc L, located (dsubmx mu) (drsubmx S) loc L /\ draw (dist_y d) = student_draw df loc (Some L)].
Proof. exact @student_sample. Qed.
Print Assumptions C73_student_sample.
Example C73_student_sample_example : exists cholesky d,
  cholesky_exact cholesky 1 1 demo_cov /\
  student_distribution demo_eigvals cholesky demo_student_draw demo_psi ln 1 1 (Fin 3) demo_cov (Some [:: IZR 4; IZR (-1)]) = Ok d.
Proof. exact C73_student_densities_example. Qed.

Theorem C73_student_expected_pmi : forall (J : prng) eigvals cholesky draw psi log_gamma (m n : nat) df C mean d I E,
  (sigma m n C)^T = sigma m n C -> eigvals_ok (m + n) C (eigvals C) -> cholesky_exact cholesky m n C ->
  student_distribution (J := J) eigvals cholesky draw psi log_gamma (Z.of_nat m) (Z.of_nat n) (Fin df) C mean = Ok d ->
  let S := sigma m n C in
  let mu := location (m + n) mean in
  expectation I E ->
  student_log_moment psi df I E mu S ->
  student_log_moment psi df (fun f => I (fun z => f (usubmx z))) (fun f => E (fun z => f (usubmx z)))
    (usubmx mu) (ulsubmx S) ->
  student_log_moment psi df (fun f => I (fun z => f (dsubmx z))) (fun f => E (fun z => f (dsubmx z)))
    (dsubmx mu) (drsubmx S) ->
  exists pmi : 'cV[R]_(m + n) -> R,
    [/\ forall z, point_pmi d (of_cv (usubmx z)) (of_cv (dsubmx z)) = Fin (pmi z),
        I pmi & analytic_mi d = Some (Fin (E pmi))].
Proof. exact @student_pmi_expected. Qed.
Print Assumptions C73_student_expected_pmi.
Example C73_student_expected_example : exists cholesky d,
  cholesky_exact cholesky 1 1 demo_cov /\
  student_distribution demo_eigvals cholesky demo_student_draw demo_psi ln 1 1 (Fin 3) demo_cov None = Ok d /\
  student_log_moment demo_psi 3 demo_I demo_E (location (1 + 1) None) (sigma 1 1 demo_cov) /\
  student_log_moment demo_psi 3 (fun f => demo_I (fun z => f (usubmx z))) (fun f => demo_E (fun z => f (usubmx z)))
    (usubmx (location (1 + 1) None)) (ulsubmx (sigma 1 1 demo_cov)) /\
  student_log_moment demo_psi 3 (fun f => demo_I (fun z => f (dsubmx z))) (fun f => demo_E (fun z => f (dsubmx z)))
    (dsubmx (location (1 + 1) None)) (drsubmx (sigma 1 1 demo_cov)).
Proof.
  have [f [h _]] := demo_cholesky; have [d [d' [h' _]]] := demo_student_accepted f demo_psi ln.
  exists f, d; split=> //; split=> //; exact demo_student_moments.
Qed.

Theorem C73_student_shift : forall (J : prng) eigvals cholesky draw psi log_gamma (m n : nat) df C mx my d d0 x y,
  (sigma m n C)^T = sigma m n C -> eigvals_ok (m + n) C (eigvals C) -> cholesky_exact cholesky m n C ->
  List.length mx = m -> List.length my = n -> List.length x = m -> List.length y = n ->
  student_distribution (J := J) eigvals cholesky draw psi log_gamma (Z.of_nat m) (Z.of_nat n) (Fin df) C (Some (List.app mx my)) = Ok d ->
  student_distribution (J := J) eigvals cholesky draw psi log_gamma (Z.of_nat m) (Z.of_nat n) (Fin df) C None = Ok d0 ->
  point_pmi d (moved x mx) (moved y my) = point_pmi d0 x y.
Proof. exact @student_shift. Qed.
Print Assumptions C73_student_shift.
Example C73_student_shift_example : exists cholesky d d',
  cholesky_exact cholesky 1 1 demo_cov /\
  student_distribution demo_eigvals cholesky demo_student_draw demo_psi ln 1 1 (Fin 3) demo_cov None = Ok d /\
  student_distribution demo_eigvals cholesky demo_student_draw demo_psi ln 1 1 (Fin 3) demo_cov (Some (List.app [:: IZR 4] [:: IZR (-1)])) = Ok d'.
Proof.
  have [f [h _]] := demo_cholesky; have [d [d' [h1 h2]]] := demo_student_accepted f demo_psi ln.
  by exists f, d, d'.
Qed.

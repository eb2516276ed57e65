(** C87: distributions contaminated with noise. *)
From Coq Require Import String ZArith Lra.
From Verif Require Import Base UtilsModel JaxModel SamplersModel GaussianModel MatrixUtilsModel BmmModel MultivariateModel
  MixturesModel PaperModel OutliersModel DiscreteSpec OutliersSpec BmmSpec OutliersThms OutliersSignal TrainingExamples BmmExamples.
From mathcomp Require Import ssreflect.
From Verif Require Import MixturesSpec EigvalsExist MultivariateThms MultivariateExamples OutliersFactor OutliersMade OutliersExamples.
Open Scope R_scope.
Local Notation length := List.length.

(** Whatever the signal and the noise: a fraction of the points keeps its X and receives a Y
    drawn from the noise. *)
Theorem C87_densities : forall (J : prng) (T : tfp_draws J) signal (ny : tfd J) noise d a p px py q, 0 <= a <= 1 -> densities signal p px py ->
  (forall y, length y = jd_dim_y signal -> has_density ny y (q y)) -> jd_dim_y noise = jd_dim_y signal -> jd_dim_x noise = jd_dim_x signal ->
  product_distribution T (dist_x signal) ny = Ok noise ->
  setup_mixture T {| dist_true := signal; dist_noise := noise |} a = Ok d ->
  jd_dim_x d = jd_dim_x signal /\ jd_dim_y d = jd_dim_y signal /\ analytic_mi d = None /\
  densities d (contaminated a p px q) px (contaminated_y a py q).
Proof. exact (fun J => @contaminate J). Qed.
Print Assumptions C87_densities.
Example C87_densities_example : exists noise d, product_distribution demo_tfp (dist_x (square tilt)) (side flat) = Ok noise /\
  setup_mixture demo_tfp {| dist_true := square tilt; dist_noise := noise |} (1 / 2) = Ok d /\
  densities d (contaminated (1 / 2) (fun x y => two_dim tilt (x ++ y)%list) (one_dim tilt) (one_dim flat)) (one_dim tilt)
    (contaminated_y (1 / 2) (one_dim tilt) (one_dim flat)).
Proof. exact half_noise. Qed.

(** Pointwise: e^PMI is the average of that of the signal and 1, weighted with the probability
    that a point with this Y is not noise.  Hence noise moves every value towards 0, never past it. *)
Theorem C87_posterior : forall a pxy px py q, 0 <= a <= 1 -> 0 < pxy -> 0 < px -> 0 < py -> 0 < q ->
  let v := information pxy px py in
  let w := information ((1 - a) * pxy + a * (px * q)) px ((1 - a) * py + a * q) in
  let clean := (1 - a) * py / ((1 - a) * py + a * q) in
  0 <= clean <= 1 /\ exp w = clean * exp v + (1 - clean) /\ Rmin v 0 <= w <= Rmax v 0.
Proof. exact posterior_average. Qed.
Print Assumptions C87_posterior.
Example C87_posterior_example : exp (information ((1 - 1 / 2) * 4 + 1 / 2 * (1 * 3)) 1 ((1 - 1 / 2) * 1 + 1 / 2 * 3)) = 1 / 4 * exp (information 4 1 1) + (1 - 1 / 4).
Proof.
  unfold information. rewrite !exp_ln; lra.
Qed.

(** Noise loses information: at least in proportion to its fraction, for every integral. *)
Theorem C87_loses : forall (I : (list R -> list R -> R) -> R) a p px py q, integral I -> 0 <= a <= 1 ->
  (forall x y, 0 < p x y) -> (forall x, 0 < px x) -> (forall y, 0 < py y) -> (forall y, 0 < q y) ->
  I (fun x y => contaminated a p px q x y * information (contaminated a p px q x y) (px x) (contaminated_y a py q y)) <=
  (1 - a) * I (fun x y => p x y * information (p x y) (px x) (py y)).
Proof. exact (fun I => @contaminated_information_bound I). Qed.
Print Assumptions C87_loses.
Example C87_loses_example : integral two_points /\ (forall x y, 0 < signal_density x y).
Proof. exact (conj two_points_integral signal_pos). Qed.

(** Noise with the law of Y itself: the value is known exactly, and never falls below the logarithm
    of the fraction of noise. *)
Theorem C87_own_noise : forall a pxy px py, 0 <= a <= 1 -> 0 < pxy -> 0 < px -> 0 < py ->
  let v := information pxy px py in
  let w := information ((1 - a) * pxy + a * (px * py)) px ((1 - a) * py + a * py) in
  w = ln ((1 - a) * exp v + a) /\ (0 < a -> ln a <= w) /\ (0 <= v -> 0 <= w <= v) /\ (v <= 0 -> v <= w <= 0).
Proof. exact own_noise. Qed.
Print Assumptions C87_own_noise.
Example C87_own_noise_example : information ((1 - 1 / 2) * 4 + 1 / 2 * (1 * 1)) 1 ((1 - 1 / 2) * 1 + 1 / 2 * 1) = ln (5 / 2).
Proof. unfold information. f_equal. lra. Qed.

(** No noise leaves the signal; noise only leaves nothing. *)
Theorem C87_ends : forall pxy px py q, 0 < pxy -> 0 < px -> 0 < py -> 0 < q ->
  information ((1 - 0) * pxy + 0 * (px * q)) px ((1 - 0) * py + 0 * q) = information pxy px py /\
  information ((1 - 1) * pxy + 1 * (px * q)) px ((1 - 1) * py + 1 * q) = 0.
Proof. exact contamination_ends. Qed.
Print Assumptions C87_ends.
Example C87_ends_example : information 4 1 2 = ln 2.
Proof. unfold information. f_equal. lra. Qed.

(** The signal: its correlation matrix, its densities in closed form and its mutual information. *)
Theorem C87_signal : forall (J : prng) eigvals cholesky (normal_draw : list R -> option matrix -> key J -> nat -> matrix),
  eigvals_symmetric eigvals -> factorises cholesky ->
  signal_cov_matrix = Ok signal_correlation /\
  exists d, dist_signal_gauss eigvals cholesky normal_draw = Ok d /\
    jd_dim_x d = 2%nat /\ jd_dim_y d = 2%nat /\ event_shape (dist_x d) = [2%nat] /\ analytic_mi d = Some (Fin signal_information) /\
    densities d signal_density signal_y signal_y.
Proof. exact (fun J e c nd He Hc => conj (proj1 signal_accepted) (signal_made nd He Hc)). Qed.
Print Assumptions C87_signal.
Example C87_signal_example : (exists eigvals, eigvals_symmetric eigvals) /\ (exists cholesky, factorises cholesky).
Proof. exact (conj eigvals_exists cholesky_exists). Qed.

(** The two setups are made; at every level their mixtures are the contaminated signal, with noise of
    variance 1 and 25. *)
Theorem C87_setups : forall (J : prng) (T : tfp_draws J) eigvals cholesky (normal_draw : list R -> option matrix -> key J -> nat -> matrix),
  eigvals_symmetric eigvals -> factorises cholesky -> exists signal inlier outlier,
    dist_signal_gauss eigvals cholesky normal_draw = Ok signal /\
    change_mixing_setups T eigvals cholesky normal_draw =
      Ok [("Gauss-Inlier", {| dist_true := signal; dist_noise := inlier |}); ("Gauss-Outlier", {| dist_true := signal; dist_noise := outlier |})]%string /\
    (forall a, 0 <= a <= 1 -> exists d, setup_mixture T {| dist_true := signal; dist_noise := inlier |} a = Ok d /\ contaminated_signal d a 1 /\ mixed_draws T d a 1) /\
    (forall a, 0 <= a <= 1 -> exists d, setup_mixture T {| dist_true := signal; dist_noise := outlier |} a = Ok d /\ contaminated_signal d a 25 /\ mixed_draws T d a 25).
Proof. exact (fun J T e c nd He Hc => setups_made T e c nd He Hc). Qed.
Print Assumptions C87_setups.
Example C87_setups_example : exists eigvals cholesky setups, eigvals_symmetric eigvals /\ factorises cholesky /\
  change_mixing_setups demo_tfp eigvals cholesky demo_normal_draw = Ok setups /\ length setups = 2%nat.
Proof. exact demo_setups. Qed.

(** The distribution for each positive variance of the noise. *)
Theorem C87_variances : forall (J : prng) (T : tfp_draws J) eigvals cholesky (normal_draw : list R -> option matrix -> key J -> nat -> matrix) signal v,
  eigvals_symmetric eigvals -> factorises cholesky -> dist_signal_gauss eigvals cholesky normal_draw = Ok signal -> 0 < v ->
  exists d, variance_mixture T cholesky normal_draw signal v = Ok d /\ contaminated_signal d (2 / 10) v /\ mixed_draws T d (2 / 10) v.
Proof. exact (fun J T e c nd s v He Hc => variances_made T e c nd He Hc s v). Qed.
Print Assumptions C87_variances.
Example C87_variances_example : 0 < Rpower 2 (-7).
Proof. exact (exp_pos _). Qed.

(** The pointwise mutual information they report. *)
Theorem C87_pmi : forall (J : prng) (d : joint_distribution J) a v x y, 0 <= a <= 1 -> 0 < v -> contaminated_signal d a v ->
  length x = 2%nat -> length y = 2%nat ->
  let clean := (1 - a) * signal_y y / ((1 - a) * signal_y y + a * plane v 0 y) in
  let own := information (signal_density x y) (signal_y x) (signal_y y) in
  exists w, point_pmi d x y = Fin w /\ 0 <= clean <= 1 /\ exp w = clean * exp own + (1 - clean) /\ Rmin own 0 <= w <= Rmax own 0.
Proof. exact (fun J => @signal_noise_pmi J). Qed.
Print Assumptions C87_pmi.
Example C87_pmi_example : exists d : joint_distribution demo, contaminated_signal d (2 / 10) 25.
Proof. exact demo_contaminated. Qed.

(** The noise called inliers does not have the law of Y (its coordinates are independent), so the law
    of Y changes with the level. *)
Theorem C87_inliers_refuted : forall a, 0 < a <= 1 -> exists y, length y = 2%nat /\ contaminated_y a signal_y (plane 1 0) y <> signal_y y.
Proof. exact inliers_marginal_refuted. Qed.
Print Assumptions C87_inliers_refuted.
Example C87_inliers_refuted_example : 0 < 1 / 2 <= 1.
Proof. lra. Qed.

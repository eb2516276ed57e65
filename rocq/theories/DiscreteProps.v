(** C86: the mixture with a continuous X and a binary Y. *)
From Coq Require Import String ZArith Lra.
From Verif Require Import Base UtilsModel JaxModel SamplersModel GaussianModel MatrixUtilsModel BmmModel MultivariateModel
  MixturesModel PaperModel DiscreteModel DiscreteSpec BmmSpec DiscreteThms DiscreteExamples TrainingExamples TasksExamples.
From mathcomp Require Import ssreflect.
From Verif Require Import MixturesSpec MultivariateThms MultivariateExamples DiscreteFactor.
Open Scope R_scope.

(** A Bernoulli variable has its probabilities at 0 and 1; certain answers too. *)
Theorem C86_bernoulli : forall (J : prng) (draw : R -> key J -> nat -> matrix) p b, 0 <= p <= 1 ->
  has_density (construct_bernoulli draw p) [bit b] (if b then p else 1 - p).
Proof. exact (fun J => @bernoulli_density J). Qed.
Print Assumptions C86_bernoulli.
Example C86_bernoulli_example : has_density (construct_bernoulli (fun (_ : R) (_ : key demo) n => repeat [1] n) 1) [bit false] (1 - 1).
Proof. exact (bernoulli_density (J := demo) _ 1 false (conj Rle_0_1 (Rle_refl 1))). Qed.

(** The distribution is built, and reports the densities of a mixture of three clouds in the plane
    (two Student and one normal) with labels; both labels have probability 1/2. *)
Theorem C86_densities : forall (J : prng) (T : tfp_draws J) cholesky nd sd bd log_gamma, factorises cholesky -> gamma_step log_gamma ->
  exists d, define_distribution T cholesky nd sd bd log_gamma = Ok d /\ jd_dim_x d = 2%nat /\ jd_dim_y d = 1%nat /\ analytic_mi d = None /\
    (forall x1 x2, has_density (dist_x d) [x1; x2] (points_density x1 x2)) /\
    (forall b, has_density (dist_y d) [bit b] (1 / 2)) /\
    (forall x1 x2 b, has_density (dist_joint d) [x1; x2; bit b] (labelled_density x1 x2 b)).
Proof.
  exact (fun J T c nd sd bd g f s => discrete_made T c nd sd bd g s (proj1 (discrete_factors f)) (proj2 (discrete_factors f))).
Qed.
Print Assumptions C86_densities.
Example C86_densities_example : (exists cholesky, factorises cholesky) /\ gamma_step ex_log_gamma.
Proof. exact (conj cholesky_exists ex_gamma_step). Qed.

(** Its pointwise mutual information. *)
Theorem C86_pmi : forall (J : prng) (T : tfp_draws J) cholesky nd sd bd log_gamma d x1 x2 b, factorises cholesky -> gamma_step log_gamma ->
  define_distribution T cholesky nd sd bd log_gamma = Ok d -> point_pmi d [x1; x2] [bit b] = Fin (discrete_pmi x1 x2 b).
Proof.
  exact (fun J T c nd sd bd g d x1 x2 b f s => discrete_point T c nd sd bd g s (proj1 (discrete_factors f)) (proj2 (discrete_factors f)) d x1 x2 b).
Qed.
Print Assumptions C86_pmi.

(** It is always between ln 0.1 and ln 1.9, hence within the range of the plot. *)
Theorem C86_bounds : forall x1 x2 b, profile_bounds (discrete_pmi x1 x2 b).
Proof. exact profile_window. Qed.
Print Assumptions C86_bounds.
Theorem C86_shown : shown_range = (-3, 1) /\ forall v, profile_bounds v -> fst shown_range < v < snd shown_range.
Proof. exact bounds_shown. Qed.
Print Assumptions C86_shown.
Example C86_shown_example : profile_bounds (discrete_pmi 0 3 true).
Proof. exact (profile_window 0 3 true). Qed.

(** The two values at a point balance; the label of a cloud is informative where it is denser than
    the opposite one. *)
Theorem C86_balance : forall x1 x2, exp (discrete_pmi x1 x2 true) + exp (discrete_pmi x1 x2 false) = 2.
Proof. exact profile_balance. Qed.
Print Assumptions C86_balance.
Theorem C86_sign : forall x1 x2, (0 < discrete_pmi x1 x2 true <-> cloud 2 x1 x2 < cloud 0 x1 x2) /\
  (0 < discrete_pmi x1 x2 false <-> cloud 0 x1 x2 < cloud 2 x1 x2).
Proof. exact profile_sign. Qed.
Print Assumptions C86_sign.
Example C86_sign_example : 0 < discrete_pmi (-1) (-1) true.
Proof. exact ex_first_cloud. Qed.

(** Whatever labelled points are drawn: those of the figure are coloured by label, the profile has the
    pointwise mutual information of every one of its million points, and the estimate and its
    standard error are numbers within the bounds. *)
Theorem C86_rules : forall (J : prng) (T : tfp_draws J) cholesky nd sd bd log_gamma d k, factorises cholesky -> gamma_step log_gamma ->
  define_distribution T cholesky nd sd bd log_gamma = Ok d ->
  (labelled_rows 1000 (draw (dist_joint d) k 1000) ->
     exists xs ys, sample_joint T cholesky nd sd bd log_gamma k = Ok (xs, ys) /\
       Forall2 (fun r x => x = firstn 2 r) (draw (dist_joint d) k 1000%nat) xs /\
       Forall2 (fun r c => nth 2 r 0 = 0 /\ c = "blue"%string \/ nth 2 r 0 = 1 /\ c = "orange"%string) (draw (dist_joint d) k 1000%nat) (point_colors ys)) /\
  (labelled_rows (Z.to_nat 1000000) (draw (dist_joint d) k (Z.to_nat 1000000)) ->
     (exists l, sample_pmi T cholesky nd sd bd log_gamma k = Ok (map Fin l) /\ length l = Z.to_nat 1000000 /\
        Forall2 (fun r v => forall x1 x2 b, r = [x1; x2; bit b] -> v = discrete_pmi x1 x2 b) (draw (dist_joint d) k (Z.to_nat 1000000)) l) /\
     exists mi se, estimate_mi T cholesky nd sd bd log_gamma k = Ok (Fin mi, Fin se) /\ profile_bounds mi /\ 0 <= se <= ln 19 / 1000).
Proof.
  exact (fun J T c nd sd bd g d k f s => rules_computed T c nd sd bd g s (proj1 (discrete_factors f)) (proj2 (discrete_factors f)) d k).
Qed.
Print Assumptions C86_rules.
Example C86_rules_example : forall c nd sd bd g d k n, define_distribution ex_labelled_tfp c nd sd bd g = Ok d ->
  labelled_rows n (draw (dist_joint d) k n).
Proof. exact ex_mixture_rows. Qed.

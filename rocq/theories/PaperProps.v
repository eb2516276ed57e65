(** C79: the distributions of the mixtures paper. *)
From Verif Require Import Base UtilsModel JaxModel SamplersModel GaussianModel MatrixUtilsModel TransformsModel BmmModel
  MultivariateModel BenchmarkModel TasksModel MixturesModel PaperModel BaseLemmas TransformsSpec ExpmProofs BmmSpec MatrixUtilsSpec
  PaperSpec TrainingExamples TasksExamples BmmExamples.
From mathcomp Require Import all_ssreflect ssralg matrix mxalgebra.
From Verif Require Import RStruct PosDef MatrixBridge GaussianSpec MultivariateSpec MultivariateExamples GmmMixSpec
  MixturesSpec MultivariateThms EigvalsExist MixturesThms MixturesMore PaperThms PaperExamples.
Set Implicit Arguments.
Unset Strict Implicit.
Unset Printing Implicit Defensive.
Import GRing.Theory.
Local Open Scope ring_scope.

(** C79: every mixture of pairs of independent normal variables, in any proportions, is built with the
    densities of that mixture. *)
Theorem C79_balls : forall (J : prng) (T : tfp_draws J) eigvals cholesky draw balls, eigvals_symmetric eigvals -> factorises cholesky ->
  balls <> [::] -> List.Forall (fun b => Rlt 0 (weight b) /\ Rlt 0 (var_x b) /\ Rlt 0 (var_y b)) balls -> rsum (List.map weight balls) = IZR 1 ->
  exists d, pair_mixture T eigvals cholesky draw (List.map weight balls)
      (List.map (fun b => ([:: mean_x b; mean_y b], [:: [:: var_x b; IZR 0]; [:: IZR 0; var_y b]])) balls) = Ok d /\ ball_mixture d balls.
Proof. exact (fun J T eigvals cholesky draw balls e c => @balls_made J T eigvals cholesky draw e c balls). Qed.
Print Assumptions C79_balls.
Example C79_balls_example : rsum (List.map weight four_balls_parts) = IZR 1 /\ exists d : joint_distribution demo, ball_mixture d four_balls_parts.
Proof. exact (conj demo_unit_weight demo_balls_made). Qed.

(** C79: the four balls, the U and the four corners are the mixtures listed in [PaperSpec]. *)
Theorem C79_profiles : forall (J : prng) (T : tfp_draws J) eigvals cholesky draw, eigvals_symmetric eigvals -> factorises cholesky ->
  (exists d, four_balls T eigvals cholesky draw = Ok d /\ ball_mixture d four_balls_parts) /\
  (exists d, u_shape T eigvals cholesky draw = Ok d /\ ball_mixture d u_shape_parts) /\
  (exists d, corners T eigvals cholesky draw = Ok d /\ ball_mixture d corners_parts).
Proof.
  exact (fun J T eigvals cholesky draw e c => conj (@four_balls_ok J T eigvals cholesky draw e c)
    (conj (@u_shape_ok J T eigvals cholesky draw e c) (@corners_ok J T eigvals cholesky draw e c))).
Qed.
Print Assumptions C79_profiles.
Example C79_profiles_example : List.map mean_x u_shape_parts = [:: IZR (-3); IZR 0; IZR 3] /\ exists d : joint_distribution demo, ball_mixture d corners_parts.
Proof. exact (conj Logic.eq_refl demo_corners_made). Qed.

(** C79: pointwise mutual information of such a mixture, finite everywhere. *)
Theorem C79_profile_pmi : forall (J : prng) (d : joint_distribution J) balls x y, balls <> [::] ->
  List.Forall (fun b => Rlt 0 (weight b) /\ Rlt 0 (var_x b) /\ Rlt 0 (var_y b)) balls -> ball_mixture d balls ->
  point_pmi d [:: x] [:: y] = Fin (ln (Rdiv (PaperSpec.total balls (fun b => Rmult (ball_x x b) (ball_y y b)))
    (Rmult (PaperSpec.total balls (ball_x x)) (PaperSpec.total balls (ball_y y))))).
Proof. exact ball_pmi. Qed.
Print Assumptions C79_profile_pmi.
Example C79_profile_pmi_example : List.Forall proper four_balls_parts /\ exists d : joint_distribution demo, ball_mixture d four_balls_parts.
Proof. exact (conj demo_proper demo_balls_made). Qed.

(** C79: the mixture of four corners has independent X and Y: its pointwise mutual information is zero
    everywhere. *)
Theorem C79_corners_independent : forall (J : prng) (d : joint_distribution J) x y, ball_mixture d corners_parts ->
  point_pmi d [:: x] [:: y] = Fin (IZR 0).
Proof. exact corners_pmi. Qed.
Print Assumptions C79_corners_independent.
Example C79_corners_independent_example : exists d : joint_distribution demo, ball_mixture d corners_parts.
Proof. exact demo_corners_made. Qed.

(** C79: X is the mixture in equal proportions of two pairs of variance 3/10 with correlations -9/10
    and 9/10; the sampler draws from it. *)
Theorem C79_x : forall (J : prng) (T : tfp_draws J) eigvals cholesky draw n, eigvals_symmetric eigvals -> factorises cholesky -> Z.le 1 n ->
  exists d s, [/\ create_x_distribution T eigvals cholesky draw n = Ok (d, s), samples_from id d n s &
    normal_mixture d 1 1 2 (fun _ _ => IZR 0) (fun k i j => Rmult (Rdiv 3 10) (x_cov (Rdiv 9 10) k i j))].
Proof. exact (fun J T eigvals cholesky draw n e c => @create_x_ok J T eigvals cholesky draw e c n). Qed.
Print Assumptions C79_x.
Example C79_x_example : exists d : joint_distribution demo,
  normal_mixture d 1 1 2 (fun _ _ => IZR 0) (fun k i j => Rmult (Rdiv 3 10) (x_cov (Rdiv 9 10) k i j)).
Proof. exact demo_small_x. Qed.

(** C79: pointwise mutual information of X at any variance, in closed form. *)
Theorem C79_x_pmi : forall (J : prng) (d : joint_distribution J) v rho x y, Rlt 0 v -> Rlt (Rabs rho) 1 ->
  normal_mixture d 1 1 2 (fun _ _ => IZR 0) (fun k i j => Rmult v (x_cov rho k i j)) ->
  point_pmi d [:: x] [:: y] = Fin (
    let s := Rminus 1 (Rmult rho rho) in
    Rminus (Rminus (ln (cosh (Rdiv (Rmult rho (Rmult x y)) (Rmult v s)))) (Rdiv (ln s) 2))
           (Rdiv (Rmult (Rmult rho rho) (Rplus (Rmult x x) (Rmult y y))) (Rmult (Rmult 2 v) s))).
Proof. exact scaled_x_pmi. Qed.
Print Assumptions C79_x_pmi.
Example C79_x_pmi_example : exists d : joint_distribution demo,
  normal_mixture d 1 1 2 (fun _ _ => IZR 0) (fun k i j => Rmult (Rdiv 3 10) (x_cov (Rdiv 9 10) k i j)).
Proof. exact demo_small_x. Qed.

(** C79: the galaxy: two round balls at distance 3, with X swirled and then shrunk. *)
Theorem C79_galaxy : forall (J : prng) (T : tfp_draws J) eigvals cholesky draw expm n, eigvals_symmetric eigvals -> factorises cholesky ->
  is_expm expm -> Z.le 1 n ->
  exists d s, [/\ create_galaxy_distribution T eigvals cholesky draw expm n = Ok (d, s),
    samples_from (fun x => List.map (Rmult (Rdiv 3 10)) (swirl (Rdiv 1 2) x)) d n s & normal_mixture d 2 1 2 (balls_mean (IZR 3)) unit_cov].
Proof. exact (fun J T eigvals cholesky draw expm n e c => @create_galaxy_ok J T eigvals cholesky draw expm e c n). Qed.
Print Assumptions C79_galaxy.
Example C79_galaxy_example : is_expm series_expm.
Proof. exact series_expm_ok. Qed.

(** C79: swirling and scaling is a bijection of the plane, so that the mutual information is kept. *)
Theorem C79_galaxy_bijection : forall speed c, c <> IZR 0 -> plane_bijection (fun x => List.map (Rmult c) (swirl speed x)).
Proof. exact small_swirl_bijection. Qed.
Print Assumptions C79_galaxy_bijection.
Example C79_galaxy_bijection_example : Rdiv 3 10 <> IZR 0.
Proof. exact (Rgt_not_eq _ _ (Rdiv_lt_0_compat _ _ (IZR_lt 0 3 Logic.eq_refl) (IZR_lt 0 10 Logic.eq_refl))). Qed.

(** C79: the letters A and I, in equal proportions of their six strokes. *)
Theorem C79_ai : forall (J : prng) (T : tfp_draws J) eigvals cholesky draw n, eigvals_symmetric eigvals -> factorises cholesky -> Z.le 1 n ->
  exists d s, [/\ create_ai_distribution T eigvals cholesky draw n = Ok (d, s), samples_from id d n s & normal_mixture d 1 1 6 ai_mean ai_cov].
Proof. exact (fun J T eigvals cholesky draw n e c => @create_ai_ok J T eigvals cholesky draw e c n). Qed.
Print Assumptions C79_ai.
Example C79_ai_example : ai_cov 4 0 0 = Rdiv 1 25 /\ ai_mean 3 1 = Ropp (Rdiv 1 5).
Proof. exact (conj Logic.eq_refl Logic.eq_refl). Qed.

(** C79: the waves: ridges in equal proportions, with X rippled with amplitude 5 and frequency 3. *)
Theorem C79_waves : forall (J : prng) (T : tfp_draws J) eigvals cholesky draw n_components n, eigvals_symmetric eigvals -> factorises cholesky ->
  Z.lt 0 n_components -> Z.le 1 n ->
  exists d s, [/\ create_waves_distribution T eigvals cholesky draw n_components n = Ok (d, s),
    samples_from (ripple (IZR 5) (IZR 3)) d n s & normal_mixture d 2 1 (Z.to_nat n_components) ridges_mean ridges_cov].
Proof. exact (fun J T eigvals cholesky draw k n e c => @create_waves_ok J T eigvals cholesky draw e c k n). Qed.
Print Assumptions C79_waves.
Example C79_waves_example : exists eigvals cholesky d s,
  create_waves_distribution (J := demo) demo_tfp eigvals cholesky demo_normal_draw 12 1000 = Ok (d, s).
Proof. exact demo_waves_made. Qed.

(** C79: without points for the estimate, and without components, nothing is built. *)
Theorem C79_rejects : forall (J : prng) (T : tfp_draws J) eigvals cholesky draw expm n, eigvals_symmetric eigvals -> factorises cholesky -> Z.lt n 1 ->
  [/\ create_x_distribution T eigvals cholesky draw n = Err ValueError,
      create_galaxy_distribution T eigvals cholesky draw expm n = Err ValueError,
      create_ai_distribution T eigvals cholesky draw n = Err ValueError,
      forall k, Z.lt 0 k -> create_waves_distribution T eigvals cholesky draw k n = Err ValueError
    & forall k m, Z.le k 0 -> create_waves_distribution T eigvals cholesky draw k m = Err AssertionError].
Proof. exact (fun J T eigvals cholesky draw expm n e c => @create_bad J T eigvals cholesky draw expm e c n). Qed.
Print Assumptions C79_rejects.
Example C79_rejects_example : exists eigvals cholesky,
  create_ai_distribution (J := demo) demo_tfp eigvals cholesky demo_normal_draw 0 = Err ValueError.
Proof. exact demo_refused. Qed.

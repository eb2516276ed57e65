(** The distributions of the tasks with noise. *)
From Coq Require Import String Lia Lra.
From Verif Require Import Base BaseLemmas UtilsModel JaxModel SamplersModel GaussianModel MatrixUtilsModel BmmModel MultivariateModel BenchmarkModel
  TasksModel MixturesModel PaperModel OutliersModel DiscreteSpec OutliersSpec BmmSpec SamplersProofs BmmProofs DiscreteThms OutliersThms.
From mathcomp Require Import ssreflect.
From Verif Require Import MixturesSpec OutliersFactor.
Open Scope R_scope.
Local Notation length := List.length.

Section Made.
  Context {J : prng}.
  Variable T : tfp_draws J.
  Variable eigvals : matrix -> list (R * R).
  Variable cholesky : matrix -> option matrix.
  Variable normal_draw : list R -> option matrix -> key J -> nat -> matrix.
  Hypothesis eig : eigvals_symmetric eigvals.
  Hypothesis cho : factorises cholesky.

  Lemma noise_made signal v : dist_signal_gauss eigvals cholesky normal_draw = Ok signal -> 0 < v ->
    exists noise, noise_with T cholesky normal_draw signal (scaled v (np_eye (jd_dim_y signal))) = Ok noise /\
      jd_dim_x noise = 2%nat /\ jd_dim_y noise = 2%nat /\
      forall a, 0 <= a <= 1 -> exists d, setup_mixture T {| dist_true := signal; dist_noise := noise |} a = Ok d /\ contaminated_signal d a v /\ mixed_draws T d a v.
  Proof.
    intros S V. destruct (signal_made (J := J) normal_draw eig cho) as (d0 & S0 & X & Y & EX & _ & D). rewrite S in S0. injection S0 as <-.
    unfold noise_with. rewrite Y. cbn [repeat].
    set ny := construct_normal cholesky normal_draw [0; 0] (scaled v (np_eye 2)).
    assert (EY : event_shape ny = [2%nat]) by reflexivity.
    destruct (proj2 (proj1 (product_spec T (dist_x signal) ny))) as [noise N]; [rewrite EX EY; eauto|].
    destruct (proj2 (product_spec T (dist_x signal) ny) noise N) as (N1 & N2 & _ & _ & _ & XY).
    rewrite EX in N1. rewrite EY in N2. injection N1 as N1. injection N2 as N2.
    exists noise. split; [exact N|]. split; [auto|]. split; [auto|]. intros a A.
    assert (Q : forall y, length y = jd_dim_y signal -> has_density ny y (plane v 0 y)).
    { intros y Ly. rewrite Y in Ly. apply (proj2 (plane_log (J := J) normal_draw cho V (rho := 0) ltac:(cbn; lra) (C := scaled v (np_eye 2))
        ltac:(unfold scaled; cbn; repeat apply (f_equal2 cons); try reflexivity; lra) Ly)). }
    assert (M : exists d, setup_mixture T {| dist_true := signal; dist_noise := noise |} a = Ok d).
    { unfold setup_mixture, mixture. cbn. rewrite X Y -N1 -N2. cbn. eauto. }
    destruct M as [d M]. exists d. split; [exact M|]. split.
    2: { exists (dist_joint signal), (dist_joint noise). split; [|split].
      - destruct (mixture_parts T _ _ _ M) as (_ & -> & _). reflexivity.
      - intros x y Lx Ly. apply (den_joint _ _ _ _ D); congruence.
      - intros x y Lx Ly. assert (H1 := proj1 (has_density_log _ _ _) (den_x _ _ _ _ D x (eq_trans Lx (eq_sym X)))). 
        assert (H2 := proj1 (has_density_log _ _ _) (Q y (eq_trans Ly (eq_sym Y)))).
        apply has_density_log. split; [apply Rmult_le_pos; tauto|]. rewrite XY; [|congruence]. rewrite (proj2 H1) (proj2 H2). apply log_fl_mult; tauto. }
    unfold contaminated_signal. rewrite <- X at 1. rewrite <- Y at 1.
    apply (contaminate T signal ny noise d a signal_density signal_y signal_y (plane v 0)); auto; congruence.
  Qed.

  Theorem setups_made : exists signal inlier outlier,
    dist_signal_gauss eigvals cholesky normal_draw = Ok signal /\
    change_mixing_setups T eigvals cholesky normal_draw =
      Ok [("Gauss-Inlier", {| dist_true := signal; dist_noise := inlier |}); ("Gauss-Outlier", {| dist_true := signal; dist_noise := outlier |})]%string /\
    (forall a, 0 <= a <= 1 -> exists d, setup_mixture T {| dist_true := signal; dist_noise := inlier |} a = Ok d /\ contaminated_signal d a 1 /\ mixed_draws T d a 1) /\
    (forall a, 0 <= a <= 1 -> exists d, setup_mixture T {| dist_true := signal; dist_noise := outlier |} a = Ok d /\ contaminated_signal d a 25 /\ mixed_draws T d a 25).
  Proof.
    destruct (signal_made (J := J) normal_draw eig cho) as (signal & S & X & Y & _).
    destruct (noise_made signal 1 S) as (inlier & N1 & _ & _ & M1); [lra|].
    destruct (noise_made signal 25 S) as (outlier & N2 & _ & _ & M2); [lra|].
    exists signal, inlier, outlier. split; [exact S|]. split; [|auto].
    assert (E : scaled 1 (np_eye (jd_dim_y signal)) = np_eye (jd_dim_y signal)).
    { rewrite Y. unfold scaled. cbn. repeat apply (f_equal2 cons); try reflexivity; lra. }
    unfold change_mixing_setups, dist_gaussian_inlier, dist_gaussian_outlier. rewrite S. cbn [bind]. rewrite E in N1. rewrite N1. cbn [bind]. now rewrite N2.
  Qed.

  Theorem variances_made signal v : dist_signal_gauss eigvals cholesky normal_draw = Ok signal -> 0 < v ->
    exists d, variance_mixture T cholesky normal_draw signal v = Ok d /\ contaminated_signal d (2 / 10) v /\ mixed_draws T d (2 / 10) v.
  Proof.
    intros S V. destruct (noise_made signal v S V) as (noise & N & _ & _ & M). destruct (M (2 / 10)) as (d & E & C); [lra|].
    exists d. split; [|exact C]. unfold variance_mixture. rewrite N. exact E.
  Qed.
End Made.

Lemma plane_pos v rho z : 0 < v -> rho ^ 2 < 1 -> 0 < plane v rho z.
Proof. intros V Rh. unfold plane. destruct z as [|z1 [|z2 [|]]]; try lra. now apply normal_plane_pos. Qed.
Lemma signal_pos x y : 0 < signal_density x y.
Proof.
  destruct x as [|x1 [|x2 [|]]]; cbn [signal_density]; try lra. destruct y as [|y1 [|y2 [|]]]; try lra.
  exact (proj1 (signal_density_log x1 x2 y1 y2)).
Qed.

Theorem signal_noise_pmi {J} (d : joint_distribution J) a v x y : 0 <= a <= 1 -> 0 < v -> contaminated_signal d a v ->
  length x = 2%nat -> length y = 2%nat ->
  let clean := (1 - a) * signal_y y / ((1 - a) * signal_y y + a * plane v 0 y) in
  let own := information (signal_density x y) (signal_y x) (signal_y y) in
  exists w, point_pmi d x y = Fin w /\ 0 <= clean <= 1 /\ exp w = clean * exp own + (1 - clean) /\ Rmin own 0 <= w <= Rmax own 0.
Proof.
  intros A V (X & Y & _ & D) Lx Ly clean own.
  assert (S := signal_pos x y). assert (Sx : 0 < signal_y x) by (apply plane_pos; lra). assert (Sy : 0 < signal_y y) by (apply plane_pos; lra).
  assert (Q : 0 < plane v 0 y) by (apply plane_pos; cbn; lra).
  eexists. split.
  - apply (point_information d _ _ _ x y D); try congruence; [now apply contaminated_pos|now apply mixed_pos].
  - now apply posterior_average.
Qed.

(** The noise called inliers does not have the law of Y. *)
Theorem inliers_marginal_refuted a : 0 < a <= 1 -> exists y, length y = 2%nat /\ contaminated_y a signal_y (plane 1 0) y <> signal_y y.
Proof.
  intros A. exists [0; 0]. split; [reflexivity|]. unfold contaminated_y, signal_y, plane, normal_plane.
  replace (- ((0 ^ 2 - 2 * (1 / 501) * 0 * 0 + 0 ^ 2) / (2 * 1 * (1 - (1 / 501) ^ 2)))) with 0 by (field; lra).
  replace (- ((0 ^ 2 - 2 * 0 * 0 * 0 + 0 ^ 2) / (2 * 1 * (1 - 0 ^ 2)))) with 0 by (field; lra). rewrite exp_0.
  replace (1 - 0 ^ 2) with 1 by ring. rewrite sqrt_1. assert (P := PI_RGT_0).
  assert (S0 : 0 < sqrt (1 - (1 / 501) ^ 2)) by (apply sqrt_lt_R0; lra).
  assert (S1 : sqrt (1 - (1 / 501) ^ 2) < sqrt 1) by (apply sqrt_lt_1; lra). rewrite sqrt_1 in S1.
  revert S0 S1. generalize (sqrt (1 - (1 / 501) ^ 2)). intros s S0 S1 E.
  assert (L : / (2 * PI * 1 * 1) < / (2 * PI * 1 * s)).
  { assert (0 < 2 * PI * 1 * s) by (apply Rmult_lt_0_compat; lra).
    apply Rinv_lt_contravar; [apply Rmult_lt_0_compat; lra|]. apply Rmult_lt_compat_l; lra. }
  assert (0 < a * (/ (2 * PI * 1 * s) - / (2 * PI * 1 * 1))) by (apply Rmult_lt_0_compat; lra). lra.
Qed.

(** C74: the tasks built from mixtures. *)
From Coq Require Import String.
From Verif Require Import Base UtilsModel JaxModel SamplersModel GaussianModel MatrixUtilsModel TransformsModel BmmModel
  MultivariateModel BenchmarkModel TasksModel MixturesModel BaseLemmas TransformsSpec ExpmProofs BmmSpec MatrixUtilsSpec
  TrainingExamples TasksExamples BmmExamples.
From mathcomp Require Import all_ssreflect ssralg matrix mxalgebra.
From Verif Require Import RStruct PosDef MatrixBridge GaussianSpec MultivariateSpec MultivariateExamples GmmMixSpec
  MixturesSpec MultivariateThms EigvalsExist MixturesThms MixturesMore MixturesExamples.
Set Implicit Arguments.
Unset Strict Implicit.
Unset Printing Implicit Defensive.
Import GRing.Theory.
Local Open Scope ring_scope.

(** C74: functions doing what is asked of [np.linalg.eigvals] and [jnp.linalg.cholesky] exist. *)
Theorem C74_oracles : (exists eigvals, eigvals_symmetric eigvals) /\ exists cholesky, factorises cholesky.
Proof. exact (conj eigvals_exists cholesky_exists). Qed.
Print Assumptions C74_oracles.
Example C74_oracles_example : posdef (sigma 1 1 [:: [:: IZR 1; Rdiv 9 10]; [:: Rdiv 9 10; IZR 1]]).
Proof. exact demo_x_posdef. Qed.

(** C74: X is the mixture in equal proportions of two standard pairs with correlations [-rho] and
    [rho].  The sampler draws from it, and its mutual information is the Monte Carlo estimate
    with the given number of points. *)
Theorem C74_x_task : forall (J : prng) F (T : tfp_draws J) eigvals cholesky draw rho n h, eigvals_symmetric eigvals -> factorises cholesky -> Rlt (Rabs rho) 1 -> Z.le 1 n ->
  let params := [:: ("gaussian_correlation"%string, PFloat (Fin rho))] in
  exists d t, [/\ task_x (J := J) F T eigvals cholesky draw rho n h = (List.app h [:: params], Ok t),
    described t (List.app h [:: params]) ("1v1-X-" ++ float_repr F rho)%string "X 1 × 1"%string params,
    samples_from id d n (t_sampler t) & normal_mixture d 1 1 2 (fun _ _ => IZR 0) (x_cov rho)].
Proof. exact (fun J F T eigvals cholesky draw rho n h e c => @x_task J F T eigvals cholesky draw e c rho n h). Qed.
Print Assumptions C74_x_task.
Example C74_x_task_example : Rlt (Rabs (Rdiv 9 10)) 1 /\ x_cov (Rdiv 9 10) 0 0 1 = Ropp (Rdiv 9 10).
Proof. split; [exact demo_rho | reflexivity]. Qed.

(** C74: any other correlation and any other number of points is refused. *)
Theorem C74_x_task_rejects : forall (J : prng) F (T : tfp_draws J) eigvals cholesky draw rho n h, eigvals_symmetric eigvals -> factorises cholesky -> ~ (Rlt (Rabs rho) 1 /\ Z.le 1 n) ->
  task_x (J := J) F T eigvals cholesky draw rho n h = (h, Err ValueError).
Proof. exact (fun J F T eigvals cholesky draw rho n h e c => @x_task_bad J F T eigvals cholesky draw e c rho n h). Qed.
Print Assumptions C74_x_task_rejects.
Example C74_x_task_rejects_example : exists eigvals cholesky, task_x ex_formats demo_tfp eigvals cholesky demo_normal_draw 1 5 [::] = ([::], Err ValueError).
Proof. exact demo_x_refused. Qed.

(** C74: pointwise mutual information of X, in closed form; at the origin it is that of a pair of
    correlation [rho], and it is even in each argument. *)
Theorem C74_x_pmi : forall (J : prng) (d : joint_distribution J) rho x y, Rlt (Rabs rho) 1 ->
  normal_mixture d 1 1 2 (fun _ _ => IZR 0) (x_cov rho) ->
  point_pmi d [:: x] [:: y] = Fin (
    let s := Rminus 1 (Rmult rho rho) in
    Rminus (Rminus (ln (cosh (Rdiv (Rmult rho (Rmult x y)) s))) (Rdiv (ln s) 2))
           (Rdiv (Rmult (Rmult rho rho) (Rplus (Rmult x x) (Rmult y y))) (Rmult 2 s))).
Proof. exact x_pmi. Qed.
Print Assumptions C74_x_pmi.
Example C74_x_pmi_example : exists d : joint_distribution demo, normal_mixture d 1 1 2 (fun _ _ => IZR 0) (x_cov (Rdiv 9 10)).
Proof. exact demo_x. Qed.

(** C74: AI is the mixture in equal proportions of the six strokes of the letters. *)
Theorem C74_ai_task : forall (J : prng) (T : tfp_draws J) eigvals cholesky draw n h, eigvals_symmetric eigvals -> factorises cholesky -> Z.le 1 n ->
  exists d t, [/\ task_ai (J := J) T eigvals cholesky draw n h = (h, Ok t),
    t_id t = "1v1-AI"%string /\ t_name t = "AI 1 × 1"%string /\ t_params t = None,
    samples_from id d n (t_sampler t) & normal_mixture d 1 1 6 ai_mean ai_cov].
Proof. exact (fun J T eigvals cholesky draw n h e c => @ai_task J T eigvals cholesky draw e c n h). Qed.
Print Assumptions C74_ai_task.
Example C74_ai_task_example : exists eigvals cholesky d, ai_distribution (J := demo) demo_tfp eigvals cholesky demo_normal_draw = Ok d.
Proof. exact demo_ai. Qed.

(** C74: without points for the estimate AI is refused. *)
Theorem C74_ai_task_rejects : forall (J : prng) (T : tfp_draws J) eigvals cholesky draw n h, eigvals_symmetric eigvals -> factorises cholesky -> Z.lt n 1 -> task_ai (J := J) T eigvals cholesky draw n h = (h, Err ValueError).
Proof. exact (fun J T eigvals cholesky draw n h e c => @ai_task_bad J T eigvals cholesky draw e c n h). Qed.
Print Assumptions C74_ai_task_rejects.
Example C74_ai_task_rejects_example : exists eigvals cholesky, task_ai (J := demo) demo_tfp eigvals cholesky demo_normal_draw 0 [::] = ([::], Err ValueError).
Proof. exact demo_ai_refused. Qed.

(** C74: Galaxy is two round balls at the given distance whose X is swirled: each point of the
    plane turns about the origin by [speed] times its squared length. *)
Theorem C74_galaxy_task : forall (J : prng) F (T : tfp_draws J) eigvals cholesky draw expm speed distance n h, eigvals_symmetric eigvals -> factorises cholesky -> is_expm expm -> Z.le 1 n ->
  let params := [:: ("speed"%string, PFloat (Fin speed)); ("distance"%string, PFloat (Fin distance))] in
  exists d t, [/\ task_galaxy (J := J) F T eigvals cholesky draw expm speed distance n h = (List.app h [:: params], Ok t),
    described t (List.app h [:: params]) ("2v1-galaxy-" ++ float_repr F speed ++ "-" ++ float_repr F distance)%string
      "Galaxy 2 × 1"%string params,
    samples_from (swirl speed) d n (t_sampler t) & normal_mixture d 2 1 2 (balls_mean distance) unit_cov].
Proof. exact (fun J F T eigvals cholesky draw expm speed distance n h e c => @galaxy_task J F T eigvals cholesky draw expm e c speed distance n h). Qed.
Print Assumptions C74_galaxy_task.
Example C74_galaxy_task_example : is_expm series_expm /\ swirl (Rdiv PI 2) [:: IZR 1; IZR 0] = [:: IZR 0; IZR 1].
Proof. split; [exact series_expm_ok | exact demo_swirl]. Qed.

(** C74: without points for the estimate Galaxy is refused. *)
Theorem C74_galaxy_task_rejects : forall (J : prng) F (T : tfp_draws J) eigvals cholesky draw expm speed distance n h, eigvals_symmetric eigvals -> factorises cholesky -> Z.lt n 1 ->
  task_galaxy (J := J) F T eigvals cholesky draw expm speed distance n h = (h, Err ValueError).
Proof. exact (fun J F T eigvals cholesky draw expm speed distance n h e c => @galaxy_task_bad J F T eigvals cholesky draw expm e c speed distance n h). Qed.
Print Assumptions C74_galaxy_task_rejects.
Example C74_galaxy_task_rejects_example : exists eigvals cholesky, task_galaxy ex_formats demo_tfp eigvals cholesky demo_normal_draw series_expm 1 3 0 [::] = ([::], Err ValueError).
Proof. exact demo_galaxy_refused. Qed.

(** C74: the swirl of Galaxy and the ripple of Waves are bijections of the plane, so they keep the
    mutual information. *)
Theorem C74_bijections : forall speed amplitude frequency,
  plane_bijection (swirl speed) /\ plane_bijection (ripple amplitude frequency).
Proof. exact (fun s a f => conj (swirl_bijection s) (ripple_bijection a f)). Qed.
Print Assumptions C74_bijections.
Example C74_bijections_example : ~ plane_bijection (fun x => [:: List.nth 0 x (IZR 0); Rmult (List.nth 1 x (IZR 0)) (List.nth 1 x (IZR 0))]).
Proof. exact demo_not_bijection. Qed.

(** C74: Waves is a row of flat ridges, ridge [k] at X = (3k/2, 0) and Y = 3/2 (k mod 4), whose X is
    rippled and scaled. *)
Theorem C74_waves_task : forall (J : prng) F (T : tfp_draws J) eigvals cholesky draw n_components amplitude frequency n h, eigvals_symmetric eigvals -> factorises cholesky -> Z.lt 0 n_components -> Z.le 1 n ->
  let params := [:: ("n_components"%string, PInt n_components); ("wave_amplitude"%string, PFloat (Fin amplitude));
                    ("wave_frequency"%string, PFloat (Fin frequency))] in
  exists d t, [/\ task_waves (J := J) F T eigvals cholesky draw n_components amplitude frequency n h = (List.app h [:: params], Ok t),
    described t (List.app h [:: params])
      ("2v1-waves-" ++ int_str n_components ++ "-" ++ float_repr F amplitude ++ "-" ++ float_repr F frequency)%string
      "Waves 2 × 1"%string params,
    samples_from (ripple amplitude frequency) d n (t_sampler t)
  & normal_mixture d 2 1 (Z.to_nat n_components) ridges_mean ridges_cov].
Proof. exact (fun J F T eigvals cholesky draw nc a f n h e c => @waves_task J F T eigvals cholesky draw e c nc a f n h). Qed.
Print Assumptions C74_waves_task.
Example C74_waves_task_example : exists eigvals cholesky d, ridges_distribution (J := demo) demo_tfp eigvals cholesky demo_normal_draw 12 = Ok d.
Proof. exact demo_waves. Qed.

(** C74: without components Waves fails an assertion, without points it is refused. *)
Theorem C74_waves_task_rejects : forall (J : prng) F (T : tfp_draws J) eigvals cholesky draw n_components amplitude frequency n h, eigvals_symmetric eigvals -> factorises cholesky ->
  (Z.le n_components 0 -> task_waves (J := J) F T eigvals cholesky draw n_components amplitude frequency n h = (h, Err AssertionError)) /\
  (Z.lt 0 n_components -> Z.lt n 1 -> task_waves (J := J) F T eigvals cholesky draw n_components amplitude frequency n h = (h, Err ValueError)).
Proof. exact (fun J F T eigvals cholesky draw nc a f n h e c => @waves_task_bad J F T eigvals cholesky draw e c nc a f n h). Qed.
Print Assumptions C74_waves_task_rejects.
Example C74_waves_task_rejects_example : forall eigvals cholesky, task_waves ex_formats demo_tfp eigvals cholesky demo_normal_draw 0 5 3 1 [::] = ([::], Err AssertionError).
Proof. reflexivity. Qed.

(** C74: the concentric task is a mixture in equal proportions: component k = 1, 2, ... has X round
    of standard deviation k, and Y around k with standard deviation 1/100. *)
Theorem C74_concentric_task : forall (J : prng) (T : tfp_draws J) eigvals cholesky draw m n_components n h, eigvals_symmetric eigvals -> factorises cholesky -> (0 < m)%N -> Z.lt 0 n_components -> Z.le 1 n ->
  let params := [:: ("n_components"%string, PInt n_components)] in
  exists d t, [/\ task_concentric_multinormal (J := J) T eigvals cholesky draw (Z.of_nat m) n_components n h = (List.app h [:: params], Ok t),
    described t (List.app h [:: params]) (int_str (Z.of_nat m) ++ "v1-concentric_gaussians-" ++ int_str n_components)%string
      ("Concentric " ++ int_str (Z.of_nat m) ++ " × 1")%string params,
    samples_from id d n (t_sampler t)
  & normal_mixture d m 1 (Z.to_nat n_components) (rings_mean m) (rings_cov m)].
Proof. exact (fun J T eigvals cholesky draw m nc n h e c => @concentric_task J T eigvals cholesky draw e c m nc n h). Qed.
Print Assumptions C74_concentric_task.
Example C74_concentric_task_example : exists eigvals cholesky d, concentric_distribution (J := demo) demo_tfp eigvals cholesky demo_normal_draw 3 5 = Ok d.
Proof. exact demo_concentric. Qed.

(** C74: without components the concentric task fails an assertion; without coordinates or points it
    is refused. *)
Theorem C74_concentric_task_rejects : forall (J : prng) (T : tfp_draws J) eigvals cholesky draw dim_x n_components n h, eigvals_symmetric eigvals -> factorises cholesky ->
  (Z.le n_components 0 -> task_concentric_multinormal (J := J) T eigvals cholesky draw dim_x n_components n h = (h, Err AssertionError)) /\
  (Z.lt 0 n_components -> ~ (Z.le 1 dim_x /\ Z.le 1 n) ->
   task_concentric_multinormal (J := J) T eigvals cholesky draw dim_x n_components n h = (h, Err ValueError)).
Proof. exact (fun J T eigvals cholesky draw m nc n h e c => @concentric_task_bad J T eigvals cholesky draw e c m nc n h). Qed.
Print Assumptions C74_concentric_task_rejects.
Example C74_concentric_task_rejects_example : exists eigvals cholesky, task_concentric_multinormal (J := demo) demo_tfp eigvals cholesky demo_normal_draw (-2) 3 5 [::] = ([::], Err ValueError).
Proof. exact demo_concentric_refused. Qed.

(** C74: the sparse task with inliers: a normal distribution where the first [k] pairs of
    coordinates have correlation s^2 / (1 + s^2), all others none, and a fraction [f] of points
    of the product of its marginals. *)
Theorem C74_inliers_task : forall (J : prng) F percent (T : tfp_draws J) eigvals cholesky draw (m n : nat) k s f N h, eigvals_symmetric eigvals -> factorises cholesky ->
  (0 < m)%N -> (0 < n)%N -> Z.le 0 k -> Z.le k (Z.of_nat m) -> Z.le k (Z.of_nat n) -> Rle 0 f -> Rle f 1 -> Z.le 1 N ->
  let params := [:: ("n_interacting", PInt k); ("strength", PFloat (Fin s)); ("inlier_fraction", PFloat (Fin f))]%string in
  exists d t, [/\ task_multinormal_sparse_w_inliers (J := J) F percent T eigvals cholesky draw (Z.of_nat m) (Z.of_nat n) k s f N h
                  = (List.app h [:: params], Ok t),
    described t (List.app h [:: params])
      ("mult-sparse-w-inliers-" ++ int_str (Z.of_nat m) ++ "-" ++ int_str (Z.of_nat n) ++ "-" ++ int_str k
       ++ "-" ++ float_repr F s ++ "-" ++ float_repr F f)%string
      ("Multinormal " ++ int_str (Z.of_nat m) ++ " × " ++ int_str (Z.of_nat n) ++ " (sparse, " ++ percent f ++ " inliers)")%string params,
    samples_from id d N (t_sampler t)
  & normal_with_inliers d m n f (block_correlation m (Z.to_nat k) (Rdiv (pow s 2) (Rplus 1 (pow s 2))) (IZR 0) (IZR 0))].
Proof. exact (fun J F percent T eigvals cholesky draw m n k s f N h e c => @inliers_task J T eigvals cholesky draw e c F percent m n k s f N h). Qed.
Print Assumptions C74_inliers_task.
Example C74_inliers_task_example : exists eigvals cholesky d, inliers_distribution (J := demo) demo_tfp eigvals cholesky demo_normal_draw 3 3 2 2 (Rdiv 1 5) = Ok d.
Proof. exact demo_inliers_accepted. Qed.

(** C74: a fraction outside [0, 1] fails an assertion, and the other arguments are checked. *)
Theorem C74_inliers_task_rejects : forall (J : prng) F percent (T : tfp_draws J) eigvals cholesky draw dx dy k s f N h, 
  ((Rlt f 0 \/ Rlt 1 f) ->
   task_multinormal_sparse_w_inliers (J := J) F percent T eigvals cholesky draw dx dy k s f N h = (h, Err AssertionError)) /\
  (Rle 0 f -> Rle f 1 -> ~ [/\ Z.le 0 k, Z.le k dx, Z.le k dy, Z.le 1 dx & Z.le 1 dy] \/ Z.lt N 1 ->
   task_multinormal_sparse_w_inliers (J := J) F percent T eigvals cholesky draw dx dy k s f N h = (h, Err ValueError)).
Proof. exact (fun J F percent T eigvals cholesky draw => @inliers_task_bad J T eigvals cholesky draw F percent). Qed.
Print Assumptions C74_inliers_task_rejects.
Example C74_inliers_task_rejects_example : forall eigvals cholesky,
  task_multinormal_sparse_w_inliers ex_formats (fun _ => "20%"%string) demo_tfp eigvals cholesky demo_normal_draw 2 3 3 1 (Rdiv 1 5) 10 [::]
  = ([::], Err ValueError).
Proof. exact demo_inliers_refused. Qed.

(** C74: pointwise mutual information with inliers: exp(pmi) is mixed with 1.  In particular it is
    that of the normal distribution without inliers, and zero with inliers only. *)
Theorem C74_inliers_pmi : forall (J : prng) (d : joint_distribution J) m n f cov x y, Rle 0 f -> Rle f 1 ->
  normal_with_inliers d m n f cov -> List.length x = m -> List.length y = n ->
  point_pmi d x y = Fin (ln (Rplus (Rmult (Rminus 1 f) (exp (normal_pmi m n cov x y))) f)).
Proof. exact inliers_pmi. Qed.
Print Assumptions C74_inliers_pmi.
Example C74_inliers_pmi_example : exists d : joint_distribution demo, normal_with_inliers d 3 3 (Rdiv 1 5)
  (block_correlation 3 2 (Rdiv (pow 2 2) (Rplus 1 (pow 2 2))) (IZR 0) (IZR 0)).
Proof. exact demo_inliers. Qed.

(** C74: inliers lose information: with respect to the product of the marginals, the integrand
    exp(q) q of the mutual information is at most (1 - f) exp(p) p everywhere, where q and p
    are the pointwise mutual information with and without inliers. *)
Theorem C74_inliers_lose : forall (J : prng) (d : joint_distribution J) m n f cov x y, Rle 0 f -> Rle f 1 ->
  normal_with_inliers d m n f cov -> List.length x = m -> List.length y = n ->
  let p := normal_pmi m n cov x y in
  exists q, point_pmi d x y = Fin q /\ Rle (Rmult (exp q) q) (Rmult (Rminus 1 f) (Rmult (exp p) p)).
Proof. exact inliers_lose_points. Qed.
Print Assumptions C74_inliers_lose.
Example C74_inliers_lose_example : exists d : joint_distribution demo, normal_with_inliers d 3 3 (Rdiv 1 5)
  (block_correlation 3 2 (Rdiv (pow 2 2) (Rplus 1 (pow 2 2))) (IZR 0) (IZR 0)).
Proof. exact demo_inliers. Qed.

(** C74: a task whose Monte Carlo estimate comes out negative has no metadata.  The task is built,
    but reading its name or its dimensions raises ValidationError. *)
Theorem C74_metadata_refuted : forall (J : prng) F eigvals cholesky draw h, eigvals_symmetric eigvals -> factorises cholesky ->
  exists (T : tfp_draws J) h' t, task_x F T eigvals cholesky draw (Rdiv 1 2) 1 h = (h', Ok t) /\
    metadata t h' = (h', Err ValidationError).
Proof. exact x_metadata. Qed.
Print Assumptions C74_metadata_refuted.
Example C74_metadata_refuted_example : (exists eigvals, eigvals_symmetric eigvals) /\ exists cholesky, factorises cholesky.
Proof. exact (conj eigvals_exists cholesky_exists). Qed.

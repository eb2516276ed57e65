(** Specification of the tasks built from mixtures. *)
From Verif Require Import Base UtilsModel JaxModel SamplersModel GaussianModel BmmModel MultivariateModel BenchmarkModel BmmSpec.
From mathcomp Require Import all_ssreflect ssralg matrix mxalgebra.
From Verif Require Import RStruct PosDef MatrixBridge GaussianSpec MultivariateSpec GmmMixSpec.
Set Implicit Arguments.
Unset Strict Implicit.
Unset Printing Implicit Defensive.
Import GRing.Theory.
Local Open Scope ring_scope.

(** What is asked of [np.linalg.eigvals] and [jnp.linalg.cholesky]. *)
Definition eigvals_symmetric (eigvals : UtilsModel.matrix -> list (R * R)) : Prop :=
  forall n C, has_shape C n n -> (to_mx n n C)^T = to_mx n n C -> eigvals_ok n C (eigvals C).
Definition factorises (cholesky : UtilsModel.matrix -> option UtilsModel.matrix) : Prop :=
  forall C, cholesky_ok (List.length C) C (cholesky C).

(** The average of [K] numbers. *)
Definition average (K : nat) (f : nat -> R) : R := Rdiv (rsum (List.map f (List.seq 0 K))) (INR K).

(** [d] is the mixture, in equal proportions, of [K] normal distributions in dimensions
    [m + n] with means [mean k i] and covariances [cov k i j]; its marginals are the
    mixtures of theirs. *)
Record normal_mixture (J : prng) (d : joint_distribution J) (m n K : nat)
    (mean : nat -> nat -> R) (cov : nat -> nat -> nat -> R) : Prop := {
  nm_dim_x : jd_dim_x d = m;
  nm_dim_y : jd_dim_y d = n;
  nm_joint : forall z, List.length z = (m + n)%N -> has_density (dist_joint d) z
    (average K (fun k => normal_density_at (\col_(i < m + n) mean k i) (\matrix_(i < m + n, j < m + n) cov k i j) (to_cv (m + n) z)));
  nm_x : forall x, List.length x = m -> has_density (dist_x d) x
    (average K (fun k => normal_density_at (\col_(i < m) mean k i) (\matrix_(i < m, j < m) cov k i j) (to_cv m x)));
  nm_y : forall y, List.length y = n -> has_density (dist_y d) y
    (average K (fun k => normal_density_at (\col_(i < n) mean k (m + i)%N) (\matrix_(i < n, j < n) cov k (m + i)%N (m + j)%N) (to_cv n y)))
}.

(** [d] is a normal distribution in dimensions [m + n], centred, of covariance [cov], in
    which a fraction [f] of the points has been replaced by points of independent X and Y
    of the same marginals. *)
Record normal_with_inliers (J : prng) (d : joint_distribution J) (m n : nat) (f : R) (cov : nat -> nat -> R) : Prop := {
  wi_dim_x : jd_dim_x d = m;
  wi_dim_y : jd_dim_y d = n;
  wi_joint : forall x y, List.length x = m -> List.length y = n -> has_density (dist_joint d) (List.app x y)
    (Rplus (Rmult (Rminus 1 f) (normal_density_at 0 (\matrix_(i < m + n, j < m + n) cov i j) (to_cv (m + n) (List.app x y))))
           (Rmult f (Rmult (normal_density_at 0 (\matrix_(i < m, j < m) cov i j) (to_cv m x))
                           (normal_density_at 0 (\matrix_(i < n, j < n) cov (m + i)%N (m + j)%N) (to_cv n y)))));
  wi_x : forall x, List.length x = m -> has_density (dist_x d) x
    (normal_density_at 0 (\matrix_(i < m, j < m) cov i j) (to_cv m x));
  wi_y : forall y, List.length y = n -> has_density (dist_y d) y
    (normal_density_at 0 (\matrix_(i < n, j < n) cov (m + i)%N (m + j)%N) (to_cv n y))
}.

(** Pointwise mutual information of that normal distribution. *)
Definition normal_pmi (m n : nat) (cov : nat -> nat -> R) (x y : list R) : R :=
  Rminus (normal_log_density 0 (\matrix_(i < m + n, j < m + n) cov i j) (to_cv (m + n) (List.app x y)))
         (Rplus (normal_log_density 0 (\matrix_(i < m, j < m) cov i j) (to_cv m x))
                (normal_log_density 0 (\matrix_(i < n, j < n) cov (m + i)%N (m + j)%N) (to_cv n y))).

(** A sampler of [d] (with the points of X moved by [f]): the dimensions are those of [d],
    the points are drawn from [d] with the given key, and the mutual information is the
    Monte Carlo estimate of that of [d] with [n] points and the key of 0. *)
Record samples_from (J : prng) (f : list R -> list R) (d : joint_distribution J) (n : Z) (s : sampler J) : Prop := {
  sf_dim_x : dim_x s = Ok (Z.of_nat (jd_dim_x d));
  sf_dim_y : dim_y s = Ok (Z.of_nat (jd_dim_y d));
  sf_none : forall rng, sample s 0 rng = Err ValueError;
  sf_sample : forall k rng, (0 < k)%N ->
    List.Forall (fun z => List.length z = (jd_dim_x d + jd_dim_y d)%N) (draw (dist_joint d) (cast_to_rng J rng) k) ->
    sample s k rng = Ok (List.map (fun z => f (List.firstn (jd_dim_x d) z)) (draw (dist_joint d) (cast_to_rng J rng) k),
                         List.map (List.skipn (jd_dim_x d)) (draw (dist_joint d) (cast_to_rng J rng) k));
  sf_mi : mutual_information s = Ok (fl_mean (List.map
    (fun z => point_pmi d (List.firstn (jd_dim_x d) z) (List.skipn (jd_dim_x d) z))
    (draw (dist_joint d) (cast_to_rng J (SeedInt 0)) (Z.to_nat n))))
}.

(** A task as it is built: its identifier, name and parameters (a new dictionary). *)
Definition described (J : prng) (t : task J) (h : dheap) (id name : String.string) (params : sdict py) : Prop :=
  t_id t = id /\ t_name t = name /\ exists p, t_params t = Some p /\ dread h p = params.

(** The means and covariances behind the tasks. *)
Definition x_cov (rho : R) (k i j : nat) : R := if i == j then IZR 1 else if k == 0%N then Ropp rho else rho.

(** The strokes of the letters: centre, variances and correlation. *)
Definition ai_strokes : list (R * R * R * R * R) := [::
  (IZR 1, IZR 0, Rdiv 1 100, Rdiv 1 5, IZR 0);
  (IZR 1, IZR 1, Rdiv 1 20, Rdiv 1 1000, IZR 0);
  (IZR 1, IZR (-1), Rdiv 1 20, Rdiv 1 1000, IZR 0);
  (Ropp (Rdiv 4 5), Ropp (Rdiv 1 5), Rdiv 3 100, Rdiv 1 1000, IZR 0);
  (Ropp (Rdiv 6 5), IZR 0, Rdiv 1 25, Rdiv 1 5, Rdiv 19 20);
  (Ropp (Rdiv 2 5), IZR 0, Rdiv 1 25, Rdiv 1 5, Ropp (Rdiv 19 20))].
Definition ai_stroke (k : nat) : R * R * R * R * R := List.nth k ai_strokes (IZR 0, IZR 0, IZR 0, IZR 0, IZR 0).
Definition ai_mean (k i : nat) : R :=
  let '(mx, my, _, _, _) := ai_stroke k in if i == 0%N then mx else my.
Definition ai_cov (k i j : nat) : R :=
  let '(_, _, vx, vy, r) := ai_stroke k in
  if i == j then (if i == 0%N then vx else vy) else Rmult r (sqrt (Rmult vx vy)).

Definition balls_mean (distance : R) (k i : nat) : R :=
  if k == 0%N then Ropp (Rdiv distance 2) else Rdiv distance 2.
Definition unit_cov (k i j : nat) : R := if i == j then IZR 1 else IZR 0.

Definition ridges_mean (k i : nat) : R :=
  if i == 0%N then Rmult (Rdiv 3 2) (INR k) else if i == 1%N then IZR 0 else Rmult (Rdiv 3 2) (INR (Nat.modulo k 4)).
Definition ridges_cov (k i j : nat) : R :=
  if i == j then (if i == 1%N then IZR 1 else Rdiv 1 10) else IZR 0.

Definition rings_mean (dim_x k i : nat) : R := if (i < dim_x)%N then IZR 0 else INR k.+1.
Definition rings_cov (dim_x k i j : nat) : R :=
  if i == j then (if (i < dim_x)%N then pow (INR k.+1) 2 else Rdiv 1 10000) else IZR 0.

(** The maps of the plane behind Galaxy and Waves. *)
Definition swirl (speed : R) (x : list R) : list R :=
  let a := List.nth 0 x (IZR 0) in
  let b := List.nth 1 x (IZR 0) in
  let t := Rmult speed (Rplus (Rmult a a) (Rmult b b)) in
  [:: Rminus (Rmult a (cos t)) (Rmult b (sin t)); Rplus (Rmult a (sin t)) (Rmult b (cos t))].
Definition ripple (amplitude frequency : R) (x : list R) : list R :=
  let a := List.nth 0 x (IZR 0) in
  let b := List.nth 1 x (IZR 0) in
  [:: Rminus (Rdiv (Rplus a (Rmult amplitude (sin (Rmult frequency b)))) 10) (Rdiv 4 5); Rdiv b 2].
Definition plane_bijection (f : list R -> list R) : Prop :=
  forall y, List.length y = 2%N -> exists x, [/\ List.length x = 2%N, f x = y &
    forall x', List.length x' = 2%N -> f x' = y -> x' = x].

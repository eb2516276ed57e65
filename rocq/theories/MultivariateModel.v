(** Model of [samplers/_tfp/_normal.py] and [samplers/_tfp/_student.py] in [src/bmi].

    Of TFP the documented log-densities of MultivariateNormalLinearOperator and
    MultivariateStudentTLinearOperator are modelled, with a lower triangular scale. *)
From Verif Require Import Base UtilsModel JaxModel SamplersModel GaussianModel BmmModel.
Open Scope R_scope.
Local Notation length := List.length.

(** ** Triangular scales *)

(** [LinearOperatorLowerTriangular(scale).solve(b)]: forward substitution; [acc] holds
    the unknowns already found. *)
Definition dot (a b : list R) : R := rsum (map (fun p => fst p * snd p) (combine a b)).
Fixpoint forward_solve (rows : matrix) (b acc : list R) : list R :=
  match rows, b with
  | row :: rows', v :: b' =>
      forward_solve rows' b' (acc ++ [(v - dot row acc) / nth (length acc) row 0])%list
  | _, _ => acc
  end.

(** [scale.log_abs_determinant()]: the sum of log |diagonal|. *)
Definition log_abs_det (scale : matrix) : R :=
  rsum (map (fun i => ln (Rabs (entry scale i i))) (seq 0 (length scale))).

(** [scale.solve(z - loc)]. *)
Definition residual (loc : list R) (scale : matrix) (z : list R) : list R :=
  forward_solve scale (map (fun p => fst p - snd p) (combine z loc)) [].

(** The log-density of [tfd.MultivariateNormalLinearOperator(loc, scale)]; [None] stands
    for a scale full of NaN. *)
Definition normal_log_prob (loc : list R) (scale : option matrix) (z : list R) : fl :=
  match scale with
  | None => NaN
  | Some l => Fin (rsum (map (fun w => - (w ^ 2 / 2) - ln (2 * PI) / 2) (residual loc l z)) - log_abs_det l)
  end.

(** The log-density of [tfd.MultivariateStudentTLinearOperator(loc, scale, df)]; with
    infinite df it is NaN (inf * 0). *)
Definition student_log_prob (log_gamma : R -> R) (df : fl) (loc : list R) (scale : option matrix) (z : list R) : fl :=
  match scale, df with
  | Some l, Fin v =>
      let n := INR (length loc) in
      let q := rsum (map (fun w => w ^ 2) (residual loc l z)) in
      Fin (- ((n + v) / 2) * ln (1 + q / v)
           - ((log_gamma (v / 2) - log_gamma (n / 2 + v / 2) + n / 2 * (ln v + ln PI)) + log_abs_det l))
  | _, _ => NaN
  end.

Section Distributions.
  Context {J : prng}.
  (** [np.linalg.eigvals], as in GaussianModel. *)
  Variable eigvals : matrix -> list (R * R).
  (** [jnp.linalg.cholesky]; [None] when the result is full of NaN. *)
  Variable cholesky : matrix -> option matrix.
  (** How TFP draws from the two families. *)
  Variable normal_draw : list R -> option matrix -> key J -> nat -> matrix.
  Variable student_draw : fl -> list R -> option matrix -> key J -> nat -> matrix.
  (** scipy's [digamma] and the logarithm of the gamma function. *)
  Variable psi log_gamma : R -> R.

  (** ** _normal.py *)

  (** construct_multivariate_normal_distribution, 14-23. *)
  Definition construct_normal (mean : list R) (covariance : matrix) : tfd J :=
    let scale := cholesky covariance in                                            (* 19 *)
    {| event_shape := [length mean];
       log_prob := normal_log_prob mean scale;                                     (* 20-23 *)
       draw := normal_draw mean scale |}.

  (** MultivariateNormalDistribution.__init__, 32-76.  Simplification: the attributes
      [mean] and [covariance] (75-76) are not kept. *)
  Definition normal_distribution (dim_x dim_y : Z) (covariance : matrix) (mean : option (list R))
    : result (joint_distribution J) :=
    let mean := match mean with None => repeat 0 (Z.to_nat (dim_x + dim_y)) | Some m => m end in  (* 45-47 *)
    do s <- split_multinormal_init eigvals dim_x dim_y covariance (Some mean);     (* 51-53 *)
    let mi := split_multinormal_mi s in                                            (* 53 *)
    let dx := Z.to_nat dim_x in
    let n := length mean in
    Ok {| jd_dim_x := dx;                                                          (* 67 *)
          jd_dim_y := Z.to_nat dim_y;                                              (* 68 *)
          dist_joint := construct_normal mean covariance;                          (* 58 *)
          dist_x := construct_normal (firstn dx mean) (square_slice covariance 0 dx);   (* 59-61 *)
          dist_y := construct_normal (skipn dx mean) (square_slice covariance dx n);    (* 62-64 *)
          analytic_mi := Some mi |}.                                               (* 72 *)

  (** ** _student.py *)

  (** construct_multivariate_student_distribution, 14-32. *)
  Definition construct_student (mean : list R) (dispersion : matrix) (df : fl) : tfd J :=
    let scale := cholesky dispersion in                                            (* 27 *)
    {| event_shape := [length mean];
       log_prob := student_log_prob log_gamma df mean scale;                       (* 28-32 *)
       draw := student_draw df mean scale |}.

  (** MultivariateStudentDistribution.__init__, 44-100.  Same simplification; [df] is a
      float (possibly inf). *)
  Definition student_distribution (dim_x dim_y : Z) (df : fl) (dispersion : matrix) (mean : option (list R))
    : result (joint_distribution J) :=
    let mean := match mean with None => repeat 0 (Z.to_nat (dim_x + dim_y)) | Some m => m end in  (* 64-66 *)
    do s <- split_student_init eigvals dim_x dim_y df dispersion (Some mean);      (* 70-76 *)
    let mi := split_student_mi psi log_gamma s in                                  (* 76 *)
    let dx := Z.to_nat dim_x in
    let n := length mean in
    Ok {| jd_dim_x := dx;                                                          (* 92 *)
          jd_dim_y := Z.to_nat dim_y;                                              (* 93 *)
          dist_joint := construct_student mean dispersion df;                      (* 81-83 *)
          dist_x := construct_student (firstn dx mean) (square_slice dispersion 0 dx) df;   (* 84-86 *)
          dist_y := construct_student (skipn dx mean) (square_slice dispersion dx n) df;    (* 87-89 *)
          analytic_mi := Some mi |}.                                               (* 97 *)
End Distributions.

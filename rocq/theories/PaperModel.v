(** Model of the distributions in [workflows/projects/Mixtures]: [example_distributions.py] (line
    numbers without a file are of this one), [visualizing_critics.py], [how_good_integration_is.smk],
    [distinct_profiles.smk] and [pmi_plot_1v1.smk].  Numbers are exact reals. *)
From Verif Require Import Base UtilsModel JaxModel SamplersModel GaussianModel MatrixUtilsModel TransformsModel
  BmmModel MultivariateModel BenchmarkModel TasksModel MixturesModel.
Open Scope Z_scope.
Local Notation length := List.length.

(** [c * matrix], e.g. line 33. *)
Definition scaled (c : R) (m : matrix) : matrix := map (map (Rmult c)) m.

Section Paper.
  Context {J : prng}.
  Variable T : tfp_draws J.
  Variable eigvals : matrix -> list (R * R).
  Variable cholesky : matrix -> option matrix.
  Variable normal_draw : list R -> option matrix -> key J -> nat -> matrix.
  Variable expm : expm_function.
  Local Notation normal := (normal_distribution eigvals cholesky normal_draw).

  (** ExampleDistribution, 12-24: the distribution and the sampler. *)
  Definition example_distribution : Type := joint_distribution J * sampler J.

  (** create_x_distribution, 27-42. *)
  Definition create_x_distribution (n_sample : Z) : result example_distribution :=
    do components <- map_results (fun x : R =>
        do covariance <- canonical_correlation [x * (9 / 10)]%R 0;               (* 33 *)
        normal 1 1 (scaled (3 / 10) covariance) (Some [0; 0]%R)) [-1; 1]%R;      (* 31-39 *)
    do d <- mixture T [1 / 2; 1 / 2]%R components;                               (* 29-40 *)
    do s <- default_bmm d n_sample;                                              (* 41 *)
    Ok (d, s).                                                                   (* 42 *)

  (** [lambda x: 0.3 * x], 67. *)
  Definition shrink (x : list R) : result (list R) := Ok (map (Rmult (3 / 10)) x).

  (** create_galaxy_distribution, 45-69. *)
  Definition create_galaxy_distribution (n_sample : Z) : result example_distribution :=
    do components <- map_results (fun x : R =>
        do covariance <- canonical_correlation [0%R] 1;                          (* 51 *)
        normal 2 1 covariance (Some [x * (15 / 10); x * (15 / 10); x * (15 / 10)]%R)) [-1; 1]%R;   (* 49-57 *)
    do d <- mixture T [1 / 2; 1 / 2]%R components;                               (* 47-58 *)
    do base <- default_bmm d n_sample;                                           (* 60 *)
    do spiral <- spiral_init [[0; -1]; [1; 0]]%R None (5 / 10);                  (* 61-62 *)
    do aux <- transformed_sampler base (Some (pointwise (spiral_call expm spiral))) None 0 0 true;   (* 64 *)
    do s <- transformed_sampler aux (Some (pointwise shrink)) None 0 0 true;     (* 65-68 *)
    Ok (d, s).                                                                   (* 69 *)

  (** create_ai_distribution, 79-121: means and covariances. *)
  Definition letters : list (list R * matrix) :=
    let corr := (95 / 100)%R in                                                  (* 74 *)
    let var_x := (4 / 100)%R in                                                  (* 75 *)
    let c := (sqrt (var_x * (2 / 10)) * corr)%R in
    [([1; 0], diagonal [1 / 100; 2 / 10]);                                       (* 84-85 *)
     ([1; 1], diagonal [5 / 100; 1 / 1000]);                                     (* 90-91 *)
     ([1; -1], diagonal [5 / 100; 1 / 1000]);                                    (* 96-97 *)
     ([- (8 / 10); - (2 / 10)], diagonal [3 / 100; 1 / 1000]);                   (* 103-104 *)
     ([- (12 / 10); 0], [[var_x; c]; [c; 2 / 10]]);                              (* 109-112 *)
     ([- (4 / 10); 0], [[var_x; - c]; [- c; 2 / 10]])]%R.                        (* 117-120 *)

  (** create_ai_distribution, 72-125. *)
  Definition create_ai_distribution (n_sample : Z) : result example_distribution :=
    do components <- map_results (fun mc => normal 1 1 (snd mc) (Some (fst mc))) letters;   (* 79-122 *)
    do d <- mixture T (repeat (1 / 6)%R 6) components;                           (* 77-78 *)
    do s <- default_bmm d n_sample;                                              (* 124 *)
    Ok (d, s).                                                                   (* 125 *)

  (** The transforms of create_waves_distribution, 147 and 150. *)
  Definition sway (x : list R) : result (list R) :=
    do x0 <- py_index x 0; do x1 <- py_index x 1;
    if negb (length x =? 2)%nat then Err TypeError
    else let s := sin (3 * x1) in Ok [x0 + 5 * s; x1 + 0 * s]%R.                 (* 147 *)
  Definition flatten (x : list R) : result (list R) :=
    do x0 <- py_index x 0; do x1 <- py_index x 1;
    Ok [1 / 10 * x0 - 8 / 10; 5 / 10 * x1]%R.                                    (* 150 *)

  (** create_waves_distribution, 128-152. *)
  Definition create_waves_distribution (n_components n_sample : Z) : result example_distribution :=
    if negb (n_components >? 0) then Err AssertionError else                     (* 130 *)
    do components <- map_results (fun x : Z =>
        normal 2 1 (diagonal [1 / 10; 1; 1 / 10]%R)                              (* 136 *)
               (Some [IZR x * (15 / 10); 0 * (15 / 10); IZR (x mod 4) * (15 / 10)]%R))   (* 137 *)
        (map Z.of_nat (seq 0 (Z.to_nat n_components)));                          (* 134-142 *)
    do d <- mixture T (repeat (1 / IZR n_components)%R (Z.to_nat n_components)) components;   (* 132-133 *)
    do base <- default_bmm d n_sample;                                           (* 144 *)
    do aux <- transformed_sampler base (Some (pointwise sway)) None 0 0 true;    (* 145-148 *)
    do s <- transformed_sampler aux (Some (pointwise flatten)) None 0 0 true;    (* 149-151 *)
    Ok (d, s).                                                                   (* 152 *)

  (** Mixtures of normal distributions of one X and one Y given by means and covariances. *)
  Definition pair_mixture (ps : list R) (parts : list (list R * matrix)) : result (joint_distribution J) :=
    do components <- map_results (fun mc => normal 1 1 (snd mc) (Some (fst mc))) parts;
    mixture T ps components.

  (** four_balls: how_good_integration_is.smk 68-91, visualizing_critics.py 67-95. *)
  Definition four_balls : result (joint_distribution J) :=
    do c <- canonical_correlation [0%R] 0;
    pair_mixture [3 / 10; 3 / 10; 2 / 10; 2 / 10]%R                              (* 69 *)
      [([- (125 / 100); - (125 / 100)]%R, c);                                    (* 72-73 *)
       ([125 / 100; 125 / 100]%R, c);                                            (* 77-78 *)
       ([- (25 / 10); 25 / 10]%R, scaled (2 / 10) c);                            (* 82-83 *)
       ([25 / 10; - (25 / 10)]%R, scaled (2 / 10) c)].                           (* 87-88 *)

  (** The mixture in sample_u_shape: distinct_profiles.smk 81-103. *)
  Definition u_shape : result (joint_distribution J) :=
    let width := (2 / 10)%R in                                                   (* 79 *)
    pair_mixture [1 / 3; 1 / 3; 1 / 3]%R                                         (* 82 *)
      [([-3; 0]%R, diagonal [width; 1]%R);                                       (* 87-88 *)
       ([0; -3]%R, diagonal [1; width]%R);                                       (* 93-94 *)
       ([3; 0]%R, diagonal [width; 1]%R)].                                       (* 99-100 *)

  (** The entry "Mixture" of DISTRIBUTIONS: pmi_plot_1v1.smk 32-40, [jnp.eye(2)] is [diagonal [1; 1]]. *)
  Definition corners : result (joint_distribution J) :=
    let cov_scale := (5 / 10)%R in                                               (* 20 *)
    let c := scaled cov_scale (diagonal [1; 1]%R) in
    pair_mixture [1 / 4; 1 / 4; 1 / 4; 1 / 4]%R                                  (* 33 *)
      [([-1; 1]%R, c); ([1; 1]%R, c); ([1; -1]%R, c); ([-1; -1]%R, c)].          (* 35-38 *)
End Paper.

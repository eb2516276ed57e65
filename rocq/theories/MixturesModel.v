(** Model of [benchmark/tasks/mixtures.py] in [src/bmi]. *)
From Coq Require Import String.
From Verif Require Import Base UtilsModel JaxModel SamplersModel GaussianModel MatrixUtilsModel TransformsModel
  BmmModel MultivariateModel BenchmarkModel TasksModel.
Open Scope Z_scope.
Local Notation length := List.length.

(** [np.diag(values)] and [jnp.diag], lines 58, 157, 200. *)
Definition diagonal (values : list R) : matrix :=
  map (fun i => map (fun j => if (i =? j)%nat then nth i values 0%R else 0%R) (seq 0 (length values)))
      (seq 0 (length values)).

(** BMMSampler as a sampler ([_tfp/_wrapper.py]).  Simplification: the mutual information is
    the value returned by the first call; later calls return it from the cache. *)
Definition bmm_sampler {J} (b : bmm J) : sampler J :=
  {| dim_x := Ok (Z.of_nat (jd_dim_x (bm_dist b)));                              (* 30 *)
     dim_y := Ok (Z.of_nat (jd_dim_y (bm_dist b)));                              (* 30 *)
     sample := fun n rng => bmm_sample b (Z.of_nat n) rng;                       (* 41-45 *)
     mutual_information := fst (bmm_mutual_information b) |}.                    (* 47-55 *)

(** [bmm.BMMSampler(dist, mi_estimate_sample=n)], lines 30, 97, 126, 165, 208, 257: no known
    mutual information, seed 0. *)
Definition default_bmm {J} (d : joint_distribution J) (mi_estimate_sample : Z) : result (sampler J) :=
  do b <- bmm_init d None (SeedInt 0) mi_estimate_sample; Ok (bmm_sampler b).

(** The multiplication sign with spaces in the names, e.g. line 35. *)
Definition times_sign : string := " × ".

(** The transforms of Waves: lines 168-169 and 172. *)
Definition wave (amplitude frequency : R) (x : list R) : result (list R) :=
  do x0 <- py_index x 0; do x1 <- py_index x 1;
  if negb (length x =? 2)%nat then Err TypeError
  else let s := sin (frequency * x1) in
       Ok [x0 + amplitude * s; x1 + 0 * s]%R.                                    (* 168-169 *)
Definition squeeze (x : list R) : result (list R) :=
  do x0 <- py_index x 0; do x1 <- py_index x 1;
  Ok [1 / 10 * x0 - 8 / 10; 5 / 10 * x1]%R.                                      (* 172 *)

Section Mixtures.
  Context {J : prng}.
  Variable F : formats.
  (** [f"{x:.0%}"], line 263. *)
  Variable percent : R -> string.
  Variable T : tfp_draws J.
  Variable eigvals : matrix -> list (R * R).
  Variable cholesky : matrix -> option matrix.
  Variable normal_draw : list R -> option matrix -> key J -> nat -> matrix.
  Variable expm : expm_function.
  Local Notation normal := (normal_distribution eigvals cholesky normal_draw).

  (** task_x, 18-29: the distribution. *)
  Definition x_distribution (gaussian_correlation : R) : result (joint_distribution J) :=
    do components <- map_results (fun x : R =>
        do covariance <- canonical_correlation [x * gaussian_correlation]%R 0;   (* 22 *)
        normal 1 1 covariance (Some [0; 0]%R)) [-1; 1]%R;                        (* 21-27 *)
    mixture T [1 / 2; 1 / 2]%R components.                                       (* 18-19 *)

  (** task_x, 12-39. *)
  Definition task_x (gaussian_correlation : R) (mi_estimate_sample : Z) : prog (task J) :=
    run d <- lift (x_distribution gaussian_correlation);                         (* 18-29 *)
    run s <- lift (default_bmm d mi_estimate_sample);                            (* 30 *)
    run p <- new_dict [("gaussian_correlation", PFloat (Fin gaussian_correlation))]%string;   (* 36-38 *)
    pret {| t_sampler := s; t_id := "1v1-X-" ++ float_repr F gaussian_correlation;           (* 34 *)
            t_name := "X 1" ++ times_sign ++ "1"; t_params := Some p |}.         (* 35 *)

  (** task_ai, 54-95: means and covariances. *)
  Definition ai_components : list (list R * matrix) :=
    let corr := (95 / 100)%R in                                                  (* 47 *)
    let var_x := (4 / 100)%R in                                                  (* 48 *)
    let c := (sqrt (var_x * (2 / 10)) * corr)%R in
    [([1; 0], diagonal [1 / 100; 2 / 10]);                                       (* 57-58 *)
     ([1; 1], diagonal [5 / 100; 1 / 1000]);                                     (* 63-64 *)
     ([1; -1], diagonal [5 / 100; 1 / 1000]);                                    (* 69-70 *)
     ([- (8 / 10); - (2 / 10)], diagonal [3 / 100; 1 / 1000]);                   (* 76-77 *)
     ([- (12 / 10); 0], [[var_x; c]; [c; 2 / 10]]);                              (* 82-85 *)
     ([- (4 / 10); 0], [[var_x; - c]; [- c; 2 / 10]])]%R.                        (* 90-93 *)

  (** task_ai, 50-96. *)
  Definition ai_distribution : result (joint_distribution J) :=
    do components <- map_results (fun mc => normal 1 1 (snd mc) (Some (fst mc))) ai_components;   (* 52-95 *)
    mixture T (repeat (1 / 6)%R 6) components.                                   (* 50-51 *)

  (** task_ai, 42-103. *)
  Definition task_ai (mi_estimate_sample : Z) : prog (task J) :=
    run d <- lift ai_distribution;                                               (* 50-96 *)
    run s <- lift (default_bmm d mi_estimate_sample);                            (* 97 *)
    pret {| t_sampler := s; t_id := "1v1-AI";                                    (* 101 *)
            t_name := "AI 1" ++ times_sign ++ "1"; t_params := None |}.          (* 102 *)

  (** task_galaxy, 113-124: the distribution before the transform. *)
  Definition balls_distribution (distance : R) : result (joint_distribution J) :=
    do components <- map_results (fun x : R =>
        do covariance <- canonical_correlation [0%R] 1;                          (* 117 *)
        normal 2 1 covariance (Some [x * distance / 2; x * distance / 2; x * distance / 2]%R)) [-1; 1]%R;   (* 116-122 *)
    mixture T [1 / 2; 1 / 2]%R components.                                       (* 113-114 *)

  (** task_galaxy, 106-140. *)
  Definition task_galaxy (speed distance : R) (mi_estimate_sample : Z) : prog (task J) :=
    run d <- lift (balls_distribution distance);                                 (* 113-124 *)
    run base <- lift (default_bmm d mi_estimate_sample);                         (* 126 *)
    run spiral <- lift (spiral_init [[0; -1]; [1; 0]]%R None speed);             (* 127-128 *)
    run s <- lift (transformed_sampler base (Some (pointwise (spiral_call expm spiral))) None 0 0 true);   (* 130 *)
    run p <- new_dict [("speed", PFloat (Fin speed)); ("distance", PFloat (Fin distance))]%string;   (* 136-139 *)
    pret {| t_sampler := s;
            t_id := "2v1-galaxy-" ++ float_repr F speed ++ "-" ++ float_repr F distance;   (* 134 *)
            t_name := "Galaxy 2" ++ times_sign ++ "1"; t_params := Some p |}.    (* 135 *)

  (** task_waves, 153-164: the distribution before the transforms. *)
  Definition ridges_distribution (n_components : Z) : result (joint_distribution J) :=
    do components <- map_results (fun x : Z =>
        normal 2 1 (diagonal [1 / 10; 1; 1 / 10]%R)                              (* 157 *)
               (Some [IZR x * (15 / 10); 0 * (15 / 10); IZR (x mod 4) * (15 / 10)]%R))   (* 158 *)
        (map Z.of_nat (seq 0 (Z.to_nat n_components)));                          (* 155-163 *)
    mixture T (repeat (1 / IZR n_components)%R (Z.to_nat n_components)) components.   (* 153-154 *)

  (** task_waves, 143-184. *)
  Definition task_waves (n_components : Z) (wave_amplitude wave_frequency : R) (mi_estimate_sample : Z)
    : prog (task J) :=
    run _ <- lift (if n_components >? 0 then Ok tt else Err AssertionError);     (* 151 *)
    run d <- lift (ridges_distribution n_components);                            (* 153-164 *)
    run base <- lift (default_bmm d mi_estimate_sample);                         (* 165 *)
    run aux <- lift (transformed_sampler base (Some (pointwise (wave wave_amplitude wave_frequency))) None 0 0 true);   (* 166-170 *)
    run s <- lift (transformed_sampler aux (Some (pointwise squeeze)) None 0 0 true);   (* 171-173 *)
    run p <- new_dict [("n_components", PInt n_components); ("wave_amplitude", PFloat (Fin wave_amplitude));
                       ("wave_frequency", PFloat (Fin wave_frequency))]%string;  (* 179-183 *)
    pret {| t_sampler := s;
            t_id := "2v1-waves-" ++ int_str n_components ++ "-" ++ float_repr F wave_amplitude
                    ++ "-" ++ float_repr F wave_frequency;                       (* 177 *)
            t_name := "Waves 2" ++ times_sign ++ "1"; t_params := Some p |}.     (* 178 *)

  (** task_concentric_multinormal, 196-207: the distribution; [dim_x * [v]] is empty for
      negative [dim_x]. *)
  Definition concentric_distribution (dim_x n_components : Z) : result (joint_distribution J) :=
    do components <- map_results (fun i : nat =>
        normal dim_x 1 (diagonal (repeat (INR i ^ 2)%R (Z.to_nat dim_x) ++ [1 / 10000]%R))   (* 200 *)
               (Some (repeat 0%R (Z.to_nat dim_x) ++ [1 * INR i]%R)))            (* 201 *)
        (seq 1 (Z.to_nat n_components));                                         (* 198-206 *)
    mixture T (repeat (1 / IZR n_components)%R (Z.to_nat n_components)) components.   (* 196-197 *)

  (** task_concentric_multinormal, 187-217. *)
  Definition task_concentric_multinormal (dim_x n_components mi_estimate_sample : Z) : prog (task J) :=
    run _ <- lift (if n_components >? 0 then Ok tt else Err AssertionError);     (* 194 *)
    run d <- lift (concentric_distribution dim_x n_components);                  (* 196-207 *)
    run s <- lift (default_bmm d mi_estimate_sample);                            (* 208 *)
    run p <- new_dict [("n_components", PInt n_components)]%string;              (* 214-216 *)
    pret {| t_sampler := s;
            t_id := int_str dim_x ++ "v1-concentric_gaussians-" ++ int_str n_components;   (* 212 *)
            t_name := "Concentric " ++ dims_str dim_x 1; t_params := Some p |}.  (* 213 *)

  (** task_multinormal_sparse_w_inliers, 231-255: the distribution. *)
  Definition inliers_distribution (dim_x dim_y n_interacting : Z) (strength inlier_fraction : R)
    : result (joint_distribution J) :=
    do params <- lvm_parameters dim_x dim_y n_interacting 0 strength 0 strength; (* 231-239 *)
    do c <- lvm_correlation_matrix params;                                       (* 244 *)
    do signal_dist <- normal dim_x dim_y c None;                                 (* 241-245 *)
    do noise_dist <- product_distribution T (dist_x signal_dist) (dist_y signal_dist);   (* 247-250 *)
    mixture T [1 - inlier_fraction; inlier_fraction]%R [signal_dist; noise_dist].   (* 252-255 *)

  (** task_multinormal_sparse_w_inliers, 220-269. *)
  Definition task_multinormal_sparse_w_inliers (dim_x dim_y n_interacting : Z) (strength inlier_fraction : R)
      (mi_estimate_sample : Z) : prog (task J) :=
    run _ <- lift (if Rleb 0 inlier_fraction && Rleb inlier_fraction 1 then Ok tt else Err AssertionError);   (* 229 *)
    run d <- lift (inliers_distribution dim_x dim_y n_interacting strength inlier_fraction);   (* 231-255 *)
    run s <- lift (default_bmm d mi_estimate_sample);                            (* 257 *)
    let id := ("mult-sparse-w-inliers-" ++ int_str dim_x ++ "-" ++ int_str dim_y ++ "-" ++ int_str n_interacting
               ++ "-" ++ float_repr F strength ++ "-" ++ float_repr F inlier_fraction)%string in   (* 259 *)
    run p <- new_dict [("n_interacting", PInt n_interacting); ("strength", PFloat (Fin strength));
                       ("inlier_fraction", PFloat (Fin inlier_fraction))]%string;   (* 264-268 *)
    pret {| t_sampler := s; t_id := id;                                          (* 262 *)
            t_name := "Multinormal " ++ dims_str dim_x dim_y ++ " (sparse, " ++ percent inlier_fraction ++ " inliers)";   (* 263 *)
            t_params := Some p |}.
End Mixtures.

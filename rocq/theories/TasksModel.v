(** Model of [benchmark/tasks/*.py] (mixtures.py is in [MixturesModel]), [benchmark/task_list.py] and
    [benchmark/__init__.py] in [src/bmi]. *)
From Coq Require Import String.
From Verif Require Import Base UtilsModel JaxModel SamplersModel GaussianModel MatrixUtilsModel TransformsModel
  BenchmarkModel.
Open Scope Z_scope.
Local Notation length := List.length.

(** ** Formatting *)

(** [f"{n}"] for an int, as in multinormal.py 39 or student.py 22. *)
Definition int_str (n : Z) : string :=
  if n <? 0 then ("-" ++ decimal (Z.to_nat (- n)))%string else decimal (Z.to_nat n).
(** [f"{x}"] (additive_noise.py 12) and [f"{x:.5f}"], [f"{x:.2f}"] (power.py 30-31) for a float. *)
Record formats := { float_repr : R -> string; float_fixed : nat -> R -> string }.

(** [task_name or default] (asinh.py 24 and the other transforms): None and the empty string
    are falsy, and the default is evaluated only when needed. *)
Definition or_name (name : option string) (default : prog string) : prog string :=
  match name with
  | None | Some EmptyString => default
  | Some s => pret s
  end.

(** ** Transforms of tasks *)

(** A function applied to every entry, as jnp.arcsinh at asinh.py 17-18 or half_cube at
    half_cube.py 16-17. *)
Definition elementwise (f : R -> R) : transform :=
  {| on_point := map f; on_batch := map (map f) |}.
(** A function of one point which may raise (embeddings.py 14, rotate.py 21-35,
    spiral.py 29-30).  A point of the wrong length would make
    the sampling fail; here it gives an empty row. *)
Definition pointwise (f : list R -> result (list R)) : transform :=
  let g x := match f x with Ok v => v | Err _ => [] end in
  {| on_point := g; on_batch := map g |}.
(** A function of the whole batch, used with [vectorise=False] (power.py 25, scaling.py 30). *)
Definition batchwise (f : matrix -> matrix) : transform := {| on_point := fun x => x; on_batch := f |}.

Section Transforms.
  Context {J : prng}.
  Variable F : formats.
  Variable erf : R -> R.
  Variable expm : expm_function.
  (** [preproc.quantile_transform(x, n_quantiles=, output_distribution=, random_state=)]. *)
  Variable quantile_transform : Z -> string -> Z -> matrix -> matrix.

  (** transform_asinh_task, asinh.py 9-26. *)
  Definition transform_asinh_task (base : task J) (name : option string) : prog (task J) :=
    run s <- lift (transformed_sampler (t_sampler base) (Some (elementwise np_arcsinh))
                     (Some (elementwise np_arcsinh)) 0 0 true);          (* 15-19 *)
    run i <- task_id base;                                               (* 23 *)
    run n <- or_name name (run n <- task_name base; pret ("Asinh @ " ++ n)%string);   (* 24 *)
    run p <- task_params base;                                           (* 25 *)
    pret {| t_sampler := s; t_id := "asinh-" ++ i; t_name := n; t_params := Some p |}.

  (** transform_half_cube_task, half_cube.py 8-25. *)
  Definition transform_half_cube_task (base : task J) (name : option string) : prog (task J) :=
    run s <- lift (transformed_sampler (t_sampler base) (Some (elementwise half_cube))
                     (Some (elementwise half_cube)) 0 0 true);           (* 14-18 *)
    run i <- task_id base;                                               (* 22 *)
    run n <- or_name name (run n <- task_name base; pret ("Half-cube @ " ++ n)%string);   (* 23 *)
    run p <- task_params base;                                           (* 24 *)
    pret {| t_sampler := s; t_id := "half_cube-" ++ i; t_name := n; t_params := Some p |}.

  (** transform_normal_cdf_task, normal_cdf.py 8-25. *)
  Definition transform_normal_cdf_task (base : task J) (name : option string) : prog (task J) :=
    run s <- lift (transformed_sampler (t_sampler base) (Some (elementwise (normal_cdf erf)))
                     (Some (elementwise (normal_cdf erf))) 0 0 true);    (* 14-18 *)
    run i <- task_id base;                                               (* 22 *)
    run n <- or_name name (run n <- task_name base; pret ("Normal CDF @ " ++ n)%string);   (* 23 *)
    run p <- task_params base;                                           (* 24 *)
    pret {| t_sampler := s; t_id := "normal_cdf-" ++ i; t_name := n; t_params := Some p |}.

  (** transform_wiggly_task, wiggly.py 19-36. *)
  Definition transform_wiggly_task (base : task J) (name : option string) : prog (task J) :=
    run s <- lift (transformed_sampler (t_sampler base) (Some (elementwise wiggly_x))
                     (Some (elementwise wiggly_y)) 0 0 true);            (* 25-29 *)
    run i <- task_id base;                                               (* 33 *)
    run n <- or_name name (run n <- task_name base; pret ("Wiggly @ " ++ n)%string);   (* 34 *)
    run p <- task_params base;                                           (* 35 *)
    pret {| t_sampler := s; t_id := "wiggly-" ++ i; t_name := n; t_params := Some p |}.

  (** transform_swissroll_task, embeddings.py 6-23. *)
  Definition transform_swissroll_task (base : task J) (name : string) : prog (task J) :=
    run dx <- task_dim_x base;
    if negb (dx =? 1) then lift (Err AssertionError)                     (* 10 *)
    else
      run s <- lift (transformed_sampler (t_sampler base) (Some (pointwise swissroll2d)) None 1 0 true);   (* 12-16 *)
      run i <- task_id base;                                             (* 20 *)
      run p <- task_params base;                                         (* 22 *)
      pret {| t_sampler := s; t_id := "swissroll_x-" ++ i; t_name := name; t_params := Some p |}.

  (** transform_rotate_task, rotate.py 10-50. *)
  Definition transform_rotate_task (base : task J) (name : option string) : prog (task J) :=
    run dx <- task_dim_x base;                                           (* 15 *)
    run dy <- task_dim_y base;                                           (* 16 *)
    if negb (2 <? dx) then lift (Err AssertionError)                     (* 18 *)
    else if negb (2 <? dy) then lift (Err AssertionError)                (* 19 *)
    else
      run s <- lift (transformed_sampler (t_sampler base) (Some (pointwise (rotate_x expm dx)))
                       (Some (pointwise (rotate_y expm dy))) 0 0 true);  (* 39-43 *)
      run i <- task_id base;                                             (* 47 *)
      run n <- or_name name (run n <- task_name base; pret ("Rotate @ " ++ n)%string);   (* 48 *)
      run p <- task_params base;                                         (* 49 *)
      pret {| t_sampler := s; t_id := "rotate-" ++ i; t_name := n; t_params := Some p |}.

  (** transform_spiral_task, spiral.py 8-43. *)
  Definition transform_spiral_task (base : task J) (speed : R) (name : option string) (normalize_speed : bool)
    : prog (task J) :=
    run dx <- task_dim_x base;
    if negb (1 <? dx) then lift (Err AssertionError)                     (* 14 *)
    else
      run dy <- task_dim_y base;
      if negb (2 <? dy) then lift (Err AssertionError)                   (* 15 *)
      else
        run gx <- lift (so_generator dx 0 1);                            (* 19 *)
        run gy <- lift (so_generator dy 1 2);                            (* 20 *)
        let speed_x := if normalize_speed then (speed / IZR dx)%R else speed in   (* 22-27 *)
        let speed_y := if normalize_speed then (speed / IZR dy)%R else speed in
        run tx <- lift (spiral_init gx None speed_x);                    (* 29 *)
        run ty <- lift (spiral_init gy None speed_y);                    (* 30 *)
        run s <- lift (transformed_sampler (t_sampler base) (Some (pointwise (spiral_call expm tx)))
                         (Some (pointwise (spiral_call expm ty))) 0 0 true);   (* 32-36 *)
        run i <- task_id base;                                           (* 40 *)
        run n <- or_name name (run n <- task_name base; pret ("Spiral @ " ++ n)%string);   (* 41 *)
        run p <- task_params base;
        run d <- read_dict p;
        run p' <- new_dict (sdict_merge d [("speed", PFloat (Fin speed));
                                           ("normalize_speed", PBool normalize_speed)]%string);   (* 42 *)
        pret {| t_sampler := s; t_id := "spiral-" ++ i; t_name := n; t_params := Some p' |}.

  (** transform_power_task, power.py 9-33.  Arrays hold real numbers here: the values
      of [pow] are real for [alpha > 0]; for other exponents the infinities and NaNs are
      replaced by 0. *)
  (** The totalisation just described (power.py 18-19). *)
  Definition real_part (v : fl) : R := match v with Fin r => r | _ => 0%R end.
  Definition transform_power_task (base : task J) (alpha : R) (name : option string) : prog (task J) :=
    let pow := batchwise (map (map (fun x => real_part (signed_power alpha x)))) in   (* 18-19 *)
    run s <- lift (transformed_sampler (t_sampler base) (Some pow) (Some pow) 0 0 false);   (* 21-26 *)
    run i <- task_id base;                                               (* 30 *)
    run n <- or_name name (run n <- task_name base;
                           pret ("Power " ++ float_fixed F 2 alpha ++ " @ " ++ n)%string);   (* 31 *)
    run p <- task_params base;
    run d <- read_dict p;
    run p' <- new_dict (sdict_merge d [("alpha", PFloat (Fin alpha))]%string);   (* 32 *)
    pret {| t_sampler := s; t_id := "power_" ++ float_fixed F 5 alpha ++ "-" ++ i; t_name := n;
            t_params := Some p' |}.

  (** transform_rescale, scaling.py 19-38; [preproc.scale] (16) standardizes each column as
      StandardScaler does. *)
  Definition transform_rescale (base : task J) (name id : option string) : prog (task J) :=
    run s <- lift (transformed_sampler (t_sampler base) (Some (batchwise scaler_transform))
                     (Some (batchwise scaler_transform)) 0 0 false);     (* 26-31 *)
    run i <- or_name id (run i <- task_id base; pret ("rescale-" ++ i)%string);   (* 35 *)
    run n <- or_name name (run n <- task_name base; pret ("Rescale @ " ++ n)%string);   (* 36 *)
    run p <- task_params base;                                           (* 37 *)
    pret {| t_sampler := s; t_id := i; t_name := n; t_params := Some p |}.

  (** transform_uniformise, scaling.py 55-85, and transform_gaussianise, 88-112, with
      _quantile_transform_wrapper, 41-52. *)
  Definition transform_uniformise (base : task J) (name : option string) (n_quantiles random_seed : Z)
    : prog (task J) :=
    let f := batchwise (quantile_transform n_quantiles "uniform" random_seed) in   (* 67-69 *)
    run s <- lift (transformed_sampler (t_sampler base) (Some f) (Some f) 0 0 false);   (* 73-78 *)
    run i <- task_id base;                                               (* 82 *)
    run n <- or_name name (run n <- task_name base; pret ("Uniformise @ " ++ n)%string);   (* 83 *)
    run p <- task_params base;
    run d <- read_dict p;
    run p' <- new_dict (sdict_merge d [("n_quantiles", PInt n_quantiles)]%string);   (* 84 *)
    pret {| t_sampler := s; t_id := "uniformise-" ++ i; t_name := n; t_params := Some p' |}.
  Definition transform_gaussianise (base : task J) (name : option string) (n_quantiles random_seed : Z)
    : prog (task J) :=
    let f := batchwise (quantile_transform n_quantiles "normal" random_seed) in   (* 94-96 *)
    run s <- lift (transformed_sampler (t_sampler base) (Some f) (Some f) 0 0 false);   (* 100-105 *)
    run i <- task_id base;                                               (* 109 *)
    run n <- or_name name (run n <- task_name base; pret ("Gaussianise @ " ++ n)%string);   (* 110 *)
    run p <- task_params base;
    run d <- read_dict p;
    run p' <- new_dict (sdict_merge d [("n_quantiles", PInt n_quantiles)]%string);   (* 111 *)
    pret {| t_sampler := s; t_id := "gaussianise-" ++ i; t_name := n; t_params := Some p' |}.
End Transforms.

(** ** The basic tasks *)
Section Tasks.
  Context {J : prng}.
  Variable F : formats.
  Variable D : draws J.
  Variable erf : R -> R.
  Variable expm : expm_function.
  (** Oracles of the Gaussian and Student samplers. *)
  Variable eigvals : matrix -> list (R * R).
  Variable mvn : key J -> list R -> matrix -> nat -> matrix.
  Variable psi log_gamma : R -> R.
  Variable mvt : Z -> list R -> matrix -> fl -> nat -> matrix.

  (** task_additive_noise, additive_noise.py 5-17. *)
  Definition task_additive_noise (epsilon : R) : prog (task J) :=
    run s <- lift (additive_uniform_sampler J D epsilon);                (* 8 *)
    run p <- new_dict [("epsilon", PFloat (Fin epsilon))]%string;        (* 14-16 *)
    pret {| t_sampler := s; t_id := "1v1-additive-" ++ float_repr F epsilon;
            t_name := "Uniform 1 × 1 (additive noise=" ++ float_repr F epsilon ++ ")";
            t_params := Some p |}.                                       (* 10-17 *)

  (** task_bivariate_normal, bivariate_normal.py 5-17. *)
  Definition task_bivariate_normal (gaussian_correlation : R) : prog (task J) :=
    run (s, _) <- lift (bivariate_normal_sampler eigvals J mvn gaussian_correlation 1 1 0 0);   (* 8 *)
    run p <- new_dict [("gaussian_correlation", PFloat (Fin gaussian_correlation))]%string;
    pret {| t_sampler := s; t_id := "1v1-normal-" ++ float_repr F gaussian_correlation;
            t_name := "Bivariate normal 1 × 1"; t_params := Some p |}.   (* 10-17 *)

  (** [invert_cdf(cdf)] with its default bounds, _invert_cdf.py 38-45.  The loop ends
      within 64 steps (C51). *)
  Definition invert_cdf (cdf : R -> R) (y : R) : R :=
    match invert_mono exact_mid cdf (-10) 10 (1 / 10 ^ 12) 64 y with Some x => x | None => 0%R end.

  (** task_bimodal_gaussians, bimodal_gaussians.py 8-31. *)
  Definition task_bimodal_gaussians (gaussian_correlation : R) : prog (task J) :=
    run t <- task_bivariate_normal gaussian_correlation;                 (* 11 *)
    run u <- transform_normal_cdf_task erf t None;                       (* 12 *)
    let icdf_x := invert_cdf (fun x => 3 / 10 * normal_cdf erf (x + 0) + 7 / 10 * normal_cdf erf (x - 5))%R in   (* 15 *)
    let icdf_y := invert_cdf (fun x => 5 / 10 * normal_cdf erf (x + 1) + 5 / 10 * normal_cdf erf (x - 3))%R in   (* 16 *)
    run s <- lift (transformed_sampler (t_sampler u) (Some (elementwise icdf_x)) (Some (elementwise icdf_y)) 0 0 true);   (* 18-22 *)
    run p <- new_dict [("gaussian_correlation", PFloat (Fin gaussian_correlation))]%string;
    pret {| t_sampler := s; t_id := "1v1-bimodal-" ++ float_repr F gaussian_correlation;
            t_name := "Bimodal 1 × 1"; t_params := Some p |}.            (* 24-31 *)

  (** A covariance given as an array of floats (multinormal.py 35, student.py 82);
      [np.linalg.eigvals] raises LinAlgError on
      infinities and NaNs. *)
  Fixpoint all_finite (row : list fl) : option (list R) :=
    match row with
    | [] => Some []
    | Fin r :: row => option_map (cons r) (all_finite row)
    | _ :: _ => None
    end.
  Fixpoint finite_matrix (m : list (list fl)) : result matrix :=
    match m with
    | [] => Ok []
    | row :: m => match all_finite row with
                  | Some r => do rs <- finite_matrix m; Ok (r :: rs)
                  | None => Err OtherError
                  end
    end.

  (** [SplitMultinormal(dim_x, dim_y, covariance)] as a sampler, multinormal.py 32-36 and 59-63. *)
  Definition multinormal_sampler (dim_x dim_y : Z) (covariance : matrix) : result (sampler J) :=
    do s <- split_multinormal_init eigvals dim_x dim_y covariance None;
    Ok (split_multinormal_sampler J mvn s).
  (** [SplitStudentT(dim_x, dim_y, df, dispersion)] as a sampler, student.py 15-20, 42-47, 79-84. *)
  Definition student_sampler (dim_x dim_y df : Z) (dispersion : matrix) : result (sampler J) :=
    do s <- split_student_init eigvals dim_x dim_y (Fin (IZR df)) dispersion None;
    Ok (split_student_sampler psi log_gamma mvt J s).

  (** [GaussianLVMParametrization(dim_x, dim_y, n_interacting, alpha, lambd, beta_x=, eta_x=)]
      and its correlation, multinormal.py 22-35 and student.py 69-82. *)
  Definition lvm_parameters (dim_x dim_y n_interacting : Z) (alpha lambd beta eta : R) : result lvm :=
    lvm_init dim_x dim_y n_interacting alpha lambd 1 None beta None eta None.
  Definition lvm_correlation_matrix (p : lvm) : result matrix := do c <- correlation p; finite_matrix c.

  (** [asdict(params)], multinormal.py 47; the fields in order of declaration. *)
  Definition lvm_dict (p : lvm) : sdict py :=
    [("dim_x", PInt (Z.of_nat (lv_dim_x p))); ("dim_y", PInt (Z.of_nat (lv_dim_y p)));
     ("n_interacting", PInt (Z.of_nat (lv_n_interacting p)));
     ("alpha", PFloat (Fin (lv_alpha p))); ("lambd", PFloat (Fin (lv_lambd p)));
     ("epsilon_x", PFloat (Fin (lv_epsilon_x p))); ("epsilon_y", PFloat (Fin (lv_epsilon_y p)));
     ("beta_x", PFloat (Fin (lv_beta_x p))); ("beta_y", PFloat (Fin (lv_beta_y p)));
     ("eta_x", PFloat (Fin (lv_eta_x p))); ("eta_y", PFloat (Fin (lv_eta_y p)))]%string.

  (** [f"{dim_x} × {dim_y}"] in the task names, multinormal.py 46, 68, 98. *)
  Definition dims_str (dim_x dim_y : Z) : string := (int_str dim_x ++ " × " ++ int_str dim_y)%string.

  (** task_multinormal_lvm, multinormal.py 10-48. *)
  Definition task_multinormal_lvm (dim_x dim_y n_interacting : Z) (alpha lambd beta : R) (eta : option R)
      (name : option string) : prog (task J) :=
    let eta := default eta lambd in                                      (* 20 *)
    run params <- lift (lvm_parameters dim_x dim_y n_interacting alpha lambd beta eta);   (* 22-30 *)
    run c <- lift (lvm_correlation_matrix params);                              (* 35 *)
    run s <- lift (multinormal_sampler dim_x dim_y c);                   (* 32-36 *)
    let id := ("multinormal-lvm-" ++ int_str dim_x ++ "-" ++ int_str dim_y ++ "-" ++ int_str n_interacting
               ++ "-" ++ float_fixed F 5 alpha ++ "-" ++ float_fixed F 5 lambd
               ++ "-" ++ float_fixed F 5 beta ++ "-" ++ float_fixed F 5 eta)%string in   (* 38-41 *)
    run n <- or_name name (pret ("Multinormal " ++ dims_str dim_x dim_y ++ " (LVM)")%string);   (* 46 *)
    run p <- new_dict (lvm_dict params);                                 (* 47 *)
    pret {| t_sampler := s; t_id := id; t_name := n; t_params := Some p |}.

  (** [np.eye(n) * (1 - off_diag) + off_diag], multinormal.py 57 and student.py 40. *)
  Definition constant_correlation (n : Z) (off_diag : R) : matrix :=
    map (map (fun v => v * (1 - off_diag) + off_diag)%R) (np_eye (Z.to_nat n)).
  (** [covariance.tolist()], multinormal.py 71 and student.py 56. *)
  Definition matrix_list (m : matrix) : py := PList (map (fun row => PList (map (fun v => PFloat (Fin v)) row)) m).

  (** task_multinormal_dense, multinormal.py 51-73. *)
  Definition task_multinormal_dense (dim_x dim_y : Z) (off_diag : R) (name : option string) : prog (task J) :=
    let covariance := constant_correlation (dim_x + dim_y) off_diag in   (* 57 *)
    run s <- lift (multinormal_sampler dim_x dim_y covariance);          (* 59-63 *)
    run n <- or_name name (pret ("Multinormal " ++ dims_str dim_x dim_y ++ " (dense)")%string);   (* 68 *)
    run p <- new_dict [("off_diag", PFloat (Fin off_diag)); ("covariance", matrix_list covariance)]%string;   (* 69-72 *)
    pret {| t_sampler := s;
            t_id := "multinormal-dense-" ++ int_str dim_x ++ "-" ++ int_str dim_y ++ "-" ++ float_repr F off_diag;   (* 67 *)
            t_name := n; t_params := Some p |}.

  (** task_multinormal_sparse, multinormal.py 76-103. *)
  Definition task_multinormal_sparse (dim_x dim_y n_interacting : Z) (strength : R) (name : option string)
    : prog (task J) :=
    run t <- task_multinormal_lvm dim_x dim_y n_interacting 0 strength 0 (Some strength) None;   (* 83-91 *)
    let id := ("multinormal-sparse-" ++ int_str dim_x ++ "-" ++ int_str dim_y
               ++ "-" ++ int_str n_interacting ++ "-" ++ float_repr F strength)%string in   (* 93 *)
    run n <- or_name name (pret ("Multinormal " ++ dims_str dim_x dim_y ++ " (sparse)")%string);   (* 98 *)
    run p <- new_dict [("n_interacting", PInt n_interacting); ("strength", PFloat (Fin strength))]%string;   (* 99-102 *)
    pret {| t_sampler := t_sampler t; t_id := id; t_name := n; t_params := Some p |}.

  (** task_multinormal_2pair, multinormal.py 106-119. *)
  Definition task_multinormal_2pair (dim_x dim_y : Z) (strength : R) (name : option string) : prog (task J) :=
    run n <- or_name name (pret ("Multinormal " ++ dims_str dim_x dim_y ++ " (2-pair)")%string);   (* 112 *)
    task_multinormal_sparse dim_x dim_y 2 strength (Some n).             (* 113-119 *)

  (** task_student_identity, student.py 9-30. *)
  Definition task_student_identity (dim_x dim_y df : Z) (name : option string) : prog (task J) :=
    run s <- lift (student_sampler dim_x dim_y df (np_eye (Z.to_nat (dim_x + dim_y))));   (* 15-20 *)
    run n <- or_name name (pret ("Student-t " ++ dims_str dim_x dim_y ++ " (dof=" ++ int_str df ++ ")")%string);   (* 26 *)
    run p <- new_dict [("dof", PInt df)]%string;                         (* 27-29 *)
    pret {| t_sampler := s;
            t_id := "student-identity-" ++ int_str dim_x ++ "-" ++ int_str dim_y ++ "-" ++ int_str df;   (* 22 *)
            t_name := n; t_params := Some p |}.

  (** task_student_dense, student.py 33-58. *)
  Definition task_student_dense (dim_x dim_y df : Z) (off_diag : R) (name : option string) : prog (task J) :=
    let dispersion := constant_correlation (dim_x + dim_y) off_diag in   (* 40 *)
    run s <- lift (student_sampler dim_x dim_y df dispersion);           (* 42-47 *)
    run n <- or_name name (pret ("Student-t " ++ dims_str dim_x dim_y ++ " (dof=" ++ int_str df ++ ", dense)")%string);   (* 52 *)
    run p <- new_dict [("dof", PInt df); ("off_diag", PFloat (Fin off_diag));
                       ("dispersion", matrix_list dispersion)]%string;   (* 53-57 *)
    pret {| t_sampler := s;
            t_id := "student-dense-" ++ int_str dim_x ++ "-" ++ int_str dim_y ++ "-" ++ int_str df
                    ++ "-" ++ float_repr F off_diag;                     (* 51 *)
            t_name := n; t_params := Some p |}.

  (** task_student_sparse, student.py 61-97. *)
  Definition task_student_sparse (dim_x dim_y df n_interacting : Z) (strength : R) (name : option string)
    : prog (task J) :=
    run params <- lift (lvm_parameters dim_x dim_y n_interacting 0 strength 0 strength);   (* 69-77 *)
    run c <- lift (lvm_correlation_matrix params);                              (* 82 *)
    run s <- lift (student_sampler dim_x dim_y df c);                    (* 79-84 *)
    let id := ("student-sparse-" ++ int_str dim_x ++ "-" ++ int_str dim_y ++ "-" ++ int_str df
               ++ "-" ++ int_str n_interacting ++ "-" ++ float_repr F strength)%string in   (* 86 *)
    run n <- or_name name (pret ("Student-t " ++ dims_str dim_x dim_y ++ " (dof=" ++ int_str df ++ ", sparse)")%string);   (* 91 *)
    run p <- new_dict [("dof", PInt df); ("n_interacting", PInt n_interacting);
                       ("strength", PFloat (Fin strength))]%string;      (* 92-96 *)
    pret {| t_sampler := s; t_id := id; t_name := n; t_params := Some p |}.

  (** task_student_2pair, student.py 100-115. *)
  Definition task_student_2pair (dim_x dim_y df : Z) (strength : R) (name : option string) : prog (task J) :=
    run n <- or_name name (pret ("Student-t " ++ dims_str dim_x dim_y ++ " (dof=" ++ int_str df ++ ", 2-pair)")%string);   (* 107 *)
    task_student_sparse dim_x dim_y df 2 strength (Some n).              (* 108-115 *)

  (** ** task_list.py *)

  (** A list display whose elements are evaluated in turn, as in task_list.py 19-29. *)
  Fixpoint sequence {A} (ps : list (prog A)) : prog (list A) :=
    match ps with
    | [] => pret []
    | p :: ps => run a <- p; run l <- sequence ps; pret (a :: l)
    end.

  (** The functions under the names of task_list.py 7-11, with the default arguments used
      there, and the constructors with the arguments of lines 17 and 36-58. *)
  Definition asinh (t : task J) := transform_asinh_task t None.
  Definition half_cubed (t : task J) := transform_half_cube_task t None.
  Definition normal_cdfise (t : task J) := transform_normal_cdf_task erf t None.
  Definition spiralise (t : task J) := transform_spiral_task expm t 1 None true.
  Definition wigglify (t : task J) := transform_wiggly_task t None.
  Definition two_pair (d : Z) := task_multinormal_2pair d d 2 None.
  Definition dense (d : Z) := task_multinormal_dense d d (5 / 10) None.
  Definition identity_student (d df : Z) := task_student_identity d d df None.

  (** ONE_DIM_TASKS and EMBEDDINGS_TASKS, 13-33, with the tasks they are built from. *)
  Definition one_dim_tasks : prog (list (task J)) :=
    run binormal <- task_bivariate_normal (75 / 100);                    (* 13-15 *)
    run uniform <- normal_cdfise binormal;                               (* 16 *)
    run bistudent <- identity_student 1 1;                               (* 17 *)
    run l <- sequence [pret binormal; pret uniform;                      (* 20-21 *)
                       task_additive_noise (10 / 100); task_additive_noise (75 / 100);   (* 22-23 *)
                       task_bimodal_gaussians (75 / 100);                (* 24 *)
                       wigglify binormal; half_cubed binormal;           (* 25-26 *)
                       pret bistudent; asinh bistudent];                 (* 27-28 *)
    run e <- transform_swissroll_task uniform "Swiss roll 2 × 1";        (* 31-33 *)
    pret (l ++ [e])%list.

  (** MULTINORMAL_TASKS, 35-45. *)
  Definition multinormal_tasks : prog (list (task J)) :=
    sequence [dense 2; dense 3; dense 5; dense 25; dense 50; two_pair 2; two_pair 3; two_pair 5; two_pair 25].

  (** STUDENT_TASKS, 47-54. *)
  Definition student_tasks : prog (list (task J)) :=
    sequence [identity_student 2 1; identity_student 2 2; identity_student 3 2; identity_student 3 3;
              identity_student 5 2; identity_student 5 3].

  (** TRANSFORMED_TASKS, 56-76. *)
  Definition transformed_tasks : prog (list (task J)) :=
    run b3 <- two_pair 3; run b5 <- two_pair 5; run b25 <- two_pair 25;  (* 56-58 *)
    sequence [normal_cdfise b3; normal_cdfise b5; normal_cdfise b25;     (* 61-63 *)
              half_cubed b3; half_cubed b5; half_cubed b25;              (* 64-66 *)
              spiralise b3; spiralise b5; spiralise b25;                 (* 67-69 *)
              (run t <- normal_cdfise b3; spiralise t);                  (* 70 *)
              (run t <- normal_cdfise b5; spiralise t);                  (* 71 *)
              (run t <- normal_cdfise b25; spiralise t);                 (* 72 *)
              (run t <- identity_student 2 1; asinh t);                  (* 73 *)
              (run t <- identity_student 3 2; asinh t);                  (* 74 *)
              (run t <- identity_student 5 2; asinh t)].                 (* 75 *)

  (** BENCHMARK_TASKS_LIST, 79-81. *)
  Definition benchmark_tasks_list : prog (list (task J)) :=
    run a <- one_dim_tasks;
    run b <- multinormal_tasks;
    run c <- student_tasks;
    run d <- transformed_tasks;
    pret (a ++ b ++ c ++ d)%list.

  (** ** benchmark/__init__.py 6: [{task.id: task for task in tasks}] *)
  Fixpoint tasks_by_id (tasks : list (task J)) (acc : sdict (task J)) : prog (sdict (task J)) :=
    match tasks with
    | [] => pret acc
    | t :: tasks => run i <- task_id t; tasks_by_id tasks (sdict_set acc i t)
    end.
  Definition benchmark_tasks : prog (sdict (task J)) :=
    run l <- benchmark_tasks_list; tasks_by_id l [].
End Tasks.

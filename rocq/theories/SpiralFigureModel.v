(** Model of [workflows/projects/Beyond_Normal/figure_spiral.smk] (the tasks and the panel of
    the estimates) and of the points of [scripts/plot_spiral.py].  Colours of the axes, the
    legend and the size of figures are left out.  Simplifications: exact reals; the numbers
    drawn by NumPy's generator are a parameter. *)
From Coq Require Import String.
From Verif Require Import Base UtilsModel JaxModel SamplersModel GaussianModel MatrixUtilsModel TransformsModel BenchmarkModel TasksModel TablesModel V2TableModel RulesModel
  OutliersModel FiguresModel PlotMiModel.
Open Scope R_scope.

Section SpiralFigure.
  Context {J : prng}.
  Variables (F : formats) (eigvals : matrix -> list (R * R)) (mvn : key J -> list R -> matrix -> nat -> matrix) (expm : expm_function).

  (** The covariance, figure_spiral.smk 19-21. *)
  Definition spiral_covariance (correlation : R) : result matrix :=
    do a <- assign (np_eye 3) 0 2 correlation;                           (* 19-20 *)
    assign a 2 0 correlation.                                            (* 21 *)
  (** spiral_task, 16-37. *)
  Definition spiral_task (speed correlation : R) : prog (task J) :=
    run covariance <- lift (spiral_covariance correlation);
    run generator <- lift (so_generator 2 0 1);                          (* 23 *)
    run base <- lift (multinormal_sampler eigvals mvn 2 1 covariance);   (* 26 *)
    run tx <- lift (spiral_init generator None speed);                   (* 27 *)
    run s <- lift (transformed_sampler base (Some (pointwise (spiral_call expm tx))) None 0 0 true);   (* 25-28 *)
    run p <- new_dict [("correlation", PFloat (Fin correlation)); ("speed", PFloat (Fin speed))]%string;   (* 31-34 *)
    pret {| t_sampler := s; t_id := "spiral-" ++ float_repr F correlation ++ "-" ++ float_repr F speed;   (* 36 *)
            t_name := "Speed " ++ float_fixed F 2 speed; t_params := Some p |}.   (* 35 *)

  (** TASK_LIST, 44-48, and TASKS, 49. *)
  Definition SPEEDS : list R := [0; 1 / 10; 3 / 10; 5 / 10; 7 / 10; 1; 15 / 10].
  Definition spiral_list : prog (list (task J)) :=
    sequence (flat_map (fun speed => map (spiral_task speed) [8 / 10]) SPEEDS).
  Definition spiral_tasks : prog (sdict (task J)) :=
    run l <- spiral_list; run d <- tasks_by_id l []; scale_tasks d.

  (** find_speed, 64-68. *)
  Fixpoint find_speed (TASK_LIST : list (task J)) (task_id : string) : prog py :=
    match TASK_LIST with
    | [] => lift (Err KeyError)                                          (* 68 *)
    | t :: l =>
        run i <- BenchmarkModel.task_id t;                                   (* 66 *)
        if String.eqb i task_id then
          run p <- task_params t; run d <- read_dict p; lift (lookup d "speed")   (* 67 *)
        else find_speed l task_id
    end.
  (** The rule plot_performance, 70-82: the panel. *)
  Definition plot_performance (TASK_LIST : list (task J)) (rows : list mrow) : prog panel :=
    run results <- lift (read_frame (Some (Fin 3)) rows);                (* 74 *)
    run speeds <- sequence (map (fun r => find_speed TASK_LIST (r_task (mr_run r))) (f_rows results));   (* 75 *)
    let results := {| f_columns := "speed"%string :: f_columns results;
                      f_rows := map (fun rs => {| mr_run := mr_run (fst rs); mr_params := sdict_set (mr_params (fst rs)) "speed" (snd rs) |})
                                    (combine (f_rows results) speeds) |} in   (* 75 *)
    lift (plot_mi results "speed" COLORS NAMES (Some "Speed"%string) true).   (* 79 *)
End SpiralFigure.

(** The points of scripts/plot_spiral.py. *)
Section Visualisation.
  (** [rng.uniform(-scale, scale, size=n_points)] of the generator with the seed, the first and the
      second call; [rng.multivariate_normal(mean, cov, size)]; the exponential of matrices. *)
  Variables (draw : Z -> nat -> R -> R -> nat -> list R) (normal : Z -> list R -> matrix -> nat -> matrix) (expm : expm_function).
  (** get_points, 11-37; [dstack] of two columns of equal length gives their pairs. *)
  Definition get_points (random_seed : Z) (x_scale y_scale : R) (sample_uniform : bool) (n_points : nat) : matrix :=
    if sample_uniform then
      let x := draw random_seed 0 (- x_scale) x_scale n_points in        (* 30 *)
      let y := draw random_seed 1 (- y_scale) y_scale n_points in        (* 31 *)
      map (fun p => [fst p; snd p]) (combine x y)                        (* 32 *)
    else normal random_seed [0; 0] [[x_scale; 0]; [0; y_scale]] n_points.   (* 34-37 *)
  (** get_transformed_points, 40-43. *)
  Definition get_transformed_points (points : matrix) (speed : R) : result matrix :=
    do generator <- so_generator 2 0 1;                                  (* 41 *)
    do s <- spiral_init generator None speed;                            (* 42 *)
    each (spiral_call expm s) points.                                    (* 43 *)
  (** A cloud of points: label, colour, points. *)
  Record cloud := { cl_label : string; cl_color : string; cl_points : matrix }.
  (** plot, 52-103; [text] is [str] of a float. *)
  Definition plot_clouds (text : R -> string) (points : matrix) (transformed_points : list (R * matrix)) (colors : list string) : result (list cloud) :=
    match colors with
    | [] => Err IndexError                                               (* 73 *)
    | c :: cs =>
        let colors_transformed := firstn (length transformed_points) cs in   (* 78-80 *)
        Ok ({| cl_label := "Original"; cl_color := c; cl_points := points |}   (* 67-76 *)
            :: map (fun x => {| cl_label := "Speed " ++ text (fst (snd x)); cl_color := fst x; cl_points := snd (snd x) |})   (* 82-92 *)
                 (combine colors_transformed transformed_points))
    end.
  (** main, 106-127, with get_transformed_points_dictionary, 46-49 (the two speeds are different). *)
  Definition spiral_picture (text : R -> string) : result (list cloud) :=
    let points := get_points 42 2 (5 / 100) true 2000 in                 (* 107-122 *)
    do transformed <- each (fun speed => do p <- get_transformed_points points speed; Ok (speed, p)) [5 / 10; 15 / 10];   (* 113, 123 *)
    plot_clouds text points transformed ["green"; "goldenrod"; "orangered"]%string.   (* 114, 124 *)
End Visualisation.

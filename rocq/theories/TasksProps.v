(** The properties C58 (transformed tasks) and C59 (the published tasks). *)
From Coq Require Import String.
From Verif Require Import Base UtilsModel JaxModel SamplersModel GaussianModel MatrixUtilsModel TransformsModel
  BaseLemmas TrainingSpec TrainingExamples SamplersSpec SamplersExamples BenchmarkModel BenchmarkSpec BenchmarkExamples TasksModel TasksSpec TasksProofs
  TasksThms GaussianSpec TasksGaussian TasksBuild TasksExamples.
Open Scope Z_scope.
Local Notation length := List.length.

(** ** C58: transformed tasks *)
Theorem C58_asinh :
  forall (J : prng) (base : task J) name h, usable base h ->
  exists h' t, transform_asinh_task base name h = (h', Ok t) /\
    derived base t h h' (fun i => "asinh-" ++ i)%string (fun n => given name ("Asinh @ " ++ n)) 0 []
      (each_entry np_arcsinh) (each_entry np_arcsinh) /\
    (content h (t_params base) <> [] -> t_params t = t_params base).
Proof. exact (@asinh_derived). Qed.
Print Assumptions C58_asinh.

Theorem C58_half_cube :
  forall (J : prng) (base : task J) name h, usable base h ->
  exists h' t, transform_half_cube_task base name h = (h', Ok t) /\
    derived base t h h' (fun i => "half_cube-" ++ i)%string (fun n => given name ("Half-cube @ " ++ n)) 0 []
      (each_entry half_cube) (each_entry half_cube) /\
    (content h (t_params base) <> [] -> t_params t = t_params base).
Proof. exact (@half_cube_derived). Qed.
Print Assumptions C58_half_cube.

Theorem C58_normal_cdf :
  forall (J : prng) (erf : R -> R) (base : task J) name h, usable base h ->
  exists h' t, transform_normal_cdf_task erf base name h = (h', Ok t) /\
    derived base t h h' (fun i => "normal_cdf-" ++ i)%string (fun n => given name ("Normal CDF @ " ++ n)) 0 []
      (each_entry (normal_cdf erf)) (each_entry (normal_cdf erf)) /\
    (content h (t_params base) <> [] -> t_params t = t_params base).
Proof. exact (@normal_cdf_derived). Qed.
Print Assumptions C58_normal_cdf.

Theorem C58_wiggly :
  forall (J : prng) (base : task J) name h, usable base h ->
  exists h' t, transform_wiggly_task base name h = (h', Ok t) /\
    derived base t h h' (fun i => "wiggly-" ++ i)%string (fun n => given name ("Wiggly @ " ++ n)) 0 []
      (each_entry wiggly_x) (each_entry wiggly_y) /\
    (content h (t_params base) <> [] -> t_params t = t_params base).
Proof. exact (@wiggly_derived). Qed.
Print Assumptions C58_wiggly.

(** The Swiss roll adds one coordinate of X and leaves Y alone. *)
Theorem C58_swissroll :
  forall (J : prng) (base : task J) name h, usable base h -> dim_x (t_sampler base) = Ok 1 ->
  exists h' t, transform_swissroll_task base name h = (h', Ok t) /\
    derived base t h h' (fun i => "swissroll_x-" ++ i)%string (fun _ => name) 1 [] (each_row swissroll2d) unchanged.
Proof. exact (@swissroll_derived). Qed.
Print Assumptions C58_swissroll.

Theorem C58_rotate :
  forall (J : prng) expm (base : task J) name h dx dy, usable base h -> dim_x (t_sampler base) = Ok dx ->
  dim_y (t_sampler base) = Ok dy -> 3 <= dx -> 3 <= dy ->
  exists h' t, transform_rotate_task expm base name h = (h', Ok t) /\
    derived base t h h' (fun i => "rotate-" ++ i)%string (fun n => given name ("Rotate @ " ++ n)) 0 []
      (each_row (rotate_x expm dx)) (each_row (rotate_y expm dy)).
Proof. exact (@rotate_derived). Qed.
Print Assumptions C58_rotate.

Theorem C58_spiral :
  forall (J : prng) expm (base : task J) speed name normalize h dx dy, usable base h -> dim_x (t_sampler base) = Ok dx ->
  dim_y (t_sampler base) = Ok dy -> 2 <= dx -> 3 <= dy ->
  exists h' t gx gy sx sy, transform_spiral_task expm base speed name normalize h = (h', Ok t) /\
    so_generator dx 0 1 = Ok gx /\ so_generator dy 1 2 = Ok gy /\
    spiral_init gx None (if normalize then speed / IZR dx else speed)%R = Ok sx /\
    spiral_init gy None (if normalize then speed / IZR dy else speed)%R = Ok sy /\
    derived base t h h' (fun i => "spiral-" ++ i)%string (fun n => given name ("Spiral @ " ++ n)) 0
      [("speed", PFloat (Fin speed)); ("normalize_speed", PBool normalize)]%string
      (each_row (spiral_call expm sx)) (each_row (spiral_call expm sy)) /\
    (exists p, t_params t = Some p /\ (length h <= p < length h')%nat).
Proof. exact (@spiral_derived). Qed.
Print Assumptions C58_spiral.

Theorem C58_power :
  forall (J : prng) F (base : task J) alpha name h, usable base h ->
  exists h' t, transform_power_task F base alpha name h = (h', Ok t) /\
    derived base t h h' (fun i => "power_" ++ float_fixed F 5 alpha ++ "-" ++ i)%string
      (fun n => given name ("Power " ++ float_fixed F 2 alpha ++ " @ " ++ n)) 0 [("alpha", PFloat (Fin alpha))]%string
      (each_entry (fun x => real_part (signed_power alpha x))) (each_entry (fun x => real_part (signed_power alpha x))) /\
    (exists p, t_params t = Some p /\ (length h <= p < length h')%nat).
Proof. exact (@power_derived). Qed.
Print Assumptions C58_power.

(** The quantile transform is any function of the whole array, the number of quantiles, the
    name of the distribution and the seed. *)
Theorem C58_uniformise :
  forall (J : prng) Q (base : task J) name nq seed h, usable base h ->
  exists h' t, transform_uniformise Q base name nq seed h = (h', Ok t) /\
    derived base t h h' (fun i => "uniformise-" ++ i)%string (fun n => given name ("Uniformise @ " ++ n)) 0
      [("n_quantiles", PInt nq)]%string (whole (Q nq "uniform"%string seed)) (whole (Q nq "uniform"%string seed)) /\
    (exists p, t_params t = Some p /\ (length h <= p < length h')%nat).
Proof. exact (@uniformise_derived). Qed.
Print Assumptions C58_uniformise.

Theorem C58_gaussianise :
  forall (J : prng) Q (base : task J) name nq seed h, usable base h ->
  exists h' t, transform_gaussianise Q base name nq seed h = (h', Ok t) /\
    derived base t h h' (fun i => "gaussianise-" ++ i)%string (fun n => given name ("Gaussianise @ " ++ n)) 0
      [("n_quantiles", PInt nq)]%string (whole (Q nq "normal"%string seed)) (whole (Q nq "normal"%string seed)) /\
    (exists p, t_params t = Some p /\ (length h <= p < length h')%nat).
Proof. exact (@gaussianise_derived). Qed.
Print Assumptions C58_gaussianise.

Theorem C58_rescale :
  forall (J : prng) (base : task J) name id h, usable base h ->
  exists h' t, transform_rescale base name id h = (h', Ok t) /\
    derived base t h h' (fun i => given id ("rescale-" ++ i)) (fun n => given name ("Rescale @ " ++ n)) 0 []
      (whole scaler_transform) (whole scaler_transform).
Proof. exact (@rescale_derived). Qed.
Print Assumptions C58_rescale.

(** Tasks of too small (or, for the Swiss roll, other) dimensions are rejected. *)
Theorem C58_swissroll_rejects :
  forall (J : prng) (base : task J) name h dx, usable base h -> dim_x (t_sampler base) = Ok dx -> dx <> 1 ->
  exists h', transform_swissroll_task base name h = (h', Err AssertionError).
Proof. exact (@swissroll_rejects). Qed.
Print Assumptions C58_swissroll_rejects.

Theorem C58_rotate_rejects :
  forall (J : prng) expm (base : task J) name h dx dy, usable base h -> dim_x (t_sampler base) = Ok dx ->
  dim_y (t_sampler base) = Ok dy -> dx < 3 \/ dy < 3 ->
  exists h', transform_rotate_task expm base name h = (h', Err AssertionError).
Proof. exact (@rotate_rejects). Qed.
Print Assumptions C58_rotate_rejects.

Theorem C58_spiral_rejects :
  forall (J : prng) expm (base : task J) speed name normalize h dx dy, usable base h -> dim_x (t_sampler base) = Ok dx ->
  dim_y (t_sampler base) = Ok dy -> dx < 2 \/ dy < 3 ->
  exists h', transform_spiral_task expm base speed name normalize h = (h', Err AssertionError).
Proof. exact (@spiral_rejects). Qed.
Print Assumptions C58_spiral_rejects.

(** No transform accepts a task whose metadata cannot be read, e.g. one with negative mutual
    information. *)
Theorem C58_unreadable_base :
  forall (J : prng) (base : task J) h h1 ex, metadata base h = (h1, Err ex) ->
  forall (p : prog (task J)),
  (exists name, p = transform_asinh_task base name \/ p = transform_half_cube_task base name \/ p = transform_wiggly_task base name) \/
  (exists erf name, p = transform_normal_cdf_task erf base name) \/ (exists name, p = transform_swissroll_task base name) \/
  (exists expm name, p = transform_rotate_task expm base name) \/
  (exists expm v name b, p = transform_spiral_task expm base v name b) \/
  (exists F alpha name, p = transform_power_task F base alpha name) \/
  (exists Q name nq seed, p = transform_uniformise Q base name nq seed \/ p = transform_gaussianise Q base name nq seed) ->
  forall h' t, p h <> (h', Ok t).
Proof. exact unreadable_base. Qed.
Print Assumptions C58_unreadable_base.

(** The base task keeps its dictionary, but the transformed task uses the same object: who
    edits the parameters of the new task edits those of the base. *)
Theorem C58_parameters_copied_refuted :
  ~ (forall (J : prng) (base t : task J) name h h' d p, usable base h -> transform_asinh_task base name h = (h', Ok t) ->
     t_params t = Some p -> content (dwrite h' p d) (t_params base) = content h (t_params base)).
Proof. exact params_shared_refuted. Qed.
Print Assumptions C58_parameters_copied_refuted.

Example C58_example : usable (@wide_task demo) ex_heap /\ dim_x (t_sampler (@wide_task demo)) = Ok 3 /\
  dim_y (t_sampler (@wide_task demo)) = Ok 3 /\ usable (@ex_task demo) ex_heap /\ dim_x (t_sampler (@ex_task demo)) = Ok 1 /\
  content ex_heap (t_params (@wide_task demo)) <> [].
Proof. split; [apply wide_usable|]. repeat split; try apply ex_usable. discriminate. Qed.
Example C58_unreadable_example : metadata (J := demo) {| t_sampler := ex_sampler NaN; t_id := "a"; t_name := "A"; t_params := Some 0%nat |} ex_heap
  = (ex_heap, Err ValidationError).
Proof. reflexivity. Qed.

(** ** C59: the published tasks *)

(** Whatever the float routines, samplers and matrix routines do, a list that can be built
    has exactly the published ids, *)
Theorem C59_published_ids :
  forall (J : prng) F D erf expm eigvals mvn psi log_gamma mvt, python_floats F ->
  forall h h' (l : list (task J)), benchmark_tasks_list F D erf expm eigvals mvn psi log_gamma mvt h = (h', Ok l) ->
  map t_id l = published_ids.
Proof. exact (@list_ids). Qed.
Print Assumptions C59_published_ids.

Theorem C59_published_distinct : NoDup published_ids /\ length published_ids = 40%nat.
Proof. exact published_forty. Qed.
Print Assumptions C59_published_distinct.

(** and the dictionary has one entry for each of the 40 tasks. *)
Theorem C59_dictionary_complete :
  forall (J : prng) F D erf expm eigvals mvn psi log_gamma mvt, python_floats F ->
  forall h h' (d : sdict (task J)), benchmark_tasks F D erf expm eigvals mvn psi log_gamma mvt h = (h', Ok d) ->
  exists h1 l, benchmark_tasks_list F D erf expm eigvals mvn psi log_gamma mvt h = (h1, Ok l) /\ length l = 40%nat /\
    map t_id l = published_ids /\ NoDup (map t_id l) /\ d = map (fun t => (t_id t, t)) l.
Proof. exact (@dictionary_complete). Qed.
Print Assumptions C59_dictionary_complete.

(** The list and the dictionary can be built, and every task of the list is usable in the
    end: its metadata can be read and no later task has spoiled it. *)
Theorem C59_list_builds :
  forall (J : prng) F D erf expm eigvals mvn psi log_gamma mvt, prng_ok J -> draws_ok J D -> eigvals_positive eigvals ->
  (forall d df, In (d, df) [(1, 1); (2, 1); (2, 2); (3, 2); (3, 3); (5, 2); (5, 3)] ->
     (0 <= student_correction psi log_gamma (IZR df) (Z.to_nat d) (Z.to_nat d))%R) ->
  forall h, exists h' (l : list (task J)), benchmark_tasks_list F D erf expm eigvals mvn psi log_gamma mvt h = (h', Ok l) /\
    (length h <= length h')%nat /\ (forall r, (r < length h)%nat -> dread h' r = dread h r) /\
    Forall (fun t => usable t h') l.
Proof. exact list_builds'. Qed.
Print Assumptions C59_list_builds.

Theorem C59_dictionary_builds :
  forall (J : prng) F D erf expm eigvals mvn psi log_gamma mvt, prng_ok J -> draws_ok J D -> eigvals_positive eigvals ->
  (forall d df, In (d, df) [(1, 1); (2, 1); (2, 2); (3, 2); (3, 3); (5, 2); (5, 3)] ->
     (0 <= student_correction psi log_gamma (IZR df) (Z.to_nat d) (Z.to_nat d))%R) ->
  forall h, exists h' (d : sdict (task J)), benchmark_tasks F D erf expm eigvals mvn psi log_gamma mvt h = (h', Ok d).
Proof. exact (@dictionary_builds). Qed.
Print Assumptions C59_dictionary_builds.

Example C59_builds_example : exists h' d, benchmark_tasks ex_formats demo_draws (fun x => x) zero_expm ex_eigvals
    (fun _ _ _ n => repeat [] n) (fun _ => 0%R) (fun _ => 0%R) (fun _ _ _ _ n => repeat [] n) [] = (h', Ok d) /\
  length d = 40%nat.
Proof. exact forty_tasks. Qed.

(** In general, nothing is lost from a list with pairwise different ids, *)
Theorem C59_nothing_dropped :
  forall (J : prng) (ts : list (task J)) h h' d, NoDup (map t_id ts) -> tasks_by_id ts [] h = (h', Ok d) ->
  d = map (fun t => (t_id t, t)) ts.
Proof. exact (@tasks_by_id_distinct). Qed.
Print Assumptions C59_nothing_dropped.

(** and from any list each id gets the last of the tasks with that id. *)
Theorem C59_last_wins :
  forall (J : prng) (ts : list (task J)) acc h h' d, tasks_by_id ts acc h = (h', Ok d) -> forall i,
  sdict_get d i = match find (fun t => String.eqb (t_id t) i) (rev ts) with Some t => Some t | None => sdict_get acc i end.
Proof. exact (@tasks_by_id_get). Qed.
Print Assumptions C59_last_wins.

(** Ids do not identify tasks: two spirals of the same task with different speeds collide. *)
Theorem C59_spirals_collide :
  forall expm (J : prng) (base t1 t2 : task J) v1 v2 n1 n2 b1 b2 h h1 h2 h3 d,
  transform_spiral_task expm base v1 n1 b1 h = (h1, Ok t1) -> transform_spiral_task expm base v2 n2 b2 h1 = (h2, Ok t2) ->
  tasks_by_id [t1; t2] [] h2 = (h3, Ok d) -> d = [(t_id t1, t2)].
Proof. exact (@spiral_ids_collide). Qed.
Print Assumptions C59_spirals_collide.

Example C59_spirals_example : exists h1 h2 t1 t2,
  transform_spiral_task zero_expm (@wide_task demo) 1 None true ex_heap = (h1, Ok t1) /\
  transform_spiral_task zero_expm (@wide_task demo) 2 None true h1 = (h2, Ok t2) /\
  exists h3 d, tasks_by_id [t1; t2] [] h2 = (h3, Ok d).
Proof. exact two_spirals. Qed.

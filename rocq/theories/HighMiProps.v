(** The property C66: tasks of prescribed mutual information. *)
From Coq Require Import String.
From Verif Require Import Base UtilsModel JaxModel SamplersModel GaussianModel TransformsModel BenchmarkModel BenchmarkSpec TasksModel TasksSpec
  TrainingExamples TasksProofs TasksGaussian TasksExamples HighMiModel HighMiSpec HighMiProofs HighMiGaussian HighMiThms HighMiExamples.
Open Scope R_scope.

(** A value is only returned if the function was seen to be close to the target there, except
    when the target is near -1e9, the value with which the search starts. *)
Theorem C66_sound :
  forall func target delta uniform lo hi n x, ~ within (-1000000000) target delta ->
  binsearch func target delta uniform lo hi n = Ok (Some x) -> exists v, func x = Ok (Fin v) /\ within v target delta.
Proof. exact search_sound. Qed.
Print Assumptions C66_sound.

(** ... in which case a point is returned although the function fails everywhere. *)
Theorem C66_initial_value_refuted :
  exists func target delta uniform lo hi n x, 0 < delta /\ lo < hi /\ (forall y, exists e, func y = Err e) /\
    binsearch func target delta uniform lo hi n = Ok (Some x).
Proof. exact initial_value_refuted. Qed.
Print Assumptions C66_initial_value_refuted.

(** The result lies in the range. *)
Theorem C66_range :
  forall func target delta uniform lo hi n x, lo <= hi -> (forall k, lo <= uniform k <= hi) ->
  binsearch func target delta uniform lo hi n = Ok (Some x) -> lo <= x <= hi.
Proof. exact search_range. Qed.
Print Assumptions C66_range.

(** Only errors of the function come through, and no ValueError. *)
Theorem C66_errors :
  forall func target delta uniform lo hi n e, binsearch func target delta uniform lo hi n = Err e ->
  e <> ValueError /\ exists x, func x = Err e.
Proof. exact search_error. Qed.
Print Assumptions C66_errors.

(** A nondecreasing function which does not raise: the search succeeds if it has more steps than
    halvings needed to fit the interval of good points. *)
Theorem C66_complete :
  forall func target delta uniform f lo hi a b, nondecreasing_on func f lo hi -> lo <= a -> b <= hi ->
  (forall x, a < x < b -> within (f x) target delta) ->
  forall n, a < b -> hi - lo < (b - a) * 2 ^ Z.to_nat n -> exists x, binsearch func target delta uniform lo hi n = Ok (Some x).
Proof. exact search_complete. Qed.
Print Assumptions C66_complete.

(** While the function raises ValueError, the points are drawn one after the other: the first one
    which is good is returned. *)
Theorem C66_restarts :
  forall func target delta uniform lo hi n k v,
  func (1 / 2 * (lo + hi)) = Err ValueError -> (forall i, (i < k)%nat -> func (uniform i) = Err ValueError) ->
  func (uniform k) = Ok (Fin v) -> within v target delta -> (Z.of_nat k + 2 <= n)%Z ->
  binsearch func target delta uniform lo hi n = Ok (Some (uniform k)).
Proof. exact search_restarts. Qed.
Print Assumptions C66_restarts.
Example C66_restarts_example :
  let func x := if Rltb x (3 / 2) then Err ValueError else Ok (Fin x) in
  binsearch func 2 (1 / 10) (fun i => INR i) 0 1 4 = Ok (Some (INR 2)).
Proof. exact restarts_instance. Qed.

(** One exception may keep the search from ever succeeding: the random restart ignores the
    bracket and can put the upper end back. *)
Theorem C66_exceptions_refuted :
  exists func target delta uniform lo hi, 0 < delta /\ lo < target < hi /\
    (forall x, x <> 1 / 4 -> func x = Ok (Fin x)) /\ func (1 / 4) = Err ValueError /\ (forall k, lo <= uniform k <= hi) /\
    forall n, binsearch func target delta uniform lo hi n = Ok None.
Proof. exact exception_refuted. Qed.
Print Assumptions C66_exceptions_refuted.

(** The sampler has mutual information -ln(1 - c^2). *)
Theorem C66_sparse_mi :
  forall eigvals, eigvals_positive eigvals -> forall (J : prng) (mvn : key J -> list R -> matrix -> nat -> matrix) c dim,
  (2 <= dim)%Z -> -1 < c -> c < 1 -> mi_sparse_gaussian eigvals mvn c dim = Ok (Fin (- ln (1 - c ^ 2))).
Proof. exact (@sparse_mi). Qed.
Print Assumptions C66_sparse_mi.

(** For every mutual information up to 3000 a task is found, with what its parameters say. *)
Theorem C66_found :
  forall eigvals (J : prng) (mvn : key J -> list R -> matrix -> nat -> matrix) F uniform mi family dim h,
  eigvals_positive eigvals -> (2 <= dim)%Z -> 0 <= mi <= 3000 ->
  exists h' t, generate_sparse_gaussian_task F eigvals mvn uniform mi family dim h = (h', Ok (Some t)) /\
    sparse_task F mi family dim t h h' /\ usable t h' /\ ext h h'.
Proof. exact generate_found. Qed.
Print Assumptions C66_found.

(** Whatever numpy computes as eigenvalues, a task which is returned has the mutual information asked for. *)
Theorem C66_generated_sound :
  forall eigvals (J : prng) (mvn : key J -> list R -> matrix -> nat -> matrix) F uniform mi family dim h h' t,
  ~ within (-1000000000) mi (1 / 10000) ->
  generate_sparse_gaussian_task F eigvals mvn uniform mi family dim h = (h', Ok (Some t)) ->
  (2 <= dim)%Z /\ ext h h' /\ exists v p c, within v mi (1 / 10000) /\ mutual_information (t_sampler t) = Ok (Fin v) /\
    get_sparse_gaussian_sampler eigvals mvn c dim = Ok (t_sampler t) /\ t_params t = Some p /\
    dread h' p = [("correlation", PFloat (Fin c)); ("desired_mi", PFloat (Fin mi)); ("true_mi", PFloat (Fin v));
                  ("dim", PInt dim); ("family_name", PStr family)]%string.
Proof. exact generate_sound. Qed.
Print Assumptions C66_generated_sound.

(** No task: fewer than two dimensions, or negative mutual information. *)
Theorem C66_small_dimension :
  forall eigvals (J : prng) (mvn : key J -> list R -> matrix -> nat -> matrix) F uniform mi family dim h,
  ~ within (-1000000000) mi (1 / 10000) -> (dim < 2)%Z ->
  generate_sparse_gaussian_task F eigvals mvn uniform mi family dim h = (h, Ok None).
Proof. exact generate_small. Qed.
Print Assumptions C66_small_dimension.
Theorem C66_negative :
  forall eigvals (J : prng) (mvn : key J -> list R -> matrix -> nat -> matrix) F uniform mi family dim h,
  eigvals_positive eigvals -> (2 <= dim)%Z -> -999999999 <= mi <= - (1 / 10000) ->
  generate_sparse_gaussian_task F eigvals mvn uniform mi family dim h = (h, Ok None).
Proof. exact generate_negative. Qed.
Print Assumptions C66_negative.

(** The transformed tasks keep that mutual information. *)
Theorem C66_half_cube :
  forall eigvals (J : prng) (mvn : key J -> list R -> matrix -> nat -> matrix) F uniform mi family dim h,
  eigvals_positive eigvals -> (2 <= dim)%Z -> 0 <= mi <= 3000 ->
  exists base h1 t h', generate_half_cube_task F eigvals mvn uniform mi family dim h = (h', Ok (Some t)) /\
    sparse_task F mi family dim base h h1 /\ mutual_information (t_sampler t) = mutual_information (t_sampler base) /\
    derived base t h1 h' (fun i => "half_cube-" ++ i)%string (fun _ => "Half-cube with " ++ float_fixed F 2 mi ++ " MI")%string 0 []
      (each_entry half_cube) (each_entry half_cube).
Proof. exact half_cube_found. Qed.
Print Assumptions C66_half_cube.
Theorem C66_spiral :
  forall eigvals (J : prng) (mvn : key J -> list R -> matrix -> nat -> matrix) F uniform expm mi family dim speed h,
  eigvals_positive eigvals -> (3 <= dim)%Z -> 0 <= mi <= 3000 ->
  exists base h1 t h' gx gy sx sy, generate_spiral_task F eigvals mvn expm uniform mi family dim speed h = (h', Ok (Some t)) /\
    sparse_task F mi family dim base h h1 /\ mutual_information (t_sampler t) = mutual_information (t_sampler base) /\
    so_generator dim 0 1 = Ok gx /\ so_generator dim 1 2 = Ok gy /\
    spiral_init gx None (speed / IZR dim) = Ok sx /\ spiral_init gy None (speed / IZR dim) = Ok sy /\
    derived base t h1 h' (fun i => "spiral-" ++ i)%string (fun _ => "Spiral with " ++ float_fixed F 2 mi ++ " MI")%string 0
      [("speed", PFloat (Fin speed)); ("normalize_speed", PBool true)]%string
      (each_row (spiral_call expm sx)) (each_row (spiral_call expm sy)).
Proof. exact spiral_found. Qed.
Print Assumptions C66_spiral.
(** A spiral in two dimensions fails, although the Gaussian task exists. *)
Theorem C66_spiral_in_two_dimensions :
  forall eigvals (J : prng) (mvn : key J -> list R -> matrix -> nat -> matrix) F uniform expm mi family speed h,
  eigvals_positive eigvals -> 0 <= mi <= 3000 ->
  exists h', generate_spiral_task F eigvals mvn expm uniform mi family 2 speed h = (h', Err AssertionError).
Proof. exact spiral_small. Qed.
Print Assumptions C66_spiral_in_two_dimensions.

(** Examples: a search of three steps, the completeness theorem used, an error coming through, a task of 1/2 nat. *)
Example C66_three_steps : binsearch (fun x => Ok (Fin x)) (2 / 5) (1 / 20) (fun _ => 0) 0 1 3 = Ok (Some (3 / 8)).
Proof. exact three_steps. Qed.
Example C66_ten_steps : exists x, binsearch (fun x => Ok (Fin x)) (2 / 5) (1 / 20) (fun _ => 0) 0 1 10 = Ok (Some x).
Proof. exact ten_steps. Qed.
Example C66_type_error : binsearch (fun _ => Err TypeError) 0 1 (fun _ => 0) 0 1 5000 = Err TypeError.
Proof. exact type_error. Qed.
Example C66_half_nat : exists h' t,
  generate_sparse_gaussian_task ex_formats ex_eigvals ex_mvn (fun _ => 0) (1 / 2) "demo" 3 [] = (h', Ok (Some t)) /\
  sparse_task ex_formats (1 / 2) "demo" 3 t [] h'.
Proof. exact half_nat. Qed.

(** Model of [workflows/projects/Beyond_Normal/_high_mi_utils.py].

    Numbers are exact reals.  The random generator of [binsearch] is the list of its draws. *)
From Coq Require Import String.
From Verif Require Import Base UtilsModel JaxModel SamplersModel GaussianModel MatrixUtilsModel TransformsModel BenchmarkModel TasksModel.
Open Scope R_scope.

(** [abs(value - target) < delta] (43, 54); false for a value which is not finite. *)
Definition close (value : fl) (target delta : R) : bool :=
  match value with Fin v => Rltb (Rabs (v - target)) delta | _ => false end.

(** The local variables of the loop; [bs_draws] counts the calls of [rng.uniform]. *)
Record search := { bs_min : R; bs_max : R; bs_mid : R; bs_value : fl; bs_draws : nat }.

Section Search.
  (** The function, which may raise, and the draws [rng.uniform(min_value, max_value)]. *)
  Variables (func : R -> result fl) (target delta : R) (uniform : nat -> R).

  (** The loop, 39-52: [n] iterations remain. *)
  Fixpoint search_loop (n : nat) (s : search) : result search :=
    match n with
    | O => Ok s
    | S n' =>
        match func (bs_mid s) with                                       (* 41 *)
        | Ok value =>
            if close value target delta then                             (* 43-44 *)
              Ok {| bs_min := bs_min s; bs_max := bs_max s; bs_mid := bs_mid s; bs_value := value; bs_draws := bs_draws s |}
            else
              let up := fl_ltb (Fin target) value in                     (* 45 *)
              let max_val := if up then bs_mid s else bs_max s in        (* 46 *)
              let min_val := if up then bs_min s else bs_mid s in        (* 48 *)
              search_loop n' {| bs_min := min_val; bs_max := max_val; bs_mid := 1 / 2 * (max_val + min_val);   (* 50 *)
                                bs_value := value; bs_draws := bs_draws s |}
        | Err ValueError =>                                              (* 51 *)
            search_loop n' {| bs_min := bs_min s; bs_max := bs_max s; bs_mid := uniform (bs_draws s);          (* 52 *)
                              bs_value := bs_value s; bs_draws := S (bs_draws s) |}
        | Err e => Err e
        end
    end.

  (** binsearch, 15-57. *)
  Definition binsearch (min_value max_value : R) (max_iter : Z) : result (option R) :=
    let s := {| bs_min := min_value; bs_max := max_value; bs_mid := 1 / 2 * (min_value + max_value);   (* 34-36 *)
                bs_value := Fin (-1000000000); bs_draws := 0 |} in       (* 37 *)
    do s <- search_loop (Z.to_nat max_iter) s;                           (* 39 *)
    if close (bs_value s) target delta then Ok (Some (bs_mid s))         (* 54-55 *)
    else Ok None.                                                        (* 57 *)
End Search.

Section Generate.
  Context {J : prng}.
  Variable F : formats.
  Variable eigvals : matrix -> list (R * R).
  Variable mvn : key J -> list R -> matrix -> nat -> matrix.
  Variable expm : expm_function.
  Variable uniform : nat -> R.

  (** get_sparse_gaussian_sampler, 65-79. *)
  Definition get_sparse_gaussian_sampler (correlation : R) (dim : Z) : result (sampler J) :=
    do covariance <- parametrised_correlation_matrix dim dim 2 correlation 0 0;   (* 67-74 *)
    multinormal_sampler eigvals mvn dim dim covariance.                  (* 75-79 *)

  (** mi_sparse_gaussian, 82-85. *)
  Definition mi_sparse_gaussian (correlation : R) (dim : Z) : result fl :=
    do s <- get_sparse_gaussian_sampler correlation dim; mutual_information s.

  (** generate_sparse_gaussian_task, 88-117; the argument [noise] is not used. *)
  Definition generate_sparse_gaussian_task (mi : R) (family_name : string) (dim : Z) : prog (option (task J)) :=
    run corr <- lift (binsearch (fun c => mi_sparse_gaussian c dim) mi (1 / 10000) uniform 0 1 5000);   (* 94-99 *)
    match corr with
    | None => pret None                                                  (* 101-102 *)
    | Some corr =>
        run s <- lift (get_sparse_gaussian_sampler corr dim);            (* 104 *)
        run v <- lift (mutual_information s);                            (* 111 *)
        run p <- new_dict [("correlation", PFloat (Fin corr)); ("desired_mi", PFloat (Fin mi)); ("true_mi", PFloat v);
                           ("dim", PInt dim); ("family_name", PStr family_name)]%string;   (* 108-114 *)
        pret (Some {| t_sampler := s; t_id := "sparse-gaussian-" ++ float_fixed F 3 mi;   (* 115 *)
                      t_name := "Gaussian with " ++ float_fixed F 2 mi ++ " MI"; t_params := Some p |})   (* 116 *)
    end.

  (** generate_spiral_task, 125-147. *)
  Definition generate_spiral_task (mi : R) (family_name : string) (dim : Z) (speed : R) : prog (option (task J)) :=
    run base <- generate_sparse_gaussian_task mi family_name dim;        (* 132-137 *)
    match base with
    | None => pret None                                                  (* 139-140 *)
    | Some base =>
        run t <- transform_spiral_task expm base speed (Some ("Spiral with " ++ float_fixed F 2 mi ++ " MI")%string) true;   (* 142-146 *)
        pret (Some t)
    end.

  (** generate_half_cube_task, 155-172. *)
  Definition generate_half_cube_task (mi : R) (family_name : string) (dim : Z) : prog (option (task J)) :=
    run base <- generate_sparse_gaussian_task mi family_name dim;        (* 158-163 *)
    match base with
    | None => pret None                                                  (* 165-166 *)
    | Some base =>
        run t <- transform_half_cube_task base (Some ("Half-cube with " ++ float_fixed F 2 mi ++ " MI")%string);   (* 168-171 *)
        pret (Some t)
    end.
End Generate.

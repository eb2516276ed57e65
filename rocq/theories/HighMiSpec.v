(** Vocabulary of the statements about [binsearch]. *)
From Coq Require Import String.
From Verif Require Import Base UtilsModel JaxModel SamplersModel BenchmarkModel TasksModel.
Open Scope R_scope.

(** The value [v] is within [delta] of [target]. *)
Definition within (v target delta : R) : Prop := target - delta < v < target + delta.
(** [func] has real values and does not decrease on an open interval. *)
Definition nondecreasing_on (func : R -> result fl) (f : R -> R) (lo hi : R) : Prop :=
  (forall x, lo < x < hi -> func x = Ok (Fin (f x))) /\
  (forall x y, lo < x -> x <= y -> y < hi -> f x <= f y).

(** A task with [dim]-dimensional X and Y whose mutual information is within 1/10000 of [mi],
    made in a new dictionary, with the parameters which generate_sparse_gaussian_task records. *)
Definition sparse_task {J} (F : formats) (mi : R) (family : string) (dim : Z) (t : task J) (h h' : dheap) : Prop :=
  exists c v p, 0 < c < 1 /\ v = - ln (1 - c ^ 2) /\ within v mi (1 / 10000) /\
    mutual_information (t_sampler t) = Ok (Fin v) /\ dim_x (t_sampler t) = Ok dim /\ dim_y (t_sampler t) = Ok dim /\
    t_id t = ("sparse-gaussian-" ++ float_fixed F 3 mi)%string /\ t_name t = ("Gaussian with " ++ float_fixed F 2 mi ++ " MI")%string /\
    t_params t = Some p /\ p = List.length h /\
    dread h' p = [("correlation", PFloat (Fin c)); ("desired_mi", PFloat (Fin mi)); ("true_mi", PFloat (Fin v));
                  ("dim", PInt dim); ("family_name", PStr family)]%string.

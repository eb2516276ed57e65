(** Model of [scripts/Beyond_Normal/experimental/ksg_time_comparison.py] (line numbers are of this
    file).  Simplifications: exact reals; clocks and printing of the settings are left out; the two estimators
    ([KsgModel]) are any function of their parameters and the samples. *)
From Coq Require Import String.
From Verif Require Import Base UtilsModel JaxModel SamplersModel GaussianModel MatrixUtilsModel.
Open Scope Z_scope.
Local Notation length := List.length.

(** The parsed arguments, 60-84; [arg_dim_y] is None by default. *)
Record timing_args := { arg_type : string; arg_n_samples : Z; arg_dim_x : Z; arg_dim_y : option Z; arg_neighborhood : Z; arg_n_jobs : Z; arg_chunk_size : Z }.
(** The defaults, 63-82. *)
Definition default_args : timing_args :=
  {| arg_type := "NUMPY"; arg_n_samples := 1000; arg_dim_x := 2; arg_dim_y := None; arg_neighborhood := 5; arg_n_jobs := 1; arg_chunk_size := 10 |}.
(** get_args, 87-98: the arguments and the new value of dim_y. *)
Definition get_args (a : timing_args) : result (timing_args * Z) :=
  if negb (1 <=? arg_neighborhood a) then Err AssertionError             (* 90 *)
  else if negb (1 <=? arg_n_samples a) then Err AssertionError           (* 91 *)
  else if negb (1 <=? arg_chunk_size a) then Err AssertionError          (* 92 *)
  else if negb (1 <=? arg_dim_x a) then Err AssertionError               (* 94 *)
  else Ok (a, match arg_dim_y a with None => arg_dim_x a | Some d => if d =? 0 then arg_dim_x a else d end).   (* 96 *)

(** get_estimator, 101-114. *)
Inductive timed := Slow (neighborhoods : list Z) (n_jobs : Z) | Numpy (neighborhoods : list Z) (n_jobs chunk_size : Z).
Definition get_estimator (a : timing_args) : result timed :=
  if String.eqb (arg_type a) "SLOW" then Ok (Slow [arg_neighborhood a] (arg_n_jobs a))                          (* 102-106 *)
  else if String.eqb (arg_type a) "NUMPY" then Ok (Numpy [arg_neighborhood a] (arg_n_jobs a) (arg_chunk_size a))   (* 107-112 *)
  else Err ValueError.                                                   (* 114 *)

Section Main.
  Context {J : prng}.
  Variables (eigvals : matrix -> list (R * R)) (mvn : key J -> list R -> matrix -> nat -> matrix) (estimate : timed -> matrix -> matrix -> result fl).
  (** main, 117-142: the estimate and the true value which are printed.  A negative [dim_total] is a
      ValueError of [np.zeros]. *)
  Definition timing_main (a : timing_args) : result (fl * fl) :=
    do (a, dim_y) <- get_args a;                                         (* 119 *)
    let dim_total := arg_dim_x a + dim_y in                              (* 125 *)
    if dim_total <? 0 then Err ValueError else                           (* 131 *)
    let n := Z.to_nat dim_total in
    do s <- split_multinormal_init eigvals (arg_dim_x a) dim_y (np_eye n) (Some (repeat 0%R n));   (* 128-133 *)
    let sampler := split_multinormal_sampler J mvn s in
    do (x, y) <- sample sampler (Z.to_nat (arg_n_samples a)) (SeedKey (prng_key J 10));   (* 134 *)
    do e <- get_estimator a;                                             (* 136 *)
    do mi <- estimate e x y;                                             (* 139 *)
    do true_mi <- mutual_information sampler;                            (* 142 *)
    Ok (mi, true_mi).                                                    (* 141-142 *)
End Main.

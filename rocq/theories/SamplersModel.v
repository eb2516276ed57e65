(** Model of the samplers which do not need linear algebra: [samplers/base.py],
    [_transformed.py], [_independent_coordinates.py], [_additive_uniform.py] and
    [_discrete_continuous.py] in [src/bmi], and of the ISampler interface
    ([interface.py] 69-108).

    Numbers are exact reals, so integer and float arrays with equal entries are the
    same (the factors 1 and 1.0 in _discrete_continuous.py 57-60 and 139-142 are not
    distinguished).  Sample sizes are natural numbers. *)
From Verif Require Import Base UtilsModel JaxModel.
Open Scope Z_scope.

(** ** Random draws, as arbitrary functions of a key. *)
Record draws (J : prng) := {
  (** [random.uniform(key, shape=(n, 1), minval, maxval)], as a list *)
  uniform : key J -> nat -> R -> R -> list R;
  (** [random.randint(key, shape=(n, 1), minval, maxval)] *)
  randints : key J -> nat -> Z -> Z -> list Z;
  (** [random.exponential(key, shape=(n, 1))] *)
  exponential : key J -> nat -> list R;
  (** [random.bernoulli(key, p, shape=(n, 1))] *)
  bernoulli : key J -> R -> nat -> list bool;
  (** [random.poisson(key, lam)] for an array of rates *)
  poisson : key J -> list R -> list Z
}.

(** ** base.py *)

(** The argument [rng: Union[int, KeyArray]] of the samplers (interface.py 73). *)
Inductive seed (J : prng) := SeedInt (n : Z) | SeedKey (k : key J).
Arguments SeedInt {J} n.
Arguments SeedKey {J} k.

(** cast_to_rng, base.py 36-42. *)
Definition cast_to_rng (J : prng) (s : seed J) : key J :=
  match s with SeedInt n => prng_key J n | SeedKey k => k end.

(** _validate_dimensions, base.py 11-16. *)
Definition validate_dimensions (dim_x dim_y : Z) : result unit :=
  if dim_x <? 1 then Err ValueError                                      (* 13-14 *)
  else if dim_y <? 1 then Err ValueError                                 (* 15-16 *)
  else Ok tt.

(** BaseSampler.__init__, base.py 22-25: the values of [_dim_x] and [_dim_y]. *)
Definition base_sampler_init (dim_x dim_y : Z) : result (Z * Z) :=
  do _ <- validate_dimensions dim_x dim_y; Ok (dim_x, dim_y).

(** ** ISampler, interface.py 69-108.
    Reading [dim_x] may fail (AttributeError) when BaseSampler.__init__ has not been
    called. *)
Record sampler (J : prng) := {
  dim_x : result Z;                                                      (* 86-90 *)
  dim_y : result Z;                                                      (* 92-96 *)
  sample : nat -> seed J -> result (matrix * matrix);                    (* 72-84 *)
  mutual_information : result fl                                         (* 105-108 *)
}.
Arguments dim_x {J} s.
Arguments dim_y {J} s.
Arguments sample {J} s.
Arguments mutual_information {J} s.

(** dim_total, interface.py 98-103. *)
Definition dim_total {J} (s : sampler J) : result Z :=
  do a <- dim_x s; do b <- dim_y s; Ok (a + b).

(** ** TransformedSampler, _transformed.py 21-107 *)

(** A Python callable, seen on one point (1-D array) and on a batch (2-D array). *)
Record transform := { on_point : list R -> list R; on_batch : matrix -> matrix }.

(** identity, _transformed.py 16-18. *)
Definition identity : transform := {| on_point := fun x => x; on_batch := fun m => m |}.

(** [jax.vmap(f)] (78-79). *)
Definition vmap (f : list R -> list R) (m : matrix) : matrix := map f m.

(** TransformedSampler.__init__ (38-80), sample (95-104) and mutual_information (106-107). *)
Definition transformed_sampler {J} (base : sampler J) (transform_x transform_y : option transform)
    (add_dim_x add_dim_y : Z) (vectorise : bool) : result (sampler J) :=
  if (add_dim_x <? 0) || (add_dim_y <? 0) then Err ValueError            (* 65-66 *)
  else
    do bx <- dim_x base; do by_ <- dim_y base;
    do (dx, dy) <- base_sampler_init (bx + add_dim_x) (by_ + add_dim_y); (* 68-70 *)
    let tx := match transform_x with Some f => f | None => identity end in   (* 72-73 *)
    let ty := match transform_y with Some f => f | None => identity end in   (* 74-75 *)
    let vec_x := if vectorise then vmap (on_point tx) else on_batch tx in    (* 78 *)
    let vec_y := if vectorise then vmap (on_point ty) else on_batch ty in    (* 79 *)
    Ok {| dim_x := Ok dx; dim_y := Ok dy;
          sample := fun n rng =>
            do (x, y) <- sample base n rng;                              (* 103 *)
            Ok (vec_x x, vec_y y);                                       (* 93, 104 *)
          mutual_information := mutual_information base |}.              (* 107 *)

(** ** IndependentConcatenationSampler, _independent_coordinates.py 10-50 *)

(** [sum(f(s) for s in l)] where [f] may raise. *)
Fixpoint sum_results {A} (f : A -> result Z) (l : list A) : result Z :=
  match l with
  | [] => Ok 0
  | a :: l' => do v <- f a; do r <- sum_results f l'; Ok (v + r)
  end.

(** List comprehension whose body may raise. *)
Fixpoint map_results {A B} (f : A -> result B) (l : list A) : result (list B) :=
  match l with
  | [] => Ok []
  | a :: l' => do v <- f a; do r <- map_results f l'; Ok (v :: r)
  end.

(** [jnp.hstack] of 2-D arrays: ValueError without arrays or when the numbers of rows
    differ. *)
Fixpoint hstack (ms : list matrix) : result matrix :=
  match ms with
  | [] => Err ValueError
  | [m] => Ok m
  | m :: ms' => do r <- hstack ms';
                if (length m =? length r)%nat then Ok (map (fun p => fst p ++ snd p) (combine m r))
                else Err ValueError
  end.

(** __init__ 24-33, sample 35-45, mutual_information 47-50. *)
Definition concatenation_sampler {J} (samplers : list (sampler J)) : result (sampler J) :=
  do dx <- sum_results dim_x samplers;                                   (* 30 *)
  do dy <- sum_results dim_y samplers;                                   (* 31 *)
  do (dx, dy) <- base_sampler_init dx dy;                                (* 33 *)
  Ok {| dim_x := Ok dx; dim_y := Ok dy;
        sample := fun n rng =>
          let rng := cast_to_rng J rng in                                (* 36 *)
          let keys := split J rng (length samplers) in                   (* 37 *)
          do xys <- map_results (fun ks => sample (snd ks) n (SeedKey (fst ks))) (combine keys samplers);   (* 40-43 *)
          do x <- hstack (map fst xys);                                  (* 45 *)
          do y <- hstack (map snd xys);                                  (* 45 *)
          Ok (x, y);
        mutual_information := do mis <- map_results mutual_information samplers; Ok (fl_sum mis) |}.  (* 48-50 *)

Section Draws.
  Context (J : prng) (D : draws J).

  Definition column (l : list R) : matrix := map (fun a => [a]) l.

  (** ** AdditiveUniformSampler, _additive_uniform.py 11-54 *)

  (** mutual_information_function, 46-51. *)
  Definition additive_uniform_mi (epsilon : R) : fl :=
    if Rltb (1 / 2) epsilon then Fin (1 / 4 / epsilon)                   (* 48-49 *)
    else if Rltb 0 (2 * epsilon) then Fin (epsilon - ln (2 * epsilon))   (* 51 *)
    else if Reqb epsilon 0 then PInf else NaN.                           (* jnp.log outside (0, oo) *)

  (** __init__ 12-34, sample 36-44. *)
  Definition additive_uniform_sampler (epsilon : R) : result (sampler J) :=
    do (dx, dy) <- base_sampler_init 1 1;                                (* 30 *)
    if Rleb epsilon 0 then Err ValueError                                (* 32-33 *)
    else Ok {| dim_x := Ok dx; dim_y := Ok dy;
               sample := fun n rng =>
                 let rng := cast_to_rng J rng in                         (* 37 *)
                 do (key_x, key_n) <- split2 J rng;                      (* 38 *)
                 let x := uniform J D key_x n 0 1 in                     (* 39 *)
                 let noise := uniform J D key_n n (- epsilon) epsilon in (* 40-42 *)
                 let y := map (fun p => (fst p + snd p)%R) (combine x noise) in   (* 43 *)
                 Ok (column x, column y);                                (* 44 *)
               mutual_information := Ok (additive_uniform_mi epsilon) |}.   (* 54 *)

  (** ** DiscreteUniformMixtureSampler, _discrete_continuous.py 28-79 *)

  (** __init__ 44-60, sample 62-70, mutual_information 72-74. *)
  Definition discrete_uniform_sampler (n_discrete : Z) : result (sampler J) :=
    do (dx, dy) <- base_sampler_init 1 1;                                (* 50 *)
    if n_discrete <=? 0 then Err ValueError                              (* 52-53 *)
    else Ok {| dim_x := Ok dx; dim_y := Ok dy;
               sample := fun n rng =>
                 let rng := cast_to_rng J rng in                         (* 63 *)
                 do (key_x, key_y) <- split2 J rng;                      (* 64 *)
                 let xs := map IZR (randints J D key_x n 0 n_discrete) in   (* 65 *)
                 let uniforms := uniform J D key_y n 0 2 in              (* 66 *)
                 let ys := map (fun p => (fst p + snd p)%R) (combine xs uniforms) in   (* 67 *)
                 Ok (column xs, column ys);                              (* 69-70 *)
               mutual_information :=
                 let m := IZR n_discrete in                              (* 73 *)
                 Ok (Fin (ln m - (m - 1) * ln 2 / m)%R) |}.              (* 74 *)

  (** MultivariateDiscreteUniformMixtureSampler.__init__, 108-113. *)
  Definition multivariate_discrete_uniform_sampler (ns_discrete : list Z) : result (sampler J) :=
    do samplers <- map_results discrete_uniform_sampler ns_discrete;     (* 109-112 *)
    concatenation_sampler samplers.                                      (* 113 *)

  (** ** ZeroInflatedPoissonizationSampler, _discrete_continuous.py 121-192 *)

  (** NumPy's [euler_gamma], as the decimal numeral of numpy/core/include. *)
  Definition np_euler_gamma : R := (577215664901532860606512090082402431 / 10 ^ 36)%R.

  (** mutual_information, 157-187. *)
  Definition zip_mi (p : R) (truncation : option Z) : result fl :=
    match truncation with
    | Some t => if t <=? 0 then Err AssertionError else                  (* 177 *)
        let i_arr := map (fun i => INR i) (seq 1 (Z.to_nat t)) in        (* 182 *)
        let s := rsum (map (fun i => (ln i * Rpower 2 (- i))%R) i_arr) in   (* 183 *)
        let bracket := (2 * ln 2 - np_euler_gamma - s)%R in              (* 184 *)
        Ok (Fin ((1 - p) * bracket))                                     (* 187 *)
    | None => Ok (Fin ((1 - p) * (3012 / 10000)))                        (* 179-180, 187 *)
    end.

  (** __init__ 130-142 (which does not call BaseSampler.__init__, so that reading
      [dim_x] raises AttributeError), sample 144-155. *)
  Definition zip_sampler (p : R) : result (sampler J) :=
    if Rltb p 0 || Rleb 1 p then Err ValueError                          (* 135-136 *)
    else Ok {| dim_x := Err AttributeError; dim_y := Err AttributeError;
               sample := fun n rng =>
                 let rng := cast_to_rng J rng in                         (* 145 *)
                 do (key_x, key_zeros, key_poisson) <- split3 J rng;     (* 146 *)
                 let xs := exponential J D key_x n in                    (* 147 *)
                 let zeros := bernoulli J D key_zeros (1 - p) n in       (* 149 *)
                 let poissons := poisson J D key_poisson xs in           (* 150 *)
                 let ys := map (fun q : bool * Z => if fst q then IZR (snd q) else 0%R) (combine zeros poissons) in   (* 153 *)
                 Ok (column xs, column ys);                              (* 155 *)
               mutual_information := zip_mi p None |}.                   (* 157, default argument *)
End Draws.

(** Model of [transforms/_invert_cdf.py], [transforms/_rotate.py], [transforms/simple.py]
    and of the functions applied by [benchmark/tasks/{wiggly,power,rotate}.py] in
    [src/bmi]. *)
From Verif Require Import Base UtilsModel JaxModel SamplersModel GaussianModel MatrixUtilsModel.
Open Scope R_scope.
Local Notation length := List.length.

(** ** _invert_cdf.py *)

(** [jax.lax.while_loop(cond, step, s)]; [None] when [fuel] iterations do not suffice. *)
Fixpoint while_loop {S} (cond : S -> bool) (step : S -> S) (fuel : nat) (s : S) : option S :=
  if cond s then match fuel with O => None | Datatypes.S n => while_loop cond step n (step s) end else Some s.

(** The exact midpoint. *)
Definition exact_mid (a b : R) : R := (a + b) / 2.

Section InvertMono.
  (** [(x0 + x1) / 2] in the arithmetic used, possibly rounded. *)
  Variable mid : R -> R -> R.
  Variable f : R -> R.
  Variables x_min x_max delta : R.

  (** g_step, 17-24. *)
  Definition g_step (y : R) (xs : R * R) : R * R :=
    let '(x0, x1) := xs in
    let xm := mid x0 x1 in                                                         (* 19 *)
    if Rltb (f xm) y then (xm, x1) else (x0, xm).                                  (* 20-24 *)

  (** g_cond, 26-30. *)
  Definition g_cond (xs : R * R) : bool :=
    let '(x0, x1) := xs in
    let xm := mid x0 x1 in                                                         (* 28 *)
    Rltb delta (Rabs (x1 - x0)) && Rltb xm x1 && Rltb x0 xm.                       (* 29 *)

  (** invert_mono, 10-35: the function g.  invert_cdf, 38-45, applies it elementwise. *)
  Definition invert_mono (fuel : nat) (y : R) : option R :=
    match while_loop g_cond (g_step y) fuel (x_min, x_max) with                    (* 32 *)
    | None => None
    | Some (x0, x1) => Some (mid x0 x1)                                            (* 33 *)
    end.
End InvertMono.

(** ** _rotate.py *)

(** so_generator, 66-97. *)
Definition so_generator (n i j : Z) : result matrix :=
  if (n <? 2)%Z then Err ValueError                                                (* 89-90 *)
  else if negb ((0 <=? i)%Z && (i <? j)%Z && (j <? n)%Z) then Err ValueError       (* 91-92 *)
  else
    let a := np_full (Z.to_nat n) (Z.to_nat n) 0 in                                (* 94 *)
    do a <- assign a (Z.to_nat i) (Z.to_nat j) (-1);                               (* 95 *)
    assign a (Z.to_nat j) (Z.to_nat i) 1.                                          (* 96 *)

(** skew_symmetrize, 110-125.  Simplification: ValueError for arrays which are not
    square (NumPy would broadcast shapes (1, n) and (n, 1)). *)
Definition skew_symmetrize (a : matrix) : result matrix :=
  let n := length a in
  if negb (has_shape a n n) then Err ValueError
  else Ok (map (fun i => map (fun j => / 2 * (entry a i j - entry a j i)) (seq 0 n)) (seq 0 n)).   (* 125 *)

(** [a * c] and [a @ b], [a @ x] for arrays of compatible shapes. *)
Definition mat_scale (a : matrix) (c : R) : matrix := map (map (fun v => v * c)) a.
Definition dot_product (u v : list R) : R := rsum (map (fun p => fst p * snd p) (combine u v)).
Definition mat_vec (a : matrix) (x : list R) : list R := map (fun row => dot_product row x) a.
Definition mat_col (a : matrix) (j : nat) : list R := map (fun row => nth j row 0) a.
Definition mat_mul (a b : matrix) : matrix :=
  map (fun row => map (fun j => dot_product row (mat_col b j)) (seq 0 (ncols b))) a.

(** [jax.scipy.linalg.expm]. *)
Definition expm_function := matrix -> matrix.

(** Spiral, 25-26: the attributes. *)
Record spiral := { sp_initial : matrix; sp_generator : matrix }.

(** Spiral.__init__, 28-54.  Arrays are two-dimensional here. *)
Definition spiral_init (generator : matrix) (initial : option matrix) (speed : R) : result spiral :=
  let g := mat_scale generator speed in                                            (* 40 *)
  let n := length g in
  if negb (has_shape g n n) then Err ValueError                                    (* 42-43 *)
  else match initial with
       | None => Ok {| sp_initial := np_eye n; sp_generator := g |}                (* 45-46 *)
       | Some m =>
           if negb (has_shape m n n) then Err ValueError                           (* 49-53 *)
           else Ok {| sp_initial := m; sp_generator := g |}                        (* 54 *)
       end.

(** Spiral.__call__, 56-64. *)
Definition spiral_call (expm : expm_function) (s : spiral) (x : list R) : result (list R) :=
  if negb (length x =? length (sp_generator s))%nat then Err TypeError
  else
    let r := dot_product x x in                                                    (* 63 *)
    Ok (mat_vec (mat_mul (sp_initial s) (expm (mat_scale (sp_generator s) r))) x). (* 64 *)

(** ** simple.py *)

(** normal_cdf, 5-6. *)
Definition normal_cdf (erf : R -> R) (x : R) : R := 5 / 10 * (1 + erf (x / Rpower 2 (5 / 10))).

(** half_cube, 9-11. *)
Definition half_cube (x : R) : R := x * sqrt (Rabs x).

(** swissroll2d, 14-26. *)
Definition swissroll2d (x : list R) : result (list R) :=
  do x0 <- py_index x 0;
  let t := 15 / 10 * PI * (1 + 2 * x0) in                                          (* 23 *)
  Ok [t * cos t / 21; t * sin t / 21].                                             (* 26 *)

(** ** benchmark/tasks *)

(** wiggly.py 9-16. *)
Definition wiggly_x (x : R) : R :=
  x + 4 / 10 * sin (1 * x) + 2 / 10 * sin (17 / 10 * x + 1) + 3 / 100 * sin (33 / 10 * x - 25 / 10).
Definition wiggly_y (x : R) : R :=
  x - 4 / 10 * sin (4 / 10 * x) + 17 / 100 * sin (13 / 10 * x + 35 / 10) + 2 / 100 * sin (43 / 10 * x - 25 / 10).

(** [jnp.sign] and [jnp.power(a, alpha)] for [a >= 0]. *)
Definition np_sign (x : R) : R := if Rltb 0 x then 1 else if Rltb x 0 then -1 else 0.
Definition np_power (a alpha : R) : fl :=
  if Reqb a 0 then (if Rltb 0 alpha then Fin 0 else if Reqb alpha 0 then Fin 1 else PInf)
  else Fin (Rpower a alpha).
(** pow, power.py 18-19. *)
Definition signed_power (alpha x : R) : fl := fl_mul (Fin (np_sign x)) (np_power (Rabs x) alpha).

(** asinh.py 17-18: [jnp.arcsinh]. *)
Definition np_arcsinh (x : R) : R := arcsinh x.

(** Sums of arrays of the same shape. *)
Definition mat_add (a b : matrix) : matrix :=
  map (fun rs => map (fun p => fst p + snd p) (combine (fst rs) (snd rs))) (combine a b).
(** [x @ m]. *)
Definition vec_mat (x : list R) (m : matrix) : list R := map (fun j => dot_product x (mat_col m j)) (seq 0 (ncols m)).

(** transform_x and transform_y of rotate.py 21-35. *)
Definition rotate_x (expm : expm_function) (dim_x : Z) (x : list R) : result (list R) :=
  do a <- so_generator dim_x 0 1;
  do b <- so_generator dim_x 1 2;
  do c <- so_generator dim_x 0 2;
  let so_gen := mat_add (mat_add (mat_scale a 2) (mat_scale (mat_scale b 1) (-1)))
                        (mat_scale (mat_scale c 1) (-1)) in                        (* 23-27 *)
  if negb (length x =? length so_gen)%nat then Err TypeError
  else Ok (vec_mat x (expm so_gen)).                                               (* 28-29 *)
Definition rotate_y (expm : expm_function) (dim_y : Z) (x : list R) : result (list R) :=
  do a <- so_generator dim_y 0 1;
  do b <- so_generator dim_y 1 2;
  let so_gen := mat_add (mat_scale a 1) (mat_scale b 2) in                         (* 33 *)
  if negb (length x =? length so_gen)%nat then Err TypeError
  else Ok (vec_mat x (expm so_gen)).                                               (* 34-35 *)

(** Properties C51-C54: inverting functions, rotations, spirals and coordinate transforms. *)
From Coq Require Import Lia Lra.
From Coquelicot Require Import Coquelicot.
From Verif Require Import Base BaseLemmas UtilsModel JaxModel SamplersModel GaussianModel MatrixUtilsModel
  TransformsModel TransformsSpec InvertProofs SimpleTransformProofs ExpmProofs RotateProofs.
Open Scope R_scope.
Local Notation length := List.length.

(** ** C51: invert_mono. *)

(** For every function and rounding of the midpoint the loop keeps a bracket of the target. *)
Theorem C51_bracket :
  forall mid f x_min x_max delta fuel y x, x_min <= x_max ->
  invert_mono mid f x_min x_max delta fuel y = Some x ->
  exists x0 x1, x_min <= x0 <= x1 /\ x1 <= x_max /\ (x0 = x_min \/ f x0 < y) /\ (x1 = x_max \/ y <= f x1) /\
    x = mid x0 x1 /\ (x1 - x0 <= delta \/ x <= x0 \/ x1 <= x).
Proof. exact invert_bracket. Qed.
Print Assumptions C51_bracket.

(** The loop ends: with exact midpoints, and with any midpoints taken from finitely many numbers. *)
Theorem C51_terminates :
  forall f x_min x_max delta y fuel, 0 < delta -> Rabs (x_max - x_min) <= delta * 2 ^ fuel ->
  exists x, invert_mono exact_mid f x_min x_max delta fuel y = Some x /\
    forall fuel', (fuel <= fuel')%nat -> invert_mono exact_mid f x_min x_max delta fuel' y = Some x.
Proof. exact invert_terminates. Qed.
Print Assumptions C51_terminates.

Theorem C51_rounded_terminates :
  forall mid f x_min x_max delta y (floats : list R) fuel, (forall a b, In (mid a b) floats) -> (length floats <= fuel)%nat ->
  exists x, invert_mono mid f x_min x_max delta fuel y = Some x.
Proof. exact invert_rounded. Qed.
Print Assumptions C51_rounded_terminates.

(** The value found is the argument, up to delta / 2. *)
Theorem C51_inverse :
  forall f x_min x_max delta fuel r x, 0 <= delta -> strictly_increasing_on x_min x_max f -> x_min <= r <= x_max ->
  invert_mono exact_mid f x_min x_max delta fuel (f r) = Some x -> Rabs (x - r) <= delta / 2.
Proof. exact invert_close. Qed.
Print Assumptions C51_inverse.

Example C51_inverse_example :
  exists x, invert_mono exact_mid (fun u => u * u * u) 0 4 (/ 4) 4 8 = Some x /\ Rabs (x - 2) <= / 8.
Proof.
  destruct (C51_terminates (fun u => u * u * u) 0 4 (/ 4) 8 4) as (x & E & _); [lra|rewrite Rminus_0_r, Rabs_pos_eq; lra|].
  exists x. split; [exact E|]. replace (/ 8) with (/ 4 / 2) by lra.
  apply (C51_inverse (fun u => u * u * u) 0 4 (/ 4) 4 2 x); [lra| |lra|replace (2 * 2 * 2) with 8 by ring; exact E].
  intros u v Hu Huv Hv. assert (0 < v * v) by nra. assert (u * u <= v * v) by nra.
  assert (u * u * u <= v * v * u) by (apply Rmult_le_compat_r; lra). nra.
Qed.

(** Targets outside of the range give an end of the interval. *)
Theorem C51_below :
  forall f x_min x_max delta fuel y x, 0 <= delta -> x_min <= x_max -> (forall u, x_min <= u <= x_max -> y <= f u) ->
  invert_mono exact_mid f x_min x_max delta fuel y = Some x -> Rabs (x - x_min) <= delta / 2.
Proof. exact invert_below. Qed.
Print Assumptions C51_below.

Theorem C51_above :
  forall f x_min x_max delta fuel y x, 0 <= delta -> x_min <= x_max -> (forall u, x_min <= u <= x_max -> f u < y) ->
  invert_mono exact_mid f x_min x_max delta fuel y = Some x -> Rabs (x - x_max) <= delta / 2.
Proof. exact invert_above. Qed.
Print Assumptions C51_above.

(** The inverse is non-decreasing, whatever the function and the rounding. *)
Theorem C51_monotone :
  forall mid f x_min x_max delta fuel y1 y2 a b, midpoint_between mid -> x_min <= x_max -> y1 <= y2 ->
  invert_mono mid f x_min x_max delta fuel y1 = Some a -> invert_mono mid f x_min x_max delta fuel y2 = Some b -> a <= b.
Proof. exact invert_monotone. Qed.
Print Assumptions C51_monotone.

Example C51_range_example :
  (exists x, invert_mono exact_mid (fun u => u) 0 4 1 2 (-3) = Some x /\ Rabs (x - 0) <= / 2) /\
  (exists x, invert_mono exact_mid (fun u => u) 0 4 1 2 9 = Some x /\ Rabs (x - 4) <= / 2) /\
  midpoint_between exact_mid.
Proof.
  split; [|split].
  - destruct (C51_terminates (fun u => u) 0 4 1 (-3) 2) as (x & E & _); [lra|rewrite Rminus_0_r, Rabs_pos_eq; lra|].
    exists x. split; [exact E|]. replace (/ 2) with (1 / 2) by lra. apply (C51_below (fun u => u) 0 4 1 2 (-3) x); auto; try lra. intros; lra.
  - destruct (C51_terminates (fun u => u) 0 4 1 9 2) as (x & E & _); [lra|rewrite Rminus_0_r, Rabs_pos_eq; lra|].
    exists x. split; [exact E|]. replace (/ 2) with (1 / 2) by lra. apply (C51_above (fun u => u) 0 4 1 2 9 x); auto; try lra. intros; lra.
  - intros a b H. unfold exact_mid. lra.
Qed.

(** The inverse of the normal distribution function. *)
Theorem C51_normal_cdf :
  forall erf x_min x_max delta fuel r x, is_erf erf -> 0 <= delta -> x_min <= r <= x_max ->
  invert_mono exact_mid (normal_cdf erf) x_min x_max delta fuel (normal_cdf erf r) = Some x -> Rabs (x - r) <= delta / 2.
Proof. exact invert_normal_cdf. Qed.
Print Assumptions C51_normal_cdf.

(** ** C52: generators of so(n). *)
Theorem C52_generator :
  forall n i j, (0 <= i < j)%Z -> (j < n)%Z -> exists m, so_generator n i j = Ok m /\ square_array (Z.to_nat n) m /\
    forall k l, (k < Z.to_nat n)%nat -> (l < Z.to_nat n)%nat -> entry m k l = generator_entry (Z.to_nat i) (Z.to_nat j) k l.
Proof. exact generator_ok. Qed.
Print Assumptions C52_generator.

Theorem C52_skew :
  forall n i j m, so_generator n i j = Ok m -> skew_symmetric (Z.to_nat n) m.
Proof. exact generator_is_skew. Qed.
Print Assumptions C52_skew.

Theorem C52_accepted :
  forall n i j, (exists m, so_generator n i j = Ok m) <-> (0 <= i < j)%Z /\ (j < n)%Z.
Proof. exact generator_accepted. Qed.
Print Assumptions C52_accepted.

Theorem C52_rejected :
  forall n i j, ~ ((0 <= i < j)%Z /\ (j < n)%Z) -> so_generator n i j = Err ValueError.
Proof. exact generator_rejected. Qed.
Print Assumptions C52_rejected.

Example C52_generator_example : so_generator 3 0 2 = Ok [[0; 0; -1]; [0; 0; 0]; [1; 0; 0]] /\ so_generator 3 2 1 = Err ValueError.
Proof. split; reflexivity. Qed.

Theorem C52_skew_part :
  forall n a, square_array n a -> exists b, skew_symmetrize a = Ok b /\ square_array n b /\ skew_symmetric n b /\
    forall i j, (i < n)%nat -> (j < n)%nat -> entry b i j = (entry a i j - entry a j i) / 2.
Proof. exact symmetrize_ok. Qed.
Print Assumptions C52_skew_part.

Theorem C52_idempotent :
  forall a b, skew_symmetrize a = Ok b -> skew_symmetrize b = Ok b.
Proof. exact symmetrize_idempotent. Qed.
Print Assumptions C52_idempotent.

Theorem C52_fixed :
  forall n a, square_array n a -> skew_symmetric n a -> skew_symmetrize a = Ok a.
Proof. exact symmetrize_skew. Qed.
Print Assumptions C52_fixed.

Example C52_skew_part_example :
  square_array 2 [[1; 2]; [6; 3]] /\ skew_symmetrize [[1; 2]; [6; 3]] = Ok [[0; -2]; [2; 0]] /\
  skew_symmetrize [[0; -2]; [2; 0]] = Ok [[0; -2]; [2; 0]].
Proof.
  split; [split; repeat constructor|]. split.
  - unfold skew_symmetrize, entry. cbn. repeat f_equal; field.
  - apply (C52_fixed 2); [split; repeat constructor|]. intros i j Hi Hj.
    destruct i as [|[|i]], j as [|[|j]]; try lia; unfold entry; cbn; lra.
Qed.

(** ** C53: spirals and rotations. *)

(** The exponential of every skew-symmetric matrix is orthogonal. *)
Theorem C53_exponential :
  forall expm n m, is_expm expm -> square_array n m -> skew_symmetric n m -> orthogonal n (expm m).
Proof. exact expm_orthogonal. Qed.
Print Assumptions C53_exponential.

Example C53_expm_example : is_expm series_expm.
Proof. exact series_expm_ok. Qed.

(** The formula: initial exp (speed |x|^2 generator) x. *)
Theorem C53_formula :
  forall expm g initial speed s x, is_expm expm -> spiral_init g initial speed = Ok s -> length x = length g ->
  exists q z y, spiral_call expm s x = Ok y /\ is_exponential (length g) (fun i j => speed * norm2 x * entry g i j) q /\
    is_image (length g) q x z /\ match initial with None => y = z | Some m => is_image (length g) m z y end.
Proof. exact spiral_formula. Qed.
Print Assumptions C53_formula.

Theorem C53_shapes :
  forall g initial speed e, spiral_init g initial speed = Err e -> e = ValueError /\
  (~ square_array (length g) g \/ exists m, initial = Some m /\ ~ square_array (length g) m).
Proof. exact init_rejected. Qed.
Print Assumptions C53_shapes.

Theorem C53_accepted :
  forall n g initial speed, square_array n g -> match initial with None => True | Some m => square_array n m end ->
  exists s, spiral_init g initial speed = Ok s.
Proof. exact init_accepted. Qed.
Print Assumptions C53_accepted.

(** Without initial matrix: an orthogonal matrix depending only on the norm, which is kept. *)
Theorem C53_norm :
  forall expm g speed s x, is_expm expm -> skew_symmetric (length g) g -> spiral_init g None speed = Ok s ->
  length x = length g -> exists q y, spiral_call expm s x = Ok y /\ orthogonal (length g) q /\ is_image (length g) q x y /\
    norm2 y = norm2 x /\
    forall x', length x' = length g -> norm2 x' = norm2 x -> exists y', spiral_call expm s x' = Ok y' /\ is_image (length g) q x' y'.
Proof. exact spiral_preserves_norm. Qed.
Print Assumptions C53_norm.

(** With an invertible initial matrix, or none: a bijection. *)
Theorem C53_bijective :
  forall expm g initial speed s, is_expm expm -> skew_symmetric (length g) g -> spiral_init g initial speed = Ok s ->
  match initial with
  | None => True
  | Some m => exists m', square_array (length g) m' /\ inverse_pair (length g) m m' /\ inverse_pair (length g) m' m
  end ->
  forall y, length y = length g -> exists x, length x = length g /\ spiral_call expm s x = Ok y /\
    forall x', length x' = length g -> spiral_call expm s x' = Ok y -> x' = x.
Proof. exact spiral_bijective. Qed.
Print Assumptions C53_bijective.

(** Spirals of the plane. *)
Theorem C53_plane :
  forall expm speed x y, is_expm expm -> exists s, spiral_init [[0; -1]; [1; 0]] None speed = Ok s /\
  let t := speed * (x * x + y * y) in
  spiral_call expm s [x; y] = Ok [x * cos t - y * sin t; x * sin t + y * cos t].
Proof. exact plane_spiral. Qed.
Print Assumptions C53_plane.

(** The example in the documentation of Spiral. *)
Example C53_plane_example :
  exists s, spiral_init [[0; -1]; [1; 0]] None (PI / 2) = Ok s /\ spiral_call series_expm s [1; 0] = Ok [0; 1] /\
  skew_symmetric 2 [[0; -1]; [1; 0]].
Proof.
  destruct (C53_plane series_expm (PI / 2) 1 0 series_expm_ok) as (s & E & C). exists s. split; [exact E|]. split.
  - rewrite C. cbn zeta. replace (PI / 2 * (1 * 1 + 0 * 0)) with (PI / 2) by ring. rewrite cos_PI2, sin_PI2. repeat f_equal; ring.
  - intros i j Hi Hj. destruct i as [|[|i]], j as [|[|j]]; try lia; unfold entry; cbn; lra.
Qed.

(** Generators which are not skew-symmetric are accepted, and give maps which are neither injective nor isometric. *)
Theorem C53_any_generator_refuted :
  forall expm, is_expm expm -> exists g s x x', spiral_init g None 1 = Ok s /\ length x = length g /\ length x' = length g /\
  x <> x' /\ spiral_call expm s x = spiral_call expm s x' /\ exists y, spiral_call expm s x = Ok y /\ norm2 y <> norm2 x.
Proof. exact not_skew_not_injective. Qed.
Print Assumptions C53_any_generator_refuted.

(** The fixed rotations of transform_rotate_task. *)
Theorem C53_rotate_x :
  forall expm dim x, is_expm expm -> (3 <= dim)%Z -> length x = Z.to_nat dim -> exists q y, rotate_x expm dim x = Ok y /\
  is_exponential (Z.to_nat dim) (fun k l => 2 * generator_entry 0 1 k l - generator_entry 1 2 k l - generator_entry 0 2 k l) q /\
  is_row_image (Z.to_nat dim) q x y.
Proof. exact rotate_x_formula. Qed.
Print Assumptions C53_rotate_x.

Theorem C53_rotate_y :
  forall expm dim x, is_expm expm -> (3 <= dim)%Z -> length x = Z.to_nat dim -> exists q y, rotate_y expm dim x = Ok y /\
  is_exponential (Z.to_nat dim) (fun k l => generator_entry 0 1 k l + 2 * generator_entry 1 2 k l) q /\
  is_row_image (Z.to_nat dim) q x y.
Proof. exact rotate_y_formula. Qed.
Print Assumptions C53_rotate_y.

Theorem C53_rotate_isometry :
  forall expm dim f, is_expm expm -> (3 <= dim)%Z -> f = rotate_x expm dim \/ f = rotate_y expm dim ->
  (forall x y, length x = Z.to_nat dim -> f x = Ok y -> length y = Z.to_nat dim /\ norm2 y = norm2 x) /\
  (forall x x' y, length x = Z.to_nat dim -> length x' = Z.to_nat dim -> f x = Ok y -> f x' = Ok y -> x = x') /\
  (forall y, length y = Z.to_nat dim -> exists x, length x = Z.to_nat dim /\ f x = Ok y).
Proof. exact rotate_isometry. Qed.
Print Assumptions C53_rotate_isometry.

Example C53_rotate_example : exists y, rotate_x series_expm 3 [1; 2; 2] = Ok y /\ norm2 y = 9 /\ rotate_x series_expm 2 [1; 2] = Err ValueError.
Proof.
  destruct (C53_rotate_x series_expm 3 [1; 2; 2] series_expm_ok ltac:(lia) eq_refl) as (q & y & E & _). exists y. split; [exact E|]. split; [|reflexivity].
  destruct (C53_rotate_isometry series_expm 3 _ series_expm_ok ltac:(lia) (or_introl eq_refl)) as [H _].
  destruct (H [1; 2; 2] y eq_refl E) as [_ ->]. unfold norm2, sum_below. cbn. ring.
Qed.

(** ** C54: coordinate transforms. *)
Theorem C54_half_cube : strictly_increasing half_cube /\ odd_function half_cube /\ onto half_cube /\ forall w, 0 <= w -> half_cube (w * w) = w ^ 3.
Proof. exact half_cube_spec. Qed.
Print Assumptions C54_half_cube.

Theorem C54_wiggly_x : strictly_increasing wiggly_x /\ onto wiggly_x /\ forall x, is_derive wiggly_x x (1 + 4 / 10 * cos x + 34 / 100 * cos (17 / 10 * x + 1) + 99 / 1000 * cos (33 / 10 * x - 25 / 10)).
Proof. exact wiggly_x_spec. Qed.
Print Assumptions C54_wiggly_x.

Theorem C54_wiggly_y : strictly_increasing wiggly_y /\ onto wiggly_y /\ forall x, is_derive wiggly_y x (1 - 16 / 100 * cos (4 / 10 * x) + 221 / 1000 * cos (13 / 10 * x + 35 / 10) + 86 / 1000 * cos (43 / 10 * x - 25 / 10)).
Proof. exact wiggly_y_spec. Qed.
Print Assumptions C54_wiggly_y.

Theorem C54_arcsinh : strictly_increasing np_arcsinh /\ onto np_arcsinh /\ forall x, sinh (np_arcsinh x) = x.
Proof. exact arcsinh_spec. Qed.
Print Assumptions C54_arcsinh.

Theorem C54_power :
  forall alpha, 0 < alpha -> exists g, (forall x, signed_power alpha x = Fin (g x)) /\
  strictly_increasing g /\ odd_function g /\ onto g /\ forall x, 0 < x -> g x = Rpower x alpha.
Proof. exact power_full_spec. Qed.
Print Assumptions C54_power.

Example C54_power_example : exists g, signed_power 2 (-3) = Fin (g (-3)) /\ g (-3) = - Rpower 3 2.
Proof.
  destruct (C54_power 2 ltac:(lra)) as (g & E & _ & O & _ & P). exists g. split; [apply E|].
  replace (-3) with (- (3)) by ring. rewrite (O 3), P by lra. reflexivity.
Qed.

(** For alpha = 0 the map is not injective and for alpha < 0 it is not defined at 0. *)
Theorem C54_any_power_refuted :
  (exists x y, x <> y /\ signed_power 0 x = signed_power 0 y) /\ forall alpha, alpha < 0 -> signed_power alpha 0 = NaN.
Proof. exact power_not_positive. Qed.
Print Assumptions C54_any_power_refuted.

Theorem C54_swissroll :
  forall u v, - / 2 <= u -> - / 2 <= v -> swissroll2d [u] = swissroll2d [v] -> u = v.
Proof. exact swissroll_injective. Qed.
Print Assumptions C54_swissroll.

Theorem C54_swissroll_radius :
  forall u p q, swissroll2d [u] = Ok [p; q] -> (21 * p) ^ 2 + (21 * q) ^ 2 = (15 / 10 * PI * (1 + 2 * u)) ^ 2.
Proof. exact swissroll_radius. Qed.
Print Assumptions C54_swissroll_radius.

Example C54_swissroll_example : swissroll2d [/ 6] = Ok [2 * PI / 21; 0] /\ swissroll2d [] = Err IndexError.
Proof.
  split; [|reflexivity]. cbn. replace (15 / 10 * PI * (1 + 2 * / 6)) with (2 * PI) by field. rewrite cos_2PI, sin_2PI, Rmult_1_r, Rmult_0_r.
  do 3 f_equal. field.
Qed.

(** The normal distribution function is increasing, stays in (0, 1) and is symmetric. *)
Theorem C54_normal_cdf :
  forall erf, is_erf erf -> strictly_increasing (normal_cdf erf) /\ (forall x, 0 < normal_cdf erf x < 1) /\
  (forall x, normal_cdf erf (- x) = 1 - normal_cdf erf x) /\ normal_cdf erf 0 = / 2.
Proof. exact normal_cdf_spec. Qed.
Print Assumptions C54_normal_cdf.

(** Its derivative is the standard normal density. *)
Theorem C54_normal_density :
  forall erf, is_erf erf -> forall x, is_derive (normal_cdf erf) x (exp (- (x * x / 2)) / sqrt (2 * PI)).
Proof. exact normal_cdf_derive. Qed.
Print Assumptions C54_normal_density.

Example C54_normal_cdf_example : exists erf, is_erf erf.
Proof. exists (fun x => 2 / sqrt PI * RInt (fun t => exp (- (t * t))) 0 x). intros x. reflexivity. Qed.

(** Specification of the samplers of SamplersModel.v, from first principles: the
    mutual information is the integral of the log-density ratio. *)
From Coquelicot Require Import Coquelicot.
From Verif Require Import Base UtilsModel JaxModel SamplersModel.
Open Scope R_scope.

(** What jax.random documents about the draws: lengths and ranges. *)
Record draws_ok (J : prng) (D : draws J) : Prop := {
  ok_uniform_length : forall k n lo hi, List.length (uniform J D k n lo hi) = n;
  ok_uniform_range : forall k n lo hi u, lo <= hi -> In u (uniform J D k n lo hi) -> lo <= u <= hi;
  ok_randints_length : forall k n lo hi, List.length (randints J D k n lo hi) = n;
  ok_randints_range : forall k n lo hi u, (lo < hi)%Z -> In u (randints J D k n lo hi) -> (lo <= u < hi)%Z;
  ok_exponential_length : forall k n, List.length (exponential J D k n) = n;
  ok_exponential_range : forall k n u, In u (exponential J D k n) -> 0 <= u;
  ok_bernoulli_length : forall k p n, List.length (bernoulli J D k p n) = n;
  ok_poisson_length : forall k l, List.length (poisson J D k l) = List.length l;
  ok_poisson_range : forall k l u, In u (poisson J D k l) -> (0 <= u)%Z
}.

(** A paired sample: [n] rows on both sides, of widths [dx] and [dy]. *)
Definition paired_sample (n : nat) (dx dy : Z) (xy : matrix * matrix) : Prop :=
  List.length (fst xy) = n /\ List.length (snd xy) = n /\
  Forall (fun r => zlen r = dx) (fst xy) /\ Forall (fun r => zlen r = dy) (snd xy).

(** The two readable dimensions are positive and every sample which is drawn has them. *)
Definition well_dimensioned {J} (s : sampler J) : Prop :=
  exists dx dy, dim_x s = Ok dx /\ dim_y s = Ok dy /\ (1 <= dx)%Z /\ (1 <= dy)%Z /\
    forall n rng xy, sample s n rng = Ok xy -> paired_sample n dx dy xy.

(** ** X uniform on (0, 1) and Y = X + N, N uniform on [-eps, eps]. *)

(** Density of Y at [y] given X = [x]. *)
Definition noise_density (eps x y : R) : R :=
  if Rle_dec (Rabs (y - x)) eps then / (2 * eps) else 0.

(** Density of Y: X has density 1 on (0, 1). *)
Definition noisy_density (eps y : R) : R := RInt (fun x => noise_density eps x y) 0 1.

(** I(X; Y) = E_X [ KL(p(y|x) || p(y)) ], the inner integral running over the support of
    the conditional density. *)
Definition is_additive_mi (eps mi : R) : Prop :=
  exists kl, (forall x, 0 < x < 1 ->
      is_RInt (fun y => noise_density eps x y * ln (noise_density eps x y / noisy_density eps y)) (x - eps) (x + eps) (kl x)) /\
    is_RInt kl 0 1 mi.

(** ** X uniform on {0, ..., m - 1} and Y uniform on [X, X + 2]. *)

Definition step_density (x : nat) (y : R) : R :=
  if Rle_dec (INR x) y then if Rle_dec y (INR x + 2) then 1 / 2 else 0 else 0.

Definition mixture_density (m : nat) (y : R) : R :=
  rmean (map (fun x => step_density x y) (seq 0 m)).

Definition is_mixture_mi (m : nat) (mi : R) : Prop :=
  exists kls, List.length kls = m /\
    (forall x, (x < m)%nat ->
      is_RInt (fun y => step_density x y * ln (step_density x y / mixture_density m y)) (INR x) (INR x + 2) (nth x kls 0)) /\
    mi = rmean kls.

(** ** X exponential with rate 1 and Y equal to 0 with probability [p] and otherwise
    Poisson with mean X. *)

Definition zip_pmf (p x : R) (k : nat) : R :=
  (if (k =? 0)%nat then p else 0) + (1 - p) * (exp (- x) * x ^ k / INR (fact k)).

(** Integral over the half-line. *)
Definition is_half_line_integral (f : R -> R) (l : R) : Prop :=
  exists F, (forall b, 0 <= b -> is_RInt f 0 b (F b)) /\
    forall e, 0 < e -> exists B, forall b, B <= b -> Rabs (F b - l) < e.

Definition is_zip_marginal (p : R) (q : nat -> R) : Prop :=
  forall k, is_half_line_integral (fun x => exp (- x) * zip_pmf p x k) (q k).

Definition is_zip_mi (p mi : R) : Prop :=
  exists q term, is_zip_marginal p q /\
    (forall k, is_half_line_integral (fun x => exp (- x) * (zip_pmf p x k * ln (zip_pmf p x k / q k))) (term k)) /\
    infinite_sum term mi.

(** ** Composite samplers *)

(** An int seed means the key of that seed. *)
Definition respects_seeds {J} (s : sampler J) : Prop :=
  forall n k, sample s n (SeedInt k) = sample s n (SeedKey (prng_key J k)).

(** The columns [offset, offset + width) of a matrix. *)
Definition columns (offset width : Z) (m : matrix) : matrix :=
  map (fun row => firstn (Z.to_nat width) (skipn (Z.to_nat offset) row)) m.

Definition zsum (l : list Z) : Z := fold_right Z.add 0%Z l.

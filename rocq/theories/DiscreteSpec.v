(** Vocabulary of the statements about the mixture with a binary Y. *)
From Verif Require Import Base UtilsModel JaxModel SamplersModel BmmModel.
Open Scope R_scope.
Local Notation length := List.length.

(** The density of the Student distribution in the plane with dispersion [s] times the
    identity and of the normal one with variance [v] and correlation [rho]. *)
Definition student_plane (df s m1 m2 x1 x2 : R) : R :=
  / (2 * PI * s) * Rpower (1 + ((x1 - m1) ^ 2 + (x2 - m2) ^ 2) / (df * s)) (- ((2 + df) / 2)).
Definition normal_plane (v rho x1 x2 : R) : R :=
  / (2 * PI * v * sqrt (1 - rho ^ 2)) * exp (- ((x1 ^ 2 - 2 * rho * x1 * x2 + x2 ^ 2) / (2 * v * (1 - rho ^ 2)))).
(** The three clouds. *)
Definition cloud (k : nat) (x1 x2 : R) : R :=
  match k with
  | O => student_plane 8 (2 / 10) (-1) (-1) x1 x2
  | S O => normal_plane (1 / 10) (95 / 100) x1 x2
  | _ => student_plane 5 (2 / 10) 1 1 x1 x2
  end.
Definition cloud_weight (k : nat) : R := match k with S O => 1 / 2 | _ => 1 / 4 end.
(** The probability of [b] in a cloud. *)
Definition answer (k : nat) (b : bool) : R :=
  let p := match k with O => 95 / 100 | S O => 1 / 2 | _ => 5 / 100 end in if b then p else 1 - p.
Definition sum3 (f : nat -> R) : R := f 0%nat + f 1%nat + f 2%nat.
Definition bit (b : bool) : R := if b then 1 else 0.

(** The densities of the mixture, and the pointwise mutual information of a point and a bit
    (each bit has probability 1/2). *)
Definition points_density (x1 x2 : R) : R := sum3 (fun k => cloud_weight k * cloud k x1 x2).
Definition labelled_density (x1 x2 : R) (b : bool) : R := sum3 (fun k => cloud_weight k * (cloud k x1 x2 * answer k b)).
Definition discrete_pmi (x1 x2 : R) (b : bool) : R := ln (labelled_density x1 x2 b / (points_density x1 x2 * (1 / 2))).

(** The logarithm of the gamma function. *)
Definition gamma_step (log_gamma : R -> R) : Prop := forall z, 0 < z -> log_gamma (z + 1) = ln z + log_gamma z.

(** [cholesky] factorises [[a, b], [b, c]]. *)
Definition factor_plane (cholesky : matrix -> option matrix) (a b c : R) : Prop :=
  exists l11 l21 l22, cholesky [[a; b]; [b; c]] = Some [[l11; 0]; [l21; l22]] /\ 0 < l11 /\ 0 < l22 /\
    l11 * l11 = a /\ l11 * l21 = b /\ l21 * l21 + l22 * l22 = c.

(** Values found in the profile: those between ln 0.1 and ln 1.9. *)
Definition profile_bounds (v : R) : Prop := ln (1 / 10) < v < ln (19 / 10).

(** Rows of two numbers and a bit. *)
Definition labelled_rows (n : nat) (rows : matrix) : Prop :=
  length rows = n /\ Forall (fun r => exists x1 x2 b, r = [x1; x2; bit b]) rows.

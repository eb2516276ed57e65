(** What is assumed about the logarithm of the gamma function and its derivative. *)
From Coq Require Import Reals.
Open Scope R_scope.

(** The two recurrences, and the logarithm of the gamma function is above its tangents, whose slope is the digamma function. *)
Record gamma_functions (psi log_gamma : R -> R) : Prop := {
  gf_gamma : forall x, 0 < x -> log_gamma (x + 1) = log_gamma x + ln x;
  gf_psi : forall x, 0 < x -> psi (x + 1) = psi x + 1 / x;
  gf_tangent : forall x y, 0 < x -> 0 < y -> log_gamma x + psi x * (y - x) <= log_gamma y
}.

(** Specification of the mixtures built from draws of the posterior. *)
From Verif Require Import Base UtilsModel JaxModel SamplersModel GaussianModel BmmModel MultivariateModel GmmModel.
From mathcomp Require Import all_ssreflect ssralg matrix mxalgebra.
From Verif Require Import RStruct PosDef MatrixBridge GaussianSpec MultivariateSpec.
Set Implicit Arguments.
Unset Strict Implicit.
Unset Printing Implicit Defensive.
Import GRing.Theory.
Local Open Scope ring_scope.

(** The scaled factor diag(tau) L + jitter I, and the covariance it is a factor of. *)
Definition scaled_factor n (jitter : R) (tau : list R) (L : UtilsModel.matrix) : 'M[R]_n :=
  diag_mx (to_cv n tau)^T *m to_mx n n L + jitter%:M.
Definition factored n (jitter : R) (tau : list R) (L : UtilsModel.matrix) : 'M[R]_n :=
  scaled_factor n jitter tau L *m (scaled_factor n jitter tau L)^T.

(** Values which the priors can produce: mixing proportions in the simplex, positive or
    zero scales, and lower triangular factors with positive diagonal. *)
Record proper_latent (K n : nat) (l : latent) : Prop := {
  prop_pi : List.length (lt_pi l) = K /\ List.Forall (Rle 0) (lt_pi l) /\ rsum (lt_pi l) = IZR 1;
  prop_mu : has_shape (lt_mu l) K n;
  prop_tau : has_shape (lt_tau l) K n /\ List.Forall (List.Forall (Rle 0)) (lt_tau l);
  prop_l_omega : List.length (lt_l_omega l) = K /\
    List.Forall (fun L => has_shape L n n /\ is_trig_mx (to_mx n n L) /\ forall i, Rlt 0 (to_mx n n L i i)) (lt_l_omega l)
}.

(** The normal density. *)
Definition normal_density_at n (mu : 'cV[R]_n) (S : 'M[R]_n) (z : 'cV[R]_n) : R := exp (normal_log_density mu S z).

(** The density of a mixture of [K] components with weights [p], normalised. *)
Definition mixture_of (K : nat) (p : nat -> R) (f : nat -> R) : R :=
  Rdiv (rsum (List.map (fun k => Rmult (p k) (f k)) (List.seq 0 K))) (rsum (List.map p (List.seq 0 K))).

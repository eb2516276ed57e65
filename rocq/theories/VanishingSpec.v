(** Vocabulary of the statements about appearing and vanishing mutual information. *)
From Coq Require Import String Reals.
From Coquelicot Require Import Coquelicot.
From Verif Require Import Base UtilsModel.
Open Scope R_scope.

(** The uniform distribution on the open unit square with lower left corner [(a, b)]. *)
Definition unit_square (a b : R) (x y : R) : R :=
  if Rlt_dec a x then if Rlt_dec x (a + 1) then if Rlt_dec b y then if Rlt_dec y (b + 1) then 1 else 0 else 0 else 0 else 0.
(** Equal mixture of two densities. *)
Definition half_half (p q : R -> R -> R) (x y : R) : R := (p x y + q x y) / 2.

Definition bottom_left : R -> R -> R := unit_square 0 0.
Definition top_right : R -> R -> R := unit_square 1 1.
Definition diagonal_mixture : R -> R -> R := half_half bottom_left top_right.
Definition other_mixture : R -> R -> R := half_half (unit_square 0 1) (unit_square 1 0).
Definition all_mixture : R -> R -> R := half_half diagonal_mixture other_mixture.

(** [p] is a probability density on the square from 0 to 2, and its mutual information (in nats) is [I]. *)
Record mutual_information (p : R -> R -> R) (I : R) : Prop := {
  mi_nonneg : forall x y, 0 <= p x y;
  mi_integrals : exists px py inner,
    (forall x, is_RInt (fun y => p x y) 0 2 (px x)) /\ (forall y, is_RInt (fun x => p x y) 0 2 (py y)) /\
    is_RInt px 0 2 1 /\ is_RInt py 0 2 1 /\
    (forall x, is_RInt (fun y => if Req_EM_T (p x y) 0 then 0 else p x y * ln (p x y / (px x * py y))) 0 2 (inner x)) /\
    is_RInt inner 0 2 I
}.
(** The number in a title. *)
Definition title_value (t : string) (v : R) : Prop := (t = "$I=0$"%string /\ v = 0) \/ (t = "$I=\log 2$"%string /\ v = ln 2).
(** [a] shows [p] at the 50 positions [2 i / 49] of both axes: rows are those of Y. *)
Definition shows (a : matrix) (p : R -> R -> R) : Prop :=
  List.length a = 50%nat /\ forall j, (j < 50)%nat -> List.length (nth j a []) = 50%nat /\
    forall i, (i < 50)%nat -> nth i (nth j a []) 0 = p (INR i * (2 / 49)) (INR j * (2 / 49)).

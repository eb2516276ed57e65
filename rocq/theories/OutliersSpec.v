(** Vocabulary of the statements about contaminated distributions. *)
From Verif Require Import Base UtilsModel JaxModel SamplersModel BmmModel BmmSpec DiscreteSpec.
Open Scope R_scope.
Local Notation length := List.length.

(** A joint distribution with these densities of (X, Y), X and Y, on vectors of its dimensions. *)
Record densities {J} (d : joint_distribution J) (p : list R -> list R -> R) (px py : list R -> R) : Prop := {
  den_joint : forall x y, length x = jd_dim_x d -> length y = jd_dim_y d -> has_density (dist_joint d) (x ++ y)%list (p x y);
  den_x : forall x, length x = jd_dim_x d -> has_density (dist_x d) x (px x);
  den_y : forall y, length y = jd_dim_y d -> has_density (dist_y d) y (py y)
}.

(** A fraction [a] of the points has the same X, but an independent Y of density [q]. *)
Definition contaminated (a : R) (p : list R -> list R -> R) (px q : list R -> R) (x y : list R) : R :=
  (1 - a) * p x y + a * (px x * q y).
Definition contaminated_y (a : R) (py q : list R -> R) (y : list R) : R := (1 - a) * py y + a * q y.
(** Pointwise mutual information of given densities. *)
Definition information (pxy px py : R) : R := ln (pxy / (px * py)).

(** The correlation matrix of the signal: a = 1/501 within X and within Y, b = 400/501 between
    a coordinate of X and that of Y. *)
Definition signal_correlation : matrix :=
  [[1; 1 / 501; 400 / 501; 0]; [1 / 501; 1; 0; 400 / 501]; [400 / 501; 0; 1; 1 / 501]; [0; 400 / 501; 1 / 501; 1]].
(** The density of the normal variable with mean 0 and variance [v]. *)
Definition normal_line (v t : R) : R := / sqrt (2 * PI * v) * exp (- (t ^ 2 / (2 * v))).
(** The density of the signal: its four principal components are independent, with variances
    1 + a + b, 1 + a - b, 1 - a + b and 1 - a - b. *)
Definition signal_density (x y : list R) : R :=
  match x, y with
  | [x1; x2], [y1; y2] => normal_line (902 / 501) ((x1 + x2 + y1 + y2) / 2) * normal_line (102 / 501) ((x1 + x2 - y1 - y2) / 2)
      * (normal_line (900 / 501) ((x1 - x2 + y1 - y2) / 2) * normal_line (100 / 501) ((x1 - x2 - y1 + y2) / 2))
  | _, _ => 1
  end.
(** A density in the plane (the variables have variance [v] and correlation [rho]). *)
Definition plane (v rho : R) (z : list R) : R := match z with [z1; z2] => normal_plane v rho z1 z2 | _ => 1 end.

Definition signal_y : list R -> R := plane 1 (1 / 501).
Definition signal_information : R := 1 / 2 * ln (1575025 / 207009).
(** The signal, with a fraction [a] of noise of variance [v]. *)
Definition contaminated_signal {J} (d : joint_distribution J) (a v : R) : Prop :=
  jd_dim_x d = 2%nat /\ jd_dim_y d = 2%nat /\ analytic_mi d = None /\
  densities d (contaminated a signal_density signal_y (plane v 0)) signal_y (contaminated_y a signal_y (plane v 0)).
(** Its points are drawn from the mixture of the signal and the noise in this proportion. *)
Definition mixed_draws {J} (T : tfp_draws J) (d : joint_distribution J) (a v : R) : Prop := exists signal noise,
  draw (dist_joint d) = mixture_draw T [1 - a; a] [signal; noise] /\
  (forall x y, length x = 2%nat -> length y = 2%nat -> has_density signal (x ++ y)%list (signal_density x y)) /\
  (forall x y, length x = 2%nat -> length y = 2%nat -> has_density noise (x ++ y)%list (signal_y x * plane v 0 y)).

(** An integral over pairs of vectors: linear and monotone. *)
Record integral (I : (list R -> list R -> R) -> R) : Prop := {
  int_scale : forall c f, I (fun x y => c * f x y) = c * I f;
  int_mono : forall f g, (forall x y, f x y <= g x y) -> I f <= I g
}.

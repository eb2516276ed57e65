(** Vocabulary of the statements about the distributions of the mixtures paper. *)
From Verif Require Import Base UtilsModel JaxModel SamplersModel BmmModel BmmSpec.
Open Scope R_scope.

(** The normal density with mean [m] and variance [v]. *)
Definition gauss (m v x : R) : R := exp (- ((x - m) ^ 2 / (2 * v))) / sqrt (2 * PI * v).

(** A part of a mixture: its proportion, the means of X and Y and their variances; within it X and Y
    are independent. *)
Record ball := { weight : R; mean_x : R; mean_y : R; var_x : R; var_y : R }.
Definition total (balls : list ball) (f : ball -> R) : R := rsum (map (fun b => weight b * f b) balls).
Definition ball_x (x : R) (b : ball) : R := gauss (mean_x b) (var_x b) x.
Definition ball_y (y : R) (b : ball) : R := gauss (mean_y b) (var_y b) y.

(** The mixture of these. *)
Record ball_mixture {J} (d : joint_distribution J) (balls : list ball) : Prop := {
  bx_dim_x : jd_dim_x d = 1%nat;
  bx_dim_y : jd_dim_y d = 1%nat;
  bx_joint : forall x y, has_density (dist_joint d) [x; y] (total balls (fun b => ball_x x b * ball_y y b));
  bx_x : forall x, has_density (dist_x d) [x] (total balls (ball_x x));
  bx_y : forall y, has_density (dist_y d) [y] (total balls (ball_y y))
}.

Definition four_balls_parts : list ball :=
  [{| weight := 3 / 10; mean_x := -5 / 4; mean_y := -5 / 4; var_x := 1; var_y := 1 |};
   {| weight := 3 / 10; mean_x := 5 / 4; mean_y := 5 / 4; var_x := 1; var_y := 1 |};
   {| weight := 1 / 5; mean_x := -5 / 2; mean_y := 5 / 2; var_x := 1 / 5; var_y := 1 / 5 |};
   {| weight := 1 / 5; mean_x := 5 / 2; mean_y := -5 / 2; var_x := 1 / 5; var_y := 1 / 5 |}].
Definition u_shape_parts : list ball :=
  [{| weight := 1 / 3; mean_x := -3; mean_y := 0; var_x := 1 / 5; var_y := 1 |};
   {| weight := 1 / 3; mean_x := 0; mean_y := -3; var_x := 1; var_y := 1 / 5 |};
   {| weight := 1 / 3; mean_x := 3; mean_y := 0; var_x := 1 / 5; var_y := 1 |}].
Definition corners_parts : list ball :=
  [{| weight := 1 / 4; mean_x := -1; mean_y := 1; var_x := 1 / 2; var_y := 1 / 2 |};
   {| weight := 1 / 4; mean_x := 1; mean_y := 1; var_x := 1 / 2; var_y := 1 / 2 |};
   {| weight := 1 / 4; mean_x := 1; mean_y := -1; var_x := 1 / 2; var_y := 1 / 2 |};
   {| weight := 1 / 4; mean_x := -1; mean_y := -1; var_x := 1 / 2; var_y := 1 / 2 |}].

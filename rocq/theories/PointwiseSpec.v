(** What the figure of the pointwise mutual information should show. *)
From Coq Require Import String.
From Verif Require Import Base UtilsModel JaxModel SamplersModel GaussianModel MatrixUtilsModel MatrixUtilsSpec BenchmarkModel TasksModel BasicSpec RulesModel PointwiseModel.
Open Scope R_scope.
Local Notation length := List.length.

(** Densities of centred normal variables: one with the variance [v] and two with the covariance
    ((a, b), (b, d)). *)
Definition normal1 (v x : R) : R := / sqrt (2 * PI * v) * exp (- (x ^ 2 / (2 * v))).
Definition distance2 (a b d x y : R) : R := (d * x ^ 2 - 2 * b * x * y + a * y ^ 2) / (a * d - b ^ 2).
Definition normal2 (a b d x y : R) : R := / (2 * PI * sqrt (a * d - b ^ 2)) * exp (- (distance2 a b d x y / 2)).
(** Densities of Student variables; [lg] is the logarithm of the gamma function. *)
Definition student1 (lg : R -> R) (nu v x : R) : R :=
  exp (lg ((nu + 1) / 2) - lg (nu / 2)) / sqrt (nu * PI * v) * Rpower (1 + x ^ 2 / v / nu) (- ((nu + 1) / 2)).
Definition student2 (lg : R -> R) (nu a b d x y : R) : R :=
  exp (lg ((nu + 2) / 2) - lg (nu / 2)) / (nu * PI * sqrt (a * d - b ^ 2)) *
  Rpower (1 + distance2 a b d x y / nu) (- ((nu + 2) / 2)).

(** The pointwise mutual information of normal variables with the correlation [c], and of Student ones. *)
Definition normal_pmi (c x y : R) : R :=
  - (1 / 2) * ln (1 - c ^ 2) - (c ^ 2 * x ^ 2 - 2 * c * x * y + c ^ 2 * y ^ 2) / (2 * (1 - c ^ 2)).
Definition student_pmi (lg : R -> R) (nu c x y : R) : R :=
  lg ((nu + 2) / 2) + lg (nu / 2) - 2 * lg ((nu + 1) / 2) - 1 / 2 * ln (1 - c ^ 2)
  - (nu + 2) / 2 * ln (1 + (x ^ 2 - 2 * c * x * y + y ^ 2) / (1 - c ^ 2) / nu)
  + (nu + 1) / 2 * (ln (1 + x ^ 2 / nu) + ln (1 + y ^ 2 / nu)).

(** The pixel [i] out of [n] between [first] and [last] contains [v]. *)
Definition pixel (first last : R) (n i : nat) (v : R) : Prop :=
  first + INR i * ((last - first) / INR n) <= v <= first + INR (S i) * ((last - first) / INR n).
(** The picture has 71 x 71 pixels; each is the value of [f] at a point (-5 + j/7, -5 + i/7), which lies in that pixel
    (the first row of a picture is at the top). *)
Definition depicts (rows : list (list R)) (extent : R * R * (R * R)) (f : R -> R -> R) : Prop :=
  length rows = 71%nat /\ Forall (fun row => length row = 71%nat) rows /\
  forall i j, (i < 71)%nat -> (j < 71)%nat -> let x := -5 + INR j / 7 in let y := -5 + INR i / 7 in
    nth j (nth i rows []) 0 = f x y /\
    pixel (fst (fst extent)) (snd (fst extent)) 71 j x /\ pixel (snd (snd extent)) (fst (snd extent)) 71 i y.

(** A column of panels: the title, the first thousand points and the two pictures. *)
Definition column_of (infonce : matrix -> matrix -> result (fl * (list R -> list R -> R))) (rows : matrix) (title : string)
    (pmi : R -> R -> R) (c : column) : Prop :=
  c_title c = title /\ c_points c = cut 1 (firstn 1000 rows) /\ depicts (c_true c) (c_extent c) pmi /\
  exists e critic, infonce (map (firstn 1) rows) (map (skipn 1) rows) = Ok (e, critic) /\
    depicts (c_critic c) (c_extent c) (fun x y => critic [x] [y]).

(** Letters which differ in case only. *)
Definition capitals : string := "ABCDEFGHIJKLMNOPQRSTUVWXYZ".
Definition smalls : string := "abcdefghijklmnopqrstuvwxyz".

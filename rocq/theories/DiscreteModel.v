(** Model of [workflows/projects/Mixtures/figure_discrete_continuous.smk]: a mixture with a
    continuous X in the plane and a binary Y, and what the figure draws of it. *)
From Coq Require Import String.
From Verif Require Import Base UtilsModel JaxModel SamplersModel GaussianModel MatrixUtilsModel BmmModel MultivariateModel BenchmarkModel
  TasksModel MixturesModel PaperModel.
Open Scope R_scope.
Local Notation length := List.length.

(** [tf.math.multiply_no_nan]: [x * y], zero if [y] is. *)
Definition multiply_no_nan (x : fl) (y : R) : fl :=
  if Reqb y 0 then Fin 0
  else match x with
       | Fin r => Fin (r * y)
       | PInf => if Rltb 0 y then PInf else NInf
       | NInf => if Rltb 0 y then NInf else PInf
       | NaN => NaN
       end.
(** The log-probability of [tfd.Bernoulli(probs=p)] at [v]. *)
Definition bernoulli_log_prob (p v : R) : fl :=
  fl_add (multiply_no_nan (log_fl (1 - p)) (1 - v)) (multiply_no_nan (log_fl p) v).

Section Discrete.
  Context {J : prng}.
  Variable T : tfp_draws J.
  Variable cholesky : matrix -> option matrix.
  Variable normal_draw : list R -> option matrix -> key J -> nat -> matrix.
  Variable student_draw : fl -> list R -> option matrix -> key J -> nat -> matrix.
  Variable bernoulli_draw : R -> key J -> nat -> matrix.
  Variable log_gamma : R -> R.

  (** construct_bernoulli, 25-32: one coordinate; [Independent] adds its log-probabilities. *)
  Definition construct_bernoulli (p : R) : tfd J :=
    {| event_shape := [1%nat];
       log_prob := fun y => fl_sum (map (bernoulli_log_prob p) y);
       draw := bernoulli_draw p |}.

  (** define_distribution, 35-67. *)
  Definition define_distribution : result (joint_distribution J) :=
    let student := construct_student cholesky student_draw log_gamma in
    let x1 := student [-1; -1] (scaled (2 / 10) (np_eye 2)) (Fin 8) in           (* 38-42 *)
    do c <- canonical_correlation [95 / 100] 0;
    let x2 := construct_normal cholesky normal_draw [0; 0] (scaled (1 / 10) c) in   (* 43-46 *)
    let x3 := student [1; 1] (scaled (2 / 10) (np_eye 2)) (Fin 5) in             (* 47-51 *)
    let y1 := construct_bernoulli (95 / 100) in                                  (* 54 *)
    let y2 := construct_bernoulli (5 / 10) in                                    (* 55 *)
    let y3 := construct_bernoulli (5 / 100) in                                   (* 56 *)
    do components <- map_results (fun xy => product_distribution T (fst xy) (snd xy))
                                 (combine [x1; x2; x3] [y1; y2; y3]);            (* 59-62 *)
    let connect_prob := 5 / 10 in                                                (* 63 *)
    let bulk_prob := 5 / 10 * (1 - connect_prob) in                              (* 64 *)
    mixture T [bulk_prob; connect_prob; bulk_prob] components.                   (* 65 *)

  (** estimate_mi, 75-81; [key] is [PRNGKey(121)]. *)
  Definition estimate_mi (k : key J) : result (fl * fl) :=
    do d <- define_distribution; monte_carlo_mi_estimate k d 1000000.
  (** sample_joint, 83-88. *)
  Definition sample_joint (k : key J) : result (matrix * matrix) :=
    do d <- define_distribution; jd_sample d 1000 k.
  (** sample_pmi, 90-95. *)
  Definition sample_pmi (k : key J) : result (list fl) :=
    do d <- define_distribution; pmi_profile k d 1000000.
End Discrete.

(** plot_figure: the colours of the points, 112: [ys.ravel()] lists all entries. *)
Definition point_colors (ys : matrix) : list string := map (fun y => if Rltb y (5 / 10) then "blue"%string else "orange"%string) (concat ys).
(** The range of the profile which is shown, 120. *)
Definition shown_range : R * R := (-3, 1).

(** Vocabulary of the statements about the configurations of the workflows. *)
From Coq Require Import String.
From Verif Require Import Base UtilsModel JaxModel SamplersModel BenchmarkModel BenchmarkSpec TasksModel TasksSpec.
Open Scope Z_scope.
Local Notation length := List.length.

(** How the other floats of the configurations are printed. *)
Definition more_floats (F : formats) : Prop :=
  python_floats F /\ float_repr F (9 / 10) = "0.9"%string /\ float_repr F (2 / 10) = "0.2"%string /\
  float_repr F 3 = "3.0"%string /\ float_repr F 5 = "5.0"%string.

Definition percents (percent : R -> string) : Prop := percent (2 / 10)%R = "20%"%string /\ percent (5 / 10)%R = "50%"%string.

(** The catalogues: identifier, name, dimension of X and dimension of Y of each task. *)
Definition entry := (string * string * Z * Z)%type.
Definition entry_id (e : entry) : string := fst (fst (fst e)).
Definition entry_name (e : entry) : string := snd (fst (fst e)).

Definition demo_catalogue : list entry :=
  [("swissroll_x-normal_cdf-1v1-normal-0.75", "Swiss roll 2 × 1", 2, 1);
   ("multinormal-dense-3-3-0.5", "Multinormal 3 × 3 (dense)", 3, 3)]%string.
Definition v1_catalogue : list entry :=
  [("1v1-normal-0.75", "Bivariate normal 1 × 1", 1, 1);
   ("normal_cdf-1v1-normal-0.75", "Normal CDF @ Bivariate normal 1 × 1", 1, 1);
   ("1v1-additive-0.75", "Uniform 1 × 1 (additive noise=0.75)", 1, 1);
   ("1v1-bimodal-0.75", "Bimodal 1 × 1", 1, 1);
   ("wiggly-1v1-normal-0.75", "Wiggly @ Bivariate normal 1 × 1", 1, 1);
   ("half_cube-1v1-normal-0.75", "Half-cube @ Bivariate normal 1 × 1", 1, 1);
   ("student-identity-1-1-1", "Student-t 1 × 1 (dof=1)", 1, 1);
   ("asinh-student-identity-1-1-1", "Asinh @ Student-t 1 × 1 (dof=1)", 1, 1);
   ("swissroll_x-normal_cdf-1v1-normal-0.75", "Swiss roll 2 × 1", 2, 1);
   ("multinormal-dense-2-2-0.5", "Multinormal 2 × 2 (dense)", 2, 2);
   ("multinormal-dense-3-3-0.5", "Multinormal 3 × 3 (dense)", 3, 3);
   ("multinormal-dense-5-5-0.5", "Multinormal 5 × 5 (dense)", 5, 5);
   ("multinormal-dense-25-25-0.5", "Multinormal 25 × 25 (dense)", 25, 25);
   ("multinormal-dense-50-50-0.5", "Multinormal 50 × 50 (dense)", 50, 50);
   ("multinormal-sparse-2-2-2-2.0", "Multinormal 2 × 2 (2-pair)", 2, 2);
   ("multinormal-sparse-3-3-2-2.0", "Multinormal 3 × 3 (2-pair)", 3, 3);
   ("multinormal-sparse-5-5-2-2.0", "Multinormal 5 × 5 (2-pair)", 5, 5);
   ("multinormal-sparse-25-25-2-2.0", "Multinormal 25 × 25 (2-pair)", 25, 25);
   ("student-identity-2-2-1", "Student-t 2 × 2 (dof=1)", 2, 2);
   ("student-identity-2-2-2", "Student-t 2 × 2 (dof=2)", 2, 2);
   ("student-identity-3-3-2", "Student-t 3 × 3 (dof=2)", 3, 3);
   ("student-identity-3-3-3", "Student-t 3 × 3 (dof=3)", 3, 3);
   ("student-identity-5-5-2", "Student-t 5 × 5 (dof=2)", 5, 5);
   ("student-identity-5-5-3", "Student-t 5 × 5 (dof=3)", 5, 5);
   ("normal_cdf-multinormal-sparse-3-3-2-2.0", "Normal CDF @ Multinormal 3 × 3 (2-pair)", 3, 3);
   ("normal_cdf-multinormal-sparse-5-5-2-2.0", "Normal CDF @ Multinormal 5 × 5 (2-pair)", 5, 5);
   ("normal_cdf-multinormal-sparse-25-25-2-2.0", "Normal CDF @ Multinormal 25 × 25 (2-pair)", 25, 25);
   ("half_cube-multinormal-sparse-3-3-2-2.0", "Half-cube @ Multinormal 3 × 3 (2-pair)", 3, 3);
   ("half_cube-multinormal-sparse-5-5-2-2.0", "Half-cube @ Multinormal 5 × 5 (2-pair)", 5, 5);
   ("half_cube-multinormal-sparse-25-25-2-2.0", "Half-cube @ Multinormal 25 × 25 (2-pair)", 25, 25);
   ("spiral-multinormal-sparse-3-3-2-2.0", "Spiral @ Multinormal 3 × 3 (2-pair)", 3, 3);
   ("spiral-multinormal-sparse-5-5-2-2.0", "Spiral @ Multinormal 5 × 5 (2-pair)", 5, 5);
   ("spiral-multinormal-sparse-25-25-2-2.0", "Spiral @ Multinormal 25 × 25 (2-pair)", 25, 25);
   ("spiral-normal_cdf-multinormal-sparse-3-3-2-2.0", "Spiral @ Normal CDF @ Multinormal 3 × 3 (2-pair)", 3, 3);
   ("spiral-normal_cdf-multinormal-sparse-5-5-2-2.0", "Spiral @ Normal CDF @ Multinormal 5 × 5 (2-pair)", 5, 5);
   ("spiral-normal_cdf-multinormal-sparse-25-25-2-2.0", "Spiral @ Normal CDF @ Multinormal 25 × 25 (2-pair)", 25, 25);
   ("asinh-student-identity-2-2-1", "Asinh @ Student-t 2 × 2 (dof=1)", 2, 2);
   ("asinh-student-identity-3-3-2", "Asinh @ Student-t 3 × 3 (dof=2)", 3, 3);
   ("asinh-student-identity-5-5-2", "Asinh @ Student-t 5 × 5 (dof=2)", 5, 5)]%string.
Definition v2_catalogue : list entry :=
  [("1v1-additive-0.75", "Uniform 1 × 1 (additive noise=0.75)", 1, 1);
   ("asinh-student-identity-1-1-1", "Asinh @ Student-t 1 × 1 (dof=1)", 1, 1);
   ("1v1-X-0.9", "X 1 × 1", 1, 1);
   ("1v1-AI", "AI 1 × 1", 1, 1);
   ("swissroll_x-normal_cdf-1v1-normal-0.75", "Swiss roll 2 × 1", 2, 1);
   ("2v1-waves-12-5.0-3.0", "Waves 2 × 1", 2, 1);
   ("2v1-galaxy-0.5-3.0", "Galaxy 2 × 1", 2, 1);
   ("3v1-concentric_gaussians-5", "Concentric 3 × 1", 3, 1);
   ("5v1-concentric_gaussians-5", "Concentric 5 × 1", 5, 1);
   ("3v1-concentric_gaussians-10", "Concentric 3 × 1", 3, 1);
   ("5v1-concentric_gaussians-10", "Concentric 5 × 1", 5, 1);
   ("25v1-concentric_gaussians-5", "Concentric 25 × 1", 25, 1);
   ("multinormal-dense-5-5-0.5", "Multinormal 5 × 5 (dense)", 5, 5);
   ("multinormal-dense-25-25-0.5", "Multinormal 25 × 25 (dense)", 25, 25);
   ("multinormal-dense-50-50-0.5", "Multinormal 50 × 50 (dense)", 50, 50);
   ("multinormal-sparse-5-5-2-2.0", "Multinormal 5 × 5 (2-pair)", 5, 5);
   ("multinormal-sparse-25-25-2-2.0", "Multinormal 25 × 25 (2-pair)", 25, 25);
   ("mult-sparse-w-inliers-5-5-2-2.0-0.2", "Multinormal 5 × 5 (sparse, 20% inliers)", 5, 5);
   ("mult-sparse-w-inliers-25-25-2-2.0-0.2", "Multinormal 25 × 25 (sparse, 20% inliers)", 25, 25);
   ("mult-sparse-w-inliers-5-5-2-2.0-0.5", "Multinormal 5 × 5 (sparse, 50% inliers)", 5, 5);
   ("mult-sparse-w-inliers-25-25-2-2.0-0.5", "Multinormal 25 × 25 (sparse, 50% inliers)", 25, 25);
   ("asinh-student-identity-2-2-1", "Asinh @ Student-t 2 × 2 (dof=1)", 2, 2);
   ("asinh-student-identity-3-3-2", "Asinh @ Student-t 3 × 3 (dof=2)", 3, 3);
   ("asinh-student-identity-5-5-2", "Asinh @ Student-t 5 × 5 (dof=2)", 5, 5);
   ("spiral-multinormal-sparse-3-3-2-2.0", "Spiral @ Multinormal 3 × 3 (2-pair)", 3, 3);
   ("spiral-multinormal-sparse-5-5-2-2.0", "Spiral @ Multinormal 5 × 5 (2-pair)", 5, 5)]%string.
Definition gmm_catalogue : list entry :=
  [("1v1-additive-0.75", "Uniform 1 × 1 (additive noise=0.75)", 1, 1);
   ("1v1-X-0.9", "X 1 × 1", 1, 1);
   ("1v1-AI", "AI 1 × 1", 1, 1);
   ("2v1-galaxy-0.5-3.0", "Galaxy 2 × 1", 2, 1);
   ("3v1-concentric_gaussians-5", "Concentric 3 × 1", 3, 1);
   ("5v1-concentric_gaussians-5", "Concentric 5 × 1", 5, 1);
   ("3v1-concentric_gaussians-10", "Concentric 3 × 1", 3, 1);
   ("5v1-concentric_gaussians-10", "Concentric 5 × 1", 5, 1);
   ("mult-sparse-w-inliers-5-5-2-2.0-0.2", "Multinormal 5 × 5 (sparse, 20% inliers)", 5, 5);
   ("mult-sparse-w-inliers-5-5-2-2.0-0.5", "Multinormal 5 × 5 (sparse, 50% inliers)", 5, 5);
   ("multinormal-dense-5-5-0.5", "Multinormal 5 × 5 (dense)", 5, 5);
   ("multinormal-sparse-5-5-2-2.0", "Multinormal 5 × 5 (2-pair)", 5, 5);
   ("asinh-student-identity-1-1-1", "Asinh @ Student-t 1 × 1 (dof=1)", 1, 1);
   ("asinh-student-identity-2-2-1", "Asinh @ Student-t 2 × 2 (dof=1)", 2, 2);
   ("asinh-student-identity-3-3-2", "Asinh @ Student-t 3 × 3 (dof=2)", 3, 3);
   ("asinh-student-identity-5-5-2", "Asinh @ Student-t 5 × 5 (dof=2)", 5, 5)]%string.
(** Tasks whose mutual information is a Monte Carlo estimate. *)
Definition estimated : list string :=
  ["1v1-X-0.9"; "1v1-AI"; "2v1-waves-12-5.0-3.0"; "2v1-galaxy-0.5-3.0";
   "3v1-concentric_gaussians-5"; "5v1-concentric_gaussians-5"; "3v1-concentric_gaussians-10";
   "5v1-concentric_gaussians-10"; "25v1-concentric_gaussians-5";
   "mult-sparse-w-inliers-5-5-2-2.0-0.2"; "mult-sparse-w-inliers-25-25-2-2.0-0.2";
   "mult-sparse-w-inliers-5-5-2-2.0-0.5"; "mult-sparse-w-inliers-25-25-2-2.0-0.5"]%string.

(** The task of that entry: identifier, name and dimensions, and a mutual information which is
    some float, perhaps a negative one. *)
Definition listed {J} (h : dheap) (e : entry) (t : task J) : Prop :=
  t_id t = entry_id e /\ t_name t = entry_name e /\ dim_x (t_sampler t) = Ok (snd (fst e)) /\ dim_y (t_sampler t) = Ok (snd e) /\
  valid_ref h (t_params t) /\ exists mi, mutual_information (t_sampler t) = Ok mi.

(** Floats a mutual information may be: neither negative nor NaN. *)
Definition acceptable (v : fl) : Prop := match v with Fin r => (0 <= r)%R | PInf => True | NInf | NaN => False end.
Definition informed {J} (t : task J) : Prop := exists mi, mutual_information (t_sampler t) = Ok mi /\ acceptable mi.

(** A task and its rescaled version: the same identifier, name, dimensions, parameters and
    mutual information; the samples are standardized. *)
Definition standardized {J} (h h' : dheap) (base t : task J) : Prop :=
  derived base t h h' (fun i => i) (fun n => n) 0 [] (whole scaler_transform) (whole scaler_transform).

(** Loading the tasks: the list can be built, its tasks are those of the catalogue and those
    outside [open] have a mutual information; if all have one, the dictionary has the
    standardized tasks in that order, otherwise an exception is raised. *)
Definition loading {J} (unscaled : prog (list (task J))) (tasks : prog (sdict (task J))) (h : dheap) (es : list entry) (open : list string) : Prop :=
  exists h0 bases, unscaled h = (h0, Ok bases) /\ Forall2 (listed h0) es bases /\
    (forall t, In t bases -> ~ In (t_id t) open -> informed t) /\
    (Forall informed bases -> exists h' d, tasks h = (h', Ok d) /\
       Forall2 (fun b kt => fst kt = t_id b /\ standardized h0 h' b (snd kt)) bases d) /\
    (~ Forall informed bases -> exists h', tasks h = (h', Err ValidationError)).
(** The same where the tasks are not standardized. *)
Definition collecting {J} (list_ : prog (list (task J))) (tasks : prog (sdict (task J))) (h : dheap) (es : list entry) (open : list string) : Prop :=
  exists h0 ts, list_ h = (h0, Ok ts) /\ Forall2 (listed h0) es ts /\
    (forall t, In t ts -> ~ In (t_id t) open -> informed t) /\
    (Forall informed ts -> exists h', tasks h = (h', Ok (map (fun t => (t_id t, t)) ts))) /\
    (~ Forall informed ts -> exists h', tasks h = (h', Err ValidationError)).

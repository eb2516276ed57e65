(** C93: the correction for the Student distribution and its figure. *)
From Coq Require Import String Ascii.
From Verif Require Import Base UtilsModel JaxModel SamplersModel GaussianModel BaseLemmas MatrixUtilsModel TransformsModel BenchmarkModel TasksModel TasksSpec BenchmarkSpec
  SamplersSpec GaussianSpec BmmModel MultivariateModel MixturesModel TrainingSpec TransformsSpec ExpmProofs MixturesSpec RulesModel RulesSpec TasksGaussian ConfigModel ConfigSpec
  CorrectionModel GammaSpec GammaExists CorrectionThms CorrectionTasks CorrectionExamples BasicSpec TrainingExamples SamplersExamples TasksExamples BasicExamples GaussianExamples ConfigExamples.
Open Scope R_scope.
Local Notation length := List.length.

(** What is assumed of the gamma functions can be met; the examples below use these functions. *)
Example C93_gamma_example : gamma_functions digamma log_gamma.
Proof. exact gamma_functions_exist. Qed.

(** The correction is positive, and the two variables can be exchanged.  It is zero if one of them has no dimension. *)
Theorem C93_positive : forall psi log_gamma, gamma_functions psi log_gamma -> forall df m n, 0 < df -> (1 <= m)%nat -> (1 <= n)%nat ->
  exists c, mi_correction_function psi log_gamma (Fin df) m n = Fin c /\ mi_correction_function psi log_gamma (Fin df) n m = Fin c /\ 0 < c /\
    mi_correction_function psi log_gamma (Fin df) m 0 = Fin 0.
Proof. exact correction_sign. Qed.
Print Assumptions C93_positive.

(** It decreases with the degrees of freedom and vanishes as they grow: at most [m (m + 4) / df]. *)
Theorem C93_decreasing : forall psi log_gamma, gamma_functions psi log_gamma -> forall m n, (1 <= m)%nat -> (1 <= n)%nat ->
  (forall df df', 0 < df -> df < df' -> exists c c', mi_correction_function psi log_gamma (Fin df) m n = Fin c /\
     mi_correction_function psi log_gamma (Fin df') m n = Fin c' /\ c' < c /\ c <= INR m * (INR m + 4) / df) /\
  (forall eps, 0 < eps -> exists df0, 0 < df0 /\ forall df, df0 < df ->
     exists c, mi_correction_function psi log_gamma (Fin df) m n = Fin c /\ 0 < c < eps).
Proof. exact correction_falls. Qed.
Print Assumptions C93_decreasing.

(** It grows with the dimensions; two more dimensions add what two dimensions have at more degrees of freedom, and for two and two dimensions there is a formula. *)
Theorem C93_dimensions : forall psi log_gamma, gamma_functions psi log_gamma -> forall df, 0 < df -> exists c : nat -> nat -> R,
  (forall m n, mi_correction_function psi log_gamma (Fin df) m n = Fin (c m n)) /\
  (forall m m' n, (m < m')%nat -> (1 <= n)%nat -> c m n < c m' n) /\
  (forall m n, exists c', mi_correction_function psi log_gamma (Fin (df + INR m)) 2 n = Fin c' /\ c (m + 2)%nat n = c m n + c') /\
  c 2%nat 2%nat = ln (1 + 2 / df) - 2 / (df + 2).
Proof. exact correction_grows. Qed.
Print Assumptions C93_dimensions.

Example C93_example : exists c, mi_correction_function digamma log_gamma (Fin 2) 2 2 = Fin c /\ c = ln 2 - 1 / 2.
Proof. exact correction_instance. Qed.

(** A Student distribution has more mutual information than the normal distribution with the same matrix, which is not negative. *)
Theorem C93_more_than_normal : forall psi log_gamma, gamma_functions psi log_gamma -> forall eigvals (m n : nat) C mean df st,
  matrix.trmx (sigma m n C) = sigma m n C -> eigvals_ok (m + n) C (eigvals C) ->
  split_student_init eigvals (Z.of_nat m) (Z.of_nat n) (Fin df) C mean = Ok st ->
  exists normal student, split_multinormal_mi (st_multinormal st) = Fin normal /\ split_student_mi psi log_gamma st = Fin student /\ 0 <= normal < student.
Proof. exact student_more_than_normal. Qed.
Print Assumptions C93_more_than_normal.
Example C93_more_than_normal_example :
  exists st normal student, split_student_init demo_eigvals 1 1 (Fin 3) demo_cov None = Ok st /\
    split_multinormal_mi (st_multinormal st) = Fin normal /\ split_student_mi digamma log_gamma st = Fin student /\ 0 <= normal < student.
Proof. exact student_more_instance. Qed.

(** The figure has six curves with these colours and labels, each of 29 points at the degrees of freedom 1 to 29; each curve is positive and falls. *)
Theorem C93_figure : forall psi log_gamma, gamma_functions psi log_gamma ->
  map (fun cv => (cv_colour cv, cv_label cv)) (main psi log_gamma) =
    map (fun q => match q with (c, a, b) => (c, "$m=" ++ a ++ "$," ++ String "009" ("$n=" ++ b ++ "$"))%string end)
      [("C1", "1", "1"); ("C2", "1", "2"); ("C3", "1", "10"); ("C4", "2", "2"); ("C5", "3", "3"); ("C6", "5", "5")]%string /\
  forall j m n, nth_error [(1, 1); (1, 2); (1, 10); (2, 2); (3, 3); (5, 5)]%nat j = Some (m, n) ->
  exists cv, nth_error (main psi log_gamma) j = Some cv /\ cv_x cv = map Z.of_nat (seq 1 29) /\ length (cv_y cv) = 29%nat /\
    forall k, (k < 29)%nat -> let y := student_correction psi log_gamma (INR (k + 1)) m n in
      nth_error (cv_y cv) k = Some (Fin y) /\ 0 < y /\ student_correction psi log_gamma (INR (k + 2)) m n < y.
Proof. exact figure_drawn. Qed.
Print Assumptions C93_figure.

(** Curves of more dimensions are higher everywhere. *)
Theorem C93_order : forall psi log_gamma, gamma_functions psi log_gamma -> forall df, 0 < df -> let c := student_correction psi log_gamma df in
  c 1%nat 1%nat < c 1%nat 2%nat < c 1%nat 10%nat /\ c 1%nat 2%nat < c 2%nat 2%nat < c 3%nat 3%nat /\ c 3%nat 3%nat < c 5%nat 5%nat.
Proof. exact order. Qed.
Print Assumptions C93_order.

Open Scope Z_scope.
(** With the gamma functions the tasks of Student variables are always built (compare C75): uncorrelated ... *)
Theorem C93_student_identity : forall psi log_gamma, gamma_functions psi log_gamma ->
  forall (J : prng) eigvals mvt, eigvals_positive eigvals -> (forall r mu D df k, length (mvt r mu D df k) = k) ->
  forall dx dy df name h, 1 <= dx -> 1 <= dy -> 1 <= df ->
  let a := Z.to_nat dx in let b := Z.to_nat dy in
  let c := student_correction psi log_gamma (IZR df) a b in
  (0 < c)%R /\
  builds (J := J) (task_student_identity eigvals psi log_gamma mvt dx dy df name) h
    (dashed ["student"; "identity"; int_str dx; int_str dy; int_str df]%string)
    (given name ("Student-t " ++ int_str dx ++ " × " ++ int_str dy ++ " (dof=" ++ int_str df ++ ")")) dx dy
    c [("dof", PInt df)]%string (student_pairs mvt a b df (constant_off 0)).
Proof. exact student_identity_builds. Qed.
Print Assumptions C93_student_identity.
Example C93_student_identity_example :
  builds (J := demo) (task_student_identity ex_eigvals digamma log_gamma ex_mvt 2 2 2 None) []
    "student-identity-2-2-2" "Student-t 2 × 2 (dof=2)" 2 2 (ln 2 - 1 / 2) [("dof", PInt 2)]%string (student_pairs ex_mvt 2 2 2 (constant_off 0)).
Proof. exact student_identity_real. Qed.

(** ... equally correlated ... *)
Theorem C93_student_dense : forall psi log_gamma, gamma_functions psi log_gamma ->
  forall (J : prng) F eigvals mvt, eigvals_positive eigvals -> (forall r mu D df k, length (mvt r mu D df k) = k) ->
  forall dx dy df r name h, 1 <= dx -> 1 <= dy -> 1 <= df -> (r < 1)%R -> (-1 < (IZR (dx + dy) - 1) * r)%R ->
  let a := Z.to_nat dx in let b := Z.to_nat dy in
  let mi := (dense_mi a b r + student_correction psi log_gamma (IZR df) a b)%R in
  (0 <= dense_mi a b r < mi)%R /\
  builds (J := J) (task_student_dense F eigvals psi log_gamma mvt dx dy df r name) h
    (dashed ["student"; "dense"; int_str dx; int_str dy; int_str df; float_repr F r]%string)
    (given name ("Student-t " ++ int_str dx ++ " × " ++ int_str dy ++ " (dof=" ++ int_str df ++ ", dense)")) dx dy
    mi [("dof", PInt df); ("off_diag", PFloat (Fin r)); ("dispersion", listed (a + b) (constant_off r))]%string
    (student_pairs mvt a b df (constant_off r)).
Proof. exact student_dense_builds. Qed.
Print Assumptions C93_student_dense.

(** ... and with interacting pairs. *)
Theorem C93_student_sparse : forall psi log_gamma, gamma_functions psi log_gamma ->
  forall (J : prng) F eigvals mvt, eigvals_positive eigvals -> (forall r mu D df k, length (mvt r mu D df k) = k) ->
  forall dx dy df k st name h, 1 <= dx -> 1 <= dy -> 1 <= df -> 0 <= k <= Z.min dx dy ->
  let a := Z.to_nat dx in let r := strength_correlation st in
  let mi := (paired_mi (Z.to_nat k) r + student_correction psi log_gamma (IZR df) a (Z.to_nat dy))%R in
  (0 <= paired_mi (Z.to_nat k) r < mi)%R /\
  builds (J := J) (task_student_sparse F eigvals psi log_gamma mvt dx dy df k st name) h
    (dashed ["student"; "sparse"; int_str dx; int_str dy; int_str df; int_str k; float_repr F st]%string)
    (given name ("Student-t " ++ int_str dx ++ " × " ++ int_str dy ++ " (dof=" ++ int_str df ++ ", sparse)")) dx dy
    mi [("dof", PInt df); ("n_interacting", PInt k); ("strength", PFloat (Fin st))]%string
    (student_pairs mvt a (Z.to_nat dy) df (paired_off a (Z.to_nat k) r)).
Proof. exact student_sparse_builds. Qed.
Print Assumptions C93_student_sparse.

(** The published list (compare C59) and the workflows of both versions of the benchmark (compare C82). *)
Theorem C93_published : forall (J : prng) F D erf expm eigvals mvn psi log_gamma mvt,
  prng_ok J -> draws_ok J D -> eigvals_positive eigvals -> gamma_functions psi log_gamma ->
  forall h, exists h' (d : sdict (task J)), benchmark_tasks F D erf expm eigvals mvn psi log_gamma mvt h = (h', Ok d).
Proof. exact published_builds. Qed.
Print Assumptions C93_published.
Example C93_published_example : exists h' d, benchmark_tasks ex_formats demo_draws (fun x => x) zero_expm ex_eigvals
    (fun _ _ _ n => repeat [] n) digamma log_gamma (fun _ _ _ _ n => repeat [] n) [] = (h', Ok d).
Proof. exact published_real. Qed.

Theorem C93_v1 : forall (J : prng) F (D : draws J) erf expm eigvals mvn psi log_gamma mvt,
  more_floats F -> prng_ok J -> draws_ok J D -> gamma_functions psi log_gamma -> eigvals_positive eigvals -> forall h,
  loading (J := J) (v1_unscaled F D erf expm eigvals mvn psi log_gamma mvt) (v1_tasks F D erf expm eigvals mvn psi log_gamma mvt) h v1_catalogue [].
Proof. exact v1_loads. Qed.
Print Assumptions C93_v1.

Theorem C93_v2 : forall (J : prng) F percent (D : draws J) erf expm eigvals mvn psi log_gamma mvt T cholesky normal_draw,
  more_floats F -> prng_ok J -> draws_ok J D -> gamma_functions psi log_gamma ->
  percents percent -> eigvals_symmetric eigvals -> factorises cholesky -> is_expm expm -> forall h,
  loading (J := J) (v2_unscaled F percent D erf expm eigvals mvn psi log_gamma mvt T cholesky normal_draw)
    (v2_tasks F percent D erf expm eigvals mvn psi log_gamma mvt T cholesky normal_draw) h v2_catalogue estimated.
Proof. exact v2_loads. Qed.
Print Assumptions C93_v2.

(** The theorems in the form of the properties, and instances. *)
From Coq Require Import String Ascii Lia Lra.
From Verif Require Import Base UtilsModel JaxModel SamplersModel GaussianModel BaseLemmas MatrixUtilsModel TransformsModel BenchmarkModel TasksModel TasksSpec BenchmarkSpec
  SamplersSpec GaussianSpec GaussianThms CorrectionModel GammaSpec GammaExists CorrectionThms CorrectionTasks BasicSpec TrainingExamples SamplersExamples TasksExamples BasicExamples GaussianExamples.
Open Scope R_scope.

Section Forms.
  Variables psi lg : R -> R.
  Hypothesis G : gamma_functions psi lg.
  Theorem correction_sign df m n : 0 < df -> (1 <= m)%nat -> (1 <= n)%nat ->
    exists c, mi_correction_function psi lg (Fin df) m n = Fin c /\ mi_correction_function psi lg (Fin df) n m = Fin c /\ 0 < c /\
      mi_correction_function psi lg (Fin df) m 0 = Fin 0.
  Proof.
    intros H M N. exists (student_correction psi lg df m n). rewrite !correction_value by assumption. split; [reflexivity|]. split; [now rewrite correction_symmetric|].
    split; [now apply correction_positive|now rewrite correction_degenerate].
  Qed.
  Theorem correction_falls m n : (1 <= m)%nat -> (1 <= n)%nat ->
    (forall df df', 0 < df -> df < df' -> exists c c', mi_correction_function psi lg (Fin df) m n = Fin c /\
       mi_correction_function psi lg (Fin df') m n = Fin c' /\ c' < c /\ c <= INR m * (INR m + 4) / df) /\
    (forall eps, 0 < eps -> exists df0, 0 < df0 /\ forall df, df0 < df ->
       exists c, mi_correction_function psi lg (Fin df) m n = Fin c /\ 0 < c < eps).
  Proof.
    intros M N. split.
    - intros df df' H L. exists (student_correction psi lg df m n), (student_correction psi lg df' m n). rewrite !correction_value by lra.
      repeat split; [now apply correction_decreasing|now apply correction_bounded].
    - intros eps E. destruct (correction_vanishes psi lg G m n M N eps E) as (d & D & H). exists d. split; [assumption|]. intros df L.
      exists (student_correction psi lg df m n). rewrite correction_value by lra. split; [reflexivity|now apply H].
  Qed.
  Theorem correction_grows df : 0 < df -> exists c : nat -> nat -> R,
    (forall m n, mi_correction_function psi lg (Fin df) m n = Fin (c m n)) /\
    (forall m m' n, (m < m')%nat -> (1 <= n)%nat -> c m n < c m' n) /\
    (forall m n, exists c', mi_correction_function psi lg (Fin (df + INR m)) 2 n = Fin c' /\ c (m + 2)%nat n = c m n + c') /\
    c 2%nat 2%nat = ln (1 + 2 / df) - 2 / (df + 2).
  Proof.
    intros H. exists (student_correction psi lg df). split; [intros m n; now apply correction_value|]. split; [intros; now apply correction_larger|]. split.
    - intros m n. exists (student_correction psi lg (df + INR m) 2 n). rewrite correction_value by (assert (P := pos_INR m); lra). split; [reflexivity|now apply correction_two_more].
    - now apply correction_two_two.
  Qed.
  Theorem figure_drawn :
    map (fun cv => (cv_colour cv, cv_label cv)) (main psi lg) =
      map (fun q => match q with (c, a, b) => (c, "$m=" ++ a ++ "$," ++ String "009" ("$n=" ++ b ++ "$"))%string end)
        [("C1", "1", "1"); ("C2", "1", "2"); ("C3", "1", "10"); ("C4", "2", "2"); ("C5", "3", "3"); ("C6", "5", "5")]%string /\
    forall j m n, nth_error [(1, 1); (1, 2); (1, 10); (2, 2); (3, 3); (5, 5)]%nat j = Some (m, n) ->
    exists cv, nth_error (main psi lg) j = Some cv /\ cv_x cv = map Z.of_nat (seq 1 29) /\ List.length (cv_y cv) = 29%nat /\
      forall k, (k < 29)%nat -> let y := student_correction psi lg (INR (k + 1)) m n in
        nth_error (cv_y cv) k = Some (Fin y) /\ 0 < y /\ student_correction psi lg (INR (k + 2)) m n < y.
  Proof. split; [rewrite labels; reflexivity|now apply figure]. Qed.
End Forms.

Lemma real_two_two : student_correction digamma log_gamma 2 2 2 = ln 2 - 1 / 2.
Proof. rewrite (correction_two_two _ _ gamma_functions_exist) by lra. replace (1 + 2 / 2) with 2 by field. lra. Qed.
Lemma correction_instance : exists c, mi_correction_function digamma log_gamma (Fin 2) 2 2 = Fin c /\ c = ln 2 - 1 / 2.
Proof. exists (student_correction digamma log_gamma 2 2 2). split; [apply correction_value; lra|exact real_two_two]. Qed.
Lemma student_more_instance :
  exists st normal student, split_student_init demo_eigvals 1 1 (Fin 3) demo_cov None = Ok st /\
    split_multinormal_mi (st_multinormal st) = Fin normal /\ split_student_mi digamma log_gamma st = Fin student /\ 0 <= normal < student.
Proof.
  eexists. destruct (student_more_than_normal _ _ gamma_functions_exist demo_eigvals 1 1 demo_cov None 3 _ demo_cov_sym (proj1 demo_cov_exact) demo_student) as (a & b & H).
  exists a, b. split; [exact demo_student|exact H].
Qed.
Open Scope Z_scope.
Lemma student_identity_real :
  builds (J := demo) (task_student_identity ex_eigvals digamma log_gamma ex_mvt 2 2 2 None) []
    "student-identity-2-2-2" "Student-t 2 × 2 (dof=2)" 2 2 (ln 2 - 1 / 2) [("dof", PInt 2)]%string (student_pairs ex_mvt 2 2 2 (constant_off 0)).
Proof.
  assert (B := proj2 (student_identity_builds _ _ gamma_functions_exist demo ex_eigvals ex_mvt ex_eigvals_ok ex_mvt_ok 2 2 2 None []
    ltac:(lia) ltac:(lia) ltac:(lia))).
  cbv zeta in B. change (Z.to_nat 2) with 2%nat in B. rewrite real_two_two in B. exact B.
Qed.
Lemma published_real : exists h' d, benchmark_tasks ex_formats demo_draws (fun x => x) zero_expm ex_eigvals
    (fun _ _ _ n => repeat [] n) digamma log_gamma (fun _ _ _ _ n => repeat [] n) [] = (h', Ok d).
Proof. apply published_builds; [exact demo_ok|exact demo_draws_ok|exact ex_eigvals_ok|exact gamma_functions_exist]. Qed.

(** C99: the figure of the pointwise mutual information. *)
From Coq Require Import String.
From Verif Require Import Base UtilsModel JaxModel SamplersModel GaussianModel MatrixUtilsModel MatrixUtilsSpec BenchmarkModel TasksModel TasksSpec GaussianSpec TasksGaussian TrainingExamples TasksExamples BasicSpec BasicExamples
  RulesModel PointwiseModel PointwiseSpec PointwiseThms PointwiseExamples.
Open Scope R_scope.
Local Notation length := List.length.

(** The number is the logarithm of the joint density over the product of the densities, of normal variables with any covariance *)
Theorem C99_normal : forall a b d x y, 0 < a -> 0 < a * d - b ^ 2 ->
  exists v, gaussian_logpdfratio x y [[a; b]; [b; d]] = Ok v /\ normal2 a b d x y = exp v * (normal1 a x * normal1 d y).
Proof. exact gaussian_density. Qed.
Print Assumptions C99_normal.
Example C99_normal_example : gaussian_logpdfratio 1 1 [[1; 1 / 2]; [1 / 2; 1]] = Ok (- (1 / 2) * ln (3 / 4) + 1 / 3).
Proof. exact half_at_one. Qed.

(** and of Student variables. *)
Theorem C99_student : forall lg df a b d x y, (1 <= df)%Z -> 0 < a -> 0 < a * d - b ^ 2 ->
  exists v, student_logpdfratio lg x y df [[a; b]; [b; d]] = Ok v /\
    student2 lg (IZR df) a b d x y = exp v * (student1 lg (IZR df) a x * student1 lg (IZR df) d y).
Proof. exact student_density. Qed.
Print Assumptions C99_student.
Example C99_student_example : student_logpdfratio (fun _ => 0) 0 0 1 [[1; 1 / 2]; [1 / 2; 1]] = Ok (- (1 / 2) * ln (3 / 4)).
Proof. exact cauchy_at_zero. Qed.

(** The densities in the ratios are those of the normal and the Student distribution. *)
Theorem C99_densities : forall a b d x y, 0 < a -> 0 < a * d - b ^ 2 ->
  normal_pdf 1 a (maha1 a x) = normal1 a x /\ normal_pdf 2 (a * d - b ^ 2) (maha2 a b d x y) = normal2 a b d x y /\
  forall lg df, (1 <= df)%Z -> student_pdf lg df 1 a (maha1 a x) = student1 lg (IZR df) a x /\
    student_pdf lg df 2 (a * d - b ^ 2) (maha2 a b d x y) = student2 lg (IZR df) a b d x y.
Proof. exact densities. Qed.
Print Assumptions C99_densities.
Example C99_densities_example : normal_pdf 1 1 (maha1 1 0) = normal1 1 0.
Proof. exact (proj1 (densities 1 0 1 0 0 Rlt_0_1 unit_determinant)). Qed.

(** With a correlation: closed forms. *)
Theorem C99_normal_form : forall c x y, -1 < c < 1 -> gaussian_logpdfratio x y [[1; c]; [c; 1]] = Ok (normal_pmi c x y).
Proof. exact gaussian_correlation. Qed.
Print Assumptions C99_normal_form.
Example C99_normal_form_example : gaussian_logpdfratio 1 1 [[1; 1 / 2]; [1 / 2; 1]] = Ok (- (1 / 2) * ln (3 / 4) + 1 / 3).
Proof. exact half_at_one. Qed.
Theorem C99_student_form : forall lg df c x y, (1 <= df)%Z -> -1 < c < 1 ->
  student_logpdfratio lg x y df [[1; c]; [c; 1]] = Ok (student_pmi lg (IZR df) c x y).
Proof. exact student_correlation. Qed.
Print Assumptions C99_student_form.
Example C99_student_form_example : student_logpdfratio (fun _ => 0) 0 0 1 [[1; 1 / 2]; [1 / 2; 1]] = Ok (- (1 / 2) * ln (3 / 4)).
Proof. exact cauchy_at_zero. Qed.

(** Matrices which are not positive definite are rejected. *)
Theorem C99_rejected : forall lg df a b c d x y, a <= 0 \/ a * d - b ^ 2 <= 0 ->
  gaussian_logpdfratio x y [[a; c]; [b; d]] = Err ValueError /\ student_logpdfratio lg x y df [[a; c]; [b; d]] = Err ValueError.
Proof. exact ratio_rejected. Qed.
Print Assumptions C99_rejected.
Example C99_rejected_example : gaussian_logpdfratio 0 0 [[1; 1]; [1; 1]] = Err ValueError.
Proof. apply (ratio_rejected (fun _ => 0) 1). right. apply Req_le. ring. Qed.

(** Far from zero, where the signs differ, positively correlated normal variables have pointwise mutual information below any bound, *)
Theorem C99_normal_tails : forall c, 0 < c < 1 -> forall m, exists r, forall t, r < t -> normal_pmi c t (- t) < m.
Proof. exact normal_tails. Qed.
Print Assumptions C99_normal_tails.
Example C99_normal_tails_example : forall t, normal_pmi (1 / 2) t (- t) = - (1 / 2) * ln (3 / 4) - t ^ 2.
Proof. exact half_antidiagonal. Qed.
(** but that of Student variables, on both diagonals, is above any bound. *)
Theorem C99_student_tails : forall lg nu c s, 0 < nu -> -1 < c < 1 -> s = 1 \/ s = -1 ->
  forall m, exists r, forall t, r < t -> m < student_pmi lg nu c t (s * t).
Proof. exact student_tails. Qed.
Print Assumptions C99_student_tails.
Example C99_student_tails_example : exists r, forall t, r < t -> 100 < student_pmi (fun _ => 0) 1 (1 / 2) t (-1 * t).
Proof. exact cauchy_antidiagonal. Qed.

(** The figure: a column for each number of degrees of freedom and the one of normal variables, all drawn with correlation
    1/2 and the seed 42; pictures show the pointwise mutual information of that very distribution (above) and the critic
    trained on all samples (below), each value in the pixel where its point lies; titles as below. *)
Theorem C99_figure :
  forall (J : prng) F eigvals psi log_gamma mvn mvt infonce, eigvals_positive eigvals -> (forall r mu D df k, length (mvt r mu D df k) = k) ->
  (forall x y, exists ec, infonce x y = Ok ec) ->
  forall h, Forall (fun df => 0 <= dense_mi 1 1 (5 / 10) + student_correction psi log_gamma (IZR df) 1 1) [1; 2; 3; 5; 10]%Z ->
  exists h' students gauss, pmi_figure (J := J) F eigvals psi log_gamma mvn mvt infonce h = (h', Ok (students ++ [gauss])) /\
    Forall2 (fun df c => exists C, has_entries 2 C (constant_off (5 / 10)) /\
       column_of infonce (mvt 42%Z [0; 0] C (Fin (IZR df)) 10000%nat) ("Student, $\nu=" ++ int_str df ++ "$") (student_pmi log_gamma (IZR df) (5 / 10)) c)
      [1; 2; 3; 5; 10]%Z students /\
    exists C, has_entries 2 C (constant_off (5 / 10)) /\
       column_of infonce (mvn (cast_to_rng J (SeedInt 42)) [0; 0] C 10000%nat) "Normal" (normal_pmi (5 / 10)) gauss.
Proof. exact (@pointwise_figure). Qed.
Print Assumptions C99_figure.
Example C99_figure_example : eigvals_positive ex_eigvals /\ (forall r mu D df k, length (ex_mvt r mu D df k) = k) /\
  (forall x y, exists ec, product_critic x y = Ok ec) /\
  Forall (fun df => 0 <= dense_mi 1 1 (5 / 10) + student_correction (fun _ => 0) (fun _ => 0) (IZR df) 1 1) [1; 2; 3; 5; 10]%Z.
Proof. exact pointwise_oracles. Qed.

(** Titles: stripping takes away characters of the set from both ends, as many as possible and nothing else; a capitalized
    text differs in the case of letters only: the first is a capital and the others are small. *)
Theorem C99_strip : forall chars s, exists pre post, list_ascii_of_string s = pre ++ list_ascii_of_string (strip_chars chars s) ++ post /\
  Forall (fun c => In c (list_ascii_of_string chars)) (pre ++ post) /\
  (forall c l, list_ascii_of_string (strip_chars chars s) = c :: l -> ~ In c (list_ascii_of_string chars)) /\
  (forall c l, list_ascii_of_string (strip_chars chars s) = l ++ [c] -> ~ In c (list_ascii_of_string chars)).
Proof. exact strip_ok. Qed.
Print Assumptions C99_strip.
Example C99_strip_example : strip_chars "Bivariate "%string "Bivariate beta"%string = "b"%string /\ strip_chars "Bivariate "%string "Bivariate normal"%string = "normal"%string.
Proof. exact (conj eq_refl eq_refl). Qed.
Theorem C99_capitalize : (forall c s, list_ascii_of_string (capitalize (String c s)) = upper_char c :: map lower_char (list_ascii_of_string s)) /\
  map lower_char (list_ascii_of_string capitals) = list_ascii_of_string smalls /\ map upper_char (list_ascii_of_string smalls) = list_ascii_of_string capitals /\
  (forall c, ~ In c (list_ascii_of_string capitals) -> lower_char c = c) /\ (forall c, ~ In c (list_ascii_of_string smalls) -> upper_char c = c).
Proof. exact (conj capitalize_ok cases_ok). Qed.
Print Assumptions C99_capitalize.
Example C99_capitalize_example : capitalize "student T"%string = "Student t"%string.
Proof. reflexivity. Qed.

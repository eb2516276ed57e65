(** Properties of SplitMultinormal, BivariateNormalSampler and SplitStudentT
    (src/bmi/samplers/_splitmultinormal.py, _split_student_t.py). *)
From Verif Require Import Base UtilsModel JaxModel SamplersModel GaussianModel BaseLemmas TrainingExamples.
From mathcomp Require Import all_ssreflect ssralg matrix mxalgebra.
From Verif Require Import SamplersSpec RStruct PosDef MatrixBridge GaussianSpec GaussianProofs ExpectationProofs GaussianThms GaussianEntropy GaussianExamples.
Import GRing.Theory.
Local Open Scope ring_scope.

(** C31: the Gaussian and Student samplers draw paired rows of the advertised widths. *)
Theorem C31_gaussian_dimensions : forall eigvals (J : prng) mvn dim_x dim_y C mean s,
  (forall k mu S n, List.length (mvn k mu S n) = n /\
     List.Forall (fun r => List.length r = List.length mu) (mvn k mu S n)) ->
  split_multinormal_init eigvals dim_x dim_y C mean = Ok s ->
  well_dimensioned (@split_multinormal_sampler J mvn s) /\
  forall n rng, exists xs ys, split_multinormal_sample J mvn s n rng = Ok (xs, ys) /\
    List.map (fun p => List.app (fst p) (snd p)) (List.combine xs ys)
    = mvn (cast_to_rng J rng) (the_mean (Z.to_nat dim_x + Z.to_nat dim_y) mean) C n.
Proof. exact normal_dimensions. Qed.
Print Assumptions C31_gaussian_dimensions.

Theorem C31_student_dimensions : forall eigvals (J : prng) mvt dim_x dim_y df C mean st,
  (forall r mu D df k, List.length (mvt r mu D df k) = k /\
     List.Forall (fun row => List.length row = List.length mu) (mvt r mu D df k)) ->
  split_student_init eigvals dim_x dim_y df C mean = Ok st ->
  forall psi log_gamma, well_dimensioned (@split_student_sampler psi log_gamma mvt J st).
Proof. exact student_dimensions. Qed.
Print Assumptions C31_student_dimensions.
Example C31_gaussian_example :
  (exists s, split_multinormal_init demo_eigvals 1 1 demo_cov None = Ok s) /\
  (exists st, split_student_init demo_eigvals 1 1 (Fin 3) demo_cov None = Ok st) /\
  (let mvn := fun (_ : key demo) (mu : list R) (_ : UtilsModel.matrix) n => List.repeat mu n in
   forall k mu S n, List.length (mvn k mu S n) = n /\
     List.Forall (fun r => List.length r = List.length mu) (mvn k mu S n)).
Proof.
  split; [|split].
  - exists demo_normal; exact demo_accepted.
  - eexists; exact demo_student.
  - move=> mvn k mu S n; split; [apply List.repeat_length|].
    by apply List.Forall_forall => r h; rewrite (List.repeat_spec _ _ _ h).
Qed.

(** C37: a symmetric covariance of the right shape is accepted exactly when it is positive
    definite. *)
Theorem C37_accepts_positive_definite : forall eigvals (m n : nat) C mean, (0 < m)%N -> (0 < n)%N ->
  (sigma m n C)^T = sigma m n C -> eigvals_exact eigvals m n C ->
  ((exists s, split_multinormal_init eigvals (Z.of_nat m) (Z.of_nat n) C mean = Ok s) <->
   [/\ has_shape C (m + n) (m + n), proper_mean (m + n) mean & posdef (sigma m n C)]).
Proof. exact accepts_iff. Qed.
Print Assumptions C37_accepts_positive_definite.
Example C37_accepts_example : (sigma 1 1 demo_cov)^T = sigma 1 1 demo_cov /\
  eigvals_exact demo_eigvals 1 1 demo_cov /\ posdef (sigma 1 1 demo_cov).
Proof. split; [exact demo_cov_sym|]; split; [exact demo_cov_exact | exact demo_posdef]. Qed.

(** C37: the reported value is 1/2 log (det Sxx det Syy / det S), which is never negative
    and vanishes exactly when X and Y are uncorrelated. *)
Theorem C37_formula : forall eigvals (m n : nat) C mean s,
  (sigma m n C)^T = sigma m n C -> eigvals_ok (m + n) C (eigvals C) ->
  split_multinormal_init eigvals (Z.of_nat m) (Z.of_nat n) C mean = Ok s ->
  [/\ split_multinormal_mi s = Fin (gaussian_mi (sigma m n C)), Rle 0 (gaussian_mi (sigma m n C))
    & (gaussian_mi (sigma m n C) = 0 <-> ursubmx (sigma m n C) = 0)].
Proof. exact mi_formula. Qed.
Print Assumptions C37_formula.
Example C37_formula_example : (sigma 1 1 demo_cov)^T = sigma 1 1 demo_cov /\
  eigvals_ok 2 demo_cov (demo_eigvals demo_cov) /\
  split_multinormal_init demo_eigvals 1 1 demo_cov None = Ok demo_normal /\
  split_multinormal_mi demo_normal = Fin (Rmult (/ 2) (ln (Rdiv (Rmult (Rdiv 5 2) (Rdiv 5 2)) 4))).
Proof.
  split; [exact demo_cov_sym|]; split; [exact (proj1 demo_cov_exact)|]; split; [exact demo_accepted|].
  have [-> _ _] := @mi_formula demo_eigvals 1 1 demo_cov None demo_normal demo_cov_sym (proj1 demo_cov_exact) demo_accepted.
  rewrite /gaussian_mi /demo_cov; have [-> -> ->] := bivariate_dets (Rdiv 5 2) (Rdiv 5 2) (Rdiv 3 2).
  by congr (Fin (Rmult _ (ln (Rdiv _ _)))); lazymatch goal with |- ?l = ?r => change (@eq R l r) end; field.
Qed.

(** C37: for covariances which are not symmetric (which the code accepts) the value is
    clamped at zero. *)
Theorem C37_clamped : forall eigvals (m n : nat) C mean s,
  split_multinormal_init eigvals (Z.of_nat m) (Z.of_nat n) C mean = Ok s ->
  Rlt 0 (\det (sigma m n C)) -> Rlt 0 (\det (ulsubmx (sigma m n C))) -> Rlt 0 (\det (drsubmx (sigma m n C))) ->
  split_multinormal_mi s = Fin (Rmax 0 (gaussian_mi (sigma m n C))).
Proof. exact mi_clamped. Qed.
Print Assumptions C37_clamped.
Example C37_clamped_example :
  split_multinormal_init skew_eigvals 1 1 skew None = Ok (built 1 1 skew None) /\
  Rlt 0 (\det (sigma 1 1 skew)) /\ Rlt 0 (\det (ulsubmx (sigma 1 1 skew))) /\ Rlt 0 (\det (drsubmx (sigma 1 1 skew))).
Proof.
  split; [exact skew_accepted|]; rewrite !det11 -det_to_mx !mxE /entry; cbn.
  split; [|split]; lra.
Qed.

(** C37: the mean plays no role. *)
Theorem C37_mean_independent : forall eigvals dim_x dim_y C mean mean' s s',
  split_multinormal_init eigvals dim_x dim_y C mean = Ok s ->
  split_multinormal_init eigvals dim_x dim_y C mean' = Ok s' ->
  split_multinormal_mi s = split_multinormal_mi s'.
Proof. exact mean_independent. Qed.
Print Assumptions C37_mean_independent.
Example C37_mean_example :
  (exists s, split_multinormal_init demo_eigvals 1 1 demo_cov None = Ok s) /\
  (exists s', split_multinormal_init demo_eigvals 1 1 demo_cov (Some [:: IZR 7; IZR (-3)]) = Ok s').
Proof.
  split; [by exists demo_normal; exact demo_accepted|].
  exact (proj2 (@accepts_iff demo_eigvals 1 1 demo_cov (Some [:: IZR 7; IZR (-3)]) isT isT demo_cov_sym demo_cov_exact)
    (And3 (isT : has_shape demo_cov (1 + 1) (1 + 1)) (erefl : proper_mean (1 + 1) (Some [:: IZR 7; IZR (-3)])) demo_posdef)).
Qed.

(** C37: the reported value is the expectation of log p(x, y) / (p(x) p(y)) for the normal
    densities, under every expectation operator with the given covariance. *)
Theorem C37_expected_log_ratio : forall eigvals (m n : nat) C mean s I E mu,
  (sigma m n C)^T = sigma m n C -> eigvals_ok (m + n) C (eigvals C) ->
  split_multinormal_init eigvals (Z.of_nat m) (Z.of_nat n) C mean = Ok s ->
  expectation I E -> has_covariance I E mu (sigma m n C) ->
  let S := sigma m n C in
  let pmi := pointwise_mi (normal_log_density mu S) (normal_log_density (usubmx mu) (ulsubmx S))
               (normal_log_density (dsubmx mu) (drsubmx S)) in
  I pmi /\ split_multinormal_mi s = Fin (E pmi).
Proof. exact expected_pmi. Qed.
Print Assumptions C37_expected_log_ratio.
Example C37_expected_example : expectation demo_I demo_E /\ has_covariance demo_I demo_E 0 (sigma 1 1 demo_cov) /\
  split_multinormal_init demo_eigvals 1 1 demo_cov None = Ok demo_normal.
Proof. split; [exact demo_expectation|]; split; [exact demo_has_covariance | exact demo_accepted]. Qed.

(** C38: exchanging X and Y. *)
Theorem C38_exchange : forall eigvals (m n : nat) C C' mean mean' s,
  (sigma m n C)^T = sigma m n C -> eigvals_ok (m + n) C (eigvals C) -> eigvals_exact eigvals n m C' ->
  split_multinormal_init eigvals (Z.of_nat m) (Z.of_nat n) C mean = Ok s ->
  has_shape C' (n + m) (n + m) -> proper_mean (n + m) mean' -> sigma n m C' = exchanged (sigma m n C) ->
  exists s', split_multinormal_init eigvals (Z.of_nat n) (Z.of_nat m) C' mean' = Ok s' /\
    split_multinormal_mi s' = split_multinormal_mi s.
Proof. exact exchange_sampler. Qed.
Print Assumptions C38_exchange.
Example C38_exchange_example : sigma 1 1 demo_cov = exchanged (sigma 1 1 demo_cov) /\
  eigvals_exact demo_eigvals 1 1 demo_cov /\ has_shape demo_cov (1 + 1) (1 + 1).
Proof.
  split; [|split=> //; exact demo_cov_exact].
  rewrite /exchanged -{1}(submxK (sigma 1 1 demo_cov)); congr block_mx; apply/matrixP => i j;
  by rewrite !mxE (ord1 i) (ord1 j).
Qed.

(** C38: invertible linear maps of X and of Y. *)
Theorem C38_linear_maps : forall eigvals (m n : nat) C C' mean mean' s (A : 'M[R]_m) (B : 'M[R]_n),
  (sigma m n C)^T = sigma m n C -> eigvals_ok (m + n) C (eigvals C) -> eigvals_exact eigvals m n C' ->
  split_multinormal_init eigvals (Z.of_nat m) (Z.of_nat n) C mean = Ok s ->
  has_shape C' (m + n) (m + n) -> proper_mean (m + n) mean' ->
  A \in unitmx -> B \in unitmx -> sigma m n C' = transformed A B (sigma m n C) ->
  exists s', split_multinormal_init eigvals (Z.of_nat m) (Z.of_nat n) C' mean' = Ok s' /\
    split_multinormal_mi s' = split_multinormal_mi s.
Proof. exact transform_sampler. Qed.
Print Assumptions C38_linear_maps.
Example C38_linear_example :
  let C' := [:: [:: IZR 10; IZR (-6)]; [:: IZR (-6); IZR 10]] in
  let A := const_mx (IZR 2) : 'M[R]_1 in let B := const_mx (IZR (-2)) : 'M[R]_1 in
  eigvals_exact demo_eigvals 1 1 C' /\ has_shape C' 2 2 /\ A \in unitmx /\ B \in unitmx /\
  sigma 1 1 C' = transformed A B (sigma 1 1 demo_cov).
Proof.
  move=> C' A B; split; [exact: demo_exact|]; split=> //.
  split; [|split].
  - rewrite unitmxE unitfE det11 mxE; apply/eqP; change (IZR 2 <> IZR 0); lra.
  - rewrite unitmxE unitfE det11 mxE; apply/eqP; change (IZR (-2) <> IZR 0); lra.
  - rewrite /transformed -(submxK (sigma 1 1 demo_cov)) tr_block_mx !trmx0 !mulmx_block.
    rewrite !mul0mx !mulmx0 !addr0 !add0r -(submxK (sigma 1 1 C')).
    congr block_mx; apply/matrixP => i j; rewrite !mxE ?big_ord_recl ?big_ord0 !mxE ?big_ord_recl ?big_ord0 !mxE
      (ord1 i) (ord1 j) /entry /=; lazymatch goal with |- ?l = ?r => change (@eq R l r) end.
    + change (IZR 10 = Rplus (Rmult (Rplus (Rmult 2 (Rdiv 5 2)) 0) 2) 0); field.
    + change (IZR (-6) = Rplus (Rmult (Rplus (Rmult 2 (Rdiv 3 2)) 0) (IZR (-2))) 0); field.
    + change (IZR (-6) = Rplus (Rmult (Rplus (Rmult (IZR (-2)) (Rdiv 3 2)) 0) (IZR 2)) 0); field.
    + change (IZR 10 = Rplus (Rmult (Rplus (Rmult (IZR (-2)) (Rdiv 5 2)) 0) (IZR (-2))) 0); field.
Qed.

(** C38: zero mutual information means zero cross-covariance, and conversely. *)
Theorem C38_zero_iff_uncorrelated : forall eigvals (m n : nat) C mean s,
  (sigma m n C)^T = sigma m n C -> eigvals_ok (m + n) C (eigvals C) ->
  split_multinormal_init eigvals (Z.of_nat m) (Z.of_nat n) C mean = Ok s ->
  (split_multinormal_mi s = Fin 0 <-> forall i j, (i < m)%N -> (j < n)%N -> entry C i (m + j) = 0).
Proof. exact zero_iff_uncorrelated. Qed.
Print Assumptions C38_zero_iff_uncorrelated.
Example C38_zero_example : split_multinormal_init demo_eigvals 1 1 demo_cov None = Ok demo_normal /\
  (sigma 1 1 demo_cov)^T = sigma 1 1 demo_cov /\ eigvals_ok 2 demo_cov (demo_eigvals demo_cov).
Proof. split; [exact demo_accepted|]; split; [exact demo_cov_sym | exact (proj1 demo_cov_exact)]. Qed.

(** C39: exactly positive standard deviations and correlations in (-1, 1) are accepted. *)
Theorem C39_accepts : forall eigvals (J : prng) mvn rho sx sy mx my,
  eigvals_exact eigvals 1 1 (bivariate_cov rho sx sy) ->
  ((exists r, @bivariate_normal_sampler eigvals J mvn rho sx sy mx my = Ok r) <->
   [/\ Rlt 0 sx, Rlt 0 sy, Rlt (-1) rho & Rlt rho 1]).
Proof. exact bivariate_accepts. Qed.
Print Assumptions C39_accepts.

Theorem C39_rejects : forall eigvals (J : prng) mvn rho sx sy mx my,
  (Rle sx 0 \/ Rle sy 0 \/ Rle rho (-1) \/ Rle 1 rho) ->
  @bivariate_normal_sampler eigvals J mvn rho sx sy mx my = Err ValueError.
Proof. exact bivariate_rejects. Qed.
Print Assumptions C39_rejects.

(** C39: the mutual information is -1/2 log (1 - rho^2), whatever the standard deviations
    and means, and agrees with SplitMultinormal on the covariance. *)
Theorem C39_value : forall eigvals (J : prng) mvn rho sx sy mx my smp c,
  eigvals_exact eigvals 1 1 (bivariate_cov rho sx sy) ->
  @bivariate_normal_sampler eigvals J mvn rho sx sy mx my = Ok (smp, c) ->
  c = rho /\ mutual_information smp = Ok (Fin (Rmult (Ropp (Rdiv 1 2)) (ln (Rminus 1 (pow rho 2))))) /\
  exists s, split_multinormal_init eigvals 1 1 (bivariate_cov rho sx sy) (Some [:: mx; my]) = Ok s /\
    mutual_information smp = Ok (split_multinormal_mi s) /\ sample smp = @split_multinormal_sample J mvn s.
Proof. exact bivariate_value. Qed.
Print Assumptions C39_value.
Example C39_example : eigvals_exact demo_eigvals 1 1 (bivariate_cov (Rdiv 1 2) 3 3) /\
  exists r, @bivariate_normal_sampler demo_eigvals demo (fun _ mu _ n => List.repeat mu n) (Rdiv 1 2) 3 3 1 (-1) = Ok r.
Proof.
  have k : eigvals_exact demo_eigvals 1 1 (bivariate_cov (Rdiv 1 2) 3 3) by exact: demo_exact.
  split=> //; apply/(bivariate_accepts _ _ _ k); split; lra.
Qed.

(** C40: what _can_be_covariance checks is the positivity of the eigenvalues alone ... *)
Theorem C40_checks_only_eigenvalues : forall eigvals n (M : UtilsModel.matrix), M <> nil -> eigvals_ok n M (eigvals M) ->
  (can_be_covariance eigvals M = Ok tt <->
   forall a b, is_eigenvalue (to_mx n n M) a b -> Rlt 0 a \/ (a = 0 /\ Rlt 0 b)).
Proof. exact accepted_eigenvalues. Qed.
Print Assumptions C40_checks_only_eigenvalues.

(** C40: ... which decides positive definiteness for symmetric matrices ... *)
Theorem C40_symmetric : forall eigvals n (M : UtilsModel.matrix), has_shape M n n -> (0 < n)%N ->
  eigvals_ok n M (eigvals M) -> (to_mx n n M)^T = to_mx n n M ->
  (can_be_covariance eigvals M = Ok tt <-> posdef (to_mx n n M)).
Proof. exact accepted_symmetric. Qed.
Print Assumptions C40_symmetric.
Example C40_symmetric_example : demo_cov <> nil /\ has_shape demo_cov 2 2 /\
  eigvals_ok 2 demo_cov (demo_eigvals demo_cov) /\ (to_mx 2 2 demo_cov)^T = to_mx 2 2 demo_cov.
Proof. split=> //; split=> //; split; [exact (proj1 demo_cov_exact) | exact demo_cov_sym]. Qed.

(** C40: ... but does not reject asymmetric matrices, whatever the error message says. *)
Theorem C40_asymmetric_accepted_refuted : exists eigvals M s,
  eigvals_exact eigvals 1 1 M /\ entry M 0 1 <> entry M 1 0 /\
  can_be_covariance eigvals M = Ok tt /\ split_multinormal_init eigvals 1 1 M None = Ok s.
Proof. exact asymmetric_accepted. Qed.
Print Assumptions C40_asymmetric_accepted_refuted.

(** C40: wrong shapes and means of a wrong length are rejected, always with ValueError. *)
Theorem C40_wrong_shape_rejected : forall eigvals dim_x dim_y C mean,
  (dim_x < 1)%Z \/ (dim_y < 1)%Z \/
  has_shape C (Z.to_nat dim_x + Z.to_nat dim_y) (Z.to_nat dim_x + Z.to_nat dim_y) = false \/
  ~ proper_mean (Z.to_nat dim_x + Z.to_nat dim_y) mean ->
  split_multinormal_init eigvals dim_x dim_y C mean = Err ValueError.
Proof. exact wrong_shape_rejected. Qed.
Print Assumptions C40_wrong_shape_rejected.
Example C40_wrong_shape_example : has_shape demo_cov (Z.to_nat 2 + Z.to_nat 1) (Z.to_nat 2 + Z.to_nat 1) = false.
Proof. reflexivity. Qed.

(** C42: mutual information of the Student distribution. *)
Theorem C42_formula : forall eigvals psi log_gamma (m n : nat) C mean df st,
  (sigma m n C)^T = sigma m n C -> eigvals_ok (m + n) C (eigvals C) ->
  split_student_init eigvals (Z.of_nat m) (Z.of_nat n) (Fin df) C mean = Ok st ->
  [/\ Rlt 0 df, mi_normal st = Fin (gaussian_mi (sigma m n C)),
      mi_correction psi log_gamma st = Fin (student_correction psi log_gamma df m n)
    & split_student_mi psi log_gamma st
      = Fin (Rplus (gaussian_mi (sigma m n C)) (student_correction psi log_gamma df m n))].
Proof. exact student_mi. Qed.
Print Assumptions C42_formula.

(** C42: it is the expectation of the log-density ratio, under every expectation operator
    for which the logarithmic moments of the pair and of its halves are those of the
    Student distribution. *)
Theorem C42_expected_log_ratio : forall eigvals psi log_gamma (m n : nat) C mean df st I E mu,
  (sigma m n C)^T = sigma m n C -> eigvals_ok (m + n) C (eigvals C) ->
  split_student_init eigvals (Z.of_nat m) (Z.of_nat n) (Fin df) C mean = Ok st ->
  let S := sigma m n C in
  expectation I E ->
  student_log_moment psi df I E mu S ->
  student_log_moment psi df (fun f => I (fun z => f (usubmx z))) (fun f => E (fun z => f (usubmx z)))
    (usubmx mu) (ulsubmx S) ->
  student_log_moment psi df (fun f => I (fun z => f (dsubmx z))) (fun f => E (fun z => f (dsubmx z)))
    (dsubmx mu) (drsubmx S) ->
  let pmi := pointwise_mi (student_log_density log_gamma df mu S)
               (student_log_density log_gamma df (usubmx mu) (ulsubmx S))
               (student_log_density log_gamma df (dsubmx mu) (drsubmx S)) in
  I pmi /\ split_student_mi psi log_gamma st = Fin (E pmi).
Proof. exact student_expected_pmi. Qed.
Print Assumptions C42_expected_log_ratio.
Example C42_expected_example :
  (exists st, split_student_init demo_eigvals 1 1 (Fin 3) demo_cov None = Ok st) /\ expectation demo_I demo_E /\
  student_log_moment demo_psi 3 demo_I demo_E 0 (sigma 1 1 demo_cov) /\
  student_log_moment demo_psi 3 (fun f => demo_I (fun z => f (usubmx z))) (fun f => demo_E (fun z => f (usubmx z)))
    (usubmx (0 : 'cV[R]_(1 + 1))) (ulsubmx (sigma 1 1 demo_cov)) /\
  student_log_moment demo_psi 3 (fun f => demo_I (fun z => f (dsubmx z))) (fun f => demo_E (fun z => f (dsubmx z)))
    (dsubmx (0 : 'cV[R]_(1 + 1))) (drsubmx (sigma 1 1 demo_cov)).
Proof. split; [by eexists; exact demo_student|]; split; [exact demo_expectation | exact demo_student_moments]. Qed.

(** C42: for every dispersion (symmetric or not) it is the value of SplitMultinormal with
    the same dispersion plus a term depending on df and the dimensions only. *)
Theorem C42_gaussian_plus_correction : forall eigvals psi log_gamma dim_x dim_y df C mean st s,
  split_student_init eigvals dim_x dim_y df C mean = Ok st ->
  split_multinormal_init eigvals dim_x dim_y C mean = Ok s ->
  mi_normal st = split_multinormal_mi s /\
  split_student_mi psi log_gamma st
  = fl_add (split_multinormal_mi s) (mi_correction_function psi log_gamma df (Z.to_nat dim_x) (Z.to_nat dim_y)).
Proof. exact student_same_normal. Qed.
Print Assumptions C42_gaussian_plus_correction.

(** C42: which arguments are accepted. *)
Theorem C42_accepts : forall eigvals dim_x dim_y df C mean,
  (exists st, split_student_init eigvals dim_x dim_y (Fin df) C mean = Ok st) <->
  Rlt 0 df /\ exists s, split_multinormal_init eigvals dim_x dim_y C mean = Ok s.
Proof. exact student_accepts. Qed.
Print Assumptions C42_accepts.

(** C42: the covariance exists for df > 2 only. *)
Theorem C42_covariance : forall eigvals dim_x dim_y df C mean st,
  split_student_init eigvals dim_x dim_y (Fin df) C mean = Ok st ->
  (Rlt 2 df -> split_student_covariance st
               = Ok (List.map (List.map (fun v => Fin (Rdiv (Rmult df v) (Rminus df 2)))) C)) /\
  (Rle df 2 -> split_student_covariance st = Err ValueError).
Proof. exact student_covariance. Qed.
Print Assumptions C42_covariance.
Example C42_example : (sigma 1 1 demo_cov)^T = sigma 1 1 demo_cov /\
  eigvals_ok 2 demo_cov (demo_eigvals demo_cov) /\
  (exists st, split_student_init demo_eigvals 1 1 (Fin 3) demo_cov None = Ok st) /\
  (exists s, split_multinormal_init demo_eigvals 1 1 demo_cov None = Ok s).
Proof.
  split; [exact demo_cov_sym|]; split; [exact (proj1 demo_cov_exact)|].
  split; [by eexists; exact demo_student | by exists demo_normal; exact demo_accepted].
Qed.

(** C42: the documented df = inf does not give the Gaussian case but NaN. *)
Theorem C42_infinite_df_refuted : forall eigvals psi log_gamma dim_x dim_y C mean st,
  split_student_init eigvals dim_x dim_y PInf C mean = Ok st ->
  split_student_mi psi log_gamma st = NaN /\
  split_student_covariance st = Ok (List.map (List.map (fun _ => NaN)) C).
Proof. exact student_infinite_df. Qed.
Print Assumptions C42_infinite_df_refuted.
Example C42_infinite_df_example : exists st, split_student_init demo_eigvals 1 1 PInf demo_cov None = Ok st.
Proof. eexists; apply/student_init_ok; exists demo_normal; split; [exact demo_accepted | reflexivity | reflexivity]. Qed.

(** C42: sampling one point always fails; otherwise the rows are split. *)
Theorem C42_one_point_refuted : forall (J : prng) mvt (st : split_student) (rng : seed J),
  (forall r mu D df k, List.length (mvt r mu D df k) = k) ->
  exists e, @split_student_sample mvt J st 1 rng = Err e.
Proof. exact student_sample_one. Qed.
Print Assumptions C42_one_point_refuted.

Theorem C42_sample : forall eigvals (J : prng) mvt dim_x dim_y df C mean st k r,
  (forall r mu D df k, List.length (mvt r mu D df k) = k) -> k <> 1%N ->
  split_student_init eigvals dim_x dim_y df C mean = Ok st ->
  let rows := mvt r (the_mean (Z.to_nat dim_x + Z.to_nat dim_y) mean) C df k in
  @split_student_sample mvt J st k (SeedInt r : seed J)
  = Ok (List.map (List.firstn (Z.to_nat dim_x)) rows, List.map (List.skipn (Z.to_nat dim_x)) rows).
Proof. exact student_draws. Qed.
Print Assumptions C42_sample.
Example C42_sample_example : (exists st, split_student_init demo_eigvals 1 1 (Fin 3) demo_cov None = Ok st) /\
  forall (r : Z) (mu : list R) (D : UtilsModel.matrix) (df : fl) (k : nat), List.length (List.repeat mu k) = k.
Proof. split; [by eexists; exact demo_student|]; by move=> r mu D df k; exact: List.repeat_length. Qed.

(** C37: the entropies the value is computed from are the expectations of - log p for the
    normal density p ... *)
Theorem C37_entropy : forall eigvals (n : nat) mean C d I E mu, multinormal_init eigvals mean C = Ok d ->
  n = List.length mean -> (0 < n)%N ->
  (to_mx n n C)^T = to_mx n n C -> eigvals_ok n C (eigvals C) ->
  expectation I E -> has_covariance I E mu (to_mx n n C) ->
  entropy d = Fin (E (fun z => Ropp (normal_log_density mu (to_mx n n C) z))).
Proof. exact normal_entropy. Qed.
Print Assumptions C37_entropy.
Example C37_entropy_example : (exists d, multinormal_init demo_eigvals [:: IZR 0; IZR 0] demo_cov = Ok d) /\
  (to_mx 2 2 demo_cov)^T = to_mx 2 2 demo_cov /\ eigvals_ok 2 demo_cov (demo_eigvals demo_cov) /\
  expectation demo_I demo_E /\ has_covariance demo_I demo_E 0 (sigma 1 1 demo_cov).
Proof.
  split; [|by split; [exact demo_cov_sym|]; split; [exact (proj1 demo_cov_exact)|];
           split; [exact demo_expectation | exact demo_has_covariance]].
  eexists; apply/multinormal_init_ok; split; [reflexivity|]; split; [|reflexivity].
  exact (proj2 (@accepted_symmetric demo_eigvals 2 demo_cov isT isT (proj1 demo_cov_exact) demo_cov_sym) demo_posdef).
Qed.

(** C42: ... and likewise for the standard Student distribution. *)
Theorem C42_entropy : forall psi log_gamma (n : nat) df I E mu, Rlt 0 df ->
  expectation I E -> student_log_moment psi df I E mu (1%:M : 'M[R]_n) ->
  student_entropy psi log_gamma n (Fin df)
  = Fin (E (fun z => Ropp (student_log_density log_gamma df mu (1%:M : 'M[R]_n) z))).
Proof. exact standard_student_entropy. Qed.
Print Assumptions C42_entropy.
Example C42_entropy_example :
  let psi := fun t => if Req_EM_T t (Rdiv 3 2) then R0 else demo_log_moment demo_E (1%:M : 'M[R]_(1 + 1)) in
  expectation demo_I demo_E /\ student_log_moment psi 3 demo_I demo_E 0 (1%:M : 'M[R]_(1 + 1)).
Proof.
  move=> psi; split; [exact demo_expectation|]; split=> //; rewrite /psi.
  case: (Req_EM_T (Rdiv (Rplus 3 (INR _)) 2) _) => h; [by exfalso; move: h; rewrite /=; lra|].
  by case: (Req_EM_T (Rdiv 3 2) _) => h3 //; rewrite Rminus_0_r.
Qed.

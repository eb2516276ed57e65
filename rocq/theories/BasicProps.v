(** The property C75: the basic tasks of [benchmark/tasks]. *)
From Coq Require Import String.
From Verif Require Import Base UtilsModel JaxModel SamplersModel GaussianModel MatrixUtilsModel TransformsModel
  BaseLemmas TransformsSpec MatrixUtilsSpec TrainingSpec TrainingExamples SamplersSpec SamplersExamples BenchmarkModel BenchmarkSpec
  TasksModel TasksSpec GaussianSpec TasksGaussian TasksExamples BasicSpec BasicThms BasicExamples.
Open Scope Z_scope.
Local Notation length := List.length.

(** Uniform variable with uniform noise: the mutual information is the true one. *)
Theorem C75_additive :
  forall (J : prng) F D, prng_ok J -> draws_ok J D -> forall eps, (0 < eps)%R -> exists mi,
  is_additive_mi eps mi /\ (forall v, is_additive_mi eps v -> v = mi) /\
  forall h, builds (task_additive_noise F D eps) h ("1v1-additive-" ++ float_repr F eps)
    ("Uniform 1 × 1 (additive noise=" ++ float_repr F eps ++ ")") 1 1 mi [("epsilon", PFloat (Fin eps))]%string
    (noisy_pairs D eps).
Proof. exact (@additive_build). Qed.
Print Assumptions C75_additive.
Example C75_additive_example :
  exists mi, builds (task_additive_noise ex_formats demo_draws (10 / 100)) [] "1v1-additive-0.1"
    "Uniform 1 × 1 (additive noise=0.1)" 1 1 mi [("epsilon", PFloat (Fin (10 / 100)))]%string (noisy_pairs demo_draws (10 / 100)).
Proof. exact additive_instance. Qed.

(** One pair of normal variables. *)
Theorem C75_bivariate :
  forall (J : prng) F eigvals mvn, eigvals_positive eigvals -> forall rho h, (-1 < rho < 1)%R ->
  builds (J := J) (task_bivariate_normal F eigvals mvn rho) h ("1v1-normal-" ++ float_repr F rho) "Bivariate normal 1 × 1" 1 1
    (paired_mi 1 rho) [("gaussian_correlation", PFloat (Fin rho))]%string (normal_pairs mvn 1 1 (constant_off rho)).
Proof. exact (@bivariate_build). Qed.
Print Assumptions C75_bivariate.
Example C75_bivariate_example :
  builds (J := demo) (task_bivariate_normal ex_formats ex_eigvals ex_mvn (75 / 100)) [] "1v1-normal-0.75" "Bivariate normal 1 × 1" 1 1
    (- (1 / 2) * ln (7 / 16)) [("gaussian_correlation", PFloat (Fin (75 / 100)))]%string (normal_pairs ex_mvn 1 1 (constant_off (75 / 100))).
Proof. exact bivariate_instance. Qed.

(** The bimodal task replaces the values of a normal pair by the quantiles of the two mixtures of normal distributions, with the same mutual information. *)
Theorem C75_bimodal :
  forall (J : prng) F eigvals mvn, eigvals_positive eigvals -> forall erf rho h, is_erf erf -> (-1 < rho < 1)%R ->
  builds (J := J) (task_bimodal_gaussians F erf eigvals mvn rho) h ("1v1-bimodal-" ++ float_repr F rho) "Bimodal 1 × 1" 1 1
    (paired_mi 1 rho) [("gaussian_correlation", PFloat (Fin rho))]%string
    (fun s => exists g, normal_pairs mvn 1 1 (constant_off rho) g /\
       let Phi := phi_of erf in
       entries_related (quantile_matched Phi (fun x => 3 / 10 * Phi x + 7 / 10 * Phi (x - 5)))
                       (quantile_matched Phi (fun x => 1 / 2 * Phi (x + 1) + 1 / 2 * Phi (x - 3))) g s)%R.
Proof. exact (@bimodal_build). Qed.
Print Assumptions C75_bimodal.
Example C75_bimodal_example :
  exists erf, is_erf erf /\ exists h t, task_bimodal_gaussians (J := demo) ex_formats erf ex_eigvals ex_mvn (75 / 100) [] = (h, Ok t) /\
    usable t h.
Proof. exact bimodal_instance. Qed.

(** Correlations outside (-1, 1) and widths of the noise which are not positive are rejected. *)
Theorem C75_rejected_arguments :
  (forall (J : prng) F D eps h, (eps <= 0)%R -> task_additive_noise (J := J) F D eps h = (h, Err ValueError)) /\
  (forall (J : prng) F eigvals mvn rho h, (rho <= -1 \/ 1 <= rho)%R ->
    task_bivariate_normal (J := J) F eigvals mvn rho h = (h, Err ValueError)) /\
  (forall (J : prng) F eigvals mvn erf rho h, (rho <= -1 \/ 1 <= rho)%R ->
    task_bimodal_gaussians (J := J) F erf eigvals mvn rho h = (h, Err ValueError)).
Proof. exact (conj (@additive_reject) (conj (@bivariate_reject) (@bimodal_reject))). Qed.
Print Assumptions C75_rejected_arguments.
Example C75_rejected_arguments_example :
  task_bivariate_normal (J := demo) ex_formats ex_eigvals ex_mvn 1 [] = ([], Err ValueError).
Proof. apply bivariate_reject. right. apply Rle_refl. Qed.

(** The latent variable model with the same coefficients on both sides; a missing [eta] is [lambd].  The mutual information is that of the covariance of the model. *)
Theorem C75_latent :
  forall (J : prng) F eigvals mvn, eigvals_positive eigvals ->
  forall dx dy k alpha lambd beta eta name h, 1 <= dx -> 1 <= dy -> 0 <= k <= Z.min dx dy ->
  let a := Z.to_nat dx in let b := Z.to_nat dy in
  let e := match eta with Some v => v | None => lambd end in
  let cov := latent_cov a (Z.to_nat k) alpha lambd beta e in
  exists C, has_entries (a + b) C cov /\
  builds (J := J) (task_multinormal_lvm F eigvals mvn dx dy k alpha lambd beta eta name) h
    (dashed (["multinormal"; "lvm"; int_str dx; int_str dy; int_str k]%string ++ map (float_fixed F 5) [alpha; lambd; beta; e]))
    (given name ("Multinormal " ++ int_str dx ++ " × " ++ int_str dy ++ " (LVM)")) dx dy
    (gaussian_mi (sigma a b C)) (latent_parameters dx dy k alpha lambd beta e) (normal_pairs mvn a b (normalised cov)).
Proof. exact (@latent_build). Qed.
Print Assumptions C75_latent.
Example C75_latent_example :
  exists mi, builds (J := demo) (task_multinormal_lvm ex_formats ex_eigvals ex_mvn 3 2 1 (1 / 2) 2 0 None None) []
    "multinormal-lvm-3-2-1-0.00000-0.00000-0.00000-0.00000" "Multinormal 3 × 2 (LVM)" 3 2 mi (latent_parameters 3 2 1 (1 / 2) 2 0 2)
    (normal_pairs ex_mvn 3 2 (normalised (latent_cov 3 1 (1 / 2) 2 0 2))).
Proof. exact latent_instance. Qed.

(** Pairs with the same interaction: the mutual information in closed form. *)
Theorem C75_sparse :
  forall (J : prng) F eigvals mvn, eigvals_positive eigvals ->
  forall dx dy k st name h, 1 <= dx -> 1 <= dy -> 0 <= k <= Z.min dx dy ->
  let a := Z.to_nat dx in let r := strength_correlation st in
  builds (J := J) (task_multinormal_sparse F eigvals mvn dx dy k st name) h
    (dashed ["multinormal"; "sparse"; int_str dx; int_str dy; int_str k; float_repr F st]%string)
    (given name ("Multinormal " ++ int_str dx ++ " × " ++ int_str dy ++ " (sparse)")) dx dy
    (paired_mi (Z.to_nat k) r) [("n_interacting", PInt k); ("strength", PFloat (Fin st))]%string
    (normal_pairs mvn a (Z.to_nat dy) (paired_off a (Z.to_nat k) r)).
Proof. exact (@sparse_build). Qed.
Print Assumptions C75_sparse.
Example C75_sparse_example :
  builds (J := demo) (task_multinormal_sparse ex_formats ex_eigvals ex_mvn 4 3 3 2 (Some "Mine"%string)) []
    "multinormal-sparse-4-3-3-2.0" "Mine" 4 3 (- (3 / 2) * ln (9 / 25)) [("n_interacting", PInt 3); ("strength", PFloat (Fin 2))]%string
    (normal_pairs ex_mvn 4 3 (paired_off 4 3 (4 / 5))).
Proof. exact sparse_instance. Qed.

(** Two interacting pairs. *)
Theorem C75_two_pair :
  forall (J : prng) F eigvals mvn, eigvals_positive eigvals -> forall dx dy st name h, 2 <= dx -> 2 <= dy ->
  let a := Z.to_nat dx in let r := strength_correlation st in
  builds (J := J) (task_multinormal_2pair F eigvals mvn dx dy st name) h
    (dashed ["multinormal"; "sparse"; int_str dx; int_str dy; "2"; float_repr F st]%string)
    (given name ("Multinormal " ++ int_str dx ++ " × " ++ int_str dy ++ " (2-pair)")) dx dy
    (paired_mi 2 r) [("n_interacting", PInt 2); ("strength", PFloat (Fin st))]%string
    (normal_pairs mvn a (Z.to_nat dy) (paired_off a 2 r)).
Proof. exact (@pair_build). Qed.
Print Assumptions C75_two_pair.
Example C75_two_pair_example :
  builds (J := demo) (task_multinormal_2pair ex_formats ex_eigvals ex_mvn 25 25 2 None) []
    "multinormal-sparse-25-25-2-2.0" "Multinormal 25 × 25 (2-pair)" 25 25 (- ln (9 / 25))
    [("n_interacting", PInt 2); ("strength", PFloat (Fin 2))]%string (normal_pairs ex_mvn 25 25 (paired_off 25 2 (4 / 5))).
Proof. exact pair_instance. Qed.

(** Equally correlated variables: the mutual information in closed form. *)
Theorem C75_dense :
  forall (J : prng) F eigvals mvn, eigvals_positive eigvals ->
  forall dx dy r name h, 1 <= dx -> 1 <= dy -> (r < 1)%R -> (-1 < (IZR (dx + dy) - 1) * r)%R ->
  let a := Z.to_nat dx in let b := Z.to_nat dy in
  builds (J := J) (task_multinormal_dense F eigvals mvn dx dy r name) h
    (dashed ["multinormal"; "dense"; int_str dx; int_str dy; float_repr F r]%string)
    (given name ("Multinormal " ++ int_str dx ++ " × " ++ int_str dy ++ " (dense)")) dx dy
    (dense_mi a b r) [("off_diag", PFloat (Fin r)); ("covariance", listed (a + b) (constant_off r))]%string
    (normal_pairs mvn a b (constant_off r)).
Proof. exact (@dense_build). Qed.
Print Assumptions C75_dense.
Example C75_dense_example :
  builds (J := demo) (task_multinormal_dense ex_formats ex_eigvals ex_mvn 2 3 (5 / 10) None) []
    "multinormal-dense-2-3-0.5" "Multinormal 2 × 3 (dense)" 2 3 (/ 2 * ln 2)
    [("off_diag", PFloat (Fin (5 / 10))); ("covariance", listed 5 (constant_off (5 / 10)))]%string
    (normal_pairs ex_mvn 2 3 (constant_off (5 / 10))).
Proof. exact dense_instance. Qed.

(** The other correlations are rejected: these are all, as the matrix is then not positive definite. *)
Theorem C75_dense_rejected :
  forall (J : prng) F eigvals mvn psi log_gamma mvt dx dy r, 1 <= dx -> 1 <= dy ->
  (let C := constant_correlation (dx + dy) r in eigvals_ok (Z.to_nat dx + Z.to_nat dy) C (eigvals C)) ->
  (1 <= r \/ (IZR (dx + dy) - 1) * r <= -1)%R -> forall df name h,
  task_multinormal_dense (J := J) F eigvals mvn dx dy r name h = (h, Err ValueError) /\
  task_student_dense (J := J) F eigvals psi log_gamma mvt dx dy df r name h = (h, Err ValueError).
Proof. exact (@dense_reject). Qed.
Print Assumptions C75_dense_rejected.
Example C75_dense_rejected_example :
  exists eigvals, (let C := constant_correlation (2 + 3) 2 in eigvals_ok (Z.to_nat 2 + Z.to_nat 3) C (eigvals C)) /\
    task_multinormal_dense (J := demo) ex_formats eigvals ex_mvn 2 3 2 None [] = ([], Err ValueError).
Proof. exact dense_rejected_instance. Qed.

(** Student variables, uncorrelated: the mutual information is the correction of the Student distribution. *)
Theorem C75_student_identity :
  forall (J : prng) eigvals psi log_gamma mvt, eigvals_positive eigvals -> (forall r mu D df k, length (mvt r mu D df k) = k) ->
  forall dx dy df name h, 1 <= dx -> 1 <= dy -> 1 <= df ->
  let a := Z.to_nat dx in let b := Z.to_nat dy in
  let c := student_correction psi log_gamma (IZR df) a b in
  (0 <= c)%R ->
  builds (J := J) (task_student_identity eigvals psi log_gamma mvt dx dy df name) h
    (dashed ["student"; "identity"; int_str dx; int_str dy; int_str df]%string)
    (given name ("Student-t " ++ int_str dx ++ " × " ++ int_str dy ++ " (dof=" ++ int_str df ++ ")")) dx dy
    c [("dof", PInt df)]%string (student_pairs mvt a b df (constant_off 0)).
Proof. exact (@student_identity_build). Qed.
Print Assumptions C75_student_identity.
Example C75_student_identity_example :
  builds (J := demo) (task_student_identity ex_eigvals (fun _ => 0%R) (fun _ => 0%R) ex_mvt 3 2 5 None) []
    "student-identity-3-2-5" "Student-t 3 × 2 (dof=5)" 3 2 0 [("dof", PInt 5)]%string (student_pairs ex_mvt 3 2 5 (constant_off 0)).
Proof. exact student_identity_instance. Qed.

(** Student variables, equally correlated. *)
Theorem C75_student_dense :
  forall (J : prng) F eigvals psi log_gamma mvt, eigvals_positive eigvals -> (forall r mu D df k, length (mvt r mu D df k) = k) ->
  forall dx dy df r name h, 1 <= dx -> 1 <= dy -> 1 <= df -> (r < 1)%R -> (-1 < (IZR (dx + dy) - 1) * r)%R ->
  let a := Z.to_nat dx in let b := Z.to_nat dy in
  let mi := (dense_mi a b r + student_correction psi log_gamma (IZR df) a b)%R in
  (0 <= mi)%R ->
  builds (J := J) (task_student_dense F eigvals psi log_gamma mvt dx dy df r name) h
    (dashed ["student"; "dense"; int_str dx; int_str dy; int_str df; float_repr F r]%string)
    (given name ("Student-t " ++ int_str dx ++ " × " ++ int_str dy ++ " (dof=" ++ int_str df ++ ", dense)")) dx dy
    mi [("dof", PInt df); ("off_diag", PFloat (Fin r)); ("dispersion", listed (a + b) (constant_off r))]%string
    (student_pairs mvt a b df (constant_off r)).
Proof. exact (@student_dense_build). Qed.
Print Assumptions C75_student_dense.
Example C75_student_dense_example :
  builds (J := demo) (task_student_dense ex_formats ex_eigvals (fun _ => 0%R) (fun _ => 0%R) ex_mvt 2 3 7 (5 / 10) None) []
    "student-dense-2-3-7-0.5" "Student-t 2 × 3 (dof=7, dense)" 2 3 (/ 2 * ln 2)
    [("dof", PInt 7); ("off_diag", PFloat (Fin (5 / 10))); ("dispersion", listed 5 (constant_off (5 / 10)))]%string
    (student_pairs ex_mvt 2 3 7 (constant_off (5 / 10))).
Proof. exact student_dense_instance. Qed.

(** Student variables with interacting pairs. *)
Theorem C75_student_sparse :
  forall (J : prng) F eigvals psi log_gamma mvt, eigvals_positive eigvals -> (forall r mu D df k, length (mvt r mu D df k) = k) ->
  forall dx dy df k st name h, 1 <= dx -> 1 <= dy -> 1 <= df -> 0 <= k <= Z.min dx dy ->
  let a := Z.to_nat dx in let r := strength_correlation st in
  let mi := (paired_mi (Z.to_nat k) r + student_correction psi log_gamma (IZR df) a (Z.to_nat dy))%R in
  (0 <= mi)%R ->
  builds (J := J) (task_student_sparse F eigvals psi log_gamma mvt dx dy df k st name) h
    (dashed ["student"; "sparse"; int_str dx; int_str dy; int_str df; int_str k; float_repr F st]%string)
    (given name ("Student-t " ++ int_str dx ++ " × " ++ int_str dy ++ " (dof=" ++ int_str df ++ ", sparse)")) dx dy
    mi [("dof", PInt df); ("n_interacting", PInt k); ("strength", PFloat (Fin st))]%string
    (student_pairs mvt a (Z.to_nat dy) df (paired_off a (Z.to_nat k) r)).
Proof. exact (@student_sparse_build). Qed.
Print Assumptions C75_student_sparse.
Example C75_student_sparse_example :
  builds (J := demo) (task_student_sparse ex_formats ex_eigvals (fun _ => 0%R) (fun _ => 0%R) ex_mvt 4 3 5 3 2 None) []
    "student-sparse-4-3-5-3-2.0" "Student-t 4 × 3 (dof=5, sparse)" 4 3 (- (3 / 2) * ln (9 / 25))
    [("dof", PInt 5); ("n_interacting", PInt 3); ("strength", PFloat (Fin 2))]%string
    (student_pairs ex_mvt 4 3 5 (paired_off 4 3 (4 / 5))).
Proof. exact student_sparse_instance. Qed.

(** Student variables with two interacting pairs. *)
Theorem C75_student_two_pair :
  forall (J : prng) F eigvals psi log_gamma mvt, eigvals_positive eigvals -> (forall r mu D df k, length (mvt r mu D df k) = k) ->
  forall dx dy df st name h, 2 <= dx -> 2 <= dy -> 1 <= df ->
  let a := Z.to_nat dx in let r := strength_correlation st in
  let mi := (paired_mi 2 r + student_correction psi log_gamma (IZR df) a (Z.to_nat dy))%R in
  (0 <= mi)%R ->
  builds (J := J) (task_student_2pair F eigvals psi log_gamma mvt dx dy df st name) h
    (dashed ["student"; "sparse"; int_str dx; int_str dy; int_str df; "2"; float_repr F st]%string)
    (given name ("Student-t " ++ int_str dx ++ " × " ++ int_str dy ++ " (dof=" ++ int_str df ++ ", 2-pair)")) dx dy
    mi [("dof", PInt df); ("n_interacting", PInt 2); ("strength", PFloat (Fin st))]%string
    (student_pairs mvt a (Z.to_nat dy) df (paired_off a 2 r)).
Proof. exact (@student_pair_build). Qed.
Print Assumptions C75_student_two_pair.
Example C75_student_two_pair_example :
  builds (J := demo) (task_student_2pair ex_formats ex_eigvals (fun _ => 0%R) (fun _ => 0%R) ex_mvt 5 3 2 2 None) []
    "student-sparse-5-3-2-2-2.0" "Student-t 5 × 3 (dof=2, 2-pair)" 5 3 (- ln (9 / 25))
    [("dof", PInt 2); ("n_interacting", PInt 2); ("strength", PFloat (Fin 2))]%string
    (student_pairs ex_mvt 5 3 2 (paired_off 5 2 (4 / 5))).
Proof. exact student_pair_instance. Qed.

(** More interacting pairs than there are variables, or fewer than none, are rejected. *)
Theorem C75_rejected_pairs :
  (forall (J : prng) F eigvals mvn psi log_gamma mvt dx dy k, k < 0 \/ Z.min dx dy < k -> forall alpha lambd beta eta st df name h,
    task_multinormal_lvm (J := J) F eigvals mvn dx dy k alpha lambd beta eta name h = (h, Err ValueError) /\
    task_multinormal_sparse (J := J) F eigvals mvn dx dy k st name h = (h, Err ValueError) /\
    task_student_sparse (J := J) F eigvals psi log_gamma mvt dx dy df k st name h = (h, Err ValueError)) /\
  (forall (J : prng) F eigvals mvn psi log_gamma mvt dx dy, Z.min dx dy < 2 -> forall df st name h,
    task_multinormal_2pair (J := J) F eigvals mvn dx dy st name h = (h, Err ValueError) /\
    task_student_2pair (J := J) F eigvals psi log_gamma mvt dx dy df st name h = (h, Err ValueError)).
Proof. exact (conj (@latent_reject) (@pair_reject)). Qed.
Print Assumptions C75_rejected_pairs.
Example C75_rejected_pairs_example :
  task_multinormal_2pair (J := demo) ex_formats ex_eigvals ex_mvn 1 3 2 None [] = ([], Err ValueError).
Proof. apply (@pair_reject demo ex_formats ex_eigvals ex_mvn (fun x => x) (fun x => x) ex_mvt 1 3); [reflexivity|exact 0]. Qed.

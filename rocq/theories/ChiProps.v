(** C91: the profile of a multivariate normal distribution as a combination of chi-squared variables
    ([scripts/Mixtures/validate_chi2_combination.py]). *)
From Verif Require Import Base BaseLemmas UtilsModel JaxModel SamplersModel GaussianModel MatrixUtilsModel BmmModel MultivariateModel BmmSpec TrainingExamples
  MixturesSpec EigvalsExist ChiModel ChiSpec ChiProofs ChiThms ChiPlot ChiExamples.
Open Scope R_scope.
Local Notation length := List.length.

(** C91: for canonical correlations [rho] below one in absolute value, the pointwise mutual information at every point is
    the mutual information plus the sum of [rho_i / 2] times the difference of two squares: of the sum and of the difference
    of the paired coordinates, each divided by its standard deviation. *)
Theorem C91_pointwise : forall J eigvals cholesky (normal_draw : list R -> option matrix -> key J -> nat -> matrix),
  eigvals_symmetric eigvals -> factorises cholesky ->
  forall rho extra, rho <> [] -> (0 <= extra)%Z -> Forall (fun r => Rabs r < 1) rho ->
  exists C d, canonical_correlation rho extra = Ok C /\
    normal_distribution eigvals cholesky normal_draw (Z.of_nat (length rho)) (Z.of_nat (length rho) + extra) C None = Ok d /\
    jd_dim_x d = length rho /\ jd_dim_y d = (length rho + Z.to_nat extra)%nat /\
    dist_joint d = construct_normal cholesky normal_draw (repeat 0 (length rho + (length rho + Z.to_nat extra))) C /\
    analytic_mi d = Some (Fin (canonical_information rho)) /\
    forall x y, length x = length rho -> length y = (length rho + Z.to_nat extra)%nat ->
      point_pmi d x y = Fin (canonical_information rho + chi2_terms rho (fun i => plus_part rho i x y) (fun i => minus_part rho i x y)).
Proof. exact @canonical_pointwise. Qed.
Print Assumptions C91_pointwise.
Example C91_pointwise_example : (exists eigvals cholesky, eigvals_symmetric eigvals /\ factorises cholesky) /\
  Forall (fun r => Rabs r < 1) [8 / 10; - (1 / 2)] /\ [8 / 10; - (1 / 2)] <> [].
Proof. exact (conj chi_oracles mixed_correlations). Qed.

(** C91: these parts are uncorrelated and have unit variance, whatever the distribution with the given second moments. *)
Theorem C91_parts : forall rho E, linear E -> Forall (fun r => Rabs r < 1) rho -> canonical_moments rho E ->
  forall i j, (i < length rho)%nat -> (j < length rho)%nat ->
    E (fun z => plus_part rho i (fst z) (snd z) * plus_part rho j (fst z) (snd z)) = (if Nat.eqb i j then 1 else 0) /\
    E (fun z => minus_part rho i (fst z) (snd z) * minus_part rho j (fst z) (snd z)) = (if Nat.eqb i j then 1 else 0) /\
    E (fun z => plus_part rho i (fst z) (snd z) * minus_part rho j (fst z) (snd z)) = 0.
Proof. exact parts_standard. Qed.
Print Assumptions C91_parts.
Example C91_parts_example : linear signs /\ Forall (fun r => Rabs r < 1) [1 / 2] /\ canonical_moments [1 / 2] signs.
Proof. exact (conj signs_linear (conj half_small signs_moments)). Qed.

(** C91: the combination has the mutual information as its mean and the sum of the squared correlations as its variance. *)
Theorem C91_moments : forall A (E : (A -> R) -> R), linear E -> forall rho a b mi, standard_squares (length rho) a b E ->
  E (fun z => mi + chi2_terms rho (fun i => a i z) (fun i => b i z)) = mi /\
  E (fun z => (mi + chi2_terms rho (fun i => a i z) (fun i => b i z) - mi) ^ 2) = rsum (map (fun r => r * r) rho).
Proof. exact @chi2_moments. Qed.
Print Assumptions C91_moments.
Example C91_moments_example : linear two_variables /\ standard_squares (length [1 / 2]) (fun _ z => fst z) (fun _ z => snd z) two_variables.
Proof. exact (conj two_linear two_squares). Qed.

(** C91: what a panel shows: the profile at the drawn points, the combination of the squared standard normal draws, the mutual
    information and one standard deviation on both of its sides. *)
Theorem C91_panel : forall J eigvals cholesky (normal_draw : list R -> option matrix -> key J -> nat -> matrix) standard_normal,
  eigvals_symmetric eigvals -> factorises cholesky -> draws_points normal_draw ->
  forall rho extra k k0 k1, rho <> [] -> (0 <= extra)%Z -> Forall (fun r => Rabs r < 1) rho ->
  split J (prng_key J 21) 3 = [k; k0; k1] ->
  exists C c, canonical_correlation rho extra = Ok C /\ plot_samples eigvals cholesky normal_draw standard_normal rho extra = Ok c /\
    drawn rho (normal_draw (repeat 0 (length rho + (length rho + Z.to_nat extra))) (cholesky C) k0 (Z.to_nat 20000))
      (standard_normal k1 (2 * length rho)%nat (Z.to_nat 20000)) c.
Proof. exact @plot_drawn. Qed.
Print Assumptions C91_panel.
Example C91_panel_example : draws_points still_draw /\ exists k k0 k1, split demo (prng_key demo 21) 3 = [k; k0; k1].
Proof. exact (conj still_points demo_three). Qed.

(** C91: the check of the two formulas stops the script exactly when some correlation is not below one in absolute value. *)
Theorem C91_refused : forall J eigvals cholesky (normal_draw : list R -> option matrix -> key J -> nat -> matrix) standard_normal rho extra,
  (0 <= extra)%Z -> ~ Forall (fun r => Rabs r < 1) rho ->
  plot_samples eigvals cholesky normal_draw standard_normal rho extra = Err AssertionError.
Proof. exact @plot_refused. Qed.
Print Assumptions C91_refused.
Example C91_refused_example : ~ Forall (fun r => Rabs r < 1) [1 / 2; 1].
Proof. exact perfect_correlation. Qed.

(** C91: further coordinates of Y do not change the pointwise mutual information. *)
Theorem C91_extra : forall J eigvals cholesky (normal_draw : list R -> option matrix -> key J -> nat -> matrix),
  eigvals_symmetric eigvals -> factorises cholesky ->
  forall rho e1 e2, rho <> [] -> (0 <= e1)%Z -> (0 <= e2)%Z -> Forall (fun r => Rabs r < 1) rho ->
  exists C1 C2 d1 d2, canonical_correlation rho e1 = Ok C1 /\ canonical_correlation rho e2 = Ok C2 /\
    normal_distribution eigvals cholesky normal_draw (Z.of_nat (length rho)) (Z.of_nat (length rho) + e1) C1 None = Ok d1 /\
    normal_distribution eigvals cholesky normal_draw (Z.of_nat (length rho)) (Z.of_nat (length rho) + e2) C2 None = Ok d2 /\
    forall x y u v, length x = length rho -> length y = length rho -> length u = Z.to_nat e1 -> length v = Z.to_nat e2 ->
      point_pmi d1 x (y ++ u) = point_pmi d2 x (y ++ v).
Proof. exact @extra_ignored. Qed.
Print Assumptions C91_extra.
Example C91_extra_example : (exists eigvals cholesky, eigvals_symmetric eigvals /\ factorises cholesky) /\
  Forall (fun r => Rabs r < 1) [8 / 10; - (1 / 2)] /\ [8 / 10; - (1 / 2)] <> [].
Proof. exact (conj chi_oracles mixed_correlations). Qed.

(** C91: the four panels; the two in the lower row differ in the drawn points only. *)
Theorem C91_figure : forall J eigvals cholesky (normal_draw : list R -> option matrix -> key J -> nat -> matrix) standard_normal,
  eigvals_symmetric eigvals -> factorises cholesky -> draws_points normal_draw ->
  forall k k0 k1, split J (prng_key J 21) 3 = [k; k0; k1] ->
  exists c1 c2 c3 c4 C1 C2 C3 C4, main eigvals cholesky normal_draw standard_normal = Ok [c1; c2; c3; c4] /\
    canonical_correlation [8 / 10; 5 / 10] 0 = Ok C1 /\ canonical_correlation [7 / 10; 7 / 10; 7 / 10] 0 = Ok C2 /\
    canonical_correlation [5 / 10; 0; 0] 1 = Ok C3 /\ canonical_correlation [5 / 10; 0; 0] 3 = Ok C4 /\
    let points C n := normal_draw (repeat 0 n) (cholesky C) k0 (Z.to_nat 20000) in
    let noise n := standard_normal k1 n (Z.to_nat 20000) in
    drawn [8 / 10; 5 / 10] (points C1 4%nat) (noise 4%nat) c1 /\ drawn [7 / 10; 7 / 10; 7 / 10] (points C2 6%nat) (noise 6%nat) c2 /\
    drawn [5 / 10; 0; 0] (points C3 7%nat) (noise 6%nat) c3 /\ drawn [5 / 10; 0; 0] (points C4 9%nat) (noise 6%nat) c4 /\
    cp_line c3 = cp_line c4 /\ cp_span c3 = cp_span c4 /\ cp_chi2 c3 = cp_chi2 c4 /\ cp_analytic c3 = 1 / 4 /\ cp_analytic c4 = 1 / 4.
Proof. exact @main_drawn. Qed.
Print Assumptions C91_figure.
Example C91_figure_example : draws_points still_draw /\ exists k k0 k1, split demo (prng_key demo 21) 3 = [k; k0; k1].
Proof. exact (conj still_points demo_three). Qed.

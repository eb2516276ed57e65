(** C98: the figures of the concept and the script about spirals. *)
From Coq Require Import String.
From Verif Require Import Base UtilsModel JaxModel SamplersModel GaussianModel MatrixUtilsModel MatrixUtilsSpec TransformsModel TransformsSpec TasksModel TasksGaussian MixturesSpec BasicSpec TrainingExamples TasksExamples ExpmProofs
  ConceptModel ConceptSpec ConceptGaussian ConceptSpiral ConceptThms ConceptExamples.
Open Scope R_scope.
Local Notation length := List.length.

(** The comment in the script asks for injections: f_2 is increasing and g_2 is decreasing; f_2 takes values in (0, 3) and is
    nearly 0, 1, 2 and 3 on four stairs. *)
Theorem C98_stairs : strictly_increasing f2 /\ (forall x y, x < y -> g2 y < g2 x) /\ (forall x, 0 < f2 x < 3) /\
  f2 (-3) < 1 / 1000 /\ Rabs (f2 (-1) - 1) < 1 / 1000 /\ Rabs (f2 (1 / 2) - 2) < 1 / 1000 /\ 3 - 1 / 1000 < f2 2.
Proof. exact stairs_shape. Qed.
Print Assumptions C98_stairs.

(** and g_1 is increasing. *)
Theorem C98_erf : forall erf, is_erf erf -> strictly_increasing erf.
Proof. exact erf_increasing. Qed.
Print Assumptions C98_erf.
Example C98_erf_example : is_erf true_erf.
Proof. exact true_erf_ok. Qed.

(** The numbers in the titles are the mean and the standard deviation of the estimates for the seeds 0, 1, .. *)
Theorem C98_estimates : forall (J : prng) estimate (s : sampler J) f g points seeds vs, (0 < seeds)%nat -> estimated_with estimate f g s points seeds vs ->
  exists m d, get_estimates estimate s f g points seeds = Ok (Fin m, Fin d) /\ summarises vs m d.
Proof. exact @estimates_summarised. Qed.
Print Assumptions C98_estimates.
Example C98_estimates_example : estimated_with first_x (fun v => v) (fun v => v) seed_sampler 5 2 [1; 3] /\
  exists m d, get_estimates first_x seed_sampler (fun v => v) (fun v => v) 5 2 = Ok (Fin m, Fin d) /\ m = 2 /\ d = 1.
Proof. exact seeds_one_three. Qed.

(** There is one mean and one standard deviation. *)
Theorem C98_summary : forall vs m d m' d', vs <> [] -> summarises vs m d -> summarises vs m' d' -> m = m' /\ d = d'.
Proof. exact summary_unique. Qed.
Print Assumptions C98_summary.
Example C98_summary_example : summarises [1; 3] 2 1.
Proof. exact one_three. Qed.

(** 1v1.py: three panels about one sampler, with correlation 19/20 and so the true value 1/2 ln (400/39), before and after (f_1, g_1) and (f_2, g_2). *)
Theorem C98_one : forall (J : prng) eigvals mvn erf estimate, eigvals_positive eigvals -> draws_rows mvn -> (forall x y, exists v, estimate x y = Ok v) ->
  exists (s : sampler J) a b c, concept_1v1 eigvals mvn erf estimate = Ok [a; b; c] /\ normal_pairs mvn 1 1 (paired_off 1 1 (19 / 20)) s /\
    (shows_1v1 estimate s (fun x => x) (fun y => y) a /\ cp_x_label a = "$X$" /\ cp_y_label a = "$Y$")%string /\
    (shows_1v1 estimate s f1 erf b /\ cp_x_label b = "$f_1(X)$" /\ cp_y_label b = "$g_1(Y)$")%string /\
    (shows_1v1 estimate s f2 g2 c /\ cp_x_label c = "$f_2(X)$" /\ cp_y_label c = "$g_2(Y)$")%string.
Proof. exact @figure_one. Qed.
Print Assumptions C98_one.
Example C98_one_example : eigvals_positive ex_eigvals /\ draws_rows mean_rows /\ is_expm series_expm /\ (forall x y, exists v, count_rows x y = Ok v).
Proof. exact concept_oracles. Qed.

(** 2v1.py: three panels with the same true value 1/2 ln (30000/4079), for X turned with the speeds 0, 1/2 and 1. *)
Theorem C98_two : forall (J : prng) eigvals mvn expm estimate, eigvals_positive eigvals -> draws_rows mvn -> is_expm expm -> (forall x y, exists v, estimate x y = Ok v) ->
  exists C a b c, concept_2v1 (J := J) eigvals mvn expm estimate = Ok [a; b; c] /\ has_entries 3 C two_one /\
    (shows_2v1 (J := J) estimate mvn C 0 a /\ cp_x_label a = "$X$")%string /\ (shows_2v1 (J := J) estimate mvn C (1 / 2) b /\ cp_x_label b = "$f_1(X)$")%string /\
    (shows_2v1 (J := J) estimate mvn C 1 c /\ cp_x_label c = "$f_2(X)$")%string.
Proof. exact @figure_two. Qed.
Print Assumptions C98_two.
Example C98_two_example : eigvals_positive ex_eigvals /\ draws_rows mean_rows /\ is_expm series_expm /\ (forall x y, exists v, count_rows x y = Ok v).
Proof. exact concept_oracles. Qed.

(** In any number of coordinates the spiral of the first two turns these two by the angle speed |x|^2 and leaves the others. *)
Theorem C98_spiral : forall expm n g speed s x, is_expm expm -> (2 <= n)%Z -> so_generator n 0 1 = Ok g -> spiral_init g None speed = Ok s -> length x = Z.to_nat n ->
  spiral_call expm s x = Ok (front_spun speed x).
Proof. exact front_spiral. Qed.
Print Assumptions C98_spiral.
Example C98_spiral_example : exists g s, so_generator 3 0 1 = Ok g /\ spiral_init g None (PI / 2) = Ok s /\ spiral_call series_expm s [0; 1; 0] = Ok [-1; 0; 0].
Proof. exact generator3. Qed.
Theorem C98_norm : forall speed x, norm2 (front_spun speed x) = norm2 x.
Proof. exact front_norm. Qed.
Print Assumptions C98_norm.

(** ksg_spiral.py: the true value is that of one correlated pair, whatever the dimensions; at the speed 0 the estimate is the one
    without distortion; in the other rows X is turned and Y is the same. *)
Theorem C98_script : forall (J : prng) eigvals (mvn : key J -> list R -> matrix -> nat -> matrix) expm estimate,
  eigvals_positive eigvals -> draws_rows mvn -> is_expm expm -> (forall x y, exists v, estimate x y = Ok v) ->
  forall dx dy rho n seed, (2 <= dx)%Z -> (1 <= dy)%Z -> -1 < rho < 1 ->
    exists C x y e rows, ksg_spiral eigvals mvn expm estimate dx dy rho n seed = Ok (Fin (- (ln (1 - rho ^ 2) / 2)), e, rows) /\
      has_entries (Z.to_nat dx + Z.to_nat dy) C (paired_off (Z.to_nat dx) 1 rho) /\
      (x, y) = cut (Z.to_nat dx) (mvn (cast_to_rng J (SeedInt seed)) (repeat 0 (Z.to_nat dx + Z.to_nat dy)) C n) /\ estimate x y = Ok e /\
      map fst rows = [0; 1 / 50; 1 / 10; 1 / 2; 1; 10] /\ nth_error rows 0 = Some (0, e) /\
      Forall (fun r => estimate (map (front_spun (fst r)) x) y = Ok (snd r)) rows.
Proof. exact @script_prints. Qed.
Print Assumptions C98_script.
Example C98_script_example : eigvals_positive ex_eigvals /\ draws_rows mean_rows /\ is_expm series_expm /\ (forall x y, exists v, count_rows x y = Ok v).
Proof. exact concept_oracles. Qed.

(** X with one coordinate cannot be turned: the script stops. *)
Theorem C98_one_dimension : forall (J : prng) eigvals (mvn : key J -> list R -> matrix -> nat -> matrix) expm estimate,
  eigvals_positive eigvals -> (forall x y, exists v, estimate x y = Ok v) ->
  forall dy rho n seed, (1 <= dy)%Z -> -1 < rho < 1 -> ksg_spiral eigvals mvn expm estimate 1 dy rho n seed = Err ValueError.
Proof. exact @script_one_dimension. Qed.
Print Assumptions C98_one_dimension.
Example C98_one_dimension_example : eigvals_positive ex_eigvals /\ draws_rows mean_rows /\ is_expm series_expm /\ (forall x y, exists v, count_rows x y = Ok v).
Proof. exact concept_oracles. Qed.

(** The assertion lets the correlation -1 through, but the sampler rejects it; other correlations outside (-1, 1) fail the assertion. *)
Theorem C98_minus_one : forall eigvals (J : prng) (mvn : key J -> list R -> matrix -> nat -> matrix) dx dy, eigvals_symmetric eigvals -> (1 <= dx)%Z -> (1 <= dy)%Z ->
  create_base_sampler eigvals mvn dx dy (-1) = Err ValueError.
Proof. exact @minus_one. Qed.
Print Assumptions C98_minus_one.
Example C98_minus_one_example : exists eigvals, eigvals_symmetric eigvals.
Proof. exact symmetric_oracle. Qed.
Theorem C98_bad_correlation : forall (J : prng) eigvals (mvn : key J -> list R -> matrix -> nat -> matrix) dx dy rho, rho < -1 \/ 1 <= rho ->
  create_base_sampler eigvals mvn dx dy rho = Err AssertionError.
Proof. exact @bad_rho. Qed.
Print Assumptions C98_bad_correlation.
Example C98_bad_correlation_example : create_base_sampler ex_eigvals mean_rows 3 2 1 = Err AssertionError.
Proof. exact (bad_rho ex_eigvals mean_rows 3 2 1 (or_intror (Rle_refl 1))). Qed.

(** Only columns are flattened for the points of 1v1.py, others are a ValueError. *)
Theorem C98_ravel : forall a, (Forall (fun row => length row = 1%nat) a -> ravel_1d a = Ok (map (hd 0) a)) /\
  (Exists (fun row => length row <> 1%nat) a -> ravel_1d a = Err ValueError).
Proof. exact ravel_total. Qed.
Print Assumptions C98_ravel.
Example C98_ravel_example : ravel_1d [[1]; [2]] = Ok [1; 2] /\ ravel_1d [[1]; [2; 3]] = Err ValueError.
Proof. split; reflexivity. Qed.

(** The property C78: tasks of prescribed mutual information and sparsity. *)
From Coq Require Import String.
From Verif Require Import Base BaseLemmas UtilsModel JaxModel SamplersModel GaussianModel MatrixUtilsModel MatrixUtilsSpec TrainingSpec TrainingExamples
  BenchmarkModel BenchmarkSpec TasksModel TasksSpec TasksGaussian TasksExamples GaussianSpec BasicSpec BasicThms BasicExamples HighMiModel HighMiSpec
  SparsityModel SparsitySpec SparsityGaussian SparsityThms SparsityExamples.
Open Scope R_scope.

(** The closed form is the mutual information of the normal distribution of the model. *)
Theorem C78_closed_form :
  forall d alpha lambd C, has_entries (d + d) C (latent_cov d d alpha lambd 0 lambd) ->
  gaussian_mi (sigma d d C) = pairs_mi d alpha lambd.
Proof. exact closed_form. Qed.
Print Assumptions C78_closed_form.
Example C78_closed_form_example : pairs_mi 2 0 1 = ln (4 / 3).
Proof. exact ex_two_pairs. Qed.

(** The task with all pairs interacting has this mutual information. *)
Theorem C78_all_pairs :
  forall (J : prng) F eigvals mvn, eigvals_positive eigvals -> forall dim alpha lambd h, (1 <= dim)%Z ->
  latent_task (J := J) F mvn (lvm_task F eigvals mvn dim dim alpha (Some lambd)) h dim dim alpha lambd (pairs_mi (Z.to_nat dim) alpha lambd).
Proof. exact @all_pairs. Qed.
Print Assumptions C78_all_pairs.
Example C78_all_pairs_example :
  latent_task (J := demo) ex_formats ex_mvn (lvm_task ex_formats ex_eigvals ex_mvn 2 2 0 (Some 1)) [] 2 2 0 1 (ln (4 / 3)).
Proof. exact ex_all_pairs. Qed.

(** An initial alpha is found for all values of the mutual information which can be reached, *)
Theorem C78_initial_alpha :
  forall (J : prng) F eigvals mvn uniform, eigvals_positive eigvals ->
  forall mi dim h, (1 <= dim <= 10 ^ 1000)%Z -> - (1 / 20000) <= mi <= coupling (100 * INR (Z.to_nat dim)) + 1 / 20000 ->
  exists a, get_initial_alpha (J := J) F eigvals mvn uniform mi dim h = (h, Ok a) /\ 0 < a < 10 /\
    within (coupling (INR (Z.to_nat dim) * a ^ 2)) mi (1 / 10000).
Proof. exact @initial_alpha_found. Qed.
Print Assumptions C78_initial_alpha.
Example C78_initial_alpha_example :
  exists a, get_initial_alpha (J := demo) ex_formats ex_eigvals ex_mvn ex_uniform 1 10 [] = ([], Ok a) /\ 0 < a < 10.
Proof. exact ex_alpha. Qed.

(** and for no others. *)
Theorem C78_initial_alpha_none :
  forall (J : prng) F eigvals mvn uniform, eigvals_positive eigvals ->
  forall mi dim h, (1 <= dim)%Z -> -999999999 <= mi <= - (1 / 10000) \/ coupling (100 * INR (Z.to_nat dim)) + 1 / 10000 <= mi ->
  get_initial_alpha (J := J) F eigvals mvn uniform mi dim h = (h, Err AssertionError).
Proof. exact @initial_alpha_none. Qed.
Print Assumptions C78_initial_alpha_none.
Example C78_initial_alpha_none_example :
  get_initial_alpha (J := demo) ex_formats ex_eigvals ex_mvn ex_uniform (-1) 10 [] = ([], Err AssertionError).
Proof. exact ex_alpha_none. Qed.

(** With alpha given, a task is made for all values between those for the smallest and the largest lambda, *)
Theorem C78_lambda :
  forall (J : prng) F eigvals mvn uniform, eigvals_positive eigvals ->
  forall mi dim alpha h, (1 <= dim <= 10 ^ 1000)%Z ->
  pairs_mi (Z.to_nat dim) alpha 0 - 1 / 20000 <= mi <= pairs_mi (Z.to_nat dim) alpha 10 + 1 / 20000 ->
  exists l, 0 < l < 10 /\ within (pairs_mi (Z.to_nat dim) alpha l) mi (1 / 10000) /\
    latent_task (J := J) F mvn (get_lambda_task F eigvals mvn uniform mi dim alpha) h dim dim alpha l (pairs_mi (Z.to_nat dim) alpha l).
Proof. exact @lambda_found. Qed.
Print Assumptions C78_lambda.
Example C78_lambda_example :
  exists l, 0 < l < 10 /\ within (pairs_mi 2 0 l) (ln (4 / 3)) (1 / 10000) /\
    latent_task (J := demo) ex_formats ex_mvn (get_lambda_task ex_formats ex_eigvals ex_mvn ex_uniform (ln (4 / 3)) 2 0) [] 2 2 0 l (pairs_mi 2 0 l).
Proof. exact ex_lambda. Qed.

(** and for others an assertion fails. *)
Theorem C78_lambda_none :
  forall (J : prng) F eigvals mvn uniform, eigvals_positive eigvals ->
  forall mi dim alpha h, (1 <= dim)%Z ->
  -999999999 <= mi <= pairs_mi (Z.to_nat dim) alpha 0 - 1 / 10000 \/ pairs_mi (Z.to_nat dim) alpha 10 + 1 / 10000 <= mi ->
  get_lambda_task (J := J) F eigvals mvn uniform mi dim alpha h = (h, Err AssertionError).
Proof. exact @lambda_none. Qed.
Print Assumptions C78_lambda_none.
Example C78_lambda_none_example :
  get_lambda_task (J := demo) ex_formats ex_eigvals ex_mvn ex_uniform (1 / 2) 10 10 [] = ([], Err AssertionError).
Proof. exact ex_lambda_none. Qed.

(** With the number of interacting pairs given, likewise. *)
Theorem C78_interacting :
  forall (J : prng) F eigvals mvn uniform, eigvals_positive eigvals ->
  forall mi dim k h, (1 <= dim <= 10 ^ 1000)%Z -> (0 <= k <= dim)%Z ->
  - (1 / 20000) <= mi <= INR (Z.to_nat k) * coupling 100 + 1 / 20000 ->
  exists l, 0 < l < 10 /\ within (INR (Z.to_nat k) * coupling (l ^ 2)) mi (1 / 10000) /\
    latent_task (J := J) F mvn (get_n_interacting_task F eigvals mvn uniform mi dim k) h dim k 0 l (INR (Z.to_nat k) * coupling (l ^ 2)).
Proof. exact @interacting_found. Qed.
Print Assumptions C78_interacting.
Example C78_interacting_example :
  forall k, (1 <= k <= 10)%Z -> exists l, 0 < l < 10 /\ within (INR (Z.to_nat k) * coupling (l ^ 2)) 1 (1 / 10000) /\
    latent_task (J := demo) ex_formats ex_mvn (get_n_interacting_task ex_formats ex_eigvals ex_mvn ex_uniform 1 10 k) [] 10 k 0 l
      (INR (Z.to_nat k) * coupling (l ^ 2)).
Proof. exact ex_interacting. Qed.

Theorem C78_interacting_none :
  forall (J : prng) F eigvals mvn uniform, eigvals_positive eigvals ->
  forall mi dim k h, (1 <= dim)%Z -> (0 <= k <= dim)%Z ->
  -999999999 <= mi <= - (1 / 10000) \/ INR (Z.to_nat k) * coupling 100 + 1 / 10000 <= mi ->
  get_n_interacting_task (J := J) F eigvals mvn uniform mi dim k h = (h, Err AssertionError).
Proof. exact @interacting_none. Qed.
Print Assumptions C78_interacting_none.

Theorem C78_interacting_rejects :
  forall (J : prng) F eigvals mvn uniform mi dim k h, (k < 0 \/ dim < k)%Z -> ~ within (-1000000000) mi (1 / 10000) ->
  get_n_interacting_task (J := J) F eigvals mvn uniform mi dim k h = (h, Err ValueError).
Proof. exact @interacting_reject. Qed.
Print Assumptions C78_interacting_rejects.
Example C78_interacting_rejects_example :
  get_n_interacting_task (J := demo) ex_formats ex_eigvals ex_mvn ex_uniform 1 10 0 [] = ([], Err AssertionError) /\
  get_n_interacting_task (J := demo) ex_formats ex_eigvals ex_mvn ex_uniform 1 10 11 [] = ([], Err ValueError).
Proof. exact ex_interacting_none. Qed.

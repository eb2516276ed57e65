(** C102: the script which times the estimators. *)
From Coq Require Import String.
From Verif Require Import Base UtilsModel JaxModel SamplersModel GaussianModel MatrixUtilsModel MatrixUtilsSpec TrainingExamples SamplersExamples TasksGaussian TasksExamples BasicExamples TimingModel TimingSpec TimingThms TimingExamples.
Open Scope Z_scope.
Local Notation length := List.length.

(** Arguments are accepted exactly when the sizes make sense, and Y gets the dimension which was meant. *)
Theorem C102_arguments : forall a,
  (forall dy, get_args a = Ok (a, dy) <-> accepted a /\ meant a dy) /\ (accepted a -> exists dy, get_args a = Ok (a, dy)) /\ (~ accepted a -> get_args a = Err AssertionError).
Proof. intros a. exact (conj (args_meant a) (conj (args_total a) (args_bad a))). Qed.
Print Assumptions C102_arguments.
Example C102_arguments_example : get_args default_args = Ok (default_args, 2) /\ get_args wide_args = Ok (wide_args, 3) /\ ~ accepted far_args.
Proof. exact (conj eq_refl (conj eq_refl far_rejected)). Qed.

(** The estimator is the one which was asked for, with the one neighborhood. *)
Theorem C102_estimator : forall a,
  (forall e, get_estimator a = Ok e <->
    (arg_type a = "SLOW"%string /\ e = Slow [arg_neighborhood a] (arg_n_jobs a)) \/ (arg_type a = "NUMPY"%string /\ e = Numpy [arg_neighborhood a] (arg_n_jobs a) (arg_chunk_size a))) /\
  (arg_type a <> "SLOW"%string -> arg_type a <> "NUMPY"%string -> get_estimator a = Err ValueError).
Proof. intros a. exact (conj (choice_ok a) (choice_bad a)). Qed.
Print Assumptions C102_estimator.
Example C102_estimator_example : get_estimator default_args = Ok (Numpy [5] 1 10) /\ get_estimator wide_args = Ok (Slow [2] 1) /\ get_estimator far_args = Err ValueError.
Proof. exact (conj eq_refl (conj eq_refl eq_refl)). Qed.

(** The estimate is of independent standard normal variables of these dimensions, and the true value which is printed is zero. *)
Theorem C102_printed : forall (J : prng) eigvals (mvn : key J -> list R -> matrix -> nat -> matrix) estimate, eigvals_positive eigvals ->
  forall a dy e, accepted a -> meant a dy -> 1 <= dy -> get_estimator a = Ok e ->
  let dx := Z.to_nat (arg_dim_x a) in
  exists C, has_entries (dx + Z.to_nat dy) C (fun i j => if (i =? j)%nat then 1%R else 0%R) /\
    let rows := mvn (prng_key J 10) (repeat 0%R (dx + Z.to_nat dy)) C (Z.to_nat (arg_n_samples a)) in
    (forall mi, estimate e (map (firstn dx) rows) (map (skipn dx) rows) = Ok mi -> timing_main eigvals mvn estimate a = Ok (mi, Fin 0)) /\
    (forall err, estimate e (map (firstn dx) rows) (map (skipn dx) rows) = Err err -> timing_main eigvals mvn estimate a = Err err).
Proof. exact timing_prints. Qed.
Print Assumptions C102_printed.
Example C102_printed_example : eigvals_positive ex_eigvals /\ accepted wide_args /\ meant wide_args 3 /\ get_estimator wide_args = Ok (Slow [2] 1) /\
  timing_main ex_eigvals ex_mvn counting wide_args = Ok (Fin 4, Fin 0).
Proof. exact (conj ex_eigvals_ok (conj (proj1 wide_meant) (conj (proj1 (proj2 wide_meant)) (conj (proj2 (proj2 wide_meant)) wide_printed)))). Qed.

(** Senseless sizes stop the script; a negative dimension of Y passes the checks of the arguments and is stopped later. *)
Theorem C102_stopped : forall (J : prng) eigvals (mvn : key J -> list R -> matrix -> nat -> matrix) estimate a,
  (~ accepted a -> timing_main eigvals mvn estimate a = Err AssertionError) /\
  (forall dy, accepted a -> arg_dim_y a = Some dy -> dy < 0 -> get_args a = Ok (a, dy) /\ timing_main eigvals mvn estimate a = Err ValueError).
Proof. intros J eigvals mvn estimate a. exact (conj (timing_rejects J eigvals mvn estimate a) (timing_negative J eigvals mvn estimate a)). Qed.
Print Assumptions C102_stopped.
Example C102_stopped_example : ~ accepted far_args /\ accepted backward_args /\ arg_dim_y backward_args = Some (-3).
Proof. exact (conj far_rejected backward_accepted). Qed.

(** Without arguments: 1000 samples of two variables of dimension 2, and the NumPy estimator with 5 neighbors, one job and chunks of 10. *)
Theorem C102_defaults : get_args default_args = Ok (default_args, 2) /\ arg_dim_x default_args = 2 /\ arg_n_samples default_args = 1000 /\
  get_estimator default_args = Ok (Numpy [5] 1 10).
Proof. repeat split; reflexivity. Qed.
Print Assumptions C102_defaults.

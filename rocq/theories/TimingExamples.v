(** Concrete arguments for the statements in [TimingProps]. *)
From Coq Require Import String Lia Lra.
From Verif Require Import Base UtilsModel JaxModel SamplersModel GaussianModel TrainingExamples SamplersExamples TasksGaussian TasksExamples BasicExamples TimingModel TimingSpec TimingThms.
Open Scope Z_scope.
Local Notation length := List.length.

Definition wide_args : timing_args :=
  {| arg_type := "SLOW"; arg_n_samples := 4; arg_dim_x := 1; arg_dim_y := Some 3; arg_neighborhood := 2; arg_n_jobs := 1; arg_chunk_size := 10 |}.
Definition backward_args : timing_args :=
  {| arg_type := "SLOW"; arg_n_samples := 4; arg_dim_x := 5; arg_dim_y := Some (-3); arg_neighborhood := 2; arg_n_jobs := 1; arg_chunk_size := 10 |}.
Definition far_args : timing_args :=
  {| arg_type := "FAST"; arg_n_samples := 4; arg_dim_x := 5; arg_dim_y := None; arg_neighborhood := 0; arg_n_jobs := 1; arg_chunk_size := 10 |}.
Lemma default_meant : accepted default_args /\ meant default_args 2 /\ get_estimator default_args = Ok (Numpy [5] 1 10).
Proof. unfold accepted, meant. cbn. repeat split; try lia. left. auto. Qed.
Lemma wide_meant : accepted wide_args /\ meant wide_args 3 /\ get_estimator wide_args = Ok (Slow [2] 1).
Proof. unfold accepted, meant. cbn. repeat split; try lia. right. split; [reflexivity|lia]. Qed.
Lemma backward_accepted : accepted backward_args /\ arg_dim_y backward_args = Some (-3).
Proof. unfold accepted. cbn. repeat split; lia. Qed.
Lemma far_rejected : ~ accepted far_args.
Proof. unfold accepted. cbn. lia. Qed.
(** An estimator which returns the number of points. *)
Definition counting (_ : timed) (x _ : matrix) : result fl := Ok (Fin (INR (length x))).
Lemma wide_printed : timing_main ex_eigvals ex_mvn counting wide_args = Ok (Fin 4, Fin 0).
Proof.
  destruct wide_meant as [A [M E]]. destruct (timing_prints demo ex_eigvals ex_mvn counting ex_eigvals_ok wide_args 3 (Slow [2] 1) A M ltac:(lia) E) as [C [_ [T _]]]. cbv zeta in T.
  apply T. unfold counting. rewrite map_length. unfold ex_mvn. rewrite repeat_length. cbn [wide_args arg_n_samples]. do 2 f_equal. change (Z.to_nat 4) with 4%nat. cbn [INR]. lra.
Qed.

(** Concrete matrices for the examples of MatrixUtilsProps.v. *)
From Verif Require Import Base UtilsModel JaxModel SamplersModel GaussianModel BaseLemmas MatrixUtilsModel MatrixUtilsSpec MatrixUtilsProofs LvmProofs.
From mathcomp Require Import all_ssreflect ssralg matrix mxalgebra.
From Verif Require Import SamplersSpec RStruct PosDef MatrixBridge GaussianSpec GaussianProofs ExpectationProofs GaussianThms GaussianExamples.

Lemma canonical_demo : let rho := cons (Rdiv 1 2) nil in
  exists C, rho <> nil /\ canonical_correlation rho 0 = Ok C /\
    eigvals_exact demo_eigvals 1 1 C /\ proper_mean 2 None /\ List.Forall (fun r => Rlt (Rabs r) 1) rho.
Proof.
  cbv zeta; eexists; split; [done|]; split; [reflexivity|]; split; [exact: demo_exact|]; split; [done|].
  constructor; [|constructor]. rewrite Rabs_right; lra.
Qed.

Lemma lvm_demo : exists p c mix, dense_init 1 1 1 1 = Ok p /\ valid_lvm p /\ covariance p = Ok c /\
  mixing p = Ok mix /\ eigvals_exact demo_eigvals 1 1 c /\ (0 < lv_dim_x p)%N /\ (0 < lv_dim_y p)%N /\
  lv_epsilon_x p <> R0 /\ lv_epsilon_y p <> R0.
Proof.
  eexists; eexists; eexists; split; [reflexivity|]; split; [split; cbn; lia|]; split; [reflexivity|].
  split; [reflexivity|]; split; [exact: demo_exact|]; repeat split; try done; exact: R1_neq_R0.
Qed.

Lemma sparse_demo : exists p mix, sparse_init 3 2 1 1 2 3 None = Ok p /\ valid_lvm p /\ mixing p = Ok mix /\
  (0 < lv_n_interacting p)%N /\ (1 < lv_dim_x p)%N /\ (1 < lv_dim_y p)%N.
Proof.
  eexists; eexists; split; [reflexivity|]; split; [split; cbn; lia|]; split; [reflexivity|]; done.
Qed.

Lemma sparse_correlation_demo : exists p m c s, sparse_init 3 2 1 1 2 3 None = Ok p /\ covariance p = Ok m /\ correlation p = Ok c /\
  correlation_interacting p = Ok s /\ entry m 2 2 <> IZR 0 /\ entry m 4 4 <> IZR 0.
Proof.
  eexists; eexists; eexists; eexists; split; [reflexivity|]; split; [reflexivity|]; split; [reflexivity|]; split.
  - rewrite /correlation_interacting /py_div /Reqb /=; case: (Req_EM_T _ _) => h; [exfalso; lra|reflexivity].
  - rewrite /entry /=; split; lra.
Qed.

Lemma dense_correlation_demo : exists p c s, dense_init 3 2 1 1 = Ok p /\ correlation p = Ok c /\
  correlation_strength p = Ok s.
Proof.
  eexists; eexists; eexists; split; [reflexivity|]; split; [reflexivity|].
  rewrite /correlation_strength /py_div /Reqb /=; case: (Req_EM_T _ _) => h; [exfalso; lra|reflexivity].
Qed.

Lemma parameters_demo : valid_parameters 3 2 2 (Rdiv 1 2) (Rdiv 1 10) 0 /\
  ~ valid_parameters 3 2 3 (Rdiv 1 2) (Rdiv 1 10) 0 /\ ~ valid_parameters 3 2 2 2 0 0.
Proof.
  split; [split; [lia|split; [lia|lra]]|]; split.
  - move=> [h1 [h2 _]]; lia.
  - move=> [_ [_ [h _]]]; lra.
Qed.

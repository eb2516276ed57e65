(** Properties of the covariance matrices of src/bmi/samplers/_matrix_utils.py. *)
From Verif Require Import Base UtilsModel JaxModel SamplersModel GaussianModel BaseLemmas MatrixUtilsModel MatrixUtilsSpec MatrixUtilsProofs LvmProofs LvmLabels.
From Coq Require Import String.
From mathcomp Require Import all_ssreflect ssralg matrix mxalgebra.
From Verif Require Import SamplersSpec RStruct PosDef MatrixBridge GaussianSpec GaussianProofs ExpectationProofs GaussianThms GaussianExamples MatrixUtilsThms MatrixUtilsExamples.
Import GRing.Theory.
Local Open Scope ring_scope.

(** C41: unit diagonal, rho_i between X_i and Y_i and nothing else. *)
Theorem C41_entries : forall rho additional_y, (0 <= additional_y)%Z ->
  exists m, canonical_correlation rho additional_y = Ok m /\
    let dx := List.length rho in
    has_entries (dx + (dx + Z.to_nat additional_y)) m (fun i j =>
      if PeanoNat.Nat.eqb i j then R1
      else if (PeanoNat.Nat.ltb i dx && PeanoNat.Nat.eqb j (dx + i))%bool then List.nth i rho R0
      else if (PeanoNat.Nat.ltb j dx && PeanoNat.Nat.eqb i (dx + j))%bool then List.nth j rho R0 else R0).
Proof. exact canonical_ok. Qed.
Print Assumptions C41_entries.

Theorem C41_negative_extra_fails : forall rho additional_y, (additional_y < 0)%Z -> rho <> nil ->
  exists e, canonical_correlation rho additional_y = Err e.
Proof. exact canonical_error. Qed.
Print Assumptions C41_negative_extra_fails.

(** C41: accepted as a covariance exactly when every correlation is below one in absolute
    value, and then the mutual information is the sum of -1/2 log (1 - rho_i^2). *)
Theorem C41_mutual_information : forall eigvals (rho : list R) additional_y C mean,
  rho <> nil -> (0 <= additional_y)%Z -> canonical_correlation rho additional_y = Ok C ->
  let m := List.length rho in let n := (m + Z.to_nat additional_y)%N in
  eigvals_exact eigvals m n C -> proper_mean (m + n) mean ->
  ((exists s, split_multinormal_init eigvals (Z.of_nat m) (Z.of_nat n) C mean = Ok s) <->
   List.Forall (fun r => Rlt (Rabs r) 1) rho) /\
  forall s, split_multinormal_init eigvals (Z.of_nat m) (Z.of_nat n) C mean = Ok s ->
    split_multinormal_mi s = Fin (rsum (List.map (fun r => Rmult (Ropp (Rdiv 1 2)) (ln (Rminus 1 (pow r 2)))) rho)).
Proof. exact canonical_sampler. Qed.
Print Assumptions C41_mutual_information.
Example C41_example : let rho := cons (Rdiv 1 2) nil in
  exists C, rho <> nil /\ canonical_correlation rho 0 = Ok C /\
    eigvals_exact demo_eigvals 1 1 C /\ proper_mean 2 None /\ List.Forall (fun r => Rlt (Rabs r) 1) rho.
Proof. exact canonical_demo. Qed.

(** C43: the constructor accepts 0 <= n_interacting <= min(dim_x, dim_y), and an omitted
    parameter of Y is that of X. *)
Theorem C43_constructor : forall dim_x dim_y k alpha lambd ex ey bx by_ hx hy,
  let r := lvm_init dim_x dim_y k alpha lambd ex ey bx by_ hx hy in
  ((exists p, r = Ok p) <-> (0 <= k <= dim_x /\ k <= dim_y)%Z) /\
  ((exists p, r = Ok p) \/ r = Err ValueError) /\
  forall p, r = Ok p -> valid_lvm p /\ Z.of_nat (lv_dim_x p) = dim_x /\ Z.of_nat (lv_dim_y p) = dim_y /\
    Z.of_nat (lv_n_interacting p) = k /\ lv_alpha p = alpha /\ lv_lambd p = lambd /\ lv_epsilon_x p = ex /\
    lv_beta_x p = bx /\ lv_eta_x p = hx /\ (ey = Some (lv_epsilon_y p) \/ ey = None /\ lv_epsilon_y p = ex) /\
    (by_ = Some (lv_beta_y p) \/ by_ = None /\ lv_beta_y p = bx) /\
    (hy = Some (lv_eta_y p) \/ hy = None /\ lv_eta_y p = hx).
Proof. exact lvm_init_spec. Qed.
Print Assumptions C43_constructor.

(** C43: the covariance is the mixing matrix times its transpose. *)
Theorem C43_covariance_is_mixing : forall p c mix, valid_lvm p -> covariance p = Ok c -> mixing p = Ok mix ->
  has_shape mix (lv_dim_x p + lv_dim_y p) (n_latent p) = true /\
  has_entries (lv_dim_x p + lv_dim_y p) c (fun i j => inner (List.nth i mix nil) (List.nth j mix nil)).
Proof. exact mixing_covariance. Qed.
Print Assumptions C43_covariance_is_mixing.

Theorem C43_computed : forall p, valid_lvm p ->
  (exists c, covariance p = Ok c) /\ ((exists mix, mixing p = Ok mix) <-> (0 < lv_dim_x p + lv_dim_y p)%coq_nat).
Proof. exact lvm_computed. Qed.
Print Assumptions C43_computed.

Theorem C43_positive_semidefinite : forall p c, valid_lvm p -> covariance p = Ok c ->
  psd (sigma (lv_dim_x p) (lv_dim_y p) c).
Proof. exact lvm_psd. Qed.
Print Assumptions C43_positive_semidefinite.

(** C43: with noise on both sides it is accepted as the covariance of a normal. *)
Theorem C43_accepted : forall eigvals p c mean, valid_lvm p -> covariance p = Ok c ->
  (0 < lv_dim_x p)%N -> (0 < lv_dim_y p)%N -> lv_epsilon_x p <> R0 -> lv_epsilon_y p <> R0 ->
  eigvals_exact eigvals (lv_dim_x p) (lv_dim_y p) c -> proper_mean (lv_dim_x p + lv_dim_y p) mean ->
  exists s, split_multinormal_init eigvals (Z.of_nat (lv_dim_x p)) (Z.of_nat (lv_dim_y p)) c mean = Ok s /\
    split_multinormal_mi s = Fin (gaussian_mi (sigma (lv_dim_x p) (lv_dim_y p) c)).
Proof. exact lvm_sampler. Qed.
Print Assumptions C43_accepted.

(** C43: one label per latent variable and per row, and each label names the column with the
    loadings of its variable. *)
Theorem C43_label_counts : forall p, valid_lvm p ->
  List.length (latent_variable_labels p) = n_latent p /\
  List.length (xy_labels p) = (lv_dim_x p + lv_dim_y p)%coq_nat.
Proof. exact labels_count. Qed.
Print Assumptions C43_label_counts.

(** C43: the rows are named in order, each variable counting from one. *)
Theorem C43_row_labels : forall p,
  (forall i, (i < lv_dim_x p)%coq_nat ->
     List.nth_error (xy_labels p) i = Some ("$X_" ++ decimal (S i) ++ "$")%string) /\
  (forall j, (j < lv_dim_y p)%coq_nat ->
     List.nth_error (xy_labels p) (lv_dim_x p + j)%coq_nat = Some ("$Y_" ++ decimal (S j) ++ "$")%string).
Proof. exact row_labels. Qed.
Print Assumptions C43_row_labels.

Theorem C43_common_loadings : forall p mix, mixing p = Ok mix ->
  loading p mix "$U_\mathrm{all}$" (fun _ => lv_alpha p) /\
  loading p mix "$U_X$" (fun r => if PeanoNat.Nat.ltb r (lv_dim_x p) then lv_beta_x p else IZR 0) /\
  loading p mix "$U_Y$" (fun r => if PeanoNat.Nat.ltb r (lv_dim_x p) then IZR 0 else lv_beta_y p).
Proof. exact loading_common. Qed.
Print Assumptions C43_common_loadings.

Theorem C43_interacting_loadings : forall p mix, valid_lvm p -> mixing p = Ok mix ->
  forall i, (i < lv_n_interacting p)%coq_nat ->
  loading p mix (label "Z" i) (fun r =>
    if (PeanoNat.Nat.eqb r i || PeanoNat.Nat.eqb r (lv_dim_x p + i)%coq_nat)%bool then lv_lambd p else IZR 0).
Proof. exact loading_z. Qed.
Print Assumptions C43_interacting_loadings.

Theorem C43_noise_loadings_x : forall p mix, valid_lvm p -> mixing p = Ok mix ->
  forall i, (i < lv_dim_x p)%coq_nat ->
  loading p mix (label "E" i) (fun r => if PeanoNat.Nat.eqb r i then lv_epsilon_x p else IZR 0).
Proof. exact loading_e. Qed.
Print Assumptions C43_noise_loadings_x.

Theorem C43_noise_loadings_y : forall p mix, valid_lvm p -> mixing p = Ok mix ->
  forall i, (i < lv_dim_y p)%coq_nat ->
  loading p mix (label "F" i) (fun r => if PeanoNat.Nat.eqb r (lv_dim_x p + i)%coq_nat then lv_epsilon_y p else IZR 0).
Proof. exact loading_f. Qed.
Print Assumptions C43_noise_loadings_y.

Theorem C43_remaining_loadings_x : forall p mix, valid_lvm p -> mixing p = Ok mix ->
  forall i, (lv_n_interacting p <= i)%coq_nat /\ (i < lv_dim_x p)%coq_nat ->
  loading p mix (label "V" i) (fun r => if PeanoNat.Nat.eqb r i then lv_eta_x p else IZR 0).
Proof. exact loading_v. Qed.
Print Assumptions C43_remaining_loadings_x.

Theorem C43_remaining_loadings_y : forall p mix, valid_lvm p -> mixing p = Ok mix ->
  forall i, (lv_n_interacting p <= i)%coq_nat /\ (i < lv_dim_y p)%coq_nat ->
  loading p mix (label "W" i) (fun r => if PeanoNat.Nat.eqb r (lv_dim_x p + i)%coq_nat then lv_eta_y p else IZR 0).
Proof. exact loading_w. Qed.
Print Assumptions C43_remaining_loadings_y.
Example C43_example : exists p c mix, dense_init 1 1 1 1 = Ok p /\ valid_lvm p /\ covariance p = Ok c /\
  mixing p = Ok mix /\ eigvals_exact demo_eigvals 1 1 c /\ (0 < lv_dim_x p)%N /\ (0 < lv_dim_y p)%N /\
  lv_epsilon_x p <> R0 /\ lv_epsilon_y p <> R0.
Proof. exact lvm_demo. Qed.
Example C43_interacting_example : exists p mix, sparse_init 3 2 1 1 2 3 None = Ok p /\ valid_lvm p /\ mixing p = Ok mix /\
  (0 < lv_n_interacting p)%N /\ (1 < lv_dim_x p)%N /\ (1 < lv_dim_y p)%N.
Proof. exact sparse_demo. Qed.

(** C44: unit diagonal where the variance is positive, NaN where it is zero. *)
Theorem C44_unit_diagonal : forall p c k i, valid_lvm p -> covariance p = Ok c -> correlation p = Ok k ->
  (i < lv_dim_x p + lv_dim_y p)%coq_nat ->
  (entry c i i <> IZR 0 -> List.nth i (List.nth i k nil) NaN = Fin (IZR 1)) /\
  (entry c i i = IZR 0 -> List.nth i (List.nth i k nil) NaN = NaN).
Proof. exact correlation_diagonal. Qed.
Print Assumptions C44_unit_diagonal.

(** C44: with noise the correlations are finite and positive definite, with the mutual
    information of the covariance. *)
Theorem C44_same_information : forall p c, valid_lvm p -> covariance p = Ok c ->
  lv_epsilon_x p <> R0 -> lv_epsilon_y p <> R0 ->
  exists k, correlation p = Ok (List.map (List.map Fin) k) /\
    has_shape k (lv_dim_x p + lv_dim_y p) (lv_dim_x p + lv_dim_y p) = true /\
    posdef (sigma (lv_dim_x p) (lv_dim_y p) k) /\
    gaussian_mi (sigma (lv_dim_x p) (lv_dim_y p) k) = gaussian_mi (sigma (lv_dim_x p) (lv_dim_y p) c).
Proof. exact lvm_correlation. Qed.
Print Assumptions C44_same_information.

Theorem C44_dense : forall dim_x dim_y alpha epsilon p c s,
  dense_init dim_x dim_y alpha epsilon = Ok p -> correlation p = Ok c -> correlation_strength p = Ok s ->
  s = Rdiv (pow alpha 2) (Rplus (pow alpha 2) (pow epsilon 2)) /\
  forall i j, (i < lv_dim_x p + lv_dim_y p)%coq_nat -> (j < lv_dim_x p + lv_dim_y p)%coq_nat ->
    List.nth j (List.nth i c nil) NaN = Fin (if PeanoNat.Nat.eqb i j then IZR 1 else s).
Proof. exact dense_correlation. Qed.
Print Assumptions C44_dense.

Theorem C44_sparse : forall dim_x dim_y k beta lambd epsilon eta p m c s,
  sparse_init dim_x dim_y k beta lambd epsilon eta = Ok p -> covariance p = Ok m -> correlation p = Ok c ->
  correlation_interacting p = Ok s ->
  s = Rdiv (pow lambd 2) (Rplus (Rplus (pow beta 2) (pow epsilon 2)) (pow lambd 2)) /\
  (forall i, (i < lv_n_interacting p)%coq_nat ->
     List.nth (lv_dim_x p + i)%coq_nat (List.nth i c nil) NaN = Fin s /\
     List.nth i (List.nth (lv_dim_x p + i)%coq_nat c nil) NaN = Fin s) /\
  (forall i j, (i < lv_dim_x p)%coq_nat -> (j < lv_dim_y p)%coq_nat ->
     (i <> j \/ (lv_n_interacting p <= i)%coq_nat) ->
     entry m i i <> IZR 0 -> entry m (lv_dim_x p + j)%coq_nat (lv_dim_x p + j)%coq_nat <> IZR 0 ->
     List.nth (lv_dim_x p + j)%coq_nat (List.nth i c nil) NaN = Fin (IZR 0)).
Proof. exact sparse_correlation_entries. Qed.
Print Assumptions C44_sparse.
Example C44_example : exists p m c s, sparse_init 3 2 1 1 2 3 None = Ok p /\ covariance p = Ok m /\ correlation p = Ok c /\
  correlation_interacting p = Ok s /\ entry m 2 2 <> IZR 0 /\ entry m 4 4 <> IZR 0.
Proof. exact sparse_correlation_demo. Qed.
Example C44_dense_example : exists p c s, dense_init 3 2 1 1 = Ok p /\ correlation p = Ok c /\
  correlation_strength p = Ok s.
Proof. exact dense_correlation_demo. Qed.

(** C45: the documented blocks for parameters in the documented ranges, ValueError for all
    others. *)
Theorem C45_entries : forall dim_x dim_y k c cx cy, valid_parameters dim_x dim_y k c cx cy ->
  exists m, parametrised_correlation_matrix dim_x dim_y k c cx cy = Ok m /\
    has_entries (Z.to_nat dim_x + Z.to_nat dim_y) m (block_correlation (Z.to_nat dim_x) (Z.to_nat k) c cx cy).
Proof. exact parametrised_ok. Qed.
Print Assumptions C45_entries.

Theorem C45_rejects : forall dim_x dim_y k c cx cy, ~ valid_parameters dim_x dim_y k c cx cy ->
  parametrised_correlation_matrix dim_x dim_y k c cx cy = Err ValueError.
Proof. exact parametrised_rejects. Qed.
Print Assumptions C45_rejects.

(** C45: symmetric with unit diagonal. *)
Theorem C45_symmetric : forall dim_x dim_y k c cx cy m,
  parametrised_correlation_matrix dim_x dim_y k c cx cy = Ok m ->
  forall i j, (i < Z.to_nat dim_x + Z.to_nat dim_y)%coq_nat -> (j < Z.to_nat dim_x + Z.to_nat dim_y)%coq_nat ->
    entry m i j = entry m j i /\ entry m i i = IZR 1.
Proof. exact parametrised_symmetric. Qed.
Print Assumptions C45_symmetric.
Example C45_example : valid_parameters 3 2 2 (Rdiv 1 2) (Rdiv 1 10) 0 /\
  ~ valid_parameters 3 2 3 (Rdiv 1 2) (Rdiv 1 10) 0 /\ ~ valid_parameters 3 2 2 2 0 0.
Proof. exact parameters_demo. Qed.

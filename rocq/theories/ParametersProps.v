(** C76: what the parameters reported by an estimator determine. *)
From Coq Require Import String Lia Lra.
From Verif Require Import Base BaseLemmas UtilsModel JaxModel KsgModel KsgSpec KsgProofs
  SimpleEstimatorsModel SimpleEstimatorsSpec TrainingLogModel TrainingModel TrainingSpec TrainingExamples
  BenchmarkModel BenchmarkSpec BenchmarkExamples ExternalModel ParametersModel ParametersThms.
Open Scope Z_scope.
Local Notation length := List.length.

(** The reported parameters of the KDE estimator are the settings in use, with the defaults
    (kernel and bandwidth of the joint density) filled in. *)
Theorem C76_kde_effective :
  forall kxy kx ky bxy bx by_ std o,
  kde_create kxy kx ky bxy bx by_ std = Ok o ->
  kdp_kernel_xy (kde_parameters o) = kxy /\
  (kdp_kernel_x (kde_parameters o) = kxy /\ (kx = None \/ kx = Some ""%string) \/
   kx = Some (kdp_kernel_x (kde_parameters o)) /\ kx <> Some ""%string) /\
  (kdp_kernel_y (kde_parameters o) = kxy /\ (ky = None \/ ky = Some ""%string) \/
   ky = Some (kdp_kernel_y (kde_parameters o)) /\ ky <> Some ""%string) /\
  kdp_bandwidth_xy (kde_parameters o) = bxy /\
  (bx = None /\ kdp_bandwidth_x (kde_parameters o) = bxy \/ bx = Some (kdp_bandwidth_x (kde_parameters o))) /\
  (by_ = None /\ kdp_bandwidth_y (kde_parameters o) = bxy \/ by_ = Some (kdp_bandwidth_y (kde_parameters o))) /\
  kdp_standardize (kde_parameters o) = std.
Proof. exact kde_parameters_effective. Qed.
Print Assumptions C76_kde_effective.

(** Two KDE estimators which report the same parameters give the same estimates, whatever
    arguments they were built from and whatever they were used for before. *)
Theorem C76_kde_determined :
  forall ld kxy kx ky bxy bx by_ std o kxy' kx' ky' bxy' bx' by' std' o' calls calls' x y,
  kde_create kxy kx ky bxy bx by_ std = Ok o -> kde_create kxy' kx' ky' bxy' bx' by' std' = Ok o' ->
  kde_parameters o = kde_parameters o' ->
  snd (estimate_entropies ld (kde_run ld (ko_estimators o) calls) x y)
    = snd (estimate_entropies ld (kde_run ld (ko_estimators o') calls') x y) /\
  snd (kde_estimate ld (kde_run ld (ko_estimators o) calls) x y)
    = snd (kde_estimate ld (kde_run ld (ko_estimators o') calls') x y).
Proof. exact kde_parameters_determine. Qed.
Print Assumptions C76_kde_determined.

(** Different arguments, the same parameters. *)
Example C76_kde_example : exists o o',
  kde_create "tophat" None (Some "gaussian"%string) (BNumber 2) (Some (BNumber 1)) None false = Ok o /\
  kde_create "tophat" (Some "tophat"%string) (Some "gaussian"%string) (BNumber 2) (Some (BNumber 1)) (Some (BNumber 2)) false = Ok o' /\
  kde_parameters o = kde_parameters o'.
Proof. eexists _, _. repeat split; reflexivity. Qed.

(** KSG estimators with the same parameters answer every sequence of calls alike: the
    chunk size and the choice between the two implementations do not matter. *)
Theorem C76_ksg_determined :
  forall psi argsort ns std mx my p chunk chunk' ns' std' mx' my' p' calls,
  valid_argsort argsort -> make_params ns std mx my = Ok p -> make_params ns' std' mx' my' = Ok p' ->
  NoDup ns -> 0 < chunk -> 0 < chunk' ->
  ksg_parameters (ksg_new p chunk) = ksg_parameters (ksg_new p' chunk') ->
  ksg_outputs (fast_fit psi argsort) (ksg_new p chunk) calls = ksg_outputs (fast_fit psi argsort) (ksg_new p' chunk') calls /\
  ksg_outputs (slow_fit psi) (ksg_new p chunk) calls = ksg_outputs (slow_fit psi) (ksg_new p' chunk') calls /\
  ksg_outputs (fast_fit psi argsort) (ksg_new p chunk) calls = ksg_outputs (slow_fit psi) (ksg_new p' chunk') calls.
Proof. exact ksg_parameters_determine. Qed.
Print Assumptions C76_ksg_determined.

Example C76_ksg_example : exists p,
  valid_argsort sorted_indices /\ NoDup [5; 10] /\
  make_params [5; 10] true Euclidean None = Ok p /\ make_params [5; 10] true Euclidean (Some Euclidean) = Ok p.
Proof.
  eexists. split; [exact sorted_indices_sorts|]. split; [|split; reflexivity].
  repeat constructor; simpl; intros H; repeat destruct H as [H|H]; try discriminate H; auto.
Qed.

(** Variational estimators (InfoNCE, NWJ, Donsker-Varadhan) with the same parameters: the
    class, the training backend and earlier estimates do not matter. *)
Theorem C76_variational_determined :
  forall (J : prng) {C G U O : Type} (gradient : (C -> fl) -> C -> G) (adam_init : R -> C -> O)
    (adam_update : R -> G -> O -> C -> U * O) (apply_updates : C -> U -> C) (np : Z -> nat -> list nat)
    (cv : C -> list R -> list R -> R) (factory : list nat -> key J -> nat -> nat -> result C), prng_ok J ->
  forall o backend hidden p v o' backend' hidden' p' v' calls calls' x y,
  let est := TrainingModel.estimate_with_info J gradient adam_init adam_update apply_updates np in
  variational_create J cv factory o backend hidden p = Ok v ->
  variational_create J cv factory o' backend' hidden' p' = Ok v' ->
  variational_parameters J v = variational_parameters J v' ->
  snd (est (after_calls (fun e x y => fst (est e x y)) (vo_estimator J v) calls) x y)
  = snd (est (after_calls (fun e x y => fst (est e x y)) (vo_estimator J v') calls') x y).
Proof. exact @variational_parameters_determine. Qed.
Print Assumptions C76_variational_determined.

Example C76_variational_example : exists v v',
  variational_create demo demo_critic (fun _ _ _ _ => Ok 0) NWJ "quadratic" [16; 8]%nat (demo_params 2) = Ok v /\
  variational_create demo demo_critic (fun _ _ _ _ => Ok 0) NWJ "linear" [16; 8]%nat (demo_params 2) = Ok v' /\
  variational_parameters demo v = variational_parameters demo v'.
Proof.
  unfold variational_create, variational_init, neural_init, neural_params_valid. cbn. rewrite (proj2 (Rltb_true 0 1)) by lra.
  eexists _, _. repeat split; reflexivity.
Qed.

Theorem C76_mine_determined :
  forall (J : prng) {C U O : Type} (cv : C -> list R -> list R -> R) (gradient : (C -> fl) -> C -> list fl)
    (adam_init : R -> C -> O) (adam_update : R -> list fl -> O -> C -> U * O) (apply_updates : C -> U -> C) (np : Z -> nat -> list nat)
    (factory : list nat -> key J -> nat -> nat -> result C) p hidden m p' hidden' m' calls calls' x y,
  let est := mine_estimate_with_info J cv gradient adam_init adam_update apply_updates np in
  mine_create_object J factory p hidden = Ok m -> mine_create_object J factory p' hidden' = Ok m' ->
  mine_parameters J m = mine_parameters J m' ->
  snd (est (after_calls (fun e x y => fst (est e x y)) (mo_estimator J m) calls) x y)
  = snd (est (after_calls (fun e x y => fst (est e x y)) (mo_estimator J m') calls') x y).
Proof. exact @mine_parameters_determine. Qed.
Print Assumptions C76_mine_determined.

Example C76_mine_example : exists m,
  mine_create_object demo (fun _ _ _ _ => Ok 0) (mine_ps demo (demo_mine 2)) [16; 8]%nat = Ok m.
Proof. unfold mine_create_object, mine_init. rewrite demo_mine_ok by lia. eexists. reflexivity. Qed.

(** The CCA estimator reports no parameters although its constructor has one. *)
Theorem C76_cca_refuted : ~ (forall a b, cca_parameters a = cca_parameters b -> a = b).
Proof. exact cca_parameters_incomplete. Qed.
Print Assumptions C76_cca_refuted.

(** A wrapped function: what run_estimator reports, and that the function is all that matters. *)
Theorem C76_functional_run :
  forall parse files c tick func params eid path tid seed info h h' rr,
  valid_ref h info ->
  run_estimator parse files c tick (functional_estimator (functional_init func params)) eid path tid seed info h = (h', Ok rr) ->
  exists xs ys, read_sample_file parse files path = Ok (xs, ys) /\ rr_n_samples rr = Z.of_nat (length xs) /\
    match func xs ys with
    | Done v => rr_success rr = true /\ rr_mi rr = v /\ rr_time rr = Fin (c (S tick) - c tick)%R /\
        forall k, sdict_get (dread h' (rr_info rr)) k = sdict_get (content h info) k
    | Failed message _ => rr_success rr = false /\ rr_mi rr = NaN /\ rr_time rr = NaN /\
        sdict_get (dread h' (rr_info rr)) "error" = Some (PStr message)
    end.
Proof. exact functional_run. Qed.
Print Assumptions C76_functional_run.

Example C76_functional_example : exists h' rr,
  run_estimator ex_parse ex_files ex_clock 3
    (functional_estimator (functional_init (fun xs _ => Done (Fin (INR (length xs)))) (Some (Params [("k", PInt 1)]%string))))
    "est" "a.csv" "task" (Some 1) None [] = (h', Ok rr) /\ rr_mi rr = Fin (INR 2).
Proof.
  eexists _, _. split; [cbv -[read_sample_file INR Rminus ex_clock ex_parse ex_files]; rewrite ex_files_read; reflexivity|reflexivity].
Qed.

(** It reports the parameters it was given, whatever the function is. *)
Theorem C76_functional_parameters :
  forall f g p q, functional_parameters (functional_init f (Some p)) = functional_parameters (functional_init g (Some q)) <-> p = q.
Proof. exact functional_parameters_kept. Qed.
Print Assumptions C76_functional_parameters.
Example C76_functional_parameters_example :
  functional_parameters (functional_init (fun _ _ => Done (Fin 0)) (Some (Params [("k", PInt 1)]%string))) = Params [("k", PInt 1)]%string /\
  functional_parameters (functional_init (fun _ _ => Done (Fin 0)) None) = EmptyParams.
Proof. split; reflexivity. Qed.

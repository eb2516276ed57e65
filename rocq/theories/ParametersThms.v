(** Proofs about the parameters which estimators report. *)
From Coq Require Import String Lia Lra.
From Verif Require Import Base BaseLemmas UtilsModel JaxModel KsgModel KsgSpec KsgFitProofs KsgHistory KsgThms
  SimpleEstimatorsModel SimpleEstimatorsSpec SimpleEstimatorsProofs TrainingLogModel TrainingModel TrainingSpec TrainingThms MineThms
  BenchmarkModel BenchmarkSpec BenchmarkProofs BenchmarkThms ExternalModel ParametersModel.
Open Scope Z_scope.
Local Notation length := List.length.

Lemma kde_parameters_effective kxy kx ky bxy bx by_ std o :
  kde_create kxy kx ky bxy bx by_ std = Ok o ->
  kdp_kernel_xy (kde_parameters o) = kxy /\
  (kdp_kernel_x (kde_parameters o) = kxy /\ (kx = None \/ kx = Some ""%string) \/
   kx = Some (kdp_kernel_x (kde_parameters o)) /\ kx <> Some ""%string) /\
  (kdp_kernel_y (kde_parameters o) = kxy /\ (ky = None \/ ky = Some ""%string) \/
   ky = Some (kdp_kernel_y (kde_parameters o)) /\ ky <> Some ""%string) /\
  kdp_bandwidth_xy (kde_parameters o) = bxy /\
  (bx = None /\ kdp_bandwidth_x (kde_parameters o) = bxy \/ bx = Some (kdp_bandwidth_x (kde_parameters o))) /\
  (by_ = None /\ kdp_bandwidth_y (kde_parameters o) = bxy \/ by_ = Some (kdp_bandwidth_y (kde_parameters o))) /\
  kdp_standardize (kde_parameters o) = std.
Proof.
  unfold kde_create. destruct (kde_init _ _ _ _ _ _ _) as [e|]; [|discriminate]. intros [= <-].
  assert (S : forall k, str_or k kxy = kxy /\ (k = None \/ k = Some ""%string) \/ k = Some (str_or k kxy) /\ k <> Some ""%string).
  { intros [k|]; cbn; [|auto]. destruct (String.eqb_spec k ""); [subst; auto|]. right. split; [reflexivity|congruence]. }
  cbn. repeat split; try apply S.
  - destruct bx; auto.
  - destruct by_; auto.
Qed.

(** The estimators of an object are what its parameters say. *)
Lemma kde_estimators kxy kx ky bxy bx by_ std o :
  kde_create kxy kx ky bxy bx by_ std = Ok o ->
  let p := kde_parameters o in
  ko_estimators o = {| kde_x := {| kd_kernel := kdp_kernel_x p; kd_bandwidth := kdp_bandwidth_x p; kd_data := None |};
                       kde_y := {| kd_kernel := kdp_kernel_y p; kd_bandwidth := kdp_bandwidth_y p; kd_data := None |};
                       kde_xy := {| kd_kernel := kdp_kernel_xy p; kd_bandwidth := kdp_bandwidth_xy p; kd_data := None |};
                       kde_standardize := kdp_standardize p |}.
Proof. unfold kde_create, kde_init. destruct (_ && _)%bool; [|discriminate]. now intros [= <-]. Qed.

Lemma kde_parameters_determine ld kxy kx ky bxy bx by_ std o kxy' kx' ky' bxy' bx' by' std' o' calls calls' x y :
  kde_create kxy kx ky bxy bx by_ std = Ok o -> kde_create kxy' kx' ky' bxy' bx' by' std' = Ok o' ->
  kde_parameters o = kde_parameters o' ->
  snd (estimate_entropies ld (kde_run ld (ko_estimators o) calls) x y)
    = snd (estimate_entropies ld (kde_run ld (ko_estimators o') calls') x y) /\
  snd (kde_estimate ld (kde_run ld (ko_estimators o) calls) x y)
    = snd (kde_estimate ld (kde_run ld (ko_estimators o') calls') x y).
Proof.
  intros H H' E. apply kde_estimators in H, H'. cbv zeta in *. rewrite E, <- H' in H.
  destruct (kde_history ld (ko_estimators o) calls x y) as [-> ->].
  destruct (kde_history ld (ko_estimators o') calls' x y) as [-> ->]. now rewrite H.
Qed.

Lemma ksg_parameters_determine psi argsort ns std mx my p chunk chunk' ns' std' mx' my' p' calls :
  valid_argsort argsort -> make_params ns std mx my = Ok p -> make_params ns' std' mx' my' = Ok p' ->
  NoDup ns -> 0 < chunk -> 0 < chunk' ->
  ksg_parameters (ksg_new p chunk) = ksg_parameters (ksg_new p' chunk') ->
  ksg_outputs (fast_fit psi argsort) (ksg_new p chunk) calls = ksg_outputs (fast_fit psi argsort) (ksg_new p' chunk') calls /\
  ksg_outputs (slow_fit psi) (ksg_new p chunk) calls = ksg_outputs (slow_fit psi) (ksg_new p' chunk') calls /\
  ksg_outputs (fast_fit psi argsort) (ksg_new p chunk) calls = ksg_outputs (slow_fit psi) (ksg_new p' chunk') calls.
Proof.
  cbn. intros Ha Hp Hp' Hnd Hc Hc' <-.
  assert (G : forall c c', 0 < c -> ksg_outputs (fast_fit psi argsort) (ksg_new p c) calls
                                    = ksg_outputs (slow_fit psi) (ksg_new p c') calls).
  { intros c c' H. destruct (make_params_valid ns std mx my p Hp) as (V & N & _).
    apply outputs_agree; auto; [cbn; now rewrite N|repeat split]. }
  repeat split.
  - now rewrite (G chunk chunk), (G chunk' chunk).
  - now rewrite <- (G chunk chunk), <- (G chunk chunk').
  - now apply G.
Qed.

Section Neural.
  Context (J : prng) {C G U O : Type}.
  Variable gradient : (C -> fl) -> C -> G.
  Variable adam_init : R -> C -> O.
  Variable adam_update : R -> G -> O -> C -> U * O.
  Variable apply_updates : C -> U -> C.
  Variable np : Z -> nat -> list nat.
  Variable cv : C -> list R -> list R -> R.
  Variable factory : list nat -> key J -> nat -> nat -> result C.
  Let est := TrainingModel.estimate_with_info J gradient adam_init adam_update apply_updates np.

  Definition formula_name (o : objective) : string :=
    match o with InfoNCE => "InfoNCE" | NWJ => "NWJ" | DonskerVaradhan => "Donsker-Varadhan" end.

  Lemma variational_init_ok o backend hidden p e :
    variational_init J cv factory o backend hidden p = Ok e ->
    (backend = "quadratic" \/ backend = "linear")%string /\ ne_trained_critic J e = None /\
    np_formula_name (ne_params J e) = formula_name o /\
    forall backend' o' p', (backend' = "quadratic" \/ backend' = "linear")%string ->
      o' = o -> ne_params J e = {| np_formula_name := formula_name o';
         np_batch_size := np_batch_size p'; np_max_n_steps := np_max_n_steps p';
         np_train_test_split := np_train_test_split p'; np_test_every_n_steps := np_test_every_n_steps p';
         np_learning_rate := np_learning_rate p'; np_standardize := np_standardize p'; np_seed := np_seed p' |} ->
      exists e', variational_init J cv factory o' backend' hidden p' = Ok e' /\ ne_params J e' = ne_params J e.
  Proof.
    unfold variational_init, neural_init. intros H.
    assert (B : (backend = "quadratic" \/ backend = "linear")%string).
    { destruct (String.eqb_spec backend "quadratic"); [auto|]. destruct (String.eqb_spec backend "linear"); [auto|]. discriminate. }
    split; [exact B|].
    set (q := {| np_formula_name := _ |}) in H.
    assert (Hq : neural_params_valid q = true /\ ne_params J e = q /\ ne_trained_critic J e = None).
    { destruct B as [-> | ->]; cbn [String.eqb Ascii.eqb Bool.eqb bind] in H; destruct (neural_params_valid q); try discriminate;
        injection H as <-; auto. }
    destruct Hq as (Hv & Hp & Hn). split; [exact Hn|]. split; [now rewrite Hp|].
    intros backend' o' p' B' -> E. rewrite Hp in E.
    assert (E' : {| np_formula_name := match o with InfoNCE => "InfoNCE" | NWJ => "NWJ" | DonskerVaradhan => "Donsker-Varadhan" end;
         np_batch_size := np_batch_size p'; np_max_n_steps := np_max_n_steps p';
         np_train_test_split := np_train_test_split p'; np_test_every_n_steps := np_test_every_n_steps p';
         np_learning_rate := np_learning_rate p'; np_standardize := np_standardize p'; np_seed := np_seed p' |} = q).
    { symmetry. exact E. }
    rewrite E'. rewrite Hp.
    destruct B' as [-> | ->]; cbn [String.eqb Ascii.eqb Bool.eqb bind]; rewrite Hv; eexists; split; reflexivity.
  Qed.

  Lemma variational_same_backend o backend hidden p e p' e' :
    variational_init J cv factory o backend hidden p = Ok e -> variational_init J cv factory o backend hidden p' = Ok e' ->
    ne_params J e = ne_params J e' -> e = e'.
  Proof.
    unfold variational_init. destruct (if String.eqb backend _ then _ else _) as [f|]; [|discriminate]. cbn [bind].
    unfold neural_init. destruct (neural_params_valid _); [|discriminate]. destruct (neural_params_valid _); [|discriminate].
    intros [= <-] [= <-]. cbn. intros H. now rewrite H.
  Qed.

  Lemma variational_parameters_determine : prng_ok J ->
    forall o backend hidden p v o' backend' hidden' p' v' calls calls' x y,
    variational_create J cv factory o backend hidden p = Ok v ->
    variational_create J cv factory o' backend' hidden' p' = Ok v' ->
    variational_parameters J v = variational_parameters J v' ->
    snd (est (after_calls (fun e x y => fst (est e x y)) (vo_estimator J v) calls) x y)
    = snd (est (after_calls (fun e x y => fst (est e x y)) (vo_estimator J v') calls') x y).
  Proof.
    intros HJ o backend hidden p v o' backend' hidden' p' v' calls calls' x y H H'. unfold variational_create in *.
    destruct (variational_init J cv factory o backend hidden p) as [e|] eqn:E; [|discriminate].
    destruct (variational_init J cv factory o' backend' hidden' p') as [e'|] eqn:E'; [|discriminate].
    injection H as <-. injection H' as <-. unfold variational_parameters. cbn [vo_estimator vo_hidden_layers].
    intros [= Hp Hh]. subst hidden'.
    destruct (variational_init_ok _ _ _ _ _ E) as (B & N & F & K). destruct (variational_init_ok _ _ _ _ _ E') as (B' & N' & F' & K').
    assert (Ho : o' = o) by (rewrite Hp, F' in F; destruct o, o'; try reflexivity; discriminate). subst o'.
    unfold est at 1 2 3 4.
    destruct (neural_history J gradient adam_init adam_update apply_updates np e calls x y N) as [_ ->].
    destruct (neural_history J gradient adam_init adam_update apply_updates np e' calls' x y N') as [_ ->].
    assert (Q : ne_params J e' = {| np_formula_name := formula_name o;
         np_batch_size := np_batch_size p'; np_max_n_steps := np_max_n_steps p';
         np_train_test_split := np_train_test_split p'; np_test_every_n_steps := np_test_every_n_steps p';
         np_learning_rate := np_learning_rate p'; np_standardize := np_standardize p'; np_seed := np_seed p' |}).
    { clear - E' B'. unfold variational_init, neural_init in E'.
      destruct B' as [-> | ->]; cbn [String.eqb Ascii.eqb Bool.eqb bind] in E'; destruct (neural_params_valid _); try discriminate;
        injection E' as <-; reflexivity. }
    destruct (K backend o p' B eq_refl (eq_trans Hp Q)) as (e1 & E1 & P1).
    assert (e1 = e) as -> by (eapply variational_same_backend; eauto).
    assert (G2 : forall b1 b2 f1 f2, (b1 = "quadratic" \/ b1 = "linear")%string -> (b2 = "quadratic" \/ b2 = "linear")%string ->
              variational_init J cv factory o b1 hidden p' = Ok f1 -> variational_init J cv factory o b2 hidden p' = Ok f2 ->
              snd (est f1 x y) = snd (est f2 x y)).
    { intros b1 b2 f1 f2 [-> | ->] [-> | ->] A1 A2; try congruence.
      - now apply (backend_irrelevant J HJ gradient adam_init adam_update apply_updates np cv factory o hidden p' f1 f2).
      - symmetry. now apply (backend_irrelevant J HJ gradient adam_init adam_update apply_updates np cv factory o hidden p' f2 f1). }
    exact (G2 backend backend' e e' B B' E1 E').
  Qed.
End Neural.

Lemma mine_parameters_determine (J : prng) {C U O : Type} (cv : C -> list R -> list R -> R) (gradient : (C -> fl) -> C -> list fl)
    (adam_init : R -> C -> O) (adam_update : R -> list fl -> O -> C -> U * O) (apply_updates : C -> U -> C) (np : Z -> nat -> list nat)
    (factory : list nat -> key J -> nat -> nat -> result C) p hidden m p' hidden' m' calls calls' x y :
  let est := mine_estimate_with_info J cv gradient adam_init adam_update apply_updates np in
  mine_create_object J factory p hidden = Ok m -> mine_create_object J factory p' hidden' = Ok m' ->
  mine_parameters J m = mine_parameters J m' ->
  snd (est (after_calls (fun e x y => fst (est e x y)) (mo_estimator J m) calls) x y)
  = snd (est (after_calls (fun e x y => fst (est e x y)) (mo_estimator J m') calls') x y).
Proof.
  intros est. unfold mine_create_object, mine_init. destruct (mine_params_valid p); [|discriminate].
  destruct (mine_params_valid p'); [|discriminate]. intros [= <-] [= <-] [= Hp Hh]. cbn in Hp, Hh. subst p' hidden'.
  cbn [mo_estimator]. set (e := {| mine_ps := p |}).
  destruct (mine_history J cv gradient adam_init adam_update apply_updates np e calls x y eq_refl) as [_ H1].
  destruct (mine_history J cv gradient adam_init adam_update apply_updates np e calls' x y eq_refl) as [_ H2].
  unfold est. now rewrite H1, H2.
Qed.

Lemma functional_run parse files c tick func params eid path tid seed info h h' rr :
  valid_ref h info ->
  run_estimator parse files c tick (functional_estimator (functional_init func params)) eid path tid seed info h = (h', Ok rr) ->
  exists xs ys, read_sample_file parse files path = Ok (xs, ys) /\ rr_n_samples rr = Z.of_nat (length xs) /\
    match func xs ys with
    | Done v => rr_success rr = true /\ rr_mi rr = v /\ rr_time rr = Fin (c (S tick) - c tick)%R /\
        forall k, sdict_get (dread h' (rr_info rr)) k = sdict_get (content h info) k
    | Failed message _ => rr_success rr = false /\ rr_mi rr = NaN /\ rr_time rr = NaN /\
        sdict_get (dread h' (rr_info rr)) "error" = Some (PStr message)
    end.
Proof.
  intros Hr H. destruct (run_reports _ _ _ _ _ _ _ _ _ _ _ _ _ Hr H) as (xs & ys & E & _ & _ & _ & Hn & Hm & Hu).
  exists xs, ys. split; [exact E|]. split; [exact Hn|].
  unfold estimator_call, functional_estimator, default_estimate_with_info, functional_estimate, functional_init in Hm, Hu.
  cbn in Hm, Hu. destruct (func xs ys) as [v|msg out] eqn:F; cbn in Hm, Hu.
  - destruct Hm as (A & B & D). repeat split; auto. 
  - destruct Hm as (A & B & D). repeat split; auto.
    eapply run_error_described with (output := out); eauto. unfold estimator_call. cbn. unfold default_estimate_with_info, functional_estimate. cbn. now rewrite F.
Qed.

Lemma cca_scale_lost : cca_parameters {| cca_scale := true |} = cca_parameters {| cca_scale := false |}.
Proof. reflexivity. Qed.
Lemma cca_parameters_incomplete : ~ (forall a b, cca_parameters a = cca_parameters b -> a = b).
Proof. intros H. pose proof (H _ _ cca_scale_lost). discriminate. Qed.

(** A wrapped function reports the parameters it was given, none if it was given none. *)
Lemma functional_parameters_given func params :
  functional_parameters (functional_init func params) = match params with Some p => p | None => EmptyParams end.
Proof. destruct params; reflexivity. Qed.
Lemma functional_parameters_kept f g p q :
  functional_parameters (functional_init f (Some p)) = functional_parameters (functional_init g (Some q)) <-> p = q.
Proof. unfold functional_parameters, functional_init. cbn. tauto. Qed.

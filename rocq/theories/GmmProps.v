(** C64: the Gaussian mixture estimator. *)
From Coq Require Import Permutation.
From Verif Require Import Base UtilsModel JaxModel SamplersModel GaussianModel BmmModel MultivariateModel GmmModel.
From Verif Require Import BaseLemmas TrainingSpec TrainingExamples GmmSpec GmmProofs MultivariateSpec GaussianExamples
  MultivariateExamples GmmExamples.
Open Scope R_scope.
Local Notation length := List.length.

(** C64: an estimate which succeeds is the mean of the mutual information of distinct draws
    from the posterior given the data.  Every use of randomness gets its own key: the first
    split of the estimator's key runs MCMC, the second chooses the draws, and the i-th
    integral uses the split after that.  The posterior and the dimensions are kept. *)
Theorem C64_estimate : forall (J : prng) T eigvals cholesky draw numpyro nuts, prng_ok J -> nuts_counts nuts ->
  forall x y n s s' v, gmm_estimate (J := J) T eigvals cholesky draw numpyro nuts x y n s = (s', Ok v) ->
  let m := given_or n (gp_n_thinned_samples (gm_params s)) in
  (0 <= m)%Z /\ (m <> 0 -> m <= gp_mcmc_num_samples (gm_params s))%Z /\
  exists dx dy ds idx mis, posterior_draws nuts (gm_params s) (gm_key s) x y dx dy ds /\
    posterior_mis T eigvals cholesky draw (gm_params s) (gm_key s) (Z.to_nat m) dx dy ds idx mis /\
    v = (if (m =? 0)%Z then NaN else fl_mean mis) /\
    s' = {| gm_params := gm_params s; gm_key := chain (gm_key s) (2 + Z.to_nat m); gm_dim_x := Z.of_nat dx;
            gm_dim_y := Z.of_nat dy; gm_mcmc := Some ds |}.
Proof. exact @estimate_ok. Qed.
Print Assumptions C64_estimate.
Example C64_estimate_example : prng_ok demo /\ nuts_counts gmm_nuts /\ exists cholesky s v,
  gmm_estimate gmm_tfp demo_eigvals cholesky demo_normal_draw true gmm_nuts gmm_x gmm_x None demo_gmm = (s, Ok v).
Proof.
  split; [exact demo_ok|]. split; [exact gmm_nuts_counts|]. destruct estimate_changes as (f & s & r & _ & h & _). eauto.
Qed.

(** C64: ... and conversely, once the posterior has been sampled and the integrals have
    been evaluated, that is what is returned. *)
Theorem C64_estimate_complete : forall (J : prng) T eigvals cholesky draw nuts, prng_ok J ->
  forall x y n s dx dy ds mis idx,
  let m := given_or n (gp_n_thinned_samples (gm_params s)) in
  (0 <= m)%Z -> (m <> 0 -> m <= gp_mcmc_num_samples (gm_params s))%Z ->
  posterior_draws nuts (gm_params s) (gm_key s) x y dx dy ds ->
  posterior_mis T eigvals cholesky draw (gm_params s) (gm_key s) (Z.to_nat m) dx dy ds idx mis ->
  snd (gmm_estimate (J := J) T eigvals cholesky draw true nuts x y n s) = Ok (if (m =? 0)%Z then NaN else fl_mean mis).
Proof. exact (fun J T e c d nuts H x y n s dx dy ds mis idx => @estimate_complete J T e c d true nuts H x y n s dx dy ds mis idx eq_refl). Qed.
Print Assumptions C64_estimate_complete.
Example C64_estimate_complete_example : exists cholesky,
  posterior_draws gmm_nuts (gm_params demo_gmm) (gm_key demo_gmm) gmm_x gmm_x 1 1 [first_draw (fresh (gm_key demo_gmm) 0)] /\
  posterior_mis gmm_tfp demo_eigvals cholesky demo_normal_draw (gm_params demo_gmm) (gm_key demo_gmm) 1 1 1
    [first_draw (fresh (gm_key demo_gmm) 0)] [0%nat] [Fin (first_mi (fresh (gm_key demo_gmm) 0))].
Proof.
  destruct estimate_changes as (f & _ & _ & h & _). exists f. split; [apply demo_posterior; reflexivity|].
  apply demo_mis; [exact h|reflexivity].
Qed.

(** C64: by default every draw from the posterior is used, exactly once. *)
Theorem C64_all_draws : forall (J : prng) T eigvals cholesky draw, prng_ok J ->
  forall key K alpha std warmup samples mc k dx dy ds idx mis,
  let p := gm_params (gmm_init (J := J) key K alpha std warmup samples mc None) in
  (0 <= samples)%Z ->
  posterior_mis (J := J) T eigvals cholesky draw p k (Z.to_nat (given_or None (gp_n_thinned_samples p))) dx dy ds idx mis ->
  Permutation idx (seq 0 (Z.to_nat samples)).
Proof. exact (fun J T e c d H key K a s w n mc k dx dy ds idx mis => @all_draws J T e c d H (gm_params (gmm_init key K a s w n mc None)) k dx dy ds idx mis). Qed.
Print Assumptions C64_all_draws.
Example C64_all_draws_example : exists cholesky idx mis ds k,
  posterior_mis gmm_tfp demo_eigvals cholesky demo_normal_draw
    (gm_params (gmm_init (J := demo) 1 1 (Some 7) false 5 1 1 None)) k 1 1 1 ds idx mis.
Proof.
  destruct estimate_changes as (f & _ & _ & h & _). exists f. do 4 eexists.
  exact (demo_mis (s := demo_gmm) h eq_refl).
Qed.

(** C64: after any calls the parameters are the same and the key has been split a number of
    times which, if all calls succeeded, depends on the kinds of calls and the numbers of
    draws only, never on the data. *)
Theorem C64_keys : forall (J : prng) T eigvals cholesky draw numpyro nuts, prng_ok J -> nuts_counts nuts ->
  forall s calls s' answers, gmm_run (J := J) T eigvals cholesky draw numpyro nuts s calls = (s', answers) ->
  gm_params s' = gm_params s /\
  exists N, (N <= all_splits (gm_params s) calls)%nat /\ gm_key s' = chain (gm_key s) N /\
    (Forall succeeded answers -> N = all_splits (gm_params s) calls).
Proof. exact @run_keys. Qed.
Print Assumptions C64_keys.
Example C64_keys_example : all_splits (J := demo) (gm_params demo_gmm)
  [CallEstimate gmm_x gmm_x None; CallGetDistribution 0; CallGetSampleMi 0 None None;
   CallGetSampleMi (J := demo) 0 None (Some 5%Z)] = 4%nat.
Proof. reflexivity. Qed.

(** C64: so after two histories of successful calls with as many splits, whatever the data
    were, the next estimate is the same. *)
Theorem C64_histories : forall (J : prng) T eigvals cholesky draw numpyro nuts, prng_ok J -> nuts_counts nuts ->
  forall k calls calls' s t answers answers' (s0 t0 : gmm (J := J)) x y n,
  let run := gmm_run T eigvals cholesky draw numpyro nuts in
  gm_params s0 = gm_params t0 -> gm_key s0 = k -> gm_key t0 = k ->
  run s0 calls = (s, answers) -> run t0 calls' = (t, answers') -> Forall succeeded answers -> Forall succeeded answers' ->
  all_splits (gm_params s0) calls = all_splits (gm_params t0) calls' ->
  snd (gmm_estimate T eigvals cholesky draw numpyro nuts x y n s) =
  snd (gmm_estimate T eigvals cholesky draw numpyro nuts x y n t).
Proof. exact @histories_alike. Qed.
Print Assumptions C64_histories.
Example C64_histories_example : exists cholesky s answers,
  gmm_run gmm_tfp demo_eigvals cholesky demo_normal_draw true gmm_nuts demo_gmm [CallEstimate gmm_x gmm_x None] = (s, answers) /\
  Forall succeeded answers /\ all_splits (gm_params demo_gmm) [CallEstimate (J := demo) gmm_x gmm_x None] = 3%nat.
Proof.
  destruct estimate_changes as (f & s & r & _ & h & _). exists f. do 2 eexists.
  cbn [gmm_run gmm_step]. rewrite h. split; [reflexivity|]. split; [|reflexivity]. constructor; [exact I|constructor].
Qed.

(** C64: but a second estimate from the same data may differ from the first: the key is
    part of the estimator's state. *)
Theorem C64_repeated_estimate_refuted : exists cholesky s r,
  (forall C, cholesky_ok (length C) C (cholesky C)) /\
  gmm_estimate gmm_tfp demo_eigvals cholesky demo_normal_draw true gmm_nuts gmm_x gmm_x None demo_gmm = (s, Ok (Fin 0)) /\
  snd (gmm_estimate gmm_tfp demo_eigvals cholesky demo_normal_draw true gmm_nuts gmm_x gmm_x None s) = Ok (Fin r) /\ 0 < r.
Proof. exact estimate_changes. Qed.
Print Assumptions C64_repeated_estimate_refuted.

(** C64: the parameter [alpha] has no effect: estimators which differ in it answer all
    calls alike. *)
Theorem C64_alpha_ignored : forall (J : prng) T eigvals cholesky draw numpyro nuts, prng_ok J ->
  forall alpha s calls, let run := gmm_run (J := J) T eigvals cholesky draw numpyro nuts in
  run (set_alpha alpha s) calls = (set_alpha alpha (fst (run s calls)), snd (run s calls)).
Proof. exact @alpha_run. Qed.
Print Assumptions C64_alpha_ignored.
Example C64_alpha_ignored_example :
  gp_alpha (gm_params demo_gmm) = Some 7 /\
  set_alpha (Some (1 / 2)) demo_gmm = gmm_init (J := demo) 1 1 (Some (1 / 2)) false 5 1 1 None.
Proof. split; reflexivity. Qed.

(** C64: before MCMC has been run, distributions and their mutual information raise
    ValueError, but keys are consumed nonetheless. *)
Theorem C64_unfitted : forall (J : prng) T eigvals cholesky draw numpyro nuts, prng_ok J ->
  forall s calls s' answers, gm_mcmc s = None -> Forall no_mcmc calls ->
  gmm_run (J := J) T eigvals cholesky draw numpyro nuts s calls = (s', answers) ->
  Forall (fun a => a = AnsDistribution (Err ValueError) \/ a = AnsValue (Err ValueError)) answers /\ gm_mcmc s' = None /\
  gm_key s' = chain (gm_key s) (all_splits (gm_params s) calls).
Proof. exact @unfitted. Qed.
Print Assumptions C64_unfitted.
Example C64_unfitted_example : gm_mcmc demo_gmm = None /\
  Forall no_mcmc [CallGetSampleMi (J := demo) 0 None None; CallGetDistribution 3] /\
  chain (gm_key demo_gmm) 1 <> gm_key demo_gmm.
Proof. split; [reflexivity|]. split; [repeat constructor|]. vm_compute. discriminate. Qed.

(** C64: data of different lengths raise ValueError and leave the estimator as it was. *)
Theorem C64_mismatched : forall (J : prng) T eigvals cholesky draw numpyro nuts x y n s, length x <> length y ->
  gmm_estimate (J := J) T eigvals cholesky draw numpyro nuts x y n s = (s, Err ValueError).
Proof. exact @mismatched. Qed.
Print Assumptions C64_mismatched.
Example C64_mismatched_example : length gmm_x <> length (tl gmm_x).
Proof. discriminate. Qed.

(** C64: without NumPyro valid data raise ImportError, after the key has been split. *)
Theorem C64_without_numpyro : forall (J : prng) T eigvals cholesky draw nuts, prng_ok J ->
  forall x y n s xy, product_space_values (gp_standardize (gm_params s)) x y = Ok xy ->
  gmm_estimate (J := J) T eigvals cholesky draw false nuts x y n s = (with_key s (chain (gm_key s) 1), Err OtherError).
Proof. exact (fun J T e c d nuts H x y n s xy => @without_numpyro J T e c d false nuts H x y n s xy eq_refl). Qed.
Print Assumptions C64_without_numpyro.
Example C64_without_numpyro_example : product_space_values (gp_standardize (gm_params demo_gmm)) gmm_x gmm_x = Ok (gmm_x, gmm_x).
Proof. reflexivity. Qed.

(** C64: when MCMC fails the posterior of the previous fit stays in place. *)
Theorem C64_failed_refit : forall (J : prng) T eigvals cholesky draw numpyro nuts, prng_ok J ->
  forall x y s s' e, run_mcmc (J := J) numpyro nuts x y s = (s', Err e) ->
  s' = with_key s (gm_key s') /\
  forall idx, get_bmm_distribution T eigvals cholesky draw idx s' = get_bmm_distribution T eigvals cholesky draw idx s.
Proof. exact @failed_refit. Qed.
Print Assumptions C64_failed_refit.
Example C64_failed_refit_example :
  run_mcmc (J := demo) true (fun _ _ _ _ _ => Err ValueError) gmm_x gmm_x demo_gmm =
  (with_key demo_gmm (chain (gm_key demo_gmm) 1), Err ValueError) /\ chain (gm_key demo_gmm) 1 = 100%Z.
Proof. split; reflexivity. Qed.

(** C64: asking for more draws than were sampled raises ValueError, only after MCMC has been
    run; the new posterior is kept. *)
Theorem C64_too_many_draws : forall (J : prng) T eigvals cholesky draw nuts, prng_ok J ->
  forall x y n s dx dy ds, posterior_draws nuts (gm_params s) (gm_key s) x y dx dy ds ->
  let m := given_or n (gp_n_thinned_samples (gm_params s)) in
  (0 < m)%Z -> (gp_mcmc_num_samples (gm_params s) < m)%Z ->
  gmm_estimate (J := J) T eigvals cholesky draw true nuts x y n s =
  ({| gm_params := gm_params s; gm_key := chain (gm_key s) 2; gm_dim_x := Z.of_nat dx; gm_dim_y := Z.of_nat dy;
      gm_mcmc := Some ds |}, Err ValueError).
Proof. exact (fun J T e c d nuts H x y n s dx dy ds => @too_many J T e c d true nuts H x y n s dx dy ds eq_refl). Qed.
Print Assumptions C64_too_many_draws.
Example C64_too_many_draws_example :
  posterior_draws gmm_nuts (gm_params demo_gmm) (gm_key demo_gmm) gmm_x gmm_x 1 1 [first_draw (fresh (gm_key demo_gmm) 0)] /\
  (gp_mcmc_num_samples (gm_params demo_gmm) < given_or (Some 2) (gp_n_thinned_samples (gm_params demo_gmm)))%Z.
Proof. split; [apply demo_posterior; reflexivity|reflexivity]. Qed.

(** C64: the mutual information of one draw: a Monte Carlo estimate with the given number of
    samples and key; by default the number of the parameters and a fresh key. *)
Theorem C64_sample_mi : forall (J : prng) T eigvals cholesky draw, prng_ok J ->
  forall idx mc (s : gmm (J := J)) d, get_bmm_distribution T eigvals cholesky draw idx s = Ok d ->
  let n := given_or mc (gp_mi_estimate_num_samples (gm_params s)) in
  (forall k, get_sample_mi T eigvals cholesky draw idx mc (Some k) s = (s, rmap fst (monte_carlo_mi_estimate k d n))) /\
  get_sample_mi T eigvals cholesky draw idx mc None s =
    (with_key s (chain (gm_key s) 1), rmap fst (monte_carlo_mi_estimate (fresh (gm_key s) 0) d n)).
Proof. exact @sample_mi. Qed.
Print Assumptions C64_sample_mi.
Example C64_sample_mi_example : exists cholesky s d,
  fst (gmm_estimate gmm_tfp demo_eigvals cholesky demo_normal_draw true gmm_nuts gmm_x gmm_x None demo_gmm) = s /\
  get_bmm_distribution gmm_tfp demo_eigvals cholesky demo_normal_draw 0 s = Ok d.
Proof. exact fitted_distribution. Qed.

(** C64: indices past the end silently give the last draw; negative ones count from the end. *)
Theorem C64_indices : forall (J : prng) T eigvals cholesky draw (s : gmm (J := J)) ds, gm_mcmc s = Some ds -> ds <> [] ->
  let get idx := get_bmm_distribution T eigvals cholesky draw idx s in
  (forall idx, (zlen ds <= idx)%Z -> get idx = get (zlen ds - 1)%Z) /\
  (forall idx, (0 < idx <= zlen ds)%Z -> get (- idx)%Z = get (zlen ds - idx)%Z).
Proof. exact @index_rules. Qed.
Print Assumptions C64_indices.
Example C64_indices_example : exists s ds, gm_mcmc (J := demo) s = Some ds /\ ds <> [].
Proof.
  destruct estimate_changes as (f & s & r & h & e & _).
  exists s. rewrite (demo_estimates h eq_refl) in e. injection e as <- _. eexists. split; [reflexivity|]. discriminate.
Qed.

(** C64: the probabilistic program for given [alpha]: zero counts as missing. *)
Theorem C64_program : forall data K jitter conc,
  (forall alpha prog, alpha <> 0 -> gmm_model data K (Some alpha) jitter conc = Ok prog ->
     pg_concentration prog = repeat alpha (Z.to_nat K)) /\
  gmm_model data K (Some 0) jitter conc = gmm_model data K None jitter conc /\
  (forall prog, gmm_model data K None (1 / 1000) 1 = Ok prog <->
     (0 < K)%Z /\ prog = sparse_program (Z.to_nat K) (ncols data)).
Proof. exact program_rules. Qed.
Print Assumptions C64_program.
Example C64_program_example : gmm_model gmm_x 1 None (1 / 1000) 1 = Ok (sparse_program 1 1).
Proof. apply gmm_model_none. split; reflexivity. Qed.

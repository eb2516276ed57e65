(** Specification of the Gaussian mixture estimator: which keys are used, and what the
    posterior of the mutual information consists of. *)
From Verif Require Import Base UtilsModel JaxModel SamplersModel GaussianModel BmmModel MultivariateModel GmmModel.
Open Scope R_scope.
Local Notation length := List.length.

(** The key kept by the estimator after [n] splits, and the key handed out by the next one. *)
Definition next_key {J} (k : key J) : key J := nth 0 (split J k 2) k.
Definition chain {J} (k : key J) (n : nat) : key J := Nat.iter n next_key k.
Definition fresh {J} (k : key J) (n : nat) : key J := nth 1 (split J (chain k n) 2) (chain k n).

(** An optional argument with its default. *)
Definition given_or {A} (o : option A) (a : A) : A := match o with Some b => b | None => a end.

(** How many splits a call which succeeds makes. *)
Definition splits {J} (p : gmm_params) (c : gmm_call (J := J)) : nat :=
  match c with
  | CallRunMcmc _ _ => 1
  | CallGetDistribution _ => 0
  | CallGetSampleMi _ _ None => 1
  | CallGetSampleMi _ _ (Some _) => 0
  | CallGetPosteriorMi _ _ n | CallEstimate _ _ n => 2 + Z.to_nat (given_or n (gp_n_thinned_samples p))
  end.
Definition all_splits {J} (p : gmm_params) (cs : list (gmm_call (J := J))) : nat := list_sum (map (splits p) cs).
Definition succeeded {J} (a : gmm_answer (J := J)) : Prop :=
  match a with
  | AnsUnit (Ok _) | AnsDistribution (Ok _) | AnsValue (Ok _) | AnsValues (Ok _) => True
  | _ => False
  end.

(** NUTS returns as many draws as asked for. *)
Definition nuts_counts {J} (nuts : key J -> gmm_program -> matrix -> Z -> Z -> result (list latent)) : Prop :=
  forall k p data w n ls, nuts k p data w n = Ok ls -> zlen ls = n.

(** The program whose posterior is sampled: [K] components over [n] coordinates, the
    mixing proportions with Dirichlet concentrations [1 / K]. *)
Definition sparse_program (K n : nat) : gmm_program :=
  {| pg_concentration := repeat (1 / INR K) K;
     pg_mean_loc := repeat 0 n;
     pg_mean_scale := map (fun i => map (fun j => if (i =? j)%nat then 3 else 0) (seq 0 n)) (seq 0 n);
     pg_tau_scale := 1; pg_lkj_dim := n; pg_lkj_concentration := 1; pg_jitter := 1 / 1000 |}.

Section Spec.
  Context {J : prng}.
  Variable T : tfp_draws J.
  Variable eigvals : matrix -> list (R * R).
  Variable cholesky : matrix -> option matrix.
  Variable normal_draw : list R -> option matrix -> key J -> nat -> matrix.
  Variable nuts : key J -> gmm_program -> matrix -> Z -> Z -> result (list latent).

  (** Draws of the posterior given the (possibly standardised) data: [fresh k 0] is used. *)
  Definition posterior_draws (p : gmm_params) (k : key J) (x y : matrix) (dx dy : nat) (ds : list gmm_draw) : Prop :=
    exists x' y' ls prog, product_space_values (gp_standardize p) x y = Ok (x', y') /\
      (0 < gp_n_components p)%Z /\
      prog = sparse_program (Z.to_nat (gp_n_components p)) (ncols (UtilsModel.hstack x' y')) /\
      nuts (fresh k 0) prog (UtilsModel.hstack x' y') (gp_mcmc_num_warmup p) (gp_mcmc_num_samples p) = Ok ls /\
      dx = ncols x' /\ dy = ncols y' /\ ds = map (draw_of_latent prog) ls.

  (** Mutual information of distinct draws: [fresh k 1] chooses them, and the i-th
      distribution is integrated with [fresh k (2 + i)]. *)
  Definition posterior_mis (p : gmm_params) (k : key J) (m : nat) (dx dy : nat) (ds : list gmm_draw)
      (idx : list nat) (mis : list fl) : Prop :=
    (m <> 0%nat -> idx = choice J (fresh k 1) (Z.to_nat (gp_mcmc_num_samples p)) m) /\
    NoDup idx /\ length idx = m /\ length mis = m /\
    forall i, (i < m)%nat -> exists j d dist mi se,
      nth_error idx i = Some j /\ nth_error ds j = Some d /\
      sample_into_bmm_distribution T eigvals cholesky normal_draw d (Z.of_nat dx) (Z.of_nat dy) = Ok dist /\
      monte_carlo_mi_estimate (fresh k (2 + i)) dist (gp_mi_estimate_num_samples p) = Ok (mi, se) /\
      nth_error mis i = Some mi.
End Spec.

(** The same estimator with another value of [alpha]. *)
Definition set_alpha {J} (a : option R) (s : gmm (J := J)) : gmm (J := J) :=
  let p := gm_params s in
  {| gm_params := {| gp_standardize := gp_standardize p; gp_n_components := gp_n_components p; gp_alpha := a;
                     gp_mcmc_num_warmup := gp_mcmc_num_warmup p; gp_mcmc_num_samples := gp_mcmc_num_samples p;
                     gp_mi_estimate_num_samples := gp_mi_estimate_num_samples p;
                     gp_n_thinned_samples := gp_n_thinned_samples p |};
     gm_key := gm_key s; gm_dim_x := gm_dim_x s; gm_dim_y := gm_dim_y s; gm_mcmc := gm_mcmc s |}.

(** Calls which do not sample a posterior. *)
Definition no_mcmc {J} (c : gmm_call (J := J)) : Prop :=
  match c with CallGetDistribution _ | CallGetSampleMi _ _ _ => True | _ => False end.

(** Model of [estimators/external/gmm.py] in [src/bmi].

    Of NumPyro only the following is used: running MCMC is an arbitrary function of the
    key, the probabilistic program and the data, returning draws of the latent
    variables. *)
From Verif Require Import Base UtilsModel JaxModel SamplersModel GaussianModel BmmModel MultivariateModel.
Open Scope R_scope.
Local Notation length := List.length.

(** ** The probabilistic program *)

(** What [model] (29-84) declares: the Dirichlet concentrations (54), location and
    scale_tril of the means' prior (58-60), the scale of the half-Cauchy prior (65), the
    dimension and concentration of the LKJ prior (70) and the jitter (71). *)
Record gmm_program := {
  pg_concentration : list R;
  pg_mean_loc : list R;
  pg_mean_scale : matrix;
  pg_tau_scale : R;
  pg_lkj_dim : nat;
  pg_lkj_concentration : R;
  pg_jitter : R
}.

(** [c * jnp.eye(n)]. *)
Definition scaled_eye (c : R) (n : nat) : matrix :=
  map (fun i => map (fun j => if (i =? j)%nat then c else 0) (seq 0 n)) (seq 0 n).

(** [alpha or 1.0 / K], 49: zero counts as missing. *)
Definition alpha_or_default (alpha : option R) (K : Z) : result R :=
  let default := if (K =? 0)%Z then Err ZeroDivisionError else Ok (1 / IZR K) in
  match alpha with
  | None => default
  | Some a => if Reqb a 0 then default else Ok a
  end.

(** model, 29-84, up to the sampling statements.  Simplification: [jnp.ones] of a negative
    number of components is a TypeError. *)
Definition gmm_model (data : matrix) (K : Z) (alpha : option R) (jitter lkj_conc : R) : result gmm_program :=
  do a <- alpha_or_default alpha K;                                               (* 49 *)
  let n_dim := ncols data in                                                      (* 51 *)
  if (K <? 0)%Z then Err TypeError
  else Ok {| pg_concentration := repeat a (Z.to_nat K);                           (* 54 *)
             pg_mean_loc := repeat 0 n_dim; pg_mean_scale := scaled_eye 3 n_dim;  (* 58-60 *)
             pg_tau_scale := 1;                                                   (* 65 *)
             pg_lkj_dim := n_dim; pg_lkj_concentration := lkj_conc;               (* 70 *)
             pg_jitter := jitter |}.

(** Latent variables of one draw; [lt_tau] is transposed as in line 67. *)
Record latent := {
  lt_pi : list R;
  lt_mu : matrix;
  lt_tau : matrix;
  lt_l_omega : list matrix
}.

(** [L_scaled] (71) and [cov_matrix] (73) of one component. *)
Definition l_scaled (jitter : R) (tau : list R) (l_omega : matrix) : matrix :=
  let n := length tau in
  map (fun i => map (fun j => nth i tau 0 * entry l_omega i j + (if (i =? j)%nat then jitter else 0)) (seq 0 n))
      (seq 0 n).
Definition times_transpose (m : matrix) : matrix := map (fun r => map (fun s => dot r s) m) m.
Definition component_covariance (jitter : R) (tau : list R) (l_omega : matrix) : matrix :=
  times_transpose (l_scaled jitter tau l_omega).

(** One entry of [mcmc.get_samples()]: "pi", "mu" and the deterministic "cov" (74). *)
Record gmm_draw := { dr_pi : list R; dr_mu : matrix; dr_cov : list matrix }.
Definition draw_of_latent (p : gmm_program) (l : latent) : gmm_draw :=
  {| dr_pi := lt_pi l; dr_mu := lt_mu l;
     dr_cov := map (fun tl => component_covariance (pg_jitter p) (fst tl) (snd tl))
                   (combine (lt_tau l) (lt_l_omega l)) |}.

(** [a[idx]] for a JAX array: negative indices count from the end, indices out of range
    are clamped. *)
Definition jax_index {A} (l : list A) (idx : Z) : result A :=
  let n := zlen l in
  let i := if (idx <? 0)%Z then (idx + n)%Z else idx in
  let i := Z.max 0 (Z.min (n - 1) i) in
  match nth_error l (Z.to_nat i) with Some a => Ok a | None => Err IndexError end.

(** ** The estimator *)

(** GMMEstimatorParams, 116-138. *)
Record gmm_params := {
  gp_standardize : bool;
  gp_n_components : Z;
  gp_alpha : option R;
  gp_mcmc_num_warmup : Z;
  gp_mcmc_num_samples : Z;
  gp_mi_estimate_num_samples : Z;
  gp_n_thinned_samples : Z
}.

Section Gmm.
  Context {J : prng}.
  Variable T : tfp_draws J.
  Variable eigvals : matrix -> list (R * R).
  Variable cholesky : matrix -> option matrix.
  Variable normal_draw : list R -> option matrix -> key J -> nat -> matrix.
  (** Whether NumPyro could be imported, 11-16. *)
  Variable numpyro : bool.
  (** [MCMC(NUTS(model), num_samples, num_warmup).run(key, data, K)], 186-192: the latent
      variables drawn. *)
  Variable nuts : key J -> gmm_program -> matrix -> Z -> Z -> result (list latent).

  (** sample_into_bmm_distribution, 87-113. *)
  Definition sample_into_bmm_distribution (d : gmm_draw) (dim_x dim_y : Z) : result (joint_distribution J) :=
    let n_components := length (dr_pi d) in                                       (* 96 *)
    let n_dims := Z.to_nat (dim_x + dim_y) in                                     (* 97 *)
    if negb (has_shape (dr_mu d) n_components n_dims) then Err AssertionError     (* 98 *)
    else if negb ((length (dr_cov d) =? n_components)%nat
                  && forallb (fun c => has_shape c n_dims n_dims) (dr_cov d)) then Err AssertionError  (* 99 *)
    else
      do components <- map_results (fun mc => normal_distribution eigvals cholesky normal_draw
                                                dim_x dim_y (snd mc) (Some (fst mc)))
                                   (combine (dr_mu d) (dr_cov d));                (* 102-110 *)
      mixture T (dr_pi d) components.                                             (* 113 *)

  (** The attributes of GMMEstimator, 159-173. *)
  Record gmm := {
    gm_params : gmm_params;
    gm_key : key J;
    gm_dim_x : Z;
    gm_dim_y : Z;
    gm_mcmc : option (list gmm_draw)
  }.
  Definition with_key (s : gmm) (k : key J) : gmm :=
    {| gm_params := gm_params s; gm_key := k; gm_dim_x := gm_dim_x s; gm_dim_y := gm_dim_y s; gm_mcmc := gm_mcmc s |}.

  (** GMMEstimator.__init__, 142-173. *)
  Definition gmm_init (key : Z) (n_components : Z) (alpha : option R) (standardize : bool)
      (mcmc_num_warmup mcmc_num_samples mi_estimate_num_samples : Z) (n_thinned_samples : option Z) : gmm :=
    {| gm_params := {| gp_standardize := standardize; gp_n_components := n_components; gp_alpha := alpha;
                       gp_mcmc_num_warmup := mcmc_num_warmup; gp_mcmc_num_samples := mcmc_num_samples;
                       gp_mi_estimate_num_samples := mi_estimate_num_samples;
                       gp_n_thinned_samples := match n_thinned_samples with
                                               | None => mcmc_num_samples | Some n => n end |};  (* 159-167 *)
       gm_key := prng_key J key;                                                  (* 169 *)
       gm_dim_x := (-1)%Z; gm_dim_y := (-1)%Z; gm_mcmc := None |}.                (* 171-173 *)

  (** Methods: the estimator afterwards and what is returned or raised. *)
  Definition method A : Type := gmm -> gmm * result A.

  (** [self.key, subkey = jax.random.split(self.key)]. *)
  Definition split_key : method (key J) := fun s =>
    match split2 J (gm_key s) with
    | Ok (k, sub) => (with_key s k, Ok sub)
    | Err e => (s, Err e)
    end.

  (** run_mcmc, 178-196. *)
  Definition run_mcmc (x y : matrix) : method unit := fun s =>
    let p := gm_params s in
    match product_space_values (gp_standardize p) x y with                        (* 179 *)
    | Err e => (s, Err e)
    | Ok (x', y') =>
        match split_key s with                                                    (* 181 *)
        | (s, Err e) => (s, Err e)
        | (s, Ok subkey) =>
            if negb numpyro then (s, Err OtherError)                              (* 183-184 *)
            else
              let data := UtilsModel.hstack x' y' in                              (* 192 *)
              match (do prog <- gmm_model data (gp_n_components p) None (1 / 1000) 1;
                     do ls <- nuts subkey prog data (gp_mcmc_num_warmup p) (gp_mcmc_num_samples p);
                     Ok (map (draw_of_latent prog) ls)) with                      (* 186-192 *)
              | Err e => (s, Err e)
              | Ok draws =>
                  ({| gm_params := p; gm_key := gm_key s;
                      gm_dim_x := Z.of_nat (ncols x'); gm_dim_y := Z.of_nat (ncols y');  (* 195-196 *)
                      gm_mcmc := Some draws |}, Ok tt)                            (* 194 *)
              end
        end
    end.

  (** get_bmm_distribution, 198-209. *)
  Definition get_bmm_distribution (idx : Z) (s : gmm) : result (joint_distribution J) :=
    match gm_mcmc s with
    | None => Err ValueError                                                      (* 199-200 *)
    | Some samples =>
        do d <- jax_index samples idx;                                            (* 202-206 *)
        sample_into_bmm_distribution d (gm_dim_x s) (gm_dim_y s)                  (* 203-209 *)
    end.

  (** get_sample_mi, 211-219. *)
  Definition get_sample_mi (idx : Z) (mc_samples : option Z) (k : option (key J)) : method fl := fun s =>
    let n := match mc_samples with None => gp_mi_estimate_num_samples (gm_params s) | Some n => n end in  (* 212-213 *)
    let finish (s : gmm) (k : key J) : gmm * result fl :=
      (s, do d <- get_bmm_distribution idx s;                                     (* 217 *)
          do (mi, _) <- monte_carlo_mi_estimate k d n;                            (* 218 *)
          Ok mi) in                                                               (* 219 *)
    match k with
    | Some k => finish s k
    | None => match split_key s with                                              (* 214-215 *)
              | (s, Ok k) => finish s k
              | (s, Err e) => (s, Err e)
              end
    end.

  (** [[self.get_sample_mi(idx) for idx in indices]], 234. *)
  Fixpoint sample_mis (indices : list nat) : method (list fl) := fun s =>
    match indices with
    | [] => (s, Ok [])
    | i :: indices' =>
        match get_sample_mi (Z.of_nat i) None None s with
        | (s, Err e) => (s, Err e)
        | (s, Ok mi) => match sample_mis indices' s with
                        | (s, Err e) => (s, Err e)
                        | (s, Ok mis) => (s, Ok (mi :: mis))
                        end
        end
    end.

  (** [jax.random.choice(subkey, a, shape=(n,), replace=False)], 230-232.  Simplification:
      a negative [n] is a TypeError. *)
  Definition jax_choice (k : key J) (a n : Z) : result (list nat) :=
    if (n <? 0)%Z then Err TypeError
    else if (n =? 0)%Z then Ok []
    else if (a <? n)%Z then Err ValueError
    else Ok (choice J k (Z.to_nat a) (Z.to_nat n)).

  (** get_posterior_mi, 221-235. *)
  Definition get_posterior_mi (x y : matrix) (n_thinned_samples : option Z) : method (list fl) := fun s =>
    match run_mcmc x y s with                                                     (* 224 *)
    | (s, Err e) => (s, Err e)
    | (s, Ok _) =>
        let n := match n_thinned_samples with
                 | None => gp_n_thinned_samples (gm_params s) | Some n => n end in  (* 226-227 *)
        match split_key s with                                                    (* 229 *)
        | (s, Err e) => (s, Err e)
        | (s, Ok subkey) =>
            match jax_choice subkey (gp_mcmc_num_samples (gm_params s)) n with    (* 230-232 *)
            | Err e => (s, Err e)
            | Ok indices => sample_mis indices s                                  (* 234-235 *)
            end
        end
    end.

  (** [jnp.mean]; NaN for an empty array. *)
  Definition jnp_mean (l : list fl) : fl := match l with [] => NaN | _ => fl_mean l end.

  (** estimate, 237-241. *)
  Definition gmm_estimate (x y : matrix) (n_thinned_samples : option Z) : method fl := fun s =>
    match get_posterior_mi x y n_thinned_samples s with
    | (s, Err e) => (s, Err e)
    | (s, Ok mis) => (s, Ok (jnp_mean mis))                                       (* 241 *)
    end.

  (** A client calling the methods in some order. *)
  Inductive gmm_call :=
  | CallRunMcmc (x y : matrix)
  | CallGetDistribution (idx : Z)
  | CallGetSampleMi (idx : Z) (mc_samples : option Z) (k : option (key J))
  | CallGetPosteriorMi (x y : matrix) (n : option Z)
  | CallEstimate (x y : matrix) (n : option Z).
  Inductive gmm_answer :=
  | AnsUnit (r : result unit)
  | AnsDistribution (r : result (joint_distribution J))
  | AnsValue (r : result fl)
  | AnsValues (r : result (list fl)).
  Definition gmm_step (s : gmm) (c : gmm_call) : gmm * gmm_answer :=
    match c with
    | CallRunMcmc x y => let '(s, r) := run_mcmc x y s in (s, AnsUnit r)
    | CallGetDistribution idx => (s, AnsDistribution (get_bmm_distribution idx s))
    | CallGetSampleMi idx n k => let '(s, r) := get_sample_mi idx n k s in (s, AnsValue r)
    | CallGetPosteriorMi x y n => let '(s, r) := get_posterior_mi x y n s in (s, AnsValues r)
    | CallEstimate x y n => let '(s, r) := gmm_estimate x y n s in (s, AnsValue r)
    end.
  Fixpoint gmm_run (s : gmm) (calls : list gmm_call) : gmm * list gmm_answer :=
    match calls with
    | [] => (s, [])
    | c :: calls' => let '(s, a) := gmm_step s c in
                     let '(s, l) := gmm_run s calls' in (s, a :: l)
    end.
End Gmm.

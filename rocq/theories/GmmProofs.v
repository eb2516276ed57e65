(** The Gaussian mixture estimator: keys, histories and errors. *)
From Coq Require Import Permutation FinFun.
From Verif Require Import Base UtilsModel JaxModel SamplersModel GaussianModel BmmModel MultivariateModel GmmModel.
From Verif Require Import BaseLemmas TrainingSpec GmmSpec.
Open Scope R_scope.
Local Notation length := List.length.

Lemma chain_S {J} (k : key J) n : chain k (S n) = chain (next_key k) n.
Proof. unfold chain. induction n as [|n IH]; [reflexivity|]. cbn [Nat.iter nat_rect] in *. now rewrite IH. Qed.
Lemma chain_add {J} (k : key J) m n : chain k (m + n) = chain (chain k m) n.
Proof. revert k. induction m as [|m IH]; intros k; [reflexivity|]. cbn [Nat.add]. rewrite !chain_S. apply IH. Qed.
Lemma fresh_S {J} (k : key J) n : fresh k (S n) = fresh (next_key k) n.
Proof. unfold fresh. now rewrite chain_S. Qed.
Lemma fresh_add {J} (k : key J) m n : fresh k (m + n) = fresh (chain k m) n.
Proof. unfold fresh. now rewrite chain_add. Qed.

Lemma split2_ok J (k : key J) : prng_ok J -> split2 J k = Ok (next_key k, fresh k 0).
Proof.
  intros H. unfold split2, next_key, fresh. cbn [chain Nat.iter nat_rect]. pose proof (ok_split J H k 2) as L.
  change (Nat.iter 0 next_key k) with k. unfold chain. cbn. destruct (split J k 2) as [|a [|b [|]]]; cbn in L; try discriminate. reflexivity.
Qed.

Lemma split_key_ok J (s : gmm (J := J)) : prng_ok J -> split_key s = (with_key s (next_key (gm_key s)), Ok (fresh (gm_key s) 0)).
Proof. intros H. unfold split_key. now rewrite split2_ok. Qed.

Lemma alpha_none K : (K =? 0)%Z = false -> alpha_or_default None K = Ok (1 / IZR K).
Proof. intros H. unfold alpha_or_default. now rewrite H. Qed.

Lemma gmm_model_none data K prog : gmm_model data K None (1 / 1000) 1 = Ok prog <->
  (0 < K)%Z /\ prog = sparse_program (Z.to_nat K) (ncols data).
Proof.
  unfold gmm_model, alpha_or_default. destruct (Z.eqb_spec K 0); cbn [bind].
  { split; [discriminate|lia]. }
  destruct (Z.ltb_spec K 0); [split; [discriminate|lia]|].
  split.
  - intros E. injection E as <-. split; [lia|]. unfold sparse_program.
    rewrite INR_IZR_INZ, Z2Nat.id by lia. reflexivity.
  - intros [_ ->]. unfold sparse_program. rewrite INR_IZR_INZ, Z2Nat.id by lia. reflexivity.
Qed.

Lemma program_rules data K jitter conc :
  (forall alpha prog, alpha <> 0 -> gmm_model data K (Some alpha) jitter conc = Ok prog ->
     pg_concentration prog = repeat alpha (Z.to_nat K)) /\
  gmm_model data K (Some 0) jitter conc = gmm_model data K None jitter conc /\
  (forall prog, gmm_model data K None (1 / 1000) 1 = Ok prog <->
     (0 < K)%Z /\ prog = sparse_program (Z.to_nat K) (ncols data)).
Proof.
  split; [|split].
  - intros alpha prog Ha. unfold gmm_model, alpha_or_default, Reqb. destruct (Req_EM_T alpha 0); [contradiction|]. cbn [bind].
    destruct (K <? 0)%Z; [discriminate|]. intros E. injection E as <-. reflexivity.
  - unfold gmm_model, alpha_or_default, Reqb. destruct (Req_EM_T 0 0); [reflexivity|contradiction].
  - intros prog. apply gmm_model_none.
Qed.

Section Gmm.
  Context {J : prng}.
  Variable T : tfp_draws J.
  Variable eigvals : matrix -> list (R * R).
  Variable cholesky : matrix -> option matrix.
  Variable normal_draw : list R -> option matrix -> key J -> nat -> matrix.
  Variable numpyro : bool.
  Variable nuts : key J -> gmm_program -> matrix -> Z -> Z -> result (list latent).
  Hypothesis HJ : prng_ok J.

  Let run_mcmc := run_mcmc (J := J) numpyro nuts.
  Let get_bmm := get_bmm_distribution T eigvals cholesky normal_draw.
  Let get_sample_mi := get_sample_mi T eigvals cholesky normal_draw.
  Let sample_mis := sample_mis T eigvals cholesky normal_draw.
  Let get_posterior_mi := get_posterior_mi T eigvals cholesky normal_draw numpyro nuts.
  Let gmm_estimate := gmm_estimate T eigvals cholesky normal_draw numpyro nuts.
  Let gmm_run := gmm_run T eigvals cholesky normal_draw numpyro nuts.
  Let gmm_step := gmm_step T eigvals cholesky normal_draw numpyro nuts.
  Let posterior_draws := posterior_draws nuts.
  Let posterior_mis := posterior_mis T eigvals cholesky normal_draw.

  Lemma run_mcmc_ok x y s s' : run_mcmc x y s = (s', Ok tt) ->
    numpyro = true /\ exists dx dy ds, posterior_draws (gm_params s) (gm_key s) x y dx dy ds /\
      s' = {| gm_params := gm_params s; gm_key := chain (gm_key s) 1; gm_dim_x := Z.of_nat dx; gm_dim_y := Z.of_nat dy;
              gm_mcmc := Some ds |}.
  Proof.
    unfold run_mcmc, GmmModel.run_mcmc. cbn zeta.
    destruct (product_space_values _ x y) as [[x' y']|e] eqn:Eps; [|discriminate].
    rewrite split_key_ok by auto. destruct numpyro; cbn [negb]; [|discriminate].
    cbn [with_key gm_params gm_key].
    destruct (gmm_model _ _ _ _ _) as [prog|e] eqn:Em; cbn [bind]; [|discriminate].
    apply gmm_model_none in Em as [HK ->].
    destruct (nuts _ _ _ _ _) as [ls|e] eqn:En; cbn [bind]; [|discriminate].
    intros E. injection E as <-. split; [reflexivity|]. exists (ncols x'), (ncols y'). eexists. split; [|reflexivity].
    exists x', y', ls. eexists. repeat split; eauto.
  Qed.

  Lemma run_mcmc_complete x y s dx dy ds : numpyro = true -> posterior_draws (gm_params s) (gm_key s) x y dx dy ds ->
    run_mcmc x y s = ({| gm_params := gm_params s; gm_key := chain (gm_key s) 1; gm_dim_x := Z.of_nat dx;
                         gm_dim_y := Z.of_nat dy; gm_mcmc := Some ds |}, Ok tt).
  Proof.
    intros Hn (x' & y' & ls & prog & E1 & HK & -> & E2 & -> & -> & ->).
    unfold run_mcmc, GmmModel.run_mcmc. cbn zeta. rewrite E1, split_key_ok by auto. rewrite Hn. cbn [negb with_key gm_params gm_key].
    rewrite (proj2 (gmm_model_none _ _ _) (conj HK eq_refl)). cbn [bind]. rewrite E2. reflexivity.
  Qed.

  Lemma run_mcmc_fail x y s s' e : run_mcmc x y s = (s', Err e) ->
    s' = s /\ product_space_values (gp_standardize (gm_params s)) x y = Err e \/
    s' = with_key s (chain (gm_key s) 1) /\ exists xy, product_space_values (gp_standardize (gm_params s)) x y = Ok xy.
  Proof.
    unfold run_mcmc, GmmModel.run_mcmc. cbn zeta.
    destruct (product_space_values _ x y) as [[x' y']|e'] eqn:Eps; [|intros E; injection E as <- <-; auto].
    rewrite split_key_ok by auto. right. split; [|eauto].
    destruct numpyro; cbn [negb] in *; [|injection H as <- <-; reflexivity].
    destruct (bind _ _) in H; [discriminate|]. injection H as <- <-. reflexivity.
  Qed.

  Lemma get_sample_mi_eq idx s : get_sample_mi idx None None s =
    (with_key s (chain (gm_key s) 1),
     bind (get_bmm idx s) (fun d => bind (monte_carlo_mi_estimate (fresh (gm_key s) 0) d (gp_mi_estimate_num_samples (gm_params s)))
       (fun m => Ok (fst m)))).
  Proof.
    unfold get_sample_mi, GmmModel.get_sample_mi. rewrite split_key_ok by auto. cbn zeta.
    replace (get_bmm_distribution T eigvals cholesky normal_draw idx (with_key s (next_key (gm_key s)))) with (get_bmm idx s) by reflexivity.
    f_equal. destruct (get_bmm idx s); cbn [bind]; [|reflexivity].
    destruct (monte_carlo_mi_estimate _ _ _) as [[mi0 se0]|]; reflexivity.
  Qed.

  Lemma sample_mi idx mc s d : get_bmm idx s = Ok d ->
    (forall k, get_sample_mi idx mc (Some k) s =
       (s, rmap fst (monte_carlo_mi_estimate k d (given_or mc (gp_mi_estimate_num_samples (gm_params s)))))) /\
    get_sample_mi idx mc None s =
      (with_key s (chain (gm_key s) 1),
       rmap fst (monte_carlo_mi_estimate (fresh (gm_key s) 0) d (given_or mc (gp_mi_estimate_num_samples (gm_params s))))).
  Proof.
    intros E. unfold get_sample_mi, GmmModel.get_sample_mi. rewrite split_key_ok by auto. cbn zeta.
    replace (get_bmm_distribution T eigvals cholesky normal_draw idx (with_key s (next_key (gm_key s)))) with (get_bmm idx s) by reflexivity.
    fold get_bmm. rewrite E. cbn [bind]. split; [intros k|]; f_equal; unfold given_or;
      destruct mc; destruct (monte_carlo_mi_estimate _ _ _) as [[mi0 se0]|]; reflexivity.
  Qed.

  Lemma with_key_twice (s : gmm (J := J)) k k' : with_key (with_key s k) k' = with_key s k'.
  Proof. reflexivity. Qed.

  Lemma sample_mis_ok idx s s' mis : sample_mis idx s = (s', Ok mis) ->
    s' = with_key s (chain (gm_key s) (length idx)) /\ length mis = length idx /\
    forall i, (i < length idx)%nat -> exists j d mi se, nth_error idx i = Some j /\ get_bmm (Z.of_nat j) s = Ok d /\
      monte_carlo_mi_estimate (fresh (gm_key s) i) d (gp_mi_estimate_num_samples (gm_params s)) = Ok (mi, se) /\
      nth_error mis i = Some mi.
  Proof.
    unfold sample_mis. revert s s' mis. induction idx as [|j idx IH]; intros s s' mis; cbn [GmmModel.sample_mis].
    - intros E. injection E as <- <-. split; [destruct s; reflexivity|]. split; [reflexivity|]. cbn. lia.
    - fold get_sample_mi. rewrite get_sample_mi_eq.
      destruct (get_bmm (Z.of_nat j) s) as [d|e] eqn:Ed; cbn [bind]; [|discriminate].
      destruct (monte_carlo_mi_estimate _ _ _) as [[mi se]|e] eqn:Em; cbn [bind fst]; [|discriminate].
      destruct (GmmModel.sample_mis _ _ _ _ idx _) as [s2 [mis2|e]] eqn:Er; [|discriminate].
      intros E. injection E as <- <-. apply IH in Er as (-> & Hl & Hi). split.
      { rewrite with_key_twice. f_equal. cbn [with_key gm_key length]. change (S (length idx)) with (1 + length idx)%nat. now rewrite chain_add. }
      split; [cbn; now rewrite Hl|]. intros [|i] Hlt.
      + exists j, d, mi, se. cbn. auto.
      + cbn in Hlt. destruct (Hi i) as (j' & d' & mi' & se' & h1 & h2 & h3 & h4); [lia|].
        exists j', d', mi', se'. cbn [nth_error]. repeat split; auto. rewrite fresh_S. exact h3.
  Qed.

  Lemma sample_mis_complete idx s mis : length mis = length idx ->
    (forall i, (i < length idx)%nat -> exists j d mi se, nth_error idx i = Some j /\ get_bmm (Z.of_nat j) s = Ok d /\
      monte_carlo_mi_estimate (fresh (gm_key s) i) d (gp_mi_estimate_num_samples (gm_params s)) = Ok (mi, se) /\
      nth_error mis i = Some mi) ->
    sample_mis idx s = (with_key s (chain (gm_key s) (length idx)), Ok mis).
  Proof.
    unfold sample_mis. revert s mis. induction idx as [|j idx IH]; intros s [|mi mis] Hl H; try discriminate; cbn [GmmModel.sample_mis].
    - destruct s; reflexivity.
    - destruct (H 0%nat) as (j' & d & mi' & se & h1 & h2 & h3 & h4); [cbn; lia|]. cbn in h1, h4. injection h1 as ->. injection h4 as ->.
      fold get_sample_mi. rewrite get_sample_mi_eq. rewrite h2. cbn [bind]. rewrite h3. cbn [bind fst].
      rewrite IH with (mis := mis).
      + rewrite with_key_twice. cbn [with_key gm_key length]. change (S (length idx)) with (1 + length idx)%nat. now rewrite chain_add.
      + cbn in Hl. lia.
      + intros i Hi. destruct (H (S i)) as (a & b & c & e & g1 & g2 & g3 & g4); [cbn; lia|].
        exists a, b, c, e. cbn [nth_error] in *. rewrite fresh_S in g3. auto.
  Qed.

  Lemma sample_mis_fail idx s s' e : sample_mis idx s = (s', Err e) ->
    exists n, (n <= length idx)%nat /\ s' = with_key s (chain (gm_key s) n).
  Proof.
    unfold sample_mis. revert s s'. induction idx as [|j idx IH]; intros s s'; cbn [GmmModel.sample_mis]; [discriminate|].
    fold get_sample_mi. rewrite get_sample_mi_eq.
    destruct (bind _ _) as [mi|e'].
    - destruct (GmmModel.sample_mis _ _ _ _ idx _) as [s2 [mis2|e']] eqn:Er; [discriminate|].
      intros E. injection E as <- <-. apply IH in Er as (n & Hn & ->). exists (S n). split; [cbn; lia|].
      rewrite with_key_twice. cbn [with_key gm_key]. f_equal. change (S n) with (1 + n)%nat. now rewrite chain_add.
    - intros E. injection E as <- <-. exists 1%nat. split; [cbn; lia|reflexivity].
  Qed.

  Lemma jax_choice_ok k a n idx : jax_choice k a n = Ok idx ->
    (0 <= n)%Z /\ NoDup idx /\ length idx = Z.to_nat n /\ (n <> 0%Z -> (n <= a)%Z /\ idx = choice J k (Z.to_nat a) (Z.to_nat n)) /\
    Forall (fun i => (i < Z.to_nat a)%nat) idx.
  Proof.
    unfold jax_choice. destruct (Z.ltb_spec n 0); [discriminate|]. destruct (Z.eqb_spec n 0).
    { intros E. injection E as <-. subst n. repeat split; try constructor; lia. }
    destruct (Z.ltb_spec a n); [discriminate|]. intros E. injection E as <-.
    destruct (ok_choice J HJ k (Z.to_nat a) (Z.to_nat n)) as (h1 & h2 & h3); [lia|]. repeat split; auto.
  Qed.

  Lemma get_bmm_nth (s : gmm (J := J)) ds j d : gm_mcmc s = Some ds -> nth_error ds j = Some d ->
    get_bmm (Z.of_nat j) s = sample_into_bmm_distribution T eigvals cholesky normal_draw d (gm_dim_x s) (gm_dim_y s).
  Proof.
    intros H Hd. unfold get_bmm, get_bmm_distribution. rewrite H. unfold jax_index.
    assert (Hj : (j < length ds)%nat) by (apply nth_error_Some; congruence).
    destruct (Z.ltb_spec (Z.of_nat j) 0); [lia|]. unfold zlen.
    replace (Z.to_nat _) with j by lia. rewrite Hd. reflexivity.
  Qed.

  Hypothesis HN : nuts_counts nuts.

  Lemma get_posterior_ok x y n s s' mis : get_posterior_mi x y n s = (s', Ok mis) ->
    let m := given_or n (gp_n_thinned_samples (gm_params s)) in
    numpyro = true /\ (0 <= m)%Z /\ (m <> 0 -> m <= gp_mcmc_num_samples (gm_params s))%Z /\
    exists dx dy ds idx, posterior_draws (gm_params s) (gm_key s) x y dx dy ds /\
      posterior_mis (gm_params s) (gm_key s) (Z.to_nat m) dx dy ds idx mis /\
      s' = {| gm_params := gm_params s; gm_key := chain (gm_key s) (2 + Z.to_nat m); gm_dim_x := Z.of_nat dx;
              gm_dim_y := Z.of_nat dy; gm_mcmc := Some ds |}.
  Proof.
    intros H m. revert H. unfold get_posterior_mi, GmmModel.get_posterior_mi. fold run_mcmc.
    destruct (run_mcmc x y s) as [s1 [[]|e]] eqn:E1; [|discriminate].
    apply run_mcmc_ok in E1 as (Hn & dx & dy & ds & Hp & ->). rewrite split_key_ok by auto. cbn [with_key gm_params gm_key].
    intros H. split; [auto|]. change (match n with Some n => n | None => _ end) with m in H.
    destruct (jax_choice _ _ m) as [idx|e] eqn:Ec; [|discriminate].
    apply jax_choice_ok in Ec as (Hm & Hd & Hl & Hne & Hr).
    split; [auto|]. split; [intros Hm0; apply (Hne Hm0)|].
    exists dx, dy, ds, idx. split; [auto|]. apply sample_mis_ok in H as (-> & Hlm & Hi). cbn [gm_key gm_params] in *.
    split; [|rewrite chain_add, Hl; reflexivity].
    cbn [with_key gm_key gm_params] in Hi.
    change (next_key (chain (gm_key s) 1)) with (chain (gm_key s) 2) in Hi.
    repeat split; auto.
    - intros Hm0. apply Hne. intros ->. now apply Hm0.
    - now rewrite Hlm.
    - intros i Hlt. rewrite <- Hl in Hlt. destruct (Hi i Hlt) as (j & d & mi & se & h1 & h2 & h3 & h4).
      destruct Hp as (x' & y' & ls & prog & p1 & p2 & p3 & p4 & p5 & p6 & p7). apply HN in p4. unfold zlen in p4.
      assert (Hj : (j < length ds)%nat).
      { subst ds. rewrite map_length. rewrite Forall_forall in Hr. specialize (Hr j (nth_error_In _ _ h1)). lia. }
      destruct (nth_error ds j) as [g|] eqn:Eg; [|apply nth_error_None in Eg; lia].
      erewrite get_bmm_nth in h2; [|reflexivity|exact Eg]. cbn [with_key gm_dim_x gm_dim_y] in h2.
      exists j, g, d, mi, se. repeat split; auto. rewrite fresh_add. exact h3.
  Qed.

  Lemma posterior_complete x y n s dx dy ds mis idx :
    let m := given_or n (gp_n_thinned_samples (gm_params s)) in
    numpyro = true -> (0 <= m)%Z -> (m <> 0 -> m <= gp_mcmc_num_samples (gm_params s))%Z ->
    posterior_draws (gm_params s) (gm_key s) x y dx dy ds ->
    posterior_mis (gm_params s) (gm_key s) (Z.to_nat m) dx dy ds idx mis ->
    get_posterior_mi x y n s =
      ({| gm_params := gm_params s; gm_key := chain (gm_key s) (2 + Z.to_nat m); gm_dim_x := Z.of_nat dx;
          gm_dim_y := Z.of_nat dy; gm_mcmc := Some ds |}, Ok mis).
  Proof.
    intros m Hn Hm Hle Hp (Hc & Hd & Hl & Hlm & Hi). unfold get_posterior_mi, GmmModel.get_posterior_mi. fold run_mcmc.
    rewrite (run_mcmc_complete _ _ _ _ _ _ Hn Hp). rewrite split_key_ok by auto. cbn [with_key gm_params gm_key].
    change (match n with Some n => n | None => _ end) with m.
    assert (E : jax_choice (fresh (chain (gm_key s) 1) 0) (gp_mcmc_num_samples (gm_params s)) m = Ok idx).
    { unfold jax_choice. destruct (Z.ltb_spec m 0); [lia|]. destruct (Z.eqb_spec m 0) as [E|E].
      - rewrite E in Hl. destruct idx; [reflexivity|discriminate].
      - specialize (Hle E). destruct (Z.ltb_spec (gp_mcmc_num_samples (gm_params s)) m); [lia|]. rewrite Hc by lia. reflexivity. }
    rewrite E. fold sample_mis. rewrite sample_mis_complete with (mis := mis).
    - rewrite chain_add, Hl. reflexivity.
    - congruence.
    - intros i Hlt. rewrite Hl in Hlt. destruct (Hi i Hlt) as (j & d & dist & mi & se & h1 & h2 & h3 & h4 & h5).
      exists j, dist, mi, se. repeat split; auto.
      + erewrite get_bmm_nth; [|reflexivity|exact h2]. exact h3.
      + rewrite fresh_add in h4. exact h4.
  Qed.

  Lemma estimate_ok x y n s s' v : gmm_estimate x y n s = (s', Ok v) ->
    let m := given_or n (gp_n_thinned_samples (gm_params s)) in
    (0 <= m)%Z /\ (m <> 0 -> m <= gp_mcmc_num_samples (gm_params s))%Z /\
    exists dx dy ds idx mis, posterior_draws (gm_params s) (gm_key s) x y dx dy ds /\
      posterior_mis (gm_params s) (gm_key s) (Z.to_nat m) dx dy ds idx mis /\
      v = (if (m =? 0)%Z then NaN else fl_mean mis) /\
      s' = {| gm_params := gm_params s; gm_key := chain (gm_key s) (2 + Z.to_nat m); gm_dim_x := Z.of_nat dx;
              gm_dim_y := Z.of_nat dy; gm_mcmc := Some ds |}.
  Proof.
    intros E m. revert E. unfold gmm_estimate, GmmModel.gmm_estimate. fold get_posterior_mi.
    destruct (get_posterior_mi x y n s) as [s1 [mis|e]] eqn:E1; [|discriminate].
    intros E. injection E as <- <-. apply get_posterior_ok in E1 as (_ & h1 & h2 & dx & dy & ds & idx & h3 & h4 & h5).
    split; [auto|]. split; [auto|]. exists dx, dy, ds, idx, mis. split; [auto|]. split; [auto|]. split; [|auto].
    destruct h4 as (_ & _ & _ & Hl & _). fold m in Hl. destruct (Z.eqb_spec m 0) as [E|E].
    - rewrite E in Hl. destruct mis; [reflexivity|discriminate].
    - destruct mis; [cbn in Hl; lia|reflexivity].
  Qed.

  Lemma estimate_complete x y n s dx dy ds mis idx :
    let m := given_or n (gp_n_thinned_samples (gm_params s)) in
    numpyro = true -> (0 <= m)%Z -> (m <> 0 -> m <= gp_mcmc_num_samples (gm_params s))%Z ->
    posterior_draws (gm_params s) (gm_key s) x y dx dy ds ->
    posterior_mis (gm_params s) (gm_key s) (Z.to_nat m) dx dy ds idx mis ->
    snd (gmm_estimate x y n s) = Ok (if (m =? 0)%Z then NaN else fl_mean mis).
  Proof.
    intros m Hn Hm Hle Hp Hq. unfold gmm_estimate, GmmModel.gmm_estimate. fold get_posterior_mi.
    rewrite (posterior_complete x y n s dx dy ds mis idx Hn Hm Hle Hp Hq). cbn [snd].
    destruct Hq as (_ & _ & _ & Hl & _). fold m in Hl. destruct (Z.eqb_spec m 0) as [E|E].
    - rewrite E in Hl. destruct mis; [reflexivity|discriminate].
    - destruct mis; [cbn in Hl; lia|reflexivity].
  Qed.

  Lemma get_posterior_keys x y n s s' r : get_posterior_mi x y n s = (s', r) ->
    gm_params s' = gm_params s /\
    exists N, (N <= 2 + Z.to_nat (given_or n (gp_n_thinned_samples (gm_params s))))%nat /\ gm_key s' = chain (gm_key s) N /\
      (forall mis, r = Ok mis -> N = (2 + Z.to_nat (given_or n (gp_n_thinned_samples (gm_params s))))%nat).
  Proof.
    destruct r as [mis|e].
    - intros H. apply get_posterior_ok in H as (_ & _ & _ & dx & dy & ds & idx & _ & _ & ->). cbn. split; [reflexivity|].
      eexists. split; [reflexivity|]. split; reflexivity.
    - unfold get_posterior_mi, GmmModel.get_posterior_mi. fold run_mcmc.
      destruct (run_mcmc x y s) as [s1 [[]|e']] eqn:E1.
      + apply run_mcmc_ok in E1 as (Hn & dx & dy & ds & Hp & ->). rewrite split_key_ok by auto. cbn [with_key gm_params gm_key].
        set (m := match n with Some n => n | None => _ end). change (given_or n _) with m.
        destruct (jax_choice _ _ m) as [idx|e''] eqn:Ec.
        * apply jax_choice_ok in Ec as (Hm & Hd & Hl & Hne & Hr). intros H. apply sample_mis_fail in H as (N & HN' & ->). cbn.
          split; [reflexivity|]. exists (2 + N)%nat. split; [lia|]. split; [|discriminate].
          change (next_key (next_key (gm_key s))) with (chain (gm_key s) 2). now rewrite <- chain_add.
        * intros H. injection H as <- <-. cbn. split; [reflexivity|]. exists 2%nat. split; [lia|]. split; [reflexivity|discriminate].
      + intros E. injection E as <- <-. apply run_mcmc_fail in E1 as [[-> _]|[-> _]]; cbn; (split; [reflexivity|]).
        * exists 0%nat. split; [lia|]. split; [reflexivity|discriminate].
        * exists 1%nat. split; [lia|]. split; [reflexivity|discriminate].
  Qed.

  Lemma step_keys s c s' a : gmm_step s c = (s', a) ->
    gm_params s' = gm_params s /\
    exists N, (N <= splits (gm_params s) c)%nat /\ gm_key s' = chain (gm_key s) N /\ (succeeded a -> N = splits (gm_params s) c).
  Proof.
    unfold gmm_step, GmmModel.gmm_step. destruct c as [x y|idx|idx mc k|x y n|x y n]; cbn [splits].
    - fold run_mcmc. destruct (run_mcmc x y s) as [s1 [[]|e]] eqn:E; intros H; injection H as <- <-.
      + apply run_mcmc_ok in E as (_ & dx & dy & ds & _ & ->). cbn. split; [reflexivity|]. exists 1%nat. auto.
      + apply run_mcmc_fail in E as [[-> _]|[-> _]]; cbn; (split; [reflexivity|]).
        * exists 0%nat. split; [lia|]. split; [reflexivity|tauto].
        * exists 1%nat. split; [lia|]. split; [reflexivity|tauto].
    - intros H. injection H as <- <-. split; [reflexivity|]. exists 0%nat. split; [lia|]. split; reflexivity.
    - destruct k as [k|].
      + cbn [GmmModel.get_sample_mi]. unfold GmmModel.get_sample_mi. intros H. injection H as <- <-. split; [reflexivity|].
        exists 0%nat. split; [lia|]. split; reflexivity.
      + unfold GmmModel.get_sample_mi. rewrite split_key_ok by auto. cbn zeta. intros H. injection H as <- <-. split; [reflexivity|].
        exists 1%nat. split; [lia|]. split; reflexivity.
    - fold get_posterior_mi. destruct (get_posterior_mi x y n s) as [s1 r] eqn:E. intros H. injection H as <- <-.
      apply get_posterior_keys in E as (-> & N & h1 & h2 & h3). split; [reflexivity|]. exists N. repeat split; auto.
      destruct r; cbn; [|tauto]. intros _. eauto.
    - fold gmm_estimate. unfold gmm_estimate, GmmModel.gmm_estimate. fold get_posterior_mi.
      destruct (get_posterior_mi x y n s) as [s1 r] eqn:E. intros H.
      apply get_posterior_keys in E as (E & N & h1 & h2 & h3).
      destruct r; injection H as <- <-; (split; [assumption|]); exists N; repeat split; auto; cbn; [eauto|tauto].
  Qed.

  Lemma run_keys s cs s' answers : gmm_run s cs = (s', answers) ->
    gm_params s' = gm_params s /\
    exists N, (N <= all_splits (gm_params s) cs)%nat /\ gm_key s' = chain (gm_key s) N /\
      (Forall succeeded answers -> N = all_splits (gm_params s) cs).
  Proof.
    unfold gmm_run. revert s s' answers. induction cs as [|c cs IH]; intros s s' answers; cbn [GmmModel.gmm_run].
    - intros H. injection H as <- <-. split; [reflexivity|]. exists 0%nat. repeat split; auto.
    - fold gmm_step. destruct (gmm_step s c) as [s1 a] eqn:E1. destruct (GmmModel.gmm_run _ _ _ _ _ _ s1 cs) as [s2 l] eqn:E2.
      intros H. injection H as <- <-. apply step_keys in E1 as (P1 & N1 & h1 & h2 & h3). apply IH in E2 as (P2 & N2 & g1 & g2 & g3).
      rewrite P1 in *. split; [congruence|]. exists (N1 + N2)%nat. unfold all_splits in *. cbn [map list_sum fold_right].
      change (fold_right Nat.add 0%nat (map (splits (gm_params s)) cs)) with (list_sum (map (splits (gm_params s)) cs)).
      split; [lia|]. split; [rewrite g2, h2, <- chain_add; reflexivity|]. intros F. inversion F; subst. rewrite h3, g3 by auto. reflexivity.
  Qed.

  (** What an estimate returns depends on the parameters and the key only. *)
  Lemma estimate_memoryless x y n (s t : gmm (J := J)) : gm_params s = gm_params t -> gm_key s = gm_key t ->
    snd (gmm_estimate x y n s) = snd (gmm_estimate x y n t) /\
    (forall v, snd (gmm_estimate x y n s) = Ok v -> fst (gmm_estimate x y n s) = fst (gmm_estimate x y n t)).
  Proof.
    intros Hp Hk. unfold gmm_estimate, GmmModel.gmm_estimate, GmmModel.get_posterior_mi, GmmModel.run_mcmc. cbn zeta.
    rewrite <- Hp. destruct (product_space_values _ x y) as [[x' y']|e]; [|split; [reflexivity|discriminate]].
    rewrite !split_key_ok by auto. rewrite <- Hk. destruct numpyro; cbn [negb]; [|split; [reflexivity|discriminate]].
    destruct (bind _ _); [|split; [reflexivity|discriminate]]. cbn [with_key gm_key]. split; reflexivity.
  Qed.

  Lemma histories_alike k cs cs' s t answers answers' (s0 t0 : gmm (J := J)) x y n :
    gm_params s0 = gm_params t0 -> gm_key s0 = k -> gm_key t0 = k ->
    gmm_run s0 cs = (s, answers) -> gmm_run t0 cs' = (t, answers') -> Forall succeeded answers -> Forall succeeded answers' ->
    all_splits (gm_params s0) cs = all_splits (gm_params t0) cs' ->
    snd (gmm_estimate x y n s) = snd (gmm_estimate x y n t).
  Proof.
    intros Hp Hs Ht E1 E2 F1 F2 Hn. apply run_keys in E1 as (P1 & N1 & _ & K1 & G1). apply run_keys in E2 as (P2 & N2 & _ & K2 & G2).
    apply estimate_memoryless; [congruence|]. rewrite K1, K2, (G1 F1), (G2 F2). congruence.
  Qed.

  (** ** alpha *)

  Lemma alpha_run a s cs : gmm_run (set_alpha a s) cs = (set_alpha a (fst (gmm_run s cs)), snd (gmm_run s cs)).
  Proof.
    assert (K : forall a (s : gmm (J := J)) k, with_key (set_alpha a s) k = set_alpha a (with_key s k)) by reflexivity.
    assert (R : forall a x y s, run_mcmc x y (set_alpha a s) = (set_alpha a (fst (run_mcmc x y s)), snd (run_mcmc x y s))).
    { intros. unfold run_mcmc, GmmModel.run_mcmc. cbn zeta. cbn [set_alpha gm_params gp_standardize].
      destruct (product_space_values _ x y) as [[x' y']|e]; [|reflexivity].
      rewrite !split_key_ok by auto. destruct numpyro; cbn [negb]; [|reflexivity].
      cbn [gp_n_components gp_mcmc_num_warmup gp_mcmc_num_samples gm_key].
      destruct (bind _ _); reflexivity. }
    assert (M : forall a idx s, sample_mis idx (set_alpha a s) = (set_alpha a (fst (sample_mis idx s)), snd (sample_mis idx s))).
    { intros a' idx. unfold sample_mis. induction idx as [|j idx IH]; intros s'; cbn [GmmModel.sample_mis]; [reflexivity|].
      fold get_sample_mi. rewrite !get_sample_mi_eq.
      change (get_bmm (Z.of_nat j) (set_alpha a' s')) with (get_bmm (Z.of_nat j) s').
      cbn [set_alpha gm_params gm_key gp_mi_estimate_num_samples]. destruct (bind _ _); [|reflexivity].
      fold (set_alpha a' s'). rewrite K, IH. destruct (GmmModel.sample_mis _ _ _ _ idx _) as [s2 [mis|e]]; reflexivity. }
    assert (P : forall a x y n s, get_posterior_mi x y n (set_alpha a s)
      = (set_alpha a (fst (get_posterior_mi x y n s)), snd (get_posterior_mi x y n s))).
    { intros. unfold get_posterior_mi, GmmModel.get_posterior_mi. fold run_mcmc. rewrite R.
      destruct (run_mcmc x y s0) as [s1 [u|e]]; cbn [fst snd]; [|reflexivity].
      rewrite !split_key_ok by auto. rewrite K. cbn [set_alpha gm_params gm_key gp_n_thinned_samples gp_mcmc_num_samples with_key].
      destruct (jax_choice _ _ _) as [idx|e]; [|reflexivity]. fold sample_mis. fold (set_alpha a0 (with_key s1 (next_key (gm_key s1)))).
      apply M. }
    unfold gmm_run. revert s. induction cs as [|c cs IH]; intros s; cbn [GmmModel.gmm_run]; [reflexivity|].
    assert (S : GmmModel.gmm_step T eigvals cholesky normal_draw numpyro nuts (set_alpha a s) c =
      (set_alpha a (fst (gmm_step s c)), snd (gmm_step s c))).
    { unfold gmm_step, GmmModel.gmm_step. destruct c as [x y|idx|idx mc k|x y n|x y n]; fold run_mcmc get_posterior_mi.
      - rewrite R. destruct (run_mcmc x y s); reflexivity.
      - reflexivity.
      - unfold GmmModel.get_sample_mi. destruct k as [k|]; [reflexivity|]. rewrite !split_key_ok by auto. reflexivity.
      - rewrite P. destruct (get_posterior_mi x y n s); reflexivity.
      - unfold GmmModel.gmm_estimate. fold get_posterior_mi. rewrite P. destruct (get_posterior_mi x y n s) as [s1 [|]]; reflexivity. }
    rewrite S. fold gmm_step. destruct (gmm_step s c) as [s1 an]. cbn [fst snd]. rewrite IH.
    destruct (GmmModel.gmm_run _ _ _ _ _ _ s1 cs) as [s2 l]. reflexivity.
  Qed.

  (** ** Errors *)

  Lemma unfitted (s : gmm (J := J)) cs s' answers : gm_mcmc s = None -> Forall no_mcmc cs -> gmm_run s cs = (s', answers) ->
    Forall (fun a => a = AnsDistribution (Err ValueError) \/ a = AnsValue (Err ValueError)) answers /\ gm_mcmc s' = None /\
    gm_key s' = chain (gm_key s) (all_splits (gm_params s) cs).
  Proof.
    unfold gmm_run. revert s s' answers. induction cs as [|c cs IH]; intros s s' answers Hm Hc; cbn [GmmModel.gmm_run].
    - intros H. injection H as <- <-. repeat split; auto.
    - inversion Hc as [|? ? Hc1 Hc2]; subst.
      assert (S : exists a, GmmModel.gmm_step T eigvals cholesky normal_draw numpyro nuts s c =
        (with_key s (chain (gm_key s) (splits (gm_params s) c)), a) /\
        (a = AnsDistribution (Err ValueError) \/ a = AnsValue (Err ValueError))).
      { destruct c as [x y|idx|idx mc k|x y n|x y n]; try (cbn in Hc1; tauto); cbn [splits].
        - eexists. split; [destruct s; reflexivity|]. unfold GmmModel.gmm_step, get_bmm_distribution. rewrite Hm. auto.
        - unfold GmmModel.gmm_step, GmmModel.get_sample_mi, get_bmm_distribution. destruct k as [k|].
          + cbn zeta. rewrite Hm. cbn [bind]. eexists. split; [destruct s; reflexivity|auto].
          + rewrite split_key_ok by auto. cbn zeta. cbn [with_key gm_mcmc]. rewrite Hm. cbn [bind]. eexists. split; [reflexivity|auto]. }
      destruct S as (a & E & Ha). rewrite E. destruct (GmmModel.gmm_run _ _ _ _ _ _ _ cs) as [s2 l] eqn:E2.
      intros H. injection H as <- <-. apply IH in E2 as (h1 & h2 & h3); auto.
      repeat split; auto. rewrite h3. cbn [with_key gm_key gm_params]. rewrite <- chain_add. reflexivity.
  Qed.

  (** A run of MCMC which fails leaves the previous posterior in place. *)
  Lemma failed_refit x y (s s' : gmm (J := J)) e : run_mcmc x y s = (s', Err e) ->
    s' = with_key s (gm_key s') /\ (forall idx, get_bmm idx s' = get_bmm idx s).
  Proof.
    intros H. apply run_mcmc_fail in H as [[-> _]|[-> _]]; split; try reflexivity. destruct s; reflexivity.
  Qed.

  Lemma without_numpyro x y n (s : gmm (J := J)) xy : numpyro = false ->
    product_space_values (gp_standardize (gm_params s)) x y = Ok xy ->
    gmm_estimate x y n s = (with_key s (chain (gm_key s) 1), Err OtherError).
  Proof.
    intros Hn Hp. unfold gmm_estimate, GmmModel.gmm_estimate, GmmModel.get_posterior_mi, GmmModel.run_mcmc. cbn zeta.
    rewrite Hp. destruct xy. rewrite split_key_ok by auto. rewrite Hn. reflexivity.
  Qed.

  Lemma mismatched x y n (s : gmm (J := J)) : length x <> length y ->
    gmm_estimate x y n s = (s, Err ValueError).
  Proof.
    intros Hn. unfold gmm_estimate, GmmModel.gmm_estimate, GmmModel.get_posterior_mi, GmmModel.run_mcmc, product_space_values. cbn zeta.
    destruct (Nat.eqb_spec (length x) (length y)); [contradiction|reflexivity].
  Qed.

  Lemma too_many x y n (s : gmm (J := J)) dx dy ds : numpyro = true ->
    posterior_draws (gm_params s) (gm_key s) x y dx dy ds ->
    let m := given_or n (gp_n_thinned_samples (gm_params s)) in
    (0 < m)%Z -> (gp_mcmc_num_samples (gm_params s) < m)%Z ->
    gmm_estimate x y n s = ({| gm_params := gm_params s; gm_key := chain (gm_key s) 2; gm_dim_x := Z.of_nat dx;
                               gm_dim_y := Z.of_nat dy; gm_mcmc := Some ds |}, Err ValueError).
  Proof.
    intros Hn Hp m H0 Hm. unfold gmm_estimate, GmmModel.gmm_estimate, GmmModel.get_posterior_mi. fold run_mcmc.
    rewrite (run_mcmc_complete _ _ _ _ _ _ Hn Hp). rewrite split_key_ok by auto. cbn [with_key gm_params gm_key].
    change (match n with Some n => n | None => _ end) with m. unfold jax_choice.
    destruct (Z.ltb_spec m 0); [lia|]. destruct (Z.eqb_spec m 0); [lia|]. destruct (Z.ltb_spec (gp_mcmc_num_samples (gm_params s)) m); [|lia].
    reflexivity.
  Qed.

  (** ** Choosing draws *)

  Lemma all_draws p k dx dy ds idx mis : (0 <= gp_mcmc_num_samples p)%Z ->
    posterior_mis p k (Z.to_nat (gp_mcmc_num_samples p)) dx dy ds idx mis ->
    Permutation idx (seq 0 (Z.to_nat (gp_mcmc_num_samples p))).
  Proof.
    intros H0 (Hc & Hd & Hl & _). set (n := Z.to_nat _) in *.
    destruct n as [|n'] eqn:En; [destruct idx; [constructor|discriminate]|]. rewrite <- En in *.
    apply NoDup_Permutation_bis; auto.
    - rewrite seq_length. lia.
    - intros i Hi. apply in_seq. split; [lia|]. rewrite Hc in Hi by lia.
      destruct (ok_choice J HJ (fresh k 1) n n) as (_ & _ & h3); [lia|]. rewrite Forall_forall in h3. specialize (h3 i Hi). lia.
  Qed.

  Lemma index_rules (s : gmm (J := J)) ds : gm_mcmc s = Some ds -> ds <> [] ->
    (forall idx, (zlen ds <= idx)%Z -> get_bmm idx s = get_bmm (zlen ds - 1)%Z s) /\
    (forall idx, (0 < idx <= zlen ds)%Z -> get_bmm (- idx)%Z s = get_bmm (zlen ds - idx)%Z s).
  Proof.
    intros H Hne. unfold get_bmm, get_bmm_distribution. rewrite H. unfold jax_index. cbn zeta.
    assert (0 < zlen ds)%Z by (destruct ds; [congruence|unfold zlen; cbn; lia]). split; intros idx Hi.
    - destruct (Z.ltb_spec idx 0); [lia|]. destruct (Z.ltb_spec (zlen ds - 1) 0); [lia|].
      replace (Z.min (zlen ds - 1) idx) with (zlen ds - 1)%Z by lia. rewrite Z.min_id. reflexivity.
    - destruct (Z.ltb_spec (- idx) 0); [|lia]. destruct (Z.ltb_spec (zlen ds - idx) 0); [lia|].
      replace (- idx + zlen ds)%Z with (zlen ds - idx)%Z by lia. reflexivity.
  Qed.
End Gmm.

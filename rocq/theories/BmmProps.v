(** Properties C46-C50: Bend and Mix Models. *)
From Coq Require Import Permutation Lia Lra.
From Coquelicot Require Import Coquelicot.
From Verif Require Import Base BaseLemmas UtilsModel JaxModel SamplersModel BmmModel BmmSpec BmmProofs TrainingExamples BmmExamples.
Open Scope R_scope.
Local Notation length := List.length.

(** C46: pointwise mutual information is invariant under diffeomorphisms. *)
Theorem C46_pmi :
  forall {J : prng} (d : joint_distribution J) f g xs ys,
  Forall (fun x => length x = jd_dim_x d /\ optional_diffeomorphic_at f x) xs ->
  Forall (optional_diffeomorphic_at g) ys ->
  jd_pmi (transform_dist d f g) (map (optional_map f) xs) (map (optional_map g) ys) = jd_pmi d xs ys.
Proof. exact @transform_pmi. Qed.
Print Assumptions C46_pmi.

Example C46_pmi_example :
  jd_pmi (transform_dist demo_mixture (Some doubling) None) [[2 * / 4]] [[/ 4]] = Ok [Fin (ln (10 / 9))].
Proof.
  change [[2 * / 4]] with (map (optional_map (Some doubling)) [[/ 4]]).
  change [[/ 4]] with (map (optional_map None) [[/ 4]]) at 2. rewrite C46_pmi.
  - unfold jd_pmi. cbn [length Nat.eqb negb map combine fst snd]. rewrite demo_mixture_pmi by lra. do 4 f_equal. field.
  - constructor; [split; [reflexivity|apply doubling_ok]|constructor].
  - constructor; [exact I|constructor].
Qed.

Theorem C46_kept :
  forall {J : prng} (d : joint_distribution J) f g,
  jd_dim_x (transform_dist d f g) = jd_dim_x d /\ jd_dim_y (transform_dist d f g) = jd_dim_y d /\
  analytic_mi (transform_dist d f g) = analytic_mi d.
Proof. exact @transform_kept. Qed.
Print Assumptions C46_kept.

(** The transformed distribution is sampled by transforming the samples. *)
Theorem C46_sample :
  forall {J : prng} (d : joint_distribution J) f g n k,
  Forall (fun row => (jd_dim_x d <= length row)%nat) (draw (dist_joint d) k (Z.to_nat n)) ->
  Forall (fun row => optional_diffeomorphic_at f (firstn (jd_dim_x d) row)) (draw (dist_joint d) k (Z.to_nat n)) ->
  jd_sample (transform_dist d f g) n k
  = rmap (fun xy => (map (optional_map f) (fst xy), map (optional_map g) (snd xy))) (jd_sample d n k).
Proof. exact @transform_sample. Qed.
Print Assumptions C46_sample.

Theorem C46_monte_carlo :
  forall {J : prng} (d : joint_distribution J) f g n k,
  pairs_drawn (Z.to_nat n) (jd_dim_x d) (jd_dim_y d) (draw (dist_joint d) k (Z.to_nat n)) ->
  Forall (fun row => optional_diffeomorphic_at f (firstn (jd_dim_x d) row) /\
                     optional_diffeomorphic_at g (skipn (jd_dim_x d) row)) (draw (dist_joint d) k (Z.to_nat n)) ->
  pmi_profile k (transform_dist d f g) n = pmi_profile k d n /\
  monte_carlo_mi_estimate k (transform_dist d f g) n = monte_carlo_mi_estimate k d n.
Proof. exact @transform_profile. Qed.
Print Assumptions C46_monte_carlo.

Example C46_monte_carlo_example :
  jd_sample (transform_dist demo_mixture (Some doubling) None) 2 7%Z = Ok ([[2 * (1 / 4)]; [2 * (1 / 2)]], [[1 / 4]; [1 / 2]]) /\
  pmi_profile (7%Z : key demo) (transform_dist demo_mixture (Some doubling) None) 2 = Ok [Fin (ln (10 / 9)); Fin (ln 1)].
Proof.
  split.
  - rewrite C46_sample.
    + reflexivity.
    + repeat (constructor; [cbn; lia|]); constructor.
    + repeat (constructor; [apply doubling_ok|]); constructor.
  - destruct (C46_monte_carlo demo_mixture (Some doubling) None 2 (7%Z : key demo)) as [E _].
    + split; [reflexivity|]. repeat (constructor; [reflexivity|]); constructor.
    + repeat (constructor; [split; [apply doubling_ok|exact I]|]); constructor.
    + rewrite E. unfold pmi_profile. change (jd_sample demo_mixture 2 (7%Z : key demo)) with (Ok ([[1 / 4]; [1 / 2]], [[1 / 4]; [1 / 2]])).
      unfold jd_pmi. cbn [bind length Nat.eqb negb map combine fst snd].
      rewrite !demo_mixture_pmi by lra. do 2 f_equal; [|f_equal]; do 2 f_equal; field.
Qed.

(** C47: mixtures: what is accepted. *)
Theorem C47_accepts :
  forall {J : prng} (T : tfp_draws J) ps cs,
  ((exists d, mixture T ps cs = Ok d) <->
   cs <> [] /\ length cs = length ps /\
   exists dx dy, Forall (fun c => jd_dim_x c = dx /\ jd_dim_y c = dy) cs) /\
  ((exists d, mixture T ps cs = Ok d) \/ mixture T ps cs = Err ValueError) /\
  forall d, mixture T ps cs = Ok d -> analytic_mi d = None /\
    Forall (fun c => jd_dim_x c = jd_dim_x d /\ jd_dim_y c = jd_dim_y d) cs.
Proof. exact @mixture_accepts. Qed.
Print Assumptions C47_accepts.

Example C47_accepts_example :
  (exists d, mixture demo_tfp [1; 2; 3] [square flat; square tilt; square flat] = Ok d) /\
  mixture demo_tfp [1; 2] [square flat] = Err ValueError /\ mixture demo_tfp [] [] = Err ValueError.
Proof.
  split; [|split; reflexivity]. apply (proj1 (C47_accepts demo_tfp _ _)). split; [discriminate|]. split; [reflexivity|].
  exists 1%nat, 1%nat. repeat constructor.
Qed.

(** The joint and the marginal densities are the weighted sums of the components'. *)
Theorem C47_densities :
  forall {J : prng} (T : tfp_draws J) ps cs d fj fx fy, mixture T ps cs = Ok d -> good_proportions ps ->
  Forall2 is_density (map dist_joint cs) fj -> Forall2 is_density (map dist_x cs) fx ->
  Forall2 is_density (map dist_y cs) fy ->
  is_density (dist_joint d) (fun z => weighted ps fj z / rsum ps) /\
  is_density (dist_x d) (fun z => weighted ps fx z / rsum ps) /\
  is_density (dist_y d) (fun z => weighted ps fy z / rsum ps).
Proof. exact @mixture_densities. Qed.
Print Assumptions C47_densities.

Example C47_densities_example :
  has_density (dist_joint demo_mixture) [1; 1] (5 / 2) /\ has_density (dist_x demo_mixture) [1] (3 / 2) /\
  has_density (dist_x demo_mixture) [2] 0.
Proof.
  destruct squares_ok as (Sj & Sx & Sy).
  destruct (C47_densities demo_tfp _ _ _ _ _ _ demo_mixture_ok demo_proportions Sj Sx Sy) as (Dj & Dx & _).
  assert (F1 : flat 1 = 1) by (apply on_unit_in; lra). assert (F2 : tilt 1 = 2 * 1) by (apply (on_unit_in (fun u => 2 * u)); lra).
  assert (F3 : flat 2 = 0 /\ tilt 2 = 0).
  { unfold flat, tilt, on_unit, Rleb. destruct (Rle_dec 0 2); destruct (Rle_dec 2 1); try lra; auto. }
  destruct F3 as [F3 F4].
  specialize (Dj [1; 1]). assert (Dx1 := Dx [1]). specialize (Dx [2]). unfold weighted, rsum in Dj, Dx, Dx1.
  cbn [fold_right map combine fst snd one_dim two_dim] in Dj, Dx, Dx1. rewrite F1, F2 in Dj, Dx1. rewrite F3, F4 in Dx.
  repeat split.
  - match type of Dj with has_density _ _ ?r => replace r with (5 / 2) in Dj by (field; lra) end. exact Dj.
  - match type of Dx1 with has_density _ _ ?r => replace r with (3 / 2) in Dx1 by (field; lra) end. exact Dx1.
  - match type of Dx with has_density _ _ ?r => replace r with 0 in Dx by (field; lra) end. exact Dx.
Qed.

(** Hence the marginals of the mixture are the mixtures of the marginals. *)
Theorem C47_marginals :
  forall {J : prng} (T : tfp_draws J) ps cs d fj fx fy Ix Iy Mx My, mixture T ps cs = Ok d -> good_proportions ps ->
  Forall2 is_density (map dist_joint cs) fj -> Forall2 is_density (map dist_x cs) fx ->
  Forall2 is_density (map dist_y cs) fy -> linear_on Ix Mx -> linear_on Iy My ->
  Forall2 (fun f g => Ix f /\ forall x, Mx f x = g x) fj fx -> Forall2 (fun f g => Iy f /\ forall y, My f y = g y) fj fy ->
  exists gj gx gy, is_density (dist_joint d) gj /\ is_density (dist_x d) gx /\ is_density (dist_y d) gy /\
    (Ix gj /\ forall x, Mx gj x = gx x) /\ (Iy gj /\ forall y, My gj y = gy y).
Proof. exact @mixture_marginals. Qed.
Print Assumptions C47_marginals.

Example C47_marginals_example : exists gj gx gy,
  is_density (dist_joint demo_mixture) gj /\ is_density (dist_x demo_mixture) gx /\ is_density (dist_y demo_mixture) gy /\
  (forall x, RInt (fun t => gj (x ++ [t])%list) 0 1 = gx x) /\ (forall y, RInt (fun t => gj (t :: y)) 0 1 = gy y).
Proof.
  destruct squares_ok as (Sj & Sx & Sy).
  destruct (C47_marginals demo_tfp _ _ _ _ _ _ _ _ _ _ demo_mixture_ok demo_proportions Sj Sx Sy
    (integrals_linear (fun x t => (x ++ [t])%list)) (integrals_linear (fun y t => t :: y)))
    as (gj & gx & gy & H1 & H2 & H3 & [_ H4] & [_ H5]).
  - constructor; [exact (marginal_last _ flat_total)|]. constructor; [exact (marginal_last _ tilt_total)|]. constructor.
  - constructor; [exact (marginal_first _ flat_total)|]. constructor; [exact (marginal_first _ tilt_total)|]. constructor.
  - exists gj, gx, gy. auto.
Qed.

(** A mixture of identical components has the components' pointwise mutual information. *)
Theorem C47_identical :
  forall {J : prng} (T : tfp_draws J) ps cs d c x y v vx vy, mixture T ps cs = Ok d -> good_proportions ps ->
  Forall (eq c) cs -> has_density (dist_joint c) (x ++ y)%list v -> has_density (dist_x c) x vx -> has_density (dist_y c) y vy ->
  point_pmi d x y = point_pmi c x y.
Proof. exact @mixture_identical. Qed.
Print Assumptions C47_identical.

Example C47_identical_example :
  forall d, mixture demo_tfp [1; 3] [demo_mixture; demo_mixture] = Ok d -> point_pmi d [1] [1] = Fin (ln (10 / 9)).
Proof.
  intros d Hd. destruct squares_ok as (Sj & Sx & Sy).
  destruct (C47_densities demo_tfp _ _ _ _ _ _ demo_mixture_ok demo_proportions Sj Sx Sy) as (Dj & Dx & Dy).
  rewrite (fun Hp Hc => C47_identical demo_tfp _ _ d demo_mixture [1] [1] _ _ _ Hd Hp Hc (Dj _) (Dx _) (Dy _)).
  - rewrite demo_mixture_pmi by lra. do 2 f_equal. field.
  - split; [repeat constructor; lra|]. unfold rsum. cbn. lra.
  - repeat constructor.
Qed.

(** Reordering the components together with their proportions changes nothing. *)
Theorem C47_order :
  forall {J : prng} (T : tfp_draws J) ps cs ps' cs' d d', mixture T ps cs = Ok d -> mixture T ps' cs' = Ok d' ->
  Permutation (combine ps cs) (combine ps' cs') ->
  jd_dim_x d = jd_dim_x d' /\ jd_dim_y d = jd_dim_y d' /\ forall x y, point_pmi d x y = point_pmi d' x y.
Proof. exact @mixture_perm. Qed.
Print Assumptions C47_order.

Example C47_order_example :
  exists d, mixture demo_tfp [1; 1] [square tilt; square flat] = Ok d /\ point_pmi d [1] [1] = Fin (ln (10 / 9)).
Proof.
  eexists. split; [reflexivity|].
  match goal with |- point_pmi ?d _ _ = _ =>
    destruct (C47_order demo_tfp [1; 1] [square tilt; square flat] [1; 1] [square flat; square tilt] d demo_mixture eq_refl demo_mixture_ok)
      as (_ & _ & H) end; [apply perm_swap|].
  rewrite H, demo_mixture_pmi by lra. do 2 f_equal. field.
Qed.

(** The proportions are not required to add up to one: they are normalised. *)
Theorem C47_scaled :
  forall {J : prng} (T : tfp_draws J) ps ds c z, 0 < c ->
  log_prob (tfd_mixture T (map (Rmult c) ps) ds) z = log_prob (tfd_mixture T ps ds) z.
Proof. exact @mixture_scaled. Qed.
Print Assumptions C47_scaled.

(** Negative proportions are accepted; every density is then NaN. *)
Theorem C47_negative_refuted :
  exists ps (cs : list (joint_distribution demo)) d, mixture demo_tfp ps cs = Ok d /\ rsum ps = 1 /\
  forall z, log_prob (dist_joint d) z = NaN.
Proof. exact negative_accepted. Qed.
Print Assumptions C47_negative_refuted.

(** C48: products of distributions. *)
Theorem C48_product :
  forall {J : prng} (T : tfp_draws J) (a b : tfd J),
  ((exists d, product_distribution T a b = Ok d) <-> length (event_shape a) = 1%nat /\ length (event_shape b) = 1%nat) /\
  forall d, product_distribution T a b = Ok d ->
    event_shape a = [jd_dim_x d] /\ event_shape b = [jd_dim_y d] /\ analytic_mi d = Some (Fin 0) /\
    dist_x d = a /\ dist_y d = b /\
    forall x y, length x = jd_dim_x d ->
      log_prob (dist_joint d) (x ++ y)%list = fl_add (log_prob a x) (log_prob b y).
Proof. exact @product_spec. Qed.
Print Assumptions C48_product.

(** The pointwise mutual information is 0 exactly where both densities are positive. *)
Theorem C48_pmi :
  forall {J : prng} (T : tfp_draws J) (a b : tfd J) d x y, product_distribution T a b = Ok d -> length x = jd_dim_x d ->
  point_pmi d x y = match log_prob a x, log_prob b y with Fin _, Fin _ => Fin 0 | _, _ => NaN end.
Proof. exact @product_pmi. Qed.
Print Assumptions C48_pmi.

Theorem C48_everywhere_refuted :
  exists (a b : tfd demo) d x y, product_distribution demo_tfp a b = Ok d /\ length x = jd_dim_x d /\ length y = jd_dim_y d /\
  is_density a (one_dim flat) /\ is_density b (one_dim tilt) /\ point_pmi d x y <> Fin 0.
Proof. exact product_not_everywhere. Qed.
Print Assumptions C48_everywhere_refuted.

Theorem C48_monte_carlo :
  forall {J : prng} (T : tfp_draws J) (a b : tfd J) d k n, product_distribution T a b = Ok d -> (1 <= n)%Z ->
  Forall (fun z => length (firstn (jd_dim_x d) z) = jd_dim_x d /\ (exists u, log_prob a (firstn (jd_dim_x d) z) = Fin u) /\
                   exists v, log_prob b (skipn (jd_dim_x d) z) = Fin v) (draw (dist_joint d) k (Z.to_nat n)) ->
  monte_carlo_mi_estimate k d n = Ok (Fin 0, Fin 0).
Proof. exact @product_monte_carlo. Qed.
Print Assumptions C48_monte_carlo.

Example C48_example :
  exists d, product_distribution demo_tfp (side flat) (side tilt) = Ok d /\
  monte_carlo_mi_estimate (7%Z : key demo) d 2 = Ok (Fin 0, Fin 0).
Proof.
  eexists. split; [reflexivity|]. apply (C48_monte_carlo demo_tfp (side flat) (side tilt)); [reflexivity|lia|].
  assert (F : forall g u, 0 < u <= 1 -> 0 < on_unit g u -> exists v, log_prob (side (on_unit g)) [u] = Fin v).
  { intros g u Hu Hp. eexists. apply (log_fl_pos (on_unit g u) Hp). }
  constructor; [|constructor; [|constructor]]; (split; [reflexivity|]); cbn [firstn skipn jd_dim_x square_row Nat.even];
    split; apply F; try lra; rewrite on_unit_in; lra.
Qed.

(** C49: the Monte Carlo estimate. *)
Theorem C49_profile :
  forall {J : prng} (d : joint_distribution J) n k,
  ((n < 1)%Z -> pmi_profile k d n = Err ValueError /\ monte_carlo_mi_estimate k d n = Err ValueError) /\
  ((1 <= n)%Z -> exists p, pmi_profile k d n = Ok p /\
     p = map (fun z => point_pmi d (firstn (jd_dim_x d) z) (skipn (jd_dim_x d) z)) (draw (dist_joint d) k (Z.to_nat n))).
Proof. exact @profile_spec. Qed.
Print Assumptions C49_profile.

Theorem C49_estimate :
  forall {J : prng} (d : joint_distribution J) n k l,
  (1 <= n)%Z -> pmi_profile k d n = Ok (map Fin l) ->
  monte_carlo_mi_estimate k d n = Ok (Fin (rmean l), Fin (deviation l / sqrt (IZR n))) /\ 0 <= deviation l / sqrt (IZR n).
Proof. exact @monte_carlo_finite. Qed.
Print Assumptions C49_estimate.

Example C49_example :
  monte_carlo_mi_estimate (7%Z : key demo) demo_mixture 1 = Ok (Fin (ln (10 / 9)), Fin 0).
Proof.
  assert (P : pmi_profile (7%Z : key demo) demo_mixture 1 = Ok (map Fin [ln (10 / 9)])).
  { destruct (proj2 (C49_profile demo_mixture 1 (7%Z : key demo))) as (p & -> & ->); [lia|].
    change (map (fun z => point_pmi demo_mixture (firstn (jd_dim_x demo_mixture) z) (skipn (jd_dim_x demo_mixture) z))
      (draw (dist_joint demo_mixture) (7%Z : key demo) (Z.to_nat 1))) with [point_pmi demo_mixture [1 / 4] [1 / 4]]. cbn [map].
    rewrite demo_mixture_pmi by lra. do 4 f_equal. field. }
  rewrite (proj1 (C49_estimate demo_mixture 1 _ _ ltac:(lia) P)).
  assert (M : rmean [ln (10 / 9)] = ln (10 / 9)) by (unfold rmean, rsum; cbn; field).
  unfold deviation. rewrite M. cbn [map]. unfold rmean, rsum. cbn [fold_right length INR].
  replace ((ln (10 / 9) - ln (10 / 9)) ^ 2 + 0) with 0 by ring. unfold Rdiv. rewrite !Rmult_0_l, sqrt_0, Rmult_0_l. reflexivity.
Qed.

(** C50: BMMSampler. *)
Theorem C50_init :
  forall {J : prng} (d : joint_distribution J) mi s n,
  ((exists b, bmm_init d mi s n = Ok b) <-> (1 <= jd_dim_x d)%nat /\ (1 <= jd_dim_y d)%nat /\ (1 <= n)%Z) /\
  ((exists b, bmm_init d mi s n = Ok b) \/ bmm_init d mi s n = Err ValueError).
Proof. exact @bmm_init_spec. Qed.
Print Assumptions C50_init.

(** A value passed to the constructor is returned by every call. *)
Theorem C50_given :
  forall {J : prng} (d : joint_distribution J) v s n b calls, bmm_init d (Some v) s n = Ok b ->
  Forall2 (expected_answer d v) calls (fst (bmm_run b calls)).
Proof. exact @given_run. Qed.
Print Assumptions C50_given.

(** Otherwise every call returns the same Monte Carlo estimate, in any interleaving with
    sampling, and the standard error is known after the first call. *)
Theorem C50_estimated :
  forall {J : prng} (d : joint_distribution J) s n b calls, bmm_init d None s n = Ok b ->
  exists mi stderr, monte_carlo_mi_estimate (cast_to_rng J s) d n = Ok (mi, stderr) /\
    Forall2 (expected_answer d mi) calls (fst (bmm_run b calls)) /\
    (In CallMutualInformation calls -> bm_mi_stderr (snd (bmm_run b calls)) = Some stderr) /\
    (~ In CallMutualInformation calls -> bm_mi_stderr (snd (bmm_run b calls)) = None).
Proof. exact @estimated_run. Qed.
Print Assumptions C50_estimated.

Example C50_example :
  exists b, bmm_init demo_mixture None (@SeedInt demo 7) 1 = Ok b /\
  fst (bmm_run b [CallMutualInformation; CallSample 2 (@SeedInt demo 0); CallMutualInformation])
  = [Informed (Ok (Fin (ln (10 / 9)))); Drawn (Ok ([[1 / 4]; [1 / 2]], [[1 / 4]; [1 / 2]])); Informed (Ok (Fin (ln (10 / 9))))].
Proof.
  eexists. split; [reflexivity|].
  match goal with |- fst (bmm_run ?b ?c) = _ =>
    destruct (C50_estimated demo_mixture (@SeedInt demo 7) 1 b c eq_refl) as (mi & e & H & F & _); set (l := fst (bmm_run b c)) in * end.
  change (cast_to_rng demo (@SeedInt demo 7)) with (7%Z : key demo) in H. rewrite C49_example in H. injection H as <- <-. clearbody l.
  inversion F as [|? ? ? ? A F1]; subst. inversion F1 as [|? ? ? ? A2 F2]; subst. inversion F2 as [|? ? ? ? A3 F3]; subst.
  inversion F3; subst. cbn [expected_answer] in A, A2, A3. subst. reflexivity.
Qed.

(** The analytic mutual information carried by the distribution is never used. *)
Theorem C50_analytic_ignored_refuted :
  exists (d : joint_distribution demo) v s n b, analytic_mi d = Some v /\ bmm_init d None s n = Ok b /\
  fst (bmm_mutual_information b) <> Ok v.
Proof. exact analytic_ignored. Qed.
Print Assumptions C50_analytic_ignored_refuted.

(** Properties of the samplers (src/bmi/samplers: base.py, _transformed.py,
    _independent_coordinates.py, _additive_uniform.py, _discrete_continuous.py). *)
From Verif Require Import Base BaseLemmas UtilsModel JaxModel SamplersModel SamplersSpec TrainingSpec TrainingExamples SamplersProofs ZipProofs SamplersThms SamplersExamples.
Open Scope Z_scope.
Local Notation length := List.length.

(** C31: the constructor of every sampler accepts exactly positive dimensions. *)
Theorem C31_base_dimensions : forall a b,
  base_sampler_init a b = if (1 <=? a) && (1 <=? b) then Ok (a, b) else Err ValueError.
Proof. exact base_dimensions. Qed.
Print Assumptions C31_base_dimensions.
Example C31_base_dimensions_example : base_sampler_init 3 2 = Ok (3, 2) /\ base_sampler_init 3 0 = Err ValueError.
Proof. split; reflexivity. Qed.

(** C31: dim_total is the sum of the dimensions. *)
Theorem C31_dim_total : forall J (s : sampler J) a b, dim_x s = Ok a -> dim_y s = Ok b -> dim_total s = Ok (a + b).
Proof. exact dim_total_spec. Qed.
Print Assumptions C31_dim_total.
Example C31_dim_total_example : dim_x demo_sampler = Ok 2 /\ dim_y demo_sampler = Ok 1 /\ dim_total demo_sampler = Ok 3.
Proof. repeat split. Qed.

(** C31: whatever these samplers draw consists of [n] paired rows of the advertised
    positive widths. *)
Theorem C31_well_dimensioned : forall J D, prng_ok J -> draws_ok J D ->
  (forall eps (s : sampler J), additive_uniform_sampler J D eps = Ok s -> well_dimensioned s) /\
  (forall m s, discrete_uniform_sampler J D m = Ok s -> well_dimensioned s) /\
  (forall ns s, multivariate_discrete_uniform_sampler J D ns = Ok s -> well_dimensioned s) /\
  (forall (ss : list (sampler J)) s, Forall well_dimensioned ss -> concatenation_sampler ss = Ok s -> well_dimensioned s).
Proof. exact all_well_dimensioned. Qed.
Print Assumptions C31_well_dimensioned.
Example C31_well_dimensioned_example : (exists s, additive_uniform_sampler demo demo_draws (1 / 4) = Ok s) /\
  (exists s, multivariate_discrete_uniform_sampler demo demo_draws [3; 5] = Ok s) /\
  Forall well_dimensioned [demo_sampler; demo_sampler] /\ exists s, concatenation_sampler [demo_sampler; demo_sampler] = Ok s.
Proof.
  split; [apply additive_total; lra|]. split; [apply (multivariate_total demo demo_draws demo_ok demo_draws_ok); [discriminate|repeat constructor; lia]|].
  split; [repeat constructor; apply demo_sampler_dims|]. eexists. reflexivity.
Qed.

(** C31: a transformed sampler has the advertised widths when the transforms add the
    declared number of coordinates. *)
Theorem C31_transformed_dimensions : forall J (base : sampler J) tx ty ax ay s, well_dimensioned base ->
  transformed_sampler base tx ty ax ay true = Ok s ->
  (forall dx r, dim_x base = Ok dx -> zlen r = dx -> zlen (match tx with Some f => on_point f r | None => r end) = dx + ax) ->
  (forall dy r, dim_y base = Ok dy -> zlen r = dy -> zlen (match ty with Some f => on_point f r | None => r end) = dy + ay) ->
  well_dimensioned s.
Proof. exact @transformed_well_dimensioned. Qed.
Print Assumptions C31_transformed_dimensions.
Example C31_transformed_dimensions_example : well_dimensioned demo_sampler /\
  (exists s, transformed_sampler demo_sampler (Some demo_widen) None 1 0 true = Ok s) /\
  (forall r, zlen r = 2 -> zlen (on_point demo_widen r) = 2 + 1).
Proof.
  split; [apply demo_sampler_dims|]. split; [eexists; reflexivity|]. intros r Hr. cbn. unfold zlen in *. rewrite app_length. cbn. lia.
Qed.

(** C32: mutual information is that of the base, dimensions grow as declared. *)
Theorem C32_mi_and_dimensions : forall J (base : sampler J) tx ty ax ay v s, transformed_sampler base tx ty ax ay v = Ok s ->
  mutual_information s = mutual_information base /\
  (forall bx, dim_x base = Ok bx -> dim_x s = Ok (bx + ax)) /\ (forall by_, dim_y base = Ok by_ -> dim_y s = Ok (by_ + ay)).
Proof. exact mi_of_transformed. Qed.
Print Assumptions C32_mi_and_dimensions.
Example C32_mi_and_dimensions_example : exists s, transformed_sampler demo_sampler (Some demo_widen) (Some demo_double) 1 0 true = Ok s /\ dim_x s = Ok 3.
Proof. eexists. split; reflexivity. Qed.

(** C32: the transforms act row by row on the very draw of the base sampler. *)
Theorem C32_rows : forall J (base : sampler J) tx ty ax ay s, transformed_sampler base tx ty ax ay true = Ok s ->
  forall n rng x y, sample base n rng = Ok (x, y) ->
  exists x' y', sample s n rng = Ok (x', y') /\ length x' = length x /\ length y' = length y /\
    (forall i r, nth_error x i = Some r -> nth_error x' i = Some (match tx with Some f => on_point f r | None => r end)) /\
    (forall i r, nth_error y i = Some r -> nth_error y' i = Some (match ty with Some f => on_point f r | None => r end)).
Proof. exact @transformed_rows. Qed.
Print Assumptions C32_rows.
Example C32_rows_example : exists s, transformed_sampler demo_sampler (Some demo_double) None 0 0 true = Ok s /\
  sample s 1 (SeedInt 7) = Ok ([[2 * 7; 2 * (7 + 1)]], [[7]])%R.
Proof. eexists. split; reflexivity. Qed.

(** C32: transforming twice is transforming once by the composition. *)
Theorem C32_composition : forall J (base : sampler J) f1 f2 g1 g2 ax ay bx by_ v s1 s2,
  transformed_sampler base (Some f1) (Some f2) ax ay v = Ok s1 ->
  transformed_sampler s1 (Some g1) (Some g2) bx by_ v = Ok s2 ->
  let after (f g : transform) := {| on_point := fun r => on_point g (on_point f r); on_batch := fun m => on_batch g (on_batch f m) |} in
  exists s, transformed_sampler base (Some (after f1 g1)) (Some (after f2 g2)) (ax + bx) (ay + by_) v = Ok s /\
    dim_x s2 = dim_x s /\ dim_y s2 = dim_y s /\ mutual_information s2 = mutual_information s /\
    forall n rng, sample s2 n rng = sample s n rng.
Proof. exact compose_spec. Qed.
Print Assumptions C32_composition.
Example C32_composition_example : exists s1 s2,
  transformed_sampler demo_sampler (Some demo_widen) (Some demo_double) 1 0 true = Ok s1 /\
  transformed_sampler s1 (Some demo_double) (Some demo_widen) 0 1 true = Ok s2.
Proof. do 2 eexists. split; reflexivity. Qed.

(** C32: the number of added coordinates cannot be negative. *)
Theorem C32_negative_rejected : forall J (base : sampler J) tx ty ax ay v, ax < 0 \/ ay < 0 ->
  transformed_sampler base tx ty ax ay v = Err ValueError.
Proof. exact @transformed_negative. Qed.
Print Assumptions C32_negative_rejected.
Example C32_negative_rejected_example : transformed_sampler demo_sampler None None (-1) 0 true = Err ValueError.
Proof. reflexivity. Qed.

(** C33: dimensions add up, and the columns of component [i] are its own sample, drawn
    with its own key, the [i]-th of the split. *)
Theorem C33_blocks : forall J, prng_ok J -> forall (ss : list (sampler J)) s, Forall well_dimensioned ss -> concatenation_sampler ss = Ok s ->
  exists dxs dys, Forall2 (fun s d => dim_x s = Ok d) ss dxs /\ Forall2 (fun s d => dim_y s = Ok d) ss dys /\
    dim_x s = Ok (zsum dxs) /\ dim_y s = Ok (zsum dys) /\
    forall n rng x y, sample s n rng = Ok (x, y) -> paired_sample n (zsum dxs) (zsum dys) (x, y) /\
      forall i c, nth_error ss i = Some c -> exists key xi yi dx dy,
        nth_error (split J (cast_to_rng J rng) (length ss)) i = Some key /\ sample c n (SeedKey key) = Ok (xi, yi) /\
        nth_error dxs i = Some dx /\ nth_error dys i = Some dy /\
        columns (zsum (firstn i dxs)) dx x = xi /\ columns (zsum (firstn i dys)) dy y = yi.
Proof. exact @concatenation_blocks. Qed.
Print Assumptions C33_blocks.
Example C33_blocks_example : exists s, concatenation_sampler [demo_sampler; demo_sampler] = Ok s /\
  Forall well_dimensioned [demo_sampler; demo_sampler] /\ dim_x s = Ok 4 /\
  sample s 1 (SeedInt 3) = Ok ([[300; 300 + 1; 301; 301 + 1]], [[300; 301]])%R.
Proof. eexists. split; [reflexivity|]. split; [repeat constructor; apply demo_sampler_dims|]. split; reflexivity. Qed.

(** C33: mutual informations add up. *)
Theorem C33_mi : forall J (ss : list (sampler J)) s mis, concatenation_sampler ss = Ok s ->
  Forall2 (fun c v => mutual_information c = Ok (Fin v)) ss mis -> mutual_information s = Ok (Fin (rsum mis)).
Proof. exact @concatenation_mi. Qed.
Print Assumptions C33_mi.
Example C33_mi_example : exists s, concatenation_sampler [demo_sampler; demo_sampler] = Ok s /\
  Forall2 (fun c v => mutual_information c = Ok (Fin v)) [demo_sampler; demo_sampler] [1 / 2; 1 / 2]%R.
Proof. eexists. split; [reflexivity|]. repeat constructor. Qed.

(** C33: without components there is no sampler; with well-dimensioned ones there is,
    and it can sample whenever they all can. *)
Theorem C33_exists : forall J, prng_ok J -> concatenation_sampler (J := J) [] = Err ValueError /\
  forall ss : list (sampler J), ss <> [] -> Forall well_dimensioned ss -> exists s, concatenation_sampler ss = Ok s /\
    ((forall c n rng, In c ss -> exists xy, sample c n rng = Ok xy) -> forall n rng, exists xy, sample s n rng = Ok xy).
Proof. exact concatenation_exists. Qed.
Print Assumptions C33_exists.
Example C33_exists_example : (exists s, concatenation_sampler [demo_sampler] = Ok s) /\ forall n rng, exists xy, sample demo_sampler n rng = Ok xy.
Proof. split; [eexists; reflexivity|]. intros n rng. eexists. reflexivity. Qed.

(** C34: the reported value is the mutual information, as the integral of the log-density
    ratio; it is positive. *)
Theorem C34_true_mi : forall J D, prng_ok J -> draws_ok J D -> forall eps, (0 < eps)%R ->
  exists s mi, additive_uniform_sampler J D eps = Ok s /\ mutual_information s = Ok (Fin mi) /\
    (0 < mi)%R /\ forall v, is_additive_mi eps v <-> v = mi.
Proof. exact additive_true_mi. Qed.
Print Assumptions C34_true_mi.
Example C34_true_mi_example : exists s, additive_uniform_sampler demo demo_draws 2 = Ok s /\ mutual_information s = Ok (Fin (1 / 4 / 2)).
Proof.
  destruct (additive_total demo demo_draws 2 ltac:(lra)) as (s & H). exists s. split; [assumption|].
  destruct (additive_spec demo demo_draws demo_ok demo_draws_ok 2 s H) as (_ & _ & _ & M & _). rewrite M. unfold additive_uniform_mi.
  rewrite (proj2 (Rltb_true (1 / 2) 2)) by lra. reflexivity.
Qed.

(** C34: more noise, less information. *)
Theorem C34_decreasing : forall J D, prng_ok J -> draws_ok J D -> forall e1 e2 s1 s2 m1 m2, (e1 < e2)%R ->
  additive_uniform_sampler J D e1 = Ok s1 -> additive_uniform_sampler J D e2 = Ok s2 ->
  mutual_information s1 = Ok (Fin m1) -> mutual_information s2 = Ok (Fin m2) -> (m2 < m1)%R.
Proof. exact additive_decreasing. Qed.
Print Assumptions C34_decreasing.
Example C34_decreasing_example : (exists s, additive_uniform_sampler demo demo_draws (1 / 4) = Ok s) /\ exists s, additive_uniform_sampler demo demo_draws 1 = Ok s.
Proof. split; apply additive_total; lra. Qed.

(** C34: the reported value is continuous in the noise level (in particular where the
    formula changes). *)
Theorem C34_continuous : forall J D, prng_ok J -> draws_ok J D -> forall eps s mi d,
  additive_uniform_sampler J D eps = Ok s -> mutual_information s = Ok (Fin mi) -> (0 < d)%R ->
  exists h, (0 < h)%R /\ forall e' s' m', (Rabs (e' - eps) < h)%R -> additive_uniform_sampler J D e' = Ok s' ->
    mutual_information s' = Ok (Fin m') -> (Rabs (m' - mi) < d)%R.
Proof. exact additive_continuity. Qed.
Print Assumptions C34_continuous.
Example C34_continuous_example : exists s mi, additive_uniform_sampler demo demo_draws (1 / 2) = Ok s /\ mutual_information s = Ok (Fin mi).
Proof. destruct (additive_true_mi demo demo_draws demo_ok demo_draws_ok (1 / 2) ltac:(lra)) as (s & mi & H & M & _). eauto. Qed.

(** C34: X is a uniform draw and Y adds a noise draw made with the other key; X is in
    [0, 1] and Y within the noise of X. *)
Theorem C34_samples : forall J D, prng_ok J -> draws_ok J D -> forall eps s, additive_uniform_sampler J D eps = Ok s ->
  forall n rng, exists x y kx kn, sample s n rng = Ok (x, y) /\ paired_sample n 1 1 (x, y) /\
    split J (cast_to_rng J rng) 2 = [kx; kn] /\
    forall i rx ry, nth_error x i = Some rx -> nth_error y i = Some ry ->
      exists a e, rx = [a] /\ ry = [(a + e)%R] /\ nth_error (uniform J D kx n 0 1) i = Some a /\
        nth_error (uniform J D kn n (- eps) eps) i = Some e /\ (0 <= a <= 1 /\ Rabs (a + e - a) <= eps)%R.
Proof. exact additive_samples. Qed.
Print Assumptions C34_samples.
Example C34_samples_example : exists s, additive_uniform_sampler demo demo_draws (1 / 4) = Ok s /\
  sample s 1 (SeedInt 3) = Ok ([[(0 + 1) / 2]], [[(0 + 1) / 2 + (- (1 / 4) + 1 / 4) / 2]])%R.
Proof. unfold additive_uniform_sampler. cbn. destruct (Rleb (1 / 4) 0) eqn:E; [apply Rleb_true in E; lra|]. eexists. split; reflexivity. Qed.

(** C35: the reported value is the mutual information, as the integral of the log-density
    ratio; it is not negative. *)
Theorem C35_true_mi : forall J D, prng_ok J -> draws_ok J D -> forall m, 1 <= m ->
  exists s mi, discrete_uniform_sampler J D m = Ok s /\ mutual_information s = Ok (Fin mi) /\
    (0 <= mi)%R /\ forall v, is_mixture_mi (Z.to_nat m) v <-> v = mi.
Proof. exact mixture_true_mi. Qed.
Print Assumptions C35_true_mi.
Example C35_true_mi_example : exists s, discrete_uniform_sampler demo demo_draws 5 = Ok s /\
  mutual_information s = Ok (Fin (ln 5 - (5 - 1) * ln 2 / 5)).
Proof. eexists. split; reflexivity. Qed.

(** C35: X is in {0, ..., m-1}, and Y adds a draw from [0, 2] made with the other key. *)
Theorem C35_samples : forall J D, prng_ok J -> draws_ok J D -> forall m s, discrete_uniform_sampler J D m = Ok s ->
  forall n rng, exists x y kx ky, sample s n rng = Ok (x, y) /\ paired_sample n 1 1 (x, y) /\
    split J (cast_to_rng J rng) 2 = [kx; ky] /\
    forall i rx ry, nth_error x i = Some rx -> nth_error y i = Some ry ->
      exists k e, rx = [IZR k] /\ ry = [(IZR k + e)%R] /\ nth_error (randints J D kx n 0 m) i = Some k /\
        nth_error (uniform J D ky n 0 2) i = Some e /\ 0 <= k < m /\ (0 <= e <= 2)%R.
Proof. exact discrete_samples. Qed.
Print Assumptions C35_samples.
Example C35_samples_example : exists s, discrete_uniform_sampler demo demo_draws 3 = Ok s /\
  sample s 1 (SeedInt 3) = Ok ([[0]], [[0 + (0 + 2) / 2]])%R.
Proof. eexists. split; reflexivity. Qed.

(** C35: the multivariate version is the sum over independent coordinates. *)
Theorem C35_multivariate : forall J D, prng_ok J -> draws_ok J D ->
  (forall ns s, multivariate_discrete_uniform_sampler J D ns = Ok s ->
    ns <> [] /\ Forall (fun m => 1 <= m) ns /\ well_dimensioned s /\ dim_x s = Ok (zlen ns) /\ dim_y s = Ok (zlen ns) /\
    mutual_information s = Ok (Fin (rsum (map (fun m => (ln (IZR m) - (IZR m - 1) * ln 2 / IZR m)%R) ns)))) /\
  (forall ns, ns <> [] -> Forall (fun m => 1 <= m) ns -> exists s, multivariate_discrete_uniform_sampler J D ns = Ok s).
Proof. exact (fun J D Hj Hd => conj (multivariate_spec J D Hj Hd) (multivariate_total J D Hj Hd)). Qed.
Print Assumptions C35_multivariate.
Example C35_multivariate_example : exists s, multivariate_discrete_uniform_sampler demo demo_draws [3; 5] = Ok s /\ dim_x s = Ok 2.
Proof. eexists. split; reflexivity. Qed.

(** C34-C36: parameters out of range are rejected. *)
Theorem C36_rejections : forall J D, (forall eps, (eps <= 0)%R -> additive_uniform_sampler J D eps = Err ValueError) /\
  (forall m, m <= 0 -> discrete_uniform_sampler J D m = Err ValueError) /\
  (forall p, (p < 0 \/ 1 <= p)%R -> zip_sampler J D p = Err ValueError) /\
  (forall p t, t <= 0 -> zip_mi p (Some t) = Err AssertionError).
Proof. exact rejections. Qed.
Print Assumptions C36_rejections.
Example C36_rejections_example : discrete_uniform_sampler demo demo_draws 0 = Err ValueError /\ zip_mi (1 / 2) (Some 0) = Err AssertionError.
Proof. split; reflexivity. Qed.

(** C36: what the zero-inflated sampler draws, and its unusable dimensions (a defect:
    the constructor does not call that of the base class). *)
Theorem C36_sampler : forall J D, prng_ok J -> draws_ok J D -> forall p s, zip_sampler J D p = Ok s ->
  (0 <= p < 1)%R /\ dim_x s = Err AttributeError /\ dim_y s = Err AttributeError /\ dim_total s = Err AttributeError /\
  mutual_information s = Ok (Fin ((1 - p) * (3012 / 10000))) /\ respects_seeds s /\
  forall n rng, exists x y kx kz kp, sample s n rng = Ok (x, y) /\ paired_sample n 1 1 (x, y) /\
    split J (cast_to_rng J rng) 3 = [kx; kz; kp] /\
    forall i rx ry, nth_error x i = Some rx -> nth_error y i = Some ry ->
      exists a k, rx = [a] /\ ry = [IZR k] /\ (0 <= a)%R /\ 0 <= k /\
        (nth_error (bernoulli J D kz (1 - p) n) i = Some false -> k = 0) /\
        (nth_error (bernoulli J D kz (1 - p) n) i = Some true -> nth_error (poisson J D kp (exponential J D kx n)) i = Some k).
Proof. exact zip_spec. Qed.
Print Assumptions C36_sampler.
Example C36_sampler_example : exists s, zip_sampler demo demo_draws (1 / 4) = Ok s.
Proof. apply zip_total. lra. Qed.

(** C36: the truncated series has exactly [t] terms. *)
Theorem C36_formula : forall p t, 0 < t ->
  zip_mi p (Some t) = Ok (Fin ((1 - p) * (2 * ln 2 - np_euler_gamma - sum_f_R0 (fun k => ln (INR (S k)) / 2 ^ (S k))%R (Z.to_nat t - 1)))).
Proof. exact zip_mi_formula. Qed.
Print Assumptions C36_formula.
Example C36_formula_example : exists v, zip_mi (1 / 4) (Some 3) = Ok (Fin v) /\
  v = ((1 - 1 / 4) * (2 * ln 2 - np_euler_gamma - (ln (INR 1) / 2 ^ 1 + ln (INR 2) / 2 ^ 2 + ln (INR 3) / 2 ^ 3)))%R.
Proof. eexists. split; [apply zip_mi_formula; lia|]. reflexivity. Qed.

(** C36: truncating the series later lowers the reported value, which converges; the
    default constant is the limit rounded to four decimals. *)
Theorem C36_series : forall p, (0 <= p < 1)%R ->
  (forall t1 t2 v1 v2, t1 <= t2 -> zip_mi p (Some t1) = Ok (Fin v1) -> zip_mi p (Some t2) = Ok (Fin v2) -> (v2 <= v1)%R) /\
  exists l,
    (forall d, (0 < d)%R -> exists t0, 0 < t0 /\ forall t v, t0 <= t -> zip_mi p (Some t) = Ok (Fin v) -> (Rabs (v - (1 - p) * l) < d)%R) /\
    (forall v, zip_mi p None = Ok (Fin v) -> (Rabs (v - (1 - p) * l) <= (1 - p) * (5 / 100000))%R) /\ (0 < l)%R.
Proof. exact (fun p Hp => conj (fun t1 t2 v1 v2 Ht => zip_mi_antitone p t1 t2 v1 v2 Hp Ht) (zip_mi_limit p Hp)). Qed.
Print Assumptions C36_series.
Example C36_series_example : exists v, zip_mi (1 / 4) (Some 16) = Ok (Fin v).
Proof. eexists. reflexivity. Qed.

(** C36 (refuted as a ground truth): the reported values for p = 0 and for any p > 0
    cannot both be the mutual information of the sampled distribution, because an
    observed zero does not tell which of the two mechanisms produced it. *)
Theorem C36_ground_truth_refuted : forall J D, prng_ok J -> draws_ok J D -> forall p s0 s v0 v, (0 < p)%R ->
  zip_sampler J D 0 = Ok s0 -> zip_sampler J D p = Ok s ->
  mutual_information s0 = Ok (Fin v0) -> mutual_information s = Ok (Fin v) -> ~ (is_zip_mi 0 v0 /\ is_zip_mi p v).
Proof. exact zip_reported_wrong. Qed.
Print Assumptions C36_ground_truth_refuted.
Example C36_ground_truth_refuted_example : (exists s, zip_sampler demo demo_draws 0 = Ok s) /\ exists s, zip_sampler demo demo_draws (15 / 100) = Ok s.
Proof. split; apply zip_total; lra. Qed.

(** C70: an int seed stands for its key, a key for itself. *)
Theorem C70_seeds : forall J D, prng_ok J -> draws_ok J D ->
  (forall n, cast_to_rng J (SeedInt n) = prng_key J n) /\ (forall k, cast_to_rng J (SeedKey k) = k) /\
  (forall eps s, additive_uniform_sampler J D eps = Ok s -> respects_seeds s) /\
  (forall m s, discrete_uniform_sampler J D m = Ok s -> respects_seeds s) /\
  (forall p s, zip_sampler J D p = Ok s -> respects_seeds s) /\
  (forall ss s, concatenation_sampler (J := J) ss = Ok s -> respects_seeds s) /\
  (forall base tx ty ax ay v s, respects_seeds base -> transformed_sampler (J := J) base tx ty ax ay v = Ok s -> respects_seeds s).
Proof. exact (fun J D Hj Hd => conj (fun _ => eq_refl) (conj (fun _ => eq_refl) (all_respect_seeds J D Hj Hd))). Qed.
Print Assumptions C70_seeds.
Example C70_seeds_example : respects_seeds demo_sampler /\ cast_to_rng demo (SeedInt 3) = 3.
Proof. split; [intros n k; reflexivity|reflexivity]. Qed.

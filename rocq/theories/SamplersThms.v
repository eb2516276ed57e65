(** Statements about samplers assembled from the lemmas. *)
From Coquelicot Require Import Coquelicot.
From Verif Require Import Base BaseLemmas UtilsModel JaxModel SamplersModel SamplersSpec TrainingSpec SamplersProofs AnalysisLemmas
  AdditiveUniformProofs MixtureProofs ZipProofs ZipRefutation.
Open Scope Z_scope.
Local Notation length := List.length.

Section Thms.
  Context (J : prng) (D : draws J) (Hj : prng_ok J) (Hd : draws_ok J D).

  Lemma base_dimensions a b : base_sampler_init a b = if (1 <=? a) && (1 <=? b) then Ok (a, b) else Err ValueError.
  Proof.
    destruct (base_sampler_init a b) as [[? ?]|] eqn:E; destruct (base_sampler_init_spec _ _ _ E) as [(A & B & F)|(A & F)]; try discriminate.
    - rewrite F. destruct (Z.leb_spec 1 a); destruct (Z.leb_spec 1 b); try lia. reflexivity.
    - rewrite F. destruct (Z.leb_spec 1 a); destruct (Z.leb_spec 1 b); try lia; reflexivity.
  Qed.

  Lemma dim_total_spec (s : sampler J) a b : dim_x s = Ok a -> dim_y s = Ok b -> dim_total s = Ok (a + b).
  Proof. intros Ha Hb. unfold dim_total. now rewrite Ha, Hb. Qed.

  Lemma additive_total eps : (0 < eps)%R -> exists s, additive_uniform_sampler J D eps = Ok s.
  Proof.
    intros H. unfold additive_uniform_sampler. cbn. destruct (Rleb eps 0) eqn:E; [apply Rleb_true in E; lra|eauto].
  Qed.

  Lemma discrete_total m : 1 <= m -> exists s, discrete_uniform_sampler J D m = Ok s.
  Proof. intros H. unfold discrete_uniform_sampler. cbn. destruct (Z.leb_spec m 0); [lia|eauto]. Qed.

  Lemma zip_total p : (0 <= p < 1)%R -> exists s, zip_sampler J D p = Ok s.
  Proof.
    intros H. unfold zip_sampler. destruct (Rltb p 0) eqn:E1; [apply Rltb_true in E1; lra|].
    destruct (Rleb 1 p) eqn:E2; [apply Rleb_true in E2; lra|]. cbn. eauto.
  Qed.

  Lemma additive_well_dimensioned eps s : additive_uniform_sampler J D eps = Ok s -> well_dimensioned s.
  Proof.
    intros H. destruct (additive_spec J D Hj Hd eps s H) as (_ & Dx & Dy & _ & _ & S). exists 1, 1. do 2 (split; [assumption|]). do 2 (split; [lia|]).
    intros n rng xy E. destruct (S n rng) as (x & y & ? & ? & E' & P & _). rewrite E in E'. injection E' as ->. exact P.
  Qed.

  Lemma discrete_well_dimensioned m s : discrete_uniform_sampler J D m = Ok s -> well_dimensioned s.
  Proof.
    intros H. destruct (discrete_spec J D Hj Hd m s H) as (_ & Dx & Dy & _ & _ & S). exists 1, 1. do 2 (split; [assumption|]). do 2 (split; [lia|]).
    intros n rng xy E. destruct (S n rng) as (x & y & ? & ? & E' & P & _). rewrite E in E'. injection E' as ->. exact P.
  Qed.

  Lemma multivariate_inv ns s : multivariate_discrete_uniform_sampler J D ns = Ok s ->
    exists ss, Forall2 (fun m s => discrete_uniform_sampler J D m = Ok s) ns ss /\ concatenation_sampler ss = Ok s.
  Proof.
    unfold multivariate_discrete_uniform_sampler. destruct (map_results _ ns) as [ss|] eqn:E; [|discriminate]. cbn [bind]. intros H.
    exists ss. split; [now apply map_results_inv|assumption].
  Qed.

  Lemma multivariate_components ns ss : Forall2 (fun m s => discrete_uniform_sampler J D m = Ok s) ns ss ->
    Forall well_dimensioned ss /\ Forall2 (fun s d => dim_x s = Ok d) ss (map (fun _ => 1) ns) /\ Forall2 (fun s d => dim_y s = Ok d) ss (map (fun _ => 1) ns) /\
    Forall2 (fun s v => mutual_information s = Ok (Fin v)) ss (map (fun m => (ln (IZR m) - (IZR m - 1) * ln 2 / IZR m)%R) ns) /\ Forall (fun m => 1 <= m) ns.
  Proof.
    intros H. induction H as [|m s ns ss E _ (A & B & C & M & P)]; [repeat split; constructor|].
    destruct (discrete_spec J D Hj Hd m s E) as (Hm & Dx & Dy & Mi & _ & _). cbn [map].
    split; [constructor; [eapply discrete_well_dimensioned; eassumption|assumption]|]. repeat split; constructor; assumption.
  Qed.

  Lemma zsum_ones {A} (l : list A) : zsum (map (fun _ => 1) l) = zlen l.
  Proof. induction l as [|a l IH]; [reflexivity|]. cbn [map zsum fold_right]. fold (zsum (map (fun _ => 1) l)). rewrite IH. unfold zlen. cbn [length]. lia. Qed.

  Lemma multivariate_spec ns s : multivariate_discrete_uniform_sampler J D ns = Ok s ->
    ns <> [] /\ Forall (fun m => 1 <= m) ns /\ well_dimensioned s /\ dim_x s = Ok (zlen ns) /\ dim_y s = Ok (zlen ns) /\
    mutual_information s = Ok (Fin (rsum (map (fun m => (ln (IZR m) - (IZR m - 1) * ln 2 / IZR m)%R) ns))).
  Proof.
    intros H. destruct (multivariate_inv ns s H) as (ss & F & E). destruct (multivariate_components ns ss F) as (A & B & C & M & P).
    destruct (concatenation_blocks Hj ss s A E) as (dxs & dys & Fx & Fy & Dx & Dy & _).
    rewrite (Forall2_fun _ _ _ _ Fx B) in Dx. rewrite (Forall2_fun _ _ _ _ Fy C) in Dy. rewrite zsum_ones in Dx, Dy.
    split; [intros ->; inversion F; subst; discriminate E|]. split; [assumption|]. split; [eapply concatenation_well_dimensioned; eassumption|].
    do 2 (split; [assumption|]). eapply concatenation_mi; eassumption.
  Qed.

  Lemma multivariate_total ns : ns <> [] -> Forall (fun m => 1 <= m) ns -> exists s, multivariate_discrete_uniform_sampler J D ns = Ok s.
  Proof.
    intros Hn Hp. assert (G : exists ss, Forall2 (fun m s => discrete_uniform_sampler J D m = Ok s) ns ss).
    { clear Hn. induction Hp as [|m ns Hm _ (ss & IH)]; [exists []; constructor|]. destruct (discrete_total m Hm) as (s & Es). exists (s :: ss). now constructor. }
    destruct G as (ss & F). unfold multivariate_discrete_uniform_sampler. rewrite (map_results_ok _ _ _ F). cbn [bind].
    apply concatenation_ok; [intros ->; inversion F; subst; congruence|]. apply (multivariate_components ns ss F).
  Qed.

  Lemma all_well_dimensioned :
    (forall eps (s : sampler J), additive_uniform_sampler J D eps = Ok s -> well_dimensioned s) /\
    (forall m s, discrete_uniform_sampler J D m = Ok s -> well_dimensioned s) /\
    (forall ns s, multivariate_discrete_uniform_sampler J D ns = Ok s -> well_dimensioned s) /\
    (forall (ss : list (sampler J)) s, Forall well_dimensioned ss -> concatenation_sampler ss = Ok s -> well_dimensioned s).
  Proof.
    split; [exact additive_well_dimensioned|]. split; [exact discrete_well_dimensioned|].
    split; [intros ns s H; apply (multivariate_spec ns s H)|]. intros ss s. now apply concatenation_well_dimensioned.
  Qed.

  Lemma all_respect_seeds :
    (forall eps s, additive_uniform_sampler J D eps = Ok s -> respects_seeds s) /\
    (forall m s, discrete_uniform_sampler J D m = Ok s -> respects_seeds s) /\
    (forall p s, zip_sampler J D p = Ok s -> respects_seeds s) /\
    (forall ss s, concatenation_sampler (J := J) ss = Ok s -> respects_seeds s) /\
    (forall base tx ty ax ay v s, respects_seeds base -> transformed_sampler (J := J) base tx ty ax ay v = Ok s -> respects_seeds s).
  Proof.
    split; [intros eps s H; apply (additive_spec J D Hj Hd eps s H)|].
    split; [intros m s H; apply (discrete_spec J D Hj Hd m s H)|].
    split; [intros p s H; apply (zip_spec J D Hj Hd p s H)|].
    split; [intros ss s; apply concatenation_seeds|]. intros. eapply transformed_seeds; eassumption.
  Qed.

  Lemma additive_true_mi eps : (0 < eps)%R -> exists s mi, additive_uniform_sampler J D eps = Ok s /\ mutual_information s = Ok (Fin mi) /\
    (0 < mi)%R /\ forall v, is_additive_mi eps v <-> v = mi.
  Proof.
    intros He. destruct (additive_total eps He) as (s & Es). destruct (additive_mi_defined eps He) as (mi & Em).
    exists s, mi. split; [assumption|]. split; [destruct (additive_spec J D Hj Hd eps s Es) as (_ & _ & _ & M & _); now rewrite M, Em|].
    split; [exact (additive_mi_positive eps mi He Em)|]. intros v. rewrite additive_mi_iff by assumption. rewrite Em. split; congruence.
  Qed.

  Lemma additive_decreasing e1 e2 s1 s2 m1 m2 : (e1 < e2)%R -> additive_uniform_sampler J D e1 = Ok s1 -> additive_uniform_sampler J D e2 = Ok s2 ->
    mutual_information s1 = Ok (Fin m1) -> mutual_information s2 = Ok (Fin m2) -> (m2 < m1)%R.
  Proof.
    intros He H1 H2 M1 M2. destruct (additive_spec J D Hj Hd e1 s1 H1) as (P1 & _ & _ & N1 & _). destruct (additive_spec J D Hj Hd e2 s2 H2) as (P2 & _ & _ & N2 & _).
    rewrite N1 in M1. rewrite N2 in M2. injection M1 as M1. injection M2 as M2. exact (additive_mi_decreasing e1 e2 m1 m2 P1 He M1 M2).
  Qed.

  Lemma additive_continuity eps s mi d : additive_uniform_sampler J D eps = Ok s -> mutual_information s = Ok (Fin mi) -> (0 < d)%R ->
    exists h, (0 < h)%R /\ forall e' s' m', (Rabs (e' - eps) < h)%R -> additive_uniform_sampler J D e' = Ok s' -> mutual_information s' = Ok (Fin m') -> (Rabs (m' - mi) < d)%R.
  Proof.
    intros H M Hdp. destruct (additive_spec J D Hj Hd eps s H) as (P & _ & _ & N & _). rewrite N in M. injection M as M.
    pose proof (additive_mi_continuous eps P) as C.
    destruct (C (fun v => (Rabs (v - mi) < d)%R)) as (h & Hh).
    { exists (mkposreal d Hdp). intros y Hy. rewrite M in Hy. exact Hy. }
    exists h. split; [apply cond_pos|]. intros e' s' m' He' H' M'. destruct (additive_spec J D Hj Hd e' s' H') as (_ & _ & _ & N' & _). rewrite N' in M'. injection M' as M'.
    specialize (Hh e' He'). cbv beta in Hh. rewrite M' in Hh. exact Hh.
  Qed.

  Lemma mixture_true_mi m : 1 <= m -> exists s mi, discrete_uniform_sampler J D m = Ok s /\ mutual_information s = Ok (Fin mi) /\
    (0 <= mi)%R /\ forall v, is_mixture_mi (Z.to_nat m) v <-> v = mi.
  Proof.
    intros Hm. destruct (discrete_total m Hm) as (s & Es). destruct (discrete_spec J D Hj Hd m s Es) as (_ & _ & _ & M & _).
    assert (E : IZR m = INR (Z.to_nat m)) by (rewrite INR_IZR_INZ, Z2Nat.id by lia; reflexivity). rewrite E in M.
    exists s, (ln (INR (Z.to_nat m)) - (INR (Z.to_nat m) - 1) * ln 2 / INR (Z.to_nat m))%R.
    do 2 (split; [assumption|]). split; [apply mixture_mi_nonneg; lia|]. intros v. split.
    - intros Hv. eapply mixture_mi_unique; [exact Hv|]. apply mixture_mi_exact. lia.
    - intros ->. apply mixture_mi_exact. lia.
  Qed.

  Lemma additive_samples eps s : additive_uniform_sampler J D eps = Ok s -> forall n rng, exists x y kx kn, sample s n rng = Ok (x, y) /\ paired_sample n 1 1 (x, y) /\
      split J (cast_to_rng J rng) 2 = [kx; kn] /\
      forall i rx ry, nth_error x i = Some rx -> nth_error y i = Some ry ->
        exists a e, rx = [a] /\ ry = [(a + e)%R] /\ nth_error (uniform J D kx n 0 1) i = Some a /\
          nth_error (uniform J D kn n (- eps) eps) i = Some e /\ (0 <= a <= 1 /\ Rabs (a + e - a) <= eps)%R.
  Proof. intros H. apply (additive_spec J D Hj Hd eps s H). Qed.

  Lemma discrete_samples m s : discrete_uniform_sampler J D m = Ok s -> forall n rng, exists x y kx ky, sample s n rng = Ok (x, y) /\ paired_sample n 1 1 (x, y) /\
      split J (cast_to_rng J rng) 2 = [kx; ky] /\
      forall i rx ry, nth_error x i = Some rx -> nth_error y i = Some ry ->
        exists k e, rx = [IZR k] /\ ry = [(IZR k + e)%R] /\ nth_error (randints J D kx n 0 m) i = Some k /\
          nth_error (uniform J D ky n 0 2) i = Some e /\ 0 <= k < m /\ (0 <= e <= 2)%R.
  Proof. intros H. apply (discrete_spec J D Hj Hd m s H). Qed.

  Lemma rejections : (forall eps, (eps <= 0)%R -> additive_uniform_sampler J D eps = Err ValueError) /\
    (forall m, m <= 0 -> discrete_uniform_sampler J D m = Err ValueError) /\
    (forall p, (p < 0 \/ 1 <= p)%R -> zip_sampler J D p = Err ValueError) /\
    (forall p t, t <= 0 -> zip_mi p (Some t) = Err AssertionError).
  Proof.
    split; [exact (additive_rejects J D)|]. split; [exact (discrete_rejects J D)|]. split; [exact (zip_rejects J D)|].
    intros p t Ht. unfold zip_mi. destruct (Z.leb_spec t 0); [reflexivity|lia].
  Qed.

  (** No constant makes the reported form the mutual information of zero-inflated data. *)
  Lemma zip_form_wrong c p : (0 < p < 1)%R -> ~ (is_zip_mi 0 ((1 - 0) * c) /\ is_zip_mi p ((1 - p) * c)).
  Proof. intros Hp (A & B). pose proof (zip_mi_strict p _ _ Hp A B). lra. Qed.

  Lemma zip_reported_wrong p s0 s v0 v : (0 < p)%R -> zip_sampler J D 0 = Ok s0 -> zip_sampler J D p = Ok s ->
    mutual_information s0 = Ok (Fin v0) -> mutual_information s = Ok (Fin v) -> ~ (is_zip_mi 0 v0 /\ is_zip_mi p v).
  Proof.
    intros Hp H0 H M0 M (A & B). destruct (zip_spec J D Hj Hd 0 s0 H0) as (_ & _ & _ & _ & N0 & _). destruct (zip_spec J D Hj Hd p s H) as (P & _ & _ & _ & N & _).
    rewrite N0 in M0. rewrite N in M. injection M0 as <-. injection M as <-. apply (zip_form_wrong (3012 / 10000) p ltac:(lra)). split; assumption.
  Qed.

  Lemma mi_of_transformed (base : sampler J) tx ty ax ay v s : transformed_sampler base tx ty ax ay v = Ok s ->
    mutual_information s = mutual_information base /\
    (forall bx, dim_x base = Ok bx -> dim_x s = Ok (bx + ax)) /\ (forall by_, dim_y base = Ok by_ -> dim_y s = Ok (by_ + ay)).
  Proof.
    intros H. apply transformed_inv in H as (bx & by_ & A & B & _ & _ & _ & _ & Dx & Dy & M & _). split; [assumption|].
    split; intros d E; [rewrite A in E|rewrite B in E]; injection E as <-; assumption.
  Qed.

  Lemma compose_spec (base : sampler J) f1 f2 g1 g2 ax ay bx by_ v s1 s2 :
    transformed_sampler base (Some f1) (Some f2) ax ay v = Ok s1 ->
    transformed_sampler s1 (Some g1) (Some g2) bx by_ v = Ok s2 ->
    let after (f g : transform) := {| on_point := fun r => on_point g (on_point f r); on_batch := fun m => on_batch g (on_batch f m) |} in
    exists s, transformed_sampler base (Some (after f1 g1)) (Some (after f2 g2)) (ax + bx) (ay + by_) v = Ok s /\
      dim_x s2 = dim_x s /\ dim_y s2 = dim_y s /\ mutual_information s2 = mutual_information s /\
      forall n rng, sample s2 n rng = sample s n rng.
  Proof.
    intros H1 H2 after. destruct (transformed_compose_exists base f1 f2 g1 g2 ax ay bx by_ v s1 s2 H1 H2) as (s & H).
    exists s. split; [exact H|]. exact (transformed_compose base f1 f2 g1 g2 ax ay bx by_ v s1 s2 s H1 H2 H).
  Qed.
  Lemma concatenation_exists : concatenation_sampler (J := J) [] = Err ValueError /\
    forall ss : list (sampler J), ss <> [] -> Forall well_dimensioned ss -> exists s, concatenation_sampler ss = Ok s /\
      ((forall c n rng, In c ss -> exists xy, sample c n rng = Ok xy) -> forall n rng, exists xy, sample s n rng = Ok xy).
  Proof.
    split; [reflexivity|]. intros ss Hn Hw. destruct (concatenation_ok ss Hn Hw) as (s & H). exists s. split; [assumption|].
    now apply concatenation_samples.
  Qed.
End Thms.

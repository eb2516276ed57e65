(** What the panels comparing the profile with chi-squared variables show. *)
From Verif Require Import Base UtilsModel JaxModel SamplersModel GaussianModel MatrixUtilsModel BmmModel MultivariateModel
  CriticsModel ChiModel ChiSpec ChiProofs BaseLemmas SamplersProofs BmmSpec BmmProofs MatrixUtilsSpec MatrixUtilsProofs CriticsSpec CriticsThms MixturesSpec ChiThms.
Open Scope R_scope.
Local Notation length := List.length.

Lemma variance_fin l : np_var (map Fin l) = Fin (sample_variance l).
Proof.
  unfold np_var. rewrite fl_mean_fin, map_map.
  rewrite (map_ext _ (fun v => Fin ((v - rmean l) ^ 2))) by (intros v; cbn; f_equal; ring).
  rewrite <- (map_map (fun v => (v - rmean l) ^ 2) Fin), fl_mean_fin. unfold sample_variance, rmean. now rewrite map_length.
Qed.
Lemma entry_squared (t : matrix) i k : entry (map (map (fun v => v * v)) t) i k = entry t i k ^ 2.
Proof.
  unfold entry. replace (entry t i k ^ 2) with (entry t i k * entry t i k) by ring. unfold entry.
  change (@nil R) with (map (fun v : R => v * v) []) at 1. rewrite (map_nth (map (fun v => v * v))).
  replace 0 with (0 * 0) at 1 by ring. rewrite (map_nth (fun v => v * v)). ring.
Qed.
Lemma chi2_terms_ext rho a b a' b' : (forall i, a i ^ 2 = a' i) -> (forall i, b i ^ 2 = b' i) ->
  rsum (map (fun i => nth i rho 0 / 2 * (a' i - b' i)) (seq 0 (length rho))) = chi2_terms rho a b.
Proof. intros A B. unfold chi2_terms. f_equal. apply map_ext. intros i. now rewrite A, B. Qed.
Lemma bins_ticks : linspace (-2) 4 21 = Ok (map (fun k => -2 + INR k * (3 / 10)) (seq 0 21)).
Proof.
  change 21%Z with (Z.of_nat 21). rewrite linspace_ticks by lia. f_equal. apply map_ext. intros k. unfold tick.
  replace ((4 - -2) / (INR 21 - 1)) with (3 / 10); [reflexivity|]. rewrite INR_IZR_INZ. cbn [Z.of_nat Pos.of_succ_nat Pos.succ]. lra.
Qed.

Section Extra.
  Context {J : prng}.
  Variable eigvals : matrix -> list (R * R).
  Variable cholesky : matrix -> option matrix.
  Variable normal_draw : list R -> option matrix -> key J -> nat -> matrix.
  Hypothesis eig : eigvals_symmetric eigvals.
  Hypothesis cho : factorises cholesky.

  (** The same point has the same value whatever further coordinates are added to Y. *)
  Theorem extra_ignored rho e1 e2 : rho <> [] -> (0 <= e1)%Z -> (0 <= e2)%Z -> Forall (fun r => Rabs r < 1) rho ->
    exists C1 C2 d1 d2, canonical_correlation rho e1 = Ok C1 /\ canonical_correlation rho e2 = Ok C2 /\
      normal_distribution eigvals cholesky normal_draw (Z.of_nat (length rho)) (Z.of_nat (length rho) + e1) C1 None = Ok d1 /\
      normal_distribution eigvals cholesky normal_draw (Z.of_nat (length rho)) (Z.of_nat (length rho) + e2) C2 None = Ok d2 /\
      forall x y u v, length x = length rho -> length y = length rho -> length u = Z.to_nat e1 -> length v = Z.to_nat e2 ->
        point_pmi d1 x (y ++ u) = point_pmi d2 x (y ++ v).
  Proof.
    intros NE E1 E2 S.
    destruct (canonical_pointwise normal_draw eig cho NE E1 S) as (C1 & d1 & HC1 & Hd1 & _ & _ & _ & _ & P1).
    destruct (canonical_pointwise normal_draw eig cho NE E2 S) as (C2 & d2 & HC2 & Hd2 & _ & _ & _ & _ & P2).
    exists C1, C2, d1, d2. repeat (split; [assumption|]). intros x y u v lx ly lu lv.
    rewrite P1, P2 by (rewrite ?app_length; lia). do 2 f_equal. unfold chi2_terms. f_equal. apply map_ext_in. intros i I. apply in_seq in I.
    unfold plus_part, minus_part. rewrite !app_nth1 by lia. reflexivity.
  Qed.
End Extra.

Section Plotted.
  Context {J : prng}.
  Variable eigvals : matrix -> list (R * R).
  Variable cholesky : matrix -> option matrix.
  Variable normal_draw : list R -> option matrix -> key J -> nat -> matrix.
  Variable standard_normal : key J -> nat -> nat -> matrix.
  Local Notation plot := (plot_samples eigvals cholesky normal_draw standard_normal).

  Theorem plot_refused rho extra : (0 <= extra)%Z -> ~ Forall (fun r => Rabs r < 1) rho -> plot rho extra = Err AssertionError.
  Proof.
    intros E N. destruct (canonical_ok rho extra E) as (C & HC & _). unfold plot_samples. rewrite HC. cbn [bind].
    now rewrite (refused_check rho _ N).
  Qed.
  Theorem plot_negative rho extra : (extra < 0)%Z -> rho <> [] -> exists e, plot rho extra = Err e.
  Proof. intros E N. destruct (canonical_error rho extra E N) as (e & He). unfold plot_samples. rewrite He. cbn. eauto. Qed.

  Hypothesis eig : eigvals_symmetric eigvals.
  Hypothesis cho : factorises cholesky.
  Hypothesis pts : draws_points normal_draw.

  Theorem plot_drawn rho extra k k0 k1 : rho <> [] -> (0 <= extra)%Z -> Forall (fun r => Rabs r < 1) rho ->
    split J (prng_key J 21) 3 = [k; k0; k1] ->
    exists C c, canonical_correlation rho extra = Ok C /\ plot rho extra = Ok c /\
      drawn rho (normal_draw (repeat 0 (length rho + (length rho + Z.to_nat extra))) (cholesky C) k0 (Z.to_nat 20000))
        (standard_normal k1 (2 * length rho) (Z.to_nat 20000)) c.
  Proof.
    intros NE E S K. destruct (canonical_pointwise normal_draw eig cho NE E S) as (C & d & HC & Hd & dx & dy & dj & _ & P).
    exists C. set (m := length rho) in *.
    assert (ch : fl_ltb (fl_abs (fl_sub (Fin (canonical_information rho)) (fl_opp (fl_scale (1 / 2) (fl_sum (map (fun r => np_log (1 - r ^ 2)) rho)))))) (Fin (1 / 100)) = true).
    { rewrite (logs_fin rho S). cbn. rewrite information_logs. replace (canonical_information rho + - canonical_information rho) with 0 by ring.
      rewrite Rabs_R0. destruct (Rlt_dec 0 (1 / 100)); [reflexivity|lra]. }
    destruct (proj2 (profile_spec d 20000 k0) ltac:(lia)) as (p & Hp & Ep).
    set (points := normal_draw (repeat 0 (m + (m + Z.to_nat extra))) (cholesky C) k0 (Z.to_nat 20000)).
    set (noise := standard_normal k1 (2 * m)%nat (Z.to_nat 20000)).
    eexists. split; [exact HC|]. split.
    { unfold plot_samples. rewrite HC. cbn [bind]. fold m.
      pose proof (determinants E S HC) as D. cbv zeta in D. fold m in D. rewrite D, ch. cbn [negb]. rewrite Hd. cbn [bind]. rewrite K. cbn [nth_error].
      rewrite Hp. cbn [bind]. rewrite bins_ticks. cbn [bind]. fold noise. rewrite combined. cbn [fl_sub fl_opp fl_add]. reflexivity. }
    assert (V : p = map Fin (map (fun z => canonical_information rho + chi2_terms rho (fun i => plus_part rho i (firstn m z) (skipn m z)) (fun i => minus_part rho i (firstn m z) (skipn m z))) points)).
    { rewrite Ep, dx, dj, map_map. cbn [construct_normal draw]. fold points. apply map_ext_in. intros z Iz.
      destruct (pts (repeat 0 (m + (m + Z.to_nat extra))) (cholesky C) k0 (Z.to_nat 20000)) as (_ & F). fold points in F.
      rewrite Forall_forall in F. specialize (F z Iz). rewrite repeat_length in F.
      apply P; [rewrite firstn_length; lia|rewrite skipn_length; lia]. }
    unfold drawn. fold m. cbn [cp_profile cp_empirical cp_chi2 cp_bins cp_analytic cp_line cp_span].
    assert (Q : rsum (map (fun r => r * r) rho) = rsum (map (fun r => r ^ 2) rho)) by (f_equal; apply map_ext; intros; ring).
    repeat split; try exact V; try exact Q.
    - rewrite V. apply variance_fin.
    - apply map_ext. intros j. do 2 f_equal. apply chi2_terms_ext; intros i; symmetry; apply entry_squared.
    - now rewrite Q.
  Qed.

  Theorem main_drawn k k0 k1 : split J (prng_key J 21) 3 = [k; k0; k1] ->
    exists c1 c2 c3 c4 C1 C2 C3 C4, main eigvals cholesky normal_draw standard_normal = Ok [c1; c2; c3; c4] /\
      canonical_correlation [8 / 10; 5 / 10] 0 = Ok C1 /\ canonical_correlation [7 / 10; 7 / 10; 7 / 10] 0 = Ok C2 /\
      canonical_correlation [5 / 10; 0; 0] 1 = Ok C3 /\ canonical_correlation [5 / 10; 0; 0] 3 = Ok C4 /\
      let points C n := normal_draw (repeat 0 n) (cholesky C) k0 (Z.to_nat 20000) in
      let noise n := standard_normal k1 n (Z.to_nat 20000) in
      drawn [8 / 10; 5 / 10] (points C1 4%nat) (noise 4%nat) c1 /\ drawn [7 / 10; 7 / 10; 7 / 10] (points C2 6%nat) (noise 6%nat) c2 /\
      drawn [5 / 10; 0; 0] (points C3 7%nat) (noise 6%nat) c3 /\ drawn [5 / 10; 0; 0] (points C4 9%nat) (noise 6%nat) c4 /\
      cp_line c3 = cp_line c4 /\ cp_span c3 = cp_span c4 /\ cp_chi2 c3 = cp_chi2 c4 /\ cp_analytic c3 = 1 / 4 /\ cp_analytic c4 = 1 / 4.
  Proof.
    intros K.
    destruct (@plot_drawn [8 / 10; 5 / 10] 0 k k0 k1) as (C1 & c1 & H1 & G1 & D1); [discriminate|lia| |exact K|].
    { repeat constructor; rewrite Rabs_right; lra. }
    destruct (@plot_drawn [7 / 10; 7 / 10; 7 / 10] 0 k k0 k1) as (C2 & c2 & H2 & G2 & D2); [discriminate|lia| |exact K|].
    { repeat constructor; rewrite Rabs_right; lra. }
    assert (F : Forall (fun r => Rabs r < 1) [5 / 10; 0; 0]) by (repeat constructor; rewrite Rabs_right; lra).
    destruct (@plot_drawn [5 / 10; 0; 0] 1 k k0 k1) as (C3 & c3 & H3 & G3 & D3); [discriminate|lia|exact F|exact K|].
    destruct (@plot_drawn [5 / 10; 0; 0] 3 k k0 k1) as (C4 & c4 & H4 & G4 & D4); [discriminate|lia|exact F|exact K|].
    exists c1, c2, c3, c4, C1, C2, C3, C4. split.
    { unfold main, panels. cbn [map_results fst snd]. rewrite G1, G2, G3, G4. reflexivity. }
    do 4 (split; [assumption|]). cbv zeta.
    split; [exact D1|]. split; [exact D2|]. split; [exact D3|]. split; [exact D4|].
    destruct D3 as (_ & _ & Q3 & _ & A3 & L3 & S3). destruct D4 as (_ & _ & Q4 & _ & A4 & L4 & S4).
    split; [now rewrite L3, L4|]. split; [now rewrite S3, S4|]. split; [now rewrite Q3, Q4|].
    rewrite A3, A4. unfold rsum. cbn. lra.
  Qed.
End Plotted.

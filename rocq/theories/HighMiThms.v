(** Tasks of prescribed mutual information ([HighMiModel]). *)
From Coq Require Import String.
From Verif Require Import Base BaseLemmas UtilsModel JaxModel SamplersModel GaussianModel MatrixUtilsModel BenchmarkModel TasksModel TasksSpec
  TransformsModel BenchmarkSpec BenchmarkThms TasksThms TasksBuild TasksProofs TasksGaussian HighMiModel HighMiSpec HighMiProofs HighMiGaussian.
Open Scope R_scope.

(** ** The mutual information as a function of the correlation *)
Definition curve (c : R) : R := - ln (1 - c ^ 2).
Lemma square_in c : 0 < c < 1 -> 0 < c ^ 2 < 1.
Proof. intros H. cbn [pow]. nra. Qed.
Lemma curve_monotone x y : 0 < x -> x <= y -> y < 1 -> curve x <= curve y.
Proof.
  intros A B C. unfold curve. assert (Hx := square_in x ltac:(lra)). assert (Hy := square_in y ltac:(lra)).
  assert (x ^ 2 <= y ^ 2) by (cbn [pow]; nra).
  destruct (Req_dec (x ^ 2) (y ^ 2)) as [->|N]; [lra|]. assert (ln (1 - y ^ 2) < ln (1 - x ^ 2)) by (apply ln_increasing; lra). lra.
Qed.
(** The correlation with a given mutual information. *)
Definition inverse (t : R) : R := sqrt (1 - exp (- t)).
Lemma exp_le_1 t : 0 <= t -> 0 < exp (- t) <= 1.
Proof.
  intros H. split; [apply exp_pos|]. destruct (Req_dec t 0) as [->|N]; [rewrite Ropp_0, exp_0; lra|].
  rewrite <- exp_0. left. apply exp_increasing. lra.
Qed.
Lemma inverse_square t : 0 <= t -> inverse t ^ 2 = 1 - exp (- t).
Proof. intros H. unfold inverse. cbn [pow]. rewrite Rmult_1_r. apply sqrt_sqrt. assert (K := exp_le_1 t H). lra. Qed.
Lemma inverse_range t : 0 <= t -> 0 <= inverse t < 1.
Proof.
  intros H. assert (S := inverse_square t H). assert (K := exp_le_1 t H). split; [apply sqrt_pos|].
  apply Rnot_le_lt. intros C. cbn [pow] in S. nra.
Qed.
Lemma curve_between t delta x : 0 <= t -> 0 < delta -> inverse t < x < inverse (t + delta) -> t < curve x < t + delta.
Proof.
  intros Ht Hd [A B]. assert (R1 := inverse_range t Ht). assert (R2 := inverse_range (t + delta) ltac:(lra)).
  assert (S1 := inverse_square t Ht). assert (S2 := inverse_square (t + delta) ltac:(lra)).
  assert (Q1 : inverse t ^ 2 < x ^ 2) by (cbn [pow]; nra). assert (Q2 : x ^ 2 < inverse (t + delta) ^ 2) by (cbn [pow]; nra).
  unfold curve. assert (Hx := square_in x ltac:(lra)). split.
  - assert (ln (1 - x ^ 2) < ln (exp (- t))) by (apply ln_increasing; lra). rewrite ln_exp in *. lra.
  - assert (ln (exp (- (t + delta))) < ln (1 - x ^ 2)) by (apply ln_increasing; [apply exp_pos|lra]). rewrite ln_exp in *. lra.
Qed.
(** The correlations with nearly the right mutual information are not too few. *)
Lemma inverse_gap t delta : 0 <= t -> 0 < delta -> exp (- t) * (1 - exp (- delta)) / 2 <= inverse (t + delta) - inverse t.
Proof.
  intros Ht Hd. assert (R1 := inverse_range t Ht). assert (R2 := inverse_range (t + delta) ltac:(lra)).
  assert (S1 := inverse_square t Ht). assert (S2 := inverse_square (t + delta) ltac:(lra)).
  assert (E : exp (- (t + delta)) = exp (- t) * exp (- delta)) by (rewrite <- exp_plus; f_equal; ring).
  rewrite E in S2. assert (P := exp_pos (- t)).
  assert (D : exp (- delta) < 1) by (rewrite <- exp_0; apply exp_increasing; lra).
  set (a := inverse t) in *. set (b := inverse (t + delta)) in *.
  assert (G : (b - a) * (b + a) = exp (- t) * (1 - exp (- delta))) by (cbn [pow] in *; lra).
  assert (0 < exp (- t) * (1 - exp (- delta))) by (apply Rmult_lt_0_compat; lra).
  assert (0 < b - a) by nra. nra.
Qed.
Lemma enough_steps t n : n = Z.to_nat 5000 -> 0 <= t <= 3000 -> 1 < exp (- t) * (1 - exp (- (1 / 10000))) / 2 * 2 ^ n.
Proof.
  intros -> H. change (Z.to_nat 5000) with 5000%nat. assert (D : 1 / 20000 <= 1 - exp (- (1 / 10000))).
  { assert (K := exp_ineq1 (1 / 10000) ltac:(lra)). rewrite exp_Ropp.
    assert (/ exp (1 / 10000) <= / (1 + 1 / 10000)) by (apply Rinv_le_contravar; lra).
    assert (/ (1 + 1 / 10000) <= 1 - 1 / 20000); [|lra]. apply Rmult_le_reg_l with (1 + 1 / 10000); [lra|]. rewrite Rinv_r; lra. }
  assert (E : / 3 ^ 3000 <= exp (- t)).
  { apply Rle_trans with (exp (Ropp 3000)).
    - rewrite exp_Ropp. apply Rinv_le_contravar; [apply exp_pos|].
      assert (W : forall n, exp (INR n) <= 3 ^ n).
      { induction n as [|n IH]; [rewrite INR_IZR_INZ; cbn [Z.of_nat pow]; rewrite exp_0; lra|].
        rewrite S_INR, exp_plus. cbn [pow]. rewrite (Rmult_comm 3). apply Rmult_le_compat; [left; apply exp_pos|left; apply exp_pos|exact IH|apply exp_le_3]. }
      specialize (W 3000%nat). rewrite INR_IZR_INZ in W. change (Z.of_nat 3000) with 3000%Z in W. exact W.
    - destruct (Req_dec t 3000) as [->|N]; [lra|]. left. apply exp_increasing. lra. }
  assert (P3 : 0 < 3 ^ 3000) by (apply pow_lt; lra). assert (P2 : 0 < 2 ^ 5000) by (apply pow_lt; lra).
  assert (K : 3 ^ 3000 * 40000 < 2 ^ 5000).
  { change 3 with (IZR 3). change 2 with (IZR 2). rewrite !pow_IZR, <- mult_IZR. apply IZR_lt.
    apply Z.ltb_lt. vm_compute. reflexivity. }
  generalize dependent (2 ^ 5000). generalize dependent (3 ^ 3000). intros A LA PA B PB K.
  assert (PI : 0 < / A) by now apply Rinv_0_lt_compat.
  assert (L : / A * (1 / 20000) <= exp (- t) * (1 - exp (- (1 / 10000)))) by (apply Rmult_le_compat; lra).
  apply Rlt_le_trans with (/ A * (1 / 20000) / 2 * B).
  - apply Rmult_lt_reg_l with (A * 40000); [lra|]. rewrite Rmult_1_r. apply Rlt_le_trans with (1 := K). right. field. lra.
  - apply (Rmult_le_compat_r B); lra.
Qed.

Section Generate.
  Variable eigvals : matrix -> list (R * R).
  Variables (J : prng) (mvn : key J -> list R -> matrix -> nat -> matrix).
  Variables (F : formats) (uniform : nat -> R) (expm : expm_function).
  Local Notation func dim := (fun c => mi_sparse_gaussian eigvals mvn c dim).
  Local Notation generate := (generate_sparse_gaussian_task F eigvals mvn uniform).

  Lemma sparse_nondecreasing dim : eigvals_positive eigvals -> (2 <= dim)%Z -> nondecreasing_on (func dim) curve 0 1.
  Proof.
    intros He Hd. split.
    - intros x Hx. apply sparse_mi; auto; lra.
    - apply curve_monotone.
  Qed.
  Lemma loop_open f target delta n : nondecreasing_on f curve 0 1 -> forall s s', search_loop f target delta uniform n s = Ok s' ->
    0 <= bs_min s < bs_mid s -> bs_mid s < bs_max s <= 1 -> 0 < bs_mid s' < 1.
  Proof.
    intros Hf. induction n as [|n IH]; intros s s' H A B; cbn [search_loop] in H; [injection H as <-; lra|].
    rewrite (proj1 Hf) in H by lra. destruct (close _ _ _); [injection H as <-; cbn [bs_mid]; lra|].
    apply IH in H; [exact H| |]; cbn [bs_min bs_mid bs_max]; destruct (fl_ltb _ _); lra.
  Qed.
  Lemma search_open f target delta n c : nondecreasing_on f curve 0 1 -> binsearch f target delta uniform 0 1 n = Ok (Some c) -> 0 < c < 1.
  Proof.
    intros Hf Hc. unfold binsearch in Hc. destruct (search_loop _ _ _ _ _ _) as [s|e] eqn:E; [|discriminate]. cbn [bind] in Hc.
    destruct (close _ _ _); [|discriminate]. injection Hc as <-. eapply loop_open in E; eauto; cbn [bs_min bs_mid bs_max]; lra.
  Qed.
  Lemma loop_away f target delta n : nondecreasing_on f curve 0 1 -> (forall x, 0 < x < 1 -> ~ within (curve x) target delta) ->
    forall s, 0 <= bs_min s < bs_mid s -> bs_mid s < bs_max s <= 1 -> close (bs_value s) target delta = false ->
    exists s', search_loop f target delta uniform n s = Ok s' /\ close (bs_value s') target delta = false.
  Proof.
    intros Hf N. induction n as [|n IH]; intros s A B C; cbn [search_loop]; [eauto|].
    rewrite (proj1 Hf) by lra. assert (K : close (Fin (curve (bs_mid s))) target delta = false).
    { apply not_close. intros r Er. injection Er as <-. apply N. lra. }
    rewrite K. apply IH; cbn [bs_min bs_mid bs_max bs_value]; [| |exact K]; destruct (fl_ltb _ _); lra.
  Qed.
  Lemma search_away f target delta n : nondecreasing_on f curve 0 1 -> (forall x, 0 < x < 1 -> ~ within (curve x) target delta) ->
    ~ within (-1000000000) target delta -> binsearch f target delta uniform 0 1 n = Ok None.
  Proof.
    intros Hf N I. unfold binsearch.
    destruct (loop_away f target delta (Z.to_nat n) Hf N {| bs_min := 0; bs_max := 1; bs_mid := 1 / 2 * (0 + 1); bs_value := Fin (-1000000000); bs_draws := 0 |})
      as (s & E & C); cbn [bs_min bs_mid bs_max bs_value]; [lra|lra| |rewrite E; cbn [bind]; now rewrite C].
    apply not_close. intros r Er. now injection Er as <-.
  Qed.
  Lemma curve_pos c : 0 < c < 1 -> 0 < curve c.
  Proof.
    intros H. unfold curve. assert (Q := square_in c H). assert (ln (1 - c ^ 2) < ln 1) by (apply ln_increasing; lra). rewrite ln_1 in *. lra.
  Qed.
  (** Conversion shall not run the search. *)
  Opaque search_loop binsearch.
  Lemma correlation_found mi dim n : n = 5000%Z -> eigvals_positive eigvals -> (2 <= dim)%Z -> 0 <= mi <= 3000 ->
    exists c, binsearch (func dim) mi (1 / 10000) uniform 0 1 n = Ok (Some c) /\ 0 < c < 1 /\ within (curve c) mi (1 / 10000).
  Proof.
    intros En He Hd Hm. assert (Hf := sparse_nondecreasing dim He Hd).
    assert (G := inverse_gap mi (1 / 10000) ltac:(lra) ltac:(lra)). assert (S := enough_steps mi (Z.to_nat n) (f_equal Z.to_nat En) Hm).
    clear En. assert (R1 := inverse_range mi ltac:(lra)). assert (R2 := inverse_range (mi + 1 / 10000) ltac:(lra)).
    assert (P2 : 0 < 2 ^ Z.to_nat n) by (apply pow_lt; lra).
    assert (L : 1 < (inverse (mi + 1 / 10000) - inverse mi) * 2 ^ Z.to_nat n).
    { apply Rlt_le_trans with (1 := S). apply Rmult_le_compat_r; lra. }
    assert (Pos : inverse mi < inverse (mi + 1 / 10000)) by (apply Rnot_le_lt; intros C; nra).
    destruct (search_complete (func dim) mi (1 / 10000) uniform curve 0 1 (inverse mi) (inverse (mi + 1 / 10000)) Hf ltac:(lra) ltac:(lra)) with (n := n) as [c Hc].
    - intros x Hx. unfold within. assert (K := curve_between mi (1 / 10000) x ltac:(lra) ltac:(lra) Hx). lra.
    - exact Pos.
    - rewrite Rminus_0_r. exact L.
    - exists c. split; [exact Hc|]. assert (Rc := search_open _ _ _ _ _ Hf Hc). split; [exact Rc|].
      apply search_sound in Hc as (v & Hv & W); [|unfold within; lra].
      rewrite (proj1 Hf) in Hv by exact Rc. injection Hv as <-. exact W.
  Qed.

  Lemma generate_found mi family dim h : eigvals_positive eigvals -> (2 <= dim)%Z -> 0 <= mi <= 3000 ->
    exists h' t, generate mi family dim h = (h', Ok (Some t)) /\ sparse_task F mi family dim t h h' /\ usable t h' /\ ext h h'.
  Proof.
    intros He Hd Hm. destruct (correlation_found mi dim 5000 eq_refl He Hd Hm) as (c & Ec & Rc & W).
    destruct (@sparse_gaussian eigvals He J mvn c dim Hd ltac:(lra) ltac:(lra)) as (s & Es & Dx & Dy & Ms).
    unfold generate_sparse_gaussian_task, pbind, lift, pret. rewrite Ec, Es, Ms. fold (curve c) in *.
    set (d := [("correlation"%string, _); _; _; _; _]). destruct (new_dict_ext d h) as (E & X & L). rewrite E. eexists _, _. split; [reflexivity|].
    split; [|split; [|exact X]].
    - exists c, (curve c), (List.length h). split; [exact Rc|]. split; [reflexivity|]. split; [exact W|]. cbn [t_sampler t_id t_name t_params].
      repeat (split; [solve [auto]|]). unfold dread. rewrite app_nth2, Nat.sub_diag; [reflexivity|lia].
    - eapply fine_usable; [|exact (Z.le_trans 1 2 dim ltac:(lia) Hd)|exact (Z.le_trans 1 2 dim ltac:(lia) Hd)|exact L].
      apply sound_fine. split; [exact Dx|]. split; [exact Dy|]. exists (curve c). split; [exact Ms|].
      left. now apply curve_pos.
  Qed.

  (** The same program for any outcome of the search *)
  Definition after_search (r : result (option R)) (mi : R) (family_name : string) (dim : Z) : prog (option (task J)) :=
    run corr <- lift r;
    match corr with
    | None => pret None
    | Some corr =>
        run s <- lift (get_sparse_gaussian_sampler eigvals mvn corr dim);
        run v <- lift (mutual_information s);
        run p <- new_dict [("correlation", PFloat (Fin corr)); ("desired_mi", PFloat (Fin mi)); ("true_mi", PFloat v);
                           ("dim", PInt dim); ("family_name", PStr family_name)]%string;
        pret (Some {| t_sampler := s; t_id := "sparse-gaussian-" ++ float_fixed F 3 mi;
                      t_name := "Gaussian with " ++ float_fixed F 2 mi ++ " MI"; t_params := Some p |})
    end.
  Lemma generate_after mi family dim : generate mi family dim = after_search (binsearch (func dim) mi (1 / 10000) uniform 0 1 5000) mi family dim.
  Proof. reflexivity. Qed.

  (** Whatever [eigvals] and the draws are *)
  Lemma after_sound r mi family dim h h' t :
    (forall c, r = Ok (Some c) -> exists v, mi_sparse_gaussian eigvals mvn c dim = Ok (Fin v) /\ within v mi (1 / 10000)) ->
    after_search r mi family dim h = (h', Ok (Some t)) ->
    (2 <= dim)%Z /\ ext h h' /\ exists v p c, within v mi (1 / 10000) /\ mutual_information (t_sampler t) = Ok (Fin v) /\
      get_sparse_gaussian_sampler eigvals mvn c dim = Ok (t_sampler t) /\ t_params t = Some p /\
      dread h' p = [("correlation", PFloat (Fin c)); ("desired_mi", PFloat (Fin mi)); ("true_mi", PFloat (Fin v));
                    ("dim", PInt dim); ("family_name", PStr family)]%string.
  Proof.
    intros Hr H. unfold after_search in H. apply pbind_ok in H as (h1 & oc & E & H). apply lift_ok in E as [-> E].
    destruct oc as [c|]; [|discriminate]. destruct (Hr c E) as (v & Hv & W).
    unfold mi_sparse_gaussian in Hv. apply pbind_ok in H as (h2 & s & Es & H). apply lift_ok in Es as [-> Es]. rewrite Es in Hv. cbn [bind] in Hv.
    apply pbind_ok in H as (h3 & w & Ew & H). apply lift_ok in Ew as [-> Ew]. rewrite Hv in Ew. injection Ew as <-.
    apply pbind_ok in H as (h4 & p & Ep & H). apply pret_ok in H as [-> H]. injection H as ->.
    match type of Ep with new_dict ?d _ = _ => destruct (new_dict_ext d h) as (E' & X & L); rewrite E' in Ep; injection Ep as <- <- end.
    split. { destruct (Z.lt_ge_cases dim 2) as [B|B]; [|exact B]. destruct (@sparse_rejects eigvals J mvn c dim B) as [_ B']. congruence. }
    split; [exact X|]. exists v, (List.length h), c. cbn [t_sampler t_params]. repeat (split; [solve [auto]|]).
    unfold dread. rewrite app_nth2, Nat.sub_diag; [reflexivity|lia].
  Qed.
  Lemma generate_sound mi family dim h h' t : ~ within (-1000000000) mi (1 / 10000) -> generate mi family dim h = (h', Ok (Some t)) ->
    (2 <= dim)%Z /\ ext h h' /\ exists v p c, within v mi (1 / 10000) /\ mutual_information (t_sampler t) = Ok (Fin v) /\
      get_sparse_gaussian_sampler eigvals mvn c dim = Ok (t_sampler t) /\ t_params t = Some p /\
      dread h' p = [("correlation", PFloat (Fin c)); ("desired_mi", PFloat (Fin mi)); ("true_mi", PFloat (Fin v));
                    ("dim", PInt dim); ("family_name", PStr family)]%string.
  Proof. rewrite generate_after. intros N. apply after_sound. intros c. apply search_sound. exact N. Qed.
  Lemma generate_small mi family dim h : ~ within (-1000000000) mi (1 / 10000) -> (dim < 2)%Z -> generate mi family dim h = (h, Ok None).
  Proof.
    intros N D. rewrite generate_after, search_none; [reflexivity|exact N| |].
    - intros x e H. destruct (@sparse_rejects eigvals J mvn x dim D) as [E _]. congruence.
    - intros x v H. destruct (@sparse_rejects eigvals J mvn x dim D) as [E _]. congruence.
  Qed.

  Lemma generate_negative mi family dim h : eigvals_positive eigvals -> (2 <= dim)%Z -> -999999999 <= mi <= - (1 / 10000) ->
    generate mi family dim h = (h, Ok None).
  Proof.
    intros He Hd Hm. rewrite generate_after, search_away; [reflexivity|now apply sparse_nondecreasing| |unfold within; lra].
    intros x Hx W. assert (P := curve_pos x Hx). unfold within in W. lra.
  Qed.

  (** ** The transformed tasks *)
  Lemma derived_mi (base t : task J) h h' id name ax new on_x on_y : derived base t h h' id name ax new on_x on_y ->
    mutual_information (t_sampler t) = mutual_information (t_sampler base).
  Proof.
    intros (U & L & h1 & m & h2 & m' & M & M' & _ & _ & E & _).
    destruct (metadata_inv _ _ _ _ M) as (_ & _ & _ & _ & A & _). destruct (metadata_inv _ _ _ _ M') as (_ & _ & _ & _ & B & _). congruence.
  Qed.
  Lemma half_cube_found mi family dim h : eigvals_positive eigvals -> (2 <= dim)%Z -> 0 <= mi <= 3000 ->
    exists base h1 t h', generate_half_cube_task F eigvals mvn uniform mi family dim h = (h', Ok (Some t)) /\
      sparse_task F mi family dim base h h1 /\ mutual_information (t_sampler t) = mutual_information (t_sampler base) /\
      derived base t h1 h' (fun i => "half_cube-" ++ i)%string (fun _ => "Half-cube with " ++ float_fixed F 2 mi ++ " MI")%string 0 []
        (each_entry half_cube) (each_entry half_cube).
  Proof.
    intros He Hd Hm. destruct (generate_found mi family dim h He Hd Hm) as (h1 & base & E & S & U & X).
    destruct (half_cube_derived base (Some ("Half-cube with " ++ float_fixed F 2 mi ++ " MI")%string) h1 U) as (h' & t & Et & D & _).
    exists base, h1, t, h'. unfold generate_half_cube_task, pbind. rewrite E, Et. split; [reflexivity|]. split; [exact S|].
    split; [eapply derived_mi; exact D|exact D].
  Qed.
  Lemma spiral_found mi family dim speed h : eigvals_positive eigvals -> (3 <= dim)%Z -> 0 <= mi <= 3000 ->
    exists base h1 t h' gx gy sx sy, generate_spiral_task F eigvals mvn expm uniform mi family dim speed h = (h', Ok (Some t)) /\
      sparse_task F mi family dim base h h1 /\ mutual_information (t_sampler t) = mutual_information (t_sampler base) /\
      so_generator dim 0 1 = Ok gx /\ so_generator dim 1 2 = Ok gy /\
      spiral_init gx None (speed / IZR dim) = Ok sx /\ spiral_init gy None (speed / IZR dim) = Ok sy /\
      derived base t h1 h' (fun i => "spiral-" ++ i)%string (fun _ => "Spiral with " ++ float_fixed F 2 mi ++ " MI")%string 0
        [("speed", PFloat (Fin speed)); ("normalize_speed", PBool true)]%string
        (each_row (spiral_call expm sx)) (each_row (spiral_call expm sy)).
  Proof.
    intros He Hd Hm. destruct (generate_found mi family dim h He ltac:(lia) Hm) as (h1 & base & E & S & U & X).
    assert (D := S). destruct D as (c & v & p & _ & _ & _ & _ & Dx & Dy & _).
    destruct (spiral_derived expm base speed (Some ("Spiral with " ++ float_fixed F 2 mi ++ " MI")%string) true h1 dim dim U Dx Dy ltac:(lia) ltac:(lia))
      as (h' & t & gx & gy & sx & sy & Et & Gx & Gy & Sx & Sy & D & _).
    exists base, h1, t, h', gx, gy, sx, sy. unfold generate_spiral_task, pbind. rewrite E, Et. split; [reflexivity|]. split; [exact S|].
    split; [eapply derived_mi; exact D|]. auto.
  Qed.
  (** In two dimensions Y cannot be twisted around the second and third axes. *)
  Lemma spiral_small mi family speed h : eigvals_positive eigvals -> 0 <= mi <= 3000 ->
    exists h', generate_spiral_task F eigvals mvn expm uniform mi family 2 speed h = (h', Err AssertionError).
  Proof.
    intros He Hm. destruct (generate_found mi family 2 h He ltac:(lia) Hm) as (h1 & base & E & S & U & X).
    assert (D := S). destruct D as (c & v & p & _ & _ & _ & _ & Dx & Dy & _).
    destruct (spiral_rejects expm base speed (Some ("Spiral with " ++ float_fixed F 2 mi ++ " MI")%string) true h1 2 2 U Dx Dy ltac:(lia)) as (h' & Et).
    exists h'. unfold generate_spiral_task, pbind. rewrite E, Et. reflexivity.
  Qed.
End Generate.

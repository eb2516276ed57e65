(** The figures of the concept. *)
From Coq Require Import String Lia Lra.
From Verif Require Import Base BaseLemmas UtilsModel JaxModel SamplersModel GaussianModel MatrixUtilsModel MatrixUtilsSpec MatrixUtilsProofs TransformsModel TransformsSpec RotateProofs SimpleTransformProofs
  BenchmarkModel TasksModel TasksSpec TasksGaussian MixturesSpec BasicSpec OutliersModel OutliersPlotThms ConceptModel ConceptSpec ConceptGaussian ConceptSpiral.
Open Scope R_scope.
Local Notation length := List.length.

(** ** The functions *)
Lemma sigmoid_increasing : strictly_increasing sigmoid.
Proof.
  intros x y H. unfold sigmoid. assert (E := exp_increasing (-8 * y) (-8 * x) ltac:(lra)). assert (P := exp_pos (-8 * y)).
  unfold Rdiv. rewrite !Rmult_1_l. apply Rinv_lt_contravar; [apply Rmult_lt_0_compat|]; lra.
Qed.
Lemma sigmoid_range x : 0 < sigmoid x < 1.
Proof.
  unfold sigmoid. assert (P := exp_pos (-8 * x)). split.
  - apply Rdiv_lt_0_compat; lra.
  - apply Rmult_lt_reg_r with (1 + exp (-8 * x)); [lra|]. unfold Rdiv. rewrite Rmult_assoc, Rinv_l by lra. lra.
Qed.
Lemma sigmoid_opp x : sigmoid (- x) = 1 - sigmoid x.
Proof.
  unfold sigmoid. replace (-8 * - x) with (- (-8 * x)) by ring. rewrite exp_Ropp. assert (P := exp_pos (-8 * x)). field. lra.
Qed.
Lemma sigmoid_small x : sigmoid (- x) < exp (-8 * x).
Proof.
  unfold sigmoid. assert (P := exp_pos (-8 * x)). replace (-8 * - x) with (- (-8 * x)) by ring. rewrite exp_Ropp.
  apply Rmult_lt_reg_r with (1 + / exp (-8 * x)); [assert (Q := Rinv_0_lt_compat _ P); lra|].
  unfold Rdiv. rewrite Rmult_assoc, Rinv_l by (assert (Q := Rinv_0_lt_compat _ P); lra). rewrite Rmult_plus_distr_l, Rinv_r by lra. lra.
Qed.
Lemma exp_eight : 0 < exp (-8) < 1 / 1200.
Proof.
  split; [apply exp_pos|]. assert (A := exp_ineq1 (1 / 4) ltac:(lra)).
  assert (D : forall a b, 0 < b -> b < exp a -> b * b < exp (a + a)).
  { intros a b H H'. rewrite exp_plus. apply Rmult_gt_0_lt_compat; lra. }
  assert (A1 := D (1 / 4) (5 / 4) ltac:(lra) ltac:(lra)). replace (1 / 4 + 1 / 4) with (1 / 2) in A1 by lra.
  assert (A2 := D (1 / 2) (156 / 100) ltac:(lra) ltac:(lra)). replace (1 / 2 + 1 / 2) with 1 in A2 by lra.
  assert (A3 := D 1 (243 / 100) ltac:(lra) ltac:(lra)). replace (1 + 1) with 2 in A3 by lra.
  assert (A4 := D 2 (59 / 10) ltac:(lra) ltac:(lra)). replace (2 + 2) with 4 in A4 by lra.
  assert (A5 := D 4 (348 / 10) ltac:(lra) ltac:(lra)). replace (4 + 4) with 8 in A5 by lra.
  replace (-8) with (- (8)) by lra. rewrite exp_Ropp. unfold Rdiv. rewrite Rmult_1_l. apply Rinv_lt_contravar; [apply Rmult_lt_0_compat|]; lra.
Qed.
Theorem stairs_shape : strictly_increasing f2 /\ (forall x y, x < y -> g2 y < g2 x) /\ (forall x, 0 < f2 x < 3) /\
  f2 (-3) < 1 / 1000 /\ Rabs (f2 (-1) - 1) < 1 / 1000 /\ Rabs (f2 (1 / 2) - 2) < 1 / 1000 /\ 3 - 1 / 1000 < f2 2.
Proof.
  assert (M : strictly_increasing f2).
  { intros x y H. unfold f2, stairs. assert (A := sigmoid_increasing x y H). assert (B := sigmoid_increasing (x - 1) (y - 1) ltac:(lra)).
    assert (C := sigmoid_increasing (x + 2) (y + 2) ltac:(lra)). lra. }
  split; [exact M|]. split; [intros x y H; assert (A := M x y H); unfold g2; unfold f2 in A; lra|].
  split; [intros x; unfold f2, stairs; assert (A := sigmoid_range x); assert (B := sigmoid_range (x - 1)); assert (C := sigmoid_range (x + 2)); lra|].
  assert (U := exp_eight). set (u := exp (-8)) in U.
  assert (S1 := sigmoid_small 1). replace (-8 * 1) with (-8) in S1 by lra. fold u in S1.
  assert (S2 := sigmoid_small 2). replace (-8 * 2) with (-8 + -8) in S2 by lra. rewrite exp_plus in S2. fold u in S2.
  assert (V : u * u < 1 / 1200 * u) by (apply Rmult_lt_compat_r; lra).
  assert (R2 := sigmoid_range (- (2))). assert (R1 := sigmoid_range (- (1))). assert (R5 := sigmoid_range (- (5 / 2))).
  assert (L3 := sigmoid_increasing (- (3)) (- (2)) ltac:(lra)). assert (L4 := sigmoid_increasing (- (4)) (- (2)) ltac:(lra)). assert (L5 := sigmoid_increasing (- (5 / 2)) (- (2)) ltac:(lra)).
  unfold f2, stairs. split; [|split; [|split]].
  - replace (-3 - 1) with (- (4)) by lra. replace (-3 + 2) with (- (1)) by lra. replace (-3) with (- (3)) by lra. lra.
  - replace (-1 - 1) with (- (2)) by lra. replace (-1 + 2) with (- - (1)) by lra. rewrite (sigmoid_opp (- (1))). replace (-1) with (- (1)) by lra. apply Rabs_def1; lra.
  - replace (1 / 2 - 1) with (- (1 / 2)) by lra. rewrite (sigmoid_opp (1 / 2)). replace (1 / 2 + 2) with (- - (5 / 2)) by lra. rewrite (sigmoid_opp (- (5 / 2))). apply Rabs_def1; lra.
  - replace (2 - 1) with (- - (1)) by lra. replace (2 + 2) with (- - (4)) by lra. replace (sigmoid 2) with (sigmoid (- - (2))) by (f_equal; lra).
    rewrite (sigmoid_opp (- (1))), (sigmoid_opp (- (2))), (sigmoid_opp (- (4))). lra.
Qed.
Theorem erf_increasing erf : is_erf erf -> strictly_increasing erf.
Proof.
  intros He. destruct (normal_cdf_spec erf He) as (M & _). intros x y H. assert (P : 0 < Rpower 2 (5 / 10)) by apply exp_pos.
  assert (A := M (x * Rpower 2 (5 / 10)) (y * Rpower 2 (5 / 10)) ltac:(apply Rmult_lt_compat_r; lra)). unfold normal_cdf in A.
  replace (x * Rpower 2 (5 / 10) / Rpower 2 (5 / 10)) with x in A by (field; lra). replace (y * Rpower 2 (5 / 10) / Rpower 2 (5 / 10)) with y in A by (field; lra). lra.
Qed.

(** ** The estimates *)
Lemma rsum_cons a l : rsum (a :: l) = a + rsum l.
Proof. reflexivity. Qed.
Lemma squares_around vs m : rsum (map (fun v => (v - m) ^ 2) vs) = rsum (map (fun v => v * v) vs) - 2 * m * rsum vs + INR (length vs) * (m * m).
Proof. induction vs as [|v vs IH]; [cbn; ring|]. cbn [map length]. rewrite !rsum_cons, IH, S_INR. ring. Qed.
Lemma summary_of vs : vs <> [] -> exists m d, np_mean vs = Fin m /\ np_std0 vs = Fin d /\ summarises vs m d.
Proof.
  intros N. assert (P : 0 < INR (length vs)) by (apply lt_0_INR; destruct vs; [contradiction|cbn; lia]).
  set (m := rsum vs / INR (length vs)). exists m, (sqrt (rsum (map (fun v => (v - m) ^ 2) vs) / INR (length vs))).
  split; [destruct vs; [contradiction|reflexivity]|]. split; [destruct vs; [contradiction|reflexivity]|].
  assert (Q : 0 <= rsum (map (fun v => (v - m) ^ 2) vs)).
  { clearbody m. clear. induction vs as [|v vs IH]; [cbn; lra|]. cbn [map]. rewrite rsum_cons. assert (H := pow2_ge_0 (v - m)). lra. }
  assert (E : INR (length vs) * m = rsum vs) by (unfold m; field; lra).
  split; [exact E|]. split; [apply sqrt_pos|]. cbv zeta. rewrite <- (Rsqr_pow2 (sqrt _)), Rsqr_sqrt by (apply Rmult_le_pos; [exact Q|left; now apply Rinv_0_lt_compat]).
  rewrite squares_around. rewrite <- E. field. lra.
Qed.
Lemma summary_unique vs m d m' d' : vs <> [] -> summarises vs m d -> summarises vs m' d' -> m = m' /\ d = d'.
Proof.
  unfold summarises. cbv zeta. intros N (A & B & C) (A' & B' & C'). assert (P : 0 < INR (length vs)) by (apply lt_0_INR; destruct vs; [contradiction|cbn; lia]).
  assert (E : m = m') by (apply Rmult_eq_reg_l with (INR (length vs)); [lra|apply Rgt_not_eq; lra]). split; [exact E|]. subst m'. rewrite <- C' in C. apply Rmult_eq_reg_l in C; [|apply Rgt_not_eq; lra].
  assert (Q : d ^ 2 = d' ^ 2) by lra. rewrite <- !Rsqr_pow2 in Q. now apply Rsqr_inj.
Qed.
Section Estimates.
  Context {J : prng}.
  Variable estimate : matrix -> matrix -> result R.
  Theorem estimates_summarised (s : sampler J) f g points seeds vs : (0 < seeds)%nat -> estimated_with estimate f g s points seeds vs ->
    exists m d, get_estimates estimate s f g points seeds = Ok (Fin m, Fin d) /\ summarises vs m d.
  Proof.
    intros P [L E]. destruct (summary_of vs) as (m & d & M & D & S); [intros ->; cbn in L; lia|]. exists m, d. split; [|exact S].
    unfold get_estimates. rewrite (each_ok _ _ vs); [cbn [bind]; now rewrite M, D|]. revert E. clear - L. subst seeds.
    assert (H : forall k, (forall i, (i < length vs)%nat -> exists x y, sample s points (SeedInt (Z.of_nat (k + i))) = Ok (x, y) /\ estimate (map (map f) x) (map (map g) y) = Ok (nth i vs 0)) ->
      Forall2 (fun seed v => (do (x, y) <- sample s points (SeedInt seed); estimate (map (map f) x) (map (map g) y)) = Ok v) (map Z.of_nat (seq k (length vs))) vs).
    { induction vs as [|v vs IH]; intros k E; [constructor|]. cbn [length seq map]. constructor.
      - destruct (E 0%nat ltac:(cbn; lia)) as (x & y & Sx & Ex). rewrite Nat.add_0_r in Sx. rewrite Sx. exact Ex.
      - apply IH. intros i Hi. destruct (E (S i) ltac:(cbn; lia)) as (x & y & Sx & Ex). exists x, y. split; [|exact Ex]. now replace (S k + i)%nat with (k + S i)%nat by lia. }
    exact (H 0%nat).
  Qed.
  Theorem no_seeds (s : sampler J) f g points : get_estimates estimate s f g points 0 = Ok (NaN, NaN).
  Proof. reflexivity. Qed.

  Hypothesis total : forall x y, exists v, estimate x y = Ok v.
  Lemma all_estimated (s : sampler J) f g points seeds : (forall rng, exists x y, sample s points rng = Ok (x, y)) -> exists vs, estimated_with estimate f g s points seeds vs.
  Proof.
    intros H. induction seeds as [|n (vs & L & E)]; [exists []; split; [reflexivity|intros; lia]|].
    destruct (H (SeedInt (Z.of_nat n))) as (x & y & Sx). destruct (total (map (map f) x) (map (map g) y)) as (v & V).
    exists (vs ++ [v])%list. split; [rewrite app_length, L; cbn; lia|]. intros i Hi. destruct (Nat.eq_dec i n) as [->|D].
    - exists x, y. split; [exact Sx|]. rewrite app_nth2 by lia. rewrite L, Nat.sub_diag. exact V.
    - destruct (E i ltac:(lia)) as (x' & y' & A & B). exists x', y'. split; [exact A|]. now rewrite app_nth1 by lia.
  Qed.
End Estimates.

(** ** 1v1.py *)
Lemma ravel_column x : ravel_1d (map (fun a => [a]) x) = Ok x.
Proof.
  unfold ravel_1d. replace (forallb _ _) with true.
  - f_equal. induction x as [|a x IH]; [reflexivity|]. cbn. now rewrite IH.
  - symmetry. apply forallb_forall. intros r I. apply in_map_iff in I as (a & <- & _). reflexivity.
Qed.
Lemma cut_pairs z : Forall (fun r => length r = 2%nat) z ->
  cut 1 z = (map (fun a => [a]) (map (fun r => nth 0 r 0) z), map (fun b => [b]) (map (fun r => nth 1 r 0) z)).
Proof.
  intros H. unfold cut. rewrite !map_map. f_equal; apply map_ext_in; intros r I; rewrite Forall_forall in H; assert (L := H r I);
    destruct r as [|a [|b [|c r]]]; try discriminate; reflexivity.
Qed.
Lemma map_column (f : R -> R) x : map (map f) (map (fun a => [a]) x) = map (fun a => [a]) (map f x).
Proof. now rewrite !map_map. Qed.
Lemma combine_maps {A B A' B'} (f : A -> A') (g : B -> B') x y : combine (map f x) (map g y) = map (fun q => (f (fst q), g (snd q))) (combine x y).
Proof. revert y. induction x as [|a x IH]; intros [|b y]; try reflexivity. cbn. now rewrite IH. Qed.
Section One.
  Context {J : prng}.
  Variables (eigvals : matrix -> list (R * R)) (mvn : key J -> list R -> matrix -> nat -> matrix) (erf : R -> R) (estimate : matrix -> matrix -> result R).
  Hypotheses (He : eigvals_positive eigvals) (Hm : draws_rows mvn) (total : forall x y, exists v, estimate x y = Ok v).

  Lemma one_mi : paired_mi 1 (95 / 100) = 1 / 2 * ln (400 / 39).
  Proof.
    unfold paired_mi. cbn [INR]. replace (1 - (95 / 100) ^ 2) with (/ (400 / 39)) by field. rewrite ln_Rinv by lra. field.
  Qed.
  Lemma one_panel (s : sampler J) f g a b cov : normal_pairs mvn 1 1 cov s -> mutual_information s = Ok (Fin (1 / 2 * ln (400 / 39))) ->
    exists p, panel_1v1 estimate s f g a b = Ok p /\ shows_1v1 estimate s f g p /\ cp_x_label p = a /\ cp_y_label p = b.
  Proof.
    intros (C & _ & S) M.
    assert (T : forall n rng, exists x y, sample s n rng = Ok (map (fun a => [a]) x, map (fun b => [b]) y) /\ length x = n /\ length y = n).
    { intros n rng. destruct (Hm (cast_to_rng J rng) (repeat 0 (1 + 1)) C n) as [L Fa]. rewrite S, cut_pairs by exact Fa. do 2 eexists. split; [reflexivity|]. now rewrite !map_length. }
    destruct (all_estimated estimate total s f g 1000 20) as (vs & V).
    { intros rng. destruct (T 1000%nat rng) as (x & y & E & _). eauto. }
    destruct (estimates_summarised estimate s f g 1000 20 vs ltac:(lia) V) as (m & d & E & D).
    destruct (T 10000%nat (SeedInt 42)) as (x & y & Ex & Lx & Ly). eexists. split.
    - unfold panel_1v1. rewrite M. cbn [bind]. rewrite E. cbn [bind]. rewrite Ex. cbn [bind]. rewrite !map_column, !ravel_column. cbn [bind]. reflexivity.
    - cbn [cp_x_label cp_y_label]. split; [|auto]. split; [reflexivity|]. split; [exists vs, m, d; auto|]. exists x, y. split; [exact Ex|]. split; [exact Lx|]. split; [exact Ly|].
      cbn [cp_points]. rewrite combine_maps, map_map. reflexivity.
  Qed.
  Theorem figure_one : exists (s : sampler J) a b c, concept_1v1 eigvals mvn erf estimate = Ok [a; b; c] /\ normal_pairs mvn 1 1 (paired_off 1 1 (19 / 20)) s /\
    (shows_1v1 estimate s (fun x => x) (fun y => y) a /\ cp_x_label a = "$X$" /\ cp_y_label a = "$Y$")%string /\
    (shows_1v1 estimate s f1 erf b /\ cp_x_label b = "$f_1(X)$" /\ cp_y_label b = "$g_1(Y)$")%string /\
    (shows_1v1 estimate s f2 g2 c /\ cp_x_label c = "$f_2(X)$" /\ cp_y_label c = "$g_2(Y)$")%string.
  Proof.
    destruct (one_one_normal mvn (c := 95 / 100) He ltac:(lra) ltac:(lra)) as (s & E & _ & _ & M & N). rewrite one_mi in M.
    destruct (one_panel s (fun x => x) (fun x => x) "$X$" "$Y$" _ N M) as (a & Ea & A).
    destruct (one_panel s f1 erf "$f_1(X)$" "$g_1(Y)$" _ N M) as (b & Eb & B).
    destruct (one_panel s f2 g2 "$f_2(X)$" "$g_2(Y)$" _ N M) as (c & Ec & D).
    exists s, a, b, c. split; [|split; [|auto]].
    - unfold concept_1v1. change 1 with R1. rewrite E. cbn [bind]. rewrite Ea. cbn [bind]. rewrite Eb. cbn [bind]. now rewrite Ec.
    - now replace (19 / 20) with (95 / 100) by lra.
  Qed.
End One.

(** ** 2v1.py *)
Section Two.
  Context {J : prng}.
  Variables (eigvals : matrix -> list (R * R)) (mvn : key J -> list R -> matrix -> nat -> matrix) (expm : expm_function) (estimate : matrix -> matrix -> result R).
  Hypotheses (He : eigvals_positive eigvals) (Hm : draws_rows mvn) (Hx : is_expm expm) (total : forall x y, exists v, estimate x y = Ok v).

  Lemma map_same (x : matrix) : map (map (fun v : R => v)) x = x.
  Proof. induction x as [|r x IH]; [reflexivity|]. cbn [map]. now rewrite map_id, IH. Qed.
  Lemma two_panel (s : sampler J) C speed label : turned_pairs mvn C speed s -> mutual_information s = Ok (Fin (1 / 2 * ln (30000 / 4079))) ->
    exists p, panel_2v1 estimate s label = Ok p /\ shows_2v1 (J := J) estimate mvn C speed p /\ cp_x_label p = label.
  Proof.
    intros S M.
    destruct (all_estimated estimate total s (fun v => v) (fun v => v) 5000 10) as (vs & V).
    { intros rng. rewrite S. eauto. }
    destruct (estimates_summarised estimate s _ _ 5000 10 vs ltac:(lia) V) as (m & d & E & D).
    assert (Q := S 5000%nat (SeedInt 42)). cbv zeta in Q. destruct (Hm (cast_to_rng J (SeedInt 42)) [0; 0; 0] C 5000%nat) as [L Fa].
    set (z := mvn _ _ _ _) in Q, L, Fa.
    assert (A : each (fun row => match row with a :: b :: _ => Ok [a; b] | _ => Err IndexError end) (map (fun r => front_spun speed (firstn 2 r)) z) = Ok (map (fun r => front_spun speed (firstn 2 r)) z)).
    { apply each_ok. clear - Fa. induction Fa as [|r z Lr _ IH]; [constructor|]. cbn [map]. constructor; [|exact IH]. destruct r as [|a [|b [|c [|e r]]]]; try discriminate. reflexivity. }
    assert (B : map (fun p : list R * R => (fst p ++ [snd p])%list) (combine (map (fun r => front_spun speed (firstn 2 r)) z) (concat (map (skipn 2) z))) =
      map (fun q => (fst q ++ snd q)%list) (combine (map (fun r => front_spun speed (firstn 2 r)) z) (map (skipn 2) z)) /\
      Forall (fun q => length q = 3%nat) (map (fun q : list R * list R => (fst q ++ snd q)%list) (combine (map (fun r => front_spun speed (firstn 2 r)) z) (map (skipn 2) z)))).
    { clear - Fa. induction Fa as [|r z Lr _ [IH IH2]]; [split; [reflexivity|constructor]|]. destruct r as [|a [|b [|c [|e r]]]]; try discriminate.
      cbn [map concat]. change (skipn 2 [a; b; c]) with [c]. cbn [app combine map fst snd]. rewrite IH. split; [reflexivity|]. constructor; [reflexivity|exact IH2]. }
    eexists. split.
    - unfold panel_2v1. rewrite E. cbn [bind]. rewrite M. cbn [bind]. rewrite Q. cbn [bind]. rewrite A. cbn [bind]. reflexivity.
    - split; [|reflexivity]. exists s. split; [exact S|]. split; [reflexivity|]. split; [exists vs, m, d; auto|]. do 2 eexists. split; [exact Q|].
      rewrite !map_length, L. split; [reflexivity|]. split; [reflexivity|]. cbn [cp_points]. destruct B as [B B2]. rewrite B. split; [reflexivity|exact B2].
  Qed.
  Theorem figure_two : exists C a b c, concept_2v1 eigvals mvn expm estimate = Ok [a; b; c] /\ has_entries 3 C two_one /\
    (shows_2v1 (J := J) estimate mvn C 0 a /\ cp_x_label a = "$X$")%string /\ (shows_2v1 (J := J) estimate mvn C (1 / 2) b /\ cp_x_label b = "$f_1(X)$")%string /\
    (shows_2v1 (J := J) estimate mvn C 1 c /\ cp_x_label c = "$f_2(X)$")%string.
  Proof.
    destruct (two_one_normal mvn He) as (s & E & Dx & Dy & M & (C & HC & S)). cbn [repeat Nat.add] in S.
    assert (G : so_generator 2 0 1 = Ok [[0; -1]; [1; 0]]) by reflexivity.
    assert (T : forall speed, exists s', spiral_of expm s [[0; -1]; [1; 0]] speed = Ok s' /\ turned_pairs mvn C speed s' /\ mutual_information s' = Ok (Fin (1 / 2 * ln (30000 / 4079)))).
    { intros speed. destruct (init_accepted 2 [[0; -1]; [1; 0]] None speed ltac:(split; repeat constructor) I) as (sp & Ei). eexists. split; [|split].
      - unfold spiral_of. rewrite Ei. cbn [bind]. unfold transformed_sampler. rewrite Dx, Dy. cbn [bind Z.ltb orb Z.compare].
        change (base_sampler_init (2 + 0) (1 + 0)) with (@Ok (Z * Z) (2, 1)%Z). cbn [bind]. reflexivity.
      - intros n rng z. cbn [sample]. rewrite (S n rng). cbn [bind]. fold z. unfold cut, vmap. cbn [on_point pointwise identity]. f_equal. f_equal; [|now rewrite map_id].
        rewrite map_map. apply map_ext_in. intros r Ir. destruct (Hm (cast_to_rng J rng) [0; 0; 0] C n) as [_ Fa]. rewrite Forall_forall in Fa. assert (L := Fa r Ir).
        rewrite (front_spiral expm 2 _ speed sp (firstn 2 r) Hx ltac:(lia) G Ei); [reflexivity|]. rewrite firstn_length, L. reflexivity.
      - exact M. }
    assert (T0 : turned_pairs mvn C 0 s).
    { intros n rng z. rewrite (S n rng). fold z. unfold cut. f_equal. f_equal. apply map_ext. intros r. now rewrite front_still. }
    destruct (T (1 / 2)) as (s1 & E1 & T1 & M1). destruct (T 1) as (s2 & E2 & T2 & M2).
    destruct (two_panel s C 0 "$X$" T0 M) as (a & Ea & A). destruct (two_panel s1 C _ "$f_1(X)$" T1 M1) as (b & Eb & B). destruct (two_panel s2 C _ "$f_2(X)$" T2 M2) as (c & Ec & D).
    exists C, a, b, c. split; [|auto]. unfold concept_2v1. rewrite E. cbn [bind]. rewrite G. cbn [bind]. replace (5 / 10) with (1 / 2) by lra. rewrite E1. cbn [bind]. rewrite E2. cbn [bind].
    rewrite Ea. cbn [bind]. rewrite Eb. cbn [bind]. now rewrite Ec.
  Qed.

  (** ** ksg_spiral.py *)
  Theorem bad_rho dx dy rho : rho < -1 \/ 1 <= rho -> create_base_sampler eigvals mvn dx dy rho = Err AssertionError.
  Proof.
    intros H. unfold create_base_sampler, Rleb, Rltb. destruct (Rle_dec (-1) rho), (Rlt_dec rho 1); try reflexivity. exfalso. lra.
  Qed.
  Theorem script_prints dx dy rho n seed : (2 <= dx)%Z -> (1 <= dy)%Z -> -1 < rho < 1 ->
    exists C x y e rows, ksg_spiral eigvals mvn expm estimate dx dy rho n seed = Ok (Fin (- (ln (1 - rho ^ 2) / 2)), e, rows) /\
      has_entries (Z.to_nat dx + Z.to_nat dy) C (paired_off (Z.to_nat dx) 1 rho) /\
      (x, y) = cut (Z.to_nat dx) (mvn (cast_to_rng J (SeedInt seed)) (repeat 0 (Z.to_nat dx + Z.to_nat dy)) C n) /\ estimate x y = Ok e /\
      map fst rows = [0; 1 / 50; 1 / 10; 1 / 2; 1; 10] /\ nth_error rows 0 = Some (0, e) /\
      Forall (fun r => estimate (map (front_spun (fst r)) x) y = Ok (snd r)) rows.
  Proof.
    intros Dx Dy Hr. destruct (spiral_base mvn He (dx := dx) (dy := dy) ltac:(lia) Dy (proj1 Hr) (proj2 Hr)) as (s & E & _ & _ & M & (C & HC & S)).
    set (z := mvn (cast_to_rng J (SeedInt seed)) (repeat 0 (Z.to_nat dx + Z.to_nat dy)) C n). destruct (Hm (cast_to_rng J (SeedInt seed)) (repeat 0 (Z.to_nat dx + Z.to_nat dy)) C n) as [_ Fa]. fold z in Fa.
    set (x := map (firstn (Z.to_nat dx)) z). set (y := map (skipn (Z.to_nat dx)) z). destruct (total x y) as (e & Ee).
    destruct (proj2 (generator_accepted dx 0 1) ltac:(lia)) as (g & G).
    destruct (generator_ok dx 0 1 ltac:(lia) ltac:(lia)) as (g' & G' & Sg & _). rewrite G in G'. injection G' as <-.
    assert (Lx : Forall (fun p => length p = Z.to_nat dx) x).
    { unfold x. apply Forall_map. eapply Forall_impl; [|exact Fa]. intros r L. cbv beta in L. rewrite repeat_length in L. rewrite firstn_length. lia. }
    assert (V : forall l, exists rows, each (fun speed => do s <- spiral_init g None speed; do e <- estimate (vmap (on_point (pointwise (spiral_call expm s))) x) y; Ok (speed, e)) l = Ok rows /\
      map fst rows = l /\ Forall (fun r => estimate (map (front_spun (fst r)) x) y = Ok (snd r)) rows).
    { induction l as [|speed l (rows & Er & Fr & Vr)]; [exists []; repeat split; constructor|].
      destruct (init_accepted _ g None speed Sg I) as (sp & Ei). destruct (total (map (front_spun speed) x) y) as (v & Ev).
      exists ((speed, v) :: rows). cbn [each]. rewrite Ei. cbn [bind].
      replace (vmap (on_point (pointwise (spiral_call expm sp))) x) with (map (front_spun speed) x).
      - rewrite Ev. cbn [bind]. rewrite Er. cbn [bind map fst]. rewrite Fr. split; [reflexivity|]. split; [reflexivity|]. constructor; [exact Ev|exact Vr].
      - unfold vmap. apply map_ext_in. intros p Ip. rewrite Forall_forall in Lx. cbn [on_point pointwise]. now rewrite (front_spiral expm dx g speed sp p Hx Dx G Ei (Lx p Ip)). }
    destruct (V [0; 2 / 100; 1 / 10; 5 / 10; 1; 10]) as (rows & Er & Fr & Vr). exists C, x, y, e, rows. split.
    - unfold ksg_spiral. rewrite E. cbn [bind]. rewrite S. unfold cut. fold z x y. cbn [bind]. rewrite M. cbn [bind]. rewrite Ee. cbn [bind]. rewrite G. cbn [bind]. cbv zeta.
      rewrite Er. cbn [bind]. replace (- (ln (1 - rho ^ 2) / 2)) with (paired_mi 1 rho) by (unfold paired_mi; cbn [INR]; lra). reflexivity.
    - split; [exact HC|]. split; [reflexivity|]. split; [exact Ee|]. split; [rewrite Fr; repeat (f_equal; try lra)|]. split; [|exact Vr].
      destruct rows as [|[v w] rows]; [discriminate|]. cbn [map fst] in Fr. injection Fr as -> _. inversion Vr as [|? ? V0 _]; subst. cbn [fst snd] in V0.
      rewrite (map_ext _ (fun p => p)), map_id, Ee in V0 by (intros; apply front_still). injection V0 as <-. reflexivity.
  Qed.
  Theorem script_one_dimension dy rho n seed : (1 <= dy)%Z -> -1 < rho < 1 -> ksg_spiral eigvals mvn expm estimate 1 dy rho n seed = Err ValueError.
  Proof.
    intros Dy Hr. destruct (spiral_base mvn He (dx := 1) (dy := dy) ltac:(lia) Dy (proj1 Hr) (proj2 Hr)) as (s & E & _ & _ & M & (C & HC & S)).
    unfold ksg_spiral. rewrite E. cbn [bind]. rewrite S. cbn [bind]. unfold cut. rewrite M. cbn [bind].
    match goal with |- context [estimate ?a ?b] => destruct (total a b) as (e & ->) end. cbn [bind]. now rewrite (generator_rejected 1 0 1) by lia.
  Qed.
End Two.

(** ** Columns *)
Lemma ravel_total a : (Forall (fun row => length row = 1%nat) a -> ravel_1d a = Ok (map (hd 0) a)) /\
  (Exists (fun row => length row <> 1%nat) a -> ravel_1d a = Err ValueError).
Proof.
  unfold ravel_1d. split; intros H.
  - replace (forallb (fun row => Nat.eqb (length row) 1) a) with true.
    + apply f_equal. induction H as [|row a L _ IH]; [reflexivity|]. cbn [concat map]. rewrite IH. destruct row as [|v [|]]; try discriminate. reflexivity.
    + symmetry. apply forallb_forall. intros row I. apply Nat.eqb_eq. rewrite Forall_forall in H. now apply H.
  - replace (forallb (fun row => Nat.eqb (length row) 1) a) with false; [reflexivity|]. symmetry. apply Bool.not_true_is_false. intros X.
    rewrite forallb_forall in X. apply Exists_exists in H as [row [I N]]. apply N. now apply Nat.eqb_eq, X.
Qed.

(** Contaminated distributions. *)
From Coq Require Import String Lia Lra.
From Verif Require Import Base BaseLemmas UtilsModel JaxModel SamplersModel GaussianModel MatrixUtilsModel BmmModel MultivariateModel BenchmarkModel
  TasksModel MixturesModel PaperModel OutliersModel OutliersSpec BmmSpec SamplersProofs BmmProofs.
Open Scope R_scope.
Local Notation length := List.length.

Lemma density_nonneg {J} (d : tfd J) z v : has_density d z v -> 0 <= v.
Proof. intros H. apply has_density_log in H. tauto. Qed.
Lemma levels_good a : 0 <= a <= 1 -> good_proportions [1 - a; a].
Proof. intros H. unfold good_proportions, rsum. cbn. split; [constructor; [lra|constructor; [lra|constructor]]|lra]. Qed.
Lemma two_mixed {J} (T : tfp_draws J) a (d e : tfd J) z u v : 0 <= a <= 1 -> has_density d z u -> has_density e z v ->
  has_density (tfd_mixture T [1 - a; a] [d; e]) z ((1 - a) * u + a * v).
Proof.
  intros A D E.
  replace ((1 - a) * u + a * v) with (rsum (map (fun pv => fst pv * snd pv) (combine [1 - a; a] [u; v])) / rsum [1 - a; a]).
  - apply mixture_density; [now apply levels_good|reflexivity|]. constructor; [exact D|]. constructor; [exact E|constructor].
  - unfold rsum. cbn. field_simplify; [|lra]. field.
Qed.

(** ** Densities *)
Theorem contaminate {J} (T : tfp_draws J) signal (ny : tfd J) noise d a p px py q : 0 <= a <= 1 -> densities signal p px py ->
  (forall y, length y = jd_dim_y signal -> has_density ny y (q y)) -> jd_dim_y noise = jd_dim_y signal -> jd_dim_x noise = jd_dim_x signal ->
  product_distribution T (dist_x signal) ny = Ok noise ->
  setup_mixture T {| dist_true := signal; dist_noise := noise |} a = Ok d ->
  jd_dim_x d = jd_dim_x signal /\ jd_dim_y d = jd_dim_y signal /\ analytic_mi d = None /\
  densities d (contaminated a p px q) px (contaminated_y a py q).
Proof.
  intros A [Dj Dx Dy] Q E1 E2 N M. unfold setup_mixture in M. cbn [dist_true dist_noise] in M.
  destruct (proj2 (product_spec T (dist_x signal) ny) noise N) as (_ & _ & _ & X & Y & XY).
  destruct (mixture_parts T _ _ _ M) as (_ & Pj & Px & Py).
  destruct (mixture_accepts T [1 - a; a] [signal; noise]) as (_ & _ & K). destruct (K d M) as [An Dim]. apply Forall_inv in Dim. destruct Dim as [D1 D2].
  split; [auto|]. split; [auto|]. split; [auto|].
  split; rewrite <- ?D1, <- ?D2.
  - intros x y Lx Ly. rewrite Pj. cbn [map]. apply two_mixed; [exact A|now apply Dj|].
    assert (H1 := proj1 (has_density_log _ _ _) (Dx x Lx)). assert (H2 := proj1 (has_density_log _ _ _) (Q y Ly)).
    apply has_density_log. split; [apply Rmult_le_pos; tauto|]. rewrite XY by congruence.
    rewrite (proj2 H1), (proj2 H2). apply log_fl_mult; tauto.
  - intros x Lx. rewrite Px. cbn [map]. rewrite X. replace (px x) with ((1 - a) * px x + a * px x) by ring. apply two_mixed; auto.
  - intros y Ly. rewrite Py. cbn [map]. rewrite Y. apply two_mixed; auto.
Qed.

(** ** Pointwise mutual information *)
Lemma point_information {J} (d : joint_distribution J) p px py x y : densities d p px py -> length x = jd_dim_x d -> length y = jd_dim_y d ->
  0 < p x y -> 0 < px x -> 0 < py y -> point_pmi d x y = Fin (information (p x y) (px x) (py y)).
Proof.
  intros [Dj Dx Dy] Lx Ly P Px Py. unfold point_pmi.
  destruct (proj1 (has_density_log _ _ _) (Dj x y Lx Ly)) as [_ ->]. destruct (proj1 (has_density_log _ _ _) (Dx x Lx)) as [_ ->].
  destruct (proj1 (has_density_log _ _ _) (Dy y Ly)) as [_ ->].
  rewrite !log_fl_pos by auto. unfold fl_sub. cbn [fl_add fl_opp]. apply (f_equal Fin). unfold information, Rdiv.
  assert (0 < px x * py y) by now apply Rmult_lt_0_compat.
  rewrite ln_mult, ln_Rinv, ln_mult by (auto; now apply Rinv_0_lt_compat). reflexivity.
Qed.

Lemma mixed_pos a u v : 0 <= a <= 1 -> 0 < u -> 0 < v -> 0 < (1 - a) * u + a * v.
Proof.
  intros A U V. destruct (Req_dec a 0) as [->|N]; [lra|].
  assert (0 < a * v) by (apply Rmult_lt_0_compat; lra). assert (0 <= (1 - a) * u) by (apply Rmult_le_pos; lra). lra.
Qed.
Lemma contaminated_pos a p px q x y : 0 <= a <= 1 -> 0 < p x y -> 0 < px x -> 0 < q y -> 0 < contaminated a p px q x y.
Proof. intros A P Px Q. apply mixed_pos; auto. now apply Rmult_lt_0_compat. Qed.

(** Below the convex function t ln t: the tangent. *)
Lemma ln_le t : 0 < t -> ln t <= t - 1.
Proof.
  intros H. destruct (Req_dec (ln t) 0) as [E|E].
  - rewrite E. assert (t = 1) by (apply ln_inv; [lra|lra|rewrite E, ln_1; reflexivity]). lra.
  - assert (K := exp_ineq1 (ln t) E). rewrite exp_ln in K by auto. lra.
Qed.
(** The inequality of sums of logarithms, for two terms. *)
Lemma log_sum_two a1 b1 a2 b2 : 0 < a1 -> 0 < b1 -> 0 < a2 -> 0 < b2 ->
  (a1 + a2) * ln ((a1 + a2) / (b1 + b2)) <= a1 * ln (a1 / b1) + a2 * ln (a2 / b2).
Proof.
  intros A1 B1 A2 B2.
  assert (D : forall u v, 0 < u -> 0 < v -> ln (u / v) = ln u - ln v).
  { intros u v U V. unfold Rdiv. rewrite ln_mult, ln_Rinv by (auto; now apply Rinv_0_lt_compat). ring. }
  assert (K : forall u v, 0 < u -> 0 < v -> u * (ln ((a1 + a2) / (b1 + b2)) - ln (u / v)) <= v * ((a1 + a2) / (b1 + b2)) - u).
  { intros u v U V. assert (P : 0 < (a1 + a2) / (b1 + b2)) by (apply Rdiv_lt_0_compat; lra).
    assert (P' : 0 < u / v) by (apply Rdiv_lt_0_compat; lra). rewrite <- D by auto.
    assert (H := ln_le ((a1 + a2) / (b1 + b2) / (u / v)) (Rdiv_lt_0_compat _ _ P P')).
    apply Rle_trans with (u * ((a1 + a2) / (b1 + b2) / (u / v) - 1)); [apply Rmult_le_compat_l; lra|].
    apply Req_le. field. lra. }
  assert (H1 := K a1 b1 A1 B1). assert (H2 := K a2 b2 A2 B2).
  assert (E : b1 * ((a1 + a2) / (b1 + b2)) - a1 + (b2 * ((a1 + a2) / (b1 + b2)) - a2) = 0) by (field; lra).
  lra.
Qed.

Theorem contamination_loses a pxy px py q : 0 <= a <= 1 -> 0 < pxy -> 0 < px -> 0 < py -> 0 < q ->
  ((1 - a) * pxy + a * (px * q)) * information ((1 - a) * pxy + a * (px * q)) px ((1 - a) * py + a * q) <= (1 - a) * (pxy * information pxy px py).
Proof.
  intros A P Px Py Q. unfold information.
  assert (PQ : 0 < px * q) by now apply Rmult_lt_0_compat. assert (PP : 0 < px * py) by now apply Rmult_lt_0_compat.
  destruct (Req_dec a 0) as [->|N0].
  { replace ((1 - 0) * pxy + 0 * (px * q)) with pxy by ring. replace ((1 - 0) * py + 0 * q) with py by ring. lra. }
  destruct (Req_dec a 1) as [->|N1].
  { replace ((1 - 1) * pxy + 1 * (px * q)) with (px * q) by ring. replace ((1 - 1) * py + 1 * q) with q by ring.
    replace (px * q / (px * q)) with 1 by (field; split; lra). rewrite ln_1. lra. }
  assert (H := log_sum_two ((1 - a) * pxy) ((1 - a) * (px * py)) (a * (px * q)) (a * (px * q))
    ltac:(apply Rmult_lt_0_compat; lra) ltac:(apply Rmult_lt_0_compat; lra) ltac:(apply Rmult_lt_0_compat; lra) ltac:(apply Rmult_lt_0_compat; lra)).
  replace (a * (px * q) / (a * (px * q))) with 1 in H by (field; repeat split; lra). rewrite ln_1 in H.
  replace ((1 - a) * pxy / ((1 - a) * (px * py))) with (pxy / (px * py)) in H by (field; repeat split; lra).
  replace (px * ((1 - a) * py + a * q)) with ((1 - a) * (px * py) + a * (px * q)) by ring. lra.
Qed.

Theorem contaminated_information_bound {I} a p px py q : integral I -> 0 <= a <= 1 ->
  (forall x y, 0 < p x y) -> (forall x, 0 < px x) -> (forall y, 0 < py y) -> (forall y, 0 < q y) ->
  I (fun x y => contaminated a p px q x y * information (contaminated a p px q x y) (px x) (contaminated_y a py q y)) <=
  (1 - a) * I (fun x y => p x y * information (p x y) (px x) (py y)).
Proof.
  intros [S M] A P Px Py Q. rewrite <- S. apply M. intros x y. unfold contaminated, contaminated_y. now apply contamination_loses.
Qed.

(** Noise with the signal's own Y. *)
Theorem own_noise a pxy px py : 0 <= a <= 1 -> 0 < pxy -> 0 < px -> 0 < py ->
  let v := information pxy px py in
  let w := information ((1 - a) * pxy + a * (px * py)) px ((1 - a) * py + a * py) in
  w = ln ((1 - a) * exp v + a) /\ (0 < a -> ln a <= w) /\ (0 <= v -> 0 <= w <= v) /\ (v <= 0 -> v <= w <= 0).
Proof.
  intros A P Px Py v w. assert (PP : 0 < px * py) by now apply Rmult_lt_0_compat.
  assert (E : exp v = pxy / (px * py)) by (unfold v, information; apply exp_ln; now apply Rdiv_lt_0_compat).
  assert (W : w = ln ((1 - a) * exp v + a)).
  { unfold w, information. rewrite E. f_equal. field. split; lra. }
  assert (X := exp_pos v). assert (Q : 0 < (1 - a) * exp v + a * 1) by (apply mixed_pos; lra). rewrite Rmult_1_r in Q.
  assert (K : forall s t, 0 < s -> s <= t -> ln s <= ln t) by (intros s t S [L| ->]; [left; now apply ln_increasing|right; reflexivity]).
  split; [exact W|]. rewrite W. split; [|split].
  - intros A0. apply K; [exact A0|]. assert (0 <= (1 - a) * exp v) by (apply Rmult_le_pos; lra). lra.
  - intros V. assert (1 <= exp v) by (rewrite <- exp_0; destruct V as [V|<-]; [left; now apply exp_increasing|right; reflexivity]).
    split; [rewrite <- ln_1; apply K; [lra|]; nra|rewrite <- (ln_exp v) at 2; apply K; [lra|]; nra].
  - intros V. assert (exp v <= 1) by (rewrite <- exp_0; destruct V as [V| ->]; [left; now apply exp_increasing|right; reflexivity]).
    split; [rewrite <- (ln_exp v) at 1; apply K; [lra|]; nra|rewrite <- ln_1; apply K; [lra|]; nra].
Qed.

(** The ends: no noise, and noise only. *)
Theorem contamination_ends pxy px py q : 0 < pxy -> 0 < px -> 0 < py -> 0 < q ->
  information ((1 - 0) * pxy + 0 * (px * q)) px ((1 - 0) * py + 0 * q) = information pxy px py /\
  information ((1 - 1) * pxy + 1 * (px * q)) px ((1 - 1) * py + 1 * q) = 0.
Proof.
  intros P Px Py Q. unfold information. split; [f_equal; f_equal; ring|].
  replace ((1 - 1) * pxy + 1 * (px * q)) with (px * q) by ring. replace ((1 - 1) * py + 1 * q) with q by ring.
  replace (px * q / (px * q)) with 1 by (field; split; lra). apply ln_1.
Qed.

(** The probability that a point with this Y is not noise. *)
Theorem posterior_average a pxy px py q : 0 <= a <= 1 -> 0 < pxy -> 0 < px -> 0 < py -> 0 < q ->
  let v := information pxy px py in
  let w := information ((1 - a) * pxy + a * (px * q)) px ((1 - a) * py + a * q) in
  let clean := (1 - a) * py / ((1 - a) * py + a * q) in
  0 <= clean <= 1 /\ exp w = clean * exp v + (1 - clean) /\ Rmin v 0 <= w <= Rmax v 0.
Proof.
  intros A P Px Py Q v w clean. assert (PP : 0 < px * py) by now apply Rmult_lt_0_compat.
  assert (E : exp v = pxy / (px * py)) by (unfold v, information; apply exp_ln; now apply Rdiv_lt_0_compat).
  assert (M : 0 < (1 - a) * py + a * q) by now apply mixed_pos.
  assert (PQ : 0 < px * q) by now apply Rmult_lt_0_compat.
  assert (C : 0 <= clean <= 1).
  { assert (0 <= (1 - a) * py) by (apply Rmult_le_pos; lra). assert (0 <= a * q) by (apply Rmult_le_pos; lra). unfold clean.
    split; [apply Rmult_le_pos; [lra|left; now apply Rinv_0_lt_compat]|]. apply Rmult_le_reg_r with ((1 - a) * py + a * q); [exact M|].
    unfold Rdiv. rewrite Rmult_assoc, Rinv_l by lra. lra. }
  assert (W : exp w = clean * exp v + (1 - clean)).
  { unfold w, information. rewrite exp_ln.
    - rewrite E. unfold clean. field. repeat split; lra.
    - apply Rdiv_lt_0_compat; [now apply mixed_pos|now apply Rmult_lt_0_compat]. }
  split; [exact C|]. split; [exact W|].
  assert (K : forall s t, exp s <= exp t -> s <= t) by (intros s t [L|L]; [left; now apply exp_lt_inv|right; now apply exp_inv]).
  assert (K' : forall s t, s <= t -> exp s <= exp t) by (intros s t [L| ->]; [left; now apply exp_increasing|right; reflexivity]).
  unfold Rmin, Rmax. destruct (Rle_dec v 0) as [V|V].
  - assert (exp v <= 1) by (rewrite <- exp_0; now apply K'). split; apply K; rewrite W, ?exp_0; nra.
  - assert (1 <= exp v) by (rewrite <- exp_0; apply K'; lra). split; apply K; rewrite W, ?exp_0; nra.
Qed.

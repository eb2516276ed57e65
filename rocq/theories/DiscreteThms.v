(** The mixture with a binary Y. *)
From Coq Require Import String Lia Lra.
From Verif Require Import Base BaseLemmas UtilsModel JaxModel SamplersModel GaussianModel MatrixUtilsModel BmmModel MultivariateModel BenchmarkModel
  TasksModel MixturesModel PaperModel DiscreteModel DiscreteSpec BmmSpec SamplersProofs BmmProofs.
Open Scope R_scope.
Local Notation length := List.length.

Ltac product_pos := repeat lazymatch goal with |- 0 < _ * _ => apply Rmult_lt_0_compat end.

(** ** Bernoulli *)
Lemma bernoulli_bit p b : bernoulli_log_prob p (bit b) = fl_add (Fin 0) (log_fl (if b then p else 1 - p)) \/
  bernoulli_log_prob p (bit b) = fl_add (log_fl (if b then p else 1 - p)) (Fin 0).
Proof.
  assert (M : forall v, multiply_no_nan v 1 = v).
  { intros v. unfold multiply_no_nan, Reqb, Rltb. destruct (Req_EM_T 1 0); [lra|]. destruct (Rlt_dec 0 1); [|lra]. destruct v; try reflexivity. now rewrite Rmult_1_r. }
  assert (Z : forall v, multiply_no_nan v 0 = Fin 0).
  { intros v. unfold multiply_no_nan, Reqb. destruct (Req_EM_T 0 0); [reflexivity|lra]. }
  unfold bernoulli_log_prob. destruct b; cbn [bit].
  - left. replace (1 - 1) with 0 by lra. rewrite M, Z. reflexivity.
  - right. replace (1 - 0) with 1 by lra. rewrite M, Z. reflexivity.
Qed.
Lemma log_fl_zero v : fl_add (Fin 0) (log_fl v) = log_fl v /\ fl_add (log_fl v) (Fin 0) = log_fl v.
Proof. unfold log_fl. destruct (Rltb 0 v), (Reqb v 0); cbn [fl_add]; split; try reflexivity; apply (f_equal Fin); ring. Qed.
Lemma bernoulli_value p b : bernoulli_log_prob p (bit b) = log_fl (if b then p else 1 - p).
Proof. destruct (bernoulli_bit p b) as [-> | ->]; apply log_fl_zero. Qed.
Lemma bernoulli_density {J} (bd : R -> key J -> nat -> matrix) p b : 0 <= p <= 1 ->
  has_density (construct_bernoulli bd p) [bit b] (if b then p else 1 - p).
Proof.
  intros H. apply has_density_log. split; [destruct b; lra|]. cbn [construct_bernoulli log_prob map].
  unfold fl_sum. cbn [fold_left fold_right]. rewrite bernoulli_value. apply log_fl_zero.
Qed.

(** ** Densities in the plane *)
Lemma residual_plane l11 l21 l22 m1 m2 x1 x2 : residual [m1; m2] [[l11; 0]; [l21; l22]] [x1; x2] =
  [(x1 - m1) / l11; (x2 - m2 - l21 * ((x1 - m1) / l11)) / l22].
Proof.
  unfold residual, dot, rsum. cbn. repeat apply (f_equal2 cons); try reflexivity; unfold Rdiv; f_equal; ring.
Qed.
Lemma log_det_plane l11 l21 l22 : 0 < l11 -> 0 < l22 -> log_abs_det [[l11; 0]; [l21; l22]] = ln (l11 * l22).
Proof.
  intros H1 H2. unfold log_abs_det, rsum, entry. cbn [length seq map nth fold_right]. rewrite (Rabs_pos_eq l11), (Rabs_pos_eq l22) by lra.
  rewrite ln_mult by auto. ring.
Qed.

Lemma student_plane_pos df s m1 m2 x1 x2 : 0 < s -> 0 < student_plane df s m1 m2 x1 x2.
Proof.
  intros H. unfold student_plane. apply Rmult_lt_0_compat; [|apply exp_pos]. apply Rinv_0_lt_compat.
  assert (P := PI_RGT_0). product_pos; lra.
Qed.
Lemma normal_plane_pos v rho x1 x2 : 0 < v -> rho ^ 2 < 1 -> 0 < normal_plane v rho x1 x2.
Proof.
  intros H K. unfold normal_plane. apply Rmult_lt_0_compat; [|apply exp_pos]. apply Rinv_0_lt_compat.
  assert (P := PI_RGT_0). product_pos; try lra. apply sqrt_lt_R0. lra.
Qed.

Lemma student_plane_log log_gamma cholesky df s m1 m2 x1 x2 : gamma_step log_gamma -> factor_plane cholesky s 0 s -> 0 < s -> 0 < df ->
  student_log_prob log_gamma (Fin df) [m1; m2] (cholesky [[s; 0]; [0; s]]) [x1; x2] = Fin (ln (student_plane df s m1 m2 x1 x2)).
Proof.
  intros G (l11 & l21 & l22 & -> & H1 & H2 & E1 & E2 & E3) Hs Hd.
  assert (Z : l21 = 0) by (apply Rmult_eq_reg_l with l11; lra). subst l21.
  assert (E4 : l22 * l22 = s) by lra.
  cbn [student_log_prob]. rewrite residual_plane, log_det_plane by auto.
  assert (Q : rsum (map (fun w => w ^ 2) [(x1 - m1) / l11; (x2 - m2 - 0 * ((x1 - m1) / l11)) / l22]) = ((x1 - m1) ^ 2 + (x2 - m2) ^ 2) / s).
  { unfold rsum. cbn [map fold_right].
    replace (((x1 - m1) / l11) ^ 2) with ((x1 - m1) ^ 2 / (l11 * l11)) by (field; lra).
    replace (((x2 - m2 - 0 * ((x1 - m1) / l11)) / l22) ^ 2) with ((x2 - m2) ^ 2 / (l22 * l22)) by (field; lra).
    rewrite E1, E4. cbn. field. lra. }
  cbn zeta. rewrite Q. cbn [length].
  assert (P := PI_RGT_0).
  assert (L : l11 * l22 = s).
  { assert (l11 = l22) by (apply Rsqr_inj; unfold Rsqr; lra). subst. lra. }
  rewrite L. unfold student_plane. rewrite ln_mult; [|apply Rinv_0_lt_compat; product_pos; lra|apply exp_pos].
  rewrite ln_Rinv by (product_pos; lra). rewrite !ln_mult by (product_pos; lra).
  unfold Rpower. rewrite ln_exp.
  replace (INR 2 / 2 + df / 2) with (df / 2 + 1) by (cbn; lra). rewrite G by lra.
  replace (ln (df / 2)) with (ln df - ln 2) by (unfold Rdiv; rewrite ln_mult, ln_Rinv by lra; lra).
  replace (((x1 - m1) ^ 2 + (x2 - m2) ^ 2) / s / df) with (((x1 - m1) ^ 2 + (x2 - m2) ^ 2) / (df * s)) by (field; lra).
  f_equal. cbn [INR]. field.
Qed.

Lemma normal_plane_log cholesky v rho x1 x2 : factor_plane cholesky v (v * rho) v -> 0 < v -> rho ^ 2 < 1 ->
  normal_log_prob [0; 0] (cholesky [[v; v * rho]; [v * rho; v]]) [x1; x2] = Fin (ln (normal_plane v rho x1 x2)).
Proof.
  intros (l11 & l21 & l22 & -> & H1 & H2 & E1 & E2 & E3) Hv Hr.
  cbn [normal_log_prob]. rewrite residual_plane, log_det_plane by auto.
  assert (P := PI_RGT_0).
  assert (F1 : l21 = l11 * rho) by (apply Rmult_eq_reg_l with l11; [rewrite E2, <- E1; ring|lra]).
  assert (F2 : l22 * l22 = v * (1 - rho ^ 2)).
  { rewrite F1 in E3. replace (l11 * rho * (l11 * rho)) with (l11 * l11 * rho ^ 2) in E3 by ring. rewrite E1 in E3. lra. }
  assert (S : l11 * l22 = v * sqrt (1 - rho ^ 2)).
  { apply Rsqr_inj; [apply Rmult_le_pos; lra|apply Rmult_le_pos; [lra|apply sqrt_pos]|]. unfold Rsqr.
    replace (l11 * l22 * (l11 * l22)) with (l11 * l11 * (l22 * l22)) by ring. rewrite E1, F2.
    replace (v * sqrt (1 - rho ^ 2) * (v * sqrt (1 - rho ^ 2))) with (v * v * (sqrt (1 - rho ^ 2) * sqrt (1 - rho ^ 2))) by ring.
    rewrite sqrt_sqrt by lra. ring. }
  assert (0 < sqrt (1 - rho ^ 2)) by (apply sqrt_lt_R0; lra).
  rewrite S. unfold normal_plane. rewrite (ln_mult (/ (2 * PI * v * sqrt (1 - rho ^ 2)))); [|apply Rinv_0_lt_compat; product_pos; lra|apply exp_pos].
  rewrite ln_exp, ln_Rinv by (product_pos; lra).
  replace (2 * PI * v * sqrt (1 - rho ^ 2)) with (2 * PI * (v * sqrt (1 - rho ^ 2))) by ring.
  rewrite (ln_mult (2 * PI) (v * sqrt (1 - rho ^ 2))) by (product_pos; lra).
  unfold rsum. cbn [map fold_right].
  replace (((x1 - 0) / l11) ^ 2) with (x1 ^ 2 / (l11 * l11)) by (field; lra).
  replace (((x2 - 0 - l21 * ((x1 - 0) / l11)) / l22) ^ 2) with ((x2 - rho * x1) ^ 2 / (l22 * l22)) by (rewrite F1; field; lra).
  rewrite E1, F2. f_equal. field. split; lra.
Qed.

(** ** The mixture *)
Section Mixture.
  Context {J : prng}.
  Variable T : tfp_draws J.
  Variable cholesky : matrix -> option matrix.
  Variable normal_draw : list R -> option matrix -> key J -> nat -> matrix.
  Variable student_draw : fl -> list R -> option matrix -> key J -> nat -> matrix.
  Variable bernoulli_draw : R -> key J -> nat -> matrix.
  Variable log_gamma : R -> R.
  Hypothesis G : gamma_step log_gamma.
  Hypothesis F1 : factor_plane cholesky (2 / 10) 0 (2 / 10).
  Hypothesis F2 : factor_plane cholesky (1 / 10) (1 / 10 * (95 / 100)) (1 / 10).
  Local Notation define := (define_distribution T cholesky normal_draw student_draw bernoulli_draw log_gamma).

  Definition x_part (k : nat) : tfd J :=
    match k with
    | O => construct_student cholesky student_draw log_gamma [-1; -1] (scaled (2 / 10) (np_eye 2)) (Fin 8)
    | S O => construct_normal cholesky normal_draw [0; 0] (scaled (1 / 10) [[1; 95 / 100]; [95 / 100; 1]])
    | _ => construct_student cholesky student_draw log_gamma [1; 1] (scaled (2 / 10) (np_eye 2)) (Fin 5)
    end.
  Definition y_part (k : nat) : tfd J :=
    construct_bernoulli bernoulli_draw match k with O => 95 / 100 | S O => 5 / 10 | _ => 5 / 100 end.
  Definition xy_part (k : nat) : joint_distribution J :=
    {| jd_dim_x := 2; jd_dim_y := 1; dist_joint := tfd_blockwise T (x_part k) (y_part k) 2;
       dist_x := x_part k; dist_y := y_part k; analytic_mi := Some (Fin 0) |}.
  Lemma define_eq : define = mixture T [5 / 10 * (1 - 5 / 10); 5 / 10; 5 / 10 * (1 - 5 / 10)] [xy_part 0; xy_part 1; xy_part 2].
  Proof. reflexivity. Qed.

  Lemma cloud_pos k x1 x2 : 0 < cloud k x1 x2.
  Proof. destruct k as [|[|k]]; cbn [cloud]; [apply student_plane_pos; lra|apply normal_plane_pos; lra|apply student_plane_pos; lra]. Qed.

  Lemma x_density k x1 x2 : (k < 3)%nat -> has_density (x_part k) [x1; x2] (cloud k x1 x2).
  Proof.
    intros K. left. split; [apply cloud_pos|].
    assert (E : scaled (2 / 10) (np_eye 2) = [[2 / 10; 0]; [0; 2 / 10]]).
    { cbn. repeat apply (f_equal2 cons); try reflexivity; lra. }
    assert (E' : scaled (1 / 10) [[1; 95 / 100]; [95 / 100; 1]] = [[1 / 10; 1 / 10 * (95 / 100)]; [1 / 10 * (95 / 100); 1 / 10]]).
    { cbn. repeat apply (f_equal2 cons); try reflexivity; lra. }
    destruct k as [|[|[|k]]]; [| | |lia]; cbn [x_part cloud construct_student construct_normal log_prob]; rewrite ?E, ?E'.
    - apply student_plane_log; auto; lra.
    - apply normal_plane_log; auto; lra.
    - apply student_plane_log; auto; lra.
  Qed.
  Lemma y_density k b : (k < 3)%nat -> has_density (y_part k) [bit b] (answer k b).
  Proof.
    intros K. destruct k as [|[|[|k]]]; [| | |lia]; unfold y_part, answer; cbn zeta.
    - apply bernoulli_density. lra.
    - replace (1 / 2) with (5 / 10) by lra. apply bernoulli_density. lra.
    - apply bernoulli_density. lra.
  Qed.
  Lemma xy_density k x1 x2 b : (k < 3)%nat -> has_density (dist_joint (xy_part k)) [x1; x2; bit b] (cloud k x1 x2 * answer k b).
  Proof.
    intros K. destruct (proj1 (has_density_log _ _ _) (x_density k x1 x2 K)) as [P E].
    destruct (proj1 (has_density_log _ _ _) (y_density k b K)) as [P' E'].
    apply has_density_log. split; [now apply Rmult_le_pos|].
    cbn [xy_part dist_joint tfd_blockwise log_prob firstn skipn]. rewrite E, E'. now apply log_fl_mult.
  Qed.

  Definition proportions : list R := [5 / 10 * (1 - 5 / 10); 5 / 10; 5 / 10 * (1 - 5 / 10)].
  Lemma proportions_good : good_proportions proportions.
  Proof. unfold proportions, good_proportions, rsum. cbn. split; [|lra]. repeat constructor; lra. Qed.
  Lemma three_mixed (d : nat -> tfd J) z f : (forall k, (k < 3)%nat -> has_density (d k) z (f k)) ->
    has_density (tfd_mixture T proportions [d 0%nat; d 1%nat; d 2%nat]) z (sum3 (fun k => cloud_weight k * f k)).
  Proof.
    intros H.
    replace (sum3 (fun k => cloud_weight k * f k)) with
      (rsum (map (fun pv => fst pv * snd pv) (combine proportions [f 0%nat; f 1%nat; f 2%nat])) / rsum proportions).
    - apply mixture_density; [apply proportions_good|reflexivity|].
      do 3 (apply Forall2_cons; [apply H; lia|]). apply Forall2_nil.
    - unfold proportions, sum3, cloud_weight, rsum. cbn. field.
  Qed.

  Theorem discrete_made : exists d, define = Ok d /\ jd_dim_x d = 2%nat /\ jd_dim_y d = 1%nat /\ analytic_mi d = None /\
    (forall x1 x2, has_density (dist_x d) [x1; x2] (points_density x1 x2)) /\
    (forall b, has_density (dist_y d) [bit b] (1 / 2)) /\
    (forall x1 x2 b, has_density (dist_joint d) [x1; x2; bit b] (labelled_density x1 x2 b)).
  Proof.
    eexists. split; [rewrite define_eq; reflexivity|]. cbn [jd_dim_x jd_dim_y analytic_mi dist_x dist_y dist_joint map hd xy_part].
    repeat split.
    - intros x1 x2. apply (three_mixed x_part [x1; x2] (fun k => cloud k x1 x2)). intros k K. now apply x_density.
    - intros b. replace (1 / 2) with (sum3 (fun k => cloud_weight k * answer k b)).
      + apply (three_mixed y_part [bit b] (fun k => answer k b)). intros k K. now apply y_density.
      + unfold sum3, cloud_weight, answer. destruct b; lra.
    - intros x1 x2 b. apply (three_mixed (fun k => dist_joint (xy_part k)) [x1; x2; bit b] (fun k => cloud k x1 x2 * answer k b)).
      intros k K. now apply xy_density.
  Qed.

  Theorem discrete_point d x1 x2 b : define = Ok d -> point_pmi d [x1; x2] [bit b] = Fin (discrete_pmi x1 x2 b).
  Proof.
    intros E. destruct discrete_made as (d' & E' & _ & _ & _ & Dx & Dy & Dxy). rewrite E in E'. injection E' as <-.
    assert (P : 0 < points_density x1 x2).
    { unfold points_density, sum3, cloud_weight. assert (A := cloud_pos 0 x1 x2). assert (B := cloud_pos 1 x1 x2). assert (C := cloud_pos 2 x1 x2). lra. }
    assert (Q : 0 < labelled_density x1 x2 b).
    { unfold labelled_density, sum3, cloud_weight, answer. assert (A := cloud_pos 0 x1 x2). assert (B := cloud_pos 1 x1 x2).
      assert (C := cloud_pos 2 x1 x2). destruct b; lra. }
    destruct (proj1 (has_density_log _ _ _) (Dx x1 x2)) as [_ E1]. destruct (proj1 (has_density_log _ _ _) (Dy b)) as [_ E2].
    destruct (proj1 (has_density_log _ _ _) (Dxy x1 x2 b)) as [_ E3].
    unfold point_pmi. cbn [app]. rewrite E1, E2, E3, !log_fl_pos by lra. unfold fl_sub. cbn [fl_add fl_opp].
    apply (f_equal Fin). unfold discrete_pmi.
    assert (D : forall u v, 0 < u -> 0 < v -> ln (u / v) = ln u - ln v) by (intros u v U V; unfold Rdiv; rewrite ln_mult, ln_Rinv by (auto; now apply Rinv_0_lt_compat); ring).
    rewrite (D (labelled_density x1 x2 b) (points_density x1 x2 * (1 / 2))) by (product_pos; lra). rewrite (ln_mult (points_density x1 x2)) by lra. reflexivity.
  Qed.
End Mixture.

(** ** The profile *)
Lemma cloud_positive k x1 x2 : 0 < cloud k x1 x2.
Proof. destruct k as [|[|k]]; cbn [cloud]; [apply student_plane_pos; lra|apply normal_plane_pos; lra|apply student_plane_pos; lra]. Qed.
Lemma points_pos x1 x2 : 0 < points_density x1 x2.
Proof.
  unfold points_density, sum3, cloud_weight.
  assert (A := cloud_positive 0 x1 x2). assert (B := cloud_positive 1 x1 x2). assert (C := cloud_positive 2 x1 x2). lra.
Qed.
Definition ratio (x1 x2 : R) (b : bool) : R := labelled_density x1 x2 b / (points_density x1 x2 * (1 / 2)).
Lemma ratio_times x1 x2 b : ratio x1 x2 b * points_density x1 x2 = 2 * labelled_density x1 x2 b.
Proof. unfold ratio. assert (P := points_pos x1 x2). field. lra. Qed.
Lemma ratio_bounds x1 x2 b : 1 / 10 < ratio x1 x2 b < 19 / 10.
Proof.
  assert (P := points_pos x1 x2). assert (E := ratio_times x1 x2 b).
  assert (A := cloud_positive 0 x1 x2). assert (B := cloud_positive 1 x1 x2). assert (C := cloud_positive 2 x1 x2).
  split; apply Rmult_lt_reg_r with (points_density x1 x2); auto; rewrite E;
    unfold labelled_density, points_density, sum3, cloud_weight, answer; destruct b; lra.
Qed.
Theorem profile_window x1 x2 b : profile_bounds (discrete_pmi x1 x2 b).
Proof. assert (H := ratio_bounds x1 x2 b). change (discrete_pmi x1 x2 b) with (ln (ratio x1 x2 b)). split; apply ln_increasing; lra. Qed.
Theorem bounds_shown : shown_range = (-3, 1) /\ forall v, profile_bounds v -> fst shown_range < v < snd shown_range.
Proof.
  split; [reflexivity|]. intros v.
  assert (W : -3 < ln (1 / 10) /\ ln (19 / 10) < 1).
  { split.
    - apply exp_lt_inv. rewrite exp_ln by lra. replace (-3) with (- (3)) by lra. rewrite exp_Ropp.
      assert (E : exp (3 / 8) >= 11 / 8) by (assert (H := exp_ineq1 (3 / 8) ltac:(lra)); lra).
      assert (E2 : exp 3 = exp (3 / 8) ^ 8).
      { replace 3 with (3 / 8 + (3 / 8 + (3 / 8 + (3 / 8 + (3 / 8 + (3 / 8 + (3 / 8 + 3 / 8))))))) at 1 by lra. rewrite !exp_plus. ring. }
      assert (H : 12 < exp (3 / 8) ^ 8).
      { apply Rlt_le_trans with ((11 / 8) ^ 8); [lra|]. apply pow_incr. lra. }
      rewrite E2. replace (1 / 10) with (/ 10) by lra. apply Rinv_lt_contravar; lra.
    - apply exp_lt_inv. rewrite exp_ln by lra. assert (H := exp_ineq1 1 ltac:(lra)). lra. }
  unfold profile_bounds, shown_range. cbn [fst snd]. lra.
Qed.
Theorem profile_balance x1 x2 : exp (discrete_pmi x1 x2 true) + exp (discrete_pmi x1 x2 false) = 2.
Proof.
  change (exp (ln (ratio x1 x2 true)) + exp (ln (ratio x1 x2 false)) = 2).
  assert (H := ratio_bounds x1 x2 true). assert (H' := ratio_bounds x1 x2 false). rewrite !exp_ln by lra.
  assert (P := points_pos x1 x2). apply Rmult_eq_reg_r with (points_density x1 x2); [|lra].
  rewrite Rmult_plus_distr_r, !ratio_times. unfold labelled_density, points_density, sum3, cloud_weight, answer. field.
Qed.
Theorem profile_sign x1 x2 : (0 < discrete_pmi x1 x2 true <-> cloud 2 x1 x2 < cloud 0 x1 x2) /\
  (0 < discrete_pmi x1 x2 false <-> cloud 0 x1 x2 < cloud 2 x1 x2).
Proof.
  assert (P := points_pos x1 x2).
  assert (K : forall b, 0 < discrete_pmi x1 x2 b <-> points_density x1 x2 < 2 * labelled_density x1 x2 b).
  { intros b. change (discrete_pmi x1 x2 b) with (ln (ratio x1 x2 b)). assert (H := ratio_bounds x1 x2 b). rewrite <- ratio_times. split.
    - intros L. rewrite <- ln_1 in L. apply ln_lt_inv in L; [|lra|lra]. nra.
    - intros L. rewrite <- ln_1. apply ln_increasing; [lra|]. nra. }
  rewrite !K. unfold labelled_density, points_density, sum3, cloud_weight, answer. lra.
Qed.

(** ** What the rules compute *)
Lemma rmean_bounds (a b : R) l : l <> [] -> Forall (fun v => a < v < b) l -> a < rmean l < b.
Proof.
  intros N H.
  assert (S : a * INR (length l) < rsum l < b * INR (length l)).
  { destruct l as [|v l]; [easy|]. clear N. revert v H. induction l as [|w l IH]; intros v H.
    - unfold rsum. cbn. apply Forall_inv in H. lra.
    - rewrite rsum_cons. assert (Hv := Forall_inv H). specialize (IH w (Forall_inv_tail H)).
      change (length (v :: w :: l)) with (S (length (w :: l))). rewrite S_INR. lra. }
  assert (P : 0 < INR (length l)) by (apply lt_0_INR; destruct l; [easy|cbn; lia]).
  unfold rmean. split; apply Rmult_lt_reg_r with (INR (length l)); auto; unfold Rdiv; rewrite ?Rmult_assoc, ?Rinv_l, ?Rmult_1_r by lra; lra.
Qed.
Lemma rmean_bounds_le (b : R) l : l <> [] -> Forall (fun v => v <= b) l -> rmean l <= b.
Proof.
  intros N H.
  assert (S : rsum l <= b * INR (length l)).
  { clear N. induction H as [|v l Hv _ IH]; [unfold rsum; cbn; lra|]. rewrite rsum_cons. change (length (v :: l)) with (S (length l)). rewrite S_INR. lra. }
  assert (P : 0 < INR (length l)) by (apply lt_0_INR; destruct l; [easy|cbn; lia]).
  unfold rmean. apply Rmult_le_reg_r with (INR (length l)); auto; unfold Rdiv; rewrite ?Rmult_assoc, ?Rinv_l, ?Rmult_1_r by lra; lra.
Qed.
Lemma deviation_bounds a b l : l <> [] -> Forall (fun v => a < v < b) l -> 0 <= BmmSpec.deviation l <= b - a.
Proof.
  intros N H. destruct (rmean_bounds a b l N H) as [M1 M2]. unfold BmmSpec.deviation. split; [apply sqrt_pos|].
  rewrite <- (sqrt_pow2 (b - a)) by lra. apply sqrt_le_1_alt. apply rmean_bounds_le; [destruct l; easy|].
  apply Forall_map. eapply Forall_impl; [|exact H]. cbn beta. intros v V. nra.
Qed.

Section Rules.
  Context {J : prng}.
  Variable T : tfp_draws J.
  Variable cholesky : matrix -> option matrix.
  Variable normal_draw : list R -> option matrix -> key J -> nat -> matrix.
  Variable student_draw : fl -> list R -> option matrix -> key J -> nat -> matrix.
  Variable bernoulli_draw : R -> key J -> nat -> matrix.
  Variable log_gamma : R -> R.
  Hypothesis G : gamma_step log_gamma.
  Hypothesis F1 : factor_plane cholesky (2 / 10) 0 (2 / 10).
  Hypothesis F2 : factor_plane cholesky (1 / 10) (1 / 10 * (95 / 100)) (1 / 10).
  Local Notation define := (define_distribution T cholesky normal_draw student_draw bernoulli_draw log_gamma).

  Lemma drawn_profile d k n : define = Ok d -> (1 <= n)%Z -> labelled_rows (Z.to_nat n) (draw (dist_joint d) k (Z.to_nat n)) ->
    exists l, pmi_profile k d n = Ok (map Fin l) /\ length l = Z.to_nat n /\
      Forall2 (fun r v => forall x1 x2 b, r = [x1; x2; bit b] -> v = discrete_pmi x1 x2 b) (draw (dist_joint d) k (Z.to_nat n)) l /\
      Forall profile_bounds l.
  Proof.
    intros E N [L H]. destruct (discrete_made T cholesky normal_draw student_draw bernoulli_draw log_gamma G F1 F2) as (d' & E' & X & _).
    rewrite E in E'. injection E' as <-.
    unfold pmi_profile, jd_sample. destruct (Z.ltb_spec n 1); [lia|]. cbn [bind]. rewrite X. unfold jd_pmi. rewrite !map_length, Nat.eqb_refl. cbn [negb].
    set (rows := draw (dist_joint d) k (Z.to_nat n)) in *. clearbody rows. rewrite <- L. clear L.
    induction H as [|r rows (x1 & x2 & b & ->) _ (l & IE & IL & IF & IB)].
    - exists []. repeat split; constructor.
    - exists (discrete_pmi x1 x2 b :: l). cbn [map combine firstn skipn fst snd length]. injection IE as IE. rewrite IE, IL.
      rewrite (discrete_point T cholesky normal_draw student_draw bernoulli_draw log_gamma G F1 F2 d x1 x2 b E).
      split; [reflexivity|]. split; [reflexivity|]. split.
      + constructor; [|exact IF]. intros y1 y2 c [= <- <- Eb]. destruct b, c; try reflexivity; cbn in Eb; lra.
      + constructor; [apply profile_window|exact IB].
  Qed.

  Theorem rules_computed d k : define = Ok d ->
    (labelled_rows 1000 (draw (dist_joint d) k 1000) ->
       exists xs ys, sample_joint T cholesky normal_draw student_draw bernoulli_draw log_gamma k = Ok (xs, ys) /\
         Forall2 (fun r x => x = firstn 2 r) (draw (dist_joint d) k 1000) xs /\
         Forall2 (fun r c => nth 2 r 0 = 0 /\ c = "blue"%string \/ nth 2 r 0 = 1 /\ c = "orange"%string) (draw (dist_joint d) k 1000) (point_colors ys)) /\
    (labelled_rows (Z.to_nat 1000000) (draw (dist_joint d) k (Z.to_nat 1000000)) ->
       (exists l, sample_pmi T cholesky normal_draw student_draw bernoulli_draw log_gamma k = Ok (map Fin l) /\ length l = Z.to_nat 1000000 /\
          Forall2 (fun r v => forall x1 x2 b, r = [x1; x2; bit b] -> v = discrete_pmi x1 x2 b) (draw (dist_joint d) k (Z.to_nat 1000000)) l) /\
       exists mi se, estimate_mi T cholesky normal_draw student_draw bernoulli_draw log_gamma k = Ok (Fin mi, Fin se) /\
         profile_bounds mi /\ 0 <= se <= ln 19 / 1000).
  Proof.
    intros E. split.
    - intros [L H]. destruct (discrete_made T cholesky normal_draw student_draw bernoulli_draw log_gamma G F1 F2) as (d' & E' & X & _).
      rewrite E in E'. injection E' as <-.
      do 2 eexists. unfold sample_joint. rewrite E. cbn [bind]. unfold jd_sample. change (1000 <? 1)%Z with false. cbv iota. rewrite X.
      change (Z.to_nat 1000) with 1000%nat. split; [reflexivity|].
      set (rows := draw (dist_joint d) k 1000%nat) in *. clearbody rows. clear L. split.
      + clear H. induction rows as [|r rows IH]; constructor; auto.
      + induction H as [|r rows (x1 & x2 & b & ->) _ IH]; [constructor|]. cbn [map skipn]. unfold point_colors. cbn [concat map app]. constructor; [|exact IH].
        cbn [nth]. unfold Rltb. destruct b; cbn [bit]; destruct (Rlt_dec _ _); try lra; auto.
    - intros H. destruct (drawn_profile d k 1000000 E ltac:(lia) H) as (l & EP & L & F & B).
      unfold sample_pmi, estimate_mi. rewrite E. cbn [bind]. unfold monte_carlo_mi_estimate. rewrite EP. cbn [bind]. split; [now exists l|].
      assert (N : l <> []) by (intros ->; cbn [length] in L; lia).
      rewrite fl_mean_fin, fl_std_fin. exists (rmean l), (BmmSpec.deviation l / 1000).
      assert (S : sqrt (IZR 1000000) = 1000).
      { replace (IZR 1000000) with (1000 * 1000) by lra. apply sqrt_square. lra. }
      cbv zeta. rewrite S. split; [reflexivity|]. split; [exact (rmean_bounds _ _ l N B)|].
      destruct (deviation_bounds _ _ l N B) as [D1 D2].
      assert (Q : ln (19 / 10) - ln (1 / 10) = ln 19).
      { replace (19 / 10) with (19 * (1 / 10)) by lra. rewrite ln_mult by lra. ring. }
      rewrite Q in D2. lra.
  Qed.
End Rules.

(** The figure of the pointwise mutual information. *)
From Coq Require Import String Lia Lra.
From Verif Require Import Base BaseLemmas UtilsModel JaxModel SamplersModel GaussianModel MatrixUtilsModel MatrixUtilsSpec BenchmarkModel TasksModel TasksSpec GaussianSpec TasksGaussian BasicSpec BasicThms
  SamplersProofs RulesModel CriticsModel CriticsThms PointwiseModel PointwiseSpec.
Open Scope R_scope.
Local Notation length := List.length.

(** ** The ratios *)
Lemma ln_sqrt v : 0 < v -> ln (sqrt v) = 1 / 2 * ln v.
Proof. intros H. rewrite <- Rpower_sqrt by exact H. unfold Rpower. rewrite ln_exp. lra. Qed.
Lemma shape_positive a b d : 0 < a -> 0 < a * d - b ^ 2 -> 0 < d.
Proof. intros A H. apply Rmult_lt_reg_l with a; [exact A|]. assert (B := pow2_ge_0 b). lra. Qed.
Lemma read_shape_ok a b c d : 0 < a -> 0 < a * d - b ^ 2 -> read_shape [[a; c]; [b; d]] = Ok (a, b, d).
Proof.
  intros A D. unfold read_shape. rewrite (proj2 (Rltb_true _ _) A). replace (a * d - b * b) with (a * d - b ^ 2) by ring.
  now rewrite (proj2 (Rltb_true _ _) D).
Qed.
Lemma maha2_distance a b d x y : maha2 a b d x y = distance2 a b d x y.
Proof. unfold maha2, distance2. replace (b ^ 2) with (b * b) by ring. f_equal. ring. Qed.

Lemma gaussian_value a b d x y : 0 < a -> 0 < a * d - b ^ 2 ->
  gaussian_logpdfratio x y [[a; b]; [b; d]] = Ok (- (1 / 2) * (ln (a * d - b ^ 2) - ln a - ln d + distance2 a b d x y - x ^ 2 / a - y ^ 2 / d)).
Proof.
  intros A D. assert (P := shape_positive _ _ _ A D). unfold gaussian_logpdfratio. rewrite read_shape_ok by assumption.
  cbn [index2 nth_error bind]. unfold read_scale. rewrite (proj2 (Rltb_true _ _) A), (proj2 (Rltb_true _ _) P). cbn [bind].
  apply f_equal. unfold log_ratio, normal_pdf. rewrite !ln_exp, maha2_distance. unfold maha1. replace (b ^ 2) with (b * b) by ring. cbn [INR]. field.
  split; apply Rgt_not_eq; assumption.
Qed.
Lemma ln_normal1 v x : 0 < v -> ln (normal1 v x) = - (1 / 2) * (ln (2 * PI) + ln v + x ^ 2 / v).
Proof.
  intros V. assert (Q := PI_RGT_0). unfold normal1. assert (S : 0 < sqrt (2 * PI * v)) by (apply sqrt_lt_R0; apply Rmult_lt_0_compat; lra).
  rewrite ln_mult by (try apply Rinv_0_lt_compat; try exact S; apply exp_pos). rewrite ln_Rinv by exact S.
  rewrite ln_sqrt by (apply Rmult_lt_0_compat; lra). rewrite ln_mult by lra. rewrite ln_exp. field. lra.
Qed.
Lemma ln_normal2 a b d x y : 0 < a * d - b ^ 2 ->
  ln (normal2 a b d x y) = - (1 / 2) * (2 * ln (2 * PI) + ln (a * d - b ^ 2) + distance2 a b d x y).
Proof.
  intros D. assert (Q := PI_RGT_0). unfold normal2. assert (S : 0 < sqrt (a * d - b ^ 2)) by now apply sqrt_lt_R0.
  assert (T : 0 < 2 * PI * sqrt (a * d - b ^ 2)) by (apply Rmult_lt_0_compat; lra).
  rewrite ln_mult by (try apply Rinv_0_lt_compat; try exact T; apply exp_pos). rewrite ln_Rinv by exact T.
  rewrite ln_mult by lra. rewrite ln_sqrt by exact D. rewrite ln_exp. lra.
Qed.
Lemma normal1_pos v x : 0 < v -> 0 < normal1 v x.
Proof.
  intros V. assert (Q := PI_RGT_0). unfold normal1. apply Rmult_lt_0_compat; [|apply exp_pos]. apply Rinv_0_lt_compat, sqrt_lt_R0. apply Rmult_lt_0_compat; lra.
Qed.
Lemma normal2_pos a b d x y : 0 < a * d - b ^ 2 -> 0 < normal2 a b d x y.
Proof.
  intros V. assert (Q := PI_RGT_0). unfold normal2. apply Rmult_lt_0_compat; [|apply exp_pos]. apply Rinv_0_lt_compat. apply Rmult_lt_0_compat; [lra|]. now apply sqrt_lt_R0.
Qed.
Lemma gaussian_density a b d x y : 0 < a -> 0 < a * d - b ^ 2 ->
  exists v, gaussian_logpdfratio x y [[a; b]; [b; d]] = Ok v /\ normal2 a b d x y = exp v * (normal1 a x * normal1 d y).
Proof.
  intros A D. assert (P := shape_positive _ _ _ A D). eexists. split; [now apply gaussian_value|].
  assert (N := normal1_pos a x A). assert (M := normal1_pos d y P). apply ln_inv; [now apply normal2_pos| |].
  - apply Rmult_lt_0_compat; [apply exp_pos|]. now apply Rmult_lt_0_compat.
  - rewrite ln_mult by (try apply exp_pos; now apply Rmult_lt_0_compat). rewrite ln_mult by assumption.
    rewrite ln_exp, ln_normal1, ln_normal1, ln_normal2 by assumption. lra.
Qed.
Lemma one_minus c : -1 < c < 1 -> 0 < 1 - c ^ 2.
Proof. intros H. nra. Qed.
Lemma gaussian_correlation c x y : -1 < c < 1 -> gaussian_logpdfratio x y [[1; c]; [c; 1]] = Ok (normal_pmi c x y).
Proof.
  intros C. assert (D := one_minus c C). rewrite gaussian_value by lra. apply f_equal. unfold normal_pmi, distance2. rewrite ln_1.
  replace (1 * 1 - c ^ 2) with (1 - c ^ 2) by ring. field. lra.
Qed.

Lemma student_value lg df a b d x y : (1 <= df)%Z -> 0 < a -> 0 < a * d - b ^ 2 -> let nu := IZR df in
  student_logpdfratio lg x y df [[a; b]; [b; d]] = Ok (lg ((nu + 2) / 2) + lg (nu / 2) - 2 * lg ((nu + 1) / 2) - 1 / 2 * (ln (a * d - b ^ 2) - ln a - ln d)
     - (nu + 2) / 2 * ln (1 + distance2 a b d x y / nu) + (nu + 1) / 2 * (ln (1 + x ^ 2 / a / nu) + ln (1 + y ^ 2 / d / nu))).
Proof.
  intros B A D nu. assert (P := shape_positive _ _ _ A D). assert (N : 1 <= nu) by (apply IZR_le in B; exact B).
  unfold student_logpdfratio. rewrite read_shape_ok by assumption. cbn [bind].
  rewrite (proj2 (Z.leb_gt _ _)) by lia. cbn [index2 nth_error bind].
  unfold read_scale. rewrite (proj2 (Rltb_true _ _) A), (proj2 (Rltb_true _ _) P). cbn [bind].
  apply f_equal. unfold log_ratio, student_pdf. rewrite !ln_exp, maha2_distance. unfold maha1. replace (a * d - b * b) with (a * d - b ^ 2) by ring. cbn [INR]. fold nu.
  replace (1 / 2 * (nu + (1 + 1))) with ((nu + 2) / 2) by lra. replace (1 / 2 * (nu + 1)) with ((nu + 1) / 2) by lra.
  replace (1 / 2 * nu) with (nu / 2) by lra.
  replace (1 / nu * distance2 a b d x y) with (distance2 a b d x y / nu) by (field; lra).
  replace (1 / nu * (x * x / a)) with (x ^ 2 / a / nu) by (field; lra). replace (1 / nu * (y * y / d)) with (y ^ 2 / d / nu) by (field; lra).
  lra.
Qed.
Lemma ln_student1 lg nu v x : 0 < nu -> 0 < v ->
  ln (student1 lg nu v x) = lg ((nu + 1) / 2) - lg (nu / 2) - 1 / 2 * (ln (nu * PI) + ln v) - (nu + 1) / 2 * ln (1 + x ^ 2 / v / nu) /\ 0 < student1 lg nu v x.
Proof.
  intros N V. assert (Q := PI_RGT_0). unfold student1. assert (NP : 0 < nu * PI) by (apply Rmult_lt_0_compat; lra).
  assert (S : 0 < sqrt (nu * PI * v)) by (apply sqrt_lt_R0; apply Rmult_lt_0_compat; lra).
  assert (E := exp_pos (lg ((nu + 1) / 2) - lg (nu / 2))). unfold Rpower. split.
  - rewrite ln_mult by (try apply Rdiv_lt_0_compat; try assumption; apply exp_pos). unfold Rdiv at 1. rewrite ln_mult by (try apply Rinv_0_lt_compat; assumption).
    rewrite ln_Rinv by exact S. rewrite ln_sqrt by (apply Rmult_lt_0_compat; lra). rewrite (ln_mult (nu * PI)) by lra. rewrite !ln_exp. lra.
  - apply Rmult_lt_0_compat; [|apply exp_pos]. now apply Rdiv_lt_0_compat.
Qed.
Lemma ln_student2 lg nu a b d x y : 0 < nu -> 0 < a * d - b ^ 2 ->
  ln (student2 lg nu a b d x y) = lg ((nu + 2) / 2) - lg (nu / 2) - ln (nu * PI) - 1 / 2 * ln (a * d - b ^ 2) - (nu + 2) / 2 * ln (1 + distance2 a b d x y / nu) /\
  0 < student2 lg nu a b d x y.
Proof.
  intros N V. assert (Q := PI_RGT_0). unfold student2. assert (NP : 0 < nu * PI) by (apply Rmult_lt_0_compat; lra).
  assert (S : 0 < sqrt (a * d - b ^ 2)) by now apply sqrt_lt_R0. assert (T : 0 < nu * PI * sqrt (a * d - b ^ 2)) by now apply Rmult_lt_0_compat.
  assert (E := exp_pos (lg ((nu + 2) / 2) - lg (nu / 2))). unfold Rpower. split.
  - rewrite ln_mult by (try apply Rdiv_lt_0_compat; try assumption; apply exp_pos). unfold Rdiv at 1. rewrite ln_mult by (try apply Rinv_0_lt_compat; assumption).
    rewrite ln_Rinv by exact T. rewrite (ln_mult (nu * PI)) by assumption. rewrite ln_sqrt by exact V. rewrite !ln_exp. lra.
  - apply Rmult_lt_0_compat; [|apply exp_pos]. now apply Rdiv_lt_0_compat.
Qed.
Lemma student_density lg df a b d x y : (1 <= df)%Z -> 0 < a -> 0 < a * d - b ^ 2 ->
  exists v, student_logpdfratio lg x y df [[a; b]; [b; d]] = Ok v /\
    student2 lg (IZR df) a b d x y = exp v * (student1 lg (IZR df) a x * student1 lg (IZR df) d y).
Proof.
  intros B A D. assert (P := shape_positive _ _ _ A D). assert (N : 1 <= IZR df) by (apply IZR_le in B; exact B).
  eexists. split; [now apply student_value|].
  destruct (ln_student1 lg (IZR df) a x ltac:(lra) A) as [L1 P1]. destruct (ln_student1 lg (IZR df) d y ltac:(lra) P) as [L2 P2].
  destruct (ln_student2 lg (IZR df) a b d x y ltac:(lra) D) as [L3 P3]. apply ln_inv; [exact P3| |].
  - apply Rmult_lt_0_compat; [apply exp_pos|]. now apply Rmult_lt_0_compat.
  - rewrite ln_mult by (try apply exp_pos; now apply Rmult_lt_0_compat). rewrite (ln_mult (student1 _ _ _ _)) by assumption.
    rewrite ln_exp, L1, L2, L3. lra.
Qed.
Lemma student_correlation lg df c x y : (1 <= df)%Z -> -1 < c < 1 ->
  student_logpdfratio lg x y df [[1; c]; [c; 1]] = Ok (student_pmi lg (IZR df) c x y).
Proof.
  intros B C. assert (D := one_minus c C). rewrite student_value by (try lra; exact B). apply f_equal. unfold student_pmi, distance2. rewrite ln_1.
  replace (1 * 1 - c ^ 2) with (1 - c ^ 2) by ring. replace (1 * x ^ 2 - 2 * c * x * y + 1 * y ^ 2) with (x ^ 2 - 2 * c * x * y + y ^ 2) by ring.
  replace (x ^ 2 / 1) with (x ^ 2) by field. replace (y ^ 2 / 1) with (y ^ 2) by field. lra.
Qed.
Lemma ratio_rejected lg df a b c d x y : a <= 0 \/ a * d - b ^ 2 <= 0 ->
  gaussian_logpdfratio x y [[a; c]; [b; d]] = Err ValueError /\ student_logpdfratio lg x y df [[a; c]; [b; d]] = Err ValueError.
Proof.
  intros H. assert (E : read_shape [[a; c]; [b; d]] = Err ValueError).
  { unfold read_shape. replace (a * d - b * b) with (a * d - b ^ 2) by ring. destruct H as [H|H].
    - now rewrite (proj2 (Rltb_false _ _) H).
    - rewrite (proj2 (Rltb_false _ _) H). now rewrite Bool.andb_false_r. }
  unfold gaussian_logpdfratio, student_logpdfratio. now rewrite E.
Qed.

(** The densities themselves. *)
Lemma densities a b d x y : 0 < a -> 0 < a * d - b ^ 2 ->
  normal_pdf 1 a (maha1 a x) = normal1 a x /\ normal_pdf 2 (a * d - b ^ 2) (maha2 a b d x y) = normal2 a b d x y /\
  forall lg df, (1 <= df)%Z -> student_pdf lg df 1 a (maha1 a x) = student1 lg (IZR df) a x /\
    student_pdf lg df 2 (a * d - b ^ 2) (maha2 a b d x y) = student2 lg (IZR df) a b d x y.
Proof.
  intros A D. split; [|split].
  - apply ln_inv; [apply exp_pos|now apply normal1_pos|]. rewrite ln_normal1 by exact A. unfold normal_pdf, maha1. rewrite ln_exp. cbn [INR]. field. lra.
  - apply ln_inv; [apply exp_pos|now apply normal2_pos|]. rewrite ln_normal2 by exact D. unfold normal_pdf. rewrite ln_exp, maha2_distance. cbn [INR]. lra.
  - intros lg df B. assert (N : 1 <= IZR df) by (apply IZR_le in B; exact B). assert (Q := PI_RGT_0). set (nu := IZR df) in *.
    destruct (ln_student1 lg nu a x ltac:(lra) A) as [L1 P1]. destruct (ln_student2 lg nu a b d x y ltac:(lra) D) as [L2 P2].
    split; (apply ln_inv; [apply exp_pos|assumption|]); rewrite ?L1, ?L2; unfold student_pdf; fold nu; rewrite ln_exp, ?maha2_distance; unfold maha1; cbn [INR];
      replace (1 / 2 * nu) with (nu / 2) by lra.
    + replace (1 / 2 * (nu + 1)) with ((nu + 1) / 2) by lra. replace (1 / nu * (x * x / a)) with (x ^ 2 / a / nu) by (field; lra). lra.
    + replace (1 / 2 * (nu + (1 + 1))) with ((nu + 2) / 2) by lra. replace (1 / nu * distance2 a b d x y) with (distance2 a b d x y / nu) by (field; lra). lra.
Qed.

(** ** Tails *)
Lemma normal_tails c : 0 < c < 1 -> forall m, exists r, forall t, r < t -> normal_pmi c t (- t) < m.
Proof.
  intros C m. assert (D := one_minus c ltac:(lra)). set (k := - (1 / 2) * ln (1 - c ^ 2)). set (q := (c ^ 2 + c) / (1 - c ^ 2)).
  assert (Q : 0 < q). { apply Rdiv_lt_0_compat; [|lra]. assert (0 <= c ^ 2) by apply pow2_ge_0. lra. }
  exists (1 + Rabs (k - m) / q). intros t T. assert (A := Rabs_pos (k - m)). assert (A' := Rle_abs (k - m)).
  assert (B : 0 <= Rabs (k - m) / q) by (apply Rmult_le_pos; [exact A|]; left; now apply Rinv_0_lt_compat).
  assert (E : normal_pmi c t (- t) = k - q * t ^ 2) by (unfold normal_pmi, k, q; field; lra). rewrite E.
  assert (G : Rabs (k - m) < q * t). { apply Rmult_lt_reg_r with (/ q); [now apply Rinv_0_lt_compat|]. replace (q * t * / q) with t by (field; lra). unfold Rdiv in T. lra. }
  assert (G2 : q * t <= q * t ^ 2) by (apply Rmult_le_compat_l; [lra|]; nra). lra.
Qed.
Lemma student_tails lg nu c s : 0 < nu -> -1 < c < 1 -> s = 1 \/ s = -1 -> forall m, exists r, forall t, r < t -> m < student_pmi lg nu c t (s * t).
Proof.
  intros N C S m. assert (D := one_minus c C).
  set (k := lg ((nu + 2) / 2) + lg (nu / 2) - 2 * lg ((nu + 1) / 2) - 1 / 2 * ln (1 - c ^ 2)).
  set (a := 2 * (1 - s * c) / (1 - c ^ 2)).
  assert (SC : 0 < 1 - s * c) by (destruct S; subst s; lra). assert (S2 : s ^ 2 = 1) by (destruct S; subst s; ring).
  assert (A1 : 1 <= a). { unfold a. apply Rmult_le_reg_r with (1 - c ^ 2); [exact D|]. unfold Rdiv. rewrite Rmult_assoc, Rinv_l by lra. assert (0 <= (1 - s * c) ^ 2) by apply pow2_ge_0.
    replace (c ^ 2) with ((s * c) ^ 2) by (replace ((s * c) ^ 2) with (s ^ 2 * c ^ 2) by ring; rewrite S2; ring). nra. }
  set (z := exp (2 / nu * Rabs (m - k + (nu + 2) / 2 * ln a))). assert (Z : 0 < z) by apply exp_pos.
  exists (1 + nu * z). intros t T. assert (NZ : 0 < nu * z) by now apply Rmult_lt_0_compat.
  set (u := t ^ 2 / nu).
  assert (U : z < u). { unfold u. apply Rmult_lt_reg_r with nu; [exact N|]. unfold Rdiv. rewrite Rmult_assoc, Rinv_l by lra. rewrite Rmult_1_r. nra. }
  assert (E : student_pmi lg nu c t (s * t) = k - (nu + 2) / 2 * ln (1 + a * u) + (nu + 1) * ln (1 + u)).
  { unfold student_pmi. fold k. replace ((s * t) ^ 2) with (t ^ 2) by (replace ((s * t) ^ 2) with (s ^ 2 * t ^ 2) by ring; rewrite S2; ring).
    replace ((t ^ 2 - 2 * c * t * (s * t) + t ^ 2) / (1 - c ^ 2) / nu) with (a * u) by (unfold a, u; field; lra). fold u. lra. }
  rewrite E. assert (L : ln (1 + a * u) <= ln a + ln (1 + u)).
  { rewrite <- ln_mult by lra. assert (1 + a * u <= a * (1 + u)) by lra. assert (0 < 1 + a * u) by nra. destruct H as [H|H]; [left; now apply ln_increasing|rewrite H; lra]. }
  assert (L2 : 2 / nu * Rabs (m - k + (nu + 2) / 2 * ln a) < ln (1 + u)).
  { rewrite <- (ln_exp (2 / nu * _)). fold z. apply ln_increasing; lra. }
  assert (L3 : Rabs (m - k + (nu + 2) / 2 * ln a) < nu / 2 * ln (1 + u)).
  { apply Rmult_lt_reg_l with (2 / nu); [apply Rdiv_lt_0_compat; lra|]. replace (2 / nu * (nu / 2 * ln (1 + u))) with (ln (1 + u)) by (field; lra). exact L2. }
  assert (X := Rle_abs (m - k + (nu + 2) / 2 * ln a)).
  assert (L4 : (nu + 2) / 2 * ln (1 + a * u) <= (nu + 2) / 2 * (ln a + ln (1 + u))) by (apply Rmult_le_compat_l; lra). lra.
Qed.

(** ** Arrays *)
Lemma vectorize_grid (f : R -> R -> result R) g xs ys : (forall x y, f x y = Ok (g x y)) ->
  vectorize f (map (fun _ => xs) ys) (map (fun v => map (fun _ => v) xs) ys) = Ok (map (fun y => map (fun x => g x y) xs) ys).
Proof.
  intros G. unfold vectorize.
  replace (combine (map (fun _ => xs) ys) (map (fun v => map (fun _ => v) xs) ys)) with (map (fun y => (xs, map (fun _ : R => y) xs)) ys)
    by (clear; induction ys; cbn; congruence).
  rewrite (map_results_all _ (fun r => map (fun v => g (fst v) (snd v)) (combine (fst r) (snd r)))).
  - apply f_equal. rewrite map_map. apply map_ext. intros y. cbn [fst snd]. clear. induction xs; cbn; congruence.
  - intros r _. apply map_results_all. intros v _. apply G.
Qed.
Definition axis : list R := map (fun i => -5 + INR i / 7) (seq 0 71).
Lemma linspace_axis : linspace (- RADIUS) RADIUS 71 = Ok axis.
Proof.
  unfold linspace, RADIUS, axis. change (71 <? 0)%Z with false. change (Z.to_nat 71) with 71%nat. change (71 - 1)%Z with 70%Z. apply f_equal. apply map_ext. intros i. lra.
Qed.
Lemma axis_nth {B} (f : R -> B) i e : (i < 71)%nat -> nth i (map f axis) e = f (-5 + INR i / 7).
Proof.
  intros H. unfold axis. rewrite map_map. rewrite (nth_indep _ e (f (-5 + INR 0 / 7))) by (rewrite map_length, seq_length; exact H).
  rewrite (map_nth (fun i => f (-5 + INR i / 7))). now rewrite seq_nth.
Qed.
Lemma axis_pixel i : (i < 71)%nat -> pixel (- RADIUS) RADIUS 71 i (-5 + INR i / 7).
Proof.
  intros H. unfold pixel, RADIUS. rewrite (S_INR i). replace (INR 71) with 71 by (rewrite INR_IZR_INZ; reflexivity).
  assert (P := pos_INR i). assert (Q : INR i <= 70) by (replace 70 with (INR 70) by (rewrite INR_IZR_INZ; reflexivity); apply le_INR; lia). split; lra.
Qed.
Lemma grid_depicts g : depicts (map (fun y => map (fun x => g x y) axis) axis) (- RADIUS, RADIUS, (RADIUS, - RADIUS)) g.
Proof.
  split; [unfold axis; now rewrite !map_length, seq_length|]. split.
  - apply Forall_forall. intros row I. apply in_map_iff in I as [y [<- _]]. unfold axis. now rewrite !map_length, seq_length.
  - intros i j Hi Hj x y. split.
    + rewrite (axis_nth (fun y => map (fun x => g x y) axis) i [] Hi). now rewrite (axis_nth (fun x => g x _) j 0 Hj).
    + cbn [fst snd]. split; now apply axis_pixel.
Qed.

Lemma metadata_pure {J} (t : task J) h h2 m : metadata t h = (h2, Ok m) -> dread h2 (md_params m) <> [] -> h2 = h.
Proof.
  unfold metadata, pbind, lift, pret. destruct (dim_x (t_sampler t)); [|discriminate]. destruct (dim_y (t_sampler t)); [|discriminate].
  destruct (mutual_information (t_sampler t)) as [v|]; [|discriminate]. unfold or_dict, dalloc. destruct (t_params t) as [r|].
  - destruct (dread h r) eqn:E; destruct (non_negative_float v); intros X; inversion X; subst; cbn [md_params]; try easy.
    unfold dread at 1. rewrite app_nth2, Nat.sub_diag by lia. easy.
  - destruct (non_negative_float v); intros X; inversion X; subst; cbn [md_params].
    unfold dread at 1. rewrite app_nth2, Nat.sub_diag by lia. easy.
Qed.

Section Figure.
  Context {J : prng}.
  Variables (F : formats) (eigvals : matrix -> list (R * R)) (psi log_gamma : R -> R)
    (mvn : key J -> list R -> matrix -> nat -> matrix) (mvt : Z -> list R -> matrix -> fl -> nat -> matrix)
    (infonce : matrix -> matrix -> result (fl * (list R -> list R -> R))).
  Hypothesis eig : eigvals_positive eigvals.
  Hypothesis rows_mvt : forall r mu D df k, length (mvt r mu D df k) = k.
  Hypothesis trains : forall x y, exists ec, infonce x y = Ok ec.

  Definition arrays_of (rows : matrix) (name : string) (pmi : R -> R -> R) (a : arrays) : Prop :=
    a_name a = name /\ (a_x a, a_y a) = cut 1 (firstn 1000 rows) /\ a_true a = map (fun y => map (fun x => pmi x y) axis) axis /\
    exists e critic, infonce (map (firstn 1) rows) (map (skipn 1) rows) = Ok (e, critic) /\
      a_critic a = map (fun y => map (fun x => critic [x] [y]) axis) axis.
  Lemma data_arrays name (t : task J) f g h m rows : metadata t h = (h, Ok m) -> task_sample t 10000 42 = Ok (cut 1 rows) ->
    (forall x y, f x y = Ok (g x y)) -> exists a, get_data infonce name t f RADIUS h = (h, Ok a) /\ arrays_of rows name g a.
  Proof.
    intros M S G. unfold get_data, pbind, lift, pret. rewrite S. unfold cut. cbn [fst snd].
    destruct (trains (map (firstn 1) rows) (map (skipn 1) rows)) as [[e critic] T]. rewrite T. unfold task_mi, pbind, pret. rewrite M, linspace_axis.
    unfold meshgrid. rewrite (vectorize_grid _ (fun x y => critic [x] [y])) by reflexivity. rewrite (vectorize_grid _ g) by exact G.
    eexists. split; [reflexivity|]. unfold arrays_of. cbn [a_name a_x a_y a_true a_critic snd]. repeat split.
    - unfold cut. now rewrite !firstn_map.
    - exists e, critic. split; [exact T|reflexivity].
  Qed.
  Lemma half_matrix : py_matrix (listed 2 (constant_off (5 / 10))) = Ok [[1; 5 / 10]; [5 / 10; 1]].
  Proof. reflexivity. Qed.
  Lemma gauss_ok h : exists h' a C, gauss_arrays F eigvals mvn infonce h = (h', Ok a) /\ has_entries 2 C (constant_off (5 / 10)) /\
    arrays_of (mvn (cast_to_rng J (SeedInt 42)) [0; 0] C 10000) "Bivariate normal" (normal_pmi (5 / 10)) a.
  Proof.
    destruct (dense_build (J := J) F eigvals mvn eig 1 1 (5 / 10) None h ltac:(lia) ltac:(lia) ltac:(lra) ltac:(cbn; lra)) as [h' [t [h2 [m [P [_ [M [_ [_ [_ [_ [_ [D [_ [_ [_ B]]]]]]]]]]]]]]]].
    assert (E : h2 = h') by (apply (metadata_pure _ _ _ _ M); rewrite D; discriminate). subst h2.
    destruct B as [C [HC S]]. unfold gauss_arrays, pbind at 1. rewrite P. unfold task_params, read_dict, pbind, lift, pret. rewrite M, D.
    change (lookup [("off_diag", PFloat (Fin (5 / 10))); ("covariance", listed (Z.to_nat 1 + Z.to_nat 1) (constant_off (5 / 10)))]%string "covariance") with (Ok (listed 2 (constant_off (5 / 10)))).
    cbn [bind]. rewrite half_matrix.
    destruct (data_arrays "Bivariate normal" t (fun x y => gaussian_logpdfratio x y [[1; 5 / 10]; [5 / 10; 1]]) (normal_pmi (5 / 10)) h' m
      (mvn (cast_to_rng J (SeedInt 42)) [0; 0] C 10000) M (S _ _)) as [a [Ha Hb]].
    { intros x y. apply gaussian_correlation. lra. }
    exists h', a, C. auto.
  Qed.
  Lemma student_ok df h : (1 <= df)%Z -> 0 <= dense_mi 1 1 (5 / 10) + student_correction psi log_gamma (IZR df) 1 1 ->
    exists h' a C, student_arrays (J := J) F eigvals psi log_gamma mvt infonce df h = (h', Ok a) /\ has_entries 2 C (constant_off (5 / 10)) /\
    arrays_of (mvt 42%Z [0; 0] C (Fin (IZR df)) 10000) ("Bivariate Student, $\nu=" ++ int_str df ++ "$") (student_pmi log_gamma (IZR df) (5 / 10)) a.
  Proof.
    intros Hdf Hmi.
    destruct (student_dense_build (J := J) F eigvals psi log_gamma mvt eig rows_mvt 1 1 df (5 / 10) None h ltac:(lia) ltac:(lia) Hdf ltac:(lra) ltac:(cbn; lra) Hmi) as [h' [t [h2 [m [P [_ [M [_ [_ [_ [_ [_ [D [_ [_ [_ B]]]]]]]]]]]]]]]].
    assert (E : h2 = h') by (apply (metadata_pure _ _ _ _ M); rewrite D; discriminate). subst h2.
    destruct B as [C [HC S]]. unfold student_arrays, pbind at 1. rewrite P. unfold task_params, read_dict, pbind, lift, pret. rewrite M, D.
    set (l := [("dof", PInt df); ("off_diag", PFloat (Fin (5 / 10))); ("dispersion", listed (Z.to_nat 1 + Z.to_nat 1) (constant_off (5 / 10)))]%string).
    change (lookup l "dispersion") with (Ok (listed 2 (constant_off (5 / 10)))). change (lookup l "dof") with (Ok (PInt df)).
    cbn [bind py_int]. rewrite half_matrix.
    destruct (data_arrays ("Bivariate Student, $\nu=" ++ int_str df ++ "$") t (fun x y => student_logpdfratio log_gamma x y df [[1; 5 / 10]; [5 / 10; 1]]) (student_pmi log_gamma (IZR df) (5 / 10)) h' m
      (mvt 42%Z [0; 0] C (Fin (IZR df)) 10000) M) as [a [Ha Hb]].
    { apply S. intros X. apply (f_equal Nat.even) in X. vm_compute in X. discriminate. }
    { intros x y. apply student_correlation; [exact Hdf|lra]. }
    exists h', a, C. auto.
  Qed.
  Lemma students_ok dfs h : Forall (fun df => (1 <= df)%Z /\ 0 <= dense_mi 1 1 (5 / 10) + student_correction psi log_gamma (IZR df) 1 1) dfs ->
    forall last : prog arrays, (forall h, exists h' a, last h = (h', Ok a) /\ (exists C, has_entries 2 C (constant_off (5 / 10)) /\
       arrays_of (mvn (cast_to_rng J (SeedInt 42)) [0; 0] C 10000) "Bivariate normal" (normal_pmi (5 / 10)) a)) ->
    exists h' students g, sequence (map (student_arrays (J := J) F eigvals psi log_gamma mvt infonce) dfs ++ [last]) h = (h', Ok (students ++ [g])) /\
    Forall2 (fun df a => exists C, has_entries 2 C (constant_off (5 / 10)) /\
      arrays_of (mvt 42%Z [0; 0] C (Fin (IZR df)) 10000) ("Bivariate Student, $\nu=" ++ int_str df ++ "$") (student_pmi log_gamma (IZR df) (5 / 10)) a) dfs students /\
    (exists C, has_entries 2 C (constant_off (5 / 10)) /\
       arrays_of (mvn (cast_to_rng J (SeedInt 42)) [0; 0] C 10000) "Bivariate normal" (normal_pmi (5 / 10)) g).
  Proof.
    intros H last L. revert h. induction H as [|df dfs [H1 H2] _ IH]; intros h.
    - destruct (L h) as [h' [a [E A]]]. exists h', [], a. cbn [map app sequence]. unfold pbind, pret. rewrite E. split; [reflexivity|]. split; [constructor|exact A].
    - destruct (student_ok df h H1 H2) as [h1 [a [C [E A]]]]. destruct (IH h1) as [h' [s [g [E2 [A2 A3]]]]].
      exists h', (a :: s), g. cbn [map app sequence]. unfold pbind, pret. rewrite E, E2. split; [reflexivity|]. split; [|exact A3]. constructor; [|exact A2]. now exists C.
  Qed.
  Lemma plotted i a rows name title pmi : (i < 6)%nat -> arrays_of rows name pmi a -> capitalize (strip_chars "Bivariate " name) = title ->
    exists c, plot_column i a = Ok c /\ column_of infonce rows title pmi c.
  Proof.
    intros Hi [A1 [A2 [A3 [e [critic [A4 A5]]]]]] T. unfold plot_column. rewrite (proj2 (Nat.leb_gt _ _) Hi). eexists. split; [reflexivity|].
    unfold column_of. cbn [c_title c_points c_true c_critic c_extent]. rewrite A1. split; [exact T|]. split; [exact A2|].
    split; [rewrite A3; apply grid_depicts|]. exists e, critic. split; [exact A4|]. rewrite A5. apply grid_depicts.
  Qed.
  Theorem pointwise_figure h : Forall (fun df => 0 <= dense_mi 1 1 (5 / 10) + student_correction psi log_gamma (IZR df) 1 1) [1; 2; 3; 5; 10]%Z ->
    exists h' students gauss, pmi_figure F eigvals psi log_gamma mvn mvt infonce h = (h', Ok (students ++ [gauss])) /\
    Forall2 (fun df c => exists C, has_entries 2 C (constant_off (5 / 10)) /\
       column_of infonce (mvt 42%Z [0; 0] C (Fin (IZR df)) 10000) ("Student, $\nu=" ++ int_str df ++ "$") (student_pmi log_gamma (IZR df) (5 / 10)) c)
      [1; 2; 3; 5; 10]%Z students /\
    exists C, has_entries 2 C (constant_off (5 / 10)) /\
       column_of infonce (mvn (cast_to_rng J (SeedInt 42)) [0; 0] C 10000) "Normal" (normal_pmi (5 / 10)) gauss.
  Proof.
    intros H. destruct (students_ok [1; 2; 3; 5; 10]%Z h) with (last := gauss_arrays F eigvals mvn infonce) as [h' [s [g [E [S G]]]]].
    { rewrite Forall_forall in *. intros df I. split; [|now apply H]. cbn in I. lia. }
    { intros h0. destruct (gauss_ok h0) as [h1 [a [C [E A]]]]. exists h1, a. split; [exact E|now exists C]. }
    inversion S as [|? a1 ? ? [C1 [K1 A1]] S1]; subst. inversion S1 as [|? a2 ? ? [C2 [K2 A2]] S2]; subst. inversion S2 as [|? a3 ? ? [C3 [K3 A3]] S3]; subst.
    inversion S3 as [|? a4 ? ? [C4 [K4 A4]] S4]; subst. inversion S4 as [|? a5 ? ? [C5 [K5 A5]] S5]; subst. inversion S5; subst.
    destruct G as [C6 [K6 A6]]. clear S S1 S2 S3 S4 S5.
    destruct (plotted 0 _ _ _ ("Student, $\nu=" ++ int_str 1 ++ "$") _ ltac:(lia) A1 ltac:(vm_compute; reflexivity)) as [c1 [P1 Q1]].
    destruct (plotted 1 _ _ _ ("Student, $\nu=" ++ int_str 2 ++ "$") _ ltac:(lia) A2 ltac:(vm_compute; reflexivity)) as [c2 [P2 Q2]].
    destruct (plotted 2 _ _ _ ("Student, $\nu=" ++ int_str 3 ++ "$") _ ltac:(lia) A3 ltac:(vm_compute; reflexivity)) as [c3 [P3 Q3]].
    destruct (plotted 3 _ _ _ ("Student, $\nu=" ++ int_str 5 ++ "$") _ ltac:(lia) A4 ltac:(vm_compute; reflexivity)) as [c4 [P4 Q4]].
    destruct (plotted 4 _ _ _ ("Student, $\nu=" ++ int_str 10 ++ "$") _ ltac:(lia) A5 ltac:(vm_compute; reflexivity)) as [c5 [P5 Q5]].
    destruct (plotted 5 _ _ _ "Normal" _ ltac:(lia) A6 ltac:(vm_compute; reflexivity)) as [c6 [P6 Q6]].
    exists h', [c1; c2; c3; c4; c5], c6. split; [|split; [|now exists C6]].
    - unfold pmi_figure, pbind, lift. rewrite E. cbn [app length seq combine map_results fst snd]. rewrite P1, P2, P3, P4, P5, P6. reflexivity.
    - constructor; [now exists C1|]. constructor; [now exists C2|]. constructor; [now exists C3|]. constructor; [now exists C4|]. constructor; [now exists C5|]. constructor.
  Qed.
End Figure.

(** ** Titles *)
Lemma text_app a b : list_ascii_of_string (a ++ b)%string = list_ascii_of_string a ++ list_ascii_of_string b.
Proof. induction a as [|c a IH]; [reflexivity|]. cbn. now rewrite IH. Qed.
Lemma among_in chars c : among chars c = true <-> In c (list_ascii_of_string chars).
Proof.
  unfold among. rewrite existsb_exists. split.
  - intros [x [I E]]. apply Ascii.eqb_eq in E. now subst.
  - intros I. exists c. split; [exact I|apply Ascii.eqb_refl].
Qed.
Lemma among_out chars c : among chars c = false <-> ~ In c (list_ascii_of_string chars).
Proof. rewrite <- among_in. destruct (among chars c); split; congruence. Qed.
Lemma lstrip_ok chars s : exists pre, list_ascii_of_string s = pre ++ list_ascii_of_string (lstrip_chars chars s) /\
  Forall (fun c => In c (list_ascii_of_string chars)) pre /\
  forall c l, list_ascii_of_string (lstrip_chars chars s) = c :: l -> ~ In c (list_ascii_of_string chars).
Proof.
  induction s as [|c s [pre [E [P O]]]]; cbn [lstrip_chars].
  - exists []. repeat split; [constructor|]. discriminate.
  - destruct (among chars c) eqn:A.
    + exists (c :: pre). cbn. split; [now rewrite E|]. split; [constructor; [now apply among_in|exact P]|exact O].
    + exists []. repeat split; [constructor|]. intros c' l X. cbn in X. injection X as <- _. now apply among_out.
Qed.
Lemma rstrip_ok chars s : exists post, list_ascii_of_string s = list_ascii_of_string (rstrip_chars chars s) ++ post /\
  Forall (fun c => In c (list_ascii_of_string chars)) post /\
  forall c l, list_ascii_of_string (rstrip_chars chars s) = l ++ [c] -> ~ In c (list_ascii_of_string chars).
Proof.
  induction s as [|c s [post [E [P O]]]]; cbn [rstrip_chars].
  - exists []. repeat split; [constructor|]. intros c [|d l] X; discriminate.
  - destruct (rstrip_chars chars s) as [|c' t] eqn:T.
    + destruct (among chars c) eqn:A.
      * exists (c :: post). cbn in E |- *. split; [now rewrite E|]. split; [constructor; [now apply among_in|exact P]|]. intros d [|d' l] X; discriminate.
      * exists post. cbn in E |- *. split; [now rewrite E|]. split; [exact P|]. intros d [|d' [|d'' l]] X; try discriminate. injection X as <-. now apply among_out.
    + exists post. cbn in E, O |- *. split; [now rewrite E|]. split; [exact P|]. intros d [|d' l] X; [discriminate|]. injection X as _ X. now apply (O d l).
Qed.
Lemma strip_ok chars s : exists pre post, list_ascii_of_string s = pre ++ list_ascii_of_string (strip_chars chars s) ++ post /\
  Forall (fun c => In c (list_ascii_of_string chars)) (pre ++ post) /\
  (forall c l, list_ascii_of_string (strip_chars chars s) = c :: l -> ~ In c (list_ascii_of_string chars)) /\
  (forall c l, list_ascii_of_string (strip_chars chars s) = l ++ [c] -> ~ In c (list_ascii_of_string chars)).
Proof.
  destruct (lstrip_ok chars s) as [pre [E [P O]]]. destruct (rstrip_ok chars (lstrip_chars chars s)) as [post [E' [P' O']]].
  exists pre, post. unfold strip_chars. split; [now rewrite E, E'|]. split; [now apply Forall_app|]. split; [|exact O'].
  intros c l X. rewrite X in E'. cbn in E'. exact (O c _ E').
Qed.
Lemma cases_ok : map lower_char (list_ascii_of_string capitals) = list_ascii_of_string smalls /\ map upper_char (list_ascii_of_string smalls) = list_ascii_of_string capitals /\
  (forall c, ~ In c (list_ascii_of_string capitals) -> lower_char c = c) /\ (forall c, ~ In c (list_ascii_of_string smalls) -> upper_char c = c).
Proof.
  split; [reflexivity|]. split; [reflexivity|].
  split; intros c H; rewrite <- among_out in H; revert H; destruct c as [[|] [|] [|] [|] [|] [|] [|] [|]]; vm_compute; congruence.
Qed.
Lemma capitalize_ok c s : list_ascii_of_string (capitalize (String c s)) = upper_char c :: map lower_char (list_ascii_of_string s).
Proof. cbn. f_equal. induction s as [|d s IH]; [reflexivity|]. cbn. now rewrite IH. Qed.

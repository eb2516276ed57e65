(** Proofs about the coordinate-wise transforms and the Swiss roll. *)
From Coq Require Import Lia Lra Psatz.
From Coquelicot Require Import Coquelicot.
From Verif Require Import Base BaseLemmas UtilsModel JaxModel SamplersModel GaussianModel MatrixUtilsModel TransformsModel TransformsSpec InvertProofs.
Open Scope R_scope.
Local Notation length := List.length.

(** ** Increasing functions *)

Lemma derivable_continuity (f f' : R -> R) : (forall x, is_derive f x (f' x)) -> continuity f.
Proof. intros Hd x. apply continuity_pt_filterlim. apply (ex_derive_continuous f). eexists. apply Hd. Qed.

Lemma increasing_of_derivative (f f' : R -> R) : (forall x, is_derive f x (f' x)) -> (forall x, 0 < f' x) -> strictly_increasing f.
Proof.
  intros Hd Hp u v Huv. destruct (MVT_gen f u v f') as (c & Hc & E).
  - intros; apply Hd.
  - intros x _. apply (derivable_continuity f f' Hd).
  - assert (H := Hp c). nra.
Qed.

Lemma onto_of_near (f : R -> R) c : continuity f -> (forall x, Rabs (f x - x) <= c) -> onto f.
Proof.
  intros Hc Hn v.
  assert (L := Hn (v - c)). assert (U := Hn (v + c)). apply Rabs_le_between in L, U.
  assert (c0 : 0 <= c) by (eapply Rle_trans; [apply Rabs_pos|apply (Hn 0)]).
  destruct (IVT_gen f (v - c) (v + c) v Hc) as (x & _ & E).
  - unfold Rmin, Rmax. destruct (Rle_dec _ _); lra.
  - exists x. exact E.
Qed.

Lemma odd_increasing (f : R -> R) : odd_function f -> (forall u v, 0 <= u -> u < v -> f u < f v) -> strictly_increasing f.
Proof.
  intros Ho Hf u v Huv. assert (H0 : f 0 = 0) by (assert (E := Ho 0); rewrite Ropp_0 in E; lra).
  destruct (Rle_lt_dec 0 u) as [Hu|Hu]; [auto|].
  assert (Eu : f u = - f (- u)) by (rewrite <- Ho, Ropp_involutive; reflexivity).
  destruct (Rle_lt_dec 0 v) as [Hv|Hv].
  - assert (f 0 < f (- u)) by (apply Hf; lra). assert (f 0 <= f v); [|lra].
    destruct Hv as [Hv|<-]; [left; apply Hf; lra|lra].
  - assert (Ev : f v = - f (- v)) by (rewrite <- Ho, Ropp_involutive; reflexivity).
    assert (f (- v) < f (- u)) by (apply Hf; lra). lra.
Qed.

Lemma odd_onto (f : R -> R) : odd_function f -> (forall v, 0 < v -> exists u, f u = v) -> onto f.
Proof.
  intros Ho Hf v. destruct (Rtotal_order v 0) as [Hv|[->|Hv]].
  - destruct (Hf (- v)) as [u Hu]; [lra|]. exists (- u). rewrite Ho. lra.
  - exists 0. assert (E := Ho 0). rewrite Ropp_0 in E. lra.
  - auto.
Qed.

Lemma increasing_injective f : strictly_increasing f -> forall u v, f u = f v -> u = v.
Proof. intros Hf u v E. destruct (Rtotal_order u v) as [H|[H|H]]; auto; apply Hf in H; lra. Qed.

(** ** half_cube *)

Lemma half_cube_odd : odd_function half_cube.
Proof. intros u. unfold half_cube. rewrite Rabs_Ropp. ring. Qed.

Lemma half_cube_square w : 0 <= w -> half_cube (w * w) = w ^ 3.
Proof. intros Hw. unfold half_cube. rewrite Rabs_pos_eq by nra. rewrite sqrt_square by lra. ring. Qed.

Lemma half_cube_increasing : strictly_increasing half_cube.
Proof.
  apply odd_increasing; [apply half_cube_odd|]. intros u v Hu Huv. unfold half_cube. rewrite !Rabs_pos_eq by lra.
  assert (sqrt u < sqrt v) by (apply sqrt_lt_1; lra). assert (0 <= sqrt u) by apply sqrt_pos. nra.
Qed.

Lemma cube_root v : 0 < v -> exists w, 0 < w /\ w ^ 3 = v.
Proof.
  intros Hv. exists (Rpower v (/ 3)). split; [apply exp_pos|]. rewrite <- Rpower_pow by apply exp_pos. rewrite Rpower_mult.
  replace (/ 3 * INR 3) with 1 by (cbn; field). apply Rpower_1, Hv.
Qed.

Lemma half_cube_onto : onto half_cube.
Proof.
  apply odd_onto; [apply half_cube_odd|]. intros v Hv. destruct (cube_root v Hv) as (w & Hw & E).
  exists (w * w). rewrite half_cube_square by lra. exact E.
Qed.

(** ** The wiggly maps *)

Definition wiggly_x' (x : R) : R :=
  1 + 4 / 10 * cos (1 * x) + 34 / 100 * cos (17 / 10 * x + 1) + 99 / 1000 * cos (33 / 10 * x - 25 / 10).
Definition wiggly_y' (x : R) : R :=
  1 - 16 / 100 * cos (4 / 10 * x) + 221 / 1000 * cos (13 / 10 * x + 35 / 10) + 86 / 1000 * cos (43 / 10 * x - 25 / 10).

Lemma wiggly_x_derive x : is_derive wiggly_x x (wiggly_x' x).
Proof. unfold wiggly_x, wiggly_x'. auto_derive; [auto|]. unfold Rminus. field. Qed.
Lemma wiggly_y_derive x : is_derive wiggly_y x (wiggly_y' x).
Proof. unfold wiggly_y, wiggly_y'. auto_derive; [auto|]. unfold Rminus. field. Qed.

Lemma wiggly_x_slope x : 16 / 100 <= wiggly_x' x <= 2.
Proof.
  unfold wiggly_x'. assert (A := COS_bound (1 * x)). assert (B := COS_bound (17 / 10 * x + 1)). assert (C := COS_bound (33 / 10 * x - 25 / 10)). lra.
Qed.
Lemma wiggly_y_slope x : 53 / 100 <= wiggly_y' x <= 2.
Proof.
  unfold wiggly_y'. assert (A := COS_bound (4 / 10 * x)). assert (B := COS_bound (13 / 10 * x + 35 / 10)). assert (C := COS_bound (43 / 10 * x - 25 / 10)). lra.
Qed.

Lemma wiggly_x_increasing : strictly_increasing wiggly_x.
Proof. apply (increasing_of_derivative _ wiggly_x' wiggly_x_derive). intros x. assert (H := wiggly_x_slope x). lra. Qed.
Lemma wiggly_y_increasing : strictly_increasing wiggly_y.
Proof. apply (increasing_of_derivative _ wiggly_y' wiggly_y_derive). intros x. assert (H := wiggly_y_slope x). lra. Qed.

Lemma wiggly_x_near x : Rabs (wiggly_x x - x) <= 63 / 100.
Proof.
  unfold wiggly_x. assert (A := SIN_bound (1 * x)). assert (B := SIN_bound (17 / 10 * x + 1)). assert (C := SIN_bound (33 / 10 * x - 25 / 10)).
  apply Rabs_le. lra.
Qed.
Lemma wiggly_y_near x : Rabs (wiggly_y x - x) <= 59 / 100.
Proof.
  unfold wiggly_y. assert (A := SIN_bound (4 / 10 * x)). assert (B := SIN_bound (13 / 10 * x + 35 / 10)). assert (C := SIN_bound (43 / 10 * x - 25 / 10)).
  apply Rabs_le. lra.
Qed.
Lemma wiggly_x_onto : onto wiggly_x.
Proof. apply (onto_of_near _ (63 / 100)); [apply (derivable_continuity _ _ wiggly_x_derive)|apply wiggly_x_near]. Qed.
Lemma wiggly_y_onto : onto wiggly_y.
Proof. apply (onto_of_near _ (59 / 100)); [apply (derivable_continuity _ _ wiggly_y_derive)|apply wiggly_y_near]. Qed.

(** ** arcsinh *)

Lemma arcsinh_spec : strictly_increasing np_arcsinh /\ onto np_arcsinh /\ forall x, sinh (np_arcsinh x) = x.
Proof.
  split; [intros u v; apply arcsinh_lt|]. split; [intros v; exists (sinh v); apply arcsinh_sinh|].
  intros x. apply sinh_arcsinh.
Qed.

(** ** Powers *)

Definition real_power (alpha x : R) : R :=
  if Rlt_dec 0 x then Rpower x alpha else if Rlt_dec x 0 then - Rpower (- x) alpha else 0.

Lemma signed_power_finite alpha x : 0 < alpha -> signed_power alpha x = Fin (real_power alpha x).
Proof.
  intros Ha. unfold signed_power, real_power, np_sign, np_power, Rltb, Reqb.
  destruct (Rlt_dec 0 x) as [H|H].
  - rewrite Rabs_pos_eq by lra. destruct (Req_EM_T x 0); [lra|]. cbn. f_equal. ring.
  - destruct (Rlt_dec x 0) as [H'|H'].
    + rewrite Rabs_left by lra. destruct (Req_EM_T (- x) 0); [lra|]. cbn. f_equal. ring.
    + assert (x = 0) as -> by lra. rewrite Rabs_R0. destruct (Req_EM_T 0 0); [|lra]. destruct (Rlt_dec 0 alpha); [|lra].
      cbn. f_equal. ring.
Qed.

Lemma real_power_odd alpha : odd_function (real_power alpha).
Proof.
  intros u. unfold real_power. rewrite Ropp_involutive.
  destruct (Rlt_dec 0 (- u)), (Rlt_dec (- u) 0), (Rlt_dec 0 u), (Rlt_dec u 0); try lra; ring.
Qed.

Lemma power_spec alpha : 0 < alpha -> exists g, (forall x, signed_power alpha x = Fin (g x)) /\
  strictly_increasing g /\ odd_function g /\ onto g.
Proof.
  intros Ha. exists (real_power alpha). split; [intros; apply signed_power_finite, Ha|].
  split; [|split; [apply real_power_odd|]].
  - apply odd_increasing; [apply real_power_odd|]. intros u v Hu Huv. unfold real_power.
    destruct (Rlt_dec 0 v); [|lra]. destruct (Rlt_dec 0 u) as [Hu'|Hu'].
    + apply Rlt_Rpower_l; lra.
    + destruct (Rlt_dec u 0); [lra|]. apply exp_pos.
  - apply odd_onto; [apply real_power_odd|]. intros v Hv. exists (Rpower v (/ alpha)). unfold real_power.
    destruct (Rlt_dec 0 (Rpower v (/ alpha))) as [|H]; [|elim H; apply exp_pos].
    rewrite Rpower_mult, Rinv_l by lra. apply Rpower_1, Hv.
Qed.

Lemma power_zero : signed_power 0 1 = signed_power 0 2 /\ 1 <> 2.
Proof.
  split; [|lra]. unfold signed_power, np_sign, np_power, Rltb, Reqb.
  rewrite !Rabs_pos_eq by lra. repeat (match goal with |- context [Rlt_dec ?a ?b] => destruct (Rlt_dec a b); try lra end).
  repeat (match goal with |- context [Req_EM_T ?a ?b] => destruct (Req_EM_T a b); try lra end).
  rewrite !Rpower_O by lra. reflexivity.
Qed.

Lemma power_negative alpha : alpha < 0 -> signed_power alpha 0 = NaN.
Proof.
  intros Ha. unfold signed_power, np_sign, np_power, fl_mul, Rltb, Reqb. rewrite Rabs_R0.
  destruct (Rlt_dec 0 0); [lra|]. destruct (Req_EM_T 0 0); [|lra]. destruct (Rlt_dec 0 alpha); [lra|]. destruct (Req_EM_T alpha 0); [lra|].
  destruct (Rlt_dec 0 0); [lra|]. reflexivity.
Qed.

(** ** The Swiss roll *)

Lemma swissroll_radius u p q : swissroll2d [u] = Ok [p; q] -> (21 * p) ^ 2 + (21 * q) ^ 2 = (15 / 10 * PI * (1 + 2 * u)) ^ 2.
Proof.
  cbn. set (t := 15 / 10 * PI * (1 + 2 * u)). intros [= <- <-].
  transitivity (t * t * ((sin t)² + (cos t)²)); [unfold Rsqr; field|]. rewrite sin2_cos2. ring.
Qed.

Lemma swissroll_injective u v : - / 2 <= u -> - / 2 <= v -> swissroll2d [u] = swissroll2d [v] -> u = v.
Proof.
  intros Hu Hv E. assert (Ev := E). cbn in Ev.
  match type of Ev with _ = Ok [?p; ?q] => assert (Rv := swissroll_radius v p q eq_refl); assert (Ru := swissroll_radius u p q E) end.
  rewrite Ru in Rv. clear E Ev Ru. assert (Hpi := PI_RGT_0).
  assert (K : 15 / 10 * PI * (1 + 2 * u) = 15 / 10 * PI * (1 + 2 * v)).
  { apply Rsqr_inj.
    - apply Rmult_le_pos; lra.
    - apply Rmult_le_pos; lra.
    - unfold Rsqr. lra. }
  apply Rmult_eq_reg_l in K; lra.
Qed.

(** ** The normal distribution function *)

Definition bell (t : R) : R := exp (- (t * t)).
Definition bell_integral (x : R) : R := RInt bell 0 x.

Lemma bell_continuous t : continuous bell t.
Proof. apply (ex_derive_continuous bell). unfold bell. auto_derive. auto. Qed.

Lemma bell_integrable a b : ex_RInt bell a b.
Proof. apply (ex_RInt_continuous (V := R_CompleteNormedModule)). intros; apply bell_continuous. Qed.

Lemma bell_integral_derive x : is_derive bell_integral x (bell x).
Proof.
  apply (is_derive_RInt bell bell_integral 0).
  - apply filter_forall. intros y. apply (RInt_correct (V := R_CompleteNormedModule) bell 0 y), bell_integrable.
  - apply bell_continuous.
Qed.

Lemma scaled_bell_integral c x : RInt (fun t => c * bell (c * t + 0)) 0 x = bell_integral (c * x).
Proof.
  transitivity (RInt bell (c * 0 + 0) (c * x + 0)); [|unfold bell_integral; f_equal; ring].
  apply (RInt_comp_lin bell c 0 0 x), bell_integrable.
Qed.

Lemma bell_integral_odd : odd_function bell_integral.
Proof.
  intros x. replace (- x) with (- (1) * x) by ring. rewrite <- scaled_bell_integral. unfold bell_integral.
  rewrite (RInt_ext _ (fun y => opp (bell y))).
  - apply (RInt_opp (V := R_CompleteNormedModule)). apply bell_integrable.
  - intros y _. unfold bell, opp. cbn. replace (- (1) * y + 0) with (- y) by ring. replace (- y * - y) with (y * y) by ring. ring.
Qed.

(** The second integral: t -> exp (- x^2 (1 + t^2)) / (1 + t^2) over [0, 1]. *)
Definition kernel (x t : R) : R := exp (- (x * x * (1 + t * t))) / (1 + t * t).
Definition kernel' (x t : R) : R := - (2 * x) * exp (- (x * x * (1 + t * t))).
Definition kernel_integral (x : R) : R := RInt (kernel x) 0 1.

Lemma kernel_derive x t : is_derive (fun x => kernel x t) x (kernel' x t).
Proof. unfold kernel, kernel'. auto_derive; [nra|]. field. nra. Qed.

Lemma kernel_integrable x a b : ex_RInt (kernel x) a b.
Proof.
  apply (ex_RInt_continuous (V := R_CompleteNormedModule)). intros t _. apply (ex_derive_continuous (kernel x)). unfold kernel. auto_derive. nra.
Qed.

Lemma kernel'_continuous x t : continuity_2d_pt (fun u v => Derive (fun z => kernel z v) u) x t.
Proof.
  apply (continuity_2d_pt_ext kernel').
  - intros u v. symmetry. apply is_derive_unique, kernel_derive.
  - unfold kernel'. apply continuity_2d_pt_mult.
    + apply continuity_2d_pt_opp, continuity_2d_pt_mult; [apply continuity_2d_pt_const|apply continuity_2d_pt_id1].
    + apply (continuity_1d_2d_pt_comp exp (fun u v => - (u * u * (1 + v * v)))).
      * apply derivable_continuous_pt, derivable_pt_exp.
      * apply continuity_2d_pt_opp, continuity_2d_pt_mult.
        -- apply continuity_2d_pt_mult; apply continuity_2d_pt_id1.
        -- apply continuity_2d_pt_plus; [apply continuity_2d_pt_const|apply continuity_2d_pt_mult; apply continuity_2d_pt_id2].
Qed.

Lemma kernel_integral_derive x : is_derive kernel_integral x (- (2 * bell x * bell_integral x)).
Proof.
  assert (H : is_derive kernel_integral x (RInt (fun t => Derive (fun u => kernel u t) x) 0 1)).
  { apply is_derive_RInt_param.
    - apply filter_forall. intros y t _. eexists. apply kernel_derive.
    - intros t _. apply kernel'_continuous.
    - apply filter_forall. intros y. apply kernel_integrable. }
  replace (- (2 * bell x * bell_integral x)) with (RInt (fun t => Derive (fun u => kernel u t) x) 0 1); [exact H|].
  replace (bell_integral x) with (bell_integral (x * 1)) by (f_equal; ring). rewrite <- scaled_bell_integral.
  rewrite (RInt_ext _ (fun t => scal (- (2 * bell x)) (x * bell (x * t + 0)))).
  - rewrite (RInt_scal (V := R_CompleteNormedModule)).
    + unfold scal. cbn. unfold mult. cbn. ring.
    + apply (ex_RInt_continuous (V := R_CompleteNormedModule)). intros t _.
      apply (ex_derive_continuous (fun t => x * bell (x * t + 0))). unfold bell. auto_derive. auto.
  - intros t _. transitivity (kernel' x t); [apply is_derive_unique, kernel_derive|]. unfold scal. cbn. unfold mult, kernel', bell. cbn.
    replace (- (x * x * (1 + t * t))) with (- (x * x) + - ((x * t + 0) * (x * t + 0))) by ring. rewrite exp_plus. ring.
Qed.

Lemma kernel_integral_0 : kernel_integral 0 = PI / 4.
Proof.
  unfold kernel_integral. rewrite (RInt_ext _ (fun t => / (1 + t²))).
  - apply is_RInt_unique. rewrite <- atan_1. replace (atan 1) with (minus (atan 1) (atan 0)) by (rewrite atan_0; unfold minus, plus, opp; cbn; ring).
    apply (is_RInt_derive atan).
    + intros t _. apply is_derive_atan.
    + intros t _. apply (ex_derive_continuous (fun t => / (1 + t²))). unfold Rsqr. auto_derive. nra.
  - intros t _. unfold kernel. replace (- (0 * 0 * (1 + t * t))) with 0 by ring. rewrite exp_0. apply Rmult_1_l.
Qed.

Lemma bell_identity x : bell_integral x * bell_integral x + kernel_integral x = PI / 4.
Proof.
  set (h := fun x => bell_integral x * bell_integral x + kernel_integral x).
  assert (D : forall t, is_derive h t 0).
  { intros t. unfold h. assert (A := bell_integral_derive t). assert (B := kernel_integral_derive t).
    assert (M := is_derive_mult _ _ _ _ _ A A ltac:(intros; apply Rmult_comm)).
    assert (P := is_derive_plus _ _ _ _ _ M B). unfold plus, mult in P. cbn in P.
    match type of P with is_derive _ _ ?v => replace v with 0 in P by ring end. exact P. }
  assert (H0 : h 0 = PI / 4).
  { unfold h. rewrite kernel_integral_0. unfold bell_integral. rewrite RInt_point. unfold zero. cbn. ring. }
  rewrite <- H0. change (h x = h 0).
  destruct (Rtotal_order x 0) as [Hx|[->|Hx]]; [|reflexivity|symmetry].
  - apply (eq_is_derive h); [intros; apply D|exact Hx].
  - apply (eq_is_derive h); [intros; apply D|exact Hx].
Qed.

Lemma kernel_integral_pos x : 0 < kernel_integral x.
Proof.
  apply RInt_gt_0; [lra| |].
  - intros t _. unfold kernel. apply Rmult_lt_0_compat; [apply exp_pos|apply Rinv_0_lt_compat; nra].
  - intros t _. apply (ex_derive_continuous (kernel x)). unfold kernel. auto_derive. nra.
Qed.

Lemma bell_integral_bound x : Rabs (bell_integral x) < sqrt PI / 2.
Proof.
  assert (I := bell_identity x). assert (K := kernel_integral_pos x). assert (Hpi := PI_RGT_0).
  assert (S := sqrt_sqrt PI ltac:(lra)). assert (S0 := sqrt_lt_R0 PI Hpi).
  apply Rabs_def1; nra.
Qed.

Lemma normal_cdf_spec erf : is_erf erf ->
  strictly_increasing (normal_cdf erf) /\ (forall x, 0 < normal_cdf erf x < 1) /\
  (forall x, normal_cdf erf (- x) = 1 - normal_cdf erf x) /\ normal_cdf erf 0 = / 2.
Proof.
  intros He.
  assert (F : forall x, normal_cdf erf x = / 2 * (1 + 2 / sqrt PI * bell_integral (x / sqrt 2))).
  { intros x. unfold normal_cdf. rewrite He. unfold bell_integral, bell.
    replace (Rpower 2 (5 / 10)) with (sqrt 2); [field; assert (H := sqrt_lt_R0 PI PI_RGT_0); lra|].
    rewrite <- (Rpower_sqrt 2) by lra. f_equal. field. }
  assert (S2 : 0 < sqrt 2) by (apply sqrt_lt_R0; lra). assert (SP : 0 < sqrt PI) by (apply sqrt_lt_R0, PI_RGT_0).
  assert (Ip : 0 < / sqrt PI) by (apply Rinv_0_lt_compat, SP).
  assert (Inc : strictly_increasing bell_integral).
  { apply (increasing_of_derivative _ bell bell_integral_derive). intros; apply exp_pos. }
  split; [|split; [|split]].
  - intros u v Huv. rewrite !F.
    assert (bell_integral (u / sqrt 2) < bell_integral (v / sqrt 2)).
    { apply Inc. apply Rmult_lt_compat_r; [apply Rinv_0_lt_compat, S2|exact Huv]. }
    unfold Rdiv. nra.
  - intros x. rewrite F. assert (B := bell_integral_bound (x / sqrt 2)). apply Rabs_def2 in B.
    set (b := bell_integral (x / sqrt 2)) in *. clearbody b.
    assert (L : -1 < 2 / sqrt PI * b < 1).
    { replace (2 / sqrt PI * b) with (b / (sqrt PI / 2)) by (field; lra).
      split; [apply Rlt_div_r|apply Rlt_div_l]; lra. }
    lra.
  - intros x. rewrite !F. replace (- x / sqrt 2) with (- (x / sqrt 2)) by (field; lra). rewrite bell_integral_odd. field. lra.
  - rewrite F. replace (0 / sqrt 2) with 0 by (field; lra). assert (Z : bell_integral 0 = 0) by exact (RInt_point 0 bell). rewrite Z. field. lra.
Qed.

Lemma normal_cdf_derive erf : is_erf erf -> forall x, is_derive (normal_cdf erf) x (exp (- (x * x / 2)) / sqrt (2 * PI)).
Proof.
  intros He x. assert (S2 : 0 < sqrt 2) by (apply sqrt_lt_R0; lra). assert (SP : 0 < sqrt PI) by (apply sqrt_lt_R0, PI_RGT_0).
  assert (D : is_derive (fun x => / 2 * (1 + 2 / sqrt PI * bell_integral (x * / sqrt 2))) x (/ 2 * (2 / sqrt PI * (/ sqrt 2 * bell (x * / sqrt 2))))).
  { apply (is_derive_scal (fun x => 1 + 2 / sqrt PI * bell_integral (x * / sqrt 2))).
    replace (2 / sqrt PI * (/ sqrt 2 * bell (x * / sqrt 2))) with (0 + 2 / sqrt PI * (/ sqrt 2 * bell (x * / sqrt 2))) by ring.
    apply (is_derive_plus (K := R_AbsRing) (V := R_NormedModule) (fun _ => 1)); [apply (is_derive_const (K := R_AbsRing) (V := R_NormedModule))|].
    apply (is_derive_scal (fun x => bell_integral (x * / sqrt 2))).
    apply (is_derive_comp (K := R_AbsRing) (V := R_NormedModule) bell_integral (fun x => x * / sqrt 2)); [apply bell_integral_derive|].
    auto_derive; [exact I|ring]. }
  replace (exp (- (x * x / 2)) / sqrt (2 * PI)) with (/ 2 * (2 / sqrt PI * (/ sqrt 2 * bell (x * / sqrt 2)))).
  - eapply is_derive_ext; [|exact D]. intros t. unfold normal_cdf. rewrite He. unfold bell_integral, bell. lazymatch goal with |- ?l = ?r => change (@eq R l r) end.
    replace (Rpower 2 (5 / 10)) with (sqrt 2); [unfold Rdiv; field; lra|]. rewrite <- (Rpower_sqrt 2) by lra. f_equal. field.
  - rewrite sqrt_mult by (assert (H := PI_RGT_0); lra). unfold bell.
    replace (x * / sqrt 2 * (x * / sqrt 2)) with (x * x / (sqrt 2 * sqrt 2)) by (field; lra). rewrite sqrt_sqrt by lra. field. lra.
Qed.

Lemma half_cube_spec : strictly_increasing half_cube /\ odd_function half_cube /\ onto half_cube /\ forall w, 0 <= w -> half_cube (w * w) = w ^ 3.
Proof. split; [apply half_cube_increasing|split; [apply half_cube_odd|split; [apply half_cube_onto|apply half_cube_square]]]. Qed.

Lemma wiggly_x_spec : strictly_increasing wiggly_x /\ onto wiggly_x /\ forall x, is_derive wiggly_x x (1 + 4 / 10 * cos x + 34 / 100 * cos (17 / 10 * x + 1) + 99 / 1000 * cos (33 / 10 * x - 25 / 10)).
Proof.
  split; [apply wiggly_x_increasing|split; [apply wiggly_x_onto|]]. intros x.
  replace (cos x) with (cos (1 * x)) by (f_equal; ring). apply wiggly_x_derive.
Qed.

Lemma wiggly_y_spec : strictly_increasing wiggly_y /\ onto wiggly_y /\ forall x, is_derive wiggly_y x (1 - 16 / 100 * cos (4 / 10 * x) + 221 / 1000 * cos (13 / 10 * x + 35 / 10) + 86 / 1000 * cos (43 / 10 * x - 25 / 10)).
Proof.
  split; [apply wiggly_y_increasing|split; [apply wiggly_y_onto|]]. apply wiggly_y_derive.
Qed.

Lemma power_full_spec alpha : 0 < alpha -> exists g, (forall x, signed_power alpha x = Fin (g x)) /\
  strictly_increasing g /\ odd_function g /\ onto g /\ forall x, 0 < x -> g x = Rpower x alpha.
Proof.
  intros Ha. destruct (power_spec alpha Ha) as (g & E & H1 & H2 & H3). exists g. repeat (split; auto).
  intros x Hx. specialize (E x). rewrite signed_power_finite in E by exact Ha. injection E as <-. unfold real_power.
  destruct (Rlt_dec 0 x); [reflexivity|lra].
Qed.

Lemma power_not_positive : (exists x y, x <> y /\ signed_power 0 x = signed_power 0 y) /\ forall alpha, alpha < 0 -> signed_power alpha 0 = NaN.
Proof. split; [exists 1, 2; split; [lra|apply power_zero]|apply power_negative]. Qed.

Lemma invert_normal_cdf erf x_min x_max delta fuel r x : is_erf erf -> 0 <= delta -> x_min <= r <= x_max ->
  invert_mono exact_mid (normal_cdf erf) x_min x_max delta fuel (normal_cdf erf r) = Some x -> Rabs (x - r) <= delta / 2.
Proof.
  intros He Hd Hr. apply invert_close; auto. intros u v _ Huv _. apply (normal_cdf_spec erf He), Huv.
Qed.

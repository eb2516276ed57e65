(** Examples for the tasks with noise. *)
From Coq Require Import String Ascii ZArith Lia Lra.
From Verif Require Import Base BaseLemmas UtilsModel JaxModel SamplersModel GaussianModel MatrixUtilsModel BmmModel MultivariateModel BenchmarkModel TasksModel TasksSpec
  MixturesModel PaperModel RulesModel OutliersModel DiscreteSpec OutliersSpec BmmSpec BmmProofs OutliersThms TrainingExamples BmmExamples ConfigSpec OutliersTasksSpec.
From mathcomp Require Import ssreflect.
From Verif Require Import MixturesSpec EigvalsExist MultivariateThms MultivariateExamples OutliersFactor OutliersMade OutliersTasks OutliersLoad.
Open Scope R_scope.
Local Notation length := List.length.

(** ** Numbers printed by their position in a list *)
Fixpoint bars (n : nat) : string := match n with O => EmptyString | S n => String "|"%char (bars n) end.
Lemma bars_inj n m : bars n = bars m -> n = m.
Proof. revert m. induction n as [|n IH]; intros [|m]; cbn; intros E; try discriminate; [reflexivity|]. injection E as E. f_equal. auto. Qed.
Fixpoint place (l : list R) (x : R) : nat := match l with [] => O | a :: l => match Req_EM_T x a with left _ => O | right _ => S (place l x) end end.
Lemma place_inj l x y : In x l -> In y l -> place l x = place l y -> x = y.
Proof.
  induction l as [|a l IH]; cbn; [tauto|]. intros Hx Hy. destruct (Req_EM_T x a), (Req_EM_T y a); try discriminate; [congruence|].
  intros E. injection E as E. apply IH; auto; intuition congruence.
Qed.
Lemma NoDup_printed l m : (forall x, In x l -> In x m) -> NoDup l -> NoDup (map (fun x => bars (place m x)) l).
Proof.
  intros I N. induction N as [|x l H _ IH]; cbn; [constructor|]. constructor; [|apply IH; intros y Hy; apply I; now right].
  intros K. apply H. apply in_map_iff in K as (y & E & Hy). apply bars_inj in E. apply place_inj in E; [now subst y|apply I; now right|apply I; now left].
Qed.
Definition printed : formats :=
  {| float_repr := fun x => bars (place (levels ++ map (Rpower 2) exponents) x); float_fixed := fun _ _ => EmptyString |}.
Lemma levels_NoDup : NoDup levels.
Proof. unfold levels. repeat (apply NoDup_cons; [cbn; intros H; repeat destruct H as [H|H]; lra|]). apply NoDup_nil. Qed.
Lemma exponents_NoDup : NoDup exponents.
Proof. unfold exponents. repeat (apply NoDup_cons; [cbn; intros H; repeat destruct H as [H|H]; lra|]). apply NoDup_nil. Qed.
Lemma printed_apart : told_apart printed.
Proof.
  split.
  - apply NoDup_printed; [|exact levels_NoDup]. intros x I. apply in_or_app. auto.
  - unfold printed. cbn [float_repr]. rewrite <- (map_map (Rpower 2) (fun x => bars (place (levels ++ map (Rpower 2) exponents) x))).
    apply NoDup_printed; [intros x I; apply in_or_app; auto|].
    apply FinFun.Injective_map_NoDup; [|exact exponents_NoDup]. intros x y E. unfold Rpower in E. apply exp_inv in E.
    assert (L : 0 < ln 2) by (rewrite <- ln_1; apply ln_increasing; lra). apply (Rmult_eq_reg_r (ln 2)); lra.
Qed.

(** ** All points at the origin *)
Definition origin_tfp : tfp_draws demo :=
  {| mixture_draw := fun _ _ _ n => repeat [0; 0; 0; 0] n; blockwise_draw := fun _ _ _ n => repeat [0; 0; 0; 0] n |}.
Lemma two_lines u v : 0 < u -> 0 < v -> u * v <= 251000 / 251001 -> signal_y [0; 0] <= normal_line u 0 * normal_line v 0.
Proof.
  intros U V H. assert (P := PI_RGT_0). unfold signal_y, plane, normal_plane, normal_line.
  replace (- (0 ^ 2 / (2 * u))) with 0 by (field; lra). replace (- (0 ^ 2 / (2 * v))) with 0 by (field; lra).
  replace (- ((0 ^ 2 - 2 * (1 / 501) * 0 * 0 + 0 ^ 2) / (2 * 1 * (1 - (1 / 501) ^ 2)))) with 0 by (field; lra). rewrite exp_0.
  replace (1 - (1 / 501) ^ 2) with (251000 / 251001) by lra.
  assert (UV : 0 < u * v) by now apply Rmult_lt_0_compat.
  assert (Pu : 0 < 2 * PI * u) by (apply Rmult_lt_0_compat; lra). assert (Pv : 0 < 2 * PI * v) by (apply Rmult_lt_0_compat; lra).
  assert (Su := sqrt_lt_R0 _ Pu). assert (Sv := sqrt_lt_R0 _ Pv). assert (Suv := sqrt_lt_R0 _ UV).
  replace (/ sqrt (2 * PI * u) * 1 * (/ sqrt (2 * PI * v) * 1)) with (/ (2 * PI * 1 * sqrt (u * v))).
  - rewrite Rmult_1_r. apply Rinv_le_contravar; [apply Rmult_lt_0_compat; lra|]. apply Rmult_le_compat_l; [lra|]. apply sqrt_le_1; lra.
  - replace (2 * PI * 1 * sqrt (u * v)) with (sqrt (2 * PI * u) * sqrt (2 * PI * v)); [field; lra|].
    rewrite <- sqrt_mult; [|lra|lra]. replace (2 * PI * u * (2 * PI * v)) with ((2 * PI) ^ 2 * (u * v)) by ring.
    rewrite sqrt_mult; [|apply pow2_ge_0|lra]. rewrite sqrt_pow2; [ring|lra].
Qed.
Lemma origin_information : 0 <= information (signal_density [0; 0] [0; 0]) (signal_y [0; 0]) (signal_y [0; 0]).
Proof.
  assert (S : 0 < signal_y [0; 0]) by (apply plane_pos; lra).
  unfold information. assert (Q : 1 <= signal_density [0; 0] [0; 0] / (signal_y [0; 0] * signal_y [0; 0])).
  { apply Rmult_le_reg_r with (signal_y [0; 0] * signal_y [0; 0]); [now apply Rmult_lt_0_compat|].
    unfold Rdiv. rewrite Rmult_assoc Rinv_l; [|apply Rgt_not_eq; now apply Rmult_lt_0_compat]. rewrite Rmult_1_r Rmult_1_l.
    unfold signal_density. replace ((0 + 0 + 0 + 0) / 2) with 0 by lra. replace ((0 + 0 - 0 - 0) / 2) with 0 by lra.
    replace ((0 - 0 + 0 - 0) / 2) with 0 by lra. replace ((0 - 0 - 0 + 0) / 2) with 0 by lra.
    apply Rmult_le_compat; try lra; apply two_lines; lra. }
  destruct Q as [Q|Q]; [left|right; rewrite <- Q; now rewrite ln_1]. assert (K := ln_increasing 1 _ Rlt_0_1 Q). now rewrite ln_1 in K.
Qed.
Lemma origin_values (d : joint_distribution demo) a v seed : contaminated_signal d a v -> mixed_draws origin_tfp d a v -> 0 <= a <= 1 -> 0 < v ->
  exists w, 0 <= w /\ pmi_values d seed (repeat w (Z.to_nat 100000)).
Proof.
  intros C (s & n & D & _) A V. destruct (signal_noise_pmi d a v [0; 0] [0; 0] A V C) as (w & W & _ & _ & B & _); [reflexivity|reflexivity|].
  exists w. split.
  - assert (O := origin_information). revert B. rewrite Rmin_right; [auto|exact O].
  - unfold pmi_values, points. rewrite D. cbn [mixture_draw origin_tfp]. assert (X : jd_dim_x d = 2%nat) by apply C. rewrite X.
    generalize (Z.to_nat 100000). intros k. induction k as [|k IH]; cbn [repeat]; constructor; auto.
Qed.
Lemma origin_average (d : joint_distribution demo) a v : contaminated_signal d a v -> mixed_draws origin_tfp d a v -> 0 <= a <= 1 -> 0 < v ->
  acceptable (average_pmi d 0 (Z.to_nat 100000)).
Proof.
  intros C M A V. destruct (origin_values d a v 0 C M A V) as (w & W & P). assert (E := estimate_values demo_normal_draw d 0 _ P).
  destruct (proj2 (profile_spec d 100000 (prng_key demo 0))) as (p & Pp & Ep); [lia|].
  unfold monte_carlo_mi_estimate in E. rewrite Pp in E. cbn [bind] in E. rewrite Ep in E.
  assert (K : average_pmi d 0 (Z.to_nat 100000) = Fin (fst (estimated (repeat w (Z.to_nat 100000))))) by (unfold average_pmi; congruence).
  rewrite K. cbn [acceptable estimated fst]. unfold rmean. apply Rmult_le_pos.
  - apply rsum_nonneg. apply Forall_forall. intros x I. apply repeat_spec in I. now subst x.
  - rewrite repeat_length. left. apply Rinv_0_lt_compat. apply lt_0_INR. lia.
Qed.

Lemma catalogue_sound F : Forall (fun e => 0 <= n_level e <= 1 /\ 0 < n_variance e) (noisy_catalogue F).
Proof.
  unfold noisy_catalogue. rewrite !Forall_app. split; [|split]; apply Forall_forall; intros e I; apply in_map_iff in I as (a & <- & I); cbn.
  - assert (L := levels_range). rewrite Forall_forall in L. split; [now apply L|lra].
  - assert (L := levels_range). rewrite Forall_forall in L. split; [now apply L|lra].
  - split; [lra|apply exp_pos].
Qed.
Lemma origin_tasks : exists eigvals cholesky h' tasks, eigvals_symmetric eigvals /\ factorises cholesky /\
  unscaled_tasks printed origin_tfp eigvals cholesky demo_normal_draw [] = (h', Ok tasks) /\ length tasks = 39%nat /\
  Forall (fun kt => usable (snd kt) h' /\ t_id (snd kt) <> EmptyString /\ t_name (snd kt) <> EmptyString) tasks.
Proof.
  destruct eigvals_exists as [e He]. destruct cholesky_exists as [c Hc].
  destruct (unscaled_loaded printed origin_tfp e c demo_normal_draw He Hc printed_apart []) as (ds & C & Q & _).
  destruct Q as (h' & ts & E & _ & M & U).
  - assert (S := catalogue_sound printed). clear - C S. induction C as [|en d es ds [C1 C2] _ IH]; constructor.
    + inversion S as [|? ? [S1 S2] _]; subst. eapply origin_average; eauto.
    + apply IH. now inversion S.
  - exists e, c, h', ts. split; [exact He|]. split; [exact Hc|]. split; [exact E|]. split.
    + transitivity (length (noisy_catalogue printed)); [|reflexivity].
      clear - M C. revert ts M. induction C as [|en d es ds _ _ IH]; intros ts M; inversion M; subst; cbn; [reflexivity|]. f_equal. now apply IH.
    + clear - M U. assert (K : Forall (fun e => n_id e <> EmptyString) (noisy_catalogue printed)).
      { unfold noisy_catalogue. rewrite !Forall_app. split; [|split]; apply Forall_forall; intros e I; apply in_map_iff in I as (a & <- & I); discriminate. }
      revert K ds ts M U. generalize (noisy_catalogue printed). induction 1 as [|en es K _ IH]; intros [|d ds] ts M U; inversion M as [|? kt ? kts H M']; subst; constructor.
      * inversion U; subst. split; [auto|]. destruct H as (_ & (-> & -> & _) & _). auto.
      * inversion U; subst. eapply IH; eauto.
Qed.
(** Ten samples of a setup. *)
Lemma origin_truth : exists eigvals cholesky d ls, eigvals_symmetric eigvals /\ factorises cholesky /\
  mixed_distribution origin_tfp eigvals cholesky demo_normal_draw "Gauss-Outlier" (1 / 10) = Ok d /\
  Forall2 (pmi_values d) [0; 1; 2; 3; 4; 5; 6; 7; 8; 9]%Z ls.
Proof.
  destruct eigvals_exists as [e He]. destruct cholesky_exists as [c Hc].
  destruct (mixed_truth origin_tfp e c demo_normal_draw He Hc (fun _ => Ok (1 / 10)) "Gauss-Outlier" 25 "0.1" (1 / 10)) as (d & C & M & D & _);
    [right; auto|reflexivity|lra|].
  exists e, c, d. assert (P : forall seeds : list Z, exists ls, Forall2 (pmi_values d) seeds ls).
  { induction seeds as [|s seeds [ls IH]]; [exists []; constructor|].
    destruct (origin_values d (1 / 10) 25 s C M) as (w & _ & P); [lra|lra|]. eexists. constructor; [exact P|exact IH]. }
  destruct (P [0; 1; 2; 3; 4; 5; 6; 7; 8; 9]%Z) as (ls & L). exists ls. auto.
Qed.
Lemma origin_points : exists d : joint_distribution demo, contaminated_signal d (1 / 10) 25 /\ Forall (fun z => length z = 4%nat) (points d 3).
Proof.
  destruct eigvals_exists as [e He]. destruct cholesky_exists as [c Hc].
  destruct (mixed_truth origin_tfp e c demo_normal_draw He Hc (fun _ => Ok (1 / 10)) "Gauss-Outlier" 25 "0.1" (1 / 10)) as (d & C & (s & n & D & _) & _);
    [right; auto|reflexivity|lra|].
  exists d. split; [exact C|]. unfold points. rewrite D. cbn [mixture_draw origin_tfp]. apply Forall_forall. intros z I. apply repeat_spec in I. now subst z.
Qed.
(** The signal, at the origin. *)
Lemma origin_signal : exists eigvals cholesky signal l0 l1, eigvals_symmetric eigvals /\ factorises cholesky /\
  dist_signal_gauss eigvals cholesky demo_normal_draw = Ok signal /\ pmi_values signal 0 l0 /\ pmi_values signal 1 l1 /\ length l0 = Z.to_nat 100000.
Proof.
  destruct eigvals_exists as [e He]. destruct cholesky_exists as [c Hc].
  destruct (signal_made (J := demo) demo_normal_draw He Hc) as (signal & S & X & Y & _ & _ & D).
  assert (P : 0 < signal_y [0; 0]) by (apply plane_pos; lra).
  assert (W := point_information signal _ _ _ [0; 0] [0; 0] D (eq_sym X) (eq_sym Y) (signal_pos _ _) P P).
  set w := information (signal_density [0; 0] [0; 0]) (signal_y [0; 0]) (signal_y [0; 0]).
  assert (V : forall seed, pmi_values signal seed (repeat w (Z.to_nat 100000))).
  { intros seed. unfold pmi_values, points. replace (draw (dist_joint signal)) with (fun (_ : key demo) n => repeat [0; 0; 0; 0] n).
    - rewrite X. generalize (Z.to_nat 100000). intros k. induction k as [|k IH]; cbn [repeat]; constructor; auto.
    - unfold dist_signal_gauss in S. destruct signal_cov_matrix as [m|]; [|discriminate]. cbn [bind] in S.
      unfold normal_distribution in S. destruct (split_multinormal_init _ _ _ _ _) as [p|]; [|discriminate]. cbn [bind] in S. injection S as <-. reflexivity. }
  exists e, c, signal, (repeat w (Z.to_nat 100000)), (repeat w (Z.to_nat 100000)). split; [exact He|]. split; [exact Hc|]. split; [exact S|].
  split; [apply V|]. split; [apply V|]. apply repeat_length.
Qed.

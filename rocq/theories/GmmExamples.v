(** A concrete Gaussian mixture estimator for the examples of GmmProps.v. *)
From Verif Require Import Base UtilsModel JaxModel SamplersModel GaussianModel BmmModel MultivariateModel GmmModel
  BaseLemmas SamplersProofs TrainingSpec BmmSpec BmmProofs TrainingExamples GmmSpec GmmProofs.
From mathcomp Require Import all_ssreflect ssralg matrix mxalgebra.
From Verif Require Import RStruct PosDef MatrixBridge GaussianSpec GaussianProofs ExpectationProofs GaussianThms
  MultivariateSpec MultivariateProofs MultivariateThms GaussianExamples MultivariateExamples GmmMixSpec GmmThms.
Set Implicit Arguments.
Unset Strict Implicit.
Unset Printing Implicit Defensive.
Import GRing.Theory.
Local Open Scope ring_scope.

(** Points of mixtures are drawn at the origin. *)
Definition gmm_tfp : tfp_draws demo :=
  {| mixture_draw := fun _ _ _ n => List.repeat [:: IZR 0; IZR 0] n; blockwise_draw := fun _ _ _ n => nil |}.

(** One component, with factor I or [[5, 0], [3, 4]] (up to the jitter). *)
Definition one_component (L : UtilsModel.matrix) : latent :=
  {| lt_pi := [:: IZR 1]; lt_mu := [:: [:: IZR 0; IZR 0]]; lt_tau := [:: [:: IZR 1; IZR 1]]; lt_l_omega := [:: L] |}.
Definition round_factor : UtilsModel.matrix := [:: [:: IZR 1; IZR 0]; [:: IZR 0; IZR 1]].
Definition long_factor : UtilsModel.matrix := [:: [:: Rdiv 4999 1000; IZR 0]; [:: IZR 3; Rdiv 3999 1000]].

(** The draws depend on the key. *)
Definition gmm_nuts (k : key demo) (p : gmm_program) (data : UtilsModel.matrix) (w n : Z) : result (list latent) :=
  if (n <? 0)%Z then Err ValueError
  else Ok (List.repeat (one_component (if (k =? 101)%Z then round_factor else long_factor)) (Z.to_nat n)).

Definition gmm_x : UtilsModel.matrix := [:: [:: IZR 0]; [:: IZR 1]].
Definition demo_gmm : gmm := gmm_init (J := demo) 1 1 (Some (IZR 7)) false 5 1 1 None.
Definition gmm_prog : gmm_program := sparse_program 1 2.

Lemma gmm_nuts_counts : nuts_counts gmm_nuts.
Proof.
  move=> k p data w n ls; rewrite /gmm_nuts; case: Z.ltb_spec => // h [<-].
  rewrite /zlen List.repeat_length; lia.
Qed.

Lemma cov2_eq (a b c d a' b' c' d' : R) : a = a' -> b = b' -> c = c' -> d = d' ->
  [:: [:: a; b]; [:: c; d]] = [:: [:: a'; b']; [:: c'; d']].
Proof. by move=> -> -> -> ->. Qed.
Lemma round_cov : component_covariance (Rdiv 1 1000) [:: IZR 1; IZR 1] round_factor =
  [:: [:: Rdiv 1002001 1000000; IZR 0]; [:: IZR 0; Rdiv 1002001 1000000]].
Proof.
  rewrite /component_covariance /times_transpose /l_scaled /entry /=; rewrite /dot /rsum /=.
  apply: cov2_eq; field.
Qed.
Lemma long_cov : component_covariance (Rdiv 1 1000) [:: IZR 1; IZR 1] long_factor =
  [:: [:: IZR 25; IZR 15]; [:: IZR 15; IZR 25]].
Proof.
  rewrite /component_covariance /times_transpose /l_scaled /entry /=; rewrite /dot /rsum /=.
  apply: cov2_eq; field.
Qed.

Lemma trig2 a b c : Rlt 0 a -> Rlt 0 c -> let L := to_mx 2 2 [:: [:: a; IZR 0]; [:: b; c]] in
  is_trig_mx L /\ forall i, Rlt 0 (L i i).
Proof.
  move=> pa pc L; split.
  - apply/is_trig_mxP => -[[|[|i]] hi] [[|[|j]] hj] //= _; by rewrite mxE.
  - by case=> -[|[|i]] hi //; rewrite mxE.
Qed.

Lemma one_component_proper a b c : Rlt 0 a -> Rlt 0 c -> proper_latent 1 2 (one_component [:: [:: a; IZR 0]; [:: b; c]]).
Proof.
  move=> pa pc; have [h1 h2] := @trig2 a b c pa pc; split=> //=.
  - split=> //; split; last by rewrite /rsum /=; exact: Rplus_0_r.
    constructor=> //; exact: Rle_0_1.
  - split=> //; do 2 constructor=> //; try exact: Rle_0_1; constructor=> //; exact: Rle_0_1.
  - by split=> //; constructor.
Qed.

Lemma round_proper : proper_latent 1 2 (one_component round_factor).
Proof. apply: one_component_proper; lra. Qed.
Lemma long_proper : proper_latent 1 2 (one_component long_factor).
Proof. apply: one_component_proper; lra. Qed.

(** ** The pointwise mutual information at the origin *)

Definition corner (a c : R) : UtilsModel.matrix := [:: [:: a; c]; [:: c; a]].
Definition corner_mi (a c : R) : R :=
  Rmult (/ 2) (Rminus (Rplus (ln a) (ln a)) (ln (Rminus (Rmult a a) (Rmult c c)))).

Lemma corner_det a c : \det (sigma 1 1 (corner a c)) = Rminus (Rmult a a) (Rmult c c) /\
  \det (ulsubmx (sigma 1 1 (corner a c))) = a /\ \det (drsubmx (sigma 1 1 (corner a c))) = a.
Proof.
  split; first by rewrite -det_to_mx; cbn; lazymatch goal with |- ?l = ?r => change (@eq R l r) end; ring.
  by split; rewrite det11 !mxE.
Qed.

Definition corner_draw (a c : R) : gmm_draw :=
  {| dr_pi := [:: IZR 1]; dr_mu := [:: [:: IZR 0; IZR 0]]; dr_cov := [:: corner a c] |}.

Lemma corner_pmi cholesky a c d : (forall C, cholesky_ok (List.length C) C (cholesky C)) ->
  sample_into_bmm_distribution gmm_tfp demo_eigvals cholesky demo_normal_draw (corner_draw a c) 1 1 = Ok d ->
  point_pmi d [:: IZR 0] [:: IZR 0] = Fin (corner_mi a c).
Proof.
  move=> ch hd.
  have sy : (sigma 1 1 (corner a c))^T = sigma 1 1 (corner a c).
  { apply/matrixP => i j; rewrite !mxE; case: i => [[|[|i]] hi] //; by case: j => [[|[|j]] hj]. }
  have gp : good_proportions (dr_pi (corner_draw a c)).
  { split; first by constructor=> //; exact: Rle_0_1. rewrite /rsum /= Rplus_0_r; exact: Rlt_0_1. }
  have [hj hx hy] := @build_densities demo gmm_tfp demo_eigvals cholesky demo_normal_draw _ 1 1 d hd gp
    (List.Forall_cons _ (And3 sy (proj1 (demo_exact a c)) (@cholesky_exact_of cholesky 1 1 (corner a c) isT ch)) (List.Forall_nil _)).
  have one : forall p f, p 0%N = IZR 1 -> mixture_of 1 p f = f 0%N.
  { move=> p f e; rewrite /mixture_of /rsum /= e !Rplus_0_r Rmult_1_l /Rdiv Rinv_1; exact: Rmult_1_r. }
  have fin : forall (t : tfd demo) z r, has_density t z (exp r) -> log_prob t z = Fin r.
  { move=> t z r [[_ ->]|[e _]]; first by rewrite ln_exp. by have := exp_pos r; rewrite e => /Rlt_irrefl. }
  rewrite /point_pmi.
  rewrite (fin _ _ _ (eq_ind _ (has_density _ _) (hj [:: IZR 0; IZR 0] erefl) _ (one _ _ erefl))).
  rewrite (fin _ _ _ (eq_ind _ (has_density _ _) (hx [:: IZR 0] erefl) _ (one _ _ erefl))).
  rewrite (fin _ _ _ (eq_ind _ (has_density _ _) (hy [:: IZR 0] erefl) _ (one _ _ erefl))).
  rewrite /fl_add /fl_sub /fl_opp; congr Fin.
  have z0 : to_cv (1 + 1) [:: IZR 0; IZR 0] = 0.
  { apply/matrixP => i j; rewrite !mxE; by case: i => -[|[|i]] hi. }
  have z1 : to_cv 1 [:: IZR 0] = 0.
  { apply/matrixP => i j; rewrite !mxE; by case: i => -[|i] hi. }
  have [e1 [e2 e3]] := corner_det a c.
  have qf0 : forall n (A : 'M[R]_n), qf A 0 = IZR 0 by move=> n A; rewrite /qf trmx0 !mul0mx mxE.
  rewrite /normal_log_density -[List.nth 0 (dr_mu _) nil]/[:: IZR 0; IZR 0] -[List.nth 0 (dr_cov _) nil]/(corner a c).
  rewrite z0 z1 !linear0 !addr0 !qf0 e1 e2 e3 /corner_mi.
  have -> : INR (1 + 1) = Rplus 1 1 by []. have -> : INR 1 = IZR 1 by [].
  set u := ln a; set v := ln (Rminus _ _); set w := ln _; field.
Qed.

(** ** Estimates *)

Lemma one_sample cholesky a c d k : (forall C, cholesky_ok (List.length C) C (cholesky C)) ->
  sample_into_bmm_distribution gmm_tfp demo_eigvals cholesky demo_normal_draw (corner_draw a c) 1 1 = Ok d ->
  exists se, monte_carlo_mi_estimate k d 1 = Ok (Fin (corner_mi a c), se).
Proof.
  move=> ch hd; have p := corner_pmi ch hd.
  have [e1 _ _ _] := @build_dims demo gmm_tfp demo_eigvals cholesky demo_normal_draw _ 1 1 d hd.
  have [_ _ _ [cs [_ hm]]] := @build_ok demo gmm_tfp demo_eigvals cholesky demo_normal_draw _ 1 1 d hd.
  have [_ [ej _]] := mixture_parts _ _ _ _ hm.
  rewrite /monte_carlo_mi_estimate /pmi_profile /jd_sample /= ej e1 /=.
  rewrite /jd_pmi /= p; eexists; congr (Ok (_, _)).
  rewrite /fl_mean /fl_sum /fl_divp /=; congr Fin; field.
Qed.

Lemma build_corner cholesky jit L a c : pg_jitter jit = Rdiv 1 1000 ->
  component_covariance (Rdiv 1 1000) [:: IZR 1; IZR 1] L = corner a c -> proper_latent 1 2 (one_component L) ->
  draw_of_latent jit (one_component L) = corner_draw a c /\
  exists d, sample_into_bmm_distribution gmm_tfp demo_eigvals cholesky demo_normal_draw (corner_draw a c) 1 1 = Ok d.
Proof.
  move=> ej ec pl.
  have e : draw_of_latent jit (one_component L) = corner_draw a c by rewrite /draw_of_latent /= ej ec.
  split=> //; have jp : Rlt 0 (pg_jitter jit) by rewrite ej; lra.
  have := @latent_accepted demo gmm_tfp demo_eigvals cholesky demo_normal_draw jit 1 1 1 (one_component L) isT isT isT jp pl.
  rewrite e => /(_ (List.Forall_cons _ (demo_exact a c) (List.Forall_nil _))) [d [h _ _]]; by exists d.
Qed.

Definition first_mi (k : key demo) : R :=
  if (k =? 101)%Z then corner_mi (Rdiv 1002001 1000000) 0 else corner_mi 25 15.
Definition first_draw (k : key demo) : gmm_draw :=
  if (k =? 101)%Z then corner_draw (Rdiv 1002001 1000000) 0 else corner_draw 25 15.

Lemma demo_posterior (s : gmm (J := demo)) : gm_params s = gm_params demo_gmm ->
  posterior_draws gmm_nuts (gm_params s) (gm_key s) gmm_x gmm_x 1 1 [:: first_draw (fresh (gm_key s) 0)].
Proof.
  move=> ->; exists gmm_x, gmm_x, [:: one_component (if (fresh (gm_key s) 0 =? 101)%Z then round_factor else long_factor)], gmm_prog.
  do 6 (split; first by []).
  rewrite /first_draw /=; case: (_ =? _)%Z.
  - by have [-> _] := @build_corner (fun=> None) gmm_prog round_factor _ _ erefl round_cov round_proper.
  - by have [-> _] := @build_corner (fun=> None) gmm_prog long_factor _ _ erefl long_cov long_proper.
Qed.

Lemma demo_mis cholesky (s : gmm (J := demo)) : (forall C, cholesky_ok (List.length C) C (cholesky C)) ->
  gm_params s = gm_params demo_gmm ->
  posterior_mis gmm_tfp demo_eigvals cholesky demo_normal_draw (gm_params s) (gm_key s) 1 1 1
    [:: first_draw (fresh (gm_key s) 0)] [:: 0%N] [:: Fin (first_mi (fresh (gm_key s) 0))].
Proof.
  move=> ch ->; split; first by [].
  split; first by constructor; [case | constructor].
  split; first by []. split; first by [].
  move=> [|i] hi; last by lia.
  have [d hd] : exists d, sample_into_bmm_distribution gmm_tfp demo_eigvals cholesky demo_normal_draw (first_draw (fresh (gm_key s) 0)) 1 1 = Ok d.
  { rewrite /first_draw; case: (_ =? _)%Z.
    - by have [_] := @build_corner cholesky gmm_prog round_factor _ _ erefl round_cov round_proper.
    - by have [_] := @build_corner cholesky gmm_prog long_factor _ _ erefl long_cov long_proper. }
  have [se hm] : exists se, monte_carlo_mi_estimate (fresh (gm_key s) (2 + 0)) d 1 = Ok (Fin (first_mi (fresh (gm_key s) 0)), se).
  { move: hd; rewrite /first_draw /first_mi; case: (_ =? _)%Z => hd; exact: one_sample hd. }
  by exists 0%N, (first_draw (fresh (gm_key s) 0)), d, (Fin (first_mi (fresh (gm_key s) 0))), se.
Qed.

Lemma demo_estimates cholesky (s : gmm (J := demo)) : (forall C, cholesky_ok (List.length C) C (cholesky C)) ->
  gm_params s = gm_params demo_gmm ->
  gmm_estimate gmm_tfp demo_eigvals cholesky demo_normal_draw true gmm_nuts gmm_x gmm_x None s =
  ({| gm_params := gm_params s; gm_key := chain (gm_key s) 3; gm_dim_x := 1; gm_dim_y := 1;
      gm_mcmc := Some [:: first_draw (fresh (gm_key s) 0)] |}, Ok (Fin (first_mi (fresh (gm_key s) 0)))).
Proof.
  move=> ch hp; have hd := demo_posterior hp; have hm := demo_mis ch hp.
  have e : given_or None (gp_n_thinned_samples (gm_params s)) = 1%Z by rewrite hp.
  have := @posterior_complete demo gmm_tfp demo_eigvals cholesky demo_normal_draw true gmm_nuts demo_ok gmm_x gmm_x None s 1 1 _ _ _ erefl.
  cbv zeta; rewrite e.
  have z1 : (0 <= 1)%Z by lia.
  have z2 : 1%Z <> 0%Z -> (1 <= gp_mcmc_num_samples (gm_params s))%Z by rewrite hp.
  move=> /(_ _ _ _ z1 z2 hd hm) h.
  rewrite /gmm_estimate h /=; congr (_, Ok _); rewrite /fl_mean /fl_sum /fl_divp /=; congr Fin; field.
Qed.

Lemma corner_round a : Rlt 0 a -> corner_mi a 0 = IZR 0.
Proof. move=> p; rewrite /corner_mi Rmult_0_l Rminus_0_r ln_mult //; ring. Qed.
Lemma corner_long : Rlt 0 (corner_mi 25 15).
Proof.
  rewrite /corner_mi -ln_mult; try lra.
  have := ln_increasing (Rminus (Rmult 25 25) (Rmult 15 15)) (Rmult 25 25); set u := ln _; set v := ln _.
  move=> h; have : Rlt u v by apply: h; lra. lra.
Qed.

Lemma estimate_changes : exists cholesky s r,
  (forall C, cholesky_ok (List.length C) C (cholesky C)) /\
  gmm_estimate gmm_tfp demo_eigvals cholesky demo_normal_draw true gmm_nuts gmm_x gmm_x None demo_gmm = (s, Ok (Fin (IZR 0))) /\
  snd (gmm_estimate gmm_tfp demo_eigvals cholesky demo_normal_draw true gmm_nuts gmm_x gmm_x None s) = Ok (Fin r) /\ Rlt 0 r.
Proof.
  have [f h] := cholesky_exists; exists f; eexists; exists (corner_mi 25 15); split=> //.
  rewrite demo_estimates //; split.
  - rewrite -[first_mi _]/(corner_mi (Rdiv 1002001 1000000) 0) corner_round; [reflexivity | lra].
  - rewrite demo_estimates //; split; [reflexivity | exact: corner_long].
Qed.

Lemma fitted_distribution : exists cholesky s d,
  fst (gmm_estimate gmm_tfp demo_eigvals cholesky demo_normal_draw true gmm_nuts gmm_x gmm_x None demo_gmm) = s /\
  get_bmm_distribution gmm_tfp demo_eigvals cholesky demo_normal_draw Z0 s = Ok d.
Proof.
  have [f h] := cholesky_exists.
  have [_ [_ [_ [_ /(_ 0%N (le_n 1)) [j [g [d [mi [se [e1 [e2 [e3 _]]]]]]]]]]]] := @demo_mis f demo_gmm h erefl.
  exists f; eexists; exists d; split; first reflexivity.
  rewrite demo_estimates //=.
  by case: e1 e2 => <- [<-] in e3 *.
Qed.

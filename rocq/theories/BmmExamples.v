(** Concrete distributions for the examples about Bend and Mix Models: two densities on
    the unit square, their mixture, and the doubling map. *)
From Coq Require Import Lia Lra.
From Coquelicot Require Import Coquelicot.
From Verif Require Import Base BaseLemmas UtilsModel JaxModel SamplersModel BmmModel BmmSpec BmmProofs TrainingExamples.
Open Scope R_scope.
Local Notation length := List.length.

Definition on_unit (g : R -> R) (u : R) : R := if Rleb 0 u && Rleb u 1 then g u else 0.
(** Densities 1 and 2u on the unit interval, and their products on the square. *)
Definition flat (u : R) : R := on_unit (fun _ => 1) u.
Definition tilt (u : R) : R := on_unit (fun u => 2 * u) u.
Definition one_dim (g : R -> R) (z : list R) : R := match z with [u] => g u | _ => 0 end.
Definition two_dim (g : R -> R) (z : list R) : R := match z with [u; v] => g u * g v | _ => 0 end.

Definition with_density (shape : list nat) (f : list R -> R) (rows : nat -> matrix) : tfd demo :=
  {| event_shape := shape; log_prob := fun z => log_fl (f z); draw := fun _ n => rows n |}.

(** Rows drawn alternately at (1/4, 1/4) and (1/2, 1/2). *)
Definition square_row (i : nat) : list R := if Nat.even i then [1 / 4; 1 / 4] else [1 / 2; 1 / 2].
Definition square_rows (n : nat) : matrix := map square_row (seq 0 n).
Definition interval_rows (n : nat) : matrix := repeat [1 / 4] n.

Definition demo_tfp : tfp_draws demo :=
  {| mixture_draw := fun _ _ _ n => square_rows n; blockwise_draw := fun _ _ _ n => square_rows n |}.

Definition side (g : R -> R) : tfd demo := with_density [1%nat] (one_dim g) interval_rows.
Definition square (g : R -> R) : joint_distribution demo :=
  {| dist_joint := with_density [2%nat] (two_dim g) square_rows; dist_x := side g; dist_y := side g;
     jd_dim_x := 1; jd_dim_y := 1; analytic_mi := Some (Fin 0) |}.

Lemma on_unit_in g u : 0 <= u <= 1 -> on_unit g u = g u.
Proof. intros [H1 H2]. unfold on_unit. apply Rleb_true in H1, H2. rewrite H1, H2. reflexivity. Qed.
Lemma on_unit_nonneg g u : (forall u, 0 <= u -> 0 <= g u) -> 0 <= on_unit g u.
Proof.
  intros H. unfold on_unit. destruct (Rleb 0 u) eqn:E; cbn [andb]; [|lra]. apply Rleb_true in E.
  destruct (Rleb u 1); [auto|lra].
Qed.
Lemma flat_nonneg u : 0 <= flat u. Proof. apply on_unit_nonneg. intros; lra. Qed.
Lemma tilt_nonneg u : 0 <= tilt u. Proof. apply on_unit_nonneg. intros; lra. Qed.
Lemma one_dim_nonneg g z : (forall u, 0 <= g u) -> 0 <= one_dim g z.
Proof. intros H. destruct z as [|u [|]]; cbn; auto; lra. Qed.
Lemma two_dim_nonneg g z : (forall u, 0 <= g u) -> 0 <= two_dim g z.
Proof. intros H. destruct z as [|u [|v [|]]]; cbn; try lra. apply Rmult_le_pos; auto. Qed.

Lemma with_density_ok shape f rows : (forall z, 0 <= f z) -> is_density (with_density shape f rows) f.
Proof. intros H z. apply has_density_log. split; [apply H|reflexivity]. Qed.

Lemma squares_ok : Forall2 is_density (map dist_joint [square flat; square tilt]) [two_dim flat; two_dim tilt] /\
  Forall2 is_density (map dist_x [square flat; square tilt]) [one_dim flat; one_dim tilt] /\
  Forall2 is_density (map dist_y [square flat; square tilt]) [one_dim flat; one_dim tilt].
Proof.
  cbn [map]. repeat match goal with |- _ /\ _ => split | |- Forall2 _ _ _ => constructor end; apply with_density_ok; intros z;
    first [apply two_dim_nonneg|apply one_dim_nonneg]; first [apply flat_nonneg|apply tilt_nonneg].
Qed.

(** The mixture with weights 1 and 1 (normalised to 1/2 and 1/2 by TFP). *)
Definition demo_mixture : joint_distribution demo :=
  {| dist_joint := tfd_mixture demo_tfp [1; 1] (map dist_joint [square flat; square tilt]);
     dist_x := tfd_mixture demo_tfp [1; 1] [side flat; side tilt];
     dist_y := tfd_mixture demo_tfp [1; 1] [side flat; side tilt];
     jd_dim_x := 1; jd_dim_y := 1; analytic_mi := None |}.
Lemma demo_mixture_ok : mixture demo_tfp [1; 1] [square flat; square tilt] = Ok demo_mixture.
Proof. reflexivity. Qed.
Lemma demo_proportions : good_proportions [1; 1].
Proof. split; [repeat constructor; lra|]. unfold rsum. cbn. lra. Qed.

Lemma demo_mixture_pmi u v : 0 < u <= 1 -> 0 < v <= 1 ->
  point_pmi demo_mixture [u] [v] = Fin (ln (2 * (1 + 4 * u * v) / ((1 + 2 * u) * (1 + 2 * v)))).
Proof.
  intros Hu Hv. destruct squares_ok as (Sj & Sx & Sy).
  destruct (mixture_densities demo_tfp _ _ _ _ _ _ demo_mixture_ok demo_proportions Sj Sx Sy) as (Dj & Dx & Dy).
  specialize (Dj ([u] ++ [v])%list). specialize (Dx [u]). specialize (Dy [v]).
  unfold weighted, rsum in Dj, Dx, Dy. cbn [fold_right map combine fst snd app one_dim two_dim] in Dj, Dx, Dy.
  unfold flat, tilt in Dj, Dx, Dy. repeat rewrite on_unit_in in Dj by lra. repeat rewrite on_unit_in in Dx by lra. repeat rewrite on_unit_in in Dy by lra.
  apply has_density_log in Dj, Dx, Dy. destruct Dj as [_ Dj], Dx as [_ Dx], Dy as [_ Dy].
  assert (0 < u * v) by nra.
  match type of Dj with _ = log_fl ?r => replace r with ((1 + 4 * (u * v)) / 2) in Dj by (field; lra) end.
  match type of Dx with _ = log_fl ?r => replace r with ((1 + 2 * u) / 2) in Dx by (field; lra) end.
  match type of Dy with _ = log_fl ?r => replace r with ((1 + 2 * v) / 2) in Dy by (field; lra) end.
  rewrite log_fl_pos in Dj, Dx, Dy by lra.
  unfold point_pmi. cbn [app] in *. rewrite Dj, Dx, Dy. cbn [fl_sub fl_add fl_opp]. f_equal.
  rewrite <- ln_mult by lra. change (?a + - ?b) with (a - b). unfold Rminus. rewrite <- ln_Rinv by nra.
  rewrite <- ln_mult by (first [lra|apply Rinv_0_lt_compat; nra]).
  f_equal. field. lra.
Qed.

(** The doubling map of a vector. *)
Definition doubling : bijector :=
  {| bij_forward := map (Rmult 2); bij_inverse := map (Rmult (/ 2));
     bij_ildj := fun y => Fin (- INR (length y) * ln 2) |}.
Lemma doubling_ok x : diffeomorphic_at doubling x.
Proof.
  split; [|split; [apply map_length|eexists; reflexivity]]. cbn. rewrite map_map.
  rewrite <- (map_id x) at 2. apply map_ext. intros a. field.
Qed.

(** Integration over one coordinate in [0, 1]. *)
Definition integrate_last (f : list R -> R) (x : list R) : R := RInt (fun t => f (x ++ [t])%list) 0 1.
Definition integrable_last (f : list R -> R) : Prop := forall x, ex_RInt (fun t => f (x ++ [t])%list) 0 1.
Definition integrate_first (f : list R -> R) (y : list R) : R := RInt (fun t => f (t :: y)) 0 1.
Definition integrable_first (f : list R -> R) : Prop := forall y, ex_RInt (fun t => f (t :: y)) 0 1.

Lemma integrals_linear (place : list R -> R -> list R) :
  linear_on (fun f => forall x, ex_RInt (fun t => f (place x t)) 0 1) (fun f x => RInt (fun t => f (place x t)) 0 1).
Proof.
  constructor.
  - intros f g Hf E. split.
    + intros x. eapply ex_RInt_ext; [|apply (Hf x)]. intros t _. apply E.
    + intros x. apply RInt_ext. intros t _. apply E.
  - split; [intros x; apply ex_RInt_const|]. intros x. rewrite RInt_const. unfold scal. cbn. unfold mult. cbn. ring.
  - intros f g Hf Hg. split.
    + intros x. apply @ex_RInt_plus; auto.
    + intros x. apply (RInt_plus (V := R_CompleteNormedModule)); auto.
  - intros c f Hf. split.
    + intros x. apply @ex_RInt_scal; auto.
    + intros x. apply (RInt_scal (V := R_CompleteNormedModule)); auto.
Qed.

Lemma integral_of_product a g c : is_RInt g 0 1 c -> is_RInt (fun t => a * on_unit g t) 0 1 (a * c).
Proof.
  intros H. apply (is_RInt_scal (V := R_NormedModule)). eapply is_RInt_ext; [|exact H].
  rewrite Rmin_left, Rmax_right by lra. intros t Ht. symmetry. apply on_unit_in. lra.
Qed.

Lemma flat_total : is_RInt (fun _ => 1) 0 1 1.
Proof.
  assert (H := is_RInt_const (V := R_NormedModule) 0 1 1). unfold scal in H. cbn in H. unfold mult in H. cbn in H.
  replace ((1 - 0) * 1) with 1 in H by ring. exact H.
Qed.
Lemma tilt_total : is_RInt (fun u => 2 * u) 0 1 1.
Proof.
  replace 1 with (minus (1 ^ 2) (0 ^ 2)) at 2 by (unfold minus, plus, opp; cbn; ring).
  apply (is_RInt_derive (fun u => u ^ 2)).
  - intros u _. auto_derive; [auto|ring].
  - intros u _. apply (continuous_mult (fun _ => 2) (fun u => u)); [apply continuous_const|apply continuous_id].
Qed.

Lemma marginal_last g : is_RInt g 0 1 1 ->
  integrable_last (two_dim (on_unit g)) /\ forall x, integrate_last (two_dim (on_unit g)) x = one_dim (on_unit g) x.
Proof.
  intros H.
  assert (K : forall x, is_RInt (fun t => two_dim (on_unit g) (x ++ [t])%list) 0 1 (one_dim (on_unit g) x)).
  { assert (Z : is_RInt (fun _ : R => 0) 0 1 0).
    { assert (Z := integral_of_product 0 g 1 H). rewrite Rmult_0_l in Z. eapply is_RInt_ext; [|exact Z]. intros; cbn; ring. }
    intros [|u [|v [|w x]]]; cbn; try exact Z.
    assert (P := integral_of_product (on_unit g u) g 1 H). rewrite Rmult_1_r in P. exact P. }
  split; intros x; [eexists; apply K|]. apply is_RInt_unique, K.
Qed.

Lemma marginal_first g : is_RInt g 0 1 1 ->
  integrable_first (two_dim (on_unit g)) /\ forall y, integrate_first (two_dim (on_unit g)) y = one_dim (on_unit g) y.
Proof.
  intros H.
  assert (K : forall y, is_RInt (fun t => two_dim (on_unit g) (t :: y)) 0 1 (one_dim (on_unit g) y)).
  { assert (Z : is_RInt (fun _ : R => 0) 0 1 0).
    { assert (Z := integral_of_product 0 g 1 H). rewrite Rmult_0_l in Z. eapply is_RInt_ext; [|exact Z]. intros; cbn; ring. }
    intros [|u [|v y]]; cbn; try exact Z.
    assert (P := integral_of_product (on_unit g u) g 1 H). rewrite Rmult_1_r in P. eapply is_RInt_ext; [|exact P].
    intros; cbn; ring. }
  split; intros y; [eexists; apply K|]. apply is_RInt_unique, K.
Qed.

(** ** Refutations *)

Lemma negative_accepted :
  exists ps (cs : list (joint_distribution demo)) d, mixture demo_tfp ps cs = Ok d /\ rsum ps = 1 /\
  forall z, log_prob (dist_joint d) z = NaN.
Proof.
  exists [2; -1], [square flat; square tilt]. eexists. split; [reflexivity|]. split; [unfold rsum; cbn; lra|].
  intros z. apply negative_weights; [|discriminate]. right. left. lra.
Qed.

Lemma product_not_everywhere :
  exists (a b : tfd demo) d x y, product_distribution demo_tfp a b = Ok d /\ length x = jd_dim_x d /\ length y = jd_dim_y d /\
  is_density a (one_dim flat) /\ is_density b (one_dim tilt) /\ point_pmi d x y <> Fin 0.
Proof.
  exists (side flat), (side tilt). eexists. exists [2], [1]. split; [reflexivity|]. split; [reflexivity|]. split; [reflexivity|].
  split; [apply with_density_ok; intros; apply one_dim_nonneg, flat_nonneg|].
  split; [apply with_density_ok; intros; apply one_dim_nonneg, tilt_nonneg|].
  match goal with |- point_pmi ?d _ _ <> _ => rewrite (product_pmi demo_tfp (side flat) (side tilt) d [2] [1] eq_refl eq_refl) end.
  cbn [log_prob side with_density one_dim].
  replace (flat 2) with 0; [rewrite log_fl_0; discriminate|].
  unfold flat, on_unit, Rleb. destruct (Rle_dec 0 2); destruct (Rle_dec 2 1); try lra; auto.
Qed.

(** Density 3/2 where both coordinates lie in the same half of the unit interval and 1/2
    elsewhere, with uniform marginals.  Its mutual information is known. *)
Definition same_half (u v : R) : bool := Bool.eqb (Rleb u (1 / 2)) (Rleb v (1 / 2)).
Definition blocks_density (z : list R) : R :=
  match z with [u; v] => flat u * flat v * (if same_half u v then 3 / 2 else 1 / 2) | _ => 0 end.
Definition blocks : joint_distribution demo :=
  {| dist_joint := with_density [2%nat] blocks_density square_rows; dist_x := side flat; dist_y := side flat;
     jd_dim_x := 1; jd_dim_y := 1; analytic_mi := Some (Fin (3 / 4 * ln (3 / 2) + 1 / 4 * ln (1 / 2))) |}.

Lemma analytic_ignored :
  exists (d : joint_distribution demo) v s n b, analytic_mi d = Some v /\ bmm_init d None s n = Ok b /\
  fst (bmm_mutual_information b) <> Ok v.
Proof.
  exists blocks. eexists. exists (@SeedInt demo 7), 1%Z. eexists. split; [reflexivity|]. split; [reflexivity|].
  assert (P : pmi_profile (7%Z : key demo) blocks 1 = Ok (map Fin [ln (3 / 2)])).
  { destruct (proj2 (profile_spec blocks 1 (7%Z : key demo))) as (p & -> & ->); [lia|].
    change (draw (dist_joint blocks) (7%Z : key demo) (Z.to_nat 1)) with [[1 / 4; 1 / 4]].
    cbn [map]. change (firstn (jd_dim_x blocks) [1 / 4; 1 / 4]) with [1 / 4]. change (skipn (jd_dim_x blocks) [1 / 4; 1 / 4]) with [1 / 4].
    unfold point_pmi. cbn [blocks dist_joint dist_x dist_y log_prob with_density side app one_dim blocks_density].
    unfold same_half. rewrite Bool.eqb_reflx. unfold flat. rewrite on_unit_in by lra. rewrite !log_fl_pos by lra.
    cbn [fl_add fl_sub fl_opp]. rewrite ln_1. do 3 f_equal. replace (1 * 1 * (3 / 2)) with (3 / 2) by field. ring. }
  unfold bmm_mutual_information. cbn [bm_mi bm_mi_estimate_seed bm_dist bm_mi_estimate_sample].
  change (cast_to_rng demo (@SeedInt demo 7)) with (7%Z : key demo).
  rewrite (proj1 (monte_carlo_finite blocks 1 _ _ ltac:(lia) P)). cbn [fst].
  assert (M : rmean [ln (3 / 2)] = ln (3 / 2)) by (unfold rmean, rsum; cbn; field). rewrite M.
  intros E. injection E as E.
  assert (H1 : 0 < ln (3 / 2)) by (rewrite <- ln_1; apply ln_increasing; lra).
  assert (H2 : ln (1 / 2) < 0) by (rewrite <- ln_1; apply ln_increasing; lra).
  lra.
Qed.

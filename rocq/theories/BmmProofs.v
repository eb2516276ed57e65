(** Proofs about the Bend and Mix Models. *)
From Coq Require Import Permutation.
From Verif Require Import Base BaseLemmas UtilsModel JaxModel SamplersModel BmmModel BmmSpec.
Open Scope R_scope.
Local Notation length := List.length.

(** ** Transformations *)

Lemma shift_pmi a b c r s :
  fl_sub (fl_add a (fl_add (Fin r) (Fin s))) (fl_add (fl_add b (Fin r)) (fl_add c (Fin s))) = fl_sub a (fl_add b c).
Proof. destruct a, b, c; cbn; try reflexivity. f_equal. ring. Qed.

Lemma optional_at o x : optional_diffeomorphic_at o x ->
  diffeomorphic_at (match o with None => tfb_identity | Some b => b end) x.
Proof. destruct o as [b|]; [auto|]. intros _. split; [reflexivity|]. split; [reflexivity|]. exists 0. reflexivity. Qed.

Lemma optional_forward o x : optional_map o x = bij_forward (match o with None => tfb_identity | Some b => b end) x.
Proof. destruct o; reflexivity. Qed.

Lemma transform_point {J} (d : joint_distribution J) f g x y :
  length x = jd_dim_x d -> optional_diffeomorphic_at f x -> optional_diffeomorphic_at g y ->
  point_pmi (transform_dist d f g) (optional_map f x) (optional_map g y) = point_pmi d x y.
Proof.
  intros Hx Hf Hg. apply optional_at in Hf, Hg. rewrite !optional_forward.
  set (f' := match f with None => _ | Some _ => _ end) in *. set (g' := match g with None => _ | Some _ => _ end) in *.
  destruct Hf as (If & Lf & r & Jf). destruct Hg as (Ig & Lg & s & Jg).
  unfold point_pmi, transform_dist. cbn [dist_joint dist_x dist_y]. unfold tfd_transformed. cbn [log_prob]. fold f' g'.
  unfold tfb_blockwise. cbn [bij_inverse bij_ildj].
  rewrite <- Hx, <- Lf, firstn_app, skipn_app, Nat.sub_diag, firstn_all, skipn_all, firstn_O, app_nil_r, skipn_O.
  cbn [app]. rewrite If, Ig, Jf, Jg. apply shift_pmi.
Qed.

Lemma transform_kept {J} (d : joint_distribution J) f g :
  jd_dim_x (transform_dist d f g) = jd_dim_x d /\ jd_dim_y (transform_dist d f g) = jd_dim_y d /\
  analytic_mi (transform_dist d f g) = analytic_mi d.
Proof. repeat split. Qed.

Lemma transform_pmi {J} (d : joint_distribution J) f g xs ys :
  Forall (fun x => length x = jd_dim_x d /\ optional_diffeomorphic_at f x) xs ->
  Forall (optional_diffeomorphic_at g) ys ->
  jd_pmi (transform_dist d f g) (map (optional_map f) xs) (map (optional_map g) ys) = jd_pmi d xs ys.
Proof.
  intros Hx Hy. unfold jd_pmi. rewrite !map_length. destruct (negb _) eqn:E; [reflexivity|]. f_equal.
  apply negb_false_iff, Nat.eqb_eq in E.
  revert ys Hy E. induction Hx as [|x xs [Hl Hf] Hx IH]; intros [|y ys] Hy E; try reflexivity; try discriminate.
  inversion Hy as [|? ? Hg Hy']; subst. cbn [map combine fst snd]. f_equal.
  - apply transform_point; auto.
  - apply IH; auto.
Qed.

Lemma transform_sample {J} (d : joint_distribution J) f g n k :
  Forall (fun row => (jd_dim_x d <= length row)%nat) (draw (dist_joint d) k (Z.to_nat n)) ->
  Forall (fun row => optional_diffeomorphic_at f (firstn (jd_dim_x d) row)) (draw (dist_joint d) k (Z.to_nat n)) ->
  jd_sample (transform_dist d f g) n k
  = rmap (fun xy => (map (optional_map f) (fst xy), map (optional_map g) (snd xy))) (jd_sample d n k).
Proof.
  intros Hl Hf. unfold jd_sample. destruct (n <? 1)%Z; [reflexivity|]. cbn [rmap fst snd]. unfold transform_dist.
  cbn [dist_joint jd_dim_x tfd_transformed draw]. rewrite !map_map.
  set (f' := match f with None => _ | Some _ => _ end) in *. set (g' := match g with None => _ | Some _ => _ end) in *.
  f_equal. f_equal; apply map_ext_in; intros row Hrow; cbn [tfb_blockwise bij_forward];
    rewrite Forall_forall in Hl, Hf; specialize (Hl _ Hrow); specialize (Hf _ Hrow);
    apply optional_at in Hf; fold f' in Hf; destruct Hf as (_ & Lf & _);
    (assert (Hlen : length (bij_forward f' (firstn (jd_dim_x d) row)) = jd_dim_x d)
      by (rewrite Lf, firstn_length; lia)).
  - rewrite <- Hlen at 1. rewrite firstn_app, Nat.sub_diag, firstn_all, firstn_O, app_nil_r. symmetry. apply optional_forward.
  - rewrite <- Hlen at 1. rewrite skipn_app, Nat.sub_diag, skipn_all, skipn_O. symmetry. apply optional_forward.
Qed.

Lemma transform_profile {J} (d : joint_distribution J) f g n k :
  pairs_drawn (Z.to_nat n) (jd_dim_x d) (jd_dim_y d) (draw (dist_joint d) k (Z.to_nat n)) ->
  Forall (fun row => optional_diffeomorphic_at f (firstn (jd_dim_x d) row) /\
                     optional_diffeomorphic_at g (skipn (jd_dim_x d) row)) (draw (dist_joint d) k (Z.to_nat n)) ->
  pmi_profile k (transform_dist d f g) n = pmi_profile k d n /\
  monte_carlo_mi_estimate k (transform_dist d f g) n = monte_carlo_mi_estimate k d n.
Proof.
  intros [_ Hl] Hd.
  assert (E : pmi_profile k (transform_dist d f g) n = pmi_profile k d n).
  { unfold pmi_profile. rewrite transform_sample.
    - unfold jd_sample. destruct (n <? 1)%Z; [reflexivity|]. cbn [rmap bind fst snd]. apply transform_pmi.
      + apply Forall_map. rewrite Forall_forall in *. intros row Hrow. specialize (Hl _ Hrow).
        rewrite firstn_length. split; [lia|apply Hd; auto].
      + apply Forall_map. rewrite Forall_forall in *. intros row Hrow. apply Hd; auto.
    - rewrite Forall_forall in *. intros row Hrow. specialize (Hl _ Hrow). lia.
    - rewrite Forall_forall in *. intros row Hrow. apply Hd; auto. }
  split; [exact E|]. unfold monte_carlo_mi_estimate. rewrite E. reflexivity.
Qed.

(** ** Mixtures *)

Lemma single_value_spec l : single_value l = true <-> exists a, l <> [] /\ Forall (eq a) l.
Proof.
  destruct l as [|a l]; cbn [single_value].
  - split; [discriminate|]. intros (a & H & _). contradiction.
  - rewrite forallb_forall. split.
    + intros H. exists a. split; [discriminate|]. constructor; [reflexivity|]. apply Forall_forall. intros b Hb.
      apply Nat.eqb_eq, H, Hb.
    + intros (b & _ & H). inversion H as [|? ? E Hl]; subst. rewrite Forall_forall in Hl. intros x Hx. apply Nat.eqb_eq, Hl, Hx.
Qed.

Lemma mixture_accepts {J} (T : tfp_draws J) ps cs :
  ((exists d, mixture T ps cs = Ok d) <->
   cs <> [] /\ length cs = length ps /\
   exists dx dy, Forall (fun c => jd_dim_x c = dx /\ jd_dim_y c = dy) cs) /\
  ((exists d, mixture T ps cs = Ok d) \/ mixture T ps cs = Err ValueError) /\
  forall d, mixture T ps cs = Ok d -> analytic_mi d = None /\
    Forall (fun c => jd_dim_x c = jd_dim_x d /\ jd_dim_y c = jd_dim_y d) cs.
Proof.
  assert (K : single_value (map jd_dim_x cs) = true -> single_value (map jd_dim_y cs) = true ->
    cs <> [] /\ Forall (fun c => jd_dim_x c = hd 0%nat (map jd_dim_x cs) /\ jd_dim_y c = hd 0%nat (map jd_dim_y cs)) cs).
  { rewrite !single_value_spec. intros (a & Ha & Fa) (b & Hb & Fb). split; [destruct cs; cbn in *; congruence|].
    destruct cs as [|c cs]; [constructor|]. cbn [map hd] in *.
    inversion Fa; inversion Fb; subst. apply Forall_forall. intros c' Hc'.
    rewrite Forall_forall in Fa, Fb. split; symmetry; [apply Fa|apply Fb]; change (f_equal ?f) with (f_equal f).
    - change (In (jd_dim_x c') (map jd_dim_x (c :: cs))). apply in_map. auto.
    - change (In (jd_dim_y c') (map jd_dim_y (c :: cs))). apply in_map. auto. }
  assert (K' : cs <> [] -> (exists dx dy, Forall (fun c => jd_dim_x c = dx /\ jd_dim_y c = dy) cs) ->
    single_value (map jd_dim_x cs) = true /\ single_value (map jd_dim_y cs) = true).
  { intros Hne (dx & dy & HF). split; apply single_value_spec; [exists dx|exists dy];
      (split; [destruct cs; cbn in *; congruence|]); apply Forall_map; eapply Forall_impl; try exact HF; cbn; intros ? [? ?]; auto. }
  unfold mixture. cbn zeta.
  destruct (single_value (map jd_dim_x cs) && single_value (map jd_dim_y cs)) eqn:E.
  - apply andb_prop in E as [E1 E2]. rewrite E1, E2. cbn [negb orb]. destruct (K E1 E2) as [Hne HF].
    destruct (Nat.eqb_spec (length cs) (length ps)) as [El|El]; cbn [negb].
    + split; [|split]; [split; [intros _; eauto 6|eauto]|eauto|]. intros d E. injection E as <-. cbn. auto.
    + split; [split; [intros [? ?]; discriminate|intros (_ & ? & _); contradiction]|]. split; [auto|discriminate].
  - rewrite <- negb_andb, E. cbn [negb].
    split; [split; [intros [? ?]; discriminate|]|split; [auto|discriminate]].
    intros (Hne & _ & HF). destruct (K' Hne HF) as [E1 E2]. rewrite E1, E2 in E. discriminate.
Qed.

(** Log-probabilities of a mixture. *)

Lemma log_fl_pos v : 0 < v -> log_fl v = Fin (ln v).
Proof. intros H. unfold log_fl, Rltb. destruct (Rlt_dec 0 v); [reflexivity|lra]. Qed.
Lemma log_fl_0 : log_fl 0 = NInf.
Proof. unfold log_fl, Rltb, Reqb. destruct (Rlt_dec 0 0); [lra|]. destruct (Req_EM_T 0 0); [reflexivity|lra]. Qed.

Lemma has_density_log {J} (d : tfd J) z v : has_density d z v <-> 0 <= v /\ log_prob d z = log_fl v.
Proof.
  unfold has_density. split.
  - intros [[H E]|[H E]]; subst; rewrite E; [rewrite log_fl_pos by auto|rewrite log_fl_0]; split; auto; lra.
  - intros [[H|H] E]; subst; [left; rewrite E, log_fl_pos by auto; auto|right; rewrite E, log_fl_0; auto].
Qed.

Lemma log_fl_mult p v : 0 <= p -> 0 <= v -> fl_add (log_fl p) (log_fl v) = log_fl (p * v).
Proof.
  intros [Hp|<-] [Hv|<-].
  - rewrite !log_fl_pos by (auto using Rmult_lt_0_compat). cbn. rewrite ln_mult by auto. reflexivity.
  - rewrite Rmult_0_r, log_fl_0, log_fl_pos by auto. reflexivity.
  - rewrite Rmult_0_l, log_fl_0, log_fl_pos by auto. reflexivity.
  - rewrite Rmult_0_r, log_fl_0. reflexivity.
Qed.

Lemma log_fl_finite v : 0 <= v -> is_nan (log_fl v) = false /\ is_pinf (log_fl v) = false /\ exp_part (log_fl v) = v.
Proof.
  intros [Hv|<-].
  - rewrite log_fl_pos by auto. cbn. rewrite exp_ln by auto. auto.
  - rewrite log_fl_0. auto.
Qed.

Lemma log_sum_exp_logs l : Forall (fun v => 0 <= v) l -> log_sum_exp (map log_fl l) = log_fl (rsum l).
Proof.
  intros H. unfold log_sum_exp.
  assert (E1 : existsb is_nan (map log_fl l) = false).
  { induction H as [|v l Hv _ IH]; [reflexivity|]. cbn. rewrite (proj1 (log_fl_finite v Hv)). exact IH. }
  assert (E2 : existsb is_pinf (map log_fl l) = false).
  { clear E1. induction H as [|v l Hv _ IH]; [reflexivity|]. cbn. rewrite (proj1 (proj2 (log_fl_finite v Hv))). exact IH. }
  rewrite E1, E2. do 2 f_equal. rewrite map_map. clear E1 E2.
  induction H as [|v l Hv _ IH]; [reflexivity|]. cbn [map]. rewrite IH, (proj2 (proj2 (log_fl_finite v Hv))). reflexivity.
Qed.

Lemma cat_good ps : good_proportions ps -> cat_log_probs ps = map (fun p => log_fl (p / rsum ps)) ps.
Proof.
  intros [H1 H2]. unfold cat_log_probs.
  replace (existsb (fun p => Rltb p 0) ps) with false.
  - unfold Reqb. destruct (Req_EM_T (rsum ps) 0); [lra|reflexivity].
  - symmetry. clear H2. induction H1 as [|p ps Hp _ IH]; [reflexivity|]. cbn. rewrite IH. unfold Rltb. destruct (Rlt_dec p 0); [lra|reflexivity].
Qed.

Lemma mixture_density {J} (T : tfp_draws J) ps ds z vs : good_proportions ps -> length ds = length ps ->
  Forall2 (fun d v => has_density d z v) ds vs ->
  has_density (tfd_mixture T ps ds) z (rsum (map (fun pv => fst pv * snd pv) (combine ps vs)) / rsum ps).
Proof.
  intros Hp Hl Hd. apply has_density_log. assert (Hs := proj2 Hp).
  assert (Hv : Forall (fun v => 0 <= v) vs).
  { clear Hl. induction Hd as [|d v ds vs H _ IH]; constructor; auto. apply has_density_log in H. tauto. }
  set (terms := map (fun pv => fst pv / rsum ps * snd pv) (combine ps vs)).
  assert (Ht : Forall (fun v => 0 <= v) terms).
  { unfold terms. apply Forall_map. apply Forall_forall. intros [p v] Hin. cbn.
    rewrite Forall_forall in Hv. destruct Hp as [Hp _]. rewrite Forall_forall in Hp.
    apply Rmult_le_pos; [|apply Hv; eapply in_combine_r; eauto].
    unfold Rdiv. apply Rmult_le_pos; [apply Hp; eapply in_combine_l; eauto|]. left. apply Rinv_0_lt_compat, Hs. }
  assert (Es : rsum terms = rsum (map (fun pv => fst pv * snd pv) (combine ps vs)) / rsum ps).
  { unfold terms. transitivity (rsum (map (fun pv => / rsum ps * (fst pv * snd pv)) (combine ps vs))).
    - f_equal. apply map_ext. intros [p v]. cbn. field. lra.
    - rewrite rsum_scal. unfold Rdiv. ring. }
  rewrite <- Es. split.
  - clear Es. induction Ht as [|t l H _ IH]; [unfold rsum; cbn; lra|]. rewrite rsum_cons. lra.
  - cbn [tfd_mixture log_prob]. rewrite <- log_sum_exp_logs by auto. f_equal. rewrite cat_good by auto. unfold terms. rewrite map_map.
    clear terms Ht Es. destruct Hp as [Hp _]. set (s := rsum ps) in *. clearbody s.
    revert ps Hp Hl. induction Hd as [|d v ds vs H Hd IH]; intros [|p ps] Hp Hl; try reflexivity; try discriminate.
    inversion Hp; inversion Hv; subst. cbn [map combine fst snd]. f_equal; [|apply IH; auto].
    apply has_density_log in H as [_ ->]. apply log_fl_mult; auto. unfold Rdiv. apply Rmult_le_pos; [auto|].
    left. apply Rinv_0_lt_compat. auto.
Qed.

Lemma mixture_parts {J} (T : tfp_draws J) ps cs d : mixture T ps cs = Ok d ->
  length cs = length ps /\
  dist_joint d = tfd_mixture T ps (map dist_joint cs) /\ dist_x d = tfd_mixture T ps (map dist_x cs) /\
  dist_y d = tfd_mixture T ps (map dist_y cs).
Proof.
  unfold mixture. cbn zeta. destruct (_ || _); [discriminate|].
  destruct (Nat.eqb_spec (length cs) (length ps)); cbn [negb]; [|discriminate]. intros E. injection E as <-. cbn. auto.
Qed.

Lemma mixture_is_density {J} (T : tfp_draws J) ps ds fs : good_proportions ps -> length ds = length ps ->
  Forall2 is_density ds fs -> is_density (tfd_mixture T ps ds) (fun z => weighted ps fs z / rsum ps).
Proof.
  intros Hp Hl Hd z. unfold weighted.
  replace (map (fun pf => fst pf * snd pf z) (combine ps fs))
    with (map (fun pv : R * R => fst pv * snd pv) (combine ps (map (fun f => f z) fs))).
  - apply mixture_density; auto. clear Hl. induction Hd as [|a f ds' fs' H _ IH]; cbn; constructor; auto.
  - clear. revert ps. induction fs as [|f fs IH]; intros [|p ps]; cbn; auto. rewrite IH. reflexivity.
Qed.

Lemma mixture_densities {J} (T : tfp_draws J) ps cs d fj fx fy : mixture T ps cs = Ok d -> good_proportions ps ->
  Forall2 is_density (map dist_joint cs) fj -> Forall2 is_density (map dist_x cs) fx ->
  Forall2 is_density (map dist_y cs) fy ->
  is_density (dist_joint d) (fun z => weighted ps fj z / rsum ps) /\
  is_density (dist_x d) (fun z => weighted ps fx z / rsum ps) /\
  is_density (dist_y d) (fun z => weighted ps fy z / rsum ps).
Proof.
  intros Hd Hp Hj Hx Hy. destruct (mixture_parts T ps cs d Hd) as (Hl & -> & -> & ->).
  repeat split; apply mixture_is_density; auto; rewrite map_length; auto.
Qed.

Lemma marginal_of_sum I M ps fs gs : linear_on I M -> Forall2 (fun f g => I f /\ forall x, M f x = g x) fs gs ->
  forall c, I (fun z => weighted ps fs z / c) /\ forall x, M (fun z => weighted ps fs z / c) x = weighted ps gs x / c.
Proof.
  intros HM Hf c.
  assert (H : I (weighted ps fs) /\ forall x, M (weighted ps fs) x = weighted ps gs x).
  { destruct (lin_zero I M HM) as [Z1 Z2].
    assert (Z : I (fun _ => rsum []) /\ forall x, M (fun _ => rsum []) x = rsum []) by (split; assumption).
    revert ps. induction Hf as [|f g fs gs [Hf H] _ IH]; intros [|p ps]; try exact Z.
    destruct (IH ps) as [I1 I2]. destruct (lin_scale I M HM p f Hf) as [S1 S2].
    destruct (lin_add I M HM _ _ S1 I1) as [A1 A2].
    split; [eapply (lin_ext I M HM); [exact A1|reflexivity]|]. intros x.
    transitivity (M (fun z => p * f z + weighted ps fs z) x); [apply (lin_ext I M HM); [exact A1|reflexivity]|].
    rewrite A2, S2, H, I2. reflexivity. }
  destruct H as [H1 H2]. destruct (lin_scale I M HM (/ c) _ H1) as [S1 S2].
  assert (E : forall z, weighted ps fs z / c = / c * weighted ps fs z) by (intros; unfold Rdiv; ring).
  split; [eapply (lin_ext I M HM); [exact S1|intros; symmetry; apply E]|]. intros x.
  transitivity (M (fun z => / c * weighted ps fs z) x).
  - symmetry. apply (lin_ext I M HM); [exact S1|intros; symmetry; apply E].
  - rewrite S2, H2. unfold Rdiv. ring.
Qed.

Lemma mixture_marginals {J} (T : tfp_draws J) ps cs d fj fx fy Ix Iy Mx My : mixture T ps cs = Ok d -> good_proportions ps ->
  Forall2 is_density (map dist_joint cs) fj -> Forall2 is_density (map dist_x cs) fx ->
  Forall2 is_density (map dist_y cs) fy -> linear_on Ix Mx -> linear_on Iy My ->
  Forall2 (fun f g => Ix f /\ forall x, Mx f x = g x) fj fx -> Forall2 (fun f g => Iy f /\ forall y, My f y = g y) fj fy ->
  exists gj gx gy, is_density (dist_joint d) gj /\ is_density (dist_x d) gx /\ is_density (dist_y d) gy /\
    (Ix gj /\ forall x, Mx gj x = gx x) /\ (Iy gj /\ forall y, My gj y = gy y).
Proof.
  intros Hd Hp Hj Hx Hy Lx Ly Ex Ey. destruct (mixture_densities T ps cs d fj fx fy Hd Hp Hj Hx Hy) as (Dj & Dx & Dy).
  do 3 eexists. split; [exact Dj|]. split; [exact Dx|]. split; [exact Dy|].
  split; apply marginal_of_sum; auto.
Qed.

Lemma identical_density {J} (T : tfp_draws J) ps ds (d0 : tfd J) z v : good_proportions ps -> length ds = length ps ->
  Forall (fun d => log_prob d z = log_prob d0 z) ds -> has_density d0 z v ->
  log_prob (tfd_mixture T ps ds) z = log_prob d0 z.
Proof.
  intros Hp Hl Hd Hv.
  assert (H : has_density (tfd_mixture T ps ds) z (rsum (map (fun pv => fst pv * snd pv) (combine ps (repeat v (length ds)))) / rsum ps)).
  { apply mixture_density; auto. clear Hl. induction Hd as [|d ds Hd _ IH]; cbn; constructor; auto.
    unfold has_density in *. rewrite Hd. exact Hv. }
  apply has_density_log in H as [_ ->]. apply has_density_log in Hv as [_ ->]. f_equal.
  rewrite Hl. clear Hl Hd. destruct Hp as [_ Hs].
  assert (E : rsum (map (fun pv => fst pv * snd pv) (combine ps (repeat v (length ps)))) = rsum ps * v).
  { clear Hs. induction ps as [|p ps IH]; [unfold rsum; cbn; lra|]. cbn [length repeat combine map fst snd]. rewrite !rsum_cons, IH. ring. }
  rewrite E. field. lra.
Qed.

Lemma mixture_identical {J} (T : tfp_draws J) ps cs d c x y v vx vy : mixture T ps cs = Ok d -> good_proportions ps ->
  Forall (eq c) cs -> has_density (dist_joint c) (x ++ y)%list v -> has_density (dist_x c) x vx -> has_density (dist_y c) y vy ->
  point_pmi d x y = point_pmi c x y.
Proof.
  intros Hd Hp Hc Hj Hx Hy. destruct (mixture_parts T ps cs d Hd) as (Hl & E1 & E2 & E3).
  unfold point_pmi. rewrite E1, E2, E3.
  assert (K : forall (pr : joint_distribution J -> tfd J) z, Forall (fun t => log_prob t z = log_prob (pr c) z) (map pr cs)).
  { intros pr z. apply Forall_map. eapply Forall_impl; [|exact Hc]. cbn. intros ? <-. reflexivity. }
  rewrite (identical_density T ps (map dist_joint cs) (dist_joint c) _ v) by (auto; rewrite map_length; auto).
  rewrite (identical_density T ps (map dist_x cs) (dist_x c) _ vx) by (auto; rewrite map_length; auto).
  rewrite (identical_density T ps (map dist_y cs) (dist_y c) _ vy) by (auto; rewrite map_length; auto).
  reflexivity.
Qed.

(** Reordering. *)

Lemma existsb_perm {A} (f : A -> bool) l l' : Permutation l l' -> existsb f l = existsb f l'.
Proof.
  induction 1 as [|a l l' _ IH|a b l|l1 l2 l3 _ IH1 _ IH2]; cbn; try congruence.
  destruct (f a), (f b); reflexivity.
Qed.

Lemma log_sum_exp_perm l l' : Permutation l l' -> log_sum_exp l = log_sum_exp l'.
Proof.
  intros H. unfold log_sum_exp. rewrite !(existsb_perm _ _ _ H).
  rewrite (rsum_perm _ _ (Permutation_map exp_part H)). reflexivity.
Qed.

Lemma map_fst_combine {A B} (l : list A) (l' : list B) : length l = length l' -> map fst (combine l l') = l.
Proof. revert l'. induction l as [|a l IH]; intros [|b l'] H; cbn in *; try discriminate; auto. rewrite IH; auto. Qed.

Lemma combine_map_l {A B C} (f : A -> C) (l : list A) (l' : list B) :
  combine (map f l) l' = map (fun p => (f (fst p), snd p)) (combine l l').
Proof. revert l'. induction l as [|a l IH]; intros [|b l']; cbn; auto. rewrite IH. reflexivity. Qed.

Lemma combine_map_r {A B C} (f : B -> C) (l : list A) (l' : list B) :
  combine l (map f l') = map (fun p => (fst p, f (snd p))) (combine l l').
Proof. revert l'. induction l as [|a l IH]; intros [|b l']; cbn; auto. rewrite IH. reflexivity. Qed.

Lemma mixture_log_prob_perm {J} (T : tfp_draws J) ps ds ps' ds' z : length ds = length ps -> length ds' = length ps' ->
  Permutation (combine ps ds) (combine ps' ds') ->
  log_prob (tfd_mixture T ps ds) z = log_prob (tfd_mixture T ps' ds') z.
Proof.
  intros H1 H2 Hp. cbn [tfd_mixture log_prob]. apply log_sum_exp_perm. apply Permutation_map.
  assert (Pp : Permutation ps ps').
  { rewrite <- (map_fst_combine ps ds), <- (map_fst_combine ps' ds') by auto. apply Permutation_map, Hp. }
  unfold cat_log_probs. rewrite (existsb_perm _ _ _ Pp), (rsum_perm _ _ Pp).
  destruct (_ || _); rewrite !combine_map_l; apply Permutation_map, Hp.
Qed.

Lemma mixture_perm {J} (T : tfp_draws J) ps cs ps' cs' d d' : mixture T ps cs = Ok d -> mixture T ps' cs' = Ok d' ->
  Permutation (combine ps cs) (combine ps' cs') ->
  jd_dim_x d = jd_dim_x d' /\ jd_dim_y d = jd_dim_y d' /\ forall x y, point_pmi d x y = point_pmi d' x y.
Proof.
  intros Hd Hd' Hp. assert (A := proj2 (proj2 (mixture_accepts T ps cs)) d Hd). assert (A' := proj2 (proj2 (mixture_accepts T ps' cs')) d' Hd').
  destruct (mixture_parts T ps cs d Hd) as (Hl & E1 & E2 & E3). destruct (mixture_parts T ps' cs' d' Hd') as (Hl' & E1' & E2' & E3').
  assert (Pc : Permutation cs cs').
  { assert (E : forall (a : list R) (b : list (joint_distribution J)), length b = length a -> map snd (combine a b) = b).
    { clear. induction a as [|p a IH]; intros [|c b] H; cbn in *; try discriminate; auto. rewrite IH; auto. }
    rewrite <- (E ps cs), <- (E ps' cs') by auto. apply Permutation_map, Hp. }
  assert (Hne : cs <> []) by (intros ->; unfold mixture in Hd; discriminate).
  destruct cs as [|c cs0]; [contradiction|].
  assert (Hin : In c cs') by (eapply Permutation_in; [exact Pc|left; reflexivity]).
  destruct A as [_ A]. destruct A' as [_ A']. rewrite Forall_forall in A, A'.
  destruct (A c (or_introl eq_refl)) as [<- <-]. destruct (A' c Hin) as [<- <-]. split; [reflexivity|]. split; [reflexivity|].
  intros x y. unfold point_pmi. rewrite E1, E2, E3, E1', E2', E3'.
  assert (K : forall (pr : joint_distribution J -> tfd J) z,
    log_prob (tfd_mixture T ps (map pr (c :: cs0))) z = log_prob (tfd_mixture T ps' (map pr cs')) z).
  { intros pr z. apply mixture_log_prob_perm; try (rewrite map_length; auto; fail).
    rewrite !combine_map_r. apply Permutation_map, Hp. }
  rewrite !K. reflexivity.
Qed.

Lemma rsum_scaled c l : rsum (map (Rmult c) l) = c * rsum l.
Proof. rewrite <- (map_id l) at 2. apply rsum_scal. Qed.

Lemma mixture_scaled {J} (T : tfp_draws J) ps ds c z : 0 < c ->
  log_prob (tfd_mixture T (map (Rmult c) ps) ds) z = log_prob (tfd_mixture T ps ds) z.
Proof.
  intros Hc. cbn [tfd_mixture log_prob]. do 3 f_equal. unfold cat_log_probs. rewrite rsum_scaled.
  replace (existsb (fun p => Rltb p 0) (map (Rmult c) ps)) with (existsb (fun p => Rltb p 0) ps).
  - replace (Reqb (c * rsum ps) 0) with (Reqb (rsum ps) 0).
    + destruct (_ || Reqb _ _) eqn:E; rewrite !map_map; [reflexivity|]. apply map_ext. intros p.
      f_equal. apply orb_false_iff in E as [_ E]. unfold Reqb in E. destruct (Req_EM_T (rsum ps) 0); [discriminate|].
      field. split; [auto|lra].
    + unfold Reqb. destruct (Req_EM_T (rsum ps) 0), (Req_EM_T (c * rsum ps) 0); auto; nra.
  - induction ps as [|p ps IH]; [reflexivity|]. cbn. rewrite IH. f_equal. unfold Rltb.
    destruct (Rlt_dec p 0), (Rlt_dec (c * p) 0); auto; nra.
Qed.

Lemma negative_weights {J} (T : tfp_draws J) ps ds z : Exists (fun p => p < 0) ps -> ds <> [] ->
  log_prob (tfd_mixture T ps ds) z = NaN.
Proof.
  intros Hp Hd. cbn [tfd_mixture log_prob]. unfold cat_log_probs.
  replace (existsb (fun p => Rltb p 0) ps) with true.
  - cbn [orb]. destruct ps as [|p ps]; [inversion Hp|]. destruct ds as [|d ds]; [contradiction|]. cbn [map combine fst].
    unfold log_sum_exp. cbn [existsb]. destruct (log_prob (snd (NaN, d)) z); reflexivity.
  - symmetry. apply existsb_exists. apply Exists_exists in Hp as (p & Hin & Hneg). exists p. split; [auto|].
    unfold Rltb. destruct (Rlt_dec p 0); auto.
Qed.

(** ** Products *)

Lemma product_spec {J} (T : tfp_draws J) (a b : tfd J) :
  ((exists d, product_distribution T a b = Ok d) <-> length (event_shape a) = 1%nat /\ length (event_shape b) = 1%nat) /\
  forall d, product_distribution T a b = Ok d ->
    event_shape a = [jd_dim_x d] /\ event_shape b = [jd_dim_y d] /\ analytic_mi d = Some (Fin 0) /\
    dist_x d = a /\ dist_y d = b /\
    forall x y, length x = jd_dim_x d ->
      log_prob (dist_joint d) (x ++ y)%list = fl_add (log_prob a x) (log_prob b y).
Proof.
  unfold product_distribution. split.
  - destruct (event_shape a) as [|? [|]], (event_shape b) as [|? [|]]; cbn; split;
      try (intros [? ?]; discriminate); try (intros [? ?]; lia); eauto.
  - intros d. destruct (event_shape a) as [|dx [|]], (event_shape b) as [|dy [|]]; try discriminate.
    intros E. injection E as <-. cbn. repeat split. intros x y <-.
    rewrite firstn_app, skipn_app, Nat.sub_diag, firstn_all, skipn_all, firstn_O, app_nil_r, skipn_O. reflexivity.
Qed.

Lemma product_pmi {J} (T : tfp_draws J) (a b : tfd J) d x y : product_distribution T a b = Ok d -> length x = jd_dim_x d ->
  point_pmi d x y = match log_prob a x, log_prob b y with Fin _, Fin _ => Fin 0 | _, _ => NaN end.
Proof.
  intros Hd Hx. destruct (proj2 (product_spec T a b) d Hd) as (_ & _ & _ & E1 & E2 & E3).
  unfold point_pmi. rewrite E1, E2, E3 by auto. destruct (log_prob a x), (log_prob b y); cbn; try reflexivity.
  f_equal. ring.
Qed.

(** ** Monte Carlo *)

Lemma fl_sum_fin l : fl_sum (map Fin l) = Fin (rsum l).
Proof. induction l as [|a l IH]; [reflexivity|]. cbn [map fl_sum fold_right]. fold (fl_sum (map Fin l)). rewrite IH. reflexivity. Qed.

Lemma fl_mean_fin l : fl_mean (map Fin l) = Fin (rmean l).
Proof. unfold fl_mean. rewrite fl_sum_fin, map_length. reflexivity. Qed.

Lemma rsum_nonneg l : Forall (fun v => 0 <= v) l -> 0 <= rsum l.
Proof. induction 1 as [|v l H _ IH]; [unfold rsum; cbn; lra|]. rewrite rsum_cons. lra. Qed.

Lemma rmean_nonneg l : Forall (fun v => 0 <= v) l -> 0 <= rmean l.
Proof.
  intros H. unfold rmean. destruct l as [|a l]; [unfold rsum; cbn; lra|].
  apply Rmult_le_pos; [apply rsum_nonneg, H|]. left. apply Rinv_0_lt_compat. apply lt_0_INR. cbn; lia.
Qed.

Lemma fl_std_fin l : fl_std (map Fin l) = Fin (deviation l).
Proof.
  unfold fl_std. rewrite fl_mean_fin, map_map.
  replace (map (fun x => fl_square (fl_sub (Fin x) (Fin (rmean l)))) l) with (map Fin (map (fun v => (v - rmean l) ^ 2) l)).
  - rewrite fl_mean_fin. cbn [fl_sqrt]. unfold Rltb. destruct (Rlt_dec _ _) as [H|H]; [|reflexivity].
    exfalso. assert (0 <= rmean (map (fun v => (v - rmean l) ^ 2) l)).
    { apply rmean_nonneg. apply Forall_map, Forall_forall. intros. apply pow2_ge_0. }
    lra.
  - rewrite map_map. apply map_ext. intros v. cbn. f_equal. unfold Rminus. ring.
Qed.

Lemma sample_rows {J} (d : joint_distribution J) n k xs ys : jd_sample d n k = Ok (xs, ys) -> length xs = length ys.
Proof. unfold jd_sample. destruct (_ <? _)%Z; [discriminate|]. intros E. injection E as <- <-. rewrite !map_length. reflexivity. Qed.

Lemma profile_spec {J} (d : joint_distribution J) n k :
  ((n < 1)%Z -> pmi_profile k d n = Err ValueError /\ monte_carlo_mi_estimate k d n = Err ValueError) /\
  ((1 <= n)%Z -> exists p, pmi_profile k d n = Ok p /\
     p = map (fun z => point_pmi d (firstn (jd_dim_x d) z) (skipn (jd_dim_x d) z)) (draw (dist_joint d) k (Z.to_nat n))).
Proof.
  unfold monte_carlo_mi_estimate, pmi_profile, jd_sample. destruct (Z.ltb_spec n 1).
  - split; [auto|lia].
  - split; [lia|]. intros _. cbn [bind]. unfold jd_pmi. rewrite !map_length, Nat.eqb_refl. cbn [negb].
    eexists. split; [reflexivity|].
    generalize (draw (dist_joint d) k (Z.to_nat n)) as l. induction l as [|z l IH]; [reflexivity|]. cbn [map combine fst snd].
    rewrite IH. reflexivity.
Qed.

Lemma monte_carlo_finite {J} (d : joint_distribution J) n k l :
  (1 <= n)%Z -> pmi_profile k d n = Ok (map Fin l) ->
  monte_carlo_mi_estimate k d n = Ok (Fin (rmean l), Fin (deviation l / sqrt (IZR n))) /\ 0 <= deviation l / sqrt (IZR n).
Proof.
  intros Hn H. unfold monte_carlo_mi_estimate. rewrite H. cbn [bind]. rewrite fl_mean_fin, fl_std_fin. split; [reflexivity|].
  apply Rmult_le_pos; [apply sqrt_pos|]. left. apply Rinv_0_lt_compat, sqrt_lt_R0. apply IZR_lt. lia.
Qed.

Lemma repeat_zero l : Forall (eq 0) l -> rmean l = 0 /\ deviation l = 0.
Proof.
  intros H.
  assert (E : rsum l = 0) by (clear -H; induction H as [|a l <- _ IH]; [reflexivity|rewrite rsum_cons, IH; lra]).
  assert (Em : rmean l = 0) by (unfold rmean; rewrite E; unfold Rdiv; ring).
  split; [exact Em|]. unfold deviation. rewrite Em.
  replace (map (fun v => (v - 0) ^ 2) l) with l.
  - rewrite Em. apply sqrt_0.
  - clear -H. induction H as [|a l <- _ IH]; [reflexivity|]. cbn. f_equal; [ring|exact IH].
Qed.

Lemma product_monte_carlo {J} (T : tfp_draws J) (a b : tfd J) d k n : product_distribution T a b = Ok d -> (1 <= n)%Z ->
  Forall (fun z => length (firstn (jd_dim_x d) z) = jd_dim_x d /\ (exists u, log_prob a (firstn (jd_dim_x d) z) = Fin u) /\
                   exists v, log_prob b (skipn (jd_dim_x d) z) = Fin v) (draw (dist_joint d) k (Z.to_nat n)) ->
  monte_carlo_mi_estimate k d n = Ok (Fin 0, Fin 0).
Proof.
  intros Hd Hn HF. destruct (proj2 (profile_spec d n k) Hn) as (p & Hp & E).
  assert (Hz : exists l, Forall (eq 0) l /\ p = map Fin l).
  { rewrite E. clear -Hd HF. induction HF as [|z l (H1 & (u & H2) & (v & H3)) _ (l' & IH1 & IH2)].
    - exists []. split; constructor.
    - exists (0 :: l'). split; [constructor; auto|]. cbn [map]. rewrite IH2. f_equal.
      rewrite (product_pmi T a b d _ _ Hd H1), H2, H3. reflexivity. }
  destruct Hz as (l & Hl & ->). destruct (monte_carlo_finite d n k l Hn Hp) as [-> _].
  destruct (repeat_zero l Hl) as [-> ->]. do 3 f_equal. unfold Rdiv. ring.
Qed.

(** ** BMMSampler *)

Lemma bmm_init_spec {J} (d : joint_distribution J) mi s n :
  ((exists b, bmm_init d mi s n = Ok b) <-> (1 <= jd_dim_x d)%nat /\ (1 <= jd_dim_y d)%nat /\ (1 <= n)%Z) /\
  ((exists b, bmm_init d mi s n = Ok b) \/ bmm_init d mi s n = Err ValueError).
Proof.
  unfold bmm_init, base_sampler_init, validate_dimensions.
  destruct (Z.ltb_spec (Z.of_nat (jd_dim_x d)) 1); cbn [bind]; [split; [split; [intros [? ?]; discriminate|lia]|auto]|].
  destruct (Z.ltb_spec (Z.of_nat (jd_dim_y d)) 1); cbn [bind]; [split; [split; [intros [? ?]; discriminate|lia]|auto]|].
  destruct (Z.ltb_spec n 1); [split; [split; [intros [? ?]; discriminate|lia]|auto]|].
  split; [split; [lia|eauto]|eauto].
Qed.

Lemma cached_run {J} (b : bmm J) v calls : bm_mi b = Some v ->
  Forall2 (expected_answer (bm_dist b) v) calls (fst (bmm_run b calls)) /\ snd (bmm_run b calls) = b.
Proof.
  intros Hb. induction calls as [|[n rng|] calls IH]; cbn [bmm_run].
  - split; [constructor|reflexivity].
  - destruct (bmm_run b calls) as [answers s']. cbn [fst snd] in *. split; [constructor; [reflexivity|apply IH]|apply IH].
  - unfold bmm_mutual_information. rewrite Hb. destruct (bmm_run b calls) as [answers s']. cbn [fst snd] in *.
    split; [constructor; [reflexivity|apply IH]|apply IH].
Qed.

Lemma given_run {J} (d : joint_distribution J) v s n b calls : bmm_init d (Some v) s n = Ok b ->
  Forall2 (expected_answer d v) calls (fst (bmm_run b calls)).
Proof.
  intros Hb. unfold bmm_init in Hb. destruct (base_sampler_init _ _); [|discriminate]. cbn [bind] in Hb.
  destruct (_ <? _)%Z; [discriminate|]. injection Hb as <-.
  match goal with |- context [bmm_run ?b calls] => exact (proj1 (cached_run b v calls eq_refl)) end.
Qed.

Lemma estimated_run {J} (d : joint_distribution J) s n b calls : bmm_init d None s n = Ok b ->
  exists mi stderr, monte_carlo_mi_estimate (cast_to_rng J s) d n = Ok (mi, stderr) /\
    Forall2 (expected_answer d mi) calls (fst (bmm_run b calls)) /\
    (In CallMutualInformation calls -> bm_mi_stderr (snd (bmm_run b calls)) = Some stderr) /\
    (~ In CallMutualInformation calls -> bm_mi_stderr (snd (bmm_run b calls)) = None).
Proof.
  intros Hb.
  assert (Hn : (1 <= n)%Z) by (apply (proj1 (bmm_init_spec d None s n)); eauto).
  unfold bmm_init in Hb. destruct (base_sampler_init _ _); [|discriminate]. cbn [bind] in Hb.
  destruct (_ <? _)%Z; [discriminate|]. injection Hb as <-.
  destruct (proj2 (profile_spec d n (cast_to_rng J s)) Hn) as (p & Hp & _).
  assert (HM : exists mi e, monte_carlo_mi_estimate (cast_to_rng J s) d n = Ok (mi, e)).
  { unfold monte_carlo_mi_estimate. rewrite Hp. cbn [bind]. eauto. }
  destruct HM as (mi & e & HM). exists mi, e. split; [exact HM|].
  set (b := {| bm_dist := d; bm_mi := None; bm_mi_stderr := None; bm_mi_estimate_seed := s; bm_mi_estimate_sample := n |}).
  induction calls as [|[m rng|] calls IH]; cbn [bmm_run].
  - split; [constructor|]. split; [intros []|reflexivity].
  - destruct (bmm_run b calls) as [answers s'] eqn:E. cbn [fst snd] in *. destruct IH as (I1 & I2 & I3).
    split; [constructor; [reflexivity|exact I1]|]. split.
    + intros [H|H]; [discriminate|auto].
    + intros H. apply I3. intros H'. apply H. right. exact H'.
  - unfold bmm_mutual_information. cbn [bm_mi b bm_mi_estimate_seed bm_dist bm_mi_estimate_sample]. rewrite HM.
    match goal with |- context [bmm_run ?b1 calls] => destruct (cached_run b1 mi calls eq_refl) as [C1 C2]; destruct (bmm_run b1 calls) as [answers s'] eqn:E end.
    cbn [fst snd] in *. split; [constructor; [reflexivity|exact C1]|]. split.
    + intros _. rewrite C2. reflexivity.
    + intros H. elim H. left. reflexivity.
Qed.

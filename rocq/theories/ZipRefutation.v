(** The reported value for zero-inflated data is not the mutual information. *)
From Coquelicot Require Import Coquelicot.
From Verif Require Import Base BaseLemmas UtilsModel JaxModel SamplersModel SamplersSpec AnalysisLemmas LogBounds.
Open Scope R_scope.
Local Notation length := List.length.

Lemma ln_tangent_at t m : 0 < t -> 0 < m -> ln t <= ln m + (t - m) / m.
Proof.
  intros Ht Hm. pose proof (ln_below (t / m) ltac:(apply Rdiv_lt_0_compat; assumption)) as E. rewrite ln_quot in E by assumption.
  replace ((t - m) / m) with (t / m - 1) by (field; lra). lra.
Qed.

Lemma ln_below_strict x : 0 < x -> x <> 1 -> ln x < x - 1.
Proof.
  intros H Hn. rewrite <- (ln_exp (x - 1)). apply ln_increasing; [assumption|].
  pose proof (exp_ineq1 (x - 1)) as E. replace x with (1 + (x - 1)) at 1 by ring. apply E. lra.
Qed.

(** Log-sum inequality for two summands. *)
Lemma log_sum p b B : 0 < p -> 0 < b -> 0 < B -> (p + b) * ln ((p + b) / (p + B)) <= b * ln (b / B).
Proof.
  intros Hp Hb HB. set (m := (p + B) / (p + b)). assert (Hm : 0 < m) by (apply Rdiv_lt_0_compat; lra).
  pose proof (ln_tangent_at 1 m ltac:(lra) Hm) as H1. rewrite ln_1 in H1.
  pose proof (ln_tangent_at (B / b) m ltac:(apply Rdiv_lt_0_compat; lra) Hm) as H2.
  assert (E1 : ln ((p + b) / (p + B)) = - ln m) by (unfold m; rewrite !ln_quot by lra; ring).
  assert (E2 : ln (b / B) = - ln (B / b)) by (rewrite !ln_quot by lra; ring). rewrite E1, E2.
  assert (p * 0 <= p * (ln m + (1 - m) / m)) by (apply Rmult_le_compat_l; lra).
  assert (b * ln (B / b) <= b * (ln m + (B / b - m) / m)) by (apply Rmult_le_compat_l; lra).
  assert (E3 : p * ((1 - m) / m) + b * ((B / b - m) / m) = 0) by (unfold m; field; repeat split; lra). lra.
Qed.

Lemma log_sum_strict p b B : 0 < p -> 0 < b -> 0 < B -> b <> B -> (p + b) * ln ((p + b) / (p + B)) < b * ln (b / B).
Proof.
  intros Hp Hb HB Hn. set (m := (p + B) / (p + b)). assert (Hm : 0 < m) by (apply Rdiv_lt_0_compat; lra).
  assert (Hm1 : / m <> 1).
  { intros E. apply Hn. assert (Em : m = 1) by (rewrite <- (Rinv_inv m), E; apply Rinv_1).
    unfold m in Em. assert (p + B = p + b); [|lra]. replace (p + B) with ((p + B) / (p + b) * (p + b)) by (field; lra). rewrite Em. ring. }
  assert (H1 : 0 < ln m + (1 - m) / m).
  { pose proof (ln_below_strict (/ m) ltac:(now apply Rinv_0_lt_compat) Hm1) as E. rewrite ln_Rinv in E by assumption.
    replace ((1 - m) / m) with (/ m - 1) by (field; lra). lra. }
  pose proof (ln_tangent_at (B / b) m ltac:(apply Rdiv_lt_0_compat; lra) Hm) as H2.
  assert (E1 : ln ((p + b) / (p + B)) = - ln m) by (unfold m; rewrite !ln_quot by lra; ring).
  assert (E2 : ln (b / B) = - ln (B / b)) by (rewrite !ln_quot by lra; ring). rewrite E1, E2.
  assert (p * 0 < p * (ln m + (1 - m) / m)) by (apply Rmult_lt_compat_l; lra).
  assert (b * ln (B / b) <= b * (ln m + (B / b - m) / m)) by (apply Rmult_le_compat_l; lra).
  assert (E3 : p * ((1 - m) / m) + b * ((B / b - m) / m) = 0) by (unfold m; field; repeat split; lra). lra.
Qed.

(** ** Integrals over the half-line *)
Lemma half_line_unique f l m : is_half_line_integral f l -> is_half_line_integral f m -> l = m.
Proof.
  intros (F & HF & Hl) (G & HG & Hm). destruct (Req_dec l m) as [|Hn]; [assumption|]. exfalso.
  assert (He : 0 < Rabs (l - m) / 2) by (apply Rdiv_lt_0_compat; [apply Rabs_pos_lt; lra|lra]).
  destruct (Hl _ He) as (B1 & H1). destruct (Hm _ He) as (B2 & H2).
  set (b := Rmax 0 (Rmax B1 B2)).
  assert (Hb1 : B1 <= b) by (unfold b; eapply Rle_trans; [apply Rmax_l|apply Rmax_r]).
  assert (Hb2 : B2 <= b) by (unfold b; eapply Rle_trans; [apply Rmax_r|apply Rmax_r]).
  specialize (H1 b Hb1). specialize (H2 b Hb2). assert (Hb0 : 0 <= b) by apply Rmax_l.
  assert (E : F b = G b) by (rewrite <- (is_RInt_unique _ _ _ _ (HF b Hb0)); exact (is_RInt_unique _ _ _ _ (HG b Hb0))).
  rewrite E in H1. replace (l - m) with ((G b - m) - (G b - l)) in He, H1, H2 by ring.
  pose proof (Rabs_triang (G b - m) (- (G b - l))) as T. rewrite Rabs_Ropp in T.
  replace (G b - m + - (G b - l)) with (G b - m - (G b - l)) in T by ring. lra.
Qed.

Lemma half_line_scal f a l : is_half_line_integral f l -> is_half_line_integral (fun x => a * f x) (a * l).
Proof.
  intros (F & HF & Hl). exists (fun b => a * F b). split.
  - intros b Hb. apply (is_RInt_scal (V := R_NormedModule) f 0 b a). now apply HF.
  - intros e He. destruct (Req_dec a 0) as [->|Ha].
    + exists 0. intros b _. rewrite !Rmult_0_l, Rminus_0_r, Rabs_R0. assumption.
    + assert (Hp : 0 < Rabs a) by now apply Rabs_pos_lt.
      destruct (Hl (e / Rabs a)) as (B & HB); [now apply Rdiv_lt_0_compat|]. exists B. intros b Hb. specialize (HB b Hb).
      rewrite <- Rmult_minus_distr_l, Rabs_mult. apply (Rmult_lt_compat_l (Rabs a)) in HB; [|assumption].
      replace (Rabs a * (e / Rabs a)) with e in HB by (field; lra). assumption.
Qed.

Lemma half_line_ext f g l : (forall x, 0 < x -> f x = g x) -> is_half_line_integral f l -> is_half_line_integral g l.
Proof.
  intros H (F & HF & Hl). exists F. split; [|assumption]. intros b Hb. apply (is_RInt_ext f); [|now apply HF].
  intros x Hx. apply H. rewrite Rmin_left in Hx by assumption. lra.
Qed.

(** A gap on an initial interval survives. *)
Lemma half_line_gap f g l m a d : 0 < a -> 0 < d -> is_half_line_integral f l -> is_half_line_integral g m ->
  (forall x, 0 < x -> f x <= g x) -> (forall F G, is_RInt f 0 a F -> is_RInt g 0 a G -> F + d <= G) -> l + d <= m.
Proof.
  intros Ha Hd (F & HF & Hl) (G & HG & Hm) Hle Hgap. apply Rnot_lt_le. intros Hlt.
  set (e := (l + d - m) / 2). assert (He : 0 < e) by (unfold e; lra).
  destruct (Hl e He) as (B1 & H1). destruct (Hm e He) as (B2 & H2).
  set (b := Rmax a (Rmax B1 B2)).
  assert (Hb1 : B1 <= b) by (unfold b; eapply Rle_trans; [apply Rmax_l|apply Rmax_r]).
  assert (Hb2 : B2 <= b) by (unfold b; eapply Rle_trans; [apply Rmax_r|apply Rmax_r]).
  assert (Hab : a <= b) by apply Rmax_l.
  specialize (H1 b Hb1). specialize (H2 b Hb2).
  assert (E : F b + d <= G b).
  { pose proof (HF b ltac:(lra)) as If. pose proof (HG b ltac:(lra)) as Ig.
    pose proof (HF a ltac:(lra)) as Ifa. pose proof (HG a ltac:(lra)) as Iga.
    pose proof (Hgap _ _ Ifa Iga) as Hg1.
    assert (Ifb : is_RInt f a b (F b - F a)).
    { pose proof (is_RInt_Chasles f a 0 b _ _ (is_RInt_swap _ _ _ _ Ifa) If) as C.
      replace (F b - F a) with (plus (opp (F a)) (F b)); [exact C|]. unfold plus, opp. cbn. ring. }
    assert (Igb : is_RInt g a b (G b - G a)).
    { pose proof (is_RInt_Chasles g a 0 b _ _ (is_RInt_swap _ _ _ _ Iga) Ig) as C.
      replace (G b - G a) with (plus (opp (G a)) (G b)); [exact C|]. unfold plus, opp. cbn. ring. }
    assert (F b - F a <= G b - G a); [|lra].
    apply (is_RInt_le f g a b); try assumption. intros x Hx. apply Hle. lra. }
  apply Rabs_def2 in H1. apply Rabs_def2 in H2. unfold e in *. lra.
Qed.

(** ** The marginal at zero *)
Lemma exp_half_line c : 0 < c -> is_half_line_integral (fun x => exp (- (c * x))) (/ c).
Proof.
  intros Hc. exists (fun b => / c * (1 - exp (- (c * b)))). split.
  - intros b Hb. replace (/ c * (1 - exp (- (c * b)))) with ((- / c * exp (- (c * b))) - (- / c * exp (- (c * 0)))).
    2:{ replace (- (c * 0)) with 0 by ring. rewrite exp_0. ring. }
    apply (ftc (fun x => - / c * exp (- (c * x)))); [assumption| |].
    + intros x Hx. auto_derive; [trivial|]. field. lra.
    + intros x Hx. apply (derive_continuous _ _ (- c * exp (- (c * x)))). auto_derive; [trivial|]. ring.
  - intros e He. exists (Rmax 0 (/ c * / (c * e))). intros b Hb.
    assert (Hb0 : 0 <= b) by (eapply Rle_trans; [apply Rmax_l|exact Hb]).
    assert (Hb1 : / c * / (c * e) <= b) by (eapply Rle_trans; [apply Rmax_r|exact Hb]).
    replace (/ c * (1 - exp (- (c * b))) - / c) with (- (/ c * exp (- (c * b)))) by ring.
    rewrite Rabs_Ropp, Rabs_right; [|apply Rle_ge, Rmult_le_pos; left; [now apply Rinv_0_lt_compat|apply exp_pos]].
    rewrite exp_Ropp.
    assert (Hce : 0 < c * e) by now apply Rmult_lt_0_compat.
    assert (H1 : / (c * e) <= c * b).
    { apply (Rmult_le_compat_l c) in Hb1; [|lra]. replace (c * (/ c * / (c * e))) with (/ (c * e)) in Hb1 by (field; lra). assumption. }
    assert (H2 : / (c * e) < exp (c * b)).
    { eapply Rle_lt_trans; [exact H1|]. pose proof (exp_ineq1_le (c * b)). lra. }
    assert (Hi : 0 < / (c * e)) by now apply Rinv_0_lt_compat.
    apply Rinv_lt_contravar in H2; [|apply Rmult_lt_0_compat; [assumption|apply exp_pos]].
    rewrite Rinv_inv in H2. apply (Rmult_lt_compat_l (/ c)) in H2; [|now apply Rinv_0_lt_compat].
    replace (/ c * (c * e)) with e in H2 by (field; lra). assumption.
Qed.

Lemma half_line_plus f g l m : is_half_line_integral f l -> is_half_line_integral g m -> is_half_line_integral (fun x => f x + g x) (l + m).
Proof.
  intros (F & HF & Hl) (G & HG & Hm). exists (fun b => F b + G b). split.
  - intros b Hb. apply (is_RInt_plus (V := R_NormedModule) f g 0 b); auto.
  - intros e He. destruct (Hl (e / 2)) as (B1 & H1); [lra|]. destruct (Hm (e / 2)) as (B2 & H2); [lra|].
    exists (Rmax B1 B2). intros b Hb. specialize (H1 b ltac:(eapply Rle_trans; [apply Rmax_l|exact Hb])).
    specialize (H2 b ltac:(eapply Rle_trans; [apply Rmax_r|exact Hb])).
    apply Rabs_def2 in H1. apply Rabs_def2 in H2. apply Rabs_def1; lra.
Qed.

Lemma zip_pmf_0 p x : zip_pmf p x 0 = p + (1 - p) * exp (- x).
Proof. unfold zip_pmf. cbn. field. Qed.

Lemma zip_pmf_S p x k : zip_pmf p x (S k) = (1 - p) * zip_pmf 0 x (S k).
Proof. unfold zip_pmf. cbn [Nat.eqb]. ring. Qed.

Lemma zip_marginal_0 p q : is_zip_marginal p q -> q 0%nat = p + (1 - p) / 2.
Proof.
  intros H. eapply half_line_unique; [exact (H 0%nat)|].
  apply (half_line_ext (fun x => p * exp (- (1 * x)) + (1 - p) * exp (- (2 * x)))).
  - intros x Hx. rewrite zip_pmf_0. replace (- (2 * x)) with (- x + - x) by ring. rewrite exp_plus. rewrite Rmult_1_l. ring.
  - replace (p + (1 - p) / 2) with (p * / 1 + (1 - p) * / 2) by field.
    apply (half_line_plus (fun x => p * exp (- (1 * x))) (fun x => (1 - p) * exp (- (2 * x)))); apply (half_line_scal (fun x => exp (- (_ * x)))), exp_half_line; lra.
Qed.

Lemma zip_marginal_S p q q0 k : is_zip_marginal p q -> is_zip_marginal 0 q0 -> q (S k) = (1 - p) * q0 (S k).
Proof.
  intros H H0. eapply half_line_unique; [exact (H (S k))|].
  apply (half_line_ext (fun x => (1 - p) * (exp (- x) * zip_pmf 0 x (S k)))); [|apply half_line_scal, H0].
  intros x Hx. rewrite (zip_pmf_S p). ring.
Qed.

Lemma zip_term_S p q q0 t t0 k : p < 1 -> is_zip_marginal p q -> is_zip_marginal 0 q0 ->
  is_half_line_integral (fun x => exp (- x) * (zip_pmf p x (S k) * ln (zip_pmf p x (S k) / q (S k)))) t ->
  is_half_line_integral (fun x => exp (- x) * (zip_pmf 0 x (S k) * ln (zip_pmf 0 x (S k) / q0 (S k)))) t0 ->
  t = (1 - p) * t0.
Proof.
  intros Hp Hq Hq0 Ht Ht0. eapply half_line_unique; [exact Ht|].
  eapply half_line_ext; [|apply half_line_scal, Ht0]. intros x Hx. cbv beta.
  rewrite (zip_marginal_S p q q0 k Hq Hq0), (zip_pmf_S p).
  replace ((1 - p) * zip_pmf 0 x (S k) / ((1 - p) * q0 (S k))) with (zip_pmf 0 x (S k) / q0 (S k)); [ring|].
  unfold Rdiv. rewrite Rinv_mult. set (u := / q0 (S k)). set (v := zip_pmf 0 x (S k)).
  replace ((1 - p) * v * (/ (1 - p) * u)) with ((1 - p) * / (1 - p) * (v * u)) by ring. rewrite Rinv_r by lra. ring.
Qed.

Definition zip_gap (p x : R) : R :=
  exp (- x) * ((1 - p) * exp (- x) * ln ((1 - p) * exp (- x) / ((1 - p) / 2))
    - (p + (1 - p) * exp (- x)) * ln ((p + (1 - p) * exp (- x)) / (p + (1 - p) / 2))).

Lemma zip_gap_pos p : 0 < p < 1 -> exists d, 0 < d /\ is_RInt (zip_gap p) 0 (1 / 2) d.
Proof.
  intros Hp. pose proof ln2_bounds as L2.
  assert (Hc : forall x, 0 <= x <= 1 / 2 -> continuous (zip_gap p) x).
  { intros x Hx. unfold zip_gap. pose proof (exp_pos (- x)) as He.
    assert (0 < (1 - p) * exp (- x)) by (apply Rmult_lt_0_compat; lra).
    eapply derive_continuous. auto_derive; [|reflexivity]. repeat split; try lra; apply Rdiv_lt_0_compat; lra. }
  exists (RInt (zip_gap p) 0 (1 / 2)). split.
  - apply RInt_gt_0; [lra| |]; [|intros x Hx; apply Hc; lra]. intros x Hx. unfold zip_gap. apply Rmult_lt_0_compat; [apply exp_pos|].
    pose proof (exp_pos (- x)) as He.
    assert (He2 : / 2 < exp (- x)).
    { rewrite <- (exp_ln (/ 2)) by lra. apply exp_increasing. rewrite ln_Rinv by lra. lra. }
    apply Rlt_Rminus, log_sum_strict; try lra.
    + apply Rmult_lt_0_compat; lra.
    + intros E. assert (exp (- x) = / 2); [|lra]. apply (Rmult_eq_reg_l (1 - p)); lra.
  - apply (RInt_correct (V := R_CompleteNormedModule)), (ex_RInt_continuous (V := R_CompleteNormedModule)).
    intros x Hx. rewrite Rmin_left, Rmax_right in Hx by lra. apply Hc. lra.
Qed.

Lemma zip_term_0 p q q0 t t0 : 0 < p < 1 -> is_zip_marginal p q -> is_zip_marginal 0 q0 ->
  is_half_line_integral (fun x => exp (- x) * (zip_pmf p x 0 * ln (zip_pmf p x 0 / q 0%nat))) t ->
  is_half_line_integral (fun x => exp (- x) * (zip_pmf 0 x 0 * ln (zip_pmf 0 x 0 / q0 0%nat))) t0 ->
  t < (1 - p) * t0.
Proof.
  intros Hp Hq Hq0 Ht Ht0. rewrite (zip_marginal_0 p q Hq) in Ht. rewrite (zip_marginal_0 0 q0 Hq0) in Ht0.
  destruct (zip_gap_pos p Hp) as (d & Hd & Id). apply (half_line_scal _ (1 - p)) in Ht0.
  assert (E : forall x, (1 - p) * (exp (- x) * (zip_pmf 0 x 0 * ln (zip_pmf 0 x 0 / (0 + (1 - 0) / 2)))) =
                 exp (- x) * (zip_pmf p x 0 * ln (zip_pmf p x 0 / (p + (1 - p) / 2))) + zip_gap p x).
  { intros x. unfold zip_gap. rewrite !zip_pmf_0.
    replace ((1 - p) * exp (- x) / ((1 - p) / 2)) with ((0 + (1 - 0) * exp (- x)) / (0 + (1 - 0) / 2)) by (field; lra). ring. }
  pose proof (half_line_gap _ _ _ _ (1 / 2) d ltac:(lra) Hd Ht Ht0) as G. enough (t + d <= (1 - p) * t0) by lra. apply G; clear G.
  - intros x Hx. cbv beta. rewrite E. unfold zip_gap.
    assert (0 <= zip_gap p x); [|unfold zip_gap in *; lra]. unfold zip_gap. pose proof (exp_pos (- x)) as He.
    apply Rmult_le_pos; [lra|]. apply Rge_le, Rge_minus, Rle_ge. apply log_sum; try lra. apply Rmult_lt_0_compat; lra.
  - intros F G HF HG. right.
    pose proof (is_RInt_plus (V := R_NormedModule) _ _ _ _ _ _ HF Id) as S. cbv beta in S.
    apply (is_RInt_ext _ _ _ _ _ (fun x _ => E x)) in HG.
    rewrite <- (is_RInt_unique _ _ _ _ HG). symmetry. exact (is_RInt_unique _ _ _ _ S).
Qed.

Lemma zip_mi_strict p a b : 0 < p < 1 -> is_zip_mi 0 a -> is_zip_mi p b -> b < (1 - p) * a.
Proof.
  intros Hp (q0 & t0 & Hq0 & Ht0 & Sa) (q & t & Hq & Ht & Sb).
  pose proof (zip_term_0 p q q0 _ _ Hp Hq Hq0 (Ht 0%nat) (Ht0 0%nat)) as H0.
  assert (HS : forall k, t (S k) = (1 - p) * t0 (S k)).
  { intros k. eapply (zip_term_S p q q0); try eassumption; [lra|apply Ht|apply Ht0]. }
  assert (Sum : forall n, sum_f_R0 t n = (1 - p) * sum_f_R0 t0 n - ((1 - p) * t0 0%nat - t 0%nat)).
  { induction n as [|n IH]; cbn [sum_f_R0]; [ring|]. rewrite IH, HS. ring. }
  set (g := (1 - p) * t0 0%nat - t 0%nat) in *.
  apply Rnot_le_lt. intros Hle. assert (Hg : 0 < g) by (unfold g; lra).
  destruct (Sa (g / 3)) as (N1 & H1); [lra|]. destruct (Sb (g / 3)) as (N2 & H2); [lra|].
  specialize (H1 (max N1 N2) (Nat.le_max_l _ _)). specialize (H2 (max N1 N2) (Nat.le_max_r _ _)).
  unfold R_dist in *. rewrite Sum in H2. apply Rabs_def2 in H1. apply Rabs_def2 in H2. clearbody g.
  set (s := sum_f_R0 t0 (max N1 N2)) in *. clearbody s.
  assert ((1 - p) * (s - a) < 1 * (g / 3)); [|lra].
  destruct (Rle_dec 0 (s - a)) as [Hs|Hs].
  - eapply Rle_lt_trans; [apply Rmult_le_compat_r; [assumption|]|]; [|rewrite !Rmult_1_l; lra]. lra.
  - assert (0 < (1 - p) * - (s - a)) by (apply Rmult_lt_0_compat; lra). lra.
Qed.

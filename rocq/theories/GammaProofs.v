(** The correction of the Student distribution is positive and decreases with the degrees of freedom. *)
From Coq Require Import Reals Lra Lia.
From Coquelicot Require Import Coquelicot.
From Verif Require Import GammaSpec.
Open Scope R_scope.

(** ** Monotone functions *)
Lemma decreasing_from_derivative (f f' : R -> R) : (forall x, 0 < x -> is_derive f x (f' x)) -> (forall x, 0 < x -> f' x < 0) ->
  forall x y, 0 < x -> x < y -> f y < f x.
Proof.
  intros D N x y X XY. destruct (MVT_cor2 f f' x y XY) as (c & E & C).
  - intros c C. apply is_derive_Reals. apply D. lra.
  - specialize (N c ltac:(lra)). nra.
Qed.
Lemma ln_upper u : 0 < u -> ln (1 + u) <= u.
Proof. intros H. apply Rlt_le. apply exp_lt_inv. rewrite exp_ln by lra. apply exp_ineq1. lra. Qed.
Lemma ln_lower u : 0 < u -> u / (1 + u) <= ln (1 + u).
Proof.
  intros H. assert (L : ln (/ (1 + u)) <= / (1 + u) - 1).
  { assert (E := exp_ineq1_le (ln (/ (1 + u)))). rewrite exp_ln in E by (apply Rinv_0_lt_compat; lra). lra. }
  rewrite ln_Rinv in L by lra. replace (u / (1 + u)) with (1 - / (1 + u)) by (field; lra). lra.
Qed.

(** A function which does not increase along unit steps and vanishes at infinity is not negative. *)
Lemma telescope (f : R -> R) c : (forall x, 0 < x -> f (x + 1) <= f x) -> (forall x, 0 < x -> - (c / x) <= f x) -> forall x, 0 < x -> 0 <= f x.
Proof.
  intros S B x X.
  assert (N : forall n, f (x + INR n) <= f x).
  { induction n as [|n IH]; [cbn; rewrite Rplus_0_r; lra|]. rewrite S_INR, <- Rplus_assoc. assert (P := pos_INR n). specialize (S (x + INR n) ltac:(lra)). lra. }
  destruct (Rle_lt_dec 0 (f x)) as [|L]; [assumption|exfalso].
  destruct (Rle_lt_dec c 0) as [C|C].
  - specialize (B x X). assert (c / x <= 0) by (apply Rmult_le_reg_r with x; [assumption|]; unfold Rdiv; rewrite Rmult_assoc, Rinv_l by lra; lra). lra.
  - destruct (nfloor_ex (c / - f x)) as (m & _ & A'); [apply Rlt_le, Rdiv_lt_0_compat; lra|]. rewrite <- S_INR in A'. set (n := Datatypes.S m) in *.
    assert (A : c < INR n * - f x).
    { apply Rmult_lt_reg_r with (/ - f x); [apply Rinv_0_lt_compat; lra|]. rewrite Rmult_assoc, Rinv_r by lra. unfold Rdiv in A'. lra. } specialize (N n). assert (P := pos_INR n). specialize (B (x + INR n) ltac:(lra)).
    assert (c / (x + INR n) < - f x).
    { apply Rmult_lt_reg_r with (x + INR n); [lra|]. unfold Rdiv. rewrite Rmult_assoc, Rinv_l by lra. nra. }
    lra.
Qed.

(** ** Elementary functions *)
Definition W (x : R) : R := ln (x + 1) - ln x - 1 / (x + 1).
Definition phi (x : R) : R := 1 / (x * (x + 1) ^ 2).
Lemma W_derive x : 0 < x -> is_derive W x (- phi x).
Proof. intros H. unfold W, phi. auto_derive; [repeat split; lra|]. field. split; lra. Qed.
Lemma phi_pos x : 0 < x -> 0 < phi x.
Proof. intros H. unfold phi. apply Rdiv_lt_0_compat; [lra|]. apply Rmult_lt_0_compat; [assumption|apply pow_lt; lra]. Qed.
Lemma W_decreasing x y : 0 < x -> x < y -> W y < W x.
Proof. apply (decreasing_from_derivative W (fun x => - phi x)); [apply W_derive|]. intros z Z. assert (P := phi_pos z Z). lra. Qed.
Lemma W_pos x : 0 < x -> 0 < W x.
Proof.
  intros H. unfold W. rewrite <- ln_div by lra. replace ((x + 1) / x) with (1 + / x) by (field; lra).
  assert (I : 0 < / x) by (apply Rinv_0_lt_compat; lra).
  assert (L : ln (/ (1 + / x)) < / (1 + / x) - 1).
  { assert (N : ln (/ (1 + / x)) <> 0).
    { rewrite ln_Rinv by lra. intros E. assert (0 < ln (1 + / x)) by (rewrite <- ln_1; apply ln_increasing; lra). lra. }
    assert (E := exp_ineq1 _ N). rewrite exp_ln in E by (apply Rinv_0_lt_compat; lra). lra. }
  rewrite ln_Rinv in L by lra. replace (1 / (x + 1)) with (1 - / (1 + / x)) by (field; repeat split; lra). lra.
Qed.
(** [phi] has decreasing differences. *)
Lemma inv_diff x y s : 0 < x -> x < y -> 0 < s -> 0 < / y - / (y + s) < / x - / (x + s).
Proof.
  intros X XY S. replace (/ y - / (y + s)) with (s / (y * (y + s))) by (field; lra). replace (/ x - / (x + s)) with (s / (x * (x + s))) by (field; lra).
  split; [apply Rdiv_lt_0_compat; nra|]. apply Rmult_lt_compat_l; [assumption|]. apply Rinv_lt_contravar; [|nra].
  apply Rmult_lt_0_compat; nra.
Qed.
Definition falling (f : R -> R) : Prop := (forall x, 0 < x -> 0 < f x) /\ (forall x y, 0 < x -> x < y -> f y < f x) /\
  forall x y s, 0 < x -> x < y -> 0 < s -> f y - f (y + s) < f x - f (x + s).
Lemma falling_mult f g : falling f -> falling g -> falling (fun x => f x * g x).
Proof.
  intros (Pf & Df & Cf) (Pg & Dg & Cg). split; [|split].
  - intros x X. apply Rmult_lt_0_compat; auto.
  - intros x y X XY. apply Rmult_le_0_lt_compat; auto; apply Rlt_le; [apply Pf|apply Pg]; lra.
  - intros x y s X XY S.
    replace (f y * g y - f (y + s) * g (y + s)) with (f y * (g y - g (y + s)) + (f y - f (y + s)) * g (y + s)) by ring.
    replace (f x * g x - f (x + s) * g (x + s)) with (f x * (g x - g (x + s)) + (f x - f (x + s)) * g (x + s)) by ring.
    assert (A := Cf x y s X XY S). assert (B := Cg x y s X XY S).
    assert (A' := Df y (y + s) ltac:(lra) ltac:(lra)). assert (B' := Dg y (y + s) ltac:(lra) ltac:(lra)).
    assert (F := Df x y X XY). assert (G := Dg (x + s) (y + s) ltac:(lra) ltac:(lra)). assert (PF := Pf y ltac:(lra)). assert (PG := Pg (y + s) ltac:(lra)).
    apply Rplus_lt_compat; apply Rmult_le_0_lt_compat; lra.
Qed.
Lemma falling_inv c : 0 <= c -> falling (fun x => / (x + c)).
Proof.
  intros C. split; [|split].
  - intros x X. apply Rinv_0_lt_compat. lra.
  - intros x y X XY. apply Rinv_lt_contravar; [apply Rmult_lt_0_compat|]; lra.
  - intros x y s X XY S. replace (y + s + c) with (y + c + s) by ring. replace (x + s + c) with (x + c + s) by ring. apply inv_diff; lra.
Qed.
Lemma falling_phi : falling phi.
Proof.
  destruct (falling_mult _ _ (falling_inv 0 ltac:(lra)) (falling_mult _ _ (falling_inv 1 ltac:(lra)) (falling_inv 1 ltac:(lra)))) as (A & B & C).
  assert (E : forall x, 0 < x -> phi x = / (x + 0) * (/ (x + 1) * / (x + 1))) by (intros x X; unfold phi; field; lra).
  split; [|split].
  - intros x X. rewrite E by lra. now apply A.
  - intros x y X XY. rewrite !E by lra. now apply B.
  - intros x y s X XY S. rewrite !E by lra. now apply C.
Qed.
(** Second and third differences of [W]. *)
Lemma W_difference s x y : 0 < s -> 0 < x -> x < y -> W y - W (y + s) < W x - W (x + s).
Proof.
  intros S. apply (decreasing_from_derivative (fun z => W z - W (z + s)) (fun z => - phi z + phi (z + s))).
  - intros z Z. replace (- phi z + phi (z + s)) with (minus (- phi z) (1 * (- phi (z + s)))) by (unfold minus, plus, opp; cbn; ring).
    apply (is_derive_minus W (fun z => W (z + s)) z (- phi z)); [now apply W_derive|].
    apply (is_derive_comp W (fun z => z + s) z (- phi (z + s)) 1); [apply W_derive; lra|]. auto_derive; [auto|ring].
  - intros z Z. destruct falling_phi as (_ & D & _). specialize (D z (z + s) Z ltac:(lra)). lra.
Qed.
Definition Q (s t x : R) : R := W x - W (x + s) - (W (x + t) - W (x + t + s)).
Lemma Q_pos s t x : 0 < s -> 0 < t -> 0 < x -> 0 < Q s t x.
Proof. intros S T X. unfold Q. assert (D := W_difference s x (x + t) S X ltac:(lra)). lra. Qed.
Lemma Q_decreasing s t x y : 0 < s -> 0 < t -> 0 < x -> x < y -> Q s t y < Q s t x.
Proof.
  intros S T. apply (decreasing_from_derivative (Q s t) (fun z => - phi z + phi (z + s) + (phi (z + t) - phi (z + t + s)))).
  - intros z Z. unfold Q.
    assert (Sh : forall c, 0 <= c -> is_derive (fun z => W (z + c)) z (- phi (z + c))).
    { intros c C. replace (- phi (z + c)) with (1 * - phi (z + c)) by ring.
      apply (is_derive_comp W (fun z => z + c) z (- phi (z + c)) 1); [apply W_derive; lra|]. auto_derive; [auto|ring]. }
    apply is_derive_ext with (fun z => (W z - W (z + s)) - (W (z + t) - W (z + (t + s)))); [intros u; now rewrite Rplus_assoc|].
    replace (- phi z + phi (z + s) + (phi (z + t) - phi (z + t + s)))
      with (minus (minus (- phi z) (- phi (z + s))) (minus (- phi (z + t)) (- phi (z + (t + s))))) by (rewrite <- Rplus_assoc; unfold minus, plus, opp; cbn; ring).
    apply (is_derive_minus (fun z => W z - W (z + s)) (fun z => W (z + t) - W (z + (t + s))) z).
    + apply (is_derive_minus W (fun z => W (z + s)) z); [now apply W_derive|apply Sh; lra].
    + apply (is_derive_minus (fun z => W (z + t)) (fun z => W (z + (t + s))) z); apply Sh; lra.
  - intros z Z. destruct falling_phi as (_ & _ & C). specialize (C z (z + t) s Z ltac:(lra) S). lra.
Qed.
Definition P (x : R) : R := 1 / x - (ln (x + 1) - ln x).
Lemma P_decreasing x y : 0 < x -> x < y -> P y < P x.
Proof.
  apply (decreasing_from_derivative P (fun x => - (1 / (x ^ 2 * (x + 1))))).
  - intros z Z. unfold P. auto_derive; [repeat split; lra|]. field. lra.
  - intros z Z. assert (0 < 1 / (z ^ 2 * (z + 1))); [|lra]. apply Rdiv_lt_0_compat; [lra|]. apply Rmult_lt_0_compat; [apply pow_lt|]; lra.
Qed.

(** ** The gamma function *)
Section Gamma.
  Variables psi log_gamma : R -> R.
  Hypothesis G : gamma_functions psi log_gamma.

  Lemma psi_upper x : 0 < x -> psi x <= ln x.
  Proof. intros X. assert (T := gf_tangent _ _ G x (x + 1) X ltac:(lra)). rewrite (gf_gamma _ _ G x X) in T. lra. Qed.
  Lemma psi_lower x : 0 < x -> ln x <= psi x + 1 / x.
  Proof.
    intros X. assert (T := gf_tangent _ _ G (x + 1) x ltac:(lra) X). rewrite (gf_gamma _ _ G x X), (gf_psi _ _ G x X) in T. lra.
  Qed.
  Definition U (x : R) : R := psi x + 1 / x - ln x.
  Lemma U_bounds x : 0 < x -> 0 <= U x <= 1 / x.
  Proof. intros X. unfold U. assert (A := psi_upper x X). assert (B := psi_lower x X). lra. Qed.
  Lemma U_step x : 0 < x -> U x - U (x + 1) = W x.
  Proof. intros X. unfold U, W. rewrite (gf_psi _ _ G x X). ring. Qed.
  Lemma inv_shift x s : 0 < x -> 0 <= s -> 0 < 1 / (x + s) <= 1 / x.
  Proof.
    intros X S. split; [apply Rdiv_lt_0_compat; lra|]. apply Rmult_le_compat_l; [lra|]. apply Rinv_le_contravar; lra.
  Qed.
  Lemma U_decreasing x s : 0 < x -> 0 < s -> U (x + s) <= U x.
  Proof.
    intros X S. assert (T := telescope (fun z => U z - U (z + s)) 1).
    cut (0 <= U x - U (x + s)); [lra|]. apply T; [| |assumption].
    - intros z Z. assert (A := U_step z Z). assert (B := U_step (z + s) ltac:(lra)). replace (z + 1 + s) with (z + s + 1) by ring.
      assert (D := W_decreasing z (z + s) Z ltac:(lra)). lra.
    - intros z Z. assert (A := U_bounds z Z). assert (B := U_bounds (z + s) ltac:(lra)). assert (I := inv_shift z s Z ltac:(lra)). lra.
  Qed.
  Lemma U_difference x s : 0 < x -> 0 < s -> U x - U (x + s) <= 1 / x - 1 / (x + s).
  Proof.
    intros X S. cut (0 <= 1 / x - 1 / (x + s) - (U x - U (x + s))); [lra|].
    apply (telescope (fun z => 1 / z - 1 / (z + s) - (U z - U (z + s))) 1); [| |assumption].
    - intros z Z. assert (A := U_step z Z). assert (B := U_step (z + s) ltac:(lra)). replace (z + 1 + s) with (z + s + 1) by ring.
      assert (D := P_decreasing z (z + s) Z ltac:(lra)). unfold P, W in *. lra.
    - intros z Z. assert (A := U_bounds z Z). assert (B := U_bounds (z + s) ltac:(lra)). assert (I := inv_shift z s Z ltac:(lra)). lra.
  Qed.

  Definition g (x : R) : R := x * psi x - log_gamma x.
  Lemma g_step x : 0 < x -> g (x + 1) - g x = U x + 1.
  Proof. intros X. unfold g, U. rewrite (gf_gamma _ _ G x X), (gf_psi _ _ G x X). field. lra. Qed.
  (** Far away [g] has slope one. *)
  Lemma g_slope x s : 0 < x -> 0 < s -> - ((s ^ 2 + 2 * s) / x) <= g (x + s) - g x - s <= (s ^ 2 + 2 * s) / x.
  Proof.
    intros X S.
    assert (T1 := gf_tangent _ _ G x (x + s) X ltac:(lra)). assert (T2 := gf_tangent _ _ G (x + s) x ltac:(lra) X).
    assert (U1 := U_decreasing x s X S). assert (U2 := U_difference x s X S).
    assert (L1 := ln_upper (s / x) ltac:(apply Rdiv_lt_0_compat; lra)). assert (L2 := ln_lower (s / x) ltac:(apply Rdiv_lt_0_compat; lra)).
    assert (Le : ln (1 + s / x) = ln (x + s) - ln x).
    { rewrite <- ln_div by lra. f_equal. field. lra. }
    rewrite Le in L1, L2. replace (s / x / (1 + s / x)) with (s / (x + s)) in L2 by (field; lra).
    unfold U in U1, U2.
    set (p := psi x) in *. set (q := psi (x + s)) in *. set (l := ln (x + s) - ln x) in *.
    (* the difference of psi *)
    assert (I1 : 1 / x - 1 / (x + s) = s / (x * (x + s))) by (field; lra).
    assert (D1 : q - p <= l + s / (x * (x + s))) by (unfold l; lra).
    assert (D2 : l - s / (x * (x + s)) + s / (x * (x + s)) <= q - p) by (unfold l; lra).
    assert (k : 0 < s / (x * (x + s))) by (apply Rdiv_lt_0_compat; nra).
    (* x (q - p) *)
    assert (E : g (x + s) - g x - s = x * (q - p) - s + (s * q - (log_gamma (x + s) - log_gamma x))).
    { unfold g. fold p q. ring. }
    rewrite E.
    assert (X1 : x * (s / (x + s)) <= x * (q - p)) by (apply Rmult_le_compat_l; lra).
    assert (X2 : x * (q - p) <= x * (s / x + s / (x * (x + s)))) by (apply Rmult_le_compat_l; lra).
    replace (x * (s / (x + s))) with (s - s * (s / (x + s))) in X1 by (field; lra).
    replace (x * (s / x + s / (x * (x + s)))) with (s + s / (x + s)) in X2 by (field; lra).
    assert (I2 : 0 < s / (x + s) <= s / x).
    { split; [apply Rdiv_lt_0_compat; lra|]. apply Rmult_le_compat_l; [lra|]. apply Rinv_le_contravar; lra. }
    assert (I3 : s / (x * (x + s)) <= 1 / x).
    { rewrite <- I1. assert (0 < 1 / (x + s)) by (apply Rdiv_lt_0_compat; lra). lra. }
    assert (R1 : 0 <= s * q - (log_gamma (x + s) - log_gamma x)) by lra.
    assert (R2 : s * q - (log_gamma (x + s) - log_gamma x) <= s * (q - p)) by lra.
    assert (R3 : s * (q - p) <= s * (s / x + 1 / x)) by (apply Rmult_le_compat_l; lra).
    replace ((s ^ 2 + 2 * s) / x) with (s * (s / x + 1 / x) + s / x) by (field; lra).
    assert (0 < s / x) by (apply Rdiv_lt_0_compat; lra). assert (0 < 1 / x) by (apply Rdiv_lt_0_compat; lra).
    assert (R4 : s * (s / (x + s)) <= s * (s / x)) by (apply Rmult_le_compat_l; lra).
    assert (0 <= s * (1 / x)) by nra. split; nra.
  Qed.

  (** ** The correction *)
  Definition D (s t a : R) : R := g (a + s) + g (a + t) - g (a + s + t) - g a.
  Definition F (s t a : R) : R := U a + U (a + s + t) - U (a + s) - U (a + t).
  Lemma D_step s t a : 0 < s -> 0 < t -> 0 < a -> D s t a - D s t (a + 1) = F s t a.
  Proof.
    intros S T A. unfold D, F.
    assert (e1 := g_step a A). assert (e2 := g_step (a + s) ltac:(lra)). assert (e3 := g_step (a + t) ltac:(lra)). assert (e4 := g_step (a + s + t) ltac:(lra)).
    replace (a + 1 + s) with (a + s + 1) by ring. replace (a + 1 + t) with (a + t + 1) by ring. replace (a + s + 1 + t) with (a + s + t + 1) by ring. lra.
  Qed.
  Lemma F_step s t a : 0 < s -> 0 < t -> 0 < a -> F s t a - F s t (a + 1) = Q s t a.
  Proof.
    intros S T A. unfold F, Q.
    assert (e1 := U_step a A). assert (e2 := U_step (a + s) ltac:(lra)). assert (e3 := U_step (a + t) ltac:(lra)). assert (e4 := U_step (a + s + t) ltac:(lra)).
    replace (a + 1 + s) with (a + s + 1) by ring. replace (a + 1 + t) with (a + t + 1) by ring. replace (a + s + 1 + t) with (a + s + t + 1) by ring.
    replace (a + t + s) with (a + s + t) by ring. lra.
  Qed.
  Lemma F_bounds s t a : 0 < s -> 0 < t -> 0 < a -> - (2 / a) <= F s t a <= 2 / a.
  Proof.
    intros S T A. unfold F. replace (2 / a) with (1 / a + 1 / a) by (field; lra).
    assert (b1 := U_bounds a A). assert (b2 := U_bounds (a + s) ltac:(lra)). assert (b3 := U_bounds (a + t) ltac:(lra)). assert (b4 := U_bounds (a + s + t) ltac:(lra)).
    assert (i2 := inv_shift a s A ltac:(lra)). assert (i3 := inv_shift a t A ltac:(lra)). assert (i4 := inv_shift a (s + t) A ltac:(lra)).
    rewrite <- Rplus_assoc in i4. lra.
  Qed.
  Lemma D_bounds s t a : 0 < s -> 0 < t -> 0 < a -> - (2 * (s ^ 2 + 2 * s) / a) <= D s t a <= 2 * (s ^ 2 + 2 * s) / a.
  Proof.
    intros S T A. unfold D. assert (b1 := g_slope a s A S). assert (b2 := g_slope (a + t) s ltac:(lra) S).
    assert (i : (s ^ 2 + 2 * s) / (a + t) <= (s ^ 2 + 2 * s) / a).
    { apply Rmult_le_compat_l; [nra|]. apply Rinv_le_contravar; lra. }
    replace (2 * (s ^ 2 + 2 * s) / a) with ((s ^ 2 + 2 * s) / a + (s ^ 2 + 2 * s) / a) by (field; lra).
    replace (a + t + s) with (a + s + t) in b2 by ring. lra.
  Qed.
  Lemma F_pos s t a : 0 < s -> 0 < t -> 0 < a -> 0 < F s t a.
  Proof.
    intros S T A. assert (N : forall x, 0 < x -> 0 <= F s t x).
    { apply telescope with 2.
      - intros x X. assert (e := F_step s t x S T X). assert (q := Q_pos s t x S T X). lra.
      - intros x X. now apply F_bounds. }
    assert (e := F_step s t a S T A). assert (q := Q_pos s t a S T A). specialize (N (a + 1) ltac:(lra)). lra.
  Qed.
  Theorem D_pos s t a : 0 < s -> 0 < t -> 0 < a -> 0 < D s t a.
  Proof.
    intros S T A. assert (N : forall x, 0 < x -> 0 <= D s t x).
    { apply telescope with (2 * (s ^ 2 + 2 * s)).
      - intros x X. assert (e := D_step s t x S T X). assert (q := F_pos s t x S T X). lra.
      - intros x X. apply (D_bounds s t x S T X). }
    assert (e := D_step s t a S T A). assert (q := F_pos s t a S T A). specialize (N (a + 1) ltac:(lra)). lra.
  Qed.
  Lemma F_decreasing s t a r : 0 < s -> 0 < t -> 0 < a -> 0 < r -> F s t (a + r) < F s t a.
  Proof.
    intros S T A Hr. assert (N : forall x, 0 < x -> 0 <= F s t x - F s t (x + r)).
    { apply telescope with 4.
      - intros x X. assert (e := F_step s t x S T X). assert (e' := F_step s t (x + r) S T ltac:(lra)). assert (q := Q_decreasing s t x (x + r) S T X ltac:(lra)).
        replace (x + 1 + r) with (x + r + 1) by ring. lra.
      - intros x X. assert (b := F_bounds s t x S T X). assert (b' := F_bounds s t (x + r) S T ltac:(lra)).
        assert (i : 2 / (x + r) <= 2 / x) by (apply Rmult_le_compat_l; [lra|]; apply Rinv_le_contravar; lra).
        replace (4 / x) with (2 / x + 2 / x) by (field; lra). lra. }
    assert (e := F_step s t a S T A). assert (e' := F_step s t (a + r) S T ltac:(lra)). assert (q := Q_decreasing s t a (a + r) S T A ltac:(lra)).
    specialize (N (a + 1) ltac:(lra)). replace (a + 1 + r) with (a + r + 1) in N by ring. lra.
  Qed.
  Theorem D_decreasing s t a b : 0 < s -> 0 < t -> 0 < a -> a < b -> D s t b < D s t a.
  Proof.
    intros S T A AB. set (r := b - a). assert (Hr : 0 < r) by (unfold r; lra). replace b with (a + r) by (unfold r; ring).
    assert (N : forall x, 0 < x -> 0 <= D s t x - D s t (x + r)).
    { apply telescope with (4 * (s ^ 2 + 2 * s)).
      - intros x X. assert (e := D_step s t x S T X). assert (e' := D_step s t (x + r) S T ltac:(lra)). assert (q := F_decreasing s t x r S T X Hr).
        replace (x + 1 + r) with (x + r + 1) by ring. lra.
      - intros x X. assert (b1 := D_bounds s t x S T X). assert (b2 := D_bounds s t (x + r) S T ltac:(lra)).
        assert (i : 2 * (s ^ 2 + 2 * s) / (x + r) <= 2 * (s ^ 2 + 2 * s) / x) by (apply Rmult_le_compat_l; [nra|]; apply Rinv_le_contravar; lra).
        replace (4 * (s ^ 2 + 2 * s) / x) with (2 * (s ^ 2 + 2 * s) / x + 2 * (s ^ 2 + 2 * s) / x) by (field; lra). lra. }
    assert (e := D_step s t a S T A). assert (e' := D_step s t (a + r) S T ltac:(lra)). assert (q := F_decreasing s t a r S T A Hr).
    specialize (N (a + 1) ltac:(lra)). replace (a + 1 + r) with (a + r + 1) in N by ring. lra.
  Qed.
  Theorem D_more s h t a : D (s + h) t a - D s t a = D h t (a + s).
  Proof. unfold D. replace (a + (s + h)) with (a + s + h) by ring. replace (a + s + h + t) with (a + s + h + t) by ring. ring. Qed.
  Theorem D_one t a : 0 < t -> 0 < a -> D 1 t a = U a - U (a + t).
  Proof.
    intros T A. unfold D. assert (e := g_step a A). assert (e' := g_step (a + t) ltac:(lra)). replace (a + 1 + t) with (a + t + 1) by ring. lra.
  Qed.
  Theorem D_one_one a : 0 < a -> D 1 1 a = ln (1 + 1 / a) - 1 / (a + 1).
  Proof.
    intros A. rewrite D_one, U_step by lra. unfold W. rewrite <- ln_div by lra. do 2 f_equal. field. lra.
  Qed.
End Gamma.

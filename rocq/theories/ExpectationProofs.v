(** Expectations of quadratic forms and of log-density ratios. *)
From Verif Require Import Base UtilsModel JaxModel SamplersModel GaussianModel BaseLemmas.
From mathcomp Require Import all_ssreflect ssralg matrix mxalgebra.
From Verif Require Import RStruct PosDef MatrixBridge GaussianSpec GaussianProofs.
Set Implicit Arguments.
Unset Strict Implicit.
Unset Printing Implicit Defensive.
Import GRing.Theory.
Local Open Scope ring_scope.

Lemma fun_ext {A} (f g : A -> R) : (forall z, f z = g z) -> f = g.
Proof. exact: FunctionalExtensionality.functional_extensionality. Qed.

Section Expectation.
  Variables (V : Type) (I : (V -> R) -> Prop) (E : (V -> R) -> R).
  Hypothesis HE : expectation I E.

  Lemma exp_sum (T : Type) (r : seq T) (f : T -> V -> R) : (forall i, I (f i)) ->
    I (fun z => \sum_(i <- r) f i z) /\ E (fun z => \sum_(i <- r) f i z) = \sum_(i <- r) E (f i).
  Proof.
    move=> h; elim: r => [|a r [IH1 IH2]].
    - have -> : (fun z => \sum_(i <- [::]) f i z) = (fun _ => 0) by apply: fun_ext => z; rewrite big_nil.
      rewrite big_nil; exact: (exp_const HE).
    - have -> : (fun z => \sum_(i <- a :: r) f i z) = (fun z => Rplus (f a z) (\sum_(i <- r) f i z)).
      { by apply: fun_ext => z; rewrite big_cons. }
      rewrite big_cons -IH2; exact: (exp_add HE).
  Qed.

  Lemma exp_sub f g : I f -> I g ->
    I (fun z => Rminus (f z) (g z)) /\ E (fun z => Rminus (f z) (g z)) = Rminus (E f) (E g).
  Proof.
    move=> hf hg; have [h1 h2] := exp_scale HE (-1) hg.
    have [k1 k2] := exp_add HE hf h1.
    have e : (fun z => Rminus (f z) (g z)) = (fun z => Rplus (f z) (Rmult (-1) (g z))).
    { apply: fun_ext => z; change (@eq R (Rminus (f z) (g z)) (Rplus (f z) (Rmult (-1) (g z)))); ring. }
    rewrite e; split=> //; rewrite k2 h2.
    change (@eq R (Rplus (E f) (Rmult (-1) (E g))) (Rminus (E f) (E g))); ring.
  Qed.
End Expectation.

Lemma qf_sum n (B : 'M[R]_n) v : qf B v = \sum_i \sum_j Rmult (B i j) (Rmult (v i ord0) (v j ord0)).
Proof.
  rewrite /qf mxE exchange_big /=; apply: eq_bigr => j _.
  rewrite mxE mulr_suml; apply: eq_bigr => i _; rewrite mxE.
  change (@eq R (Rmult (Rmult (v i ord0) (B i j)) (v j ord0)) (Rmult (B i j) (Rmult (v i ord0) (v j ord0)))); ring.
Qed.

Lemma INR_mulrn n : (n%:R : R) = INR n.
Proof. by elim: n => [|n IH] //; rewrite S_INR -IH mulrS addrC. Qed.

Section Quadratic.
  Variables (n : nat) (I : ('cV[R]_n -> R) -> Prop) (E : ('cV[R]_n -> R) -> R).
  Variables (mu : 'cV[R]_n) (S : 'M[R]_n).
  Hypothesis HE : expectation I E.
  Hypothesis HS : has_covariance I E mu S.

  Lemma exp_qf (B : 'M[R]_n) : I (fun z => qf B (z - mu)) /\ E (fun z => qf B (z - mu)) = \tr (B *m S^T).
  Proof.
    have step : forall i j, I (fun z => Rmult (B i j) (Rmult ((z - mu)%R i ord0) ((z - mu)%R j ord0))) /\
      E (fun z => Rmult (B i j) (Rmult ((z - mu)%R i ord0) ((z - mu)%R j ord0))) = Rmult (B i j) (S i j).
    { move=> i j; have [h1 h2] := HS i j; have [k1 k2] := exp_scale HE (B i j) h1.
      by rewrite k2 h2. }
    have row : forall i, I (fun z => \sum_j Rmult (B i j) (Rmult ((z - mu)%R i ord0) ((z - mu)%R j ord0))) /\
      E (fun z => \sum_j Rmult (B i j) (Rmult ((z - mu)%R i ord0) ((z - mu)%R j ord0))) = \sum_j Rmult (B i j) (S i j).
    { move=> i; have [h1 h2] := exp_sum HE (index_enum (ordinal_finType n)) (fun j => proj1 (step i j)).
      split; first exact h1. rewrite h2; by apply: eq_bigr => j _; exact: (proj2 (step i j)). }
    have [h1 h2] := exp_sum HE (index_enum (ordinal_finType n)) (fun i => proj1 (row i)).
    have e : (fun z : 'cV[R]_n => qf B (z - mu))
      = (fun z => \sum_i \sum_j Rmult (B i j) (Rmult ((z - mu)%R i ord0) ((z - mu)%R j ord0))).
    { by apply: fun_ext => z; rewrite qf_sum. }
    rewrite e; split; first exact h1.
    rewrite h2 /mxtrace; apply: eq_bigr => i _; rewrite (proj2 (row i)) mxE.
    by apply: eq_bigr => j _; rewrite mxE.
  Qed.

  Lemma exp_mahalanobis : S^T = S -> S \in unitmx ->
    I (fun z => qf (invmx S) (z - mu)) /\ E (fun z => qf (invmx S) (z - mu)) = INR n.
  Proof.
    move=> s u; have [h1 h2] := exp_qf (invmx S); split=> //.
    by rewrite h2 s mulVmx // mxtrace1 INR_mulrn.
  Qed.

  (** The entropy of the normal distribution. *)
  Lemma exp_normal_log_density : posdef S ->
    I (normal_log_density mu S) /\
    E (normal_log_density mu S) = Ropp (Rmult (/ 2) (Rplus (ln (\det S)) (Rmult (INR n) (Rplus 1 (ln (Rmult 2 PI)))))).
  Proof.
    move=> pd; have [h1 h2] := exp_mahalanobis (proj1 pd) (posdef_unit pd).
    have [k1 k2] := exp_scale HE (Ropp (/ 2)) h1.
    have [c1 c2] := exp_const HE (Rmult (/ 2) (Rplus (ln (\det S)) (Rmult (INR n) (ln (Rmult 2 PI))))).
    have [d1 d2] := exp_sub HE k1 c1; split; first exact d1.
    rewrite (_ : E (normal_log_density mu S) = E (fun z => Rminus (Rmult (Ropp (/ 2)) (qf (invmx S) (z - mu)%R))
      (Rmult (/ 2) (Rplus (ln (\det S)) (Rmult (INR n) (ln (Rmult 2 PI))))))) //.
    rewrite d2 k2 h2 c2; set a := ln (\det S); set b := ln _; set k := INR n.
    change (@eq R (Rminus (Rmult (Ropp (/ 2)) k) (Rmult (/ 2) (Rplus a (Rmult k b))))
      (Ropp (Rmult (/ 2) (Rplus a (Rmult k (Rplus 1 b)))))); ring.
  Qed.
End Quadratic.

(** Marginals of an expectation. *)
Section Marginals.
  Variables (m n : nat) (I : ('cV[R]_(m + n) -> R) -> Prop) (E : ('cV[R]_(m + n) -> R) -> R).
  Variables (mu : 'cV[R]_(m + n)) (S : 'M[R]_(m + n)).
  Hypothesis HE : expectation I E.

  Definition I_x (f : 'cV[R]_m -> R) : Prop := I (fun z => f (usubmx z)).
  Definition E_x (f : 'cV[R]_m -> R) : R := E (fun z => f (usubmx z)).
  Definition I_y (f : 'cV[R]_n -> R) : Prop := I (fun z => f (dsubmx z)).
  Definition E_y (f : 'cV[R]_n -> R) : R := E (fun z => f (dsubmx z)).

  Lemma expectation_x : expectation I_x E_x.
  Proof.
    split.
    - move=> c; exact: (exp_const HE).
    - move=> f g hf hg; exact: (exp_add HE hf hg).
    - move=> c f hf; exact: (exp_scale HE c hf).
  Qed.
  Lemma expectation_y : expectation I_y E_y.
  Proof.
    split.
    - move=> c; exact: (exp_const HE).
    - move=> f g hf hg; exact: (exp_add HE hf hg).
    - move=> c f hf; exact: (exp_scale HE c hf).
  Qed.

  Hypothesis HS : has_covariance I E mu S.

  Lemma covariance_x : has_covariance I_x E_x (usubmx mu) (ulsubmx S).
  Proof.
    move=> i j; have := HS (lshift n i) (lshift n j); rewrite /I_x /E_x.
    have -> : (fun z : 'cV[R]_(m + n) => Rmult ((usubmx z - usubmx mu)%R i ord0) ((usubmx z - usubmx mu)%R j ord0))
      = (fun z => Rmult ((z - mu)%R (lshift n i) ord0) ((z - mu)%R (lshift n j) ord0)).
    { by apply: fun_ext => z; rewrite !mxE. }
    by rewrite [ulsubmx S i j]mxE [usubmx S i _]mxE.
  Qed.
  Lemma covariance_y : has_covariance I_y E_y (dsubmx mu) (drsubmx S).
  Proof.
    move=> i j; have := HS (rshift m i) (rshift m j); rewrite /I_y /E_y.
    have -> : (fun z : 'cV[R]_(m + n) => Rmult ((dsubmx z - dsubmx mu)%R i ord0) ((dsubmx z - dsubmx mu)%R j ord0))
      = (fun z => Rmult ((z - mu)%R (rshift m i) ord0) ((z - mu)%R (rshift m j) ord0)).
    { by apply: fun_ext => z; rewrite !mxE. }
    by rewrite [drsubmx S i j]mxE [dsubmx S i _]mxE.
  Qed.

  (** The expectation of a pointwise mutual information. *)
  Lemma exp_pointwise joint px py : I joint -> I_x px -> I_y py ->
    I (pointwise_mi joint px py) /\
    E (pointwise_mi joint px py) = Rminus (E joint) (Rplus (E_x px) (E_y py)).
  Proof.
    move=> hj hx hy; have [a1 a2] := exp_add HE hx hy; have [b1 b2] := exp_sub HE hj a1.
    split; first exact b1. by rewrite -[E_x px]/(E _) -[E_y py]/(E _) -a2 -b2.
  Qed.

  Lemma gaussian_expected_pmi : posdef S ->
    I (pointwise_mi (normal_log_density mu S) (normal_log_density (usubmx mu) (ulsubmx S))
         (normal_log_density (dsubmx mu) (drsubmx S))) /\
    E (pointwise_mi (normal_log_density mu S) (normal_log_density (usubmx mu) (ulsubmx S))
         (normal_log_density (dsubmx mu) (drsubmx S))) = gaussian_mi S.
  Proof.
    move=> pd.
    have [h1 h2] := exp_normal_log_density HE HS pd.
    have [x1 x2] := exp_normal_log_density expectation_x covariance_x (posdef_ul pd).
    have [y1 y2] := exp_normal_log_density expectation_y covariance_y (posdef_dr pd).
    have [p1 p2] := exp_pointwise h1 x1 y1; split=> //; rewrite p2 h2 x2 y2 /gaussian_mi.
    have d := det_posdef pd.
    have a := det_posdef (posdef_ul pd); have b := det_posdef (posdef_dr pd).
    rewrite ln_divide //; last exact: Rmult_lt_0_compat.
    have e : INR (m + n)%N = Rplus (INR m) (INR n) by rewrite -plusE plus_INR.
    rewrite e (ln_mult _ _ a b).
    set la := ln _; set lb := ln _; set lc := ln _; set ld := ln _; set k := INR m; set l := INR n.
    clearbody la lb lc ld k l; lazymatch goal with |- ?u = ?v => change (@eq R u v) end; field.
  Qed.
End Marginals.

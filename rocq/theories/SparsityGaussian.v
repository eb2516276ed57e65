(** Mutual information of latent variable models in which every pair interacts. *)
From Verif Require Import Base UtilsModel JaxModel SamplersModel GaussianModel BaseLemmas MatrixUtilsModel MatrixUtilsSpec MatrixUtilsProofs LvmProofs
  BenchmarkModel TasksModel TasksSpec BasicSpec.
From mathcomp Require Import all_ssreflect ssralg matrix mxalgebra.
From Verif Require Import SamplersSpec RStruct PosDef MatrixBridge GaussianSpec GaussianProofs ExpectationProofs GaussianThms MatrixUtilsThms TasksGaussian
  BasicGaussian.
Set Implicit Arguments.
Unset Strict Implicit.
Unset Printing Implicit Defensive.
Import GRing.Theory.
Local Open Scope ring_scope.

(** p on the diagonal added to q everywhere. *)
Definition PQ n (p q : R) : 'M[R]_n := \matrix_(i, j) Rplus q (if i == j then p else R0).

Lemma PQ_algebra (D p q r P Q N : R) : p <> R0 -> Rplus p q <> R0 -> r = Rdiv q (Rplus p q) -> Q <> R0 ->
  Rmult D (Rminus 1 r) = Rmult (Rdiv P Q) (Rplus 1 (Rmult (Rminus N 1) r)) ->
  Rmult (Rmult Q D) p = Rmult P (Rplus p (Rmult N q)).
Proof.
  move=> p0 s0 er q0 e. have e1 : Rminus 1 r = Rdiv p (Rplus p q) by rewrite er; field.
  have -> : D = Rdiv (Rmult D (Rminus 1 r)) (Rminus 1 r) by rewrite e1; field; split.
  rewrite e e1 er; field; by repeat split.
Qed.

Lemma PQ_det n (p q : R) : Rlt 0 p -> Rle 0 q -> Rmult (\det (PQ n p q)) p = Rmult (pow p n) (Rplus p (Rmult (INR n) q)).
Proof.
  move=> hp hq; set r := Rdiv q (Rplus p q).
  have s0 : Rplus p q <> R0 by lra. have p0 : p <> R0 by lra.
  have er : Rminus 1 r = Rdiv p (Rplus p q) by rewrite /r; field.
  have r1 : r <> IZR 1.
  { move=> h; have : Rminus 1 r = R0 by rewrite h; ring. rewrite er => h2; apply: p0.
    have -> : p = Rmult (Rdiv p (Rplus p q)) (Rplus p q) by field. rewrite h2; ring. }
  have -> : PQ n p q = Rplus p q *: Kmx n r.
  { apply/matrixP => i j; rewrite !mxE; case: eqP => _; real_eq.
    - change (Rplus q p = Rmult (Rplus p q) 1); ring.
    - change (Rplus q R0 = Rmult (Rplus p q) r); rewrite /r; field. exact: s0. }
  rewrite detZ -pow_exp.
  have e := Kmx_det n r1; rewrite er in e.
  have q0 : pow (Rplus p q) n <> R0 by apply: pow_nonzero.
  have ep : pow (Rdiv p (Rplus p q)) n = Rdiv (pow p n) (pow (Rplus p q) n).
  { rewrite /Rdiv Rpow_mult_distr pow_inv //. }
  rewrite ep -er in e.
  exact: (PQ_algebra p0 s0 (erefl r) q0 e).
Qed.

Lemma det_exchange n (A B : 'M[R]_n) : \det (block_mx A B B A) = \det (A + B) * \det (A - B).
Proof.
  have e : block_mx 1%:M 1%:M 0 1%:M *m block_mx A B B A *m block_mx 1%:M (- 1%:M) 0 1%:M = block_mx (A + B) 0 B (A - B) :> 'M[R]_(n + n).
  { rewrite !mulmx_block !mul1mx !mul0mx !mulmx1 !mulmx0 !addr0 !add0r !mulmxN !mulmx1; congr block_mx.
    - by rewrite [B + A]addrC addNr.
    - by rewrite addrC. }
  have := congr1 (fun M : 'M[R]_(n + n) => \det M) e.
  by rewrite !det_mulmx !det_ublock !det1 !mul1r mulr1 det_lblock.
Qed.

Section Full.
  Variables (d : nat) (alpha lambd : R) (C : UtilsModel.matrix).
  Hypotheses (d0 : (0 < d)%N) (HC : has_entries (d + d) C (latent_cov d d alpha lambd 0 lambd)).
  Let S := sigma d d C.
  Let u := pow lambd 2.
  Let q := pow alpha 2.

  Lemma full_blocks : [/\ ulsubmx S = PQ d (Rplus 1 u) q, ursubmx S = PQ d u q, dlsubmx S = PQ d u q & drsubmx S = PQ d (Rplus 1 u) q].
  Proof.
    split; apply/matrixP => i j; rewrite !mxE (proj2 HC); try (apply/ltP; exact: ltn_ord);
      have /ltP hi := ltn_ord i; have /ltP hj := ltn_ord j; rewrite /latent_cov /= -?plusE -?(inj_eq val_inj) /= /u /q;
      cbn [pow].
    all: repeat match goal with
         | |- context [PeanoNat.Nat.ltb ?a ?b] => case: (PeanoNat.Nat.ltb_spec a b) => ? //=
         end.
    all: repeat match goal with
         | |- context [PeanoNat.Nat.eqb ?a ?b] => case: (PeanoNat.Nat.eqb_spec a b) => ? //=
         | |- context [eqtype.eq_op ?a ?b] => case: (@eqP _ a b) => ? //=
         end; try (exfalso; nlia); real_eq; ring.
  Qed.

  Lemma full_det : \det S = \det (PQ d (Rplus 1 (Rmult 2 u)) (Rmult 2 q)).
  Proof.
    have [e1 e2 e3 e4] := full_blocks.
    rewrite -(submxK S) e1 e2 e3 e4 det_exchange.
    have -> : PQ d (Rplus 1 u) q - PQ d u q = 1%:M.
    { apply/matrixP => i j; rewrite !mxE; case: eqP => _; rewrite ?mulr1n ?mulr0n; real_eq.
      - change (Rplus (Rplus q (Rplus 1 u)) (Ropp (Rplus q u)) = IZR 1); ring.
      - change (Rplus (Rplus q R0) (Ropp (Rplus q R0)) = IZR 0); ring. }
    rewrite det1 mulr1; congr (\det _); apply/matrixP => i j; rewrite !mxE; case: eqP => _; real_eq.
    - change (Rplus (Rplus q (Rplus 1 u)) (Rplus q u) = Rplus (Rmult 2 q) (Rplus 1 (Rmult 2 u))); ring.
    - change (Rplus (Rplus q R0) (Rplus q R0) = Rplus (Rmult 2 q) R0); ring.
  Qed.

  Lemma full_algebra (x y D p r X Y : R) : Rlt 0 p -> Rlt 0 r -> Rlt 0 x -> Rlt 0 y -> Rlt 0 X -> Rlt 0 Y ->
    Rmult D p = Rmult x X -> forall D2, Rmult D2 r = Rmult y Y -> forall N, ln x = Rmult N (ln p) -> ln y = Rmult N (ln r) ->
    Rmult (Rinv 2) (ln (Rdiv (Rmult D D) D2)) =
    Rplus (Rmult (Rminus N 1) (Rmult (Rinv 2) (ln (Rdiv (pow p 2) r)))) (Rmult (Rinv 2) (ln (Rdiv (pow X 2) Y))).
  Proof.
    move=> p0 r0 x0 y0 X0 Y0 e1 D2 e2 N l1 l2.
    have eD : D = Rdiv (Rmult x X) p by rewrite -e1; field; lra.
    have eD2 : D2 = Rdiv (Rmult y Y) r by rewrite -e2; field; lra.
    have dp : Rlt 0 D by rewrite eD; apply: Rdiv_lt_0_compat => //; exact: Rmult_lt_0_compat.
    have d2p : Rlt 0 D2 by rewrite eD2; apply: Rdiv_lt_0_compat => //; exact: Rmult_lt_0_compat.
    rewrite !ln_divide //; try (apply: pow_lt => //); try exact: Rmult_lt_0_compat.
    have -> : ln (pow p 2) = Rmult 2 (ln p) by rewrite ln_pow //; change (INR 2) with (Rplus 1 1); ring.
    have -> : ln (pow X 2) = Rmult 2 (ln X) by rewrite ln_pow //; change (INR 2) with (Rplus 1 1); ring.
    rewrite (ln_mult D D) //.
    have -> : ln D = Rminus (Rplus (ln x) (ln X)) (ln p).
    { rewrite eD ln_divide // ?ln_mult //; exact: Rmult_lt_0_compat. }
    have -> : ln D2 = Rminus (Rplus (ln y) (ln Y)) (ln r).
    { rewrite eD2 ln_divide // ?ln_mult //; exact: Rmult_lt_0_compat. }
    rewrite l1 l2; real_eq; field.
  Qed.

  Lemma full_value : gaussian_mi S =
    Rplus (Rmult (Rminus (INR d) 1) (Rmult (Rinv 2) (ln (Rdiv (pow (Rplus 1 u) 2) (Rplus 1 (Rmult 2 u))))))
          (Rmult (Rinv 2) (ln (Rdiv (pow (Rplus 1 (Rplus u (Rmult (INR d) q))) 2) (Rplus 1 (Rmult 2 (Rplus u (Rmult (INR d) q))))))).
  Proof.
    have [e1 e2 e3 e4] := full_blocks.
    have u0 : Rle 0 u by rewrite /u; cbn [pow]; nra. have q0 : Rle 0 q by rewrite /q; cbn [pow]; nra.
    have n0 : Rle 0 (INR d) by exact: pos_INR. have nq : Rle 0 (Rmult (INR d) q) by exact: Rmult_le_pos.
    have a1 := @PQ_det d (Rplus 1 u) q ltac:(lra) q0.
    have a2 := @PQ_det d (Rplus 1 (Rmult 2 u)) (Rmult 2 q) ltac:(lra) ltac:(lra).
    rewrite /gaussian_mi e1 e4 full_det.
    have f := full_algebra (x := pow (Rplus 1 u) d) (y := pow (Rplus 1 (Rmult 2 u)) d) (p := Rplus 1 u) (r := Rplus 1 (Rmult 2 u))
      (X := Rplus (Rplus 1 u) (Rmult (INR d) q)) (Y := Rplus (Rplus 1 (Rmult 2 u)) (Rmult (INR d) (Rmult 2 q))).
    rewrite (f _ _ _ _ _ _ _ a1 _ a2 (INR d)); try (rewrite ln_pow //); try (apply: pow_lt); try lra.
    congr (Rplus _ (Rmult _ (ln (Rdiv (pow _ 2) _)))); real_eq; ring.
  Qed.
End Full.

(** Without interacting pairs and without their strength, the same model. *)
Lemma latent_none d alpha i j : (i < d + d)%coq_nat -> (j < d + d)%coq_nat -> latent_cov d 0 alpha 0 0 0 i j = latent_cov d d alpha 0 0 0 i j.
Proof.
  move=> hi hj; rewrite /latent_cov.
  repeat match goal with |- context [if ?b then _ else _] => destruct b end; cbn [pow]; real_eq; ring.
Qed.

Lemma sigma_ext m n C C' f : has_entries (m + n) C f -> has_entries (m + n) C' f -> sigma m n C = sigma m n C'.
Proof.
  move=> [_ h] [_ h']; apply/matrixP => i j; rewrite !mxE h; try (apply/ltP; exact: ltn_ord).
  by rewrite h'; try (apply/ltP; exact: ltn_ord).
Qed.

Lemma few_value m n k s C : (k <= m)%coq_nat -> (k <= n)%coq_nat -> has_entries (m + n) C (latent_cov m k 0 s 0 s) ->
  gaussian_mi (sigma m n C) = paired_mi k (strength_correlation s).
Proof.
  move=> km kn hC. have [C0 [C1 [h0 [_ [h1 [_ g]]]]]] := @latent_correlation m n k R0 s R0 s km kn.
  rewrite (sigma_ext hC h0) -g. apply: paired_gaussian => //; last exact: strength_below_one.
  apply: (entries_ext h1) => i j hi hj; exact: (@sparse_correlation m n).
Qed.

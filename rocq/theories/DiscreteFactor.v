(** The factor of a matrix with two rows. *)
From Verif Require Import Base UtilsModel JaxModel SamplersModel GaussianModel MatrixUtilsModel BmmModel
  MultivariateModel MixturesModel PaperModel DiscreteModel DiscreteSpec.
From mathcomp Require Import all_ssreflect ssralg matrix mxalgebra.
From Verif Require Import RStruct PosDef MatrixBridge GaussianSpec GaussianProofs GaussianThms MultivariateSpec MultivariateThms MixturesSpec MixturesThms.
Set Implicit Arguments.
Unset Strict Implicit.
Unset Printing Implicit Defensive.
Import GRing.Theory.
Local Open Scope ring_scope.
Ltac real_eq := lazymatch goal with |- ?l = ?r => change (@eq R l r) end.

Lemma plane_factor cholesky a b c : factorises cholesky -> Rlt 0 a -> Rlt 0 c -> Rlt (Rmult b b) (Rmult a c) -> factor_plane cholesky a b c.
Proof.
  move=> cho a0 c0 bc; have := cho [:: [:: a; b]; [:: b; c]]; rewrite /cholesky_ok /=.
  have sy : symmetric_part (to_mx 2 2 [:: [:: a; b]; [:: b; c]]) = to_mx 2 2 [:: [:: a; b]; [:: b; c]].
  { apply/matrixP => -[[|[|i]] hi] [[|[|j]] hj] //; rewrite !mxE /entry /=; real_eq;
      [change (@eq R (Rmult (Rinv 2) (Rplus a a)) a) | change (@eq R (Rmult (Rinv 2) (Rplus b b)) b)
      | change (@eq R (Rmult (Rinv 2) (Rplus b b)) b) | change (@eq R (Rmult (Rinv 2) (Rplus c c)) c)]; field. }
  rewrite sy; case e: (cholesky _) => [L|]; last by move=> np; exact: (False_ind _ (np (two_posdef a0 c0 bc))).
  case=> sh [tr dg f].
  have [l11 [l12 [l21 [l22 eL]]]] : exists l11 l12 l21 l22, L = [:: [:: l11; l12]; [:: l21; l22]].
  { move: sh {tr dg f e}; case: L => [|[|x1 [|x2 [|x3 x]]] [|[|y1 [|y2 [|y3 y]]] [|r l]]] //= _; by exists x1, x2, y1, y2. }
  pose i0 : 'I_2 := Ordinal (isT : (0 < 2)%N); pose i1 : 'I_2 := Ordinal (isT : (1 < 2)%N).
  have z : l12 = IZR 0 by have := elimT is_trig_mxP tr i0 i1 isT; rewrite mxE eL /entry /=.
  have p1 : Rlt 0 l11 by have := dg i0; rewrite mxE eL /entry /=.
  have p2 : Rlt 0 l22 by have := dg i1; rewrite mxE eL /entry /=.
  have g : forall i j : 'I_2, (to_mx 2 2 L *m (to_mx 2 2 L)^T) i j = to_mx 2 2 [:: [:: a; b]; [:: b; c]] i j by move=> i j; rewrite f.
  exists l11, l21, l22; rewrite e eL z; split=> //; do 2 split=> //.
  have g00 := g i0 i0; have g01 := g i0 i1; have g11 := g i1 i1.
  rewrite !mxE !big_ord_recl !big_ord0 !mxE /entry eL z /= in g00 g01 g11.
  have {}g00 : Rplus (Rmult l11 l11) (Rplus (Rmult 0 0) 0) = a by exact: g00.
  have {}g01 : Rplus (Rmult l11 l21) (Rplus (Rmult 0 l22) 0) = b by exact: g01.
  have {}g11 : Rplus (Rmult l21 l21) (Rplus (Rmult l22 l22) 0) = c by exact: g11.
  split; [lra|split; lra].
Qed.

Lemma discrete_factors cholesky : factorises cholesky ->
  factor_plane cholesky (Rdiv 2 10) 0 (Rdiv 2 10) /\ factor_plane cholesky (Rdiv 1 10) (Rmult (Rdiv 1 10) (Rdiv 95 100)) (Rdiv 1 10).
Proof. by move=> cho; split; apply: plane_factor => //; lra. Qed.

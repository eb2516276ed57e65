(** The covariances with correlated pairs are positive definite, and the normal distribution of the spirals. *)
From Verif Require Import Base UtilsModel JaxModel SamplersModel GaussianModel BaseLemmas MatrixUtilsModel MatrixUtilsSpec MatrixUtilsProofs LvmProofs TransformsModel
  BenchmarkModel TasksModel TasksSpec BasicSpec PlotMiModel SpiralFigureModel.
From mathcomp Require Import all_ssreflect ssralg matrix mxalgebra.
From Verif Require Import SamplersSpec RStruct PosDef MatrixBridge GaussianSpec GaussianProofs ExpectationProofs GaussianThms MatrixUtilsThms TasksGaussian BasicGaussian.
Set Implicit Arguments.
Unset Strict Implicit.
Unset Printing Implicit Defensive.
Import GRing.Theory.
Local Open Scope ring_scope.

Lemma paired_posdef (m n k : nat) (r : R) C : (k <= m)%N -> (k <= n)%N -> has_entries (m + n) C (paired_off m k r) -> Rlt (-1) r -> Rlt r 1 -> posdef (sigma m n C).
Proof.
  move=> km kn HC r1 r2; have [e1 e2 e3 e4] := paired_blocks km kn HC.
  have one : forall N : nat, posdef (1%:M : 'M[R]_N).
  { move=> N; have -> : (1%:M : 'M[R]_N) = diag_mx (\row_(j < N) R1).
    { apply/matrixP => i j; rewrite !mxE; by case: (eqVneq i j). }
    apply/posdef_diag => i; rewrite mxE; exact: Rlt_0_1. }
  apply: posdef_from_schur.
  - by rewrite -(submxK (sigma m n C)) tr_block_mx e1 e2 e3 e4 !trmx1 trmxK.
  - rewrite e1; exact: one.
  - rewrite e1 e2 e4 /schur invmx1 mulmx1; set B := \matrix_(i, j) _.
    have -> : 1%:M - B^T *m B = diag_mx (\row_(j < n) (if (j < k)%N then Rminus 1 (pow r 2) else R1)).
    { apply/matrixP => i j; rewrite !mxE.
      case: (ltnP i k) => hi.
      - have him : (i < m)%N by apply: leq_trans hi km.
        rewrite (bigD1 (Ordinal him)) //= big1 ?addr0 => [|l li]; last first.
        { rewrite !mxE; case: eqP => e; last by rewrite mul0r.
          case/eqP: li; exact/val_inj. }
        rewrite !mxE /= eqxx hi /=; case: (eqVneq i j) => [<-|ij].
        + rewrite eqxx mulr1n /=; real_eq; change (Rplus 1 (Ropp (Rmult r r)) = Rminus 1 (Rmult r (Rmult r 1))); ring.
        + rewrite (inj_eq val_inj) (negbTE ij) /= mulr0 subr0 mulr0n //.
      - rewrite big1 ?subr0 => [|l _]; last first.
        { rewrite !mxE; case: eqP => e; last by rewrite mul0r.
          by rewrite e ltnNge hi /= mul0r. }
        by case: (eqVneq i j) => ij; rewrite ?mulr1n ?mulr0n. }
    apply/posdef_diag => i; rewrite mxE; case: (i < k)%N; last exact: Rlt_0_1.
    rewrite /=; nra.
Qed.

Section Normal.
  Variable eigvals : UtilsModel.matrix -> list (R * R).
  Hypothesis He : eigvals_positive eigvals.
  Variables (J : prng) (mvn : key J -> list R -> UtilsModel.matrix -> nat -> UtilsModel.matrix).

  Lemma spiral_normal c : Rlt (-1) c -> Rlt c 1 ->
    exists C s, spiral_covariance c = Ok C /\ multinormal_sampler eigvals mvn 2 1 C = Ok s /\ dim_x s = Ok 2%Z /\ dim_y s = Ok 1%Z /\
      mutual_information s = Ok (Fin (paired_mi 1 c)) /\ Rle 0 (paired_mi 1 c) /\ normal_pairs mvn 2 1 (paired_off 2 1 c) s.
  Proof.
    move=> c1 c2; exists [:: [:: R1; R0; c]; [:: R0; R1; R0]; [:: c; R0; R1]].
    have HC : has_entries (2 + 1) [:: [:: R1; R0; c]; [:: R0; R1; R0]; [:: c; R0; R1]] (paired_off 2 1 c).
    { split=> // [[|[|[|u]]]] [|[|[|w]]] hu hw; try (exfalso; clear - hu hw; nlia); reflexivity. }
    have pd := @paired_posdef 2 1 1 c _ isT isT HC c1 c2.
    have v := @paired_value 2 1 1 c _ isT isT HC (Rabs_def1 _ _ c2 c1).
    have h2 : (1 <= 2)%Z by lia. have h1 : (1 <= 1)%Z by lia.
    have [s [e [dx [dy [mi [p np]]]]]] := @normal_built eigvals He J mvn 2 1 _ _ h2 h1 HC pd.
    rewrite -[Z.to_nat 2]/2%N -[Z.to_nat 1]/1%N v in mi p.
    exists s; split; first reflexivity. by split.
  Qed.
End Normal.

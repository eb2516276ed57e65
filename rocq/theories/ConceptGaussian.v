(** The normal distributions of the figures of the concept. *)
From Verif Require Import Base UtilsModel JaxModel SamplersModel GaussianModel BaseLemmas MatrixUtilsModel MatrixUtilsSpec MatrixUtilsProofs LvmProofs TransformsModel
  BenchmarkModel TasksModel TasksSpec BasicSpec ConceptModel ConceptSpec.
Lemma generated dx dy c : (1 <= dx)%Z -> (1 <= dy)%Z -> exists C, generate_covariance c dx dy = Ok C /\
  has_entries (Z.to_nat dx + Z.to_nat dy) C (paired_off (Z.to_nat dx) 1 c).
Proof.
  intros hx hy. unfold generate_covariance. assert (a0 : (0 < Z.to_nat dx)%nat) by lia. assert (b0 : (0 < Z.to_nat dy)%nat) by lia.
  revert a0 b0. generalize (Z.to_nat dx) (Z.to_nat dy). clear. intros a b a0 b0.
  destruct (assign_pair (a + b) 0 a c _ _ ltac:(lia) ltac:(lia) (np_eye_entries _)) as (C & E & HC). exists C. split; [exact E|].
  eapply entries_ext; [|exact HC]. intros i j hi hj. cbv beta. unfold paired_off.
  destruct (Nat.eqb_spec i j); destruct (Nat.eqb_spec i 0); destruct (Nat.eqb_spec j a); destruct (Nat.eqb_spec i a); destruct (Nat.eqb_spec j 0);
    destruct (Nat.eqb_spec j (a + i)); destruct (Nat.eqb_spec i (a + j)); destruct (Nat.ltb_spec i 1); destruct (Nat.ltb_spec j 1);
    cbn [andb orb]; try reflexivity; exfalso; lia.
Qed.
From mathcomp Require Import all_ssreflect ssralg matrix mxalgebra.
From Verif Require Import SamplersSpec RStruct PosDef MatrixBridge GaussianSpec GaussianProofs ExpectationProofs GaussianThms MatrixUtilsThms MixturesSpec TasksGaussian BasicGaussian SpiralGaussian.
Set Implicit Arguments.
Unset Strict Implicit.
Unset Printing Implicit Defensive.
Import GRing.Theory.
Local Open Scope ring_scope.

Lemma two_one_entries : has_entries (2 + 1) concept_cov two_one.
Proof.
  split=> // [[|[|[|u]]]] [|[|[|w]]] hu hw; try (exfalso; clear - hu hw; nlia); rewrite /two_one /concept_cov /mat_scale /entry /=; lra.
Qed.
Lemma two_one_sym : (sigma 2 1 concept_cov)^T = sigma 2 1 concept_cov.
Proof. by apply/matrixP => i j; rewrite !mxE; case: i => [[|[|[|i]]] hi]; case: j => [[|[|[|j]]] hj]. Qed.
Lemma square_pos (u : R) : u <> IZR 0 -> Rlt 0 (pow u 2).
Proof. move=> h; have := Rsqr_pos_lt _ h; by rewrite /Rsqr /= Rmult_1_r. Qed.
Lemma two_one_form (a b c : R) : ~ (a = IZR 0 /\ b = IZR 0 /\ c = IZR 0) ->
  Rlt 0 (Rmult (Rdiv 8 10) (Rplus (pow (Rplus c (Rmult (Rdiv 805 1000) (Rplus a b))) 2)
     (Rplus (Rmult (Rdiv 148025 1000000) (pow (Rminus a b) 2)) (Rmult (Rdiv 20395 100000) (Rplus (pow a 2) (pow b 2)))))).
Proof.
  move=> nz; have s1 := pow2_ge_0 (Rplus c (Rmult (Rdiv 805 1000) (Rplus a b))); have s2 := pow2_ge_0 (Rminus a b).
  have s3 := pow2_ge_0 a; have s4 := pow2_ge_0 b.
  case: (Req_EM_T a (IZR 0)) => a0; [case: (Req_EM_T b (IZR 0)) => b0|].
  - have c0 : c <> IZR 0 by move=> c0; apply: nz.
    rewrite a0 b0; have s5 := square_pos c0. move: s5; rewrite /=; lra.
  - have s5 := square_pos b0. lra.
  - have s5 := square_pos a0. lra.
Qed.
Lemma two_one_posdef : posdef (sigma 2 1 concept_cov).
Proof.
  split; first exact: two_one_sym.
  move=> x nz; rewrite qf_sum !big_ord_recl !big_ord0 !mxE.
  rewrite /concept_cov /mat_scale /entry /=.
  set a := x ord0 ord0; set b := x (lift ord0 ord0) ord0; set c := x (lift ord0 (lift ord0 ord0)) ord0.
  have nz' : ~ (a = IZR 0 /\ b = IZR 0 /\ c = IZR 0).
  { move=> [a0 [b0 c0]]; case/eqP: nz; apply/matrixP => i j; rewrite (ord1 j) [RHS]mxE.
    case: i => [[|[|[|i]]] hi] //.
    - by rewrite (_ : Ordinal hi = ord0) //; apply/val_inj.
    - by rewrite (_ : Ordinal hi = lift ord0 ord0) //; apply/val_inj.
    - by rewrite (_ : Ordinal hi = lift ord0 (lift ord0 ord0)) //; apply/val_inj. }
  move: nz'; clearbody a b c => nz'.
  rewrite /GRing.add /GRing.mul /GRing.zero /=.
  match goal with |- Rlt _ ?t => replace t with (Rmult (Rdiv 8 10) (Rplus (pow (Rplus c (Rmult (Rdiv 805 1000) (Rplus a b))) 2)
     (Rplus (Rmult (Rdiv 148025 1000000) (pow (Rminus a b) 2)) (Rmult (Rdiv 20395 100000) (Rplus (pow a 2) (pow b 2)))))) end; last first.
  { real_eq; field. }
  exact: two_one_form.
Qed.
Lemma two_one_mi : gaussian_mi (sigma 2 1 concept_cov) = Rmult (Rdiv 1 2) (ln (Rdiv 30000 4079)).
Proof.
  rewrite /gaussian_mi /sigma -(to_mx_ul 2 1) -(to_mx_dr 2 1) -!det_to_mx; congr (Rmult _ (ln _)); first (by real_eq; field).
  rewrite /concept_cov; cbn; real_eq; field.
Qed.

Section Normal.
  Variable eigvals : UtilsModel.matrix -> list (R * R).
  Variables (J : prng) (mvn : key J -> list R -> UtilsModel.matrix -> nat -> UtilsModel.matrix).

  Lemma two_one_normal : eigvals_positive eigvals ->
    exists s, multinormal_sampler eigvals mvn 2 1 concept_cov = Ok s /\ dim_x s = Ok 2%Z /\ dim_y s = Ok 1%Z /\
      mutual_information s = Ok (Fin (Rmult (Rdiv 1 2) (ln (Rdiv 30000 4079)))) /\ normal_pairs mvn 2 1 two_one s.
  Proof.
    move=> He; have h2 : (1 <= 2)%Z by lia. have h1 : (1 <= 1)%Z by lia.
    have [s [e [dx [dy [mi [p np]]]]]] := @normal_built eigvals He J mvn 2 1 _ _ h2 h1 two_one_entries two_one_posdef.
    rewrite -[Z.to_nat 2]/2%N -[Z.to_nat 1]/1%N two_one_mi in mi. by exists s.
  Qed.
  Lemma one_one_normal c : eigvals_positive eigvals -> Rlt (-1) c -> Rlt c 1 ->
    exists s, multinormal_sampler eigvals mvn 1 1 [:: [:: R1; c]; [:: c; R1]] = Ok s /\ dim_x s = Ok 1%Z /\ dim_y s = Ok 1%Z /\
      mutual_information s = Ok (Fin (paired_mi 1 c)) /\ normal_pairs mvn 1 1 (paired_off 1 1 c) s.
  Proof.
    move=> He c1 c2; have HC : has_entries (1 + 1) [:: [:: R1; c]; [:: c; R1]] (paired_off 1 1 c).
    { split=> // [[|[|u]]] [|[|w]] hu hw; try (exfalso; clear - hu hw; nlia); reflexivity. }
    have pd := @paired_posdef 1 1 1 c _ isT isT HC c1 c2.
    have v := @paired_value 1 1 1 c _ isT isT HC (Rabs_def1 _ _ c2 c1).
    have h1 : (1 <= 1)%Z by lia.
    have [s [e [dx [dy [mi [p np]]]]]] := @normal_built eigvals He J mvn 1 1 _ _ h1 h1 HC pd.
    rewrite -[Z.to_nat 1]/1%N v in mi. by exists s.
  Qed.

  Lemma spiral_base dx dy c : eigvals_positive eigvals -> (1 <= dx)%Z -> (1 <= dy)%Z -> Rlt (-1) c -> Rlt c 1 ->
    exists s, create_base_sampler eigvals mvn dx dy c = Ok s /\ dim_x s = Ok dx /\ dim_y s = Ok dy /\
      mutual_information s = Ok (Fin (paired_mi 1 c)) /\ normal_pairs mvn (Z.to_nat dx) (Z.to_nat dy) (paired_off (Z.to_nat dx) 1 c) s.
  Proof.
    move=> He hx hy c1 c2; have [C [e HC]] := @generated dx dy c hx hy.
    have a0 : (1 <= Z.to_nat dx)%N by apply/leP; lia. have b0 : (1 <= Z.to_nat dy)%N by apply/leP; lia.
    have pd := paired_posdef a0 b0 HC c1 c2. have v := paired_value a0 b0 HC (Rabs_def1 _ _ c2 c1).
    have [s [es [ex [ey [mi [p np]]]]]] := @normal_built eigvals He J mvn dx dy _ _ hx hy HC pd.
    exists s; rewrite /create_base_sampler /Rleb /Rltb.
    case: Rle_dec => [_|[]]; last lra. case: Rlt_dec => // _; rewrite /= e /= es.
    rewrite v in mi. by [].
  Qed.
  Lemma minus_one dx dy : eigvals_symmetric eigvals -> (1 <= dx)%Z -> (1 <= dy)%Z -> create_base_sampler eigvals mvn dx dy (-1) = Err ValueError.
  Proof.
    move=> He hx hy; have [C [e HC]] := @generated dx dy (IZR (-1)) hx hy.
    rewrite /create_base_sampler /Rleb /Rltb.
    case: Rle_dec => [_|[]]; last lra. case: Rlt_dec => [_|[]]; last lra. rewrite /= e /= /multinormal_sampler.
    case i: (split_multinormal_init eigvals dx dy C None) => [s|x]; last by rewrite (split_init_errors i).
    exfalso; have [m' [n' [e1 e2 m0 n0 [_ sh [c _] _ _]]]] := proj1 (split_init_ok _ _ _ _ _ _) i.
    rewrite e1 e2 !Nat2Z.id in HC.
    have [b1 b2 b3 b4] := paired_blocks m0 n0 HC.
    have sym : (sigma m' n' C)^T = sigma m' n' C by rewrite -(submxK (sigma m' n' C)) tr_block_mx b1 b2 b3 b4 !trmx1 trmxK.
    have ab : (0 < m' + n')%N by exact: ltn_addr.
    have pd := proj1 (accepted_symmetric (proj1 HC) ab (He _ _ (proj1 HC) sym) sym) c.
    have := det_posdef pd; rewrite -/(sigma m' n' C) (paired_det m0 n0 HC) /=; lra.
  Qed.
End Normal.

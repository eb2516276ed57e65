(** The mutual information of the sampler searched through by generate_sparse_gaussian_task. *)
From Verif Require Import Base UtilsModel JaxModel SamplersModel GaussianModel BaseLemmas MatrixUtilsModel MatrixUtilsSpec MatrixUtilsProofs LvmProofs
  BenchmarkModel TasksModel TasksSpec HighMiModel.
From mathcomp Require Import all_ssreflect ssralg matrix mxalgebra.
From Verif Require Import SamplersSpec RStruct PosDef MatrixBridge GaussianSpec GaussianProofs ExpectationProofs GaussianThms MatrixUtilsThms TasksGaussian.
Set Implicit Arguments.
Unset Strict Implicit.
Unset Printing Implicit Defensive.
Import GRing.Theory.
Local Open Scope ring_scope.

Lemma nth_pair (c : R) d i : List.nth i (c :: c :: List.repeat R0 d) R0 = if PeanoNat.Nat.ltb i 2 then c else R0.
Proof. case: i => [|[|i]] //=; by rewrite List.nth_repeat. Qed.

Section Sparse.
  Variable eigvals : UtilsModel.matrix -> list (R * R).
  Hypothesis He : eigvals_positive eigvals.
  Variables (J : prng) (mvn : key J -> list R -> UtilsModel.matrix -> nat -> UtilsModel.matrix).

  Lemma sparse_gaussian c dim : (2 <= dim)%Z -> Rlt (-1) c -> Rlt c 1 ->
    exists s, get_sparse_gaussian_sampler eigvals mvn c dim = Ok s /\ dim_x s = Ok dim /\ dim_y s = Ok dim /\
      mutual_information s = Ok (Fin (Ropp (ln (Rminus 1 (pow c 2))))).
  Proof.
    move=> hd c0 c1.
    have vp : valid_parameters dim dim 2 c (IZR 0) (IZR 0).
    { rewrite /valid_parameters; split; [lia|split; [lia|split; [lra|split; lra]]]. }
    have [C [eC hC]] := parametrised_ok _ _ _ _ _ _ vp.
    set rho := (c :: c :: List.repeat R0 (Nat.sub (Z.to_nat dim) 2))%list.
    have lr : List.length rho = Z.to_nat dim by rewrite /rho /= List.repeat_length; lia.
    have hE : has_entries (List.length rho + (List.length rho + 0)) C (fun i j =>
      if PeanoNat.Nat.eqb i j then R1
      else if (PeanoNat.Nat.ltb i (List.length rho) && PeanoNat.Nat.eqb j (List.length rho + i))%bool then List.nth i rho R0
      else if (PeanoNat.Nat.ltb j (List.length rho) && PeanoNat.Nat.eqb i (List.length rho + j))%bool then List.nth j rho R0 else R0).
    { rewrite addn0 lr; apply: entries_ext hC => i j hi hj.
      rewrite /block_correlation /rho !nth_pair.
      change (Z.to_nat 2) with 2%nat.
      change (addn (Z.to_nat dim) i) with (Nat.add (Z.to_nat dim) i); change (addn (Z.to_nat dim) j) with (Nat.add (Z.to_nat dim) j).
      change (addn (Z.to_nat dim) (Z.to_nat dim)) with (Nat.add (Z.to_nat dim) (Z.to_nat dim)) in hi, hj.
      set d := Z.to_nat dim in hi hj *.
      destruct (PeanoNat.Nat.ltb_spec i d), (PeanoNat.Nat.ltb_spec j d), (PeanoNat.Nat.eqb_spec i j),
        (PeanoNat.Nat.eqb_spec j (Nat.add d i)), (PeanoNat.Nat.eqb_spec i (Nat.add d j)), (PeanoNat.Nat.ltb_spec i 2),
        (PeanoNat.Nat.ltb_spec j 2); cbn [andb]; try reflexivity; exfalso; lia. }
    have fa : List.Forall (fun r => Rlt (Rabs r) 1) rho.
    { have a0 : Rlt (Rabs c) 1 by apply: Rabs_def1; lra.
      constructor; first exact: a0. constructor; first exact: a0. apply List.Forall_forall; intros r hr; apply List.repeat_spec in hr; rewrite hr Rabs_R0; exact: Rlt_0_1. }
    have pd : posdef (sigma (List.length rho) (List.length rho + 0) C) by apply/(canonical_posdef hE).
    have mi := canonical_mi hE fa.
    rewrite addn0 in pd mi.
    have m0 : (0 < List.length rho)%N by rewrite lr; apply/ltP; lia.
    have sh : has_shape C (List.length rho + List.length rho) (List.length rho + List.length rho) = true by move: (proj1 hE); rewrite addn0.
    have [i _] := @gaussian_ok eigvals He _ _ C None m0 m0 sh I pd.
    have ex : Z.of_nat (List.length rho) = dim by rewrite lr; lia.
    have mv := mi_clamped i (det_posdef pd) (det_posdef (posdef_ul pd)) (det_posdef (posdef_dr pd)).
    rewrite /get_sparse_gaussian_sampler eC /= /multinormal_sampler.
    rewrite ex in i; rewrite i /=; eexists; split; first reflexivity.
    split; first exact: (congr1 (@Ok _) ex). split; first exact: (congr1 (@Ok _) ex).
    rewrite /= mv mi; congr (Ok (Fin _)).
    have -> : rsum (List.map (fun r => Rmult (Ropp (Rdiv 1 2)) (ln (Rminus 1 (pow r 2)))) rho) = Ropp (ln (Rminus 1 (pow c 2))).
    { have z : forall k, rsum (List.map (fun r => Rmult (Ropp (Rdiv 1 2)) (ln (Rminus 1 (pow r 2)))) (List.repeat R0 k)) = R0.
      { elim=> [//|k IH]; rewrite /= IH.
        have -> : Rminus 1 (Rmult 0 (Rmult 0 1)) = R1 by lra.
        by rewrite ln_1; lra. }
      by rewrite /rho /= z; lra. }
    apply: Rmax_right.
    have l0 : Rle (ln (Rminus 1 (pow c 2))) 0.
    { case: (Req_dec c 0) => [->|nc]; first by rewrite /pow Rmult_0_l Rminus_0_r ln_1; apply: Rle_refl.
      have c2 : Rlt 0 (pow c 2) by apply: pow_lt2.
      have c3 : Rlt (pow c 2) 1 by rewrite /pow; nra.
      rewrite -ln_1; apply: Rlt_le; apply: ln_increasing; lra. }
    lra.
  Qed.
  Lemma sparse_mi c dim : (2 <= dim)%Z -> Rlt (-1) c -> Rlt c 1 ->
    mi_sparse_gaussian eigvals mvn c dim = Ok (Fin (Ropp (ln (Rminus 1 (pow c 2))))).
  Proof. move=> hd c0 c1; have [s [e [_ [_ m]]]] := sparse_gaussian hd c0 c1; by rewrite /mi_sparse_gaussian e /=. Qed.
  Lemma sparse_rejects c dim : (dim < 2)%Z -> mi_sparse_gaussian eigvals mvn c dim = Err ValueError /\ get_sparse_gaussian_sampler eigvals mvn c dim = Err ValueError.
  Proof.
    move=> h; rewrite /mi_sparse_gaussian /get_sparse_gaussian_sampler parametrised_rejects //.
    by case; lia.
  Qed.
End Sparse.

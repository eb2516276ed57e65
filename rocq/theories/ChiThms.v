(** The profile of a normal distribution with canonical correlations is a combination of squares. *)
From Coq Require Import String.
From Verif Require Import Base UtilsModel JaxModel SamplersModel GaussianModel MatrixUtilsModel BmmModel MultivariateModel
  CriticsModel ChiModel ChiSpec ChiProofs BaseLemmas SamplersProofs BmmSpec BmmProofs MatrixUtilsSpec MatrixUtilsProofs.
From mathcomp Require Import all_ssreflect ssralg matrix mxalgebra.
From Verif Require Import RStruct PosDef MatrixBridge GaussianSpec GaussianProofs ExpectationProofs GaussianThms MatrixUtilsThms MultivariateSpec
  MultivariateProofs MultivariateThms MixturesSpec EigvalsExist MixturesProofs.
Set Implicit Arguments.
Unset Strict Implicit.
Unset Printing Implicit Defensive.
Import GRing.Theory.
Local Open Scope ring_scope.

Lemma sumD m (f g : 'I_m -> R) : Rplus (\sum_i f i) (\sum_i g i) = \sum_i Rplus (f i) (g i).
Proof. by symmetry; exact: big_split. Qed.
Lemma sumB m (f g : 'I_m -> R) : Rminus (\sum_i f i) (\sum_i g i) = \sum_i Rminus (f i) (g i).
Proof. by symmetry; exact: sumrB. Qed.
Lemma sumM m c (f : 'I_m -> R) : Rmult c (\sum_i f i) = \sum_i Rmult c (f i).
Proof. exact: mulr_sumr. Qed.

Section Quadratic.
  Variable rho : list R.
  Variable extra : nat.
  Let m := List.length rho.
  Let n := (m + extra)%N.
  Variable C : UtilsModel.matrix.
  Hypothesis HC : has_entries (m + n) C (fun i j =>
      if PeanoNat.Nat.eqb i j then R1
      else if (PeanoNat.Nat.ltb i m && PeanoNat.Nat.eqb j (m + i))%bool then List.nth i rho R0
      else if (PeanoNat.Nat.ltb j m && PeanoNat.Nat.eqb i (m + j))%bool then List.nth j rho R0 else R0).
  Hypothesis small : List.Forall (fun r => Rlt (Rabs r) 1) rho.
  Let S := sigma m n C.
  Let B : 'M[R]_(m, n) := \matrix_(i, j) if i == j :> nat then List.nth i rho R0 else R0.
  Let r (i : 'I_m) : R := List.nth i rho R0.

  Lemma r_small i : Rlt (Rabs (r i)) 1.
  Proof. apply: (proj1 (List.Forall_forall _ _) small); apply: List.nth_In; apply/ltP; exact: ltn_ord. Qed.
  Lemma S_block : S = block_mx 1%:M B B^T 1%:M.
  Proof.
    have [e1 e2 e3] := canonical_blocks HC; have [h _ _] := sym_block (canonical_sym HC).
    rewrite -/m -/n -/S -/B in e1 e2 e3 h.
    by rewrite h e1 e2 e3.
  Qed.
  Lemma B_row (v : 'cV[R]_n) i : (B *m v) i ord0 = r i * v (lshift extra i) ord0.
  Proof.
    rewrite mxE (bigD1 (lshift extra i)) //= big1 ?addr0 => [|j ji]; first by rewrite mxE /= eqxx.
    rewrite mxE; case: eqP => e; last by rewrite mul0r. case/eqP: ji; exact/val_inj.
  Qed.
  Lemma BT_left (u : 'cV[R]_m) i : (B^T *m u) (lshift extra i) ord0 = r i * u i ord0.
  Proof.
    rewrite mxE (bigD1 i) //= big1 ?addr0 => [|j ji]; first by rewrite !mxE /= eqxx.
    rewrite !mxE /=; case: eqP => e; last by rewrite mul0r. case/eqP: ji; exact/val_inj.
  Qed.
  Lemma BT_right (u : 'cV[R]_m) k : (B^T *m u) (rshift m k) ord0 = 0.
  Proof.
    rewrite mxE big1 // => j _; rewrite !mxE /=; case: eqP => e; last by rewrite mul0r.
    have := ltn_ord j; by rewrite e ltnNge leq_addr.
  Qed.

  Section Point.
    Variables (x : 'cV[R]_m) (y : 'cV[R]_n).
    Let yl i := y (lshift extra i) ord0.
    Let g (i : 'I_m) : R := Rminus 1 (pow (r i) 2).
    Let wx : 'cV[R]_m := \col_i Rdiv (Rminus (x i ord0) (Rmult (r i) (yl i))) (g i).
    Let wl : 'cV[R]_m := \col_i Rdiv (Rminus (yl i) (Rmult (r i) (x i ord0))) (g i).
    Let wy : 'cV[R]_n := \col_j match fintype.split j with inl i => wl i ord0 | inr k => y j ord0 end.

    Lemma g_pos i : Rlt 0 (g i).
    Proof. have /Rabs_def2 := r_small i; rewrite /g; move: (r i) => a; nra. Qed.
    Lemma wy_left i : wy (lshift extra i) ord0 = wl i ord0.
    Proof. by rewrite mxE; case: splitP => [j /= /val_inj <-|k /= e] //; have := ltn_ord i; rewrite e -ltn_subRL subnn. Qed.
    Lemma wy_right k : wy (rshift m k) ord0 = y (rshift m k) ord0.
    Proof. by rewrite mxE; case: splitP => [j /= e|] //; have := ltn_ord j; rewrite -e -ltn_subRL subnn. Qed.

    Lemma solved : S *m col_mx wx wy = col_mx x y.
    Proof.
      rewrite S_block mul_block_col !mul1mx; congr col_mx; apply/matrixP => i j; rewrite (ord1 j) {j}.
      - rewrite mxE B_row wy_left !mxE. have := g_pos i; rewrite /g; move: (x i ord0) (yl i) (r i) => a b c h.
        lazymatch goal with |- ?l = ?q => change (@eq R l q) end. change (Rplus (Rdiv (Rminus a (Rmult c b)) (Rminus 1 (pow c 2))) (Rmult c (Rdiv (Rminus b (Rmult c a)) (Rminus 1 (pow c 2)))) = a).
        field; lra.
      - case: (fintype.splitP i) => [k e|k e].
        + have -> : i = lshift extra k by exact/val_inj. rewrite mxE BT_left wy_left !mxE -/(yl k). have := g_pos k; rewrite /g; move: (x k ord0) (yl k) (r k) => a b c h.
          change (Rplus (Rmult c (Rdiv (Rminus a (Rmult c b)) (Rminus 1 (pow c 2)))) (Rdiv (Rminus b (Rmult c a)) (Rminus 1 (pow c 2))) = b). field; lra.
        + have -> : i = rshift m k by exact/val_inj. by rewrite mxE BT_right wy_right add0r.
    Qed.
    Lemma S_unit : S \in unitmx.
    Proof. apply: posdef_unit; exact/(canonical_posdef HC). Qed.
    Lemma quadratic : qf (invmx S) (col_mx x y) = Rplus (\sum_i Rmult (x i ord0) (wx i ord0))
      (Rplus (\sum_i Rmult (yl i) (wl i ord0)) (\sum_k Rmult (y (rshift m k) ord0) (y (rshift m k) ord0))).
    Proof.
      rewrite /qf -mulmxA -{2}solved (mulmxA (invmx S)) mulVmx ?S_unit // mul1mx mxE big_split_ord /=; congr Rplus.
      - by apply: eq_bigr => i _; rewrite mxE !col_mxEu.
      - rewrite big_split_ord /=; congr Rplus; apply: eq_bigr => i _; rewrite mxE !col_mxEd ?wy_left ?wy_right //.
    Qed.
    Lemma plain_x : qf (invmx (1%:M : 'M[R]_m)) x = \sum_i Rmult (x i ord0) (x i ord0).
    Proof. rewrite /qf invmx1 mulmx1 mxE; by apply: eq_bigr => i _; rewrite mxE. Qed.
    Lemma plain_y : qf (invmx (1%:M : 'M[R]_n)) y = Rplus (\sum_i Rmult (yl i) (yl i)) (\sum_k Rmult (y (rshift m k) ord0) (y (rshift m k) ord0)).
    Proof. rewrite /qf invmx1 mulmx1 mxE big_split_ord /=; congr Rplus; by apply: eq_bigr => i _; rewrite mxE. Qed.

    Lemma matrix_pmi : Rminus (normal_log_density 0 S (col_mx x y)) (Rplus (normal_log_density 0 (1%:M : 'M[R]_m) x) (normal_log_density 0 (1%:M : 'M[R]_n) y)) =
      Rplus (gaussian_mi S) (\sum_i Rmult (Rdiv (r i) 2) (Rminus (pow (Rdiv (Rplus (x i ord0) (yl i)) (sqrt (Rmult 2 (Rplus 1 (r i))))) 2)
        (pow (Rdiv (Rminus (x i ord0) (yl i)) (sqrt (Rmult 2 (Rminus 1 (r i))))) 2))).
    Proof.
      have [e1 _ e3] := canonical_blocks HC; rewrite -/m -/n -/S in e1 e3.
      have dS : Rlt 0 (\det S) by apply: det_posdef; exact/(canonical_posdef HC).
      rewrite /normal_log_density !subr0 quadratic plain_x plain_y /gaussian_mi e1 e3 !det1.
      have lnd : ln (Rdiv (Rmult 1 1) (\det S)) = Ropp (ln (\det S)).
      { rewrite Rmult_1_l ln_divide; [rewrite ln_1; exact: Rminus_0_l|exact: Rlt_0_1|exact: dS]. }
      change (1 : R) with (IZR 1); rewrite lnd ln_1 plus_INR.
      have -> : \sum_i Rmult (Rdiv (r i) 2) (Rminus (pow (Rdiv (Rplus (x i ord0) (yl i)) (sqrt (Rmult 2 (Rplus 1 (r i))))) 2)
        (pow (Rdiv (Rminus (x i ord0) (yl i)) (sqrt (Rmult 2 (Rminus 1 (r i))))) 2)) =
        Rmult (Rdiv 1 2) (Rminus (Rplus (\sum_i Rmult (x i ord0) (x i ord0)) (\sum_i Rmult (yl i) (yl i)))
          (Rplus (\sum_i Rmult (x i ord0) (wx i ord0)) (\sum_i Rmult (yl i) (wl i ord0)))).
      { rewrite !sumD sumB sumM; apply: eq_bigr => i _; rewrite -(pair_term _ _ _ (r_small i)) !mxE //. }
      set A1 := \sum_i _; set A2 := \sum_i _; set A3 := \sum_k _; set A4 := \sum_i _; set A5 := \sum_i _.
      lazymatch goal with |- ?l = ?q => change (@eq R l q) end. move: A1 A2 A3 A4 A5 (ln (\det S)) (ln (Rmult 2 PI)) (INR m) (INR n) => A1 A2 A3 A4 A5 l p a b.
      field.
    Qed.
  End Point.
End Quadratic.

Section Plotted.
  Context {J : prng}.
  Variable eigvals : UtilsModel.matrix -> list (R * R).
  Variable cholesky : UtilsModel.matrix -> option UtilsModel.matrix.
  Variable normal_draw : list R -> option UtilsModel.matrix -> key J -> nat -> UtilsModel.matrix.
  Hypothesis eig : eigvals_symmetric eigvals.
  Hypothesis cho : factorises cholesky.
  Local Notation normal := (normal_distribution eigvals cholesky normal_draw).

  Theorem canonical_pointwise (rho : list R) (extra : Z) : rho <> nil -> Z.le 0 extra -> List.Forall (fun r => Rlt (Rabs r) 1) rho ->
    exists C d, canonical_correlation rho extra = Ok C /\ normal (Z.of_nat (List.length rho)) (Z.add (Z.of_nat (List.length rho)) extra) C None = Ok d /\
      jd_dim_x d = List.length rho /\ jd_dim_y d = Nat.add (List.length rho) (Z.to_nat extra) /\
      dist_joint d = construct_normal cholesky normal_draw (List.repeat (IZR 0) (Nat.add (List.length rho) (Nat.add (List.length rho) (Z.to_nat extra)))) C /\
      analytic_mi d = Some (Fin (canonical_information rho)) /\
      forall x y, List.length x = List.length rho -> List.length y = Nat.add (List.length rho) (Z.to_nat extra) ->
        point_pmi d x y = Fin (Rplus (canonical_information rho) (chi2_terms rho (fun i => plus_part rho i x y) (fun i => minus_part rho i x y))).
  Proof.
    move=> nr ge small; set m := List.length rho; set n := Nat.add m (Z.to_nat extra).
    have [C [eC hC]] := canonical_ok rho extra ge.
    have sy := canonical_sym hC; have pd := proj2 (canonical_posdef hC) small; have sh := proj1 hC.
    have cs := @canonical_sampler eigvals rho extra C None nr ge eC.
    rewrite -/m in sy pd cs sh hC; change (m + Z.to_nat extra)%N with n in sy, pd, cs.
    have m0 : (0 < m)%N by rewrite /m; case: (rho) nr.
    have n0 : (0 < n)%N by rewrite /n plusE addn_gt0 m0.
    have ex : eigvals_exact eigvals m n C by apply: eigvals_symmetric_exact.
    have ch : cholesky_exact cholesky m n C by apply: cholesky_exact_of.
    have [d hd] := proj2 (@normal_accepts J eigvals cholesky normal_draw m n C None m0 n0 sy ex) (And3 sh I pd).
    have [dj dx dy] := normal_densities sy (proj1 ex) ch hd.
    have [s [es ed]] := proj1 (@normal_ok J eigvals cholesky normal_draw m n C None d) hd.
    exists C, d; split=> //; split; first by rewrite (_ : Z.add _ _ = Z.of_nat n) //; rewrite /n; lia.
    split; first by rewrite ed. split; first by rewrite ed. split; first by rewrite ed.
    split; first by rewrite ed /=; have [_ /(_ s es) ->] := cs ex I.
    have L0 : usubmx (location (m + n) None) = 0 :> 'cV[R]_m by apply/matrixP => i j; rewrite !mxE.
    have L1 : dsubmx (location (m + n) None) = 0 :> 'cV[R]_n by apply/matrixP => i j; rewrite !mxE.
    have [e1 _ e3] := canonical_blocks hC; rewrite L0 e1 in dx; rewrite L1 e3 in dy; rewrite /= in dj.
    move=> x y lx ly; rewrite /point_pmi dj ?List.app_length ?lx ?ly // dx // dy // (to_cv_app n y lx).
    cbn [fl_add fl_sub fl_opp]. congr Fin.
    transitivity (Rplus (gaussian_mi (sigma m n C)) (\sum_(i < m) Rmult (Rdiv (List.nth i rho R0) 2)
      (Rminus (pow (plus_part rho i x y) 2) (pow (minus_part rho i x y) 2)))).
    - have := @matrix_pmi rho (Z.to_nat extra) C hC small (to_cv m x) (to_cv n y).
      rewrite -/m. change (m + Z.to_nat extra)%N with n. move=> h; etransitivity; [|etransitivity; [exact: h|]].
      + reflexivity.
      + congr Rplus; apply: eq_bigr => i _; by rewrite !mxE.
    - congr Rplus; first exact: (canonical_mi hC small). by rewrite /chi2_terms rsum_bigop.
  Qed.

End Plotted.

Lemma determinants (rho : list R) extra C : Z.le 0 extra -> List.Forall (fun r => Rlt (Rabs r) 1) rho -> canonical_correlation rho extra = Ok C ->
    let m := List.length rho in let n := Z.to_nat (Z.add (Z.of_nat m) extra) in
    fl_scale (Rdiv 1 2) (fl_ln (np_div (Rmult (GaussianModel.det m (square_slice C 0 m)) (GaussianModel.det n (square_slice C m (Nat.add m n))))
      (GaussianModel.det (Nat.add m n) C))) = Fin (canonical_information rho).
  Proof.
    move=> ge small eC m n; have [C' [eC' hC]] := canonical_ok rho extra ge.
    move: eC'; rewrite eC => - [e]; rewrite -{}e {C'} /= -/m in hC.
    have mi := canonical_mi hC small; have pd := proj2 (canonical_posdef hC) small.
    have en : n = Nat.add m (Z.to_nat extra) by rewrite /n; lia.
    have [e1 _ e3] := canonical_blocks hC. rewrite -/m in mi pd e1 e3; move: mi pd e1 e3. change (m + Z.to_nat extra)%N with (Nat.add m (Z.to_nat extra)); rewrite -en => mi pd e1 e3.
    rewrite !det_to_mx (to_mx_ul m n) (to_mx_dr m n). change (to_mx (Nat.add m n) (Nat.add m n) C) with (sigma m n C). change (to_mx (m + n) (m + n) C) with (sigma m n C).
    have dS := det_posdef pd.
    have dS0 : \det (sigma m n C) <> IZR 0 by apply: Rgt_not_eq.
    rewrite /np_div /Reqb; case: Req_EM_T => // _.
    rewrite /gaussian_mi e1 e3 !det1 in mi *.
    have q : Rlt 0 (Rdiv (Rmult 1 1) (\det (sigma m n C))) by apply: Rdiv_lt_0_compat => //; lra.
    rewrite /fl_ln /np_log /Rltb; case: Rlt_dec => [_|h]; last by case: h. cbn [fl_scale]; congr Fin. rewrite /canonical_information -mi. congr Rmult. lra.
  Qed.


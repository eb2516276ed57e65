(** Theorems about the Gaussian and Student samplers. *)
From Verif Require Import Base UtilsModel JaxModel SamplersModel GaussianModel BaseLemmas.
From mathcomp Require Import all_ssreflect ssralg matrix mxalgebra.
From Verif Require Import SamplersSpec RStruct PosDef MatrixBridge GaussianSpec GaussianProofs ExpectationProofs.
Set Implicit Arguments.
Unset Strict Implicit.
Unset Printing Implicit Defensive.
Import GRing.Theory.
Local Open Scope ring_scope.

Section Formula.
  Variable eigvals : UtilsModel.matrix -> list (R * R).

  Lemma accepts_iff (m n : nat) C mean : (0 < m)%N -> (0 < n)%N ->
    (sigma m n C)^T = sigma m n C -> eigvals_exact eigvals m n C ->
    ((exists s, split_multinormal_init eigvals (Z.of_nat m) (Z.of_nat n) C mean = Ok s) <->
     [/\ has_shape C (m + n) (m + n), proper_mean (m + n) mean & posdef (sigma m n C)]).
  Proof.
    move=> m0 n0 sy [k1 [k2 k3]]; split.
    - move=> [s /split_init_ok [m' [n' [e1 e2 _ _ [pm sh [c1 _] _ _]]]]].
      have em : m' = m by lia. have en : n' = n by lia.
      subst m' n'; split=> //.
      apply/(accepted_symmetric sh _ k1 sy) => //; exact: ltn_addr.
    - move=> [sh pm pd]; exists (built m n C mean); apply/split_init_ok; exists m, n; split=> //; split=> //.
      + split; first by apply/(accepted_symmetric sh _ k1 sy) => //; exact: ltn_addr.
        have s1 : has_shape (square_slice C 0 m) m m.
        { have := @slice_shape C (m + n) 0 m sh; rewrite add0n; apply; exact: leq_addr. }
        have pu := posdef_ul pd; have e := to_mx_ul m n C; rewrite -/(sigma m n C) in e.
        apply/(accepted_symmetric s1 m0 k2); rewrite e //; exact: (proj1 pu).
      + have s2 : has_shape (square_slice C m (m + n)) n n by apply: (@slice_shape C (m + n)).
        have pu := posdef_dr pd; have e := to_mx_dr m n C; rewrite -/(sigma m n C) in e.
        apply/(accepted_symmetric s2 n0 k3); rewrite e //; exact: (proj1 pu).
  Qed.

  Lemma mi_formula (m n : nat) C mean s :
    (sigma m n C)^T = sigma m n C -> eigvals_ok (m + n) C (eigvals C) ->
    split_multinormal_init eigvals (Z.of_nat m) (Z.of_nat n) C mean = Ok s ->
    [/\ split_multinormal_mi s = Fin (gaussian_mi (sigma m n C)), Rle 0 (gaussian_mi (sigma m n C))
      & (gaussian_mi (sigma m n C) = 0 <-> ursubmx (sigma m n C) = 0)].
  Proof.
    move=> sy k1 /split_init_ok [m' [n' [e1 e2 m0 n0 [pm sh [c1 _] _ ->]]]].
    have em : m' = m by lia. have en : n' = n by lia.
    subst m' n'.
    have pd : posdef (sigma m n C) by apply/(accepted_symmetric sh _ k1 sy) => //; exact: ltn_addr.
    have [g1 g2] := gaussian_mi_nonneg pd; split=> //.
    have d1 := det_posdef pd; have d2 := det_posdef (posdef_ul pd); have d3 := det_posdef (posdef_dr pd).
    rewrite mi_of_dets // /py_max /fl_ltb /=; case: (Rlt_dec _ _) => // h.
    have -> // : gaussian_mi (sigma m n C) = 0.
    case: (Rle_lt_or_eq_dec _ _ g1) => // h'; by case: h.
  Qed.

  (** Without symmetry, whenever the determinants are positive. *)
  Lemma mi_clamped (m n : nat) C mean s :
    split_multinormal_init eigvals (Z.of_nat m) (Z.of_nat n) C mean = Ok s ->
    Rlt 0 (\det (sigma m n C)) -> Rlt 0 (\det (ulsubmx (sigma m n C))) ->
    Rlt 0 (\det (drsubmx (sigma m n C))) ->
    split_multinormal_mi s = Fin (Rmax 0 (gaussian_mi (sigma m n C))).
  Proof.
    move=> /split_init_ok [m' [n' [e1 e2 m0 n0 [pm sh _ _ ->]]]] d a b.
    have em : m' = m by lia. have en : n' = n by lia.
    subst m' n'; rewrite mi_of_dets // /py_max /fl_ltb /Rmax /=.
    case: (Rlt_dec _ _) => h; case: (Rle_dec _ _) => h' //; set g := gaussian_mi _ in h h' *; congr Fin.
    - case: h'; exact: Rlt_le.
    - apply: Rle_antisym => //; exact: Rnot_lt_le.
  Qed.

  Lemma mean_independent dim_x dim_y C mean mean' s s' :
    split_multinormal_init eigvals dim_x dim_y C mean = Ok s ->
    split_multinormal_init eigvals dim_x dim_y C mean' = Ok s' ->
    split_multinormal_mi s = split_multinormal_mi s'.
  Proof.
    move=> /split_init_ok [m [n [e1 e2 m0 n0 [pm sh _ _ ->]]]]
           /split_init_ok [m' [n' [e1' e2' _ _ [pm' _ _ _ ->]]]].
    have em : m' = m by lia. have en : n' = n by lia.
    subst m' n'; rewrite /split_multinormal_mi /entropy.
    by have [-> -> ->] := built_dims C pm; have [-> -> ->] := built_dims C pm'.
  Qed.

  Lemma expected_pmi (m n : nat) C mean s I E mu :
    (sigma m n C)^T = sigma m n C -> eigvals_ok (m + n) C (eigvals C) ->
    split_multinormal_init eigvals (Z.of_nat m) (Z.of_nat n) C mean = Ok s ->
    expectation I E -> has_covariance I E mu (sigma m n C) ->
    let S := sigma m n C in
    let pmi := pointwise_mi (normal_log_density mu S) (normal_log_density (usubmx mu) (ulsubmx S))
                 (normal_log_density (dsubmx mu) (drsubmx S)) in
    I pmi /\ split_multinormal_mi s = Fin (E pmi).
  Proof.
    move=> sy k1 h HE HS S pmi; have [-> _ _] := mi_formula sy k1 h.
    move: h => /split_init_ok [m' [n' [e1 e2 m0 n0 [pm sh [c1 _] _ _]]]].
    have em : m' = m by lia. have en : n' = n by lia.
    subst m' n'.
    have pd : posdef S by apply/(accepted_symmetric sh _ k1 sy) => //; exact: ltn_addr.
    by have [p1 p2] := gaussian_expected_pmi HE HS pd; rewrite p2.
  Qed.

End Formula.

(** ** Invariances *)

Lemma det_block_dr m n (A : 'M[R]_m) (B : 'M[R]_(m, n)) (C : 'M[R]_(n, m)) (D : 'M[R]_n) : D \in unitmx ->
  \det (block_mx A B C D) = \det D * \det (A - B *m invmx D *m C) /\
  \det (block_mx D C B A) = \det D * \det (A - B *m invmx D *m C).
Proof.
  move=> u; split.
  - have -> : block_mx A B C D
      = block_mx 1%:M (B *m invmx D) 0 1%:M *m block_mx (A - B *m invmx D *m C) 0 C D.
    { by rewrite mulmx_block ?mul1mx ?mul0mx ?mulmx0 ?add0r -!mulmxA mulVmx // mulmx1 subrK. }
    by rewrite det_mulmx det_ublock det_lblock !det1 !mul1r mulrC.
  - have -> : block_mx D C B A
      = block_mx 1%:M 0 (B *m invmx D) 1%:M *m block_mx D C 0 (A - B *m invmx D *m C).
    { rewrite mulmx_block ?mul1mx ?mul0mx ?mulmx0 ?addr0 -!mulmxA mulVmx // mulmx1.
      by rewrite (addrC (B *m _)) subrK. }
    by rewrite det_mulmx det_lblock det_ublock !det1 !mul1r.
Qed.

Lemma exchange_det m n (S : 'M[R]_(m + n)) : drsubmx S \in unitmx -> \det (exchanged S) = \det S.
Proof.
  move=> u; have [h1 h2] := det_block_dr (ulsubmx S) (ursubmx S) (dlsubmx S) u.
  by rewrite /exchanged h2 -h1 submxK.
Qed.

Lemma exchange_posdef m n (S : 'M[R]_(m + n)) : posdef S -> posdef (exchanged S).
Proof.
  case=> s p; have [e1 e2 e3] := sym_block s.
  have dl : dlsubmx S = (ursubmx S)^T.
  { by have := congr1 dlsubmx e1; rewrite block_mxKdl. }
  split.
  - by rewrite /exchanged tr_block_mx e2 e3 dl trmxK.
  - move=> x nz.
    have -> : qf (exchanged S) x = qf S (col_mx (dsubmx x) (usubmx x)).
    { rewrite /qf -{1 2}(vsubmxK x) /exchanged -[in RHS](submxK S).
      rewrite !tr_col_mx !mul_row_block !mul_row_col !mulmxDl.
      congr (fun_of_matrix _ _ _); rewrite [LHS]addrC; congr (_ + _); exact: addrC. }
    apply: p; apply: contraNN nz => /eqP e.
    have := e; rewrite -[0](@vsubmxK _ m n 1) => /eq_col_mx [h1 h2].
    rewrite -(vsubmxK x) h1 h2; apply/eqP/matrixP => i j; rewrite !mxE.
    by case: (split i) => k; rewrite !mxE.
Qed.

Lemma exchange_mi m n (S : 'M[R]_(m + n)) : posdef S -> gaussian_mi (exchanged S) = gaussian_mi S.
Proof.
  move=> pd; rewrite /gaussian_mi exchange_det; last exact: posdef_unit (posdef_dr pd).
  rewrite /exchanged block_mxKul block_mxKdr; congr (Rmult _ (ln (Rdiv _ _))); exact: mulrC.
Qed.

Lemma block_diag_unit m n (A : 'M[R]_m) (B : 'M[R]_n) : A \in unitmx -> B \in unitmx ->
  block_mx A 0 0 B \in unitmx.
Proof. by rewrite !unitmxE det_ublock => a b; rewrite unitrM a b. Qed.

Lemma congruence_posdef n (P S : 'M[R]_n) : P \in unitmx -> posdef S -> posdef (P *m S *m P^T).
Proof.
  move=> u [s p]; split.
  - by rewrite !trmx_mul trmxK s mulmxA.
  - move=> x nz; have -> : qf (P *m S *m P^T) x = qf S (P^T *m x).
    { by rewrite /qf trmx_mul trmxK !mulmxA. }
    apply: p; apply: contraNN nz => /eqP e; apply/eqP.
    by rewrite -(mulKmx (_ : P^T \in unitmx) x) ?unitmx_tr // e mulmx0.
Qed.

Lemma transformed_blocks m n (A : 'M[R]_m) (B : 'M[R]_n) S :
  ulsubmx (transformed A B S) = A *m ulsubmx S *m A^T /\ drsubmx (transformed A B S) = B *m drsubmx S *m B^T.
Proof.
  rewrite /transformed -{1 3}(submxK S) tr_block_mx !trmx0 !mulmx_block.
  by rewrite ?mul0mx ?mulmx0 ?addr0 ?add0r ?mul0mx ?addr0 ?add0r block_mxKul block_mxKdr.
Qed.

Lemma transformed_mi m n (A : 'M[R]_m) (B : 'M[R]_n) S : A \in unitmx -> B \in unitmx -> posdef S ->
  gaussian_mi (transformed A B S) = gaussian_mi S.
Proof.
  move=> ua ub pd; have [e1 e2] := transformed_blocks A B S; rewrite /gaussian_mi e1 e2.
  rewrite /transformed !det_mulmx !det_tr det_ublock.
  have d := det_posdef pd.
  move: ua ub; rewrite !unitmxE !unitfE; set a := \det A; set b := \det B => /eqP ua /eqP ub.
  set x := \det (ulsubmx S); set y := \det (drsubmx S); set z := \det S in d *; clearbody a b x y z.
  congr (Rmult _ (ln _)).
  lazymatch goal with |- ?l = ?r => change (@eq R l r) end; rewrite /Rdiv.
  change (@eq R (Rmult (Rmult (Rmult (Rmult a x) a) (Rmult (Rmult b y) b)) (/ Rmult (Rmult (Rmult a b) z) (Rmult a b)))
    (Rmult (Rmult x y) (/ z))).
  have z0 : z <> 0 by move=> e; rewrite e in d; exact: Rlt_irrefl d.
  change (z <> IZR Z0) in z0; change (a <> IZR Z0) in ua; change (b <> IZR Z0) in ub.
  by field.
Qed.

Section Invariances.
  Variable eigvals : UtilsModel.matrix -> list (R * R).

  Lemma accepted_posdef (m n : nat) C mean s :
    (sigma m n C)^T = sigma m n C -> eigvals_ok (m + n) C (eigvals C) ->
    split_multinormal_init eigvals (Z.of_nat m) (Z.of_nat n) C mean = Ok s ->
    [/\ (0 < m)%N, (0 < n)%N & posdef (sigma m n C)].
  Proof.
    move=> sy k1 /split_init_ok [m' [n' [e1 e2 m0 n0 [pm sh [c1 _] _ _]]]].
    have em : m' = m by lia. have en : n' = n by lia.
    subst m' n'; split=> //.
    by apply/(accepted_symmetric sh _ k1 sy) => //; exact: ltn_addr.
  Qed.

  Lemma exchange_sampler (m n : nat) C C' mean mean' s :
    (sigma m n C)^T = sigma m n C -> eigvals_ok (m + n) C (eigvals C) -> eigvals_exact eigvals n m C' ->
    split_multinormal_init eigvals (Z.of_nat m) (Z.of_nat n) C mean = Ok s ->
    has_shape C' (n + m) (n + m) -> proper_mean (n + m) mean' -> sigma n m C' = exchanged (sigma m n C) ->
    exists s', split_multinormal_init eigvals (Z.of_nat n) (Z.of_nat m) C' mean' = Ok s' /\
      split_multinormal_mi s' = split_multinormal_mi s.
  Proof.
    move=> sy k k' h sh pm e.
    have [m0 n0 pd] := accepted_posdef sy k h.
    have pd' : posdef (sigma n m C') by rewrite e; exact: exchange_posdef.
    have [s' h'] := proj2 (accepts_iff mean' n0 m0 (proj1 pd') k') (And3 sh pm pd').
    exists s'; split=> //.
    have [-> _ _] := mi_formula sy k h; have [-> _ _] := mi_formula (proj1 pd') (proj1 k') h'.
    by rewrite e exchange_mi.
  Qed.

  Lemma transform_sampler (m n : nat) C C' mean mean' s (A : 'M[R]_m) (B : 'M[R]_n) :
    (sigma m n C)^T = sigma m n C -> eigvals_ok (m + n) C (eigvals C) -> eigvals_exact eigvals m n C' ->
    split_multinormal_init eigvals (Z.of_nat m) (Z.of_nat n) C mean = Ok s ->
    has_shape C' (m + n) (m + n) -> proper_mean (m + n) mean' ->
    A \in unitmx -> B \in unitmx -> sigma m n C' = transformed A B (sigma m n C) ->
    exists s', split_multinormal_init eigvals (Z.of_nat m) (Z.of_nat n) C' mean' = Ok s' /\
      split_multinormal_mi s' = split_multinormal_mi s.
  Proof.
    move=> sy k k' h sh pm ua ub e.
    have [m0 n0 pd] := accepted_posdef sy k h.
    have pd' : posdef (sigma m n C').
    { rewrite e; apply: congruence_posdef => //; exact: block_diag_unit. }
    have [s' h'] := proj2 (accepts_iff mean' m0 n0 (proj1 pd') k') (And3 sh pm pd').
    exists s'; split=> //.
    have [-> _ _] := mi_formula sy k h; have [-> _ _] := mi_formula (proj1 pd') (proj1 k') h'.
    by rewrite e transformed_mi.
  Qed.

  Lemma zero_iff_uncorrelated (m n : nat) C mean s :
    (sigma m n C)^T = sigma m n C -> eigvals_ok (m + n) C (eigvals C) ->
    split_multinormal_init eigvals (Z.of_nat m) (Z.of_nat n) C mean = Ok s ->
    (split_multinormal_mi s = Fin 0 <-> forall i j, (i < m)%N -> (j < n)%N -> entry C i (m + j) = 0).
  Proof.
    move=> sy k h; have [-> _ z] := mi_formula sy k h.
    have -> : (Fin (gaussian_mi (sigma m n C)) = Fin 0) <-> gaussian_mi (sigma m n C) = 0.
    { by split=> [[]|->]. }
    rewrite z; split.
    - move=> e i j hi hj; have := congr1 (fun M : 'M[R]_(m, n) => M (Ordinal hi) (Ordinal hj)) e.
      by rewrite !mxE.
    - move=> f; apply/matrixP => i j; rewrite !mxE; apply: (f i j); exact: ltn_ord.
  Qed.
End Invariances.

(** ** Two normal variables *)

Section Bivariate.
  Variable eigvals : UtilsModel.matrix -> list (R * R).
  Context (J : prng).
  Variable mvn : key J -> list R -> UtilsModel.matrix -> nat -> UtilsModel.matrix.

  Definition bivariate_cov (rho sx sy : R) : UtilsModel.matrix :=
    [:: [:: pow sx 2; Rmult (Rmult rho sx) sy]; [:: Rmult (Rmult rho sx) sy; pow sy 2]].

  Lemma bivariate_qf a b c (x : 'cV[R]_(1 + 1)) :
    qf (sigma 1 1 [:: [:: a; c]; [:: c; b]]) x
    = Rplus (Rmult a (Rmult (x ord0 ord0) (x ord0 ord0)))
        (Rplus (Rmult (Rmult 2 c) (Rmult (x ord0 ord0) (x ord_max ord0)))
               (Rmult b (Rmult (x ord_max ord0) (x ord_max ord0)))).
  Proof.
    rewrite qf_sum !big_ord_recl !big_ord0 !mxE.
    have -> : lift ord0 ord0 = ord_max :> 'I_(1 + 1) by apply/val_inj.
    rewrite /entry /=; set u := x _ _; set v := x _ _.
    lazymatch goal with |- ?l = ?r => change (@eq R l r) end.
    change (@eq R (Rplus (Rplus (Rmult a (Rmult u u)) (Rplus (Rmult c (Rmult u v)) 0))
      (Rplus (Rplus (Rmult c (Rmult v u)) (Rplus (Rmult b (Rmult v v)) 0)) 0))
      (Rplus (Rmult a (Rmult u u)) (Rplus (Rmult (Rmult 2 c) (Rmult u v)) (Rmult b (Rmult v v))))).
    change (GRing.zero R_zmodType) with (IZR Z0); ring.
  Qed.

  Lemma bivariate_sym a b c : (sigma 1 1 [:: [:: a; c]; [:: c; b]])^T = sigma 1 1 [:: [:: a; c]; [:: c; b]].
  Proof. by apply/matrixP => i j; rewrite !mxE; case: i => [[|[|i]] hi]; case: j => [[|[|j]] hj]. Qed.

  Lemma bivariate_posdef rho sx sy : Rlt 0 sx -> Rlt 0 sy -> Rlt (-1) rho -> Rlt rho 1 ->
    posdef (sigma 1 1 (bivariate_cov rho sx sy)).
  Proof.
    move=> hx hy h1 h2; split; first exact: bivariate_sym.
    move=> x nz; rewrite bivariate_qf.
    have nz' : x ord0 ord0 <> 0 \/ x ord_max ord0 <> 0.
    { case: (Req_EM_T (x ord0 ord0) 0) => e1; [case: (Req_EM_T (x ord_max ord0) 0) => e2; [|by right] | by left].
      case/eqP: nz; apply/matrixP => i j; rewrite (ord1 j) [RHS]mxE.
      case: i => [[|[|i]] hi] //.
      - by rewrite (_ : Ordinal hi = ord0) //; apply/val_inj.
      - by rewrite (_ : Ordinal hi = ord_max) //; apply/val_inj. }
    move: nz'; set u := x ord0 ord0; set v := x ord_max ord0; clearbody u v.
    change (GRing.zero R_zmodType) with (IZR Z0) => nz'.
    have e : Rplus (Rmult (pow sx 2) (Rmult u u)) (Rplus (Rmult (Rmult 2 (Rmult (Rmult rho sx) sy)) (Rmult u v)) (Rmult (pow sy 2) (Rmult v v)))
      = Rplus (pow (Rplus (Rmult sx u) (Rmult rho (Rmult sy v))) 2)
              (Rmult (Rmult (Rminus 1 rho) (Rplus 1 rho)) (pow (Rmult sy v) 2)).
    { lazymatch goal with |- ?l = ?r => change (@eq R l r) end; ring. }
    rewrite e; clear e.
    have p : Rlt 0 (Rmult (Rminus 1 rho) (Rplus 1 rho)) by apply: Rmult_lt_0_compat; lra.
    case: (Req_EM_T v 0) => [v0|v0].
    - have u0 : u <> 0 by case: nz'.
      rewrite v0 !Rmult_0_r Rplus_0_r; apply: Rplus_lt_le_0_compat.
      + have : Rmult sx u <> 0 by apply: Rmult_integral_contrapositive_currified => //; lra.
        move=> h; have := Rsqr_pos_lt _ h; by rewrite /Rsqr /= Rmult_1_r.
      + rewrite /= Rmult_0_l Rmult_0_r; exact: Rle_refl.
    - apply: Rplus_le_lt_0_compat; first exact: pow2_ge_0.
      apply: Rmult_lt_0_compat => //.
      have h : Rmult sy v <> 0 by apply: Rmult_integral_contrapositive_currified => //; lra.
      have := Rsqr_pos_lt _ h; by rewrite /Rsqr /= Rmult_1_r.
  Qed.

  Lemma bivariate_dets a b c :
    [/\ \det (sigma 1 1 [:: [:: a; c]; [:: c; b]]) = Rminus (Rmult a b) (Rmult c c),
        \det (ulsubmx (sigma 1 1 [:: [:: a; c]; [:: c; b]])) = a
      & \det (drsubmx (sigma 1 1 [:: [:: a; c]; [:: c; b]])) = b].
  Proof.
    split; rewrite ?det11 ?mxE //.
    rewrite -det_to_mx; cbn.
    lazymatch goal with |- ?l = ?r => change (@eq R l r) end; ring.
  Qed.

  Lemma bivariate_mi rho sx sy : Rlt 0 sx -> Rlt 0 sy -> Rlt (-1) rho -> Rlt rho 1 ->
    gaussian_mi (sigma 1 1 (bivariate_cov rho sx sy)) = Rmult (Ropp (Rdiv 1 2)) (ln (Rminus 1 (pow rho 2))).
  Proof.
    move=> hx hy h1 h2; rewrite /gaussian_mi /bivariate_cov.
    have [-> -> ->] := bivariate_dets (pow sx 2) (pow sy 2) (Rmult (Rmult rho sx) sy).
    have p : Rlt 0 (Rminus 1 (pow rho 2)) by nra.
    have q : Rlt 0 (Rmult (pow sx 2) (pow sy 2)).
    { apply: Rmult_lt_0_compat; exact: pow_lt. }
    have e : Rminus (Rmult (pow sx 2) (pow sy 2)) (Rmult (Rmult (Rmult rho sx) sy) (Rmult (Rmult rho sx) sy))
      = Rmult (Rmult (pow sx 2) (pow sy 2)) (Rminus 1 (pow rho 2)).
    { lazymatch goal with |- ?l = ?r => change (@eq R l r) end; ring. }
    rewrite e; clear e; move: q p; set a := Rmult _ (pow sy 2); set b := Rminus 1 _; clearbody a b => q p.
    have -> : Rdiv a (Rmult a b) = Rinv b.
    { lazymatch goal with |- ?l = ?r => change (@eq R l r) end; field; split; lra. }
    rewrite ln_Rinv //; set l := ln b; lazymatch goal with |- ?l = ?r => change (@eq R l r) end; field.
  Qed.

  Lemma Rltb_true a b : Rltb a b = true <-> Rlt a b.
  Proof. by rewrite /Rltb; case: (Rlt_dec a b). Qed.

  Lemma bivariate_accepts rho sx sy mx my : eigvals_exact eigvals 1 1 (bivariate_cov rho sx sy) ->
    ((exists r, @bivariate_normal_sampler eigvals J mvn rho sx sy mx my = Ok r) <->
     [/\ Rlt 0 sx, Rlt 0 sy, Rlt (-1) rho & Rlt rho 1]).
  Proof.
    move=> k; rewrite /bivariate_normal_sampler /=; rewrite /Rleb /Rltb.
    case: (Rle_dec (Rmin sx sy) 0) => h0 /=.
    { split; first by case.
      by case=> a b _ _; case: (Rlt_irrefl 0); apply: Rlt_le_trans h0; apply: Rmin_glb_lt. }
    have [hx hy] : Rlt 0 sx /\ Rlt 0 sy.
    { move: h0; rewrite /Rmin; case: (Rle_dec sx sy) => ? ?; split; lra. }
    case: (Rlt_dec (-1) rho) => h1 /=; last by split; [case | case].
    case: (Rlt_dec rho 1) => h2 /=; last by split; [case | case].
    split=> // _.
    have pd := bivariate_posdef hx hy h1 h2.
    have [s e] := proj2 (accepts_iff (Some [:: mx; my]) (isT : (0 < 1)%N) (isT : (0 < 1)%N) (proj1 pd) k)
      (And3 (isT : has_shape (bivariate_cov rho sx sy) (1 + 1) (1 + 1)) (erefl : proper_mean (1 + 1) (Some [:: mx; my])) pd).
    rewrite -[[:: [:: pow sx 2; _]; _]]/(bivariate_cov rho sx sy) e /=.
    by eexists.
  Qed.

  Lemma bivariate_rejects rho sx sy mx my : (Rle sx 0 \/ Rle sy 0 \/ Rle rho (-1) \/ Rle 1 rho) ->
    @bivariate_normal_sampler eigvals J mvn rho sx sy mx my = Err ValueError.
  Proof.
    move=> h; rewrite /bivariate_normal_sampler /=; rewrite /Rleb /Rltb.
    case: (Rle_dec (Rmin sx sy) 0) => h0 //=.
    case: (Rlt_dec (-1) rho) => h1 //=.
    case: (Rlt_dec rho 1) => h2 //=; case: h0; move: h; rewrite /Rmin.
    case: (Rle_dec sx sy) => h'; lra.
  Qed.

  Lemma bivariate_value rho sx sy mx my smp c : eigvals_exact eigvals 1 1 (bivariate_cov rho sx sy) ->
    @bivariate_normal_sampler eigvals J mvn rho sx sy mx my = Ok (smp, c) ->
    c = rho /\ mutual_information smp = Ok (Fin (Rmult (Ropp (Rdiv 1 2)) (ln (Rminus 1 (pow rho 2))))) /\
    exists s, split_multinormal_init eigvals 1 1 (bivariate_cov rho sx sy) (Some [:: mx; my]) = Ok s /\
      mutual_information smp = Ok (split_multinormal_mi s) /\ sample smp = @split_multinormal_sample J mvn s.
  Proof.
    move=> k h.
    have [hx hy h1 h2] := proj1 (bivariate_accepts mx my k) (ex_intro _ _ h).
    have pd := bivariate_posdef hx hy h1 h2.
    have p : Rlt 0 (Rminus 1 (pow rho 2)) by nra.
    move: h; rewrite /bivariate_normal_sampler /=.
    case: (Rleb _ _) => //=; case: (negb _) => //=.
    rewrite -[[:: [:: pow sx 2; _]; _]]/(bivariate_cov rho sx sy).
    case e: (split_multinormal_init _ _ _ _ _) => [s|] //= [<- <-] /=.
    have [f _ _] := mi_formula (m := 1) (n := 1) (proj1 pd) (proj1 k) e.
    have -> : Rmult rho (Rmult rho 1) = pow rho 2 by [].
    rewrite np_log_pos //; split=> //; split=> //; exists s; split=> //; split=> //.
    by rewrite f bivariate_mi.
  Qed.
End Bivariate.

(** ** The Student distribution *)

Section Student.
  Variable eigvals : UtilsModel.matrix -> list (R * R).
  Variables psi log_gamma : R -> R.

  Lemma student_init_ok dim_x dim_y df C mean st :
    split_student_init eigvals dim_x dim_y df C mean = Ok st <->
    exists s, [/\ split_multinormal_init eigvals dim_x dim_y C mean = Ok s, fl_leb df 0 = false
      & st = {| st_multinormal := s; st_mean := sm_mean s; st_df := df; st_dispersion := C |}].
  Proof.
    rewrite /split_student_init /split_multinormal_init.
    case: (base_sampler_init _ _) => [[dx dy]|e] /=; last by split=> // -[s []].
    rewrite -[match mean with Some _ => _ | None => _ end]/(the_mean (Z.to_nat dx + Z.to_nat dy) mean).
    set mu := the_mean _ _.
    case: (negb _) => /=; first by split=> // -[s []].
    case: (negb _) => /=; first by split=> // -[s []].
    case: (multinormal_init _ _ _) => [a|e] /=; last by split=> // -[s []].
    case: (multinormal_init _ _ _) => [b|e] /=; last by split=> // -[s []].
    case: (multinormal_init _ _ _) => [c|e] /=; last by split=> // -[s []].
    case: (fl_leb df 0); first by split=> // -[s []].
    split.
    - by case=> <-; eexists; split.
    - by move=> [s [[<-] _ ->]].
  Qed.

  Lemma student_entropy_fin k df : Rlt 0 df ->
    student_entropy psi log_gamma k (Fin df)
    = Fin (Rplus (Rplus (Rplus (Ropp (log_gamma (Rdiv (Rplus df (INR k)) 2))) (log_gamma (Rdiv df 2)))
                        (Rmult (Rdiv (INR k) 2) (ln (Rmult df PI))))
                 (Rmult (Rdiv (Rplus df (INR k)) 2)
                        (Rminus (psi (Rdiv (Rplus df (INR k)) 2)) (psi (Rdiv df 2))))).
  Proof.
    move=> h; rewrite /student_entropy /=.
    have pp : Rlt 0 (Rmult PI df) by apply: Rmult_lt_0_compat => //; exact: PI_RGT_0.
    rewrite np_log_pos //=.
    have -> : Rmult (Rdiv 1 2) (Rplus df (INR k)) = Rdiv (Rplus df (INR k)) 2.
    { lazymatch goal with |- ?l = ?r => change (@eq R l r) end; field. }
    have -> : Rmult (Rdiv 1 2) df = Rdiv df 2.
    { lazymatch goal with |- ?l = ?r => change (@eq R l r) end; field. }
    have -> : Rmult (Rdiv 1 2) (INR k) = Rdiv (INR k) 2.
    { lazymatch goal with |- ?l = ?r => change (@eq R l r) end; field. }
    by rewrite (Rmult_comm PI df).
  Qed.

  Lemma correction_value df m n : Rlt 0 df ->
    mi_correction_function psi log_gamma (Fin df) m n = Fin (student_correction psi log_gamma df m n).
  Proof.
    move=> h; rewrite /mi_correction_function !student_entropy_fin // /student_correction /=.
    congr Fin; rewrite -[(m + n)%coq_nat]/(m + n)%N.
    have -> : INR (m + n)%N = Rplus (INR m) (INR n) by rewrite -plusE plus_INR.
    set a := INR m; set b := INR n; set l := ln _; set g0 := log_gamma (Rdiv df 2).
    set g1 := log_gamma _; set g2 := log_gamma _; set g3 := log_gamma (Rdiv (Rplus df (Rplus a b)) 2).
    set p0 := psi (Rdiv df 2).
    set p1 := psi _; set p2 := psi _; set p3 := psi (Rdiv (Rplus df (Rplus a b)) 2).
    clearbody a b l g0 g1 g2 g3 p0 p1 p2 p3.
    lazymatch goal with |- ?l = ?r => change (@eq R l r) end; field.
  Qed.

  Lemma student_mi (m n : nat) C mean df st :
    (sigma m n C)^T = sigma m n C -> eigvals_ok (m + n) C (eigvals C) ->
    split_student_init eigvals (Z.of_nat m) (Z.of_nat n) (Fin df) C mean = Ok st ->
    [/\ Rlt 0 df, mi_normal st = Fin (gaussian_mi (sigma m n C)),
        mi_correction psi log_gamma st = Fin (student_correction psi log_gamma df m n)
      & split_student_mi psi log_gamma st
        = Fin (Rplus (gaussian_mi (sigma m n C)) (student_correction psi log_gamma df m n))].
  Proof.
    move=> sy k /student_init_ok [s [h f ->]].
    have df0 : Rlt 0 df.
    { move: f; rewrite /fl_leb /Rleb; case: (Rle_dec _ _) => // h' _; exact: Rnot_le_lt. }
    have [g _ _] := mi_formula sy k h.
    have [e1 e2] : sm_dim_x s = m /\ sm_dim_y s = n.
    { move: h => /split_init_ok [m' [n' [e1 e2 m0 n0 [_ _ _ _ ->]]]]; rewrite /=; lia. }
    by rewrite /split_student_mi /mi_normal /mi_correction /= e1 e2 g correction_value.
  Qed.

  Lemma student_expected_pmi (m n : nat) C mean df st I E mu :
    (sigma m n C)^T = sigma m n C -> eigvals_ok (m + n) C (eigvals C) ->
    split_student_init eigvals (Z.of_nat m) (Z.of_nat n) (Fin df) C mean = Ok st ->
    let S := sigma m n C in
    expectation I E ->
    student_log_moment psi df I E mu S ->
    student_log_moment psi df (fun f => I (fun z => f (usubmx z))) (fun f => E (fun z => f (usubmx z)))
      (usubmx mu) (ulsubmx S) ->
    student_log_moment psi df (fun f => I (fun z => f (dsubmx z))) (fun f => E (fun z => f (dsubmx z)))
      (dsubmx mu) (drsubmx S) ->
    let pmi := pointwise_mi (student_log_density log_gamma df mu S)
                 (student_log_density log_gamma df (usubmx mu) (ulsubmx S))
                 (student_log_density log_gamma df (dsubmx mu) (drsubmx S)) in
    I pmi /\ split_student_mi psi log_gamma st = Fin (E pmi).
  Proof.
    move=> sy k h S HE H1 H2 H3 pmi.
    have [df0 _ _ ->] := student_mi sy k h.
    have [s [h' _ _]] := proj1 (student_init_ok _ _ _ _ _ _) h.
    have [m0 n0 pd] := accepted_posdef sy k h'.
    have dens : forall d (I' : ('cV[R]_d -> R) -> Prop) E' mu' (S' : 'M[R]_d), expectation I' E' ->
      student_log_moment psi df I' E' mu' S' ->
      I' (student_log_density log_gamma df mu' S') /\
      E' (student_log_density log_gamma df mu' S')
      = Rminus (Rminus (log_gamma (Rdiv (Rplus df (INR d)) 2)) (log_gamma (Rdiv df 2)))
          (Rplus (Rplus (Rmult (Rdiv (INR d) 2) (ln (Rmult df PI))) (Rmult (/ 2) (ln (\det S'))))
             (Rmult (Rdiv (Rplus df (INR d)) 2)
               (Rminus (psi (Rdiv (Rplus df (INR d)) 2)) (psi (Rdiv df 2))))).
    { move=> d I' E' mu' S' HE' [i1 i2].
      have [c1 c2] := exp_scale HE' (Rdiv (Rplus df (INR d)) 2) i1.
      have [d1 d2] := exp_const HE' (Rplus (Rmult (Rdiv (INR d) 2) (ln (Rmult df PI))) (Rmult (/ 2) (ln (\det S')))).
      have [a1 a2] := exp_add HE' d1 c1.
      have [f1 f2] := exp_const HE' (Rminus (log_gamma (Rdiv (Rplus df (INR d)) 2)) (log_gamma (Rdiv df 2))).
      have [g1 g2] := exp_sub HE' f1 a1.
      split; first exact g1.
      by rewrite -i2 -c2 -[in RHS]d2 -a2 -[in RHS]f2 -g2. }
    have [j1 j2] := dens _ _ _ _ _ HE H1.
    have [x1 x2] := dens _ _ _ _ _ (expectation_x HE) H2.
    have [y1 y2] := dens _ _ _ _ _ (expectation_y HE) H3.
    have [p1 p2] := exp_pointwise HE j1 x1 y1; split=> //.
    rewrite p2 j2 x2 y2; congr Fin; rewrite /gaussian_mi /student_correction -/S.
    have d1 := det_posdef pd; have d2 := det_posdef (posdef_ul pd); have d3 := det_posdef (posdef_dr pd).
    rewrite ln_divide //; last exact: Rmult_lt_0_compat.
    rewrite (ln_mult _ _ d2 d3).
    have -> : INR (m + n)%N = Rplus (INR m) (INR n) by rewrite -plusE plus_INR.
    rewrite -/S.
    set a := INR m; set b := INR n; set l := ln (Rmult df PI); set g0 := log_gamma (Rdiv df 2).
    set l1 := ln (\det S); set l2 := ln (\det (ulsubmx S)); set l3 := ln (\det (drsubmx S)).
    set g1 := log_gamma (Rdiv (Rplus df a) 2); set g2 := log_gamma (Rdiv (Rplus df b) 2);
    set g3 := log_gamma (Rdiv (Rplus df (Rplus a b)) 2).
    set p0 := psi (Rdiv df 2).
    set q1 := psi (Rdiv (Rplus df a) 2); set q2 := psi (Rdiv (Rplus df b) 2);
    set q3 := psi (Rdiv (Rplus df (Rplus a b)) 2).
    clearbody a b l l1 l2 l3 g0 g1 g2 g3 p0 q1 q2 q3.
    lazymatch goal with |- ?l = ?r => change (@eq R l r) end; field.
  Qed.

  Lemma student_covariance dim_x dim_y df C mean st :
    split_student_init eigvals dim_x dim_y (Fin df) C mean = Ok st ->
    (Rlt 2 df -> split_student_covariance st = Ok (List.map (List.map (fun v => Fin (Rdiv (Rmult df v) (Rminus df 2)))) C)) /\
    (Rle df 2 -> split_student_covariance st = Err ValueError).
  Proof.
    move=> /student_init_ok [s [_ _ ->]]; rewrite /split_student_covariance /= /Rleb.
    split=> h; case: (Rle_dec df 2) => h' //.
    case: (Rlt_irrefl _ (Rlt_le_trans _ _ _ h h')).
  Qed.

  Lemma student_infinite_df dim_x dim_y C mean st :
    split_student_init eigvals dim_x dim_y PInf C mean = Ok st ->
    split_student_mi psi log_gamma st = NaN /\
    split_student_covariance st = Ok (List.map (List.map (fun _ => NaN)) C).
  Proof.
    move=> /student_init_ok [s [_ _ ->]]; split=> //.
    rewrite /split_student_mi /mi_normal /mi_correction /mi_correction_function /student_entropy /=.
    by case: (split_multinormal_mi s).
  Qed.

  Lemma student_rejects dim_x dim_y df C mean : Rle df 0 ->
    forall st, split_student_init eigvals dim_x dim_y (Fin df) C mean <> Ok st.
  Proof.
    move=> h st /student_init_ok [s [_ f _]]; move: f; rewrite /fl_leb /Rleb.
    by case: (Rle_dec df 0).
  Qed.

  Lemma student_same_normal dim_x dim_y df C mean st s :
    split_student_init eigvals dim_x dim_y df C mean = Ok st ->
    split_multinormal_init eigvals dim_x dim_y C mean = Ok s ->
    mi_normal st = split_multinormal_mi s /\
    split_student_mi psi log_gamma st
    = fl_add (split_multinormal_mi s) (mi_correction_function psi log_gamma df (Z.to_nat dim_x) (Z.to_nat dim_y)).
  Proof.
    move=> /student_init_ok [s' [h _ ->]] h'; rewrite h in h'; case: h' => <-; split=> //.
    move: h => /split_init_ok [m' [n' [e1 e2 m0 n0 [_ _ _ _ e]]]].
    by rewrite /split_student_mi /mi_normal /mi_correction /= e /= e1 e2 !Nat2Z.id.
  Qed.

  (** Sampling one point fails: SciPy drops the axis of length one. *)
  Lemma student_sample_one (J : prng) mvt (st : split_student) (rng : seed J) :
    (forall r mu D df k, List.length (mvt r mu D df k) = k) ->
    exists e, @split_student_sample mvt J st 1 rng = Err e.
  Proof.
    move=> h; rewrite /split_student_sample; case: rng => [r|k]; last by eexists.
    have := h r (st_mean st) (st_dispersion st) (st_df st) 1%N.
    by case: (mvt _ _ _ _ _) => [|row [|]] //= _; eexists.
  Qed.

  Lemma student_sample_many (J : prng) mvt (st : split_student) n r :
    (forall r mu D df k, List.length (mvt r mu D df k) = k) -> n <> 1%N ->
    @split_student_sample mvt J st n (SeedInt r : seed J)
    = Ok (List.map (List.firstn (sm_dim_x (st_multinormal st))) (mvt r (st_mean st) (st_dispersion st) (st_df st) n),
          List.map (List.skipn (sm_dim_x (st_multinormal st))) (mvt r (st_mean st) (st_dispersion st) (st_df st) n)).
  Proof.
    move=> h n1; rewrite /split_student_sample.
    have := h r (st_mean st) (st_dispersion st) (st_df st) n.
    case e: (mvt _ _ _ _ _) => [|row [|row' rows]] hl.
    - by rewrite /= -hl /= PeanoNat.Nat.eqb_refl.
    - by case: n1; rewrite -hl.
    - by rewrite /squeeze -hl !PeanoNat.Nat.eqb_refl.
  Qed.
End Student.

(** ** Shapes of the samples *)

Section Shapes.
  Variable eigvals : UtilsModel.matrix -> list (R * R).

  Lemma split_rows (rows : list (list R)) (m n k : nat) : List.length rows = k ->
    List.Forall (fun r => List.length r = (m + n)%N) rows ->
    paired_sample k (Z.of_nat m) (Z.of_nat n) (List.map (List.firstn m) rows, List.map (List.skipn m) rows).
  Proof.
    move=> hl f; rewrite /paired_sample !List.map_length hl; split=> //; split=> //; split; apply/List.Forall_forall => r /List.in_map_iff [r' [<- i]];
    have := proj1 (List.Forall_forall _ _) f _ i; rewrite /zlen ?List.firstn_length ?List.skipn_length -plusE; lia.
  Qed.

  Lemma normal_dimensions (J : prng) mvn dim_x dim_y C mean s :
    (forall k mu S n, List.length (mvn k mu S n) = n /\
       List.Forall (fun r => List.length r = List.length mu) (mvn k mu S n)) ->
    split_multinormal_init eigvals dim_x dim_y C mean = Ok s ->
    well_dimensioned (@split_multinormal_sampler J mvn s) /\
    forall n rng, exists xs ys, split_multinormal_sample J mvn s n rng = Ok (xs, ys) /\
      List.map (fun p => List.app (fst p) (snd p)) (List.combine xs ys)
      = mvn (cast_to_rng J rng) (the_mean (Z.to_nat dim_x + Z.to_nat dim_y) mean) C n.
  Proof.
    move=> ok /split_init_ok [m [n [-> -> /ltP m0 /ltP n0 [pm _ _ _ ->]]]]; split.
    - exists (Z.of_nat m), (Z.of_nat n); split=> //; split=> //; split; first lia; split; first lia.
      move=> k rng xy [<-]; have [h1 h2] := ok (cast_to_rng J rng) (the_mean (m + n) mean) C k.
      apply: split_rows => //; by rewrite (the_mean_length pm) in h2.
    - move=> k rng; eexists; eexists; split; first reflexivity.
      rewrite !Nat2Z.id /=; set rows := mvn _ _ _ _.
      elim: rows => [|r rows IH] //=; by rewrite IH List.firstn_skipn.
  Qed.

  Lemma student_dimensions (J : prng) mvt dim_x dim_y df C mean st :
    (forall r mu D df k, List.length (mvt r mu D df k) = k /\
       List.Forall (fun row => List.length row = List.length mu) (mvt r mu D df k)) ->
    split_student_init eigvals dim_x dim_y df C mean = Ok st ->
    forall psi log_gamma, well_dimensioned (@split_student_sampler psi log_gamma mvt J st).
  Proof.
    move=> ok /student_init_ok [s [h _ ->]] psi log_gamma.
    move: h => /split_init_ok [m [n [_ _ /ltP m0 /ltP n0 [pm _ _ _ ->]]]].
    exists (Z.of_nat m), (Z.of_nat n); split=> //; split=> //; split; first lia; split; first lia.
    move=> k rng xy; rewrite /= /split_student_sample; case: rng => // r.
    rewrite /=; have [h1 h2] := ok r (the_mean (m + n) mean) C df k; move: h1 h2.
    rewrite (the_mean_length pm); set rows := mvt _ _ _ _ _ => h1 h2.
    have fin : forall rows', rows' = rows ->
      (if PeanoNat.Nat.eqb (List.length rows') k && PeanoNat.Nat.eqb (m + n) (m + n)
       then Ok (List.map (List.firstn m) rows', List.map (List.skipn m) rows') else Err AssertionError) = Ok xy ->
      paired_sample k (Z.of_nat m) (Z.of_nat n) xy.
    { move=> rows' ->; rewrite h1 !PeanoNat.Nat.eqb_refl /= => -[<-]; exact: split_rows. }
    rewrite /squeeze; move: fin; clearbody rows; case: rows {h1 h2} => [|row [|row' rows]] fin //; exact: fin.
  Qed.
End Shapes.

Lemma wrong_shape_rejected eigvals dim_x dim_y C mean :
  (dim_x < 1)%Z \/ (dim_y < 1)%Z \/
  has_shape C (Z.to_nat dim_x + Z.to_nat dim_y) (Z.to_nat dim_x + Z.to_nat dim_y) = false \/
  ~ proper_mean (Z.to_nat dim_x + Z.to_nat dim_y) mean ->
  split_multinormal_init eigvals dim_x dim_y C mean = Err ValueError.
Proof.
  move=> h; case e: (split_multinormal_init _ _ _ _ _) => [s|x]; last by rewrite (split_init_errors e).
  exfalso; have [m [n [e1 e2 /ltP m0 /ltP n0 [pm sh _ _ _]]]] := proj1 (split_init_ok _ _ _ _ _ _) e.
  move: h; rewrite e1 e2 !Nat2Z.id sh => -[|[|[|]]] //; lia.
Qed.

Lemma student_accepts eigvals dim_x dim_y df C mean :
  (exists st, split_student_init eigvals dim_x dim_y (Fin df) C mean = Ok st) <->
  Rlt 0 df /\ exists s, split_multinormal_init eigvals dim_x dim_y C mean = Ok s.
Proof.
  have e : fl_leb (Fin df) 0 = false <-> Rlt 0 df.
  { rewrite /fl_leb /Rleb; case: (Rle_dec df 0) => h; split=> //; [|by move=> _; exact: Rnot_le_lt].
    by move=> h'; case: (Rlt_irrefl _ (Rlt_le_trans _ _ _ h' h)). }
  split.
  - move=> [st /student_init_ok [s [h1 /e h2 _]]]; split=> //; by exists s.
  - move=> [/e h1 [s h2]]; eexists; apply/student_init_ok; exists s; split=> //.
Qed.

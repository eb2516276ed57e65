(** The covariances and dispersions of the benchmark tasks are accepted by the samplers. *)
From Verif Require Import Base UtilsModel JaxModel SamplersModel GaussianModel BaseLemmas MatrixUtilsModel MatrixUtilsSpec MatrixUtilsProofs LvmProofs
  BenchmarkModel TasksModel TasksSpec.
From mathcomp Require Import all_ssreflect ssralg matrix mxalgebra.
From Verif Require Import SamplersSpec RStruct PosDef MatrixBridge GaussianSpec GaussianProofs ExpectationProofs GaussianThms MatrixUtilsThms.
Set Implicit Arguments.
Unset Strict Implicit.
Unset Printing Implicit Defensive.
Import GRing.Theory.
Local Open Scope ring_scope.

(** What the tasks need of [np.linalg.eigvals]: the eigenvalues found for a positive
    definite matrix are positive. *)
Definition eigvals_positive (eigvals : UtilsModel.matrix -> list (R * R)) : Prop :=
  forall n C, has_shape C n n = true -> posdef (to_mx n n C) -> List.Forall (fun z => Rlt 0 (fst z)) (eigvals C).

Section Accepted.
  Variable eigvals : UtilsModel.matrix -> list (R * R).
  Hypothesis He : eigvals_positive eigvals.

  Lemma covariance_ok n C : (0 < n)%N -> has_shape C n n = true -> posdef (to_mx n n C) -> can_be_covariance eigvals C = Ok tt.
  Proof.
    move=> n0 sh pd; have ln : List.length C = n by move: sh => /shape_rows [].
    rewrite /can_be_covariance ln.
    have -> : List.forallb (fun i => List.forallb (fun j => negb (Reqb (entry C i j) (entry C j i))) (List.seq 0 n)) (List.seq 0 n) = false.
    { case: n n0 {sh pd ln} => // n _ /=; rewrite /Reqb; case: (Req_EM_T _ _) => //=. }
    have -> : List.forallb complex_positive (eigvals C) = true => //.
    apply/List.forallb_forall => z hz; have /List.Forall_forall h := He sh pd.
    have := h _ hz; rewrite /complex_positive /Rltb; by case: (Rlt_dec _ _).
  Qed.

  Lemma gaussian_ok (m n : nat) C mean : (0 < m)%N -> (0 < n)%N -> has_shape C (m + n) (m + n) = true ->
    proper_mean (m + n) mean -> posdef (sigma m n C) ->
    split_multinormal_init eigvals (Z.of_nat m) (Z.of_nat n) C mean = Ok (built m n C mean) /\
    exists v, split_multinormal_mi (built m n C mean) = Fin v /\ Rle 0 v.
  Proof.
    move=> m0 n0 sh pm pd.
    have i : split_multinormal_init eigvals (Z.of_nat m) (Z.of_nat n) C mean = Ok (built m n C mean).
    { apply/split_init_ok; exists m, n; split=> //; split=> //.
      - split; first by apply: covariance_ok sh pd; exact: ltn_addr.
        have s1 : has_shape (square_slice C 0 m) m m.
        { have := @slice_shape C (m + n) 0 m sh; rewrite add0n; apply; exact: leq_addr. }
        apply: covariance_ok s1 _ => //; rewrite (to_mx_ul m n C); exact: posdef_ul pd.
      - have s2 : has_shape (square_slice C m (m + n)) n n by apply: (@slice_shape C (m + n)).
        apply: covariance_ok s2 _ => //; rewrite (to_mx_dr m n C); exact: posdef_dr pd. }
    split=> //; exists (Rmax 0 (gaussian_mi (sigma m n C))); split; last exact: Rmax_l.
    apply: (mi_clamped i); [exact: det_posdef | exact: det_posdef (posdef_ul pd) | exact: det_posdef (posdef_dr pd)].
  Qed.

  Section Samplers.
    Variables (J : prng) (mvn : key J -> list R -> UtilsModel.matrix -> nat -> UtilsModel.matrix).
    Variables (psi log_gamma : R -> R) (mvt : Z -> list R -> UtilsModel.matrix -> fl -> nat -> UtilsModel.matrix).

    Lemma multinormal_ok dx dy C : (1 <= dx)%Z -> (1 <= dy)%Z ->
      has_shape C (Z.to_nat dx + Z.to_nat dy) (Z.to_nat dx + Z.to_nat dy) = true ->
      posdef (sigma (Z.to_nat dx) (Z.to_nat dy) C) ->
      exists s, multinormal_sampler eigvals mvn dx dy C = Ok s /\ sound_sampler s dx dy.
    Proof.
      move=> hx hy sh pd; have ex : dx = Z.of_nat (Z.to_nat dx) by lia. have ey : dy = Z.of_nat (Z.to_nat dy) by lia.
      have m0 : (0 < Z.to_nat dx)%N by apply/ltP; lia. have n0 : (0 < Z.to_nat dy)%N by apply/ltP; lia.
      have [i [v [e p]]] := @gaussian_ok _ _ C None m0 n0 sh I pd.
      rewrite -ex -ey in i; rewrite /multinormal_sampler i /=; eexists; split; first reflexivity.
      split; first by rewrite /= -ex. split; first by rewrite /= -ey.
      by exists v; split=> //=; rewrite e.
    Qed.

    Lemma student_ok dx dy df C : (1 <= dx)%Z -> (1 <= dy)%Z -> (1 <= df)%Z ->
      has_shape C (Z.to_nat dx + Z.to_nat dy) (Z.to_nat dx + Z.to_nat dy) = true ->
      posdef (sigma (Z.to_nat dx) (Z.to_nat dy) C) ->
      Rle 0 (student_correction psi log_gamma (IZR df) (Z.to_nat dx) (Z.to_nat dy)) ->
      exists s, @student_sampler J eigvals psi log_gamma mvt dx dy df C = Ok s /\ sound_sampler s dx dy.
    Proof.
      move=> hx hy hd sh pd hc; have ex : dx = Z.of_nat (Z.to_nat dx) by lia. have ey : dy = Z.of_nat (Z.to_nat dy) by lia.
      have m0 : (0 < Z.to_nat dx)%N by apply/ltP; lia. have n0 : (0 < Z.to_nat dy)%N by apply/ltP; lia.
      have d0 : Rlt 0 (IZR df) by apply: IZR_lt; lia.
      have [i [v [e p]]] := @gaussian_ok _ _ C None m0 n0 sh I pd.
      rewrite -ex -ey in i.
      have [st es] : exists st, split_student_init eigvals dx dy (Fin (IZR df)) C None = Ok st.
      { apply/student_accepts; split=> //; by eexists; exact: i. }
      have [_ mi] := student_same_normal psi log_gamma es i.
      have [s' [i' _ est]] := proj1 (student_init_ok _ _ _ _ _ _ _) es.
      rewrite i in i'; case: i' => es'.
      rewrite /student_sampler es /=; eexists; split; first reflexivity.
      split; first by rewrite /= est -es' /= -ex. split; first by rewrite /= est -es' /= -ey.
      exists (Rplus v (student_correction psi log_gamma (IZR df) (Z.to_nat dx) (Z.to_nat dy))); split.
      - by rewrite /= mi e correction_value.
      - exact: Rplus_le_le_0_compat.
    Qed.

    (** ** The matrices of the tasks *)
    Lemma constant_shape n off : has_shape (constant_correlation (Z.of_nat n) off) n n = true /\
      forall i j, (i < n)%coq_nat -> (j < n)%coq_nat ->
        entry (constant_correlation (Z.of_nat n) off) i j = Rplus (Rmult (if PeanoNat.Nat.eqb i j then R1 else R0) (Rminus 1 off)) off.
    Proof.
      rewrite /constant_correlation Nat2Z.id; move: (np_eye n) (np_eye_entries n) => E [sh en].
      have [l r] := proj1 (shape_rows _ _ _) sh.
      split.
      - apply/shape_rows; rewrite List.map_length; split=> // i hi.
        rewrite (List.nth_indep _ nil (List.map (fun v => Rplus (Rmult v (Rminus 1 off)) off) nil)) ?List.map_length ?l //.
        by rewrite List.map_nth List.map_length r.
      - move=> i j hi hj; rewrite -en // /entry.
        rewrite (List.nth_indep _ nil (List.map (fun v => Rplus (Rmult v (Rminus 1 off)) off) nil)) ?List.map_length ?l //.
        rewrite List.map_nth (List.nth_indep _ _ (Rplus (Rmult 0 (Rminus 1 off)) off)) ?List.map_length ?r //.
        by rewrite (List.map_nth (fun v => Rplus (Rmult v (Rminus 1 off)) off)).
    Qed.

    Lemma constant_posdef n off : Rle 0 off -> Rlt off 1 -> posdef (to_mx n n (constant_correlation (Z.of_nat n) off)).
    Proof.
      move=> h0 h1; have [_ en] := constant_shape n off.
      set u : 'cV[R]_n := const_mx 1.
      apply: (@posdef_le _ (diag_mx (const_mx (Rminus 1 off)))).
      - apply/posdef_diag => i; rewrite mxE; lra.
      - have -> : to_mx n n (constant_correlation (Z.of_nat n) off) - diag_mx (const_mx (Rminus 1 off)) = off *: (u *m u^T).
        { apply/matrixP => i j; rewrite !mxE big_ord_recl big_ord0 addr0 !mxE mulr1 en; try (apply/ltP; exact: ltn_ord).
          rewrite -(inj_eq val_inj) /=; case: (PeanoNat.Nat.eqb_spec i j) => [->|h].
          - rewrite eqxx mulr1n; lazymatch goal with |- ?l = ?r => change (@eq R l r) end.
            change (Rplus (Rplus (Rmult 1 (Rminus 1 off)) off) (Ropp (Rminus 1 off)) = Rmult off 1); ring.
          - case: eqP => // _; rewrite mulr0n.
            change (Rplus (Rplus (Rmult 0 (Rminus 1 off)) off) (Ropp 0) = Rmult off 1); ring. }
        split; first by rewrite linearZ /= trmx_mul trmxK.
        move=> x; have -> : qf (off *: (u *m u^T)) x = Rmult off (Rmult ((u^T *m x) ord0 ord0) ((u^T *m x) ord0 ord0)).
        { rewrite /qf -scalemxAr -scalemxAl mxE.
          rewrite mulmxA -[x^T *m u *m u^T *m x]mulmxA mxE big_ord_recl big_ord0 addr0.
          have -> : (x^T *m u) ord0 ord0 = (u^T *m x) ord0 ord0.
          { by rewrite -[x^T *m u]trmxK trmx_mul trmxK mxE. }
          reflexivity. }
        apply: Rmult_le_pos => //; exact: Rle_0_sqr.
    Qed.

    Lemma eye_posdef n : posdef (to_mx n n (np_eye n)).
    Proof.
      have [_ en] := np_eye_entries n.
      have -> : to_mx n n (np_eye n) = diag_mx (const_mx R1).
      { apply/matrixP => i j; rewrite !mxE en; try (apply/ltP; exact: ltn_ord).
        rewrite -(inj_eq val_inj) /=; case: (PeanoNat.Nat.eqb_spec i j) => [->|h]; first by rewrite eqxx mulr1n.
        by case: eqP. }
      apply/posdef_diag => i; rewrite mxE; exact: Rlt_0_1.
    Qed.

    Lemma dense_sampler dx dy off : (1 <= dx)%Z -> (1 <= dy)%Z -> Rle 0 off -> Rlt off 1 ->
      exists s, multinormal_sampler eigvals mvn dx dy (constant_correlation (dx + dy) off) = Ok s /\ sound_sampler s dx dy.
    Proof.
      move=> hx hy h0 h1; have e : (dx + dy)%Z = Z.of_nat (Z.to_nat dx + Z.to_nat dy)%N by rewrite -plusE; lia.
      rewrite e; apply: multinormal_ok => //; [exact: (proj1 (constant_shape _ _)) | exact: constant_posdef].
    Qed.

    Lemma identity_sampler dx dy df : (1 <= dx)%Z -> (1 <= dy)%Z -> (1 <= df)%Z ->
      Rle 0 (student_correction psi log_gamma (IZR df) (Z.to_nat dx) (Z.to_nat dy)) ->
      exists s, @student_sampler J eigvals psi log_gamma mvt dx dy df (np_eye (Z.to_nat (dx + dy))) = Ok s /\ sound_sampler s dx dy.
    Proof.
      move=> hx hy hd hc; have -> : Z.to_nat (dx + dy) = (Z.to_nat dx + Z.to_nat dy)%N by rewrite -plusE; lia.
      apply: student_ok => //; [exact: (proj1 (np_eye_entries _)) | exact: eye_posdef].
    Qed.

    Lemma finite_matrix_ok m : finite_matrix (List.map (List.map Fin) m) = Ok m.
    Proof.
      elim: m => //= row m IH; have -> : all_finite (List.map Fin row) = Some row.
      { by elim: row => //= r row ->. }
      by rewrite IH.
    Qed.

    Lemma sparse_sampler dx dy k alpha lambd beta eta : (0 <= k)%Z -> (k <= dx)%Z -> (k <= dy)%Z -> (1 <= dx)%Z -> (1 <= dy)%Z ->
      exists p c s, lvm_parameters dx dy k alpha lambd beta eta = Ok p /\ lvm_correlation_matrix p = Ok c /\
        multinormal_sampler eigvals mvn dx dy c = Ok s /\ sound_sampler s dx dy.
    Proof.
      move=> k0 kx ky hx hy; rewrite /lvm_parameters /lvm_init.
      have -> : ((0 <=? k)%Z && (k <=? Z.min dx dy)%Z) = true by apply/andP; split; apply/Z.leb_le; lia.
      rewrite /=; set p := Build_lvm _ _ _ _ _ _ _ _ _ _ _.
      have v : valid_lvm p by split=> /=; lia.
      have [[c ec] _] := lvm_computed _ v.
      have [k' [ek [sh [pd _]]]] := @lvm_correlation p c v ec R1_neq_R0 R1_neq_R0.
      have [s [es ss]] := @multinormal_ok dx dy k' hx hy sh pd.
      exists p, k', s; split=> //; split=> //; by rewrite /lvm_correlation_matrix ek /= finite_matrix_ok.
    Qed.

    Lemma binormal_sampler rho : Rlt (-1) rho -> Rlt rho 1 ->
      exists s r, bivariate_normal_sampler eigvals J mvn rho 1 1 0 0 = Ok (s, r) /\ sound_sampler s 1 1.
    Proof.
      move=> h1 h2; have pd := bivariate_posdef Rlt_0_1 Rlt_0_1 h1 h2.
      have [i _] := @gaussian_ok 1 1 (bivariate_cov rho 1 1) (Some [:: R0; R0]) isT isT erefl erefl pd.
      rewrite /bivariate_normal_sampler /=; rewrite /Rleb /Rltb.
      case: (Rle_dec (Rmin 1 1) 0) => h0 /=.
      { exfalso; move: h0; rewrite /Rmin; case: (Rle_dec 1 1) => ? ?; lra. }
      case: (Rlt_dec (-1) rho) => // _; case: (Rlt_dec rho 1) => // _ /=.
      rewrite -[[:: [:: Rmult 1 _; _]; _]]/(bivariate_cov rho 1 1) i /=.
      have p : Rlt 0 (Rminus 1 (Rmult rho (Rmult rho 1))) by nra.
      do 2 eexists; split; first reflexivity; split=> //; split=> //=.
      rewrite np_log_pos //; eexists; split; first reflexivity.
      have : Rle (ln (Rminus 1 (Rmult rho (Rmult rho 1)))) 0.
      { have q : Rle (Rminus 1 (Rmult rho (Rmult rho 1))) 1 by nra.
        case: (Rle_lt_or_eq_dec _ _ q) => [q'|->]; last by rewrite ln_1; exact: Rle_refl.
        by rewrite -ln_1; apply: Rlt_le; apply: ln_increasing. }
      move=> h; nra.
    Qed.
  End Samplers.
End Accepted.

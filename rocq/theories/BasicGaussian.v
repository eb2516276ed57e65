(** Determinants and mutual information of the covariances of the basic tasks. *)
From Verif Require Import Base UtilsModel JaxModel SamplersModel GaussianModel BaseLemmas MatrixUtilsModel MatrixUtilsSpec MatrixUtilsProofs LvmProofs
  BenchmarkModel TasksModel TasksSpec BasicSpec.
From mathcomp Require Import all_ssreflect ssralg matrix mxalgebra.
From Verif Require Import SamplersSpec RStruct PosDef MatrixBridge GaussianSpec GaussianProofs ExpectationProofs GaussianThms MatrixUtilsThms TasksGaussian.
From Verif Require MixturesSpec.
Set Implicit Arguments.
Unset Strict Implicit.
Unset Printing Implicit Defensive.
Import GRing.Theory.
Local Open Scope ring_scope.

Ltac real_eq := lazymatch goal with |- ?l = ?r => change (@eq R l r) end.

(** ** Equally correlated variables *)

Definition Kmx n (r : R) : 'M[R]_n := \matrix_(i, j) if i == j then R1 else r.

Lemma sum_const_R n (c : R) : \sum_(i < n) c = Rmult (INR n) c.
Proof.
  elim: n => [|n IH]; first by rewrite big_ord0 /=; real_eq; change (@eq R R0 (Rmult R0 c)); ring.
  by rewrite big_ord_recl IH S_INR; real_eq; change (Rplus c (Rmult (INR n) c) = Rmult (Rplus (INR n) 1) c); ring.
Qed.

Lemma invR (x : R) : x <> R0 -> x^-1 = Rinv x.
Proof.
  move=> h; change (Rinv_total x = Rinv x); rewrite /Rinv_total; by case: eqP.
Qed.

Lemma det_algebra (r d p N : R) : r <> R0 -> Rminus 1 r <> R0 ->
  Rmult p (Rminus (Ropp (Rinv r)) (Rmult N (Rinv (Rminus 1 r)))) = Rmult (Ropp (Rinv r)) d ->
  Rmult d (Rminus 1 r) = Rmult p (Rplus 1 (Rmult (Rminus N 1) r)).
Proof.
  move=> r0 a0 e; have -> : d = Rmult (Ropp r) (Rmult (Ropp (Rinv r)) d) by field.
  rewrite -e; by field.
Qed.

Lemma Kmx_det n (r : R) : r <> IZR 1 -> Rmult (\det (Kmx n r)) (Rminus 1 r) = Rmult (pow (Rminus 1 r) n) (Rplus 1 (Rmult (Rminus (INR n) 1) r)).
Proof.
  move=> r1; have a0 : Rminus 1 r <> R0 by move=> h; apply: r1; lra.
  have dD : \det ((Rminus 1 r)%:M : 'M[R]_n) = pow (Rminus 1 r) n by rewrite det_scalar pow_exp.
  case: (Req_EM_T r 0) => [->|r0].
  { have -> : Kmx n R0 = 1%:M by apply/matrixP => i j; rewrite !mxE; case: eqP.
    rewrite det1 Rminus_0_r pow1; real_eq; change (Rmult 1 1 = Rmult 1 (Rplus 1 (Rmult (Rminus (INR n) 1) 0))); ring. }
  set u : 'rV[R]_n := const_mx R1.
  set P : 'M[R]_1 := (Ropp (Rinv r))%:M.
  have ri : Rinv r <> R0 by exact: Rinv_neq_0_compat.
  have uP : P \in unitmx.
  { rewrite unitmxE det_scalar expr1 unitfE; apply/eqP => h; apply: ri.
    by rewrite -(Ropp_involutive (Rinv r)) [X in Ropp X = _]h Ropp_0. }
  have uD : (Rminus 1 r)%:M \in @unitmx _ n.
  { rewrite unitmxE dD unitfE; apply/eqP; exact: pow_nonzero. }
  have h1 := @det_schur 1 n P u (Rminus 1 r)%:M uP.
  have [h2 _] := @det_block_dr 1 n P u u^T (Rminus 1 r)%:M uD.
  rewrite h2 dD in h1.
  have iP : invmx P = (Ropp r)%:M.
  { rewrite invmx_scalar invR; last by move=> h; apply: ri; lra.
    by congr (_%:M); real_eq; field. }
  have sK : schur P u (Rminus 1 r)%:M = Kmx n r.
  { rewrite /schur iP; apply/matrixP => i j; rewrite !mxE big_ord_recl big_ord0 addr0 !mxE.
    rewrite big_ord_recl big_ord0 addr0 !mxE eqxx mulr1n.
    case: eqP => _; rewrite ?mulr1n ?mulr0n; real_eq.
    - change (Rplus (Rminus 1 r) (Ropp (Rmult (Rmult 1 (Ropp r)) 1)) = IZR 1); ring.
    - change (Rplus 0 (Ropp (Rmult (Rmult 1 (Ropp r)) 1)) = r); ring. }
  rewrite sK det_scalar expr1 in h1.
  have q : \det (P - u *m invmx ((Rminus 1 r)%:M : 'M[R]_n) *m u^T) = Rminus (Ropp (Rinv r)) (Rmult (INR n) (Rinv (Rminus 1 r))).
  { rewrite det_mx11 mxE [P _ _]mxE eqxx mulr1n mxE; congr (Rplus _ (Ropp _)); rewrite mxE.
    rewrite -sum_const_R; apply: eq_bigr => i _.
    rewrite invmx_scalar mul_mx_scalar !mxE invR //; real_eq.
    change (Rmult (Rmult (Rinv (Rminus 1 r)) 1) 1 = Rinv (Rminus 1 r)); ring. }
  rewrite q in h1.
  exact: (det_algebra r0 a0 h1).
Qed.

Lemma Kmx_qf n (r : R) (x : 'cV[R]_n) : let s := ((const_mx 1 : 'cV[R]_n)^T *m x) ord0 ord0 in
  qf (Kmx n r) x = Rplus (Rmult (Rminus 1 r) (nrm x)) (Rmult r (Rmult s s)).
Proof.
  set u : 'cV[R]_n := const_mx 1 => s.
  have -> : Kmx n r = (Rminus 1 r) *: 1%:M + r *: (u *m u^T).
  { apply/matrixP => i j; rewrite !mxE big_ord_recl big_ord0 addr0 !mxE; case: eqP => _; rewrite ?mulr1n ?mulr0n; real_eq.
    - change (IZR 1 = Rplus (Rmult (Rminus 1 r) 1) (Rmult r (Rmult 1 1))); ring.
    - change (r = Rplus (Rmult (Rminus 1 r) 0) (Rmult r (Rmult 1 1))); ring. }
  rewrite qf_add !qf_scale; congr Rplus; congr Rmult.
  rewrite /qf mulmxA -[x^T *m u *m u^T *m x]mulmxA mxE big_ord_recl big_ord0 addr0.
  have -> : (x^T *m u) ord0 ord0 = s.
  { by rewrite -[x^T *m u]trmxK trmx_mul trmxK mxE. }
  reflexivity.
Qed.

Lemma nrm_ones n : nrm (const_mx 1 : 'cV[R]_n) = INR n.
Proof.
  rewrite nrmE -[RHS]Rmult_1_r -sum_const_R; apply: eq_bigr => i _.
  by rewrite !mxE; real_eq; change (Rmult 1 1 = IZR 1); ring.
Qed.

Lemma Kmx_pos n (r : R) : Rlt r 1 -> Rlt (-1) (Rmult (Rminus (INR n) 1) r) -> posdef (Kmx n r).
Proof.
  move=> r1 rm; split.
  { by apply/matrixP => i j; rewrite !mxE eq_sym. }
  move=> x nz; have np := nrm_pos nz.
  rewrite Kmx_qf; set u : 'cV[R]_n := const_mx 1.
  have cs := @cauchy_schwarz_qf n 1%:M u x (posdef_1 n).
  rewrite mulmx1 -/(nrm x) -/(nrm u) nrm_ones in cs.
  move: cs np; set s := (u^T *m x) ord0 ord0; set N := nrm x => cs np.
  have s0 : Rle 0 (Rmult s s) by exact: Rle_0_sqr.
  case: (Rle_dec 0 r) => hr.
  - apply: Rplus_lt_le_0_compat; [apply: Rmult_lt_0_compat => //; lra | exact: Rmult_le_pos].
  - have : Rle (Rmult r (Rmult (INR n) N)) (Rmult r (Rmult s s)) by apply: Rmult_le_compat_neg_l => //; lra.
    have : Rlt 0 (Rmult (Rplus (Rminus 1 r) (Rmult r (INR n))) N) by apply: Rmult_lt_0_compat => //; lra.
    lra.
Qed.

Lemma qf_delta n (A : 'M[R]_n) (i j : 'I_n) : ((delta_mx i ord0 : 'cV[R]_n)^T *m A *m (delta_mx j ord0 : 'cV[R]_n)) ord0 ord0 = A i j.
Proof. by rewrite -mulmxA trmx_delta -rowE -colE !mxE. Qed.

Lemma Kmx_only n (r : R) : (1 < n)%N -> posdef (Kmx n r) -> Rlt r 1 /\ Rlt (-1) (Rmult (Rminus (INR n) 1) r).
Proof.
  move=> n1 pd; have [s p] := pd; split.
  - have h0 : (0 < n)%N by apply: ltn_trans n1.
    set i := Ordinal h0; set j := Ordinal n1.
    have ij : (i == j) = false by [].
    have nz : (delta_mx i ord0 : 'cV[R]_n) + Ropp 1 *: (delta_mx j ord0 : 'cV[R]_n) != 0.
    { apply/eqP => /(congr1 (fun M : 'cV[R]_n => M i ord0)); rewrite !mxE eqxx ij /= mulr0 addr0; exact: R1_neq_R0. }
    have := p _ nz; rewrite (qf_line s) /qf !qf_delta !mxE !eqxx ij; lra.
  - have nz : (const_mx 1 : 'cV[R]_n) != 0.
    { apply/eqP => h; have := nrm_ones n; rewrite h nrmE big1 => [e|i _]; last by rewrite mxE mul0r.
      move/ltP: (n1) => q0; have q := lt_INR _ _ q0; rewrite -e in q; have q' : Rlt 1 0 by exact: q. lra. }
    have := p _ nz; rewrite Kmx_qf nrm_ones.
    have -> : ((const_mx 1 : 'cV[R]_n)^T *m (const_mx 1 : 'cV[R]_n)) ord0 ord0 = INR n.
    { rewrite -(nrm_ones n) /nrm /qf mulmx1; reflexivity. }
    move/ltP: (n1) => q0; have := lt_INR _ _ q0; change (INR 1) with R1; set N := INR n => hN h.
    have : Rlt 0 (Rmult N (Rplus 1 (Rmult (Rminus N 1) r))) by lra.
    move=> h2; have : Rlt 0 (Rplus 1 (Rmult (Rminus N 1) r)); last lra.
    apply: (Rmult_lt_reg_l N); lra.
Qed.

Lemma constant_Kmx n r C : has_entries n C (constant_off r) -> to_mx n n C = Kmx n r.
Proof.
  move=> [_ h]; apply/matrixP => i j; rewrite !mxE h; try (apply/ltP; exact: ltn_ord).
  rewrite /constant_off -(inj_eq val_inj) /=; by case: (PeanoNat.Nat.eqb_spec i j) => [->|e]; [rewrite eqxx | case: eqP].
Qed.

Lemma Kmx_ul m n r : ulsubmx (Kmx (m + n) r) = Kmx m r.
Proof. by apply/matrixP => i j; rewrite !mxE (inj_eq (@lshift_inj _ _)). Qed.
Lemma Kmx_dr m n r : drsubmx (Kmx (m + n) r) = Kmx n r.
Proof. by apply/matrixP => i j; rewrite !mxE (inj_eq (@rshift_inj _ _)). Qed.

Lemma ratio_algebra (r d1 d2 d3 P Q M N L : R) : P <> R0 -> Q <> R0 -> Rminus 1 r <> R0 -> Rplus 1 (Rmult (Rminus L 1) r) <> R0 ->
  Rmult d1 (Rminus 1 r) = Rmult P (Rplus 1 (Rmult (Rminus M 1) r)) ->
  Rmult d2 (Rminus 1 r) = Rmult Q (Rplus 1 (Rmult (Rminus N 1) r)) ->
  Rmult d3 (Rminus 1 r) = Rmult (Rmult P Q) (Rplus 1 (Rmult (Rminus L 1) r)) ->
  Rdiv (Rmult d1 d2) d3 = Rdiv (Rmult (Rplus 1 (Rmult (Rminus M 1) r)) (Rplus 1 (Rmult (Rminus N 1) r)))
    (Rmult (Rminus 1 r) (Rplus 1 (Rmult (Rminus L 1) r))).
Proof.
  move=> p0 q0 a0 c0 e1 e2 e3.
  have -> : d1 = Rdiv (Rmult P (Rplus 1 (Rmult (Rminus M 1) r))) (Rminus 1 r) by rewrite -e1; field.
  have -> : d2 = Rdiv (Rmult Q (Rplus 1 (Rmult (Rminus N 1) r))) (Rminus 1 r) by rewrite -e2; field.
  have -> : d3 = Rdiv (Rmult (Rmult P Q) (Rplus 1 (Rmult (Rminus L 1) r))) (Rminus 1 r) by rewrite -e3; field.
  field; repeat split=> //.
Qed.

Lemma dense_value m n (r : R) : (0 < m)%N -> (0 < n)%N -> Rlt r 1 -> Rlt (-1) (Rmult (Rminus (INR (m + n)) 1) r) ->
  gaussian_mi (Kmx (m + n) r) = dense_mi m n r.
Proof.
  move=> m0 n0 r1 rm; rewrite /gaussian_mi Kmx_ul Kmx_dr /dense_mi; congr (Rmult _ (ln _)).
  have r1' : r <> IZR 1 by move=> h; move: r1; rewrite h; exact: Rlt_irrefl.
  have e1 := Kmx_det m r1'; have e2 := Kmx_det n r1'; have e3 := Kmx_det (m + n) r1'.
  rewrite -plusE pow_add in e3; rewrite -plusE in rm *.
  have p1 : Rlt 0 (pow (Rminus 1 r) m) by apply: pow_lt; lra.
  have p2 : Rlt 0 (pow (Rminus 1 r) n) by apply: pow_lt; lra.
  apply: (ratio_algebra _ _ _ _ e1 e2 e3); try (apply: Rgt_not_eq; assumption); lra.
Qed.

(** ** Correlated pairs *)

Section Paired.
  Variables (m n k : nat) (r : R) (C : UtilsModel.matrix).
  Hypotheses (km : (k <= m)%N) (kn : (k <= n)%N) (HC : has_entries (m + n) C (paired_off m k r)).
  Let S := sigma m n C.
  Let B : 'M[R]_(m, n) := \matrix_(i, j) if (i == j :> nat) && (i < k)%N then r else R0.

  Lemma paired_blocks : [/\ ulsubmx S = 1%:M, ursubmx S = B, dlsubmx S = B^T & drsubmx S = 1%:M].
  Proof.
    move/leP: (km) => km'; move/leP: (kn) => kn'.
    split; apply/matrixP => i j; rewrite !mxE (proj2 HC); try (apply/ltP; exact: ltn_ord);
      have /ltP hi := ltn_ord i; have /ltP hj := ltn_ord j; rewrite /paired_off /= -?plusE -?(inj_eq val_inj) /=.
    all: repeat match goal with
         | |- context [PeanoNat.Nat.eqb ?a ?b] => case: (PeanoNat.Nat.eqb_spec a b) => ? //=
         | |- context [PeanoNat.Nat.ltb ?a ?b] => case: (PeanoNat.Nat.ltb_spec a b) => ? //=
         | |- context [eqtype.eq_op ?a ?b] => case: (@eqP _ a b) => ? //=
         | |- context [leq ?a ?b] => case: (@leP a b) => ? //=
         end; exfalso; nlia.
  Qed.

  Lemma prod_first (a : R) (N : nat) : (k <= N)%N -> \prod_(j < N) (if (j < k)%N then a else R1) = pow a k.
  Proof.
    move=> h; rewrite pow_exp.
    have -> : \prod_(j < N) (if (j < k)%N then a else R1) = \prod_(j < N | (j < k)%N) a by rewrite [RHS]big_mkcond.
    rewrite (big_ord_narrow h); by rewrite prodr_const card_ord.
  Qed.

  Lemma paired_det : \det S = pow (Rminus 1 (pow r 2)) k.
  Proof.
    have [e1 e2 e3 e4] := paired_blocks.
    rewrite -(submxK S) e1 e2 e3 e4 (det_schur _ _ (unitmx1 _ _)) det1 /schur invmx1 mulmx1.
    have -> : 1%:M - B^T *m B = diag_mx (\row_(j < n) (if (j < k)%N then Rminus 1 (pow r 2) else R1)).
    { apply/matrixP => i j; rewrite !mxE.
      case: (ltnP i k) => hi.
      - have him : (i < m)%N by apply: leq_trans hi km.
        rewrite (bigD1 (Ordinal him)) //= big1 ?addr0 => [|l li]; last first.
        { rewrite !mxE; case: eqP => e; last by rewrite mul0r.
          case/eqP: li; exact/val_inj. }
        rewrite !mxE /= eqxx hi /=; case: (eqVneq i j) => [<-|ij].
        + rewrite eqxx mulr1n /=; real_eq; change (Rplus 1 (Ropp (Rmult r r)) = Rminus 1 (Rmult r (Rmult r 1))); ring.
        + rewrite (inj_eq val_inj) (negbTE ij) /= mulr0 subr0 mulr0n //.
      - rewrite big1 ?subr0 => [|l _]; last first.
        { rewrite !mxE; case: eqP => e; last by rewrite mul0r.
          by rewrite e ltnNge hi /= mul0r. }
        by case: (eqVneq i j) => ij; rewrite ?mulr1n ?mulr0n. }
    rewrite det_diag -(prod_first _ kn); rewrite Rmult_1_l; apply: eq_bigr => j _; by rewrite mxE.
  Qed.

  Lemma paired_value : Rlt (Rabs r) 1 -> gaussian_mi S = paired_mi k r.
  Proof.
    move=> /Rabs_def2 [r1 r2]; have [e1 _ _ e4] := paired_blocks; rewrite /gaussian_mi e1 e4 !det1 paired_det.
    have p : Rlt 0 (Rminus 1 (pow r 2)) by rewrite /=; nra.
    rewrite Rmult_1_l ln_divide; [|exact: Rlt_0_1|exact: pow_lt].
    rewrite ln_1 ln_pow // /paired_mi; real_eq; field.
  Qed.
End Paired.

(** ** Samplers *)

Section Samplers.
  Variable eigvals : UtilsModel.matrix -> list (R * R).
  Hypothesis He : eigvals_positive eigvals.
  Variables (J : prng) (mvn : key J -> list R -> UtilsModel.matrix -> nat -> UtilsModel.matrix).
  Variables (psi log_gamma : R -> R) (mvt : Z -> list R -> UtilsModel.matrix -> fl -> nat -> UtilsModel.matrix).

  Lemma normal_built dx dy C f : (1 <= dx)%Z -> (1 <= dy)%Z ->
    has_entries (Z.to_nat dx + Z.to_nat dy) C f -> posdef (sigma (Z.to_nat dx) (Z.to_nat dy) C) ->
    exists s, multinormal_sampler eigvals mvn dx dy C = Ok s /\ dim_x s = Ok dx /\ dim_y s = Ok dy /\
      mutual_information s = Ok (Fin (gaussian_mi (sigma (Z.to_nat dx) (Z.to_nat dy) C))) /\
      Rle 0 (gaussian_mi (sigma (Z.to_nat dx) (Z.to_nat dy) C)) /\
      normal_pairs mvn (Z.to_nat dx) (Z.to_nat dy) f s.
  Proof.
    move=> hx hy sh pd; have ex : dx = Z.of_nat (Z.to_nat dx) by lia. have ey : dy = Z.of_nat (Z.to_nat dy) by lia.
    have m0 : (0 < Z.to_nat dx)%N by apply/ltP; lia. have n0 : (0 < Z.to_nat dy)%N by apply/ltP; lia.
    have [i _] := @gaussian_ok _ He _ _ C None m0 n0 (proj1 sh) I pd.
    have [g _] := gaussian_mi_nonneg pd.
    have mi := mi_clamped i (det_posdef pd) (det_posdef (posdef_ul pd)) (det_posdef (posdef_dr pd)).
    rewrite Rmax_right // in mi.
    rewrite -ex -ey in i; rewrite /multinormal_sampler i /=; eexists; split; first reflexivity.
    split; first by rewrite /= -ex. split; first by rewrite /= -ey.
    split; first by rewrite /= mi. split=> //.
    exists C; split=> // n rng; reflexivity.
  Qed.

  Lemma student_built dx dy df C f : (1 <= dx)%Z -> (1 <= dy)%Z -> (1 <= df)%Z ->
    (forall r mu D df k, List.length (mvt r mu D df k) = k) ->
    has_entries (Z.to_nat dx + Z.to_nat dy) C f -> posdef (sigma (Z.to_nat dx) (Z.to_nat dy) C) ->
    exists s, @student_sampler J eigvals psi log_gamma mvt dx dy df C = Ok s /\ dim_x s = Ok dx /\ dim_y s = Ok dy /\
      mutual_information s = Ok (Fin (Rplus (gaussian_mi (sigma (Z.to_nat dx) (Z.to_nat dy) C))
                                            (student_correction psi log_gamma (IZR df) (Z.to_nat dx) (Z.to_nat dy)))) /\
      student_pairs mvt (Z.to_nat dx) (Z.to_nat dy) df f s.
  Proof.
    move=> hx hy hd hm sh pd; have ex : dx = Z.of_nat (Z.to_nat dx) by lia. have ey : dy = Z.of_nat (Z.to_nat dy) by lia.
    have m0 : (0 < Z.to_nat dx)%N by apply/ltP; lia. have n0 : (0 < Z.to_nat dy)%N by apply/ltP; lia.
    have d0 : Rlt 0 (IZR df) by apply: IZR_lt; lia.
    have [i _] := @gaussian_ok _ He _ _ C None m0 n0 (proj1 sh) I pd.
    have [g _] := gaussian_mi_nonneg pd.
    have mi := mi_clamped i (det_posdef pd) (det_posdef (posdef_ul pd)) (det_posdef (posdef_dr pd)).
    rewrite Rmax_right // in mi.
    rewrite -ex -ey in i.
    have [st es] : exists st, split_student_init eigvals dx dy (Fin (IZR df)) C None = Ok st.
    { apply/student_accepts; split=> //; by eexists; exact: i. }
    have [_ ms] := student_same_normal psi log_gamma es i.
    have [s' [i' _ est]] := proj1 (student_init_ok _ _ _ _ _ _ _) es.
    rewrite i in i'; case: i' => es'.
    rewrite /student_sampler es /=; eexists; split; first reflexivity.
    split; first by rewrite /= est -es' /= -ex. split; first by rewrite /= est -es' /= -ey.
    split; first by rewrite /= ms mi correction_value.
    exists C; split=> // n seed n1; cbn [sample split_student_sampler].
    rewrite student_sample_many // est -es'; reflexivity.
  Qed.

  (** *** The covariances *)
  Lemma dense_entries n r : has_entries n (constant_correlation (Z.of_nat n) r) (constant_off r).
  Proof.
    have [sh en] := constant_shape n r; split=> // i j hi hj; rewrite en // /constant_off.
    case: (PeanoNat.Nat.eqb _ _); real_eq; ring.
  Qed.
  Lemma identity_entries n : has_entries n (np_eye n) (constant_off R0).
  Proof. have [sh en] := np_eye_entries n; split=> // i j hi hj; by rewrite en. Qed.

  Definition shared (dx dy k : nat) (alpha lambd beta eta : R) : lvm :=
    {| lv_dim_x := dx; lv_dim_y := dy; lv_n_interacting := k; lv_alpha := alpha; lv_lambd := lambd;
       lv_epsilon_x := 1; lv_epsilon_y := 1; lv_beta_x := beta; lv_beta_y := beta; lv_eta_x := eta; lv_eta_y := eta |}.

  Lemma shared_entries dx dy k alpha lambd beta eta i j : (k <= dx)%coq_nat -> (k <= dy)%coq_nat ->
    (i < dx + dy)%coq_nat -> (j < dx + dy)%coq_nat ->
    cov_entry (shared dx dy k alpha lambd beta eta) i j = latent_cov dx k alpha lambd beta eta i j.
  Proof.
    move=> h1 h2 hi hj; unfold cov_entry, latent_cov, shared; cbn [lv_dim_x lv_dim_y lv_n_interacting lv_alpha lv_lambd lv_epsilon_x lv_epsilon_y lv_beta_x lv_beta_y lv_eta_x lv_eta_y].
    case: (PeanoNat.Nat.ltb_spec i dx) => h3; case: (PeanoNat.Nat.ltb_spec j dx) => h4; cbn [Bool.eqb].
    all: repeat match goal with
         | |- context [PeanoNat.Nat.eqb ?a ?b] => destruct (PeanoNat.Nat.eqb_spec a b); cbn [andb negb]
         | |- context [PeanoNat.Nat.ltb ?a ?b] => destruct (PeanoNat.Nat.ltb_spec a b); cbn [andb negb]
         end; first [exfalso; lia | ring].
  Qed.

  Lemma latent_correlation dx dy k alpha lambd beta eta : (k <= dx)%coq_nat -> (k <= dy)%coq_nat ->
    exists C0 C, has_entries (dx + dy) C0 (latent_cov dx k alpha lambd beta eta) /\
      lvm_correlation_matrix (shared dx dy k alpha lambd beta eta) = Ok C /\
      has_entries (dx + dy) C (normalised (latent_cov dx k alpha lambd beta eta)) /\
      posdef (sigma dx dy C) /\ gaussian_mi (sigma dx dy C) = gaussian_mi (sigma dx dy C0).
  Proof.
    move=> h1 h2; set p := shared _ _ _ _ _ _ _.
    have v : valid_lvm p by [].
    have [C0 [e0 hc0]] := covariance_entries p v.
    have [C [ek [sh [pd g]]]] := @lvm_correlation p C0 v e0 R1_neq_R0 R1_neq_R0.
    have [_ hk] := correlation_entries p _ v ek.
    exists C0, C; split; last split; last split; last split=> //.
    - split; first exact: (proj1 hc0). move=> i j hi hj; rewrite (proj2 hc0) //; exact: shared_entries.
    - by rewrite /lvm_correlation_matrix ek /= finite_matrix_ok.
    - split=> // i j hi hj; have [li e] := hk i j hi hj; rewrite /normalised -(shared_entries alpha lambd beta eta h1 h2 hi hj) -(shared_entries alpha lambd beta eta h1 h2 hi hi)
        -(shared_entries alpha lambd beta eta h1 h2 hj hj) -/p.
      have [ln lr] := proj1 (shape_rows _ _ _) sh.
      rewrite (List.nth_indep _ nil (List.map Fin nil)) in e; last by rewrite List.map_length ln.
      rewrite List.map_nth (List.nth_indep _ NaN (Fin R0)) in e; last by rewrite List.map_length lr.
      rewrite (List.map_nth Fin) in e.
      have dpos : forall i, Rlt 0 (cov_entry p i i).
      { move=> l; rewrite cov_noise PeanoNat.Nat.eqb_refl; apply: Rplus_le_lt_0_compat; first exact: cov_diag_nonneg.
        case: (PeanoNat.Nat.ltb _ _); rewrite /=; lra. }
      rewrite np_div_value in e; first by case: e.
      apply: Rgt_not_eq; apply: sqrt_lt_R0; apply: Rmult_lt_0_compat; exact: dpos.
  Qed.

  (** Without the common variables only the interacting pairs are correlated. *)
  Lemma sparse_correlation dx dy k s i j : (k <= dx)%coq_nat -> (k <= dy)%coq_nat ->
    (i < dx + dy)%coq_nat -> (j < dx + dy)%coq_nat ->
    normalised (latent_cov dx k 0 s 0 s) i j = paired_off dx k (strength_correlation s) i j.
  Proof.
    move=> h1 h2 hi hj.
    have d : forall l, (l < dx + dy)%coq_nat -> latent_cov dx k 0 s 0 s l l = Rplus 1 (pow s 2).
    { move=> l hl; rewrite /latent_cov !PeanoNat.Nat.eqb_refl Bool.eqb_reflx; cbn [andb].
      case: (PeanoNat.Nat.ltb _ k); cbn [negb]; ring. }
    have p : Rlt 0 (Rplus 1 (pow s 2)) by have := pow2_ge_0 s; lra.
    rewrite /normalised !d // sqrt_square; last exact: Rlt_le.
    rewrite /paired_off /strength_correlation /latent_cov.
    have P : Rplus 1 (pow s 2) <> R0 by exact: Rgt_not_eq.
    case: (PeanoNat.Nat.ltb_spec i dx) => h3; case: (PeanoNat.Nat.ltb_spec j dx) => h4; cbn [Bool.eqb].
    all: repeat match goal with
         | |- context [PeanoNat.Nat.eqb ?a ?b] => destruct (PeanoNat.Nat.eqb_spec a b); cbn [andb negb orb]
         | |- context [PeanoNat.Nat.ltb ?a ?b] => destruct (PeanoNat.Nat.ltb_spec a b); cbn [andb negb orb]
         end; first [exfalso; lia | move: P; move: (pow s 2) => q P; field; exact: P].
  Qed.

  Lemma strength_below_one s : Rlt (Rabs (strength_correlation s)) 1.
  Proof.
    have q := pow2_ge_0 s; rewrite /strength_correlation; move: q; move: (pow s 2) => q h.
    have i0 : Rlt 0 (Rinv (Rplus 1 q)) by apply: Rinv_0_lt_compat; lra.
    rewrite Rabs_pos_eq; last by apply: Rmult_le_pos; lra.
    apply: (Rmult_lt_reg_r (Rplus 1 q)); first lra.
    have -> : Rmult (Rdiv q (Rplus 1 q)) (Rplus 1 q) = q by field; lra. lra.
  Qed.

  Lemma dense_posdef dx dy r C : has_entries (dx + dy) C (constant_off r) ->
    Rlt r 1 -> Rlt (-1) (Rmult (Rminus (INR (dx + dy)) 1) r) -> posdef (sigma dx dy C).
  Proof. move=> h r1 r2; rewrite /sigma (constant_Kmx h); exact: Kmx_pos. Qed.
  Lemma dense_gaussian dx dy r C : (0 < dx)%coq_nat -> (0 < dy)%coq_nat -> has_entries (dx + dy) C (constant_off r) ->
    Rlt r 1 -> Rlt (-1) (Rmult (Rminus (INR (dx + dy)) 1) r) -> gaussian_mi (sigma dx dy C) = dense_mi dx dy r.
  Proof. move=> /ltP h1 /ltP h2 h r1 r2; rewrite /sigma (constant_Kmx h); exact: dense_value. Qed.
  Lemma paired_gaussian dx dy k r C : (k <= dx)%coq_nat -> (k <= dy)%coq_nat -> has_entries (dx + dy) C (paired_off dx k r) ->
    Rlt (Rabs r) 1 -> gaussian_mi (sigma dx dy C) = paired_mi k r.
  Proof. move=> /leP h1 /leP h2 h r1; exact: paired_value. Qed.

  Lemma dense_rejected dx dy r : (1 <= dx)%Z -> (1 <= dy)%Z ->
    (let C := constant_correlation (dx + dy) r in eigvals_ok (Z.to_nat dx + Z.to_nat dy) C (eigvals C)) ->
    (Rle 1 r \/ Rle (Rmult (Rminus (IZR (dx + dy)) 1) r) (-1)) ->
    multinormal_sampler eigvals mvn dx dy (constant_correlation (dx + dy) r) = Err ValueError /\
    forall df, @student_sampler J eigvals psi log_gamma mvt dx dy df (constant_correlation (dx + dy) r) = Err ValueError.
  Proof.
    move=> hx hy; have e : (dx + dy)%Z = Z.of_nat (Z.to_nat dx + Z.to_nat dy)%N by rewrite -plusE; lia.
    rewrite e -INR_IZR_INZ; set a := Z.to_nat dx; set b := Z.to_nat dy => /= ok bad.
    set C := constant_correlation _ r in ok *.
    have hC : has_entries (a + b) C (constant_off r) by exact: dense_entries.
    have no : split_multinormal_init eigvals dx dy C None = Err ValueError.
    { case i: (split_multinormal_init eigvals dx dy C None) => [s|x]; last by rewrite (split_init_errors i).
      exfalso; have [m' [n' [e1 e2 _ _ [_ sh [c _] _ _]]]] := proj1 (split_init_ok _ _ _ _ _ _) i.
      have ab : (1 < a + b)%N by apply/ltP; rewrite -plusE /a /b; lia.
      have sym : (to_mx (a + b) (a + b) C)^T = to_mx (a + b) (a + b) C.
      { by rewrite (constant_Kmx hC); apply/matrixP => u v; rewrite !mxE eq_sym. }
      have pd := proj1 (accepted_symmetric (proj1 hC) (ltnW ab) ok sym) c.
      rewrite (constant_Kmx hC) in pd; have [r1 r2] := Kmx_only ab pd; lra. }
    split; first by rewrite /multinormal_sampler no.
    move=> df; rewrite /student_sampler.
    case i: (split_student_init _ _ _ _ _ _) => [st|x].
    - by have [s [i' _ _]] := proj1 (student_init_ok _ _ _ _ _ _ _) i; rewrite no in i'.
    - rewrite /=; move: i; rewrite /split_student_init; case b1: (base_sampler_init dx dy) => [[u v]|y] /=.
      + have : split_multinormal_init eigvals dx dy C (Some (List.repeat R0 (Z.to_nat u + Z.to_nat v)%coq_nat)) = Err ValueError.
        { move: no; rewrite /split_multinormal_init b1 /=; done. }
        by move=> ->; case=> <-.
      + by move: b1; rewrite /base_sampler_init /validate_dimensions; case: (Z.ltb_spec dx 1) => ?; [lia|]; case: (Z.ltb_spec dy 1) => ?; [lia|].
  Qed.

  (** *** The samplers of the tasks *)
  Definition sound (s : sampler J) (dx dy : Z) (mi : R) (P : sampler J -> Prop) : Prop :=
    dim_x s = Ok dx /\ dim_y s = Ok dy /\ mutual_information s = Ok (Fin mi) /\ P s.

  Lemma binormal_built rho : Rlt (-1) rho -> Rlt rho 1 ->
    exists s r, bivariate_normal_sampler eigvals J mvn rho 1 1 0 0 = Ok (s, r) /\ Rle 0 (paired_mi 1 rho) /\
      sound s 1 1 (paired_mi 1 rho) (normal_pairs mvn 1 1 (constant_off rho)).
  Proof.
    move=> h1 h2; have pd := bivariate_posdef Rlt_0_1 Rlt_0_1 h1 h2.
    have [i _] := @gaussian_ok _ He 1 1 (bivariate_cov rho 1 1) (Some [:: R0; R0]) isT isT erefl erefl pd.
    rewrite /bivariate_normal_sampler /=; rewrite /Rleb /Rltb.
    case: (Rle_dec (Rmin 1 1) 0) => h0 /=.
    { exfalso; move: h0; rewrite /Rmin; case: (Rle_dec 1 1) => ? ?; lra. }
    case: (Rlt_dec (-1) rho) => // _; case: (Rlt_dec rho 1) => // _ /=.
    rewrite -[[:: [:: Rmult 1 _; _]; _]]/(bivariate_cov rho 1 1) i /=.
    have p : Rlt 0 (Rminus 1 (Rmult rho (Rmult rho 1))) by nra.
    have v : paired_mi 1 rho = Rmult (Ropp (Rdiv 1 2)) (ln (Rminus 1 (Rmult rho (Rmult rho 1)))) by rewrite /paired_mi /= Rmult_1_r.
    do 2 eexists; split; first reflexivity; split; last split=> //=; last split=> //=; last split=> //=.
    - have : Rle (ln (Rminus 1 (Rmult rho (Rmult rho 1)))) 0.
      { have q : Rle (Rminus 1 (Rmult rho (Rmult rho 1))) 1 by nra.
        case: (Rle_lt_or_eq_dec _ _ q) => [q'|->]; last by rewrite ln_1; exact: Rle_refl.
        by rewrite -ln_1; apply: Rlt_le; apply: ln_increasing. }
      rewrite v => h; nra.
    - by rewrite np_log_pos // v.
    - exists (bivariate_cov rho 1 1); split; last by move=> n rng; reflexivity.
      split=> // [[|[|u]]] [|[|w]] hu hw; try (exfalso; lia); cbv [constant_off entry bivariate_cov List.nth PeanoNat.Nat.eqb]; real_eq; ring.
  Qed.

  Lemma dense_normal dx dy r : (1 <= dx)%Z -> (1 <= dy)%Z -> Rlt r 1 -> Rlt (-1) (Rmult (Rminus (IZR (dx + dy)) 1) r) ->
    exists s, multinormal_sampler eigvals mvn dx dy (constant_correlation (dx + dy) r) = Ok s /\
      Rle 0 (dense_mi (Z.to_nat dx) (Z.to_nat dy) r) /\
      sound s dx dy (dense_mi (Z.to_nat dx) (Z.to_nat dy) r) (normal_pairs mvn (Z.to_nat dx) (Z.to_nat dy) (constant_off r)).
  Proof.
    move=> hx hy r1; have e : (dx + dy)%Z = Z.of_nat (Z.to_nat dx + Z.to_nat dy)%N by rewrite -plusE; lia.
    rewrite {1 2}e -INR_IZR_INZ => r2.
    have hC := dense_entries (Z.to_nat dx + Z.to_nat dy) r.
    have [s [es [ex [ey [mi [p b]]]]]] := normal_built hx hy hC (dense_posdef hC r1 r2).
    rewrite (dense_gaussian _ _ hC r1 r2) in mi p; [|lia|lia].
    by exists s; do ! split.
  Qed.
  Lemma dense_student dx dy df r : (1 <= dx)%Z -> (1 <= dy)%Z -> (1 <= df)%Z ->
    (forall r mu D df k, List.length (mvt r mu D df k) = k) ->
    Rlt r 1 -> Rlt (-1) (Rmult (Rminus (IZR (dx + dy)) 1) r) ->
    exists s, @student_sampler J eigvals psi log_gamma mvt dx dy df (constant_correlation (dx + dy) r) = Ok s /\
      sound s dx dy (Rplus (dense_mi (Z.to_nat dx) (Z.to_nat dy) r) (student_correction psi log_gamma (IZR df) (Z.to_nat dx) (Z.to_nat dy)))
        (student_pairs mvt (Z.to_nat dx) (Z.to_nat dy) df (constant_off r)).
  Proof.
    move=> hx hy hd hm r1; have e : (dx + dy)%Z = Z.of_nat (Z.to_nat dx + Z.to_nat dy)%N by rewrite -plusE; lia.
    rewrite {1 2}e -INR_IZR_INZ => r2.
    have hC := dense_entries (Z.to_nat dx + Z.to_nat dy) r.
    have [s [es [ex [ey [mi b]]]]] := student_built hx hy hd hm hC (dense_posdef hC r1 r2).
    rewrite (dense_gaussian _ _ hC r1 r2) in mi; [|lia|lia].
    by exists s; do ! split.
  Qed.
  Lemma identity_student dx dy df : (1 <= dx)%Z -> (1 <= dy)%Z -> (1 <= df)%Z ->
    (forall r mu D df k, List.length (mvt r mu D df k) = k) ->
    exists s, @student_sampler J eigvals psi log_gamma mvt dx dy df (np_eye (Z.to_nat (dx + dy))) = Ok s /\
      sound s dx dy (student_correction psi log_gamma (IZR df) (Z.to_nat dx) (Z.to_nat dy))
        (student_pairs mvt (Z.to_nat dx) (Z.to_nat dy) df (constant_off 0)).
  Proof.
    move=> hx hy hd hm; have -> : Z.to_nat (dx + dy) = (Z.to_nat dx + Z.to_nat dy)%N by rewrite -plusE; lia.
    have hC := identity_entries (Z.to_nat dx + Z.to_nat dy).
    have r1 : Rlt R0 1 by lra. have r2 : Rlt (-1) (Rmult (Rminus (INR (Z.to_nat dx + Z.to_nat dy)) 1) R0) by lra.
    have [s [es [ex [ey [mi b]]]]] := student_built hx hy hd hm hC (dense_posdef hC r1 r2).
    rewrite (dense_gaussian _ _ hC r1 r2) in mi; [|lia|lia].
    have z : dense_mi (Z.to_nat dx) (Z.to_nat dy) R0 = R0.
    { rewrite /dense_mi !Rmult_0_r Rplus_0_r Rminus_0_r !Rmult_1_r /Rdiv Rinv_1 Rmult_1_r ln_1; ring. }
    rewrite z Rplus_0_l in mi.
    by exists s; do ! split.
  Qed.

  Lemma lvm_parameters_ok dx dy k alpha lambd beta eta : (0 <= k)%Z -> (k <= dx)%Z -> (k <= dy)%Z ->
    lvm_parameters dx dy k alpha lambd beta eta = Ok (shared (Z.to_nat dx) (Z.to_nat dy) (Z.to_nat k) alpha lambd beta eta).
  Proof.
    move=> h0 h1 h2; rewrite /lvm_parameters /lvm_init.
    case: (Z.leb_spec 0 k) => ?; last lia. case: (Z.leb_spec k (Z.min dx dy)) => ?; last lia. reflexivity.
  Qed.

  Lemma latent_normal dx dy k alpha lambd beta eta : (1 <= dx)%Z -> (1 <= dy)%Z -> (0 <= k)%Z -> (k <= dx)%Z -> (k <= dy)%Z ->
    let a := Z.to_nat dx in let b := Z.to_nat dy in
    exists C0 C s, has_entries (a + b) C0 (latent_cov a (Z.to_nat k) alpha lambd beta eta) /\
      lvm_correlation_matrix (shared a b (Z.to_nat k) alpha lambd beta eta) = Ok C /\
      multinormal_sampler eigvals mvn dx dy C = Ok s /\ Rle 0 (gaussian_mi (sigma a b C0)) /\
      sound s dx dy (gaussian_mi (sigma a b C0)) (normal_pairs mvn a b (normalised (latent_cov a (Z.to_nat k) alpha lambd beta eta))).
  Proof.
    move=> hx hy h0 h1 h2 a b.
    have [C0 [C [e0 [e [hC [pd g]]]]]] := @latent_correlation a b (Z.to_nat k) alpha lambd beta eta ltac:(rewrite /a; lia) ltac:(rewrite /b; lia).
    have [s [es [ex [ey [mi [p bb]]]]]] := normal_built hx hy hC pd.
    rewrite -/a -/b g in mi p.
    exists C0, C, s; by do 4 (split; first by []); do 3 (split; first by []) => //.
  Qed.

  Lemma entries_ext n C f g : has_entries n C f -> (forall i j, (i < n)%coq_nat -> (j < n)%coq_nat -> f i j = g i j) -> has_entries n C g.
  Proof. move=> [sh en] h; split=> // i j hi hj; by rewrite en // h. Qed.

  Lemma sparse_entries dx dy k s : (0 <= k)%Z -> (k <= dx)%Z -> (k <= dy)%Z ->
    let a := Z.to_nat dx in let b := Z.to_nat dy in
    exists C, lvm_correlation_matrix (shared a b (Z.to_nat k) 0 s 0 s) = Ok C /\
      has_entries (a + b) C (paired_off a (Z.to_nat k) (strength_correlation s)) /\ posdef (sigma a b C) /\
      gaussian_mi (sigma a b C) = paired_mi (Z.to_nat k) (strength_correlation s).
  Proof.
    move=> h0 h1 h2 a b.
    have ka : (Z.to_nat k <= a)%coq_nat by rewrite /a; lia. have kb : (Z.to_nat k <= b)%coq_nat by rewrite /b; lia.
    have [C0 [C [e0 [e [hC [pd g]]]]]] := @latent_correlation a b (Z.to_nat k) R0 s R0 s ka kb.
    have hC' : has_entries (a + b) C (paired_off a (Z.to_nat k) (strength_correlation s)).
    { apply: (entries_ext hC) => i j hi hj; exact: (@sparse_correlation a b). }
    exists C; do ! split=> //. exact: (paired_gaussian ka kb hC' (strength_below_one s)).
  Qed.

  Lemma sparse_normal dx dy k st : (1 <= dx)%Z -> (1 <= dy)%Z -> (0 <= k)%Z -> (k <= dx)%Z -> (k <= dy)%Z ->
    let a := Z.to_nat dx in let b := Z.to_nat dy in
    exists C s, lvm_correlation_matrix (shared a b (Z.to_nat k) 0 st 0 st) = Ok C /\
      multinormal_sampler eigvals mvn dx dy C = Ok s /\ Rle 0 (paired_mi (Z.to_nat k) (strength_correlation st)) /\
      sound s dx dy (paired_mi (Z.to_nat k) (strength_correlation st)) (normal_pairs mvn a b (paired_off a (Z.to_nat k) (strength_correlation st))).
  Proof.
    move=> hx hy h0 h1 h2 a b. have [C [e [hC [pd g]]]] := @sparse_entries dx dy k st h0 h1 h2.
    have [s [es [ex [ey [mi [p bb]]]]]] := normal_built hx hy hC pd. rewrite g in mi p.
    by exists C, s; do ! split.
  Qed.
  Lemma sparse_student dx dy df k st : (1 <= dx)%Z -> (1 <= dy)%Z -> (1 <= df)%Z -> (0 <= k)%Z -> (k <= dx)%Z -> (k <= dy)%Z ->
    (forall r mu D df k, List.length (mvt r mu D df k) = k) ->
    let a := Z.to_nat dx in let b := Z.to_nat dy in
    exists C s, lvm_correlation_matrix (shared a b (Z.to_nat k) 0 st 0 st) = Ok C /\
      @student_sampler J eigvals psi log_gamma mvt dx dy df C = Ok s /\
      sound s dx dy (Rplus (paired_mi (Z.to_nat k) (strength_correlation st)) (student_correction psi log_gamma (IZR df) a b))
        (student_pairs mvt a b df (paired_off a (Z.to_nat k) (strength_correlation st))).
  Proof.
    move=> hx hy hd h0 h1 h2 hm a b. have [C [e [hC [pd g]]]] := @sparse_entries dx dy k st h0 h1 h2.
    have [s [es [ex [ey [mi bb]]]]] := student_built hx hy hd hm hC pd. rewrite g in mi.
    by exists C, s; do ! split.
  Qed.
End Samplers.

Lemma dense_eigvals eigvals n r : MixturesSpec.eigvals_symmetric eigvals ->
  eigvals_ok n (constant_correlation (Z.of_nat n) r) (eigvals (constant_correlation (Z.of_nat n) r)).
Proof.
  move=> h; have hC := dense_entries n r; apply: h; first exact: (proj1 hC).
  by rewrite (constant_Kmx hC); apply/matrixP => u v; rewrite !mxE eq_sym.
Qed.

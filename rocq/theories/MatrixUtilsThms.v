(** Mutual information of normal variables with the covariances of _matrix_utils.py. *)
From Verif Require Import Base UtilsModel JaxModel SamplersModel GaussianModel BaseLemmas MatrixUtilsModel MatrixUtilsSpec MatrixUtilsProofs LvmProofs.
From mathcomp Require Import all_ssreflect ssralg matrix mxalgebra.
From Verif Require Import SamplersSpec RStruct PosDef MatrixBridge GaussianSpec GaussianProofs ExpectationProofs GaussianThms.
Set Implicit Arguments.
Unset Strict Implicit.
Unset Printing Implicit Defensive.
Import GRing.Theory.
Local Open Scope ring_scope.

Ltac nlia := repeat match goal with H : context [addn] |- _ => rewrite -plusE in H end; rewrite -?plusE; lia.

Lemma map_nth_seq (l : list R) : List.map (fun k => List.nth k l R0) (List.seq 0 (List.length l)) = l.
Proof. elim: l => //= a l IH; rewrite -List.seq_shift List.map_map IH. reflexivity. Qed.

Lemma posdef_from_schur m n (A : 'M[R]_(m + n)) : A^T = A -> posdef (ulsubmx A) ->
  posdef (schur (ulsubmx A) (ursubmx A) (drsubmx A)) -> posdef A.
Proof.
  move=> s pu ps; split=> // z; rewrite -(vsubmxK z); set w := usubmx z; set x := dsubmx z => nz.
  rewrite (qf_split _ _ s (posdef_unit pu)).
  case: (eqVneq x 0) => [e|nx].
  - have nw : w != 0.
    { apply: contraNN nz => /eqP ew; rewrite ew e; apply/eqP/matrixP => i j; rewrite !mxE.
      by case: (split i) => k; rewrite !mxE. }
    rewrite e mulmx0 addr0 qf0 Rplus_0_r; exact: (proj2 pu).
  - apply: Rplus_le_lt_0_compat; [exact: (proj2 (posdef_psd pu)) | exact: (proj2 ps)].
Qed.

Lemma exchangedK m n (S : 'M[R]_(m + n)) : exchanged (exchanged S) = S.
Proof. by rewrite /exchanged block_mxKul block_mxKur block_mxKdl block_mxKdr submxK. Qed.

Lemma posdef_diag n (d : 'rV[R]_n) : posdef (diag_mx d) <-> forall i, Rlt 0 (d ord0 i).
Proof.
  have q : forall x : 'cV[R]_n, qf (diag_mx d) x = \sum_i Rmult (d ord0 i) (Rmult (x i ord0) (x i ord0)).
  { move=> x; rewrite qf_sum; apply: eq_bigr => i _; rewrite (bigD1 i) //= big1 ?addr0.
    - by rewrite mxE eqxx mulr1n.
    - move=> j ji; rewrite mxE eq_sym (negbTE ji) mulr0n; exact: Rmult_0_l. }
  split.
  - move=> [_ p] i; have := p (delta_mx i ord0); rewrite q (bigD1 i) //= big1 ?addr0 ?mxE.
    + rewrite !eqxx /= => h; have : delta_mx i ord0 != 0 :> 'cV[R]_n.
      { apply/eqP => /(congr1 (fun M : 'cV[R]_n => M i ord0)); rewrite !mxE !eqxx; exact: R1_neq_R0. }
      move/h; change (1%:R : R) with (IZR 1); by rewrite !Rmult_1_r.
    + move=> j ji; rewrite mxE (negbTE ji) /=; change (0%:R : R) with (IZR 0); rewrite !Rmult_0_r; reflexivity.
  - move=> h; split; first by rewrite tr_diag_mx.
    move=> x nz; rewrite q.
    have [i hi] : exists i, x i ord0 <> 0.
    { case: (pickP (fun i => x i ord0 != 0)) => [i /eqP hi|none]; first by exists i.
      case/eqP: nz; apply/matrixP => i j; rewrite (ord1 j) [RHS]mxE; apply/eqP; by have := none i; case: eqP. }
    rewrite (bigD1 i) //=; apply: Rplus_lt_le_0_compat.
    + apply: Rmult_lt_0_compat; first exact: h. exact: Rsqr_pos_lt hi.
    + apply: (big_ind (fun v : R => Rle 0 v)); first exact: Rle_refl.
      * by move=> a b; exact: Rplus_le_le_0_compat.
      * move=> j _; apply: Rmult_le_pos; first exact: Rlt_le (h j). exact: Rle_0_sqr.
Qed.

Lemma ln_prod n (f : 'I_n -> R) : (forall i, Rlt 0 (f i)) ->
  Rlt 0 (\prod_i f i) /\ ln (\prod_i f i) = \sum_i ln (f i).
Proof.
  move=> h; apply: (big_ind2 (fun a b : R => Rlt 0 a /\ ln a = b)).
  - split; first exact: Rlt_0_1. exact: ln_1.
  - move=> a b c d [a0 <-] [c0 <-]; split; first exact: Rmult_lt_0_compat. exact: ln_mult.
  - by move=> i _.
Qed.

(** ** Canonical correlations *)

Section Canonical.
  Variable rho : list R.
  Variable extra : nat.
  Let m := List.length rho.
  Let n := (m + extra)%N.
  Variable C : UtilsModel.matrix.
  Hypothesis HC : has_entries (m + n) C (fun i j =>
      if PeanoNat.Nat.eqb i j then R1
      else if (PeanoNat.Nat.ltb i m && PeanoNat.Nat.eqb j (m + i))%bool then List.nth i rho R0
      else if (PeanoNat.Nat.ltb j m && PeanoNat.Nat.eqb i (m + j))%bool then List.nth j rho R0 else R0).

  Let S := sigma m n C.
  Let B : 'M[R]_(m, n) := \matrix_(i, j) if i == j :> nat then List.nth i rho R0 else R0.

  Lemma canonical_sym : S^T = S.
  Proof.
    apply/to_mx_sym => i j /ltP hi /ltP hj; rewrite !(proj2 HC) //.
    rewrite (PeanoNat.Nat.eqb_sym j i); case: (PeanoNat.Nat.eqb_spec i j) => // e.
    case: (PeanoNat.Nat.ltb_spec i m) => h1; case: (PeanoNat.Nat.ltb_spec j m) => h2 //=.
    case: (PeanoNat.Nat.eqb_spec j (m + i)) => h3; first nlia.
    case: (PeanoNat.Nat.eqb_spec i (m + j)) => h4 //; nlia.
  Qed.

  Lemma canonical_blocks : [/\ ulsubmx S = 1%:M, ursubmx S = B & drsubmx S = 1%:M].
  Proof.
    split; apply/matrixP => i j; rewrite !mxE (proj2 HC); try (apply/ltP; exact: ltn_ord).
    - rewrite /= -(inj_eq val_inj) /=; case: (PeanoNat.Nat.eqb_spec i j) => [->|h]; first by rewrite eqxx.
      have /ltP hi := ltn_ord i; have /ltP hj := ltn_ord j.
      case: eqP => // _; case: (PeanoNat.Nat.eqb_spec j (m + i)) => h1; first nlia.
      case: (PeanoNat.Nat.eqb_spec i (m + j)) => h2; first nlia.
      by rewrite !andbF.
    - have /ltP hi := ltn_ord i; have /ltP hj := ltn_ord j; rewrite /= -plusE.
      case: (PeanoNat.Nat.eqb_spec i (m + j)%coq_nat) => h1; first nlia.
      case: (PeanoNat.Nat.ltb_spec i m) => h2; last nlia.
      case: (PeanoNat.Nat.ltb_spec (m + j)%coq_nat m) => h3 /=; first nlia.
      case: (PeanoNat.Nat.eqb_spec (m + j)%coq_nat (m + i)%coq_nat) => h4; case: eqP => h5 //; nlia.
    - have /ltP hi := ltn_ord i; have /ltP hj := ltn_ord j; rewrite /= -plusE -(inj_eq val_inj) /=.
      case: (PeanoNat.Nat.ltb_spec (m + j)%coq_nat m) => h3 /=; first nlia.
      case: (PeanoNat.Nat.ltb_spec (m + i)%coq_nat m) => h4 /=; first nlia.
      case: (PeanoNat.Nat.eqb_spec (m + i)%coq_nat (m + j)%coq_nat) => h5; case: eqP => h6 //; nlia.
  Qed.

  Let d : 'rV[R]_m := \row_i Rminus 1 (pow (List.nth i rho R0) 2).

  Lemma canonical_gram : 1%:M - B *m B^T = diag_mx d.
  Proof.
    apply/matrixP => i k; rewrite !mxE.
    have hi : (i < n)%N by apply: ltn_addr; exact: ltn_ord.
    rewrite (bigD1 (Ordinal hi)) //= big1 ?addr0 => [|j ji]; last first.
    { rewrite !mxE; case: eqP => e; last by rewrite mul0r.
      case/eqP: ji; exact/val_inj. }
    rewrite !mxE /= eqxx; case: (eqVneq i k) => [<-|ik].
    - rewrite eqxx mulr1n /=; set r := List.nth _ _ _.
      change (@eq R (Rplus 1 (Ropp (Rmult r r))) (Rminus 1 (Rmult r (Rmult r 1)))); ring.
    - rewrite (inj_eq val_inj) eq_sym (negbTE ik) /= mulr0 subr0 mulr0n //.
  Qed.

  Lemma canonical_schur : schur (ulsubmx (exchanged S)) (ursubmx (exchanged S)) (drsubmx (exchanged S)) = diag_mx d.
  Proof.
    have [e1 e2 e3] := canonical_blocks; have [_ _ _] := sym_block canonical_sym.
    have dl : dlsubmx S = B^T.
    { have [h _ _] := sym_block canonical_sym; have := congr1 dlsubmx h; by rewrite block_mxKdl e2. }
    rewrite /exchanged block_mxKul block_mxKur block_mxKdr /schur e1 e3 dl trmxK invmx1 mulmx1.
    exact: canonical_gram.
  Qed.

  Lemma canonical_posdef : posdef S <-> List.Forall (fun r => Rlt (Rabs r) 1) rho.
  Proof.
    have key : posdef S <-> posdef (diag_mx d).
    { rewrite -canonical_schur; split=> [h|h]; first exact: posdef_schur (exchange_posdef h).
      have [e1 e2 e3] := canonical_blocks.
      rewrite -(exchangedK S); apply: exchange_posdef; apply: posdef_from_schur => //.
      - have dl : dlsubmx S = (ursubmx S)^T.
        { have [h' _ _] := sym_block canonical_sym; have := congr1 dlsubmx h'; by rewrite block_mxKdl. }
        by rewrite /exchanged tr_block_mx e1 e3 !trmx1 dl trmxK.
      - rewrite /exchanged block_mxKul e3; exact: posdef_1. }
    rewrite key posdef_diag; split=> h.
    - apply/List.Forall_forall => r /(List.In_nth _ _ R0) [k [hk <-]].
      have hk' : (k < m)%N by apply/ltP.
      have := h (Ordinal hk'); rewrite mxE /=; set v := List.nth _ _ _ => q.
      apply: Rabs_def1; nra.
    - move=> i; rewrite mxE.
      have q := proj1 (List.Forall_forall _ _) h (List.nth i rho R0).
      have /q : List.In (List.nth i rho R0) rho by apply: List.nth_In; apply/ltP; exact: ltn_ord.
      by set v := List.nth _ _ _ => /Rabs_def2 [a b]; nra.
  Qed.

  Lemma canonical_mi : List.Forall (fun r => Rlt (Rabs r) 1) rho ->
    gaussian_mi S = rsum (List.map (fun r => Rmult (Ropp (Rdiv 1 2)) (ln (Rminus 1 (pow r 2)))) rho).
  Proof.
    move=> h; have pd : posdef S by apply/canonical_posdef.
    have [e1 e2 e3] := canonical_blocks.
    have dp : forall i, Rlt 0 (d ord0 i).
    { apply/posdef_diag; rewrite -canonical_schur; exact: posdef_schur (exchange_posdef pd). }
    rewrite /gaussian_mi e1 e3 !det1.
    have -> : \det S = \prod_i d ord0 i.
    { rewrite -(exchange_det (S := S)); last by rewrite e3; exact: unitmx1.
      have eu : ulsubmx (exchanged S) = 1%:M by rewrite /exchanged block_mxKul e3.
      rewrite (@det_split _ _ (exchanged S)); last by rewrite eu; exact: unitmx1.
      - by rewrite canonical_schur eu det1 det_diag; apply: Rmult_1_l.
      - exact: (proj1 (exchange_posdef pd)). }
    have [pp lp] := ln_prod dp.
    have -> : rsum (List.map (fun r => Rmult (Ropp (Rdiv 1 2)) (ln (Rminus 1 (pow r 2)))) rho)
      = Rmult (Ropp (Rdiv 1 2)) (\sum_(i < m) ln (d ord0 i)).
    { rewrite rsum_scal; congr Rmult.
      have -> : List.map (fun r => ln (Rminus 1 (pow r 2))) rho
        = List.map (fun k => ln (Rminus 1 (pow (List.nth k rho R0) 2))) (List.seq 0 m).
      { rewrite -{1}(map_nth_seq rho); exact: List.map_map. }
      rewrite rsum_bigop; apply: eq_bigr => i _; by rewrite mxE. }
    rewrite -lp; move: pp; set P := (\prod_i _); clearbody P => pp.
    have e : ln (Rdiv (Rmult 1 1) P) = Ropp (ln P).
    { rewrite Rmult_1_l ln_divide; [|exact: Rlt_0_1|exact: pp]. rewrite ln_1; exact: Rminus_0_l. }
    change (Rmult (/ 2) (ln (Rdiv (Rmult 1 1) P)) = Rmult (Ropp (Rdiv 1 2)) (ln P)).
    rewrite e; lazymatch goal with |- ?l = ?r => change (@eq R l r) end; field.
  Qed.
End Canonical.

(** ** Latent variable models *)

Definition noiseless (p : lvm) : lvm :=
  {| lv_dim_x := lv_dim_x p; lv_dim_y := lv_dim_y p; lv_n_interacting := lv_n_interacting p;
     lv_alpha := lv_alpha p; lv_lambd := lv_lambd p; lv_epsilon_x := R0; lv_epsilon_y := R0;
     lv_beta_x := lv_beta_x p; lv_beta_y := lv_beta_y p; lv_eta_x := lv_eta_x p; lv_eta_y := lv_eta_y p |}.

Lemma cov_noise p i j : cov_entry p i j = Rplus (cov_entry (noiseless p) i j)
  (if PeanoNat.Nat.eqb i j then (if PeanoNat.Nat.ltb i (lv_dim_x p) then pow (lv_epsilon_x p) 2 else pow (lv_epsilon_y p) 2) else R0).
Proof.
  unfold cov_entry, noiseless; cbn [lv_dim_x lv_dim_y lv_n_interacting lv_alpha lv_lambd lv_epsilon_x lv_epsilon_y lv_beta_x lv_beta_y lv_eta_x lv_eta_y].
  repeat match goal with |- context [if ?b then _ else _] => destruct b eqn:? end; try ring;
    repeat match goal with
    | H : PeanoNat.Nat.eqb _ _ = true |- _ => apply PeanoNat.Nat.eqb_eq in H
    | H : PeanoNat.Nat.ltb _ _ = true |- _ => apply PeanoNat.Nat.ltb_lt in H
    | H : PeanoNat.Nat.ltb _ _ = false |- _ => apply PeanoNat.Nat.ltb_ge in H
    end; exfalso; lia.
Qed.

Lemma gram_psd n k (M : 'M[R]_(n, k)) : psd (M *m M^T).
Proof.
  split; first by rewrite trmx_mul trmxK.
  move=> x; have -> : qf (M *m M^T) x = nrm (M^T *m x).
  { by rewrite /nrm /qf mulmx1 trmx_mul trmxK !mulmxA. }
  exact: nrm_ge0.
Qed.

Lemma inner_bigop (a b : list R) : List.length a = List.length b ->
  inner a b = \sum_(k < List.length a) Rmult (List.nth k a R0) (List.nth k b R0).
Proof.
  elim: a b => [|x a IH] [|y b] //= e; first by rewrite big_ord0.
  rewrite big_ord_recl /=; congr Rplus; apply: IH; by case: e.
Qed.

Lemma lvm_psd p c : valid_lvm p -> covariance p = Ok c -> psd (sigma (lv_dim_x p) (lv_dim_y p) c).
Proof.
  move=> v e; case: (posnP (lv_dim_x p + lv_dim_y p)%N) => [z|pos].
  - have no : 'I_(lv_dim_x p + lv_dim_y p) -> False by move=> i; have := ltn_ord i; move: (nat_of_ord i) => k; rewrite z.
    split; first by apply/matrixP => i; case: (no i).
    move=> x; rewrite qf_sum big1; first exact: Rle_refl.
    by move=> i; case: (no i).
  - have [mix em] : exists mix, mixing p = Ok mix by apply/mixing_ok; apply/ltP.
    have [hm [hs he]] := mixing_covariance p c mix v e em.
    set n := (lv_dim_x p + lv_dim_y p)%N.
    have -> : sigma (lv_dim_x p) (lv_dim_y p) c = to_mx n (n_latent p) mix *m (to_mx n (n_latent p) mix)^T.
    { apply/matrixP => i j; rewrite [LHS]mxE [RHS]mxE he; try (apply/ltP; exact: ltn_ord).
      have [lm lr] := proj1 (shape_rows _ _ _) hm.
      have li : forall i : 'I_n, List.length (List.nth i mix nil) = n_latent p.
      { move=> i0; apply: lr; apply/ltP; exact: ltn_ord. }
      rewrite inner_bigop ?li //; apply: eq_bigr => k _; by rewrite !mxE. }
    exact: gram_psd.
Qed.

Lemma pow_lt2 (r : R) : r <> R0 -> Rlt 0 (pow r 2).
Proof. move=> h; have := Rsqr_pos_lt r h; rewrite /Rsqr /=; nra. Qed.

Lemma lvm_posdef p c : valid_lvm p -> covariance p = Ok c -> lv_epsilon_x p <> R0 -> lv_epsilon_y p <> R0 ->
  posdef (sigma (lv_dim_x p) (lv_dim_y p) c).
Proof.
  move=> v e nx ny.
  set m := lv_dim_x p; set n := lv_dim_y p.
  set d : 'rV[R]_(m + n) := \row_i (if PeanoNat.Nat.ltb i m then pow (lv_epsilon_x p) 2 else pow (lv_epsilon_y p) 2).
  have [c' [e' [hs hc]]] := covariance_entries p v; have ec : c' = c by move: e'; rewrite e; case.
  rewrite {}ec in e' hs hc.
  have v0 : valid_lvm (noiseless p) by [].
  have [c0 [e0 [hs0 hc0]]] := covariance_entries (noiseless p) v0.
  apply: (@posdef_le _ (diag_mx d)).
  - apply/posdef_diag => i; rewrite mxE; case: (PeanoNat.Nat.ltb _ _); apply: pow_lt2 => //.
  - have -> : sigma m n c - diag_mx d = sigma m n c0.
    { apply/matrixP => i j; rewrite !mxE hc; try (apply/ltP; exact: ltn_ord).
      rewrite hc0; try (apply/ltP; exact: ltn_ord).
      rewrite cov_noise -(inj_eq val_inj) /=; set u := cov_entry (noiseless p) i j; clearbody u.
      case: (PeanoNat.Nat.eqb_spec i j) => [->|h].
      - rewrite eqxx mulr1n; set w := (if _ then _ else _); clearbody w.
        change (@eq R (Rplus (Rplus u w) (Ropp w)) u); ring.
      - case: eqP => // _; rewrite mulr0n subr0; exact: Rplus_0_r. }
    exact: (@lvm_psd (noiseless p)).
Qed.

Lemma diag_unit n (d : 'rV[R]_n) : (forall i, Rlt 0 (d ord0 i)) -> diag_mx d \in unitmx.
Proof. by move/posdef_diag/posdef_unit. Qed.

(** Normalising to a correlation matrix rescales every coordinate, so neither the rank nor the mutual information changes. *)
Lemma lvm_correlation p c : valid_lvm p -> covariance p = Ok c -> lv_epsilon_x p <> R0 -> lv_epsilon_y p <> R0 ->
  exists k, correlation p = Ok (List.map (List.map Fin) k) /\
    has_shape k (lv_dim_x p + lv_dim_y p) (lv_dim_x p + lv_dim_y p) = true /\
    posdef (sigma (lv_dim_x p) (lv_dim_y p) k) /\
    gaussian_mi (sigma (lv_dim_x p) (lv_dim_y p) k) = gaussian_mi (sigma (lv_dim_x p) (lv_dim_y p) c).
Proof.
  move=> v e nx ny; have pd := lvm_posdef v e nx ny.
  set m := lv_dim_x p in pd *; set n := lv_dim_y p in pd *.
  have [c' [e' [hs hc]]] := covariance_entries p v; have ec : c' = c by move: e'; rewrite e; case.
  rewrite {}ec {e'} in hs hc.
  have dpos : forall i, Rlt 0 (cov_entry p i i).
  { move=> i; rewrite cov_noise PeanoNat.Nat.eqb_refl; apply: Rplus_le_lt_0_compat; first exact: cov_diag_nonneg.
    by case: (PeanoNat.Nat.ltb _ _); exact: pow_lt2. }
  have [kf ek] := correlation_ok p v; have [hl hk] := correlation_entries p kf v ek.
  set N := (m + n)%N; have eN : N = (m + n)%coq_nat by [].
  pose f i j := Rdiv (cov_entry p i j) (sqrt (Rmult (cov_entry p i i) (cov_entry p j j))).
  pose k := List.map (fun i => List.map (fun j => f i j) (List.seq 0 N)) (List.seq 0 N).
  have ks : has_shape k N N = true.
  { apply/shape_rows; rewrite List.map_length List.seq_length; split=> // i hi.
    by rewrite nth_map_seq // List.map_length List.seq_length. }
  have kent : forall i j, (i < N)%coq_nat -> (j < N)%coq_nat -> entry k i j = f i j.
  { move=> i j hi hj; rewrite /entry nth_map_seq // nth_map_seq //. }
  exists k; split; last split; [|exact: ks|].
  - rewrite ek; congr Ok; apply: (List.nth_ext _ _ nil nil).
    + by rewrite hl List.map_length List.map_length List.seq_length.
    + move=> i; rewrite hl -eN => hi; rewrite List.map_map nth_map_seq // List.map_map.
      apply: (List.nth_ext _ _ NaN NaN).
      * by rewrite (proj1 (hk i i hi hi)) List.map_length List.seq_length.
      * move=> j; rewrite (proj1 (hk i i hi hi)) -eN => hj; rewrite nth_map_seq // (proj2 (hk i j hi hj)).
        rewrite np_div_value // => z; have : Rlt 0 (sqrt (Rmult (cov_entry p i i) (cov_entry p j j))).
        { apply: sqrt_lt_R0; apply: Rmult_lt_0_compat; exact: dpos. }
        rewrite z; exact: Rlt_irrefl.
  - pose a : 'rV[R]_m := \row_i Rinv (sqrt (cov_entry p i i)).
    pose b : 'rV[R]_n := \row_i Rinv (sqrt (cov_entry p (m + i)%N (m + i)%N)).
    have sp : forall i, Rlt 0 (sqrt (cov_entry p i i)) by move=> i; apply: sqrt_lt_R0; exact: dpos.
    have ua : diag_mx a \in unitmx by apply: diag_unit => i; rewrite mxE; apply: Rinv_0_lt_compat; exact: sp.
    have ub : diag_mx b \in unitmx by apply: diag_unit => i; rewrite mxE; apply: Rinv_0_lt_compat; exact: sp.
    have -> : sigma m n k = transformed (diag_mx a) (diag_mx b) (sigma m n c).
    { rewrite /transformed -diag_mx_row tr_diag_mx mul_mx_diag mul_diag_mx; apply/matrixP => i j.
      have row : forall i : 'I_(m + n), row_mx a b ord0 i = Rinv (sqrt (cov_entry p i i)).
      { move=> i0; rewrite mxE; case: splitP => q e0; by rewrite mxE e0. }
      rewrite [LHS]mxE [RHS]mxE row [X in _ = X * _]mxE row [sigma _ _ _ _ _]mxE kent; try (apply/ltP; exact: ltn_ord).
      rewrite hc; try (apply/ltP; exact: ltn_ord).
      rewrite /f sqrt_mult_alt; last exact: Rlt_le.
      have := sp i; have := sp j; set si := sqrt (cov_entry p i i); set sj := sqrt (cov_entry p j j); set u := cov_entry p i j.
      clearbody si sj u => hj hi.
      change (@eq R (Rdiv u (Rmult si sj)) (Rmult (Rmult (Rinv si) u) (Rinv sj))); field; split; exact: Rgt_not_eq. }
    split; first by apply: congruence_posdef => //; exact: block_diag_unit.
    exact: transformed_mi.
Qed.

(** ** Statements about the samplers *)

Section Samplers.
  Variable eigvals : UtilsModel.matrix -> list (R * R).

  Lemma canonical_sampler (rho : list R) additional_y C mean : rho <> nil -> (0 <= additional_y)%Z ->
    canonical_correlation rho additional_y = Ok C ->
    let m := List.length rho in let n := (m + Z.to_nat additional_y)%N in
    eigvals_exact eigvals m n C -> proper_mean (m + n) mean ->
    ((exists s, split_multinormal_init eigvals (Z.of_nat m) (Z.of_nat n) C mean = Ok s) <->
     List.Forall (fun r => Rlt (Rabs r) 1) rho) /\
    forall s, split_multinormal_init eigvals (Z.of_nat m) (Z.of_nat n) C mean = Ok s ->
      split_multinormal_mi s = Fin (rsum (List.map (fun r => Rmult (Ropp (Rdiv 1 2)) (ln (Rminus 1 (pow r 2)))) rho)).
  Proof.
    move=> nr ha e m n ex pm; have [C' [e' hC]] := canonical_ok rho additional_y ha.
    have eC : C' = C by move: e'; rewrite e; case.
    rewrite {}eC {e'} in hC.
    have pos : (0 < m)%N by rewrite /m; case: (rho) nr.
    have sym := canonical_sym hC.
    have pos' : (0 < n)%N by rewrite /n addn_gt0 pos.
    have ai := accepts_iff mean pos pos' sym ex.
    have pd := canonical_posdef hC.
    have acc : (exists s, split_multinormal_init eigvals (Z.of_nat m) (Z.of_nat n) C mean = Ok s) <->
     List.Forall (fun r => Rlt (Rabs r) 1) rho.
    { rewrite ai; split; first by case=> _ _ /pd.
      move=> h; split=> //; [exact: (proj1 hC)|exact/pd]. }
    split=> // s es; have [f _ _] := mi_formula sym (proj1 ex) es.
    rewrite f; congr Fin; apply: (canonical_mi hC); apply/acc; by exists s.
  Qed.

  Lemma lvm_sampler p c mean : valid_lvm p -> covariance p = Ok c ->
    (0 < lv_dim_x p)%N -> (0 < lv_dim_y p)%N -> lv_epsilon_x p <> R0 -> lv_epsilon_y p <> R0 ->
    eigvals_exact eigvals (lv_dim_x p) (lv_dim_y p) c -> proper_mean (lv_dim_x p + lv_dim_y p) mean ->
    exists s, split_multinormal_init eigvals (Z.of_nat (lv_dim_x p)) (Z.of_nat (lv_dim_y p)) c mean = Ok s /\
      split_multinormal_mi s = Fin (gaussian_mi (sigma (lv_dim_x p) (lv_dim_y p) c)).
  Proof.
    move=> v e px py nx ny ex pm; have pd := lvm_posdef v e nx ny.
    have [c' [e' [hs hc]]] := covariance_entries p v; have ec : c' = c by move: e'; rewrite e; case.
    rewrite {}ec {e'} in hs hc.
    have sym := proj1 pd.
    have [s es] : exists s, split_multinormal_init eigvals (Z.of_nat (lv_dim_x p)) (Z.of_nat (lv_dim_y p)) c mean = Ok s.
    { by apply/(accepts_iff mean px py sym ex); split. }
    exists s; split=> //; by have [f _ _] := mi_formula sym (proj1 ex) es.
  Qed.
End Samplers.

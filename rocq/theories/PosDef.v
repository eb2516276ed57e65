(** Positive definite real matrices: Schur complements, determinants, Fischer's
    inequality and eigenvalues.  Mathematics only, nothing about the code. *)
From Coq Require Import Reals Lra Lia.
From mathcomp Require Import all_ssreflect ssralg matrix mxalgebra.
From Verif Require Import RStruct.
Set Implicit Arguments.
Unset Strict Implicit.
Unset Printing Implicit Defensive.
Import GRing.Theory.
Local Open Scope ring_scope.

(** The value x^T A x of the quadratic form. *)
Definition qf n (A : 'M[R]_n) (x : 'cV[R]_n) : R := (x^T *m A *m x) ord0 ord0.

Definition posdef n (A : 'M[R]_n) : Prop :=
  A^T = A /\ forall x : 'cV[R]_n, x != 0 -> Rlt 0 (qf A x).

Definition psd n (A : 'M[R]_n) : Prop :=
  A^T = A /\ forall x : 'cV[R]_n, Rle 0 (qf A x).

Lemma posdef_psd n (A : 'M[R]_n) : posdef A -> psd A.
Proof.
  case=> s p; split=> // x; case: (eqVneq x 0) => [-> | h].
  - rewrite /qf mulmx0 mxE; exact: Rle_refl.
  - exact: Rlt_le (p _ h).
Qed.

Lemma qf_add n (A B : 'M[R]_n) x : qf (A + B) x = Rplus (qf A x) (qf B x).
Proof. by rewrite /qf mulmxDr mulmxDl mxE. Qed.

Lemma qf_sub n (A B : 'M[R]_n) x : qf (A - B) x = Rminus (qf A x) (qf B x).
Proof. by rewrite /qf mulmxBr mulmxBl !mxE. Qed.

(** ** Blocks *)

Section Blocks.
  Variables m n : nat.
  Variables (P : 'M[R]_m) (Q : 'M[R]_(m, n)) (S : 'M[R]_n).

  Definition schur : 'M[R]_n := S - Q^T *m invmx P *m Q.

  Lemma det_schur : P \in unitmx ->
    \det (block_mx P Q Q^T S) = Rmult (\det P) (\det schur).
  Proof.
    move=> u.
    have -> : block_mx P Q Q^T S
      = block_mx P 0 Q^T 1%:M *m block_mx 1%:M (invmx P *m Q) 0 schur.
    { rewrite mulmx_block !mulmx1 !mulmx0 !mul0mx !addr0 !mul1mx mulKVmx //.
      by rewrite /schur mulmxA addrCA subrr addr0. }
    by rewrite det_mulmx det_lblock det_ublock !det1 mulr1 mul1r.
  Qed.

  Lemma qf_block w x : P \in unitmx -> P^T = P ->
    qf (block_mx P Q Q^T S) (col_mx w x)
    = Rplus (qf P (w + invmx P *m Q *m x)) (qf schur x).
  Proof.
    move=> u s.
    have si : (invmx P)^T = invmx P by rewrite trmx_inv s.
    have e : (col_mx w x)^T *m block_mx P Q Q^T S *m col_mx w x
      = (w + invmx P *m Q *m x)^T *m P *m (w + invmx P *m Q *m x) + x^T *m schur *m x.
    { rewrite tr_col_mx mul_row_block mul_row_col /schur.
      have -> : (w + invmx P *m Q *m x)^T = w^T + (invmx P *m Q *m x)^T by rewrite linearD.
      rewrite !trmx_mul si !(mulmxDl, mulmxDr, mulmxN, mulNmx).
      rewrite -!mulmxA !(mulKmx u) !(mulKVmx u).
      by rewrite -!addrA; do 3 congr (_ + _); rewrite addrCA subrr addr0. }
    by rewrite /qf e mxE.
  Qed.
End Blocks.

(** A symmetric block matrix. *)
Lemma sym_block m n (A : 'M[R]_(m + n)) : A^T = A ->
  [/\ A = block_mx (ulsubmx A) (ursubmx A) (ursubmx A)^T (drsubmx A),
      (ulsubmx A)^T = ulsubmx A & (drsubmx A)^T = drsubmx A].
Proof.
  move=> s; have := s; rewrite -{1 2}(submxK A) tr_block_mx => /eq_block_mx [e1 e2 e3 e4].
  split=> //; by rewrite e3 submxK.
Qed.

Lemma posdef_ul m n (A : 'M[R]_(m + n)) : posdef A -> posdef (ulsubmx A).
Proof.
  case=> s p; have [e1 e2 e3] := sym_block s; split=> // x h.
  have := p (col_mx x 0); rewrite -[in col_mx x 0](mul0mx _ (0 : 'M[R]_(0, 1))).
  have -> : qf A (col_mx x (0 *m (0 : 'M[R]_(0, 1)))) = qf (ulsubmx A) x.
  { rewrite mul0mx /qf [in LHS]e1 tr_col_mx mul_row_block mul_row_col !trmx0 !mul0mx !mulmx0.
    by rewrite !addr0. }
  apply; apply: contraNneq h; rewrite mul0mx => /eqP; rewrite col_mx_eq0 => /andP [/eqP -> _] //.
Qed.

Lemma posdef_dr m n (A : 'M[R]_(m + n)) : posdef A -> posdef (drsubmx A).
Proof.
  case=> s p; have [e1 e2 e3] := sym_block s; split=> // x h.
  have -> : qf (drsubmx A) x = qf A (col_mx 0 x).
  { rewrite /qf [in RHS]e1 tr_col_mx mul_row_block mul_row_col !trmx0 !mul0mx !mulmx0.
    by rewrite !add0r. }
  apply: p; apply: contraNneq h => /eqP; rewrite col_mx_eq0 => /andP [_ /eqP ->] //.
Qed.

(** A positive definite matrix is invertible. *)
Lemma posdef_unit n (A : 'M[R]_n) : posdef A -> A \in unitmx.
Proof.
  case=> s p; rewrite unitmxE unitfE; apply/det0P => -[v nz e].
  have h : v^T != 0 by rewrite -(inj_eq (@trmx_inj _ _ _)) trmxK trmx0.
  have := p _ h; rewrite /qf trmxK e mul0mx mxE; exact: Rlt_irrefl.
Qed.

Lemma qf_split m n (A : 'M[R]_(m + n)) w x : A^T = A -> ulsubmx A \in unitmx ->
  qf A (col_mx w x)
  = Rplus (qf (ulsubmx A) (w + invmx (ulsubmx A) *m ursubmx A *m x))
          (qf (schur (ulsubmx A) (ursubmx A) (drsubmx A)) x).
Proof. by move=> s u; have [e1 e2 e3] := sym_block s; rewrite -qf_block // -e1. Qed.

Lemma qf0 n (A : 'M[R]_n) : qf A 0 = 0.
Proof. by rewrite /qf mulmx0 mxE. Qed.

Lemma det_split m n (A : 'M[R]_(m + n)) : A^T = A -> ulsubmx A \in unitmx ->
  \det A = Rmult (\det (ulsubmx A)) (\det (schur (ulsubmx A) (ursubmx A) (drsubmx A))).
Proof. by move=> s u; have [e1 e2 e3] := sym_block s; rewrite -det_schur // -e1. Qed.

Lemma posdef_schur m n (A : 'M[R]_(m + n)) : posdef A ->
  posdef (schur (ulsubmx A) (ursubmx A) (drsubmx A)).
Proof.
  move=> pd; have pu := posdef_ul pd; have u := posdef_unit pu.
  case: (pd) => s p; have [e1 e2 e3] := sym_block s; split.
  - rewrite /schur linearB /= !trmx_mul trmxK trmx_inv e2 e3 mulmxA //.
  - move=> x h.
    have := p (col_mx (- (invmx (ulsubmx A) *m ursubmx A *m x)) x).
    rewrite qf_split // addNr qf0 Rplus_0_l; apply.
    by apply: contraNneq h => /eqP; rewrite col_mx_eq0 => /andP [_ /eqP ->].
Qed.

(** Positive definite matrices have positive determinants. *)
Lemma det_posdef n (A : 'M[R]_n) : posdef A -> Rlt 0 (\det A).
Proof.
  elim: n A => [|n IH] A pd; first by rewrite det_mx00; exact: Rlt_0_1.
  have pd' : posdef (A : 'M[R]_(1 + n)) by exact pd.
  have pu := posdef_ul pd'; have u := posdef_unit pu.
  rewrite (det_split (proj1 pd')) //.
  apply: Rmult_lt_0_compat; last exact: IH (posdef_schur pd').
  rewrite det_mx11.
  have := proj2 pu 1%:M; rewrite /qf trmx1 mul1mx mulmx1; apply.
  by rewrite matrix_nonzero1.
Qed.

Lemma posdef_le n (T S : 'M[R]_n) : posdef T -> psd (S - T) -> posdef S.
Proof.
  case=> sT pT [sD pD].
  have sS : S^T = S.
  { have := sD; rewrite linearB /= sT => /(congr1 (fun M => M + T)); by rewrite !subrK. }
  split=> // x h; have := pT x h; have := pD x; rewrite qf_sub; lra.
Qed.

(** The Schur complement is monotone: it is the minimum of the form over the first
    block of coordinates. *)
Lemma schur_le m n (T S : 'M[R]_(m + n)) : posdef T -> psd (S - T) ->
  psd (schur (ulsubmx S) (ursubmx S) (drsubmx S) - schur (ulsubmx T) (ursubmx T) (drsubmx T)).
Proof.
  move=> pT dif; have pS := posdef_le pT dif; split.
  - by rewrite linearB /= (proj1 (posdef_schur pS)) (proj1 (posdef_schur pT)).
  - move=> x; rewrite qf_sub.
    have uS := posdef_unit (posdef_ul pS); have uT := posdef_unit (posdef_ul pT).
    set w := - (invmx (ulsubmx S) *m ursubmx S *m x).
    have a : qf S (col_mx w x) = qf (schur (ulsubmx S) (ursubmx S) (drsubmx S)) x.
    { by rewrite qf_split // ?(proj1 pS) // addNr qf0 Rplus_0_l. }
    have b := qf_split w x (proj1 pT) uT.
    have c := proj2 (posdef_psd (posdef_ul pT)) (w + invmx (ulsubmx T) *m ursubmx T *m x).
    have d := proj2 dif (col_mx w x); rewrite qf_sub in d.
    rewrite a b in d; move: c d; set u1 := qf _ _; set u2 := qf _ _; set u3 := qf _ _.
    lra.
Qed.

Lemma entry_qf (A : 'M[R]_1) : A ord0 ord0 = qf A 1%:M.
Proof. by rewrite /qf trmx1 mul1mx mulmx1. Qed.

Lemma det11 (A : 'M[R]_1) : \det A = A ord0 ord0.
Proof. exact: det_mx11. Qed.

Lemma ulsubmxB m n (A B : 'M[R]_(m + n)) : ulsubmx (A - B) = ulsubmx A - ulsubmx B.
Proof. by apply/matrixP => i j; rewrite !mxE. Qed.
Lemma ursubmxB m n (A B : 'M[R]_(m + n)) : ursubmx (A - B) = ursubmx A - ursubmx B.
Proof. by apply/matrixP => i j; rewrite !mxE. Qed.
Lemma drsubmxB m n (A B : 'M[R]_(m + n)) : drsubmx (A - B) = drsubmx A - drsubmx B.
Proof. by apply/matrixP => i j; rewrite !mxE. Qed.

Lemma psd_ul m n (A : 'M[R]_(m + n)) : psd A -> psd (ulsubmx A).
Proof.
  case=> s p; have [e1 e2 e3] := sym_block s; split=> // x.
  have -> : qf (ulsubmx A) x = qf A (col_mx x 0).
  { rewrite /qf [in RHS]e1 tr_col_mx mul_row_block mul_row_col !trmx0 !mul0mx !mulmx0.
    by rewrite !addr0. }
  exact: p.
Qed.

(** The determinant is monotone on positive definite matrices. *)
Lemma det_mono n (T S : 'M[R]_n) : posdef T -> psd (S - T) -> Rle (\det T) (\det S).
Proof.
  elim: n T S => [|n IH] T S pT dif; first by rewrite !det_mx00; exact: Rle_refl.
  have pS := posdef_le pT dif.
  have pT' : posdef (T : 'M[R]_(1 + n)) by exact pT.
  have pS' : posdef (S : 'M[R]_(1 + n)) by exact pS.
  have dif' : psd ((S : 'M[R]_(1 + n)) - T) by exact dif.
  rewrite (det_split (proj1 pT')) ?(posdef_unit (posdef_ul pT')) //.
  rewrite (det_split (proj1 pS')) ?(posdef_unit (posdef_ul pS')) //.
  apply: Rmult_le_compat.
  - exact: Rlt_le (det_posdef (posdef_ul pT')).
  - exact: Rlt_le (det_posdef (posdef_schur pT')).
  - have := proj2 (psd_ul dif') 1%:M.
    rewrite ulsubmxB qf_sub -!entry_qf !det11.
    set u1 := ((ulsubmx _) _ _); set u2 := ((ulsubmx _) _ _). lra.
  - apply: IH; [exact: posdef_schur | exact: schur_le].
Qed.

(** A positive semidefinite matrix vanishes where its form does. *)
Lemma psd_kernel n (A : 'M[R]_n) x : psd A -> qf A x = 0 -> A *m x = 0.
Proof.
  case=> s p h.
  have key : forall y : 'cV[R]_n, (y^T *m A *m x) ord0 ord0 = 0.
  { move=> y.
    have sym : (x^T *m A *m y) ord0 ord0 = (y^T *m A *m x) ord0 ord0.
    { rewrite -[in RHS](trmxK (y^T *m A *m x)) [RHS]mxE !trmx_mul trmxK s mulmxA //. }
    have q : forall t : R, qf A (y + t *: x) = Rplus (qf A y) (Rmult 2 (Rmult t ((y^T *m A *m x) ord0 ord0))).
    { move=> t.
      have -> : qf A (y + t *: x) = Rplus (qf A y) (Rplus (Rmult t ((y^T *m A *m x) ord0 ord0))
        (Rplus (Rmult t ((x^T *m A *m y) ord0 ord0)) (Rmult t (Rmult t (qf A x))))).
      { have e : (y + t *: x)^T = y^T + t *: x^T by rewrite linearD linearZ.
        rewrite /qf e !(mulmxDl, mulmxDr) -!scalemxAl -!scalemxAr.
        rewrite !mxE /GRing.add /GRing.mul /=; ring. }
      rewrite sym h /GRing.zero /=; ring. }
    set b := (y^T *m A *m x) ord0 ord0 in q *.
    case: (Req_dec b 0) => // nb.
    have := p (y + (Rdiv (Ropp (Rplus (qf A y) 1)) (Rmult 2 b)) *: x).
    rewrite q.
    have -> : Rmult 2 (Rmult (Rdiv (Ropp (Rplus (qf A y) 1)) (Rmult 2 b)) b) = Ropp (Rplus (qf A y) 1).
    { by field. }
    move=> hh; exfalso; move: hh; set qq := qf A y; lra. }
  apply/matrixP => i j; rewrite (ord1 j) [RHS]mxE.
  have := key (delta_mx i ord0).
  by rewrite trmx_delta -mulmxA -rowE mxE.
Qed.

Lemma mul_delta_col n (A : 'M[R]_n) (i j : 'I_n) :
  (A *m (delta_mx j ord0 : 'cV[R]_n)) i ord0 = A i j.
Proof. by rewrite -colE mxE. Qed.

(** Equality of determinants forces equality. *)
Lemma det_mono_eq n (T S : 'M[R]_n) : posdef T -> psd (S - T) -> \det T = \det S -> T = S.
Proof.
  elim: n T S => [|n IH] T S pT dif e.
  { by apply/matrixP => i; case: i. }
  have pS := posdef_le pT dif.
  have pT' : posdef (T : 'M[R]_(1 + n)) by exact pT.
  have pS' : posdef (S : 'M[R]_(1 + n)) by exact pS.
  have dif' : psd ((S : 'M[R]_(1 + n)) - T) by exact dif.
  move: e; rewrite (det_split (proj1 pT')) ?(posdef_unit (posdef_ul pT')) //.
  rewrite (det_split (proj1 pS')) ?(posdef_unit (posdef_ul pS')) // => e.
  have le1 : Rle (\det (ulsubmx (T : 'M[R]_(1 + n)))) (\det (ulsubmx (S : 'M[R]_(1 + n)))).
  { apply: det_mono (posdef_ul pT') _; have := psd_ul dif'; by rewrite ulsubmxB. }
  have dS := schur_le pT' dif'.
  have le2 := det_mono (posdef_schur pT') dS.
  have p1 := det_posdef (posdef_ul pT'); have p2 := det_posdef (posdef_schur pT').
  have e1 : \det (ulsubmx (T : 'M[R]_(1 + n))) = \det (ulsubmx (S : 'M[R]_(1 + n))).
  { move: e le1 le2 p1 p2; set a := \det _; set b := \det _; set c := \det _; set d := \det _.
    move=> e le1 le2 p1 p2; change (@eq R a c).
    change (@eq R (Rmult a b) (Rmult c d)) in e; nra. }
  have e2 : \det (schur (ulsubmx (T : 'M[R]_(1 + n))) (ursubmx (T : 'M[R]_(1 + n))) (drsubmx (T : 'M[R]_(1 + n))))
    = \det (schur (ulsubmx (S : 'M[R]_(1 + n))) (ursubmx (S : 'M[R]_(1 + n))) (drsubmx (S : 'M[R]_(1 + n)))).
  { move: e e1 p1; set a := \det _; set b := \det _; set c := \det _; set d := \det _.
    move=> e e1 p1; change (@eq R b d); change (@eq R (Rmult a b) (Rmult c d)) in e.
    rewrite -e1 in e; apply: (Rmult_eq_reg_l a) => //; lra. }
  have es := IH _ _ (posdef_schur pT') dS e2.
  have eu : ulsubmx (T : 'M[R]_(1 + n)) = ulsubmx (S : 'M[R]_(1 + n)).
  { move: e1; rewrite !det11 => e1; apply/matrixP => i j; by rewrite !ord1. }
  have k : ((S : 'M[R]_(1 + n)) - T) *m (col_mx 1%:M 0 : 'cV[R]_(1 + n)) = 0.
  { apply: psd_kernel dif' _.
    rewrite /qf -{1}[_ - _]submxK tr_col_mx mul_row_block mul_row_col !trmx0 !mul0mx !mulmx0 !addr0.
    by rewrite trmx1 mul1mx mulmx1 ulsubmxB eu subrr mxE. }
  have er : ursubmx (T : 'M[R]_(1 + n)) = ursubmx (S : 'M[R]_(1 + n)).
  { have [f1 f2 f3] := sym_block (proj1 dif').
    move: k; rewrite f1 mul_block_col !mulmx1 !mulmx0 !addr0 => /eqP.
    rewrite col_mx_eq0 => /andP [_ /eqP h].
    have : ursubmx ((S : 'M[R]_(1 + n)) - T) = 0 by apply: (can_inj (@trmxK _ _ _)); rewrite h trmx0.
    by rewrite ursubmxB => /eqP; rewrite subr_eq0 => /eqP ->. }
  have ed : drsubmx (T : 'M[R]_(1 + n)) = drsubmx (S : 'M[R]_(1 + n)).
  { move: es; rewrite /schur eu er => /addIr. exact. }
  have [g1 g2 g3] := sym_block (proj1 pT'); have [h1 h2 h3] := sym_block (proj1 pS').
  rewrite [T](g1 : T = _ :> 'M[R]_(1 + n)) [S](h1 : S = _ :> 'M[R]_(1 + n)).
  by rewrite eu er ed.
Qed.

Lemma posdef_inv n (A : 'M[R]_n) : posdef A -> posdef (invmx A).
Proof.
  move=> pd; have u := posdef_unit pd; case: pd => s p; split; first by rewrite trmx_inv s.
  move=> x h.
  have -> : qf (invmx A) x = qf A (invmx A *m x).
  { by rewrite /qf trmx_mul trmx_inv s -!mulmxA (mulKVmx u). }
  apply: p; apply: contraNneq h => e; by rewrite -(mulKVmx u x) e mulmx0.
Qed.

(** Fischer's inequality, with its equality case. *)
Lemma schur_gap m n (A : 'M[R]_(m + n)) : posdef A ->
  psd (drsubmx A - schur (ulsubmx A) (ursubmx A) (drsubmx A)).
Proof.
  move=> pd; have pi := posdef_inv (posdef_ul pd); rewrite /schur opprB addrCA subrr addr0.
  split; first by rewrite !trmx_mul trmxK (proj1 pi) mulmxA.
  move=> x; have := proj2 (posdef_psd pi) (ursubmx A *m x).
  by rewrite /qf trmx_mul !mulmxA.
Qed.

Lemma fischer m n (A : 'M[R]_(m + n)) : posdef A ->
  Rle (\det A) (Rmult (\det (ulsubmx A)) (\det (drsubmx A))).
Proof.
  move=> pd; rewrite (det_split (proj1 pd)) ?(posdef_unit (posdef_ul pd)) //.
  apply: Rmult_le_compat_l; first exact: Rlt_le (det_posdef (posdef_ul pd)).
  exact: det_mono (posdef_schur pd) (schur_gap pd).
Qed.

Lemma fischer_eq m n (A : 'M[R]_(m + n)) : posdef A ->
  (\det A = Rmult (\det (ulsubmx A)) (\det (drsubmx A)) <-> ursubmx A = 0).
Proof.
  move=> pd; rewrite (det_split (proj1 pd)) ?(posdef_unit (posdef_ul pd)) //; split.
  - move/(Rmult_eq_reg_l _ _ _) => e.
    have e' := e (Rgt_not_eq _ _ (det_posdef (posdef_ul pd))).
    have es := det_mono_eq (posdef_schur pd) (schur_gap pd) e'.
    have z : (ursubmx A)^T *m invmx (ulsubmx A) *m ursubmx A = 0.
    { move: es; rewrite /schur => /eqP; rewrite subr_eq addrC -subr_eq subrr eq_sym => /eqP; exact. }
    have pi := posdef_inv (posdef_ul pd).
    apply/matrixP => i j; rewrite [RHS]mxE.
    have h : ursubmx A *m (delta_mx j ord0 : 'cV[R]_n) = 0.
    { case: (eqVneq (ursubmx A *m (delta_mx j ord0 : 'cV[R]_n)) 0) => // nz.
      have := proj2 pi _ nz; rewrite /qf trmx_mul !mulmxA.
      have -> : (delta_mx j ord0 : 'cV[R]_n)^T *m (ursubmx A)^T *m invmx (ulsubmx A) *m ursubmx A
        *m (delta_mx j ord0 : 'cV[R]_n)
        = (delta_mx j ord0 : 'cV[R]_n)^T *m ((ursubmx A)^T *m invmx (ulsubmx A) *m ursubmx A)
        *m (delta_mx j ord0 : 'cV[R]_n) by rewrite !mulmxA.
      rewrite z mulmx0 mul0mx.
      rewrite mxE => /Rlt_irrefl []. }
    have := congr1 (fun M : 'cV[R]_m => M i ord0) h; by rewrite -colE !mxE.
  - by move=> e; rewrite /schur e trmx0 !mul0mx subr0.
Qed.

(** ** Eigenvalues *)

(** [a + b i] is an eigenvalue of [A], with eigenvector [u + v i]. *)
Definition is_eigenvalue n (A : 'M[R]_n) (a b : R) : Prop :=
  exists u v : 'cV[R]_n, (u != 0 \/ v != 0) /\
    A *m u = a *: u - b *: v /\ A *m v = b *: u + a *: v.

(** Squared length. *)
Definition nrm n (x : 'cV[R]_n) : R := qf 1%:M x.

Lemma nrmE n (x : 'cV[R]_n) : nrm x = \sum_i x i ord0 * x i ord0.
Proof. rewrite /nrm /qf mulmx1 mxE; by apply: eq_bigr => i _; rewrite !mxE. Qed.

Lemma Rsum_ge0 (I : finType) (f : I -> R) : (forall i, Rle 0 (f i)) -> Rle 0 (\sum_i f i).
Proof.
  move=> h; apply: (big_ind (fun v : R => Rle 0 v)) => //; first exact: Rle_refl.
  by move=> x y; exact: Rplus_le_le_0_compat.
Qed.

Lemma Rsum_le (I : finType) (f g : I -> R) : (forall i, Rle (f i) (g i)) -> Rle (\sum_i f i) (\sum_i g i).
Proof.
  move=> h; apply: (big_ind2 (fun v w : R => Rle v w)) => //; first exact: Rle_refl.
  by move=> x1 x2 y1 y2; exact: Rplus_le_compat.
Qed.

Lemma Rsum_abs (I : finType) (f : I -> R) : Rle (Rabs (\sum_i f i)) (\sum_i Rabs (f i)).
Proof.
  apply: (big_ind2 (fun v w : R => Rle (Rabs v) w)) => //.
  - rewrite Rabs_R0; exact: Rle_refl.
  - move=> x1 x2 y1 y2 h1 h2; apply: Rle_trans (Rabs_triang _ _) _; exact: Rplus_le_compat.
  - by move=> i _; exact: Rle_refl.
Qed.

Lemma nrm_ge0 n (x : 'cV[R]_n) : Rle 0 (nrm x).
Proof. rewrite nrmE; apply: Rsum_ge0 => i; exact: Rle_0_sqr. Qed.

Lemma nrm_entry n (x : 'cV[R]_n) i : Rle (Rmult (x i ord0) (x i ord0)) (nrm x).
Proof.
  rewrite nrmE (bigD1 i) //=.
  have h : Rle 0 (\sum_(j < n | j != i) x j ord0 * x j ord0).
  { apply: (big_ind (fun v : R => Rle 0 v)); first exact: Rle_refl.
    - by move=> a b; exact: Rplus_le_le_0_compat.
    - move=> j _; exact: Rle_0_sqr. }
  move: h; set s := \sum_(j < n | _) _; set q := _ * _.
  move=> h; change (Rle q (Rplus q s)); lra.
Qed.

Lemma nrm_pos n (x : 'cV[R]_n) : x != 0 -> Rlt 0 (nrm x).
Proof.
  move=> h; case: (Rle_lt_or_eq_dec _ _ (nrm_ge0 x)) => // e.
  case/eqP: h; apply/matrixP => i j; rewrite (ord1 j) [RHS]mxE.
  have := nrm_entry x i; rewrite -e; set v := x i ord0 => le.
  have : Rmult v v = 0 by apply: Rle_antisym => //; exact: Rle_0_sqr.
  by move/Rmult_integral => [].
Qed.

Lemma posdef_1 n : posdef (1%:M : 'M[R]_n).
Proof. split; [exact: trmx1 | exact: nrm_pos]. Qed.

Lemma qf_bound n (A : 'M[R]_n) : exists C, Rlt 0 C /\ forall x, Rle (Rabs (qf A x)) (Rmult C (nrm x)).
Proof.
  set C := \sum_i \sum_j Rabs (A i j).
  have C0 : Rle 0 C by apply: Rsum_ge0 => i; apply: Rsum_ge0 => j; exact: Rabs_pos.
  exists (Rplus C 1); split; first by move: C0; set c := C; lra.
  move=> x.
  apply: (Rle_trans _ (Rmult C (nrm x))); last first.
  { apply: Rmult_le_compat_r (nrm_ge0 x) _; move: C0; set c := C; lra. }
  rewrite /qf mxE; apply: Rle_trans (Rsum_abs _) _.
  have -> : Rmult C (nrm x) = \sum_j \sum_i Rmult (Rabs (A i j)) (nrm x).
  { rewrite exchange_big /= /C -[Rmult _ _]/(_ * nrm x) mulr_suml.
    apply: eq_bigr => i _; by rewrite mulr_suml. }
  apply: Rsum_le => j; rewrite mxE.
  have -> : (\sum_j0 x^T ord0 j0 * A j0 j) * x j ord0 = \sum_i x i ord0 * A i j * x j ord0.
  { by rewrite mulr_suml; apply: eq_bigr => i _; rewrite mxE. }
  apply: Rle_trans (Rsum_abs _) _; apply: Rsum_le => i.
  have := nrm_entry x i; have := nrm_entry x j.
  set p := x i ord0; set q := x j ord0; set a := A i j; set s := nrm x.
  move=> h1 h2; rewrite /GRing.mul /= !Rabs_mult.
  have h : Rle (Rmult (Rabs p) (Rabs q)) s.
  { have := Rabs_pos p; have := Rabs_pos q.
    have : Rmult (Rabs p) (Rabs p) = Rmult p p by rewrite -Rabs_mult Rabs_pos_eq //; exact: Rle_0_sqr.
    have : Rmult (Rabs q) (Rabs q) = Rmult q q by rewrite -Rabs_mult Rabs_pos_eq //; exact: Rle_0_sqr.
    set p' := Rabs p; set q' := Rabs q => e1 e2 p1 p2; nra. }
  have := Rabs_pos a; move: h; set p' := Rabs p; set q' := Rabs q; set a' := Rabs a.
  move=> h h3; nra.
Qed.

Lemma qf_scale n (A : 'M[R]_n) t x : qf (t *: A) x = Rmult t (qf A x).
Proof. by rewrite /qf -scalemxAr -scalemxAl mxE. Qed.

Lemma qf_line n (A : 'M[R]_n) (s : A^T = A) y z t :
  qf A (y + t *: z) = Rplus (qf A y) (Rplus (Rmult 2 (Rmult t ((y^T *m A *m z) ord0 ord0)))
    (Rmult t (Rmult t (qf A z)))).
Proof.
  have sym : (z^T *m A *m y) ord0 ord0 = (y^T *m A *m z) ord0 ord0.
  { rewrite -[in RHS](trmxK (y^T *m A *m z)) [RHS]mxE !trmx_mul trmxK s mulmxA //. }
  have e : (y + t *: z)^T = y^T + t *: z^T by rewrite linearD linearZ.
  rewrite /qf e !(mulmxDl, mulmxDr) -!scalemxAl -!scalemxAr.
  move: sym; set a := (z^T *m A *m y); set b := (y^T *m A *m z).
  set c := y^T *m A *m y; set d := z^T *m A *m z => sym.
  clearbody a b c d; rewrite !mxE sym /GRing.add /GRing.mul /=; ring.
Qed.

(** Cauchy-Schwarz for a positive definite form. *)
Lemma cauchy_schwarz_qf n (A : 'M[R]_n) y z : posdef A ->
  Rle (Rmult ((y^T *m A *m z) ord0 ord0) ((y^T *m A *m z) ord0 ord0)) (Rmult (qf A y) (qf A z)).
Proof.
  move=> pd; case: (eqVneq z 0) => [-> | h].
  { rewrite mulmx0 !mxE qf0 /GRing.zero /=; lra. }
  have p := proj2 pd _ h; set b := (y^T *m A *m z) ord0 ord0.
  have := proj2 (posdef_psd pd) (y + (Ropp (Rdiv b (qf A z))) *: z).
  rewrite (qf_line (proj1 pd)) -/b; move: p; set q := qf A z; set r := qf A y => p h1.
  have e : Rplus (Rmult 2 (Rmult (Ropp (Rdiv b q)) b)) (Rmult (Ropp (Rdiv b q)) (Rmult (Ropp (Rdiv b q)) q))
    = Ropp (Rdiv (Rmult b b) q) by field; lra.
  rewrite e in h1.
  have : Rle (Rmult (Rdiv (Rmult b b) q) q) (Rmult r q) by apply: Rmult_le_compat_r; lra.
  have -> : Rmult (Rdiv (Rmult b b) q) q = Rmult b b by field; lra.
  exact.
Qed.

Lemma coercive n (A : 'M[R]_n) : posdef A -> exists c, Rlt 0 c /\ forall x, Rle (Rmult c (nrm x)) (qf A x).
Proof.
  move=> pd; have u := posdef_unit pd.
  have [C [C0 bound]] := qf_bound (invmx A); exists (Rinv C); split; first exact: Rinv_0_lt_compat.
  move=> x; case: (eqVneq x 0) => [-> | h].
  { rewrite /nrm !qf0 /GRing.zero /=; lra. }
  have cs := cauchy_schwarz_qf x (invmx A *m x) pd.
  have e1 : (x^T *m A *m (invmx A *m x)) ord0 ord0 = nrm x.
  { by rewrite /nrm /qf mulmx1 -mulmxA (mulKVmx u). }
  have e2 : qf A (invmx A *m x) = qf (invmx A) x.
  { by rewrite /qf trmx_mul trmx_inv (proj1 pd) -!mulmxA (mulKVmx u). }
  rewrite e1 e2 in cs.
  have p := nrm_pos h; have q := proj2 pd _ h.
  have r := Rle_trans _ _ _ (Rle_abs _) (bound x).
  move: cs p q r; set N := nrm x; set a := qf A x; set b := qf (invmx A) x => cs p q r.
  apply: (Rmult_le_reg_l C) => //; rewrite -Rmult_assoc Rinv_r ?Rmult_1_l; last lra.
  apply: (Rmult_le_reg_l N) => //; nra.
Qed.

(** The smallest eigenvalue of a symmetric matrix. *)
Lemma min_eigenvalue n (A : 'M[R]_n) : A^T = A -> (0 < n)%N ->
  exists l, is_eigenvalue A l 0 /\ forall x, Rle (Rmult l (nrm x)) (qf A x).
Proof.
  case: n A => // n A s _.
  set E := fun t : R => forall x, Rle (Rmult t (nrm x)) (qf A x).
  have [C [C0 bnd]] := qf_bound A.
  have ne : exists t, E t.
  { exists (Ropp C) => x; have := bnd x; have := Rle_abs (Ropp (qf A x)); rewrite Rabs_Ropp.
    set a := Rabs _; set b := qf A x; set N := nrm x; lra. }
  set x0 : 'cV[R]_n.+1 := delta_mx ord0 ord0.
  have nz : x0 != 0.
  { apply/eqP => /(congr1 (fun M : 'cV[R]_n.+1 => M ord0 ord0)); rewrite !mxE /= => e; exact: R1_neq_R0 e. }
  have bd : bound E.
  { exists (Rdiv (qf A x0) (nrm x0)) => t /(_ x0); have := nrm_pos nz.
    set N := nrm x0; set a := qf A x0 => p h.
    apply: (Rmult_le_reg_r N) => //; have -> : Rmult (Rdiv a N) N = a by field; lra. exact h. }
  have [l [up least]] := completeness E bd ne.
  have El : E l.
  { move=> x; case: (eqVneq x 0) => [-> | h]; first by rewrite /nrm !qf0 /GRing.zero /=; lra.
    have p := nrm_pos h.
    have : Rle l (Rdiv (qf A x) (nrm x)).
    { apply: least => t /(_ x); move: p; set N := nrm x; set a := qf A x => p q.
      apply: (Rmult_le_reg_r N) => //; have -> : Rmult (Rdiv a N) N = a by field; lra. exact q. }
    move: p; set N := nrm x; set a := qf A x => p q.
    have := Rmult_le_compat_r N _ _ (Rlt_le _ _ p) q.
    have -> : Rmult (Rdiv a N) N = a by field; lra. exact. }
  have qB : forall x, qf (A - l *: 1%:M) x = Rminus (qf A x) (Rmult l (nrm x)).
  { by move=> x; rewrite qf_sub qf_scale. }
  have sB : (A - l *: 1%:M)^T = A - l *: 1%:M by rewrite linearB linearZ /= trmx1 s.
  have pB : psd (A - l *: 1%:M).
  { split=> // x; rewrite qB; have := El x; set a := qf A x; set N := Rmult _ _; lra. }
  have [x [h z]] : exists x : 'cV[R]_n.+1, x != 0 /\ qf (A - l *: 1%:M) x = 0.
  { case: (Classical_Prop.classic (exists x : 'cV[R]_n.+1, x != 0 /\ qf (A - l *: 1%:M) x = 0)) => // no.
    have pd : posdef (A - l *: 1%:M).
    { split=> // x h; case: (Rle_lt_or_eq_dec _ _ (proj2 pB x)) => // e.
      case: no; exists x; split=> //; by rewrite -e. }
    have [c [c0 hc]] := coercive pd.
    have : Rle (Rplus l c) l.
    { apply: up => x; have := hc x; rewrite qB; set a := qf A x; set N := nrm x; lra. }
    lra. }
  exists l; split=> //; exists x, 0; split; first by left.
  have := psd_kernel pB z; rewrite mulmxBl -scalemxAl mul1mx => /eqP; rewrite subr_eq0 => /eqP ->.
  by rewrite scaler0 subr0 mulmx0 scale0r scaler0 addr0.
Qed.

(** A symmetric matrix is positive definite exactly when its eigenvalues are positive. *)
Lemma posdef_eigenvalues n (A : 'M[R]_n) : A^T = A ->
  (posdef A <-> forall a b, is_eigenvalue A a b -> Rlt 0 a).
Proof.
  move=> s; split.
  - move=> pd a b [u [v [nz [eu ev]]]].
    have hu : qf A u = Rminus (Rmult a (nrm u)) (Rmult b ((u^T *m v) ord0 ord0)).
    { have e : forall M N : 'M[R]_1, (a *: M - b *: N) ord0 ord0
        = Rminus (Rmult a (M ord0 ord0)) (Rmult b (N ord0 ord0)) by move=> M N; rewrite !mxE.
      by rewrite /qf -mulmxA eu mulmxBr -!scalemxAr e /nrm /qf mulmx1. }
    have hv : qf A v = Rplus (Rmult b ((u^T *m v) ord0 ord0)) (Rmult a (nrm v)).
    { have ent : forall (c : R) (M : 'M[R]_1), (c *: M) ord0 ord0 = Rmult c (M ord0 ord0).
      { by move=> c M; rewrite mxE. }
      have add : forall M N : 'M[R]_1, (M + N) ord0 ord0 = Rplus (M ord0 ord0) (N ord0 ord0).
      { by move=> M N; rewrite mxE. }
      have sy : (v^T *m u) ord0 ord0 = (u^T *m v) ord0 ord0.
      { by rewrite -[in RHS](trmxK (u^T *m v)) [RHS]mxE trmx_mul trmxK. }
      by rewrite /qf -mulmxA ev mulmxDr -!scalemxAr add !ent sy /nrm /qf mulmx1. }
    have nu := nrm_ge0 u; have nv := nrm_ge0 v.
    have pu := proj2 (posdef_psd pd) u; have pv := proj2 (posdef_psd pd) v.
    have su : Rlt 0 (Rplus (qf A u) (qf A v)).
    { case: nz => h; have := proj2 pd _ h; move: pu pv; set x := qf A u; set y := qf A v; lra. }
    have sn : Rle 0 (Rplus (nrm u) (nrm v)) by move: nu nv; set x := nrm u; set y := nrm v; lra.
    have : Rlt 0 (Rmult a (Rplus (nrm u) (nrm v))).
    { move: su; rewrite hu hv; set x := nrm u; set y := nrm v; set w := _ ord0 ord0; lra. }
    move: sn; set x := Rplus _ _ => sn h.
    case: (Rlt_or_le 0 a) => // le; nra.
  - move=> h; split=> // x nz.
    have n0 : (0 < n)%N.
    { case: n A s h x nz => // A s h x; case/eqP; apply/matrixP => i; by case: i. }
    have [l [el lo]] := min_eigenvalue s n0.
    have lp := h _ _ el; have := lo x; have := nrm_pos nz.
    set N := nrm x; set q := qf A x => p1 p2; nra.
Qed.

(** Functions doing what is asked of [np.linalg.eigvals] and [jnp.linalg.cholesky] on all
    symmetric matrices. *)
From Coq Require Import ClassicalEpsilon.
From Verif Require Import Base UtilsModel JaxModel SamplersModel GaussianModel MultivariateModel.
From mathcomp Require Import all_ssreflect ssralg poly matrix mxalgebra mxpoly.
From Verif Require Import RStruct PosDef MatrixBridge GaussianSpec MultivariateSpec MultivariateThms MixturesSpec.
Set Implicit Arguments.
Unset Strict Implicit.
Unset Printing Implicit Defensive.
Import GRing.Theory.
Local Open Scope ring_scope.

(** A non-zero polynomial has finitely many roots. *)
Lemma finite_roots (p : {poly R}) : p != 0 -> exists l : list R, forall a, List.In a l <-> root p a.
Proof.
  move=> nz.
  have step : forall k, (exists l : list R, forall a, List.In a l <-> root p a) \/
    exists rs : seq R, [/\ size rs = k, uniq rs & all (root p) rs].
  { elim=> [|k [h|[rs [sz un al]]]]; [by right; exists [::] | by left |].
    case: (classic (exists a, root p a /\ a \notin rs)) => [[a [ra na]]|h].
    - right; exists (a :: rs); by rewrite /= sz na un ra al.
    - left; exists rs => a; split.
      + move=> hin; move/allP: al; apply; by elim: rs hin {sz un h} => //= b rs IH [->|/IH]; rewrite inE ?eqxx // => ->; rewrite orbT.
      + move=> ra; case hi: (a \in rs); last by case: h; exists a; rewrite hi.
        by elim: rs hi {sz un al h} => //= b rs IH; rewrite inE => /orP [/eqP ->|/IH]; [left | right]. }
  case: (step (size p)) => // -[rs [sz un al]].
  by have := max_poly_roots nz al un; rewrite sz ltnn.
Qed.

Lemma nrm_zero n (x : 'cV[R]_n) : nrm x = 0 -> x = 0.
Proof. move=> h; apply/eqP; case: (x =P 0) => // /eqP nz; have := nrm_pos nz; rewrite h => /Rlt_irrefl []. Qed.

(** The eigenvalues of a symmetric matrix are real. *)
Lemma symmetric_real n (A : 'M[R]_n) a b : A^T = A -> is_eigenvalue A a b -> b = 0.
Proof.
  move=> s [u [v [nz [eu ev]]]].
  have sy : (v^T *m A *m u) ord0 ord0 = (u^T *m A *m v) ord0 ord0.
  { by rewrite -[in RHS](trmxK (u^T *m A *m v)) [RHS]mxE !trmx_mul trmxK s mulmxA. }
  have su : (v^T *m u) ord0 ord0 = (u^T *m v) ord0 ord0.
  { by rewrite -[in RHS](trmxK (u^T *m v)) [RHS]mxE trmx_mul trmxK. }
  have e1 : (v^T *m A *m u) ord0 ord0 = Rminus (Rmult a ((v^T *m u) ord0 ord0)) (Rmult b (nrm v)).
  { have e : forall M N : 'M[R]_1, (a *: M - b *: N) ord0 ord0
      = Rminus (Rmult a (M ord0 ord0)) (Rmult b (N ord0 ord0)) by move=> M N; rewrite !mxE.
    by rewrite -mulmxA eu mulmxBr -!scalemxAr e /nrm /qf mulmx1. }
  have e2 : (u^T *m A *m v) ord0 ord0 = Rplus (Rmult b (nrm u)) (Rmult a ((u^T *m v) ord0 ord0)).
  { have e : forall M N : 'M[R]_1, (b *: M + a *: N) ord0 ord0
      = Rplus (Rmult b (M ord0 ord0)) (Rmult a (N ord0 ord0)) by move=> M N; rewrite !mxE.
    by rewrite -mulmxA ev mulmxDr -!scalemxAr e /nrm /qf mulmx1. }
  have pos : Rlt 0 (Rplus (nrm u) (nrm v)).
  { have := nrm_ge0 u; have := nrm_ge0 v; case: nz => /nrm_pos; lra. }
  move: sy; rewrite e1 e2 su => h; apply: (Rmult_eq_reg_r (Rplus (nrm u) (nrm v))); last by lra.
  lazymatch goal with |- ?l = ?r => change (@eq R l r) end.
  rewrite Rmult_0_l; lra.
Qed.

Lemma eigenvalue_real n (A : 'M[R]_n) a : A^T = A -> (is_eigenvalue A a 0 <-> eigenvalue A a).
Proof.
  move=> s; split.
  - move=> [u [v [nz [eu ev]]]]; apply/eigenvalueP.
    rewrite scale0r subr0 in eu; rewrite scale0r add0r in ev.
    have tr : forall w : 'cV[R]_n, A *m w = a *: w -> w^T *m A = a *: w^T.
    { by move=> w h; rewrite -[A in LHS]s -trmx_mul h linearZ. }
    have nt : forall w : 'cV[R]_n, w != 0 -> w^T != 0.
    { by move=> w /eqP h; apply/eqP => e; apply: h; rewrite -[w]trmxK e trmx0. }
    by case: nz => h; [exists u^T; [exact: tr | exact: nt] | exists v^T; [exact: tr | exact: nt]].
  - move=> /eigenvalueP [v ev nz]; exists v^T, 0; split.
    { left; by apply/eqP => e; move/eqP: nz; apply; rewrite -[v]trmxK e trmx0. }
    rewrite mulmx0 !scale0r !scaler0 addr0 subr0; split=> //.
    by rewrite -[A]s -trmx_mul ev linearZ.
Qed.

Lemma eigvals_exists : exists eigvals, eigvals_symmetric eigvals.
Proof.
  exists (fun C => epsilon (inhabits nil) (eigvals_ok (List.length C) C)) => n C sh s.
  rewrite (shape_length sh); apply: epsilon_spec.
  have nz : char_poly (to_mx n n C) != 0 := monic_neq0 (char_poly_monic _).
  have [l h] := finite_roots nz.
  exists (List.map (fun a => (a, IZR 0)) l) => a b; split.
  - move=> /List.in_map_iff [c [[<- <-] hc]]; apply: (proj2 (eigenvalue_real _ s)).
    by rewrite eigenvalue_root_char; apply: (proj1 (h c)).
  - move=> he; have b0 := symmetric_real s he; rewrite b0 in he *; apply/List.in_map_iff; exists a; split=> //.
    by apply: (proj2 (h a)); rewrite -eigenvalue_root_char; apply: (proj1 (eigenvalue_real _ s)).
Qed.

(** Both functions do the right thing on the matrices looked at for a symmetric covariance. *)
Lemma symmetric_slices m n (C : UtilsModel.matrix) : has_shape C (m + n) (m + n) -> (sigma m n C)^T = sigma m n C ->
  [/\ has_shape (square_slice C 0 m) m m, has_shape (square_slice C m (m + n)) n n,
      (to_mx m m (square_slice C 0 m))^T = to_mx m m (square_slice C 0 m)
    & (to_mx n n (square_slice C m (m + n)))^T = to_mx n n (square_slice C m (m + n))].
Proof.
  move=> sh s; split.
  - have := @slice_shape C (m + n) 0 m sh; rewrite add0n; apply; exact: leq_addr.
  - exact: (@slice_shape C (m + n)).
  - by rewrite (to_mx_ul m n) trmx_ulsub -/(sigma m n C) s.
  - by rewrite (to_mx_dr m n) trmx_drsub -/(sigma m n C) s.
Qed.

Lemma eigvals_symmetric_exact eigvals m n (C : UtilsModel.matrix) : eigvals_symmetric eigvals ->
  has_shape C (m + n) (m + n) -> (sigma m n C)^T = sigma m n C -> eigvals_exact eigvals m n C.
Proof.
  move=> ok sh s; have [s1 s2 t1 t2] := symmetric_slices sh s.
  split; [exact: ok | split; exact: ok].
Qed.

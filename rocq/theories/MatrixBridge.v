(** Lists of rows as mathcomp matrices; the model's determinant is mathcomp's. *)
From Verif Require Import Base UtilsModel JaxModel SamplersModel GaussianModel.
From mathcomp Require Import all_ssreflect ssralg matrix mxalgebra.
From Verif Require Import RStruct PosDef.
Set Implicit Arguments.
Unset Strict Implicit.
Unset Printing Implicit Defensive.
Import GRing.Theory.
Local Open Scope ring_scope.

(** The matrix with the entries of the list. *)
Definition to_mx (m n : nat) (M : UtilsModel.matrix) : 'M[R]_(m, n) :=
  \matrix_(i < m, j < n) entry M i j.

Lemma rsum_bigop (f : nat -> R) n : rsum (List.map f (List.seq 0 n)) = \sum_(i < n) f i.
Proof.
  suff h : forall k, rsum (List.map f (List.seq k n)) = \sum_(i < n) f (k + i)%N.
  { by rewrite h; apply: eq_bigr => i _; rewrite add0n. }
  elim: n => [|n IH] k; first by rewrite big_ord0.
  rewrite big_ord_recl /= addn0.
  change (Rplus (f k) (rsum (List.map f (List.seq k.+1 n))) = f k + \sum_(i < n) f (k + bump 0 i)%N).
  rewrite IH; congr (_ + _); apply: eq_bigr => i _; by rewrite /bump /= add1n addSnnS.
Qed.

Lemma pow_exp (x : R) n : pow x n = x ^+ n.
Proof. by elim: n => [|n IH] //=; rewrite exprS IH. Qed.

Lemma nth_drop_col j row k : List.nth k (drop_col j row) 0%R = List.nth (bump j k) row 0%R.
Proof.
  rewrite /drop_col /bump.
  elim: row j k => [|a row IH] j k.
  - by rewrite List.firstn_nil List.skipn_nil; case: (_ + _)%N; case: k.
  - case: j => [|j].
    + by [].
    + case: k => [|k]; first by rewrite /= .
      by rewrite /= IH; rewrite ltnS; case: (j <= k)%N.
Qed.

Lemma shape_length M m n : has_shape M m n -> List.length M = m.
Proof. by rewrite /has_shape => /andP [/PeanoNat.Nat.eqb_eq]. Qed.

Lemma nth_tl_map (f : list R -> list R) (M : UtilsModel.matrix) k :
  f nil = nil -> List.nth k (List.map f (List.tl M)) nil = f (List.nth k.+1 M nil).
Proof.
  move=> e; case: M => [|r M] /=; first by case: k.
  by rewrite -{1}e List.map_nth.
Qed.

Lemma det_to_mx n (M : UtilsModel.matrix) : GaussianModel.det n M = \det (to_mx n n M).
Proof.
  elim: n M => [|n IH] M; first by rewrite det_mx00.
  rewrite (expand_det_row _ ord0).
  change (rsum (List.map (fun j => Rmult (Rmult (pow (Ropp 1) j) (List.nth j (List.hd nil M) 0%R))
    (GaussianModel.det n (List.map (drop_col j) (List.tl M)))) (List.seq 0 n.+1))
    = \sum_j to_mx n.+1 n.+1 M ord0 j * cofactor (to_mx n.+1 n.+1 M) ord0 j).
  rewrite rsum_bigop; apply: eq_bigr => j _.
  rewrite IH /cofactor add0n pow_exp mxE.
  have -> : row' ord0 (col' j (to_mx n.+1 n.+1 M)) = to_mx n n (List.map (drop_col j) (List.tl M)).
  { apply/matrixP => a b; rewrite !mxE /entry /=.
    rewrite nth_tl_map; last by rewrite /drop_col List.firstn_nil List.skipn_nil.
    by rewrite nth_drop_col /bump leq0n add1n. }
  rewrite /entry /=; have -> : List.nth 0 M nil = List.hd nil M by case: M.
  by rewrite mulrCA mulrA.
Qed.

Lemma nth_firstn_lt {A} (l : list A) d k i : (i < k)%N -> List.nth i (List.firstn k l) d = List.nth i l d.
Proof. by elim: l k i => [|a l IH] [|k] [|i] //= h; exact: IH. Qed.

Lemma nth_skipn_add {A} (l : list A) d k i : List.nth i (List.skipn k l) d = List.nth (k + i)%N l d.
Proof. by elim: l k i => [|a l IH] [|k] [|i] //=; rewrite IH. Qed.

Lemma entry_slice C lo k i j : (i < k)%N -> (j < k)%N ->
  entry (square_slice C lo (lo + k)) i j = entry C (lo + i)%N (lo + j)%N.
Proof.
  move=> hi hj; rewrite /entry /square_slice.
  have -> : (lo + k - lo)%coq_nat = k by rewrite -plusE; lia.
  have e : forall l : list (list R), List.nth i (List.map (fun row => List.firstn k (List.skipn lo row)) l) nil
    = List.firstn k (List.skipn lo (List.nth i l nil)).
  { move=> l; rewrite -(List.map_nth (fun row => List.firstn k (List.skipn lo row))).
    by rewrite List.skipn_nil List.firstn_nil. }
  by rewrite e nth_firstn_lt // nth_skipn_add nth_firstn_lt // nth_skipn_add.
Qed.

Lemma to_mx_ul m n C : to_mx m m (square_slice C 0 m) = ulsubmx (to_mx (m + n) (m + n) C).
Proof.
  apply/matrixP => i j; rewrite !mxE.
  by rewrite -[m in square_slice C 0 m]add0n entry_slice // !add0n.
Qed.

Lemma to_mx_dr m n C : to_mx n n (square_slice C m (m + n)) = drsubmx (to_mx (m + n) (m + n) C).
Proof. by apply/matrixP => i j; rewrite !mxE entry_slice. Qed.

Lemma has_shapeP M r c : reflect (List.length M = r /\ List.Forall (fun row => List.length row = c) M) (has_shape M r c).
Proof.
  apply: (iffP andP).
  - case=> /PeanoNat.Nat.eqb_eq h /List.forallb_forall f; split=> //.
    by apply/List.Forall_forall => row /f /PeanoNat.Nat.eqb_eq.
  - case=> h f; split; first by apply/PeanoNat.Nat.eqb_eq.
    apply/List.forallb_forall => row i; apply/PeanoNat.Nat.eqb_eq.
    by move/List.Forall_forall: f => /(_ row i).
Qed.

Lemma slice_shape C n lo k : has_shape C n n -> (lo + k <= n)%N -> has_shape (square_slice C lo (lo + k)) k k.
Proof.
  move/has_shapeP => [h f] le; apply/has_shapeP; rewrite /square_slice.
  have -> : (lo + k - lo)%coq_nat = k by rewrite -plusE; lia.
  move/leP: le; rewrite -plusE => le; split.
  - rewrite List.map_length List.firstn_length List.skipn_length h; lia.
  - apply/List.Forall_forall => row /List.in_map_iff [r [<- i]].
    have hr : List.length r = n.
    { move/List.Forall_forall: f; apply.
      have j := List.firstn_skipn k (List.skipn lo C).
      have i1 : List.In r (List.skipn lo C) by rewrite -j; apply/List.in_app_iff; left.
      have j2 := List.firstn_skipn lo C; rewrite -j2; apply/List.in_app_iff; by right. }
    rewrite List.firstn_length List.skipn_length hr; lia.
Qed.

Lemma to_mx_sym n C : (to_mx n n C)^T = to_mx n n C <->
  forall i j, (i < n)%N -> (j < n)%N -> entry C i j = entry C j i.
Proof.
  split.
  - move/matrixP => h i j hi hj; have := h (Ordinal hj) (Ordinal hi); by rewrite !mxE.
  - by move=> h; apply/matrixP => i j; rewrite !mxE; apply: h.
Qed.

(** Triangular factors, forward substitution and the densities of TFP. *)
From Verif Require Import Base UtilsModel JaxModel SamplersModel GaussianModel BmmModel MultivariateModel BaseLemmas.
From mathcomp Require Import all_ssreflect ssralg matrix mxalgebra.
From Verif Require Import RStruct PosDef MatrixBridge GaussianSpec GaussianProofs ExpectationProofs GaussianThms MultivariateSpec.
Set Implicit Arguments.
Unset Strict Implicit.
Unset Printing Implicit Defensive.
Import GRing.Theory.
Local Open Scope ring_scope.

(** ** Forward substitution *)

Lemma dot_sum (a b : list R) : (List.length b <= List.length a)%coq_nat ->
  dot a b = rsum (List.map (fun j => Rmult (List.nth j a (IZR 0)) (List.nth j b (IZR 0))) (List.seq 0 (List.length b))).
Proof.
  elim: b a => [|y b IH] [|x a] h //=; try (by move: h => /= h; lia).
  rewrite /dot /=; congr Rplus.
  rewrite -/(dot a b) IH; last by move: h => /= h; lia.
  by rewrite -List.seq_shift List.map_map.
Qed.

Lemma forward_app (rows : UtilsModel.matrix) (b acc : list R) : List.length rows = List.length b ->
  exists ws, List.length ws = List.length b /\ forward_solve rows b acc = List.app acc ws.
Proof.
  elim: rows b acc => [|row rows IH] [|v b] acc //= h.
  - exists nil; by rewrite List.app_nil_r.
  - have h' : List.length rows = List.length b by lia.
    set w := Rdiv _ _.
    have [ws [e1 e2]] := IH b (List.app acc [:: w]) h'.
    exists (w :: ws); split; first by rewrite /= e1.
    by rewrite e2 -List.app_assoc.
Qed.

Lemma forward_spec (rows : UtilsModel.matrix) (b acc : list R) k i : List.length rows = List.length b ->
  List.length acc = k ->
  (i < List.length rows)%coq_nat ->
  (forall r, List.In r rows -> (k + List.length rows <= List.length r)%coq_nat) ->
  List.nth (k + i) (List.nth i rows nil) (IZR 0) <> IZR 0 ->
  let res := forward_solve rows b acc in
  Rplus (rsum (List.map (fun j => Rmult (List.nth j (List.nth i rows nil) (IZR 0)) (List.nth j res (IZR 0))) (List.seq 0 (k + i)%coq_nat)))
        (Rmult (List.nth (k + i) (List.nth i rows nil) (IZR 0)) (List.nth (k + i) res (IZR 0)))
  = List.nth i b (IZR 0).
Proof.
  elim: rows b acc k i => [|row rows IH] [|v b] acc k i //= h ek hi wide nz; first by lia.
  have h' : List.length rows = List.length b by lia.
  case: i hi nz => [|i] hi nz.
  - rewrite -!plusE PeanoNat.Nat.add_0_r in nz *.
    set w := Rdiv _ _.
    have [ws [e1 ->]] := forward_app (List.app acc [:: w]) h'.
    rewrite -List.app_assoc /=.
    have -> : List.nth k (List.app acc (w :: ws)) (IZR 0) = w.
    { by rewrite -ek List.app_nth2 // PeanoNat.Nat.sub_diag. }
    have -> : List.map (fun j => Rmult (List.nth j row (IZR 0)) (List.nth j (List.app acc (w :: ws)) (IZR 0))) (List.seq 0 k)
      = List.map (fun j => Rmult (List.nth j row (IZR 0)) (List.nth j acc (IZR 0))) (List.seq 0 k).
    { apply: List.map_ext_in => j /List.in_seq [_ hj]; rewrite List.app_nth1 // ek; lia. }
    have := @dot_sum row acc; rewrite ek => <-; last by (have hw := wide row (or_introl erefl); exact: (PeanoNat.Nat.le_trans _ _ _ (PeanoNat.Nat.le_add_r _ _) hw)).
    rewrite /w ek.
    set d := dot row acc; set p := List.nth k row _ in nz *; clearbody d p.
    lazymatch goal with |- ?l = ?r => change (@eq R l r) end; field; exact: nz.
  - set w := Rdiv _ _.
    have e : (k + i.+1)%N = (k.+1 + i)%N by rewrite addnS addSn.
    have ec : (k + i.+1)%coq_nat = (k.+1 + i)%coq_nat by lia.
    rewrite e in nz *; rewrite ec.
    apply: (IH b (List.app acc [:: w]) k.+1 i h').
    + rewrite List.app_length /= ek; lia.
    + lia.
    + move=> r hr; have := wide r (or_intror hr); rewrite -addSnnS; exact: id.
    + exact: nz.
Qed.

(** ** Vectors *)

Lemma nth_of_cv n (v : 'cV[R]_n) (i : 'I_n) : List.nth i (of_cv v) (IZR 0) = v i ord0.
Proof.
  have e : forall (l : list R) k d, List.nth k l d = nth d l k by elim=> [|a l IH] [|k] d //=.
  rewrite /of_cv e (nth_map i) ?size_enum_ord //; congr (v _ _).
  by rewrite nth_ord_enum.
Qed.

Lemma length_of_cv n (v : 'cV[R]_n) : List.length (of_cv v) = n.
Proof. have e : forall l : list R, List.length l = size l by elim=> [|a l IH] //=; rewrite IH. 
  by rewrite e size_map size_enum_ord. Qed.

Lemma of_cvK n (v : 'cV[R]_n) : to_cv n (of_cv v) = v.
Proof. by apply/matrixP => i j; rewrite mxE (ord1 j) nth_of_cv. Qed.

Lemma to_cv_app m n (x y : list R) : List.length x = m -> to_cv (m + n) (List.app x y) = col_mx (to_cv m x) (to_cv n y).
Proof.
  move=> h; apply/matrixP => i j; rewrite (ord1 j) -(splitK i); case: (split i) => k /=.
  - rewrite col_mxEu !mxE /= List.app_nth1 // h; exact/ltP.
  - rewrite col_mxEd !mxE /= List.app_nth2; last by rewrite h; apply/leP; exact: leq_addr.
    by rewrite h minusE addKn.
Qed.

Lemma to_cv_firstn m n (l : list R) : to_cv m (List.firstn m l) = usubmx (to_cv (m + n) l).
Proof. by apply/matrixP => i j; rewrite !mxE /= nth_firstn_lt. Qed.

Lemma to_cv_skipn m n (l : list R) : to_cv n (List.skipn m l) = dsubmx (to_cv (m + n) l).
Proof. by apply/matrixP => i j; rewrite !mxE /= nth_skipn_add. Qed.

Lemma to_cv_sub n (z mu : list R) : List.length z = n -> List.length mu = n ->
  to_cv n (List.map (fun p => Rminus (fst p) (snd p)) (List.combine z mu)) = to_cv n z - to_cv n mu.
Proof.
  move=> hz hm; apply/matrixP => i j; rewrite !mxE.
  have e : forall (a b : list R) k, List.length a = List.length b ->
    List.nth k (List.map (fun p => Rminus (fst p) (snd p)) (List.combine a b)) (IZR 0)
    = Rminus (List.nth k a (IZR 0)) (List.nth k b (IZR 0)).
  { elim=> [|x a IH] [|y b] [|k] //= h; try by rewrite Rminus_0_r.
    by apply: IH; lia. }
  by rewrite e ?hz ?hm.
Qed.

Lemma rsum_of_list n (f : R -> R) (l : list R) : List.length l = n ->
  rsum (List.map f l) = \sum_(i < n) f (List.nth i l (IZR 0)).
Proof.
  move=> h; rewrite -(rsum_bigop (fun i => f (List.nth i l (IZR 0))) n) -h.
  elim: l {h n} => [|a l IH] //=.
  by congr Rplus; rewrite -List.seq_shift List.map_map IH.
Qed.

(** ** Triangular factors *)

Lemma trig_solve n (L : UtilsModel.matrix) (b : list R) : has_shape L n n -> List.length b = n ->
  is_trig_mx (to_mx n n L) -> (forall i : 'I_n, Rlt 0 (to_mx n n L i i)) ->
  let w := forward_solve L b nil in
  List.length w = n /\ to_mx n n L *m to_cv n w = to_cv n b.
Proof.
  move=> /has_shapeP [hl hr] hb tr pos w.
  have h : List.length L = List.length b by rewrite hl hb.
  have lw : List.length w = n.
  { have [ws [e1 e2]] := forward_app nil h; rewrite /w e2 /= e1; exact: hb. }
  split=> //; apply/matrixP => i j; rewrite (ord1 j) !mxE.
  have wide : forall r, List.In r L -> (0 + List.length L <= List.length r)%coq_nat.
  { move=> r /(proj1 (List.Forall_forall _ _) hr); rewrite hl => ->; exact: PeanoNat.Nat.le_refl. }
  have nz : List.nth (0 + i) (List.nth i L nil) (IZR 0) <> IZR 0.
  { have := pos i; rewrite mxE /entry => p e; rewrite e in p; exact: (Rlt_irrefl _ p). }
  have hi : (i < List.length L)%coq_nat by rewrite hl; exact/ltP.
  have := @forward_spec L b nil 0%N i h erefl hi wide nz.
  rewrite -/w /= => <-.
  rewrite (rsum_bigop (fun k => Rmult (List.nth k (List.nth i L nil) (IZR 0)) (List.nth k w (IZR 0))) i).
  have in_ : (i < n)%N by [].
  have e : (n = i.+1 + (n - i.+1))%N by rewrite subnKC.
  rewrite (eq_bigr (fun k : 'I_n => (fun k : nat => entry L i k * List.nth k w (IZR 0)) k)); last by move=> k _; rewrite !mxE.
  rewrite -(big_mkord xpredT (fun k => entry L i k * List.nth k w (IZR 0))).
  rewrite (@big_cat_nat _ _ _ i.+1) //= [X in _ + X]big_nat_cond [X in _ + X]big1 ?addr0; last first.
  { move=> k /andP [/andP [h1 h2] _].
    have t := elimT is_trig_mxP tr i (Ordinal h2) h1; rewrite mxE /= in t; by rewrite t mul0r. }
  by rewrite big_mkord big_ord_recr.
Qed.

Lemma trig_det n (L : UtilsModel.matrix) : has_shape L n n ->
  is_trig_mx (to_mx n n L) -> (forall i : 'I_n, Rlt 0 (to_mx n n L i i)) ->
  Rlt 0 (\det (to_mx n n L)) /\ log_abs_det L = ln (\det (to_mx n n L)).
Proof.
  move=> sh tr pos; rewrite /log_abs_det (shape_length sh).
  rewrite (rsum_bigop (fun i => ln (Rabs (entry L i i))) n) (det_trig tr).
  have p : forall i : 'I_n, Rlt 0 (entry L i i) by move=> i; have := pos i; rewrite mxE.
  have -> : \sum_(i < n) ln (Rabs (entry L i i)) = \sum_(i < n) ln (entry L i i).
  { apply: eq_bigr => i _; rewrite Rabs_right //; apply: Rle_ge; exact: Rlt_le. }
  have -> : \prod_(i < n) to_mx n n L i i = \prod_(i < n) entry L i i.
  { apply: eq_bigr => i _; by rewrite mxE. }
  elim: n {sh tr pos} p => [|n IH] p.
  - rewrite !big_ord0; split; first exact: Rlt_0_1. by rewrite ln_1.
  - rewrite !big_ord_recr /=.
    have [q1 q2] := IH (fun i => p (widen_ord (leqnSn n) i)).
    have pm := p ord_max; rewrite /= in pm.
    split; first exact: Rmult_lt_0_compat.
    rewrite q2; exact: (esym (ln_mult _ _ q1 pm)).
Qed.

Lemma factor_posdef n (L A : 'M[R]_n) : lower_factor L A -> posdef A.
Proof.
  move=> [tr pos <-].
  have d : Rlt 0 (\det L).
  { rewrite (det_trig tr); elim/big_ind: _ => //; first exact: Rlt_0_1. exact: Rmult_lt_0_compat. }
  have u : L \in unitmx.
  { rewrite unitmxE unitfE; apply/eqP => e; rewrite e in d; exact: (Rlt_irrefl _ d). }
  have := congruence_posdef u (posdef_1 n); by rewrite mulmx1.
Qed.

(** The quadratic form of the inverse is the squared length of the solution. *)
Lemma factor_qf n (L A : 'M[R]_n) (w v : 'cV[R]_n) : lower_factor L A -> L *m w = v ->
  qf (invmx A) v = \sum_i Rmult (w i ord0) (w i ord0).
Proof.
  move=> f e; have pd := factor_posdef f; have uA := posdef_unit pd.
  case: f => tr pos eA.
  have u : L \in unitmx /\ L^T \in unitmx.
  { have := uA; by rewrite -eA unitmx_mul => /andP. }
  case: u => uL uT.
  have -> : invmx A = invmx (L^T) *m invmx L.
  { apply: (row_free_inj (A := A)); first by rewrite row_free_unit.
    rewrite (mulVmx uA) -eA -!mulmxA (mulmxA (invmx L)) (mulVmx uL) mul1mx (mulVmx uT) //. }
  rewrite /qf -e trmx_mul -!mulmxA (mulmxA (invmx L)) (mulVmx uL) mul1mx.
  rewrite (mulmxA (L^T)) (mulmxV uT) mul1mx mxE; apply: eq_bigr => i _; by rewrite mxE.
Qed.

Lemma factor_det n (L A : 'M[R]_n) : lower_factor L A -> Rlt 0 (\det L) /\ ln (\det A) = Rmult 2 (ln (\det L)).
Proof.
  move=> [tr pos <-].
  have d : Rlt 0 (\det L).
  { rewrite (det_trig tr); elim/big_ind: _ => //; first exact: Rlt_0_1. exact: Rmult_lt_0_compat. }
  split=> //; rewrite det_mulmx det_tr.
  change (\det L * \det L) with (Rmult (\det L) (\det L)).
  rewrite (ln_mult _ _ d d); set l := ln _; lra.
Qed.

Lemma symmetric_part_id n (A : 'M[R]_n) : A^T = A -> symmetric_part A = A.
Proof.
  move=> s; apply/matrixP => i j; rewrite /symmetric_part s !mxE.
  change (Rmult (/ IZR 2) (Rplus (A i j) (A i j)) = A i j); lra.
Qed.

(** ** Densities *)

Lemma residual_spec n (loc : list R) (L : UtilsModel.matrix) (z : list R) A : has_shape L n n ->
  List.length loc = n -> List.length z = n -> lower_factor (to_mx n n L) A ->
  List.length (residual loc L z) = n /\
  rsum (List.map (fun w => pow w 2) (residual loc L z)) = qf (invmx A) (to_cv n z - to_cv n loc).
Proof.
  move=> sh hl hz f; case: (f) => tr pos eA.
  have hb : List.length (List.map (fun p : R * R => Rminus (fst p) (snd p)) (List.combine z loc)) = n.
  { rewrite List.map_length List.combine_length hl hz; exact: PeanoNat.Nat.min_id. }
  have [lw ew] := trig_solve sh hb tr pos.
  split=> //; rewrite (to_cv_sub hz hl) in ew.
  rewrite (factor_qf f ew) (rsum_of_list _ lw); apply: eq_bigr => i _.
  rewrite mxE -/(residual loc L z); set w := List.nth _ _ _; cbn [pow]; by rewrite Rmult_1_r.
Qed.

Lemma rsum_const_shift (f : R -> R) c (l : list R) :
  rsum (List.map (fun w => Rminus (Ropp (Rdiv (f w) 2)) c) l)
  = Rminus (Rmult (Ropp (/ 2)) (rsum (List.map f l))) (Rmult (INR (List.length l)) c).
Proof.
  elim: l => [|a l IH].
  - cbn [List.map rsum List.length INR]; lazymatch goal with |- ?l = ?r => change (@eq R l r) end; cbn; field.
  - cbn [List.map List.length]; rewrite S_INR.
    change (Rplus (Rminus (Ropp (Rdiv (f a) 2)) c) (rsum (List.map (fun w => Rminus (Ropp (Rdiv (f w) 2)) c) l))
     = Rminus (Rmult (Ropp (/ 2)) (Rplus (f a) (rsum (List.map f l)))) (Rmult (Rplus (INR (List.length l)) 1) c)).
    rewrite IH; set s := rsum _; clearbody s; lazymatch goal with |- ?l = ?r => change (@eq R l r) end; field.
Qed.

Lemma normal_density_part n (loc : list R) (C : UtilsModel.matrix) r (z : list R) :
  posdef (symmetric_part (to_mx n n C)) -> cholesky_ok n C r ->
  List.length loc = n -> List.length z = n ->
  normal_log_prob loc r z = Fin (normal_log_density (to_cv n loc) (symmetric_part (to_mx n n C)) (to_cv n z)).
Proof.
  move=> pd; rewrite /cholesky_ok; case: r => [L|] //.
  move=> [sh f] hl hz; rewrite /normal_log_prob; congr Fin.
  have [lw ew] := residual_spec sh hl hz f.
  rewrite (rsum_const_shift (fun w => pow w 2)) ew lw /normal_log_density.
  case: (f) => tr pos _; have [_ ->] := trig_det sh tr pos; have [_ ->] := factor_det f.
  set a := INR n; set b := ln (Rmult _ _); set q := qf _ _; set d := ln (\det _); clearbody a b q d.
  lazymatch goal with |- ?l = ?r => change (@eq R l r) end; field.
Qed.

Lemma normal_density n (loc : list R) (C : UtilsModel.matrix) r (z : list R) :
  (to_mx n n C)^T = to_mx n n C -> posdef (to_mx n n C) -> cholesky_ok n C r ->
  List.length loc = n -> List.length z = n ->
  normal_log_prob loc r z = Fin (normal_log_density (to_cv n loc) (to_mx n n C) (to_cv n z)).
Proof.
  move=> sy pd ok hl hz; have e := symmetric_part_id sy.
  by rewrite (@normal_density_part n loc C r z) ?e.
Qed.

Lemma student_density log_gamma df n (loc : list R) (C : UtilsModel.matrix) r (z : list R) : Rlt 0 df ->
  (to_mx n n C)^T = to_mx n n C -> posdef (to_mx n n C) -> cholesky_ok n C r ->
  List.length loc = n -> List.length z = n ->
  student_log_prob log_gamma (Fin df) loc r z
  = Fin (student_log_density log_gamma df (to_cv n loc) (to_mx n n C) (to_cv n z)).
Proof.
  move=> p sy pd; rewrite /cholesky_ok (symmetric_part_id sy); case: r => [L|] //.
  move=> [sh f] hl hz; rewrite /student_log_prob hl; congr Fin.
  have [lw ->] := residual_spec sh hl hz f.
  case: (f) => tr pos _; have [_ ->] := trig_det sh tr pos; have [_ ed] := factor_det f.
  rewrite /student_log_density ed (ln_mult _ _ p PI_RGT_0).
  have -> : Rplus (Rdiv (INR n) 2) (Rdiv df 2) = Rdiv (Rplus df (INR n)) 2.
  { lazymatch goal with |- ?l = ?r => change (@eq R l r) end; field. }
  set a := INR n; set b := ln df; set b' := ln PI; set q := ln (Rplus 1 _); set d := ln (\det _).
  set g1 := log_gamma _; set g2 := log_gamma _; clearbody a b b' q d g1 g2.
  lazymatch goal with |- ?l = ?r => change (@eq R l r) end; field.
Qed.

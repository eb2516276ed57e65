(** Concrete samplers for the examples of GaussianProps.v. *)
From Verif Require Import Base UtilsModel JaxModel SamplersModel GaussianModel BaseLemmas.
From mathcomp Require Import all_ssreflect ssralg matrix mxalgebra.
From Verif Require Import RStruct PosDef MatrixBridge GaussianSpec GaussianProofs ExpectationProofs GaussianThms.
Set Implicit Arguments.
Unset Strict Implicit.
Unset Printing Implicit Defensive.
Import GRing.Theory.
Local Open Scope ring_scope.

Local Notation R0 := (IZR Z0).

(** Eigenvalues of the matrices [[a]] and [[a, c], [c, a]]. *)
Definition demo_eigvals (M : UtilsModel.matrix) : list (R * R) :=
  match M with
  | [:: [:: a]] => [:: (a, R0)]
  | [:: [:: a; c]; _] => [:: (Rplus a c, R0); (Rminus a c, R0)]
  | _ => [::]
  end.

Lemma complex_factor (d b p q : R) :
  Rmult d p = Ropp (Rmult b q) -> Rmult d q = Rmult b p -> p <> R0 \/ q <> R0 -> d = R0 /\ b = R0.
Proof.
  move=> h1 h2 nz.
  have e1 : Rmult (Rplus (Rmult d d) (Rmult b b)) p = R0.
  { have -> : Rmult (Rplus (Rmult d d) (Rmult b b)) p = Rplus (Rmult d (Rmult d p)) (Rmult b (Rmult b p)) by ring.
    rewrite h1 -h2; ring. }
  have e2 : Rmult (Rplus (Rmult d d) (Rmult b b)) q = R0.
  { have -> : Rmult (Rplus (Rmult d d) (Rmult b b)) q = Rplus (Rmult d (Rmult d q)) (Rmult b (Rmult b q)) by ring.
    have -> : Rmult b q = Ropp (Rmult d p) by lra.
    rewrite h2; ring. }
  have z : Rplus (Rmult d d) (Rmult b b) = R0.
  { case: nz => nz.
    - by case: (Rmult_integral _ _ e1).
    - by case: (Rmult_integral _ _ e2). }
  split; nra.
Qed.

Lemma cv2P (u : 'cV[R]_2) : (u != 0) = (u ord0 ord0 != 0) || (u ord_max ord0 != 0).
Proof.
  apply/idP/orP.
  - move=> nz; case: (eqVneq (u ord0 ord0) 0) => [e0|]; last by left.
    case: (eqVneq (u ord_max ord0) 0) => [e1|]; last by right.
    case/eqP: nz; apply/matrixP => i j; rewrite (ord1 j) [RHS]mxE.
    case: i => [[|[|i]] hi] //.
    + by rewrite (_ : Ordinal hi = ord0) //; apply/val_inj.
    + by rewrite (_ : Ordinal hi = ord_max) //; apply/val_inj.
  - by case; apply: contraNN => /eqP ->; rewrite mxE.
Qed.

Lemma eig1 a : eigvals_ok 1 [:: [:: a]] [:: (a, R0)].
Proof.
  move=> x y; split.
  - case=> // -[<- <-]; exists (const_mx 1), 0; split; first last.
    { rewrite scaler0 subr0 mulmx0 scaler0 scale0r addr0; split=> //.
      by apply/matrixP => i j; rewrite !mxE big_ord_recl big_ord0 !mxE addr0 (ord1 i). }
    left; apply/eqP => /(congr1 (fun M : 'cV[R]_1 => M ord0 ord0)); rewrite !mxE; exact: R1_neq_R0.
  - move=> [u [v [nz [h1 h2]]]]; left.
    move/(congr1 (fun M : 'cV[R]_1 => M ord0 ord0)): h1; move/(congr1 (fun M : 'cV[R]_1 => M ord0 ord0)): h2.
    rewrite !mxE !big_ord_recl !big_ord0 !mxE /entry /=.
    have nz' : u ord0 ord0 <> 0 \/ v ord0 ord0 <> 0.
    { case: nz => nz; [left | right] => e; case/eqP: nz; apply/matrixP => i j;
      by rewrite (ord1 i) (ord1 j) mxE. }
    move: nz'; set p := u ord0 ord0; set q := v ord0 ord0; clearbody p q => nz' h2 h1.
    have [] := @complex_factor (Rminus a x) y p q.
    + change (Rplus (Rmult a p) R0 = Rplus (Rmult x p) (Ropp (Rmult y q))) in h1; nra.
    + change (Rplus (Rmult a q) R0 = Rplus (Rmult y p) (Rmult x q)) in h2; nra.
    + exact nz'.
    + by move=> e1 ->; congr pair; lra.
Qed.

Lemma ord2_max : lift ord0 ord0 = ord_max :> 'I_2.
Proof. exact/val_inj. Qed.

Lemma eig2 a c : eigvals_ok 2 [:: [:: a; c]; [:: c; a]] [:: (Rplus a c, R0); (Rminus a c, R0)].
Proof.
  move=> x y; split.
  - case=> [[<- <-]|[[<- <-]|]] //.
    + exists (const_mx 1), 0; split; first by left; apply/eqP => /(congr1 (fun M : 'cV[R]_2 => M ord0 ord0)); rewrite !mxE; exact: R1_neq_R0.
      rewrite scaler0 subr0 mulmx0 scaler0 scale0r addr0; split=> //.
      apply/matrixP => i j; rewrite !mxE !big_ord_recl big_ord0 !mxE addr0 /entry.
      case: i => [[|[|i]] hi] //=; lazymatch goal with |- ?l = ?r => change (@eq R l r) end.
      * change (Rplus (Rmult a 1) (Rmult c 1) = Rmult (Rplus a c) 1); ring.
      * change (Rplus (Rmult c 1) (Rmult a 1) = Rmult (Rplus a c) 1); ring.
    + exists (\col_i (if i == ord0 then 1 else -1)), 0; split.
      { by left; apply/eqP => /(congr1 (fun M : 'cV[R]_2 => M ord0 ord0)); rewrite !mxE; exact: R1_neq_R0. }
      rewrite scaler0 subr0 mulmx0 scaler0 scale0r addr0; split=> //.
      apply/matrixP => i j; rewrite !mxE !big_ord_recl big_ord0 !mxE addr0 /entry.
      case: i => [[|[|i]] hi] //=; lazymatch goal with |- ?l = ?r => change (@eq R l r) end.
      * change (Rplus (Rmult a 1) (Rmult c (Ropp 1)) = Rmult (Rminus a c) 1); ring.
      * change (Rplus (Rmult c 1) (Rmult a (Ropp 1)) = Rmult (Rminus a c) (Ropp 1)); ring.
  - move=> [u [v [nz [h1 h2]]]].
    have nz' : (u ord0 ord0 <> R0 \/ u ord_max ord0 <> R0) \/ (v ord0 ord0 <> R0 \/ v ord_max ord0 <> R0).
    { by case: nz; rewrite cv2P => /orP [/eqP h|/eqP h]; [left; left | left; right | right; left | right; right]. }
    move/matrixP: h1 => h1; move/matrixP: h2 => h2.
    have := h1 ord0 ord0; have := h1 ord_max ord0; have := h2 ord0 ord0; have := h2 ord_max ord0; clear h1 h2.
    rewrite !mxE !big_ord_recl !big_ord0 !mxE /entry !ord2_max /=; move: nz'.
    set p := u ord0 ord0; set p' := u ord_max ord0; set q := v ord0 ord0; set q' := v ord_max ord0.
    clearbody p p' q q' => nz' g4 g3 g2 g1.
    change (Rplus (Rmult a p) (Rplus (Rmult c p') R0) = Rplus (Rmult x p) (Ropp (Rmult y q))) in g1.
    change (Rplus (Rmult c p) (Rplus (Rmult a p') R0) = Rplus (Rmult x p') (Ropp (Rmult y q'))) in g2.
    change (Rplus (Rmult a q) (Rplus (Rmult c q') R0) = Rplus (Rmult y p) (Rmult x q)) in g3.
    change (Rplus (Rmult c q) (Rplus (Rmult a q') R0) = Rplus (Rmult y p') (Rmult x q')) in g4.
    case: (Req_EM_T (Rplus p p') R0) => e1; [case: (Req_EM_T (Rplus q q') R0) => e2 |].
    + have nz2 : Rminus p p' <> R0 \/ Rminus q q' <> R0.
      { case: (Req_EM_T (Rminus p p') R0) => e3; [case: (Req_EM_T (Rminus q q') R0) => e4; [|by right] | by left].
        case: nz' => [[]|[]] []; lra. }
      right; left; have [] := @complex_factor (Rminus (Rminus a c) x) y (Rminus p p') (Rminus q q').
      * lra.
      * lra.
      * exact nz2.
      * by move=> e3 ->; congr pair; lra.
    + left; have [] := @complex_factor (Rminus (Rplus a c) x) y (Rplus p p') (Rplus q q').
      * lra.
      * lra.
      * by right.
      * by move=> e3 ->; congr pair; lra.
    + left; have [] := @complex_factor (Rminus (Rplus a c) x) y (Rplus p p') (Rplus q q').
      * lra.
      * lra.
      * by left.
      * by move=> e3 ->; congr pair; lra.
Qed.

Lemma demo_exact a c : eigvals_exact demo_eigvals 1 1 [:: [:: a; c]; [:: c; a]].
Proof. split; first exact: eig2. split; exact: eig1. Qed.

(** The covariance [[5/2, 3/2], [3/2, 5/2]]. *)
Definition demo_cov : UtilsModel.matrix := [:: [:: Rdiv 5 2; Rdiv 3 2]; [:: Rdiv 3 2; Rdiv 5 2]].

Lemma demo_cov_exact : eigvals_exact demo_eigvals 1 1 demo_cov.
Proof. exact: demo_exact. Qed.

Lemma demo_cov_sym : (sigma 1 1 demo_cov)^T = sigma 1 1 demo_cov.
Proof. exact: bivariate_sym. Qed.

Lemma demo_posdef : posdef (sigma 1 1 demo_cov).
Proof.
  split; first exact: demo_cov_sym.
  move=> x; rewrite (cv2P x) bivariate_qf => nz.
  have nz' : x ord0 ord0 <> R0 \/ x ord_max ord0 <> R0 by case/orP: nz => /eqP h; [left | right].
  move: nz'; set u := x ord0 ord0; set v := x ord_max ord0; clearbody u v => nz'.
  have : Rlt 0 (Rplus (Rmult u u) (Rmult v v)) by case: nz' => h; have := Rsqr_pos_lt _ h; rewrite /Rsqr; nra.
  nra.
Qed.

Definition demo_normal : split_multinormal := built 1 1 demo_cov None.

Lemma demo_accepted : split_multinormal_init demo_eigvals 1 1 demo_cov None = Ok demo_normal.
Proof.
  have [s h] := proj2 (accepts_iff None (isT : (0 < 1)%N) (isT : (0 < 1)%N) demo_cov_sym demo_cov_exact)
    (And3 (isT : has_shape demo_cov (1 + 1) (1 + 1)) (I : proper_mean (1 + 1) None) demo_posdef).
  rewrite (_ : 1%Z = Z.of_nat 1) // h; congr Ok.
  have /split_init_ok [m [n [e1 e2 _ _ [_ _ _ _ ->]]]] := h.
  have -> : m = 1%N by lia. have -> // : n = 1%N by lia.
Qed.

(** Four equally likely points with that covariance. *)
Definition point (a b : R) : 'cV[R]_(1 + 1) := col_mx (const_mx a) (const_mx b).
Definition demo_I (f : 'cV[R]_(1 + 1) -> R) : Prop := True.
Definition demo_E (f : 'cV[R]_(1 + 1) -> R) : R :=
  Rdiv (Rplus (Rplus (f (point 2 2)) (f (point (-2) (-2)))) (Rplus (f (point 1 (-1))) (f (point (-1) 1)))) 4.

Lemma demo_expectation : expectation demo_I demo_E.
Proof.
  split.
  - move=> c; split=> //; rewrite /demo_E; lazymatch goal with |- ?l = ?r => change (@eq R l r) end; field.
  - move=> f g _ _; split=> //; rewrite /demo_E; lazymatch goal with |- ?l = ?r => change (@eq R l r) end; field.
  - move=> c f _; split=> //; rewrite /demo_E; lazymatch goal with |- ?l = ?r => change (@eq R l r) end; field.
Qed.

Lemma demo_has_covariance : has_covariance demo_I demo_E 0 (sigma 1 1 demo_cov).
Proof.
  move=> i j; split=> //; rewrite /demo_E !subr0.
  have p0 : forall a b, point a b (lshift 1 ord0) ord0 = a by move=> a b; rewrite /point col_mxEu mxE.
  have p1 : forall a b, point a b (rshift 1 ord0) ord0 = b by move=> a b; rewrite /point col_mxEd mxE.
  rewrite -(splitK i) -(splitK j); case: (split i) => k; case: (split j) => l; rewrite (ord1 k) (ord1 l) /unsplit ?p0 ?p1 !mxE /entry /=;
  lazymatch goal with |- ?l = ?r => change (@eq R l r) end; field.
Qed.

(** A function playing digamma's role for those four points. *)
Definition demo_log_moment n (E : ('cV[R]_n -> R) -> R) (S : 'M[R]_n) : R :=
  E (fun z => ln (Rplus 1 (Rdiv (qf (invmx S) (z - 0)%R) 3))).
Definition demo_psi (t : R) : R :=
  if Req_EM_T t (Rdiv (Rplus 3 (INR 2)) 2) then demo_log_moment demo_E (sigma 1 1 demo_cov)
  else if Req_EM_T t (Rdiv (Rplus 3 (INR 1)) 2)
       then demo_log_moment (fun f => demo_E (fun z => f (usubmx z))) (ulsubmx (sigma 1 1 demo_cov))
       else R0.

Lemma demo_psi_0 : demo_psi (Rdiv 3 2) = R0.
Proof.
  rewrite /demo_psi /=; case: (Req_EM_T _ _) => h; first lra.
  case: (Req_EM_T _ _) => h' //; lra.
Qed.
Lemma demo_psi_1 : demo_psi (Rdiv (Rplus 3 (INR 1)) 2)
  = demo_log_moment (fun f => demo_E (fun z => f (usubmx z))) (ulsubmx (sigma 1 1 demo_cov)).
Proof.
  rewrite /demo_psi; case: (Req_EM_T _ _) => h; first by exfalso; move: h; rewrite /=; lra.
  by case: (Req_EM_T _ _).
Qed.
Lemma demo_psi_2 : demo_psi (Rdiv (Rplus 3 (INR 2)) 2) = demo_log_moment demo_E (sigma 1 1 demo_cov).
Proof. by rewrite /demo_psi; case: (Req_EM_T _ _). Qed.

Lemma demo_student_moments :
  student_log_moment demo_psi 3 demo_I demo_E 0 (sigma 1 1 demo_cov) /\
  student_log_moment demo_psi 3 (fun f => demo_I (fun z => f (usubmx z))) (fun f => demo_E (fun z => f (usubmx z)))
    (usubmx (0 : 'cV[R]_(1 + 1))) (ulsubmx (sigma 1 1 demo_cov)) /\
  student_log_moment demo_psi 3 (fun f => demo_I (fun z => f (dsubmx z))) (fun f => demo_E (fun z => f (dsubmx z)))
    (dsubmx (0 : 'cV[R]_(1 + 1))) (drsubmx (sigma 1 1 demo_cov)).
Proof.
  have u0 : usubmx (0 : 'cV[R]_(1 + 1)) = 0 by apply/matrixP => i j; rewrite !mxE.
  have d0 : dsubmx (0 : 'cV[R]_(1 + 1)) = 0 by apply/matrixP => i j; rewrite !mxE.
  split; [|split]; split=> //; rewrite ?u0 ?d0.
  - by rewrite demo_psi_0 Rminus_0_r demo_psi_2.
  - by rewrite demo_psi_0 Rminus_0_r demo_psi_1.
  - rewrite demo_psi_0 Rminus_0_r demo_psi_1 /demo_log_moment.
    have -> : drsubmx (sigma 1 1 demo_cov) = ulsubmx (sigma 1 1 demo_cov).
    { by apply/matrixP => i j; rewrite !mxE (ord1 i) (ord1 j). }
    rewrite /demo_E !col_mxKu !col_mxKd.
    set a := ln _; set b := ln _; set c := ln _; set d := ln _.
    lazymatch goal with |- ?l = ?r => change (@eq R l r) end; field.
Qed.

Lemma demo_student : split_student_init demo_eigvals 1 1 (Fin 3) demo_cov None
  = Ok {| st_multinormal := demo_normal; st_mean := sm_mean demo_normal; st_df := Fin 3; st_dispersion := demo_cov |}.
Proof.
  apply/student_init_ok; exists demo_normal; split=> //; first exact: demo_accepted.
  rewrite /fl_leb /Rleb; case: (Rle_dec _ _) => // h; lra.
Qed.

(** An asymmetric matrix with positive eigenvalues. *)
Definition skew : UtilsModel.matrix := [:: [:: IZR 1; Rdiv 1 2]; [:: R0; IZR 1]].
Definition skew_eigvals (M : UtilsModel.matrix) : list (R * R) := [:: (IZR 1, R0)].

Lemma eig_skew : eigvals_ok 2 skew [:: (IZR 1, R0)].
Proof.
  move=> x y; split.
  - case=> // -[<- <-]; exists (\col_i (if i == ord0 then 1 else 0)), 0; split.
    { by left; apply/eqP => /(congr1 (fun M : 'cV[R]_2 => M ord0 ord0)); rewrite !mxE; exact: R1_neq_R0. }
    rewrite scaler0 subr0 mulmx0 scaler0 scale0r addr0; split=> //.
    apply/matrixP => i j; rewrite !mxE !big_ord_recl big_ord0 !mxE addr0 /entry.
    case: i => [[|[|i]] hi] //=; lazymatch goal with |- ?l = ?r => change (@eq R l r) end.
    * change (Rplus (Rmult 1 1) (Rmult (Rdiv 1 2) 0) = Rmult 1 1); ring.
    * change (Rplus (Rmult 0 1) (Rmult 1 0) = Rmult 1 0); ring.
  - move=> [u [v [nz [h1 h2]]]]; left.
    have nz' : (u ord0 ord0 <> R0 \/ u ord_max ord0 <> R0) \/ (v ord0 ord0 <> R0 \/ v ord_max ord0 <> R0).
    { by case: nz; rewrite cv2P => /orP [/eqP h|/eqP h]; [left; left | left; right | right; left | right; right]. }
    move/matrixP: h1 => h1; move/matrixP: h2 => h2.
    have := h1 ord0 ord0; have := h1 ord_max ord0; have := h2 ord0 ord0; have := h2 ord_max ord0; clear h1 h2.
    rewrite !mxE !big_ord_recl !big_ord0 !mxE /entry !ord2_max /=; move: nz'.
    set p := u ord0 ord0; set p' := u ord_max ord0; set q := v ord0 ord0; set q' := v ord_max ord0.
    clearbody p p' q q' => nz' g4 g3 g2 g1.
    change (Rplus (Rmult 1 p) (Rplus (Rmult (Rdiv 1 2) p') R0) = Rplus (Rmult x p) (Ropp (Rmult y q))) in g1.
    change (Rplus (Rmult R0 p) (Rplus (Rmult 1 p') R0) = Rplus (Rmult x p') (Ropp (Rmult y q'))) in g2.
    change (Rplus (Rmult 1 q) (Rplus (Rmult (Rdiv 1 2) q') R0) = Rplus (Rmult y p) (Rmult x q)) in g3.
    change (Rplus (Rmult R0 q) (Rplus (Rmult 1 q') R0) = Rplus (Rmult y p') (Rmult x q')) in g4.
    case: (Req_EM_T p' R0) => e1; [case: (Req_EM_T q' R0) => e2 |].
    + have [] := @complex_factor (Rminus 1 x) y p q.
      * rewrite e1 in g1; lra.
      * rewrite e2 in g3; lra.
      * by case: nz' => [[]|[]] h; [left | | right |].
      * by move=> e3 ->; congr pair; lra.
    + have [] := @complex_factor (Rminus 1 x) y p' q'; [lra | lra | by right |].
      by move=> e3 ->; congr pair; lra.
    + have [] := @complex_factor (Rminus 1 x) y p' q'; [lra | lra | by left |].
      by move=> e3 ->; congr pair; lra.
Qed.

Lemma skew_exact : eigvals_exact skew_eigvals 1 1 skew.
Proof. split; first exact: eig_skew. split; exact: eig1. Qed.

Lemma skew_accepted : split_multinormal_init skew_eigvals 1 1 skew None = Ok (built 1 1 skew None).
Proof.
  have cbc : forall M, M <> nil -> can_be_covariance skew_eigvals M = Ok tt.
  { move=> M h; apply/can_be_covariance_iff => //=; rewrite andbT; apply/complex_positiveP; left; exact: Rlt_0_1. }
  apply/split_init_ok; exists 1%N, 1%N; split=> //; split=> //; first split; exact: cbc.
Qed.

Lemma asymmetric_accepted : exists eigvals M s,
  eigvals_exact eigvals 1 1 M /\ entry M 0 1 <> entry M 1 0 /\
  can_be_covariance eigvals M = Ok tt /\ split_multinormal_init eigvals 1 1 M None = Ok s.
Proof.
  exists skew_eigvals, skew, (built 1 1 skew None); split; first exact: skew_exact.
  split; first by rewrite /entry /=; lra.
  split; last exact: skew_accepted.
  apply/can_be_covariance_iff => //=; rewrite andbT; apply/complex_positiveP; left; exact: Rlt_0_1.
Qed.

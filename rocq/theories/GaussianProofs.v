(** Proofs about the Gaussian samplers. *)
From Verif Require Import Base UtilsModel JaxModel SamplersModel GaussianModel BaseLemmas.
From mathcomp Require Import all_ssreflect ssralg matrix mxalgebra.
From Verif Require Import RStruct PosDef MatrixBridge GaussianSpec.
Set Implicit Arguments.
Unset Strict Implicit.
Unset Printing Implicit Defensive.
Import GRing.Theory.
Local Open Scope ring_scope.

Section Accept.
  Variable eigvals : UtilsModel.matrix -> list (R * R).

  (** The symmetry check of _can_be_covariance never fires. *)
  Lemma symmetry_check_dead (M : UtilsModel.matrix) : M <> nil ->
    List.forallb (fun i => List.forallb (fun j => negb (Reqb (entry M i j) (entry M j i)))
      (List.seq 0 (List.length M))) (List.seq 0 (List.length M)) = false.
  Proof.
    case: M => [|r M] // _; cbn [List.length List.seq List.forallb].
    by rewrite {1}/Reqb; case: (Req_EM_T _ _).
  Qed.

  Lemma can_be_covariance_iff (M : UtilsModel.matrix) : M <> nil ->
    (can_be_covariance eigvals M = Ok tt <-> List.forallb complex_positive (eigvals M) = true).
  Proof.
    move=> h; rewrite /can_be_covariance symmetry_check_dead //.
    by case: (List.forallb complex_positive _).
  Qed.

  Lemma can_be_covariance_err (M : UtilsModel.matrix) : M <> nil ->
    can_be_covariance eigvals M = Ok tt \/ can_be_covariance eigvals M = Err ValueError.
  Proof.
    move=> h; rewrite /can_be_covariance symmetry_check_dead //.
    by case: (List.forallb complex_positive _); [left | right].
  Qed.

  Lemma complex_positiveP a b : complex_positive (a, b) = true <-> (Rlt 0 a \/ (a = 0 /\ Rlt 0 b)).
  Proof.
    rewrite /complex_positive /Rltb /Reqb /=; case: (Rlt_dec 0 a) => h1 /=.
    - by split=> // _; left.
    - case: (Req_EM_T a 0) => h2 /=; case: (Rlt_dec 0 b) => h3 /=; split=> //.
      + by right.
      + by case=> [/h1|[_ /h3]].
      + by case=> [/h1|[/h2]].
      + by case=> [/h1|[/h2]].
  Qed.

  Lemma accepted_eigenvalues n (M : UtilsModel.matrix) : M <> nil -> eigvals_ok n M (eigvals M) ->
    (can_be_covariance eigvals M = Ok tt <->
     forall a b, is_eigenvalue (to_mx n n M) a b -> Rlt 0 a \/ (a = 0 /\ Rlt 0 b)).
  Proof.
    move=> h ok; rewrite (can_be_covariance_iff h) List.forallb_forall; split.
    - move=> f a b /ok i; apply/complex_positiveP; exact: f.
    - move=> f [a b] i; apply/complex_positiveP; apply: f; exact/ok.
  Qed.

  Lemma accepted_symmetric n (M : UtilsModel.matrix) : has_shape M n n -> (0 < n)%N ->
    eigvals_ok n M (eigvals M) -> (to_mx n n M)^T = to_mx n n M ->
    (can_be_covariance eigvals M = Ok tt <-> posdef (to_mx n n M)).
  Proof.
    move=> sh n0 ok s.
    have h : M <> nil by move=> e; move: (shape_length sh) n0; rewrite e => <-.
    rewrite (accepted_eigenvalues h ok); split.
    - move=> f; split=> // x nz.
      have [l [el lo]] := min_eigenvalue s n0.
      have lp : Rlt 0 l.
      { case: (f _ _ el) => [h1|[_ h0]].
        - exact h1.
        - case: (Rlt_irrefl _ h0). }
      have := lo x; have := nrm_pos nz; set N := nrm x; set q := qf _ x => p1 p2; nra.
    - move=> pd a b e; left; exact: (proj1 (posdef_eigenvalues s) pd a b e).
  Qed.

  Lemma multinormal_init_ok mean C d : multinormal_init eigvals mean C = Ok d <->
    has_shape C (List.length mean) (List.length mean) /\ can_be_covariance eigvals C = Ok tt /\
    d = {| mn_mean := mean; mn_covariance := C; mn_det := GaussianModel.det (List.length mean) C |}.
  Proof.
    rewrite /multinormal_init; case: (has_shape C _ _) => /=; last by split=> // -[].
    case: (can_be_covariance eigvals C) => [[]|e] /=; split=> //.
    - by case=> <-.
    - by case=> _ [_ ->].
    - by case=> _ [].
  Qed.
End Accept.

(** The arguments of SplitMultinormal.__init__ have the right form. *)
Definition proper_mean (k : nat) (mean : option (list R)) : Prop :=
  match mean with None => True | Some m => List.length m = k end.

Definition the_mean (k : nat) (mean : option (list R)) : list R :=
  match mean with None => List.repeat 0%R k | Some m => m end.

Lemma the_mean_length k mean : proper_mean k mean -> List.length (the_mean k mean) = k.
Proof. by case: mean => [m|] //= _; exact: List.repeat_length. Qed.

Definition built (m n : nat) (C : UtilsModel.matrix) (mean : option (list R)) : split_multinormal :=
  let mu := the_mean (m + n) mean in
  {| sm_dim_x := m; sm_dim_y := n; sm_mean := mu; sm_covariance := C;
     sm_joint := {| mn_mean := mu; mn_covariance := C; mn_det := GaussianModel.det (m + n) C |};
     sm_x := {| mn_mean := List.firstn m mu; mn_covariance := square_slice C 0 m;
                mn_det := GaussianModel.det m (square_slice C 0 m) |};
     sm_y := {| mn_mean := List.skipn m mu; mn_covariance := square_slice C m (m + n);
                mn_det := GaussianModel.det n (square_slice C m (m + n)) |} |}.

Section Init.
  Variable eigvals : UtilsModel.matrix -> list (R * R).

  Lemma split_init_ok dim_x dim_y C mean s :
    split_multinormal_init eigvals dim_x dim_y C mean = Ok s <->
    exists m n : nat, [/\ dim_x = Z.of_nat m, dim_y = Z.of_nat n, (0 < m)%N, (0 < n)%N & 
      [/\ proper_mean (m + n) mean, has_shape C (m + n) (m + n),
         can_be_covariance eigvals C = Ok tt /\ can_be_covariance eigvals (square_slice C 0 m) = Ok tt,
         can_be_covariance eigvals (square_slice C m (m + n)) = Ok tt
       & s = built m n C mean]].
  Proof.
    rewrite /split_multinormal_init /base_sampler_init /validate_dimensions.
    case: (Z.ltb_spec dim_x 1) => hx /=.
    { split=> // -[m [n [e1 _ /ltP p _ _]]]; lia. }
    case: (Z.ltb_spec dim_y 1) => hy /=.
    { split=> // -[m [n [_ e1 _ /ltP p _]]]; lia. }
    have ex : dim_x = Z.of_nat (Z.to_nat dim_x) by lia.
    have ey : dim_y = Z.of_nat (Z.to_nat dim_y) by lia.
    have px : (0 < Z.to_nat dim_x)%N by apply/ltP; lia.
    have py : (0 < Z.to_nat dim_y)%N by apply/ltP; lia.
    move: ex ey px py; set m := Z.to_nat dim_x; set n := Z.to_nat dim_y => ex ey px py.
    rewrite -[match mean with Some _ => _ | None => _ end]/(the_mean (m + n) mean).
    change (m + n)%coq_nat with (m + n)%N.
    have uniq : forall m' n', dim_x = Z.of_nat m' -> dim_y = Z.of_nat n' -> m' = m /\ n' = n.
    { move=> m' n' h1 h2; rewrite /m /n; lia. }
    case: (PeanoNat.Nat.eqb_spec (List.length (the_mean (m + n) mean)) (m + n)%N) => hl /=; last first.
    { split=> // -[m' [n' [e1 e2 _ _ [pm _ _ _ _]]]]; case: (uniq _ _ e1 e2) => a b.
      by rewrite a b in pm; case: hl; exact: the_mean_length. }
    have pm : proper_mean (m + n) mean by case: mean hl.
    case hs: (has_shape C (m + n) (m + n)) => /=; last first.
    { split=> // -[m' [n' [e1 e2 _ _ [_ sh _ _ _]]]]; case: (uniq _ _ e1 e2) => a b.
      by rewrite a b hs in sh. }
    have s1 : has_shape (square_slice C 0 m) m m by have := @slice_shape C (m + n) 0 m hs; rewrite add0n; apply; exact: leq_addr.
    have s2 : has_shape (square_slice C m (m + n)) n n by apply: (@slice_shape C (m + n)).
    have l1 : List.length (List.firstn m (the_mean (m + n) mean)) = m.
    { rewrite List.firstn_length hl -plusE; lia. }
    have l2 : List.length (List.skipn m (the_mean (m + n) mean)) = n.
    { rewrite List.skipn_length hl -plusE; lia. }
    rewrite /multinormal_init hl l1 l2 hs s1 s2 /=.
    case c1: (can_be_covariance eigvals C) => [[]|e] /=; last first.
    { split=> // -[m' [n' [e1 e2 _ _ [_ _ [h _] _ _]]]]; by []. }
    case c2: (can_be_covariance eigvals (square_slice C 0 m)) => [[]|e] /=; last first.
    { split=> // -[m' [n' [e1 e2 _ _ [_ _ [_ h] _ _]]]]; case: (uniq _ _ e1 e2) => a b.
      by rewrite a c2 in h. }
    case c3: (can_be_covariance eigvals (square_slice C m (m + n))) => [[]|e] /=; last first.
    { split=> // -[m' [n' [e1 e2 _ _ [_ _ _ h _]]]]; case: (uniq _ _ e1 e2) => a b.
      by rewrite a b c3 in h. }
    split.
    - by case=> <-; exists m, n.
    - move=> [m' [n' [e1 e2 _ _ [_ _ _ _ ->]]]]; by case: (uniq _ _ e1 e2) => -> ->.
  Qed.

  (** Whatever the covariance, the constructor either succeeds or raises ValueError. *)
  Lemma split_init_errors dim_x dim_y C mean e :
    split_multinormal_init eigvals dim_x dim_y C mean = Err e -> e = ValueError.
  Proof.
    rewrite /split_multinormal_init /base_sampler_init /validate_dimensions.
    case: (Z.ltb dim_x 1) => /=; first by case.
    case: (Z.ltb dim_y 1) => /=; first by case.
    case: (negb _); first by case.
    case: (negb _); first by case.
    have cbc : forall M e', can_be_covariance eigvals M = Err e' -> e' = ValueError.
    { move=> M e'; rewrite /can_be_covariance; case: (List.forallb _ _); first by case.
      by case: (negb _); case. }
    have mi : forall mu M e', multinormal_init eigvals mu M = Err e' -> e' = ValueError.
    { move=> mu M e'; rewrite /multinormal_init; case: (negb _); first by case.
      by case c: (can_be_covariance eigvals M) => [|e''] //= [<-]; exact: cbc c. }
    case m1: (multinormal_init _ _ _) => [a|e1] /=; last by case=> <-; exact: mi m1.
    case m2: (multinormal_init _ _ _) => [b|e2] /=; last by case=> <-; exact: mi m2.
    case m3: (multinormal_init _ _ _) => [c|e3] /=; last by case=> <-; exact: mi m3.
    by [].
  Qed.
End Init.

(** ** Mutual information *)

Lemma np_log_pos r : Rlt 0 r -> np_log r = Fin (ln r).
Proof. by move=> h; rewrite /np_log /Rltb; case: (Rlt_dec 0 r). Qed.

Lemma built_dims m n C mean : proper_mean (m + n) mean ->
  [/\ mn_dim (sm_joint (built m n C mean)) = (m + n)%N, mn_dim (sm_x (built m n C mean)) = m
    & mn_dim (sm_y (built m n C mean)) = n].
Proof.
  move=> pm; have h := the_mean_length pm; rewrite /mn_dim /=.
  by rewrite List.firstn_length List.skipn_length h -plusE; split=> //; lia.
Qed.

Lemma ln_divide a b : Rlt 0 a -> Rlt 0 b -> ln (Rdiv a b) = Rminus (ln a) (ln b).
Proof.
  move=> ha hb; rewrite /Rdiv ln_mult ?ln_Rinv //; exact: Rinv_0_lt_compat.
Qed.

Lemma entropies_difference (a b d : R) (m n : nat) : Rlt 0 a -> Rlt 0 b -> Rlt 0 d ->
  fl_sub (fl_add (fl_divp (fl_add (np_log a) (Fin (Rmult (INR m) (Rplus 1 (ln (Rmult 2 PI)))))) 2)
                 (fl_divp (fl_add (np_log b) (Fin (Rmult (INR n) (Rplus 1 (ln (Rmult 2 PI)))))) 2))
         (fl_divp (fl_add (np_log d) (Fin (Rmult (INR (m + n)) (Rplus 1 (ln (Rmult 2 PI)))))) 2)
  = Fin (Rmult (/ 2) (ln (Rdiv (Rmult a b) d))).
Proof.
  move=> ha hb hd; rewrite !np_log_pos //=; congr Fin.
  rewrite -plusE plus_INR ln_divide //; last exact: Rmult_lt_0_compat.
  rewrite (ln_mult a b) //; field.
Qed.

Lemma mi_of_dets m n C mean : proper_mean (m + n) mean ->
  Rlt 0 (\det (sigma m n C)) -> Rlt 0 (\det (ulsubmx (sigma m n C))) -> Rlt 0 (\det (drsubmx (sigma m n C))) ->
  split_multinormal_mi (built m n C mean) = py_max (Fin 0) (Fin (gaussian_mi (sigma m n C))).
Proof.
  move=> pm hd ha hb; rewrite /split_multinormal_mi /entropy.
  have [-> -> ->] := built_dims C pm.
  cbn [built sm_joint sm_x sm_y mn_det]; rewrite !det_to_mx (@to_mx_ul m n) (@to_mx_dr m n) -/(sigma m n C).
  by rewrite entropies_difference.
Qed.

Lemma gaussian_mi_nonneg m n (S : 'M[R]_(m + n)) : posdef S ->
  Rle 0 (gaussian_mi S) /\ (gaussian_mi S = 0 <-> ursubmx S = 0).
Proof.
  move=> pd; have d := det_posdef pd.
  have a := det_posdef (posdef_ul pd); have b := det_posdef (posdef_dr pd).
  have f := fischer pd; have g := fischer_eq pd; rewrite /gaussian_mi.
  move: d a b f g; set D := \det S; set A := \det (ulsubmx S); set B := \det (drsubmx S) => d a b f g.
  have q : Rle 1 (Rdiv (Rmult A B) D).
  { apply: (Rmult_le_reg_r D) => //; have -> : Rmult (Rdiv (Rmult A B) D) D = Rmult A B by field; lra. lra. }
  split.
  - have : Rle 0 (ln (Rdiv (Rmult A B) D)).
    { case: q => [q | <-]; [rewrite -ln_1; exact: Rlt_le (ln_increasing _ _ Rlt_0_1 q) | rewrite ln_1; exact: Rle_refl]. }
    lra.
  - rewrite -g; split.
    + move=> e; case: q => q.
      * have := ln_increasing _ _ Rlt_0_1 q; rewrite ln_1; move: e; set l := ln _ => e h.
        change (@eq R (Rmult (/ 2) l) (IZR Z0)) in e; lra.
      * change (@eq R D (Rmult A B)); have -> : Rmult A B = Rmult (Rdiv (Rmult A B) D) D by field; lra.
        rewrite -q; exact: esym (Rmult_1_l D).
    + move=> e; change (@eq R D (Rmult A B)) in e; rewrite -e /Rdiv Rinv_r; last lra.
      rewrite ln_1; exact: Rmult_0_r.
Qed.

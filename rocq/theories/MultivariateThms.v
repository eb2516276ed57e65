(** Theorems about the normal and Student distributions. *)
From Verif Require Import Base UtilsModel JaxModel SamplersModel GaussianModel BmmModel MultivariateModel BaseLemmas.
From mathcomp Require Import all_ssreflect ssralg matrix mxalgebra.
From Verif Require Import RStruct PosDef MatrixBridge GaussianSpec GaussianProofs ExpectationProofs GaussianThms
  MultivariateSpec MultivariateProofs.
From Coq Require Import ClassicalEpsilon.
Set Implicit Arguments.
Unset Strict Implicit.
Unset Printing Implicit Defensive.
Import GRing.Theory.
Local Open Scope ring_scope.

(** ** Positive definite matrices have a lower triangular factor *)

Lemma factor_step n (A : 'M[R]_(1 + n)) :
  (forall B : 'M[R]_n, posdef B -> exists L, lower_factor L B) -> posdef A -> exists L, lower_factor L A.
Proof.
  move=> IH pd.
  have [L [tr pos e]] := IH _ (posdef_schur pd).
  have pu := posdef_ul pd; have u := posdef_unit pu.
  have [e1 e2 e3] := sym_block (proj1 pd).
  set a := (ulsubmx A) ord0 ord0.
  have ap : Rlt 0 a by have := det_posdef pu; rewrite det_mx11.
  have sp := sqrt_lt_R0 _ ap; set s := sqrt a in sp.
  have ss : s * s = a by exact: (sqrt_sqrt _ (Rlt_le _ _ ap)).
  have snz : s != 0.
  { apply/eqP => z; rewrite z in sp; exact: (Rlt_irrefl _ sp). }
  have ea : ulsubmx A = a%:M by rewrite [LHS]mx11_scalar.
  exists (block_mx s%:M 0 (s^-1 *: (ursubmx A)^T) L); split.
  - by rewrite is_trig_block_mx // eqxx mx11_is_trig tr.
  - move=> i; case: (split_ordP i) => k ->.
    + by rewrite block_mxEul (ord1 k) !mxE eqxx mulr1n.
    + by rewrite block_mxEdr; exact: pos.
  - rewrite tr_block_mx mulmx_block trmx0 !mulmx0 !mul0mx !addr0 e /schur.
    apply: etrans (esym e1).
    have anz : a != 0 by rewrite -ss mulf_neq0.
    have t1 : (s%:M : 'M[R]_1)^T = s%:M by rewrite tr_scalar_mx.
    rewrite t1 linearZ /= trmxK; congr block_mx.
    + by rewrite -scalar_mxM ss -ea.
    + by rewrite mul_scalar_mx scalerA mulfV // scale1r.
    + by rewrite mul_mx_scalar scalerA mulfV // scale1r.
    + rewrite -scalemxAl -scalemxAr scalerA -invfM ss.
      rewrite [in X in _ + X]ea.
      have -> : invmx (a%:M : 'M[R]_1) = (a^-1)%:M.
      { apply: (row_free_inj (A := a%:M)); first by rewrite row_free_unit -ea.
        by rewrite mulVmx -?ea // ea -scalar_mxM mulVf. }
      rewrite mul_mx_scalar -scalemxAl addrCA subrr addr0 //.
Qed.

Lemma factor_exists n (A : 'M[R]_n) : posdef A -> exists L, lower_factor L A.
Proof.
  elim: n A => [|n IH] A pd; last exact: (factor_step IH pd).
  exists 0; split; [exact: mx0_is_trig | by case | by apply/matrixP; case].
Qed.

(** A list of rows with given entries. *)
Lemma to_mx_onto n (A : 'M[R]_n) : exists L, has_shape L n n /\ to_mx n n L = A.
Proof.
  pose L := List.map (fun i : 'I_n => List.map (fun j : 'I_n => A i j) (enum 'I_n)) (enum 'I_n).
  have e : forall T (l : list T), List.length l = size l by move=> T; elim=> [|a l IH] //=; rewrite IH.
  have en : forall T (l : list T) k d, List.nth k l d = nth d l k by move=> T; elim=> [|a l IH] [|k] d //=.
  have em : forall S T (f : S -> T) (l : list S), List.map f l = [seq f i | i <- l] by [].
  exists L; split.
  - apply/has_shapeP; split; first by rewrite List.map_length e size_enum_ord.
    apply/List.Forall_forall => row /List.in_map_iff [i [<- _]]; by rewrite List.map_length e size_enum_ord.
  - apply/matrixP => i j; rewrite mxE /entry /L !en !em (nth_map i) ?size_enum_ord //.
    by rewrite (nth_map j) ?size_enum_ord // !nth_ord_enum.
Qed.

(** There is a function doing what is asked of the Cholesky factorisation. *)
Lemma cholesky_exists : exists cholesky : UtilsModel.matrix -> option UtilsModel.matrix,
  forall C, cholesky_ok (List.length C) C (cholesky C).
Proof.
  exists (fun C => epsilon (inhabits None) (cholesky_ok (List.length C) C)) => C; apply: epsilon_spec.
  case: (classic (posdef (symmetric_part (to_mx (List.length C) (List.length C) C)))) => pd.
  - have [L f] := factor_exists pd; have [l [sh e]] := to_mx_onto L.
    exists (Some l); split=> //; by rewrite e.
  - by exists None.
Qed.

Lemma cholesky_exact_of cholesky m n (C : UtilsModel.matrix) : has_shape C (m + n) (m + n) ->
  (forall C, cholesky_ok (List.length C) C (cholesky C)) -> cholesky_exact cholesky m n C.
Proof.
  move=> sh k.
  have s1 : has_shape (square_slice C 0 m) m m.
  { have := @slice_shape C (m + n) 0 m sh; rewrite add0n; apply; exact: leq_addr. }
  have s2 : has_shape (square_slice C m (m + n)) n n by apply: (@slice_shape C (m + n)).
  split.
  - by have := k C; rewrite (shape_length sh).
  - by have := k (square_slice C 0 m); rewrite (shape_length s1).
  - by have := k (square_slice C m (m + n)); rewrite (shape_length s2).
Qed.

(** ** Construction *)

Lemma location_eq (k : nat) mean : proper_mean k mean -> to_cv k (the_mean k mean) = location k mean.
Proof.
  case: mean => [l|] //= _; apply/matrixP => i j; rewrite !mxE; exact: List.nth_repeat.
Qed.

Section Normal.
  Context {J : prng}.
  Variable eigvals : UtilsModel.matrix -> list (R * R).
  Variable cholesky : UtilsModel.matrix -> option UtilsModel.matrix.
  Variable normal_draw : list R -> option UtilsModel.matrix -> key J -> nat -> UtilsModel.matrix.
  Variable student_draw : fl -> list R -> option UtilsModel.matrix -> key J -> nat -> UtilsModel.matrix.
  Variable psi log_gamma : R -> R.

  Local Notation construct := (construct_normal cholesky normal_draw).
  Local Notation normal := (normal_distribution eigvals cholesky normal_draw).
  Local Notation constructS := (construct_student cholesky student_draw log_gamma).
  Local Notation student := (student_distribution eigvals cholesky student_draw psi log_gamma).

  Lemma default_mean (m n : nat) mean :
    match mean with None => List.repeat (IZR 0) (Z.to_nat (Z.of_nat m + Z.of_nat n)) | Some l => l end
    = the_mean (m + n) mean.
  Proof. by case: mean => //=; rewrite -Znat.Nat2Z.inj_add Znat.Nat2Z.id. Qed.

  Lemma split_init_mean (m n : nat) C mean s :
    split_multinormal_init eigvals (Z.of_nat m) (Z.of_nat n) C (Some (the_mean (m + n) mean)) = Ok s <->
    split_multinormal_init eigvals (Z.of_nat m) (Z.of_nat n) C mean = Ok s.
  Proof.
    split=> /split_init_ok [m' [n' [e1 e2 m0 n0 [pm sh c1 c2 ->]]]]; apply/split_init_ok;
      have em : m' = m by lia.
    all: have en : n' = n by lia.
    all: subst m' n'; exists m, n; split=> //; split=> //.
    - by case: mean pm => [l|] //=.
    - exact: the_mean_length.
  Qed.

  Lemma normal_ok (m n : nat) C mean d : normal (Z.of_nat m) (Z.of_nat n) C mean = Ok d <->
    exists s, split_multinormal_init eigvals (Z.of_nat m) (Z.of_nat n) C mean = Ok s /\
      let mu := the_mean (m + n) mean in
      d = {| jd_dim_x := m; jd_dim_y := n; dist_joint := construct mu C;
             dist_x := construct (List.firstn m mu) (square_slice C 0 m);
             dist_y := construct (List.skipn m mu) (square_slice C m (m + n));
             analytic_mi := Some (split_multinormal_mi s) |}.
  Proof.
    rewrite /normal_distribution default_mean !Znat.Nat2Z.id.
    case h: (split_multinormal_init _ _ _ _ (Some _)) => [s|e] /=.
    - have h1 := proj1 (split_init_mean _ _ _ _ _) h.
      have lm : List.length (the_mean (m + n) mean) = (m + n)%N.
      { apply: the_mean_length; move: h1 => /split_init_ok [m' [n' [e1 e2 _ _ [pm _ _ _ _]]]].
        have em : m' = m by lia. have en : n' = n by lia. by subst m' n'. }
      rewrite lm; split.
      + by case=> <-; exists s.
      + by move=> [s' []]; rewrite h1 => -[<-] ->.
    - split=> // -[s [h1 _]]; have := proj2 (split_init_mean _ _ _ _ _) h1; by rewrite h.
  Qed.

  Lemma normal_accepts (m n : nat) C mean : (0 < m)%N -> (0 < n)%N ->
    (sigma m n C)^T = sigma m n C -> eigvals_exact eigvals m n C ->
    ((exists d, normal (Z.of_nat m) (Z.of_nat n) C mean = Ok d) <->
     [/\ has_shape C (m + n) (m + n), proper_mean (m + n) mean & posdef (sigma m n C)]).
  Proof.
    move=> m0 n0 sy ex; rewrite -(accepts_iff mean m0 n0 sy ex); split.
    - by move=> [d /normal_ok [s [h _]]]; exists s.
    - by move=> [s h]; eexists; apply/normal_ok; exists s.
  Qed.

  Lemma normal_dims dim_x dim_y C mean d : normal dim_x dim_y C mean = Ok d ->
    [/\ Z.of_nat (jd_dim_x d) = dim_x, Z.of_nat (jd_dim_y d) = dim_y, Z.le 1 dim_x, Z.le 1 dim_y &
        [/\ event_shape (dist_joint d) = [:: (jd_dim_x d + jd_dim_y d)%N],
            event_shape (dist_x d) = [:: jd_dim_x d] & event_shape (dist_y d) = [:: jd_dim_y d]]].
  Proof.
    rewrite /normal_distribution; set mu := (match mean with Some _ => _ | None => _ end).
    case h: (split_multinormal_init _ _ _ _ _) => [s|e] //= [<-] /=.
    move: h => /split_init_ok [m [n [-> -> /ltP m0 /ltP n0 [pm _ _ _ _]]]].
    rewrite !Znat.Nat2Z.id /proper_mean in pm *; split=> //; try lia.
    rewrite pm List.firstn_length List.skipn_length pm; split=> //; do 2 f_equal; rewrite -plusE; lia.
  Qed.

  Lemma normal_errors dim_x dim_y C mean e : normal dim_x dim_y C mean = Err e -> e = ValueError.
  Proof.
    rewrite /normal_distribution; set mu := (match mean with Some _ => _ | None => _ end).
    case h: (split_multinormal_init _ _ _ _ _) => [s|e'] //= [<-]; exact: (split_init_errors h).
  Qed.

  (** ** Densities *)

  Lemma accepted_facts (m n : nat) C mean s :
    (sigma m n C)^T = sigma m n C -> eigvals_ok (m + n) C (eigvals C) ->
    split_multinormal_init eigvals (Z.of_nat m) (Z.of_nat n) C mean = Ok s ->
    [/\ has_shape C (m + n) (m + n), proper_mean (m + n) mean & posdef (sigma m n C)].
  Proof.
    move=> sy k h; have [_ _ pd] := accepted_posdef sy k h.
    move: h => /split_init_ok [m' [n' [e1 e2 m0 n0 [pm sh _ _ _]]]].
    have em : m' = m by lia. have en : n' = n by lia. by subst m' n'.
  Qed.

  Lemma slice_facts (m n : nat) C : posdef (sigma m n C) ->
    [/\ to_mx m m (square_slice C 0 m) = ulsubmx (sigma m n C),
        to_mx n n (square_slice C m (m + n)) = drsubmx (sigma m n C),
        posdef (ulsubmx (sigma m n C)) & posdef (drsubmx (sigma m n C))].
  Proof.
    move=> pd; split; [exact: to_mx_ul | exact: to_mx_dr | exact: posdef_ul | exact: posdef_dr].
  Qed.

  Lemma mean_halves (m n : nat) mean : proper_mean (m + n) mean ->
    [/\ List.length (List.firstn m (the_mean (m + n) mean)) = m,
        List.length (List.skipn m (the_mean (m + n) mean)) = n,
        to_cv m (List.firstn m (the_mean (m + n) mean)) = usubmx (location (m + n) mean)
      & to_cv n (List.skipn m (the_mean (m + n) mean)) = dsubmx (location (m + n) mean)].
  Proof.
    move=> pm; have l := the_mean_length pm; split.
    - rewrite List.firstn_length l -plusE; lia.
    - rewrite List.skipn_length l -plusE; lia.
    - by rewrite (to_cv_firstn m n) location_eq.
    - by rewrite (to_cv_skipn m n) location_eq.
  Qed.

  Lemma normal_densities (m n : nat) C mean d :
    (sigma m n C)^T = sigma m n C -> eigvals_ok (m + n) C (eigvals C) -> cholesky_exact cholesky m n C ->
    normal (Z.of_nat m) (Z.of_nat n) C mean = Ok d ->
    let S := sigma m n C in
    let mu := location (m + n) mean in
    [/\ forall z, List.length z = (m + n)%N ->
          log_prob (dist_joint d) z = Fin (normal_log_density mu S (to_cv (m + n) z)),
        forall x, List.length x = m ->
          log_prob (dist_x d) x = Fin (normal_log_density (usubmx mu) (ulsubmx S) (to_cv m x))
      & forall y, List.length y = n ->
          log_prob (dist_y d) y = Fin (normal_log_density (dsubmx mu) (drsubmx S) (to_cv n y))].
  Proof.
    move=> sy k [k1 k2 k3] /normal_ok [s [h ->]] S mu.
    have [sh pm pd] := accepted_facts sy k h.
    have [q1 q2 pu pr] := slice_facts pd; have [l1 l2 c1 c2] := mean_halves pm.
    have lm := the_mean_length pm.
    split=> z hz /=.
    - by rewrite (normal_density sy pd k1 lm hz) location_eq.
    - rewrite (@normal_density m _ (square_slice C 0 m)) ?c1 ?q1 //; exact: (proj1 pu).
    - rewrite (@normal_density n _ (square_slice C m (m + n))) ?c2 ?q2 //; exact: (proj1 pr).
  Qed.

  (** What is handed to TFP for sampling. *)
  Lemma located_part k (loc : list R) (C : UtilsModel.matrix) mu :
    (to_mx k k C)^T = to_mx k k C -> posdef (to_mx k k C) -> cholesky_ok k C (cholesky C) ->
    List.length loc = k -> to_cv k loc = mu ->
    exists L, located mu (to_mx k k C) loc L /\ cholesky C = Some L.
  Proof.
    move=> sy pd; rewrite /cholesky_ok (symmetric_part_id sy); case: (cholesky C) => [L|] //.
    by move=> [sh f] hl hm; exists L.
  Qed.

  Lemma normal_sample (m n : nat) C mean d :
    (sigma m n C)^T = sigma m n C -> eigvals_ok (m + n) C (eigvals C) -> cholesky_exact cholesky m n C ->
    normal (Z.of_nat m) (Z.of_nat n) C mean = Ok d ->
    let S := sigma m n C in
    let mu := location (m + n) mean in
    [/\ exists loc L, located mu S loc L /\ draw (dist_joint d) = normal_draw loc (Some L),
        exists loc L, located (usubmx mu) (ulsubmx S) loc L /\ draw (dist_x d) = normal_draw loc (Some L)
      & exists loc L, located (dsubmx mu) (drsubmx S) loc L /\ draw (dist_y d) = normal_draw loc (Some L)].
  Proof.
    move=> sy k [k1 k2 k3] /normal_ok [s [h ->]] S mu.
    have [sh pm pd] := accepted_facts sy k h.
    have [q1 q2 pu pr] := slice_facts pd; have [l1 l2 c1 c2] := mean_halves pm.
    have lm := the_mean_length pm.
    split=> /=.
    - have [L [hL e]] := located_part sy pd k1 lm (location_eq pm).
      by exists (the_mean (m + n) mean), L; rewrite e.
    - rewrite -q1 in pu; have [L [hL e]] := located_part (proj1 pu) pu k2 l1 c1.
      by exists (List.firstn m (the_mean (m + n) mean)), L; rewrite e -q1.
    - rewrite -q2 in pr; have [L [hL e]] := located_part (proj1 pr) pr k3 l2 c2.
      by exists (List.skipn m (the_mean (m + n) mean)), L; rewrite e -q2.
  Qed.

  (** The PMI of a pair, from the three densities. *)
  Lemma pmi_of_densities (d : joint_distribution J) (m n : nat) (fj : 'cV[R]_(m + n) -> R) fx fy :
    (forall z, List.length z = (m + n)%N -> log_prob (dist_joint d) z = Fin (fj (to_cv (m + n) z))) ->
    (forall x, List.length x = m -> log_prob (dist_x d) x = Fin (fx (to_cv m x))) ->
    (forall y, List.length y = n -> log_prob (dist_y d) y = Fin (fy (to_cv n y))) ->
    forall x y, List.length x = m -> List.length y = n ->
    point_pmi d x y = Fin (pointwise_mi fj fx fy (to_cv (m + n) (List.app x y))).
  Proof.
    move=> hj hx hy x y lx ly; rewrite /point_pmi hx // hy // hj; last by rewrite List.app_length lx ly.
    by rewrite /pointwise_mi (to_cv_app n y lx) col_mxKu col_mxKd.
  Qed.

  Lemma pmi_function (d : joint_distribution J) (m n : nat) (fj : 'cV[R]_(m + n) -> R) fx fy :
    (forall x y, List.length x = m -> List.length y = n ->
      point_pmi d x y = Fin (pointwise_mi fj fx fy (to_cv (m + n) (List.app x y)))) ->
    forall z, point_pmi d (of_cv (usubmx z)) (of_cv (dsubmx z)) = Fin (pointwise_mi fj fx fy z).
  Proof.
    move=> h z; rewrite h ?length_of_cv // (to_cv_app n _ (length_of_cv (usubmx z))) !of_cvK.
    by rewrite vsubmxK.
  Qed.

  Lemma normal_pmi_expected (m n : nat) C mean d I E :
    (sigma m n C)^T = sigma m n C -> eigvals_ok (m + n) C (eigvals C) -> cholesky_exact cholesky m n C ->
    normal (Z.of_nat m) (Z.of_nat n) C mean = Ok d ->
    expectation I E -> has_covariance I E (location (m + n) mean) (sigma m n C) ->
    exists pmi : 'cV[R]_(m + n) -> R,
      [/\ forall z, point_pmi d (of_cv (usubmx z)) (of_cv (dsubmx z)) = Fin (pmi z),
          I pmi & analytic_mi d = Some (Fin (E pmi))].
  Proof.
    move=> sy k ch hd HE HS; have [hj hx hy] := normal_densities sy k ch hd.
    exists (pointwise_mi (normal_log_density (location (m + n) mean) (sigma m n C))
       (normal_log_density (usubmx (location (m + n) mean)) (ulsubmx (sigma m n C)))
       (normal_log_density (dsubmx (location (m + n) mean)) (drsubmx (sigma m n C)))).
    move: (hd) => /normal_ok [s [h ed]].
    have [p1 p2] := expected_pmi sy k h HE HS.
    split.
    - exact: (pmi_function (pmi_of_densities hj hx hy)).
    - exact: p1.
    - by rewrite ed /= p2.
  Qed.

  (** ** Student *)

  Lemma student_ok (m n : nat) df C mean d : student (Z.of_nat m) (Z.of_nat n) df C mean = Ok d <->
    exists st, split_student_init eigvals (Z.of_nat m) (Z.of_nat n) df C mean = Ok st /\
      let mu := the_mean (m + n) mean in
      d = {| jd_dim_x := m; jd_dim_y := n; dist_joint := constructS mu C df;
             dist_x := constructS (List.firstn m mu) (square_slice C 0 m) df;
             dist_y := constructS (List.skipn m mu) (square_slice C m (m + n)) df;
             analytic_mi := Some (split_student_mi psi log_gamma st) |}.
  Proof.
    rewrite /student_distribution default_mean !Znat.Nat2Z.id.
    have eqv : forall st, split_student_init eigvals (Z.of_nat m) (Z.of_nat n) df C (Some (the_mean (m + n) mean)) = Ok st
      <-> split_student_init eigvals (Z.of_nat m) (Z.of_nat n) df C mean = Ok st.
    { move=> st; rewrite !student_init_ok; split=> -[s [h1 h2 h3]]; exists s; split=> //; exact/split_init_mean. }
    case h: (split_student_init _ _ _ _ _ (Some _)) => [st|e] /=.
    - have h1 := proj1 (eqv _) h.
      have lm : List.length (the_mean (m + n) mean) = (m + n)%N.
      { apply: the_mean_length; move: h1 => /student_init_ok [s [/split_init_ok [m' [n' [e1 e2 _ _ [pm _ _ _ _]]]] _ _]].
        have em : m' = m by lia. have en : n' = n by lia. by subst m' n'. }
      rewrite lm; split.
      + by case=> <-; exists st.
      + by move=> [s' []]; rewrite h1 => -[<-] ->.
    - split=> // -[s [h1 _]]; have := proj2 (eqv _) h1; by rewrite h.
  Qed.

  Lemma student_accepts_iff (m n : nat) df C mean : (0 < m)%N -> (0 < n)%N ->
    (sigma m n C)^T = sigma m n C -> eigvals_exact eigvals m n C ->
    ((exists d, student (Z.of_nat m) (Z.of_nat n) (Fin df) C mean = Ok d) <->
     [/\ has_shape C (m + n) (m + n), proper_mean (m + n) mean, posdef (sigma m n C) & Rlt 0 df]).
  Proof.
    move=> m0 n0 sy ex; have ac := accepts_iff mean m0 n0 sy ex.
    have fl : fl_leb (Fin df) 0 = false <-> Rlt 0 df.
    { rewrite /fl_leb /Rleb; case: (Rle_dec _ _) => h; split=> //.
      - by move=> h'; case: (Rlt_irrefl _ (Rlt_le_trans _ _ _ h' h)).
      - by move=> _; exact: Rnot_le_lt. }
    split.
    - move=> [d /student_ok [st [/student_init_ok [s [h1 h2 _]] _]]].
      have [a b c] := proj1 ac (ex_intro _ s h1); split=> //; exact: (proj1 fl).
    - move=> [a b c p]; have [s h] := proj2 ac (And3 a b c).
      eexists; apply/student_ok; eexists; split; last reflexivity.
      apply/student_init_ok; exists s; split=> //; exact: (proj2 fl).
  Qed.

  Lemma student_sample (m n : nat) df C mean d :
    (sigma m n C)^T = sigma m n C -> eigvals_ok (m + n) C (eigvals C) -> cholesky_exact cholesky m n C ->
    student (Z.of_nat m) (Z.of_nat n) df C mean = Ok d ->
    let S := sigma m n C in
    let mu := location (m + n) mean in
    [/\ exists loc L, located mu S loc L /\ draw (dist_joint d) = student_draw df loc (Some L),
        exists loc L, located (usubmx mu) (ulsubmx S) loc L /\ draw (dist_x d) = student_draw df loc (Some L)
      & exists loc L, located (dsubmx mu) (drsubmx S) loc L /\ draw (dist_y d) = student_draw df loc (Some L)].
  Proof.
    move=> sy k [k1 k2 k3] /student_ok [st [hs ->]] S mu.
    move: hs => /student_init_ok [s [h _ _]].
    have [sh pm pd] := accepted_facts sy k h.
    have [q1 q2 pu pr] := slice_facts pd; have [l1 l2 c1 c2] := mean_halves pm.
    have lm := the_mean_length pm.
    split=> /=.
    - have [L [hL e]] := located_part sy pd k1 lm (location_eq pm).
      by exists (the_mean (m + n) mean), L; rewrite e.
    - rewrite -q1 in pu; have [L [hL e]] := located_part (proj1 pu) pu k2 l1 c1.
      by exists (List.firstn m (the_mean (m + n) mean)), L; rewrite e -q1.
    - rewrite -q2 in pr; have [L [hL e]] := located_part (proj1 pr) pr k3 l2 c2.
      by exists (List.skipn m (the_mean (m + n) mean)), L; rewrite e -q2.
  Qed.

  Lemma student_densities (m n : nat) df C mean d :
    (sigma m n C)^T = sigma m n C -> eigvals_ok (m + n) C (eigvals C) -> cholesky_exact cholesky m n C ->
    student (Z.of_nat m) (Z.of_nat n) (Fin df) C mean = Ok d ->
    let S := sigma m n C in
    let mu := location (m + n) mean in
    [/\ forall z, List.length z = (m + n)%N ->
          log_prob (dist_joint d) z = Fin (student_log_density log_gamma df mu S (to_cv (m + n) z)),
        forall x, List.length x = m ->
          log_prob (dist_x d) x = Fin (student_log_density log_gamma df (usubmx mu) (ulsubmx S) (to_cv m x))
      & forall y, List.length y = n ->
          log_prob (dist_y d) y = Fin (student_log_density log_gamma df (dsubmx mu) (drsubmx S) (to_cv n y))].
  Proof.
    move=> sy k [k1 k2 k3] /student_ok [st [hs ->]] S mu.
    have [df0 _ _ _] := student_mi psi log_gamma sy k hs.
    move: hs => /student_init_ok [s [h _ _]].
    have [sh pm pd] := accepted_facts sy k h.
    have [q1 q2 pu pr] := slice_facts pd; have [l1 l2 c1 c2] := mean_halves pm.
    have lm := the_mean_length pm.
    split=> z hz /=.
    - by rewrite (student_density log_gamma df0 sy pd k1 lm hz) location_eq.
    - rewrite (@student_density _ _ m _ (square_slice C 0 m)) ?c1 ?q1 //; exact: (proj1 pu).
    - rewrite (@student_density _ _ n _ (square_slice C m (m + n))) ?c2 ?q2 //; exact: (proj1 pr).
  Qed.

  Lemma student_pmi_expected (m n : nat) df C mean d I E :
    (sigma m n C)^T = sigma m n C -> eigvals_ok (m + n) C (eigvals C) -> cholesky_exact cholesky m n C ->
    student (Z.of_nat m) (Z.of_nat n) (Fin df) C mean = Ok d ->
    let S := sigma m n C in
    let mu := location (m + n) mean in
    expectation I E ->
    student_log_moment psi df I E mu S ->
    student_log_moment psi df (fun f => I (fun z => f (usubmx z))) (fun f => E (fun z => f (usubmx z)))
      (usubmx mu) (ulsubmx S) ->
    student_log_moment psi df (fun f => I (fun z => f (dsubmx z))) (fun f => E (fun z => f (dsubmx z)))
      (dsubmx mu) (drsubmx S) ->
    exists pmi : 'cV[R]_(m + n) -> R,
      [/\ forall z, point_pmi d (of_cv (usubmx z)) (of_cv (dsubmx z)) = Fin (pmi z),
          I pmi & analytic_mi d = Some (Fin (E pmi))].
  Proof.
    move=> sy k ch hd S mu HE H1 H2 H3; have [hj hx hy] := student_densities sy k ch hd.
    move: (hd) => /student_ok [st [h ed]].
    have [p1 p2] := student_expected_pmi log_gamma sy k h HE H1 H2 H3.
    eexists; split; [exact: (pmi_function (pmi_of_densities hj hx hy)) | exact: p1 | by rewrite ed /= p2].
  Qed.
End Normal.

(** ** Moving the mean *)

Lemma normal_log_density_shift n (mu S : _) (z : 'cV[R]_n) :
  normal_log_density mu S z = normal_log_density 0 S (z - mu).
Proof. by rewrite /normal_log_density subr0. Qed.

Lemma student_log_density_shift lg df n (mu S : _) (z : 'cV[R]_n) :
  student_log_density lg df mu S z = student_log_density lg df 0 S (z - mu).
Proof. by rewrite /student_log_density subr0. Qed.

Lemma moved_length n x v : List.length x = n -> List.length v = n -> List.length (moved x v) = n.
Proof. by move=> h1 h2; rewrite /moved List.map_length List.combine_length h1 h2 PeanoNat.Nat.min_id. Qed.

Lemma moved_cv n x v : List.length x = n -> List.length v = n -> to_cv n (moved x v) - to_cv n v = to_cv n x.
Proof.
  move=> h1 h2; apply/matrixP => i j; rewrite !mxE.
  have e : forall (a b : list R) k, List.length a = List.length b ->
    Rminus (List.nth k (moved a b) (IZR 0)) (List.nth k b (IZR 0)) = List.nth k a (IZR 0).
  { elim=> [|p a IH] [|q b] [|k] //= h; try lra.
    apply: IH; lia. }
  by rewrite -[RHS](e x v) // h1 h2.
Qed.

Lemma moved_app x y a b : List.length x = List.length a ->
  List.app (moved x a) (moved y b) = moved (List.app x y) (List.app a b).
Proof. by elim: x a => [|p x IH] [|q a] //= h; rewrite /moved /= -/(moved _ _) IH //; lia. Qed.

Section Shift.
  Context {J : prng}.
  Variable eigvals : UtilsModel.matrix -> list (R * R).
  Variable cholesky : UtilsModel.matrix -> option UtilsModel.matrix.
  Variable normal_draw : list R -> option UtilsModel.matrix -> key J -> nat -> UtilsModel.matrix.
  Variable student_draw : fl -> list R -> option UtilsModel.matrix -> key J -> nat -> UtilsModel.matrix.
  Variable psi log_gamma : R -> R.
  Local Notation normal := (normal_distribution eigvals cholesky normal_draw).
  Local Notation student := (student_distribution eigvals cholesky student_draw psi log_gamma).

  Lemma location_halves (m n : nat) mx my : List.length mx = m ->
    usubmx (location (m + n) (Some (List.app mx my))) = to_cv m mx /\
    dsubmx (location (m + n) (Some (List.app mx my))) = to_cv n my.
  Proof. by move=> h; rewrite /= (to_cv_app n my h) col_mxKu col_mxKd. Qed.

  Lemma normal_shift (m n : nat) C mx my d d0 x y :
    (sigma m n C)^T = sigma m n C -> eigvals_ok (m + n) C (eigvals C) -> cholesky_exact cholesky m n C ->
    List.length mx = m -> List.length my = n -> List.length x = m -> List.length y = n ->
    normal (Z.of_nat m) (Z.of_nat n) C (Some (List.app mx my)) = Ok d ->
    normal (Z.of_nat m) (Z.of_nat n) C None = Ok d0 ->
    point_pmi d (moved x mx) (moved y my) = point_pmi d0 x y.
  Proof.
    move=> sy k ch lmx lmy lx ly h h0.
    have [hj hx hy] := normal_densities sy k ch h; have [hj0 hx0 hy0] := normal_densities sy k ch h0.
    rewrite (pmi_of_densities hj hx hy (moved_length lx lmx) (moved_length ly lmy)).
    rewrite (pmi_of_densities hj0 hx0 hy0 lx ly); congr Fin; rewrite /pointwise_mi.
    have [-> ->] := location_halves n my lmx.
    have -> : usubmx (location (m + n) None) = 0 by apply/matrixP => i j; rewrite !mxE.
    have -> : dsubmx (location (m + n) None) = 0 by apply/matrixP => i j; rewrite !mxE.
    rewrite (to_cv_app n (moved y my) (moved_length lx lmx)) (to_cv_app n y lx) !col_mxKu !col_mxKd.
    rewrite (normal_log_density_shift (to_cv m mx)) (normal_log_density_shift (to_cv n my)) (normal_log_density_shift (location (m + n) (Some _))) /=.
    rewrite (moved_cv lx lmx) (moved_cv ly lmy) (to_cv_app n my lmx) opp_col_mx add_col_mx.
    rewrite (moved_cv lx lmx) (moved_cv ly lmy) //.
  Qed.

  Lemma student_shift (m n : nat) df C mx my d d0 x y :
    (sigma m n C)^T = sigma m n C -> eigvals_ok (m + n) C (eigvals C) -> cholesky_exact cholesky m n C ->
    List.length mx = m -> List.length my = n -> List.length x = m -> List.length y = n ->
    student (Z.of_nat m) (Z.of_nat n) (Fin df) C (Some (List.app mx my)) = Ok d ->
    student (Z.of_nat m) (Z.of_nat n) (Fin df) C None = Ok d0 ->
    point_pmi d (moved x mx) (moved y my) = point_pmi d0 x y.
  Proof.
    move=> sy k ch lmx lmy lx ly h h0.
    have [hj hx hy] := student_densities sy k ch h; have [hj0 hx0 hy0] := student_densities sy k ch h0.
    rewrite (pmi_of_densities hj hx hy (moved_length lx lmx) (moved_length ly lmy)).
    rewrite (pmi_of_densities hj0 hx0 hy0 lx ly); congr Fin; rewrite /pointwise_mi.
    have [-> ->] := location_halves n my lmx.
    have -> : usubmx (location (m + n) None) = 0 by apply/matrixP => i j; rewrite !mxE.
    have -> : dsubmx (location (m + n) None) = 0 by apply/matrixP => i j; rewrite !mxE.
    rewrite (to_cv_app n (moved y my) (moved_length lx lmx)) (to_cv_app n y lx) !col_mxKu !col_mxKd.
    rewrite (student_log_density_shift _ _ (to_cv m mx)) (student_log_density_shift _ _ (to_cv n my)) (student_log_density_shift _ _ (location (m + n) (Some _))) /=.
    rewrite (moved_cv lx lmx) (moved_cv ly lmy) (to_cv_app n my lmx) opp_col_mx add_col_mx.
    rewrite (moved_cv lx lmx) (moved_cv ly lmy) //.
  Qed.
End Shift.

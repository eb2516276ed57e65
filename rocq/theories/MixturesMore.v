(** Pointwise mutual information of the X distribution and of distributions with inliers. *)
From Coq Require Import String.
From Verif Require Import Base UtilsModel JaxModel SamplersModel GaussianModel MatrixUtilsModel TransformsModel BmmModel
  MultivariateModel GmmModel BenchmarkModel TasksModel MixturesModel BaseLemmas SamplersProofs BmmSpec BmmProofs
  MatrixUtilsSpec MatrixUtilsProofs LvmProofs MixturesLvm.
From mathcomp Require Import all_ssreflect ssralg matrix mxalgebra.
From Verif Require Import RStruct PosDef MatrixBridge GaussianSpec GaussianProofs ExpectationProofs GaussianThms
  MatrixUtilsThms MultivariateSpec MultivariateProofs MultivariateThms GmmMixSpec GmmThms MixturesSpec EigvalsExist
  MixturesProofs MixturesThms.
Set Implicit Arguments.
Unset Strict Implicit.
Unset Printing Implicit Defensive.
Import GRing.Theory.
Local Open Scope ring_scope.

Lemma qf_inv n (S : 'M[R]_n) (z w : 'cV[R]_n) : S \in unitmx -> S *m w = z ->
  qf (invmx S) z = (z^T *m w) ord0 ord0.
Proof. by move=> u e; rewrite /qf -mulmxA -{2}e (mulKmx u). Qed.

Lemma entries2 (f : nat -> R) (c : R) i : (i < 2)%N -> f 0%N = c -> f 1%N = c -> f i = c.
Proof. by case: i => [|[|]]. Qed.

Lemma qf_inv_pair c x y : Rlt (Rmult c c) 1 ->
  qf (invmx (sigma 1 1 [:: [:: IZR 1; c]; [:: c; IZR 1]])) (to_cv (1 + 1) [:: x; y]) =
  Rdiv (Rplus (Rminus (Rmult x x) (Rmult (Rmult 2 c) (Rmult x y))) (Rmult y y)) (Rminus 1 (Rmult c c)).
Proof.
  move=> h; set S := sigma 1 1 _; set D := Rminus 1 (Rmult c c).
  have D0 : D <> IZR 0 by rewrite /D; lra.
  have pd : posdef S by apply: two_posdef; lra.
  have u : S \in unitmx by exact: posdef_unit.
  have e : S *m to_cv (1 + 1) [:: Rdiv (Rminus x (Rmult c y)) D; Rdiv (Rminus y (Rmult c x)) D] = to_cv (1 + 1) [:: x; y].
  { apply/matrixP => i j; rewrite !mxE !big_ord_recl big_ord0 !mxE /=.
    case: i => -[|[|i]] hi //=; rewrite /entry /= addr0; lazymatch goal with |- ?l = ?r => change (@eq R l r) end.
    - change (@eq R (Rplus (Rmult 1 (Rdiv (Rminus x (Rmult c y)) D)) (Rmult c (Rdiv (Rminus y (Rmult c x)) D))) x).
      by rewrite /D; field.
    - change (@eq R (Rplus (Rmult c (Rdiv (Rminus x (Rmult c y)) D)) (Rmult 1 (Rdiv (Rminus y (Rmult c x)) D))) y).
      by rewrite /D; field. }
  rewrite (qf_inv u e) !mxE !big_ord_recl big_ord0 !mxE /= addr0.
  change (@eq R (Rplus (Rmult x (Rdiv (Rminus x (Rmult c y)) D)) (Rmult y (Rdiv (Rminus y (Rmult c x)) D)))
    (Rdiv (Rplus (Rminus (Rmult x x) (Rmult (Rmult 2 c) (Rmult x y))) (Rmult y y)) D)).
  by field.
Qed.

Lemma fin_density (J : prng) (t : tfd J) z v : Rlt 0 v -> has_density t z v -> log_prob t z = Fin (ln v).
Proof. by move=> v0 [[_ ->]|[e _]] //; move: v0; rewrite e => /Rlt_irrefl. Qed.

Lemma x_pmi (J : prng) (d : joint_distribution J) rho x y : Rlt (Rabs rho) 1 ->
  normal_mixture d 1 1 2 (fun _ _ => IZR 0) (x_cov rho) ->
  point_pmi d [:: x] [:: y] = Fin (
    let s := Rminus 1 (Rmult rho rho) in
    Rminus (Rminus (ln (cosh (Rdiv (Rmult rho (Rmult x y)) s))) (Rdiv (ln s) 2))
           (Rdiv (Rmult (Rmult rho rho) (Rplus (Rmult x x) (Rmult y y))) (Rmult 2 s))).
Proof.
  move=> /less_one h [_ _ hj hx hy].
  set s := Rminus 1 (Rmult rho rho); have s0 : Rlt 0 s by rewrite /s; lra.
  set g := ln (Rmult 2 PI).
  (* marginals *)
  have one : forall (M : 'M[R]_1) v, M = 1%:M -> normal_density_at (\col_i IZR 0) M (to_cv 1 [:: v]) =
    exp (Rminus (Ropp (Rdiv (Rmult v v) 2)) (Rdiv g 2)).
  { move=> M v ->; rewrite /normal_density_at /normal_log_density; congr exp.
    have -> : qf (invmx (1%:M : 'M[R]_1)) (to_cv 1 [:: v] - \col_i IZR 0) = Rmult v v.
    { rewrite invmx1 /qf mulmx1 !mxE big_ord_recl big_ord0 !mxE /= addr0.
      change (@eq R (Rmult (Rplus v (Ropp 0)) (Rplus v (Ropp 0))) (Rmult v v)); ring. }
    rewrite det1 -/g; change (GRing.one R_ringType) with (IZR 1); rewrite ln_1 /=; field. }
  have m1 : forall k, \matrix_(i < 1, j < 1) x_cov rho k i j = 1%:M.
  { move=> k; apply/matrixP => i j; rewrite !mxE !(ord1 i) !(ord1 j) eqxx; reflexivity. }
  have m2 : forall k, \matrix_(i < 1, j < 1) x_cov rho k (1 + i) (1 + j) = 1%:M.
  { move=> k; apply/matrixP => i j; rewrite !mxE !(ord1 i) !(ord1 j) eqxx; reflexivity. }
  have av : forall f v, (forall k, f k = v) -> average 2 f = v.
  { by move=> f v e; rewrite /average /rsum /= !e; field. }
  (* the joint density *)
  have pair : forall k c, (k < 2)%N -> c = (if k == 0%N then Ropp rho else rho) ->
    normal_density_at (\col_(i < 1 + 1) IZR 0) (\matrix_(i < 1 + 1, j < 1 + 1) x_cov rho k i j) (to_cv (1 + 1) [:: x; y]) =
    exp (Rminus (Rdiv (Rplus (Rminus (Rmult x x) (Rmult (Rmult 2 c) (Rmult x y))) (Rmult y y)) (Rmult (-2) s))
                (Rplus (Rdiv (ln s) 2) g)).
  { move=> k c hk ec.
    have cc : Rmult c c = Rmult rho rho.
    { rewrite ec; case: (k == 0%N) => //; lazymatch goal with |- ?l = ?r => change (@eq R l r) end; ring. }
    have -> : \matrix_(i < 1 + 1, j < 1 + 1) x_cov rho k i j = sigma 1 1 [:: [:: IZR 1; c]; [:: c; IZR 1]].
    { apply/matrixP => i j; rewrite !mxE /x_cov -ec; case: i => -[|[|i]] hi1 //; by case: j => -[|[|j]] hj1. }
    rewrite /normal_density_at /normal_log_density; congr exp.
    have -> : to_cv (1 + 1) [:: x; y] - \col_(i < 1 + 1) IZR 0 = to_cv (1 + 1) [:: x; y].
    { by apply/matrixP => i j; rewrite !mxE; exact: Rminus_0_r. }
    have cc1 : Rlt (Rmult c c) 1 by rewrite cc.
    have [-> _ _] := bivariate_dets (IZR 1) (IZR 1) c.
    rewrite (qf_inv_pair x y cc1) cc -/s Rmult_1_l -/s -/g.
    have -> : INR (1 + 1) = IZR 2 by rewrite /=; ring.
    set l := ln s; field; lra. }
  set A := Rdiv (Rplus (Rmult x x) (Rmult y y)) (Rmult (-2) s).
  set B := Rplus (Rdiv (ln s) 2) g.
  set C := Rdiv (Rmult rho (Rmult x y)) s.
  have ej : average 2 (fun k => normal_density_at (\col_(i < 1 + 1) IZR 0) (\matrix_(i < 1 + 1, j < 1 + 1) x_cov rho k i j) (to_cv (1 + 1) [:: x; y]))
    = Rmult (exp (Rminus A B)) (cosh C).
  { rewrite /average /rsum /= (pair 0%N (Ropp rho)) // (pair 1%N rho) //.
    have -> : Rminus (Rdiv (Rplus (Rminus (Rmult x x) (Rmult (Rmult 2 (Ropp rho)) (Rmult x y))) (Rmult y y)) (Rmult (-2) s)) B
      = Rplus (Rminus A B) (Ropp C) by rewrite /A /C; field; lra.
    have -> : Rminus (Rdiv (Rplus (Rminus (Rmult x x) (Rmult (Rmult 2 rho) (Rmult x y))) (Rmult y y)) (Rmult (-2) s)) B
      = Rplus (Rminus A B) C by rewrite /A /C; field; lra.
    rewrite !exp_plus /cosh; field. }
  have c0 : Rlt 0 (cosh C) by rewrite /cosh; have := exp_pos C; have := exp_pos (Ropp C); lra.
  have lj : log_prob (dist_joint d) [:: x; y] = Fin (Rplus (Rminus A B) (ln (cosh C))).
  { rewrite (@fin_density J _ _ (Rmult (exp (Rminus A B)) (cosh C))).
    - congr Fin; rewrite ln_mult //; [by rewrite ln_exp | exact: exp_pos].
    - apply: Rmult_lt_0_compat => //; exact: exp_pos.
    - rewrite -ej; exact: (hj [:: x; y] erefl). }
  have lx : log_prob (dist_x d) [:: x] = Fin (Rminus (Ropp (Rdiv (Rmult x x) 2)) (Rdiv g 2)).
  { rewrite (fin_density _ (density_eq (hx [:: x] erefl) (av _ _ (fun k => one _ x (m1 k))))); [by rewrite ln_exp | exact: exp_pos]. }
  have ly : log_prob (dist_y d) [:: y] = Fin (Rminus (Ropp (Rdiv (Rmult y y) 2)) (Rdiv g 2)).
  { rewrite (fin_density _ (density_eq (hy [:: y] erefl) (av _ _ (fun k => one _ y (m2 k))))); [by rewrite ln_exp | exact: exp_pos]. }
  rewrite /point_pmi lj lx ly /fl_add /fl_sub /fl_opp; congr Fin; rewrite -/C -/s /A /B.
  have -> : Rmult rho rho = Rminus 1 s by rewrite /s; ring.
  set l := ln s; set lc := ln (cosh C); clearbody l lc; field; lra.
Qed.

(** ** Inliers *)

Lemma finite_matrix_fin m : finite_matrix (List.map (List.map Fin) m) = Ok m.
Proof.
  elim: m => //= row m IH; have -> : all_finite (List.map Fin row) = Some row.
  { by elim: row => //= r row ->. }
  by rewrite IH.
Qed.

Lemma two_components (J : prng) (T : tfp_draws J) (a b : tfd J) f z u v : Rle 0 f -> Rle f 1 ->
  has_density a z u -> has_density b z v ->
  has_density (tfd_mixture T [:: Rminus 1 f; f] [:: a; b]) z (Rplus (Rmult (Rminus 1 f) u) (Rmult f v)).
Proof.
  move=> f0 f1 ha hb.
  have gp : good_proportions [:: Rminus 1 f; f].
  { split; first by apply: List.Forall_cons; [lra|]; apply: List.Forall_cons => //; exact: List.Forall_nil.
    rewrite /rsum /=; lra. }
  have h2 : List.Forall2 (fun d v => has_density d z v) [:: a; b] [:: u; v] by constructor => //; constructor.
  apply: (density_eq (@mixture_density J T [:: Rminus 1 f; f] [:: a; b] z [:: u; v] gp erefl h2)).
  rewrite /rsum /=; field; lra.
Qed.

Lemma density_self (J : prng) (t : tfd J) z v : log_prob t z = Fin v -> has_density t z (exp v).
Proof. by move=> e; left; rewrite ln_exp; split=> //; exact: exp_pos. Qed.

Lemma string_assoc (a b c : string) : ((a ++ b) ++ c)%string = (a ++ (b ++ c))%string.
Proof. by elim: a => //= ch a ->. Qed.

Lemma same_twice f v : Rplus (Rmult (Rminus 1 f) v) (Rmult f v) = v.
Proof. ring. Qed.

Section Inliers.
  Context {J : prng}.
  Variable T : tfp_draws J.
  Variable eigvals : UtilsModel.matrix -> list (R * R).
  Variable cholesky : UtilsModel.matrix -> option UtilsModel.matrix.
  Variable normal_draw : list R -> option UtilsModel.matrix -> key J -> nat -> UtilsModel.matrix.
  Hypothesis eig : eigvals_symmetric eigvals.
  Hypothesis cho : factorises cholesky.
  Local Notation normal := (normal_distribution eigvals cholesky normal_draw).
  Local Notation inliers := (inliers_distribution T eigvals cholesky normal_draw).
  Local Notation sparse_cov m k s := (block_correlation m k (Rdiv (pow s 2) (Rplus 1 (pow s 2))) (IZR 0) (IZR 0)).

  Lemma sparse_matrix dx dy k s : Z.le 0 k -> Z.le k dx -> Z.le k dy ->
    exists p c, [/\ lvm_parameters dx dy k 0 s 0 s = Ok p, lvm_correlation_matrix p = Ok c,
      has_shape c (Z.to_nat dx + Z.to_nat dy) (Z.to_nat dx + Z.to_nat dy) & posdef (sigma (Z.to_nat dx) (Z.to_nat dy) c)].
  Proof.
    move=> k0 kx ky; rewrite /lvm_parameters /lvm_init.
    have -> : ((0 <=? k)%Z && (k <=? Z.min dx dy)%Z) = true by apply/andP; split; apply/Z.leb_le; lia.
    rewrite /=; set p := Build_lvm _ _ _ _ _ _ _ _ _ _ _.
    have v : valid_lvm p by split=> /=; lia.
    have [[c ec] _] := lvm_computed _ v.
    have [k' [ek [sh [pd _]]]] := @lvm_correlation p c v ec R1_neq_R0 R1_neq_R0.
    exists p, k'; split=> //; by rewrite /lvm_correlation_matrix ek /= finite_matrix_fin.
  Qed.

  Lemma inliers_ok (m n : nat) k s f : (0 < m)%N -> (0 < n)%N -> Z.le 0 k -> Z.le k (Z.of_nat m) -> Z.le k (Z.of_nat n) ->
    Rle 0 f -> Rle f 1 ->
    exists d, inliers (Z.of_nat m) (Z.of_nat n) k s f = Ok d /\
      normal_with_inliers d m n f (sparse_cov m (Z.to_nat k) s).
  Proof.
    move=> m0 n0 k0 km kn f0 f1; have [p [c [ep ec sh pd]]] := sparse_matrix s k0 km kn.
    have [_ he] := sparse_lvm_entries _ _ _ _ _ _ ep ec; rewrite !Znat.Nat2Z.id in sh pd he.
    have sy : (sigma m n c)^T = sigma m n c by exact: (proj1 pd).
    have ex : eigvals_exact eigvals m n c by apply: eigvals_symmetric_exact.
    have ch : cholesky_exact cholesky m n c by apply: cholesky_exact_of.
    have [d hd] := proj2 (@normal_accepts J eigvals cholesky normal_draw m n c None m0 n0 sy ex) (And3 sh I pd).
    have [dj dx dy] := normal_densities sy (proj1 ex) ch hd.
    have [e1 e2 _ _ [_ s1 s2]] := normal_dims hd.
    have {}e1 : jd_dim_x d = m by lia. have {}e2 : jd_dim_y d = n by lia. rewrite e1 in s1; rewrite e2 in s2.
    have [g hg] : exists g, product_distribution T (dist_x d) (dist_y d) = Ok g.
    { by apply: (proj2 (proj1 (product_spec T (dist_x d) (dist_y d)))); rewrite s1 s2. }
    have [g1 [g2 [_ [g3 [g4 g5]]]]] := proj2 (product_spec T _ _) g hg.
    have {}g1 : jd_dim_x g = m by move: g1; rewrite s1; case.
    have {}g2 : jd_dim_y g = n by move: g2; rewrite s2; case.
    have em : exists r, mixture T [:: Rminus 1 f; f] [:: d; g] = Ok r.
    { by rewrite /mixture /= e1 e2 g1 g2 !PeanoNat.Nat.eqb_refl /=; eexists. }
    have {em} [r hr] := em.
    exists r; split.
    { by rewrite /inliers_distribution ep /= ec /= hd /= hg /= hr. }
    have [_ [r1 [r2 r3]]] := mixture_parts T _ _ _ hr.
    have [_ [_ /(_ r hr) [_ r45]]] := mixture_accepts T [:: Rminus 1 f; f] [:: d; g].
    have [r4 r5] := List.Forall_inv r45.
    have E : sigma m n c = \matrix_(i < m + n, j < m + n) sparse_cov m (Z.to_nat k) s i j.
    { apply/matrixP => i j; rewrite !mxE; apply: he; exact/ltP. }
    have Ex : ulsubmx (sigma m n c) = \matrix_(i < m, j < m) sparse_cov m (Z.to_nat k) s i j.
    { by rewrite E; apply/matrixP => i j; rewrite !mxE. }
    have Ey : drsubmx (sigma m n c) = \matrix_(i < n, j < n) sparse_cov m (Z.to_nat k) s (m + i)%N (m + j)%N.
    { by rewrite E; apply/matrixP => i j; rewrite !mxE. }
    have L0 : usubmx (location (m + n) None) = 0 :> 'cV[R]_m by apply/matrixP => i j; rewrite !mxE.
    have L1 : dsubmx (location (m + n) None) = 0 :> 'cV[R]_n by apply/matrixP => i j; rewrite !mxE.
    rewrite L0 Ex in dx; rewrite L1 Ey in dy; rewrite E /= in dj.
    have hx : forall x, List.length x = m -> has_density (dist_x d) x
      (normal_density_at 0 (\matrix_(i < m, j < m) sparse_cov m (Z.to_nat k) s i j) (to_cv m x)).
    { by move=> x lx; apply: density_self; exact: dx. }
    have hy : forall y, List.length y = n -> has_density (dist_y d) y
      (normal_density_at 0 (\matrix_(i < n, j < n) sparse_cov m (Z.to_nat k) s (m + i)%N (m + j)%N) (to_cv n y)).
    { by move=> y ly; apply: density_self; exact: dy. }
    split; [by rewrite -r4 | by rewrite -r5 | | |].
    - move=> x y lx ly; rewrite r1; apply: two_components => //.
      + by apply: density_self; apply: dj; rewrite List.app_length lx ly.
      + rewrite /normal_density_at -exp_plus; apply: density_self.
        by rewrite g5 ?g1 // dx // dy.
    - move=> x lx; rewrite r2 /= g3; apply: (density_eq (two_components T f0 f1 (hx x lx) (hx x lx))).
      exact: same_twice.
    - move=> y ly; rewrite r3 /= g4; apply: (density_eq (two_components T f0 f1 (hy y ly) (hy y ly))).
      exact: same_twice.
  Qed.

  Lemma inliers_bad dx dy k s f : ~ [/\ Z.le 0 k, Z.le k dx, Z.le k dy, Z.le 1 dx & Z.le 1 dy] ->
    inliers dx dy k s f = Err ValueError.
  Proof.
    move=> hb; rewrite /inliers_distribution.
    have [h1 [h2 _]] := lvm_init_spec dx dy k 0 s 1 None 0 None s None; rewrite -/(lvm_parameters dx dy k 0 s 0 s) in h1 h2.
    case: h2 => [[p ep]|->] //.
    have [[k0 kx] ky] := proj1 h1 (ex_intro _ p ep).
    have [p' [c [ep' ec _ _]]] := sparse_matrix s k0 kx ky.
    have e : p' = p by move: ep'; rewrite ep; case.
    rewrite ep /= -e ec /=.
    case hn: (normal dx dy c None) => [d|e'] /=; last by rewrite (normal_errors hn).
    have [_ _ ha hc _] := normal_dims hn; by case: hb.
  Qed.

  Lemma inliers_task F percent (m n : nat) k s f N h : (0 < m)%N -> (0 < n)%N -> Z.le 0 k -> Z.le k (Z.of_nat m) -> Z.le k (Z.of_nat n) ->
    Rle 0 f -> Rle f 1 -> Z.le 1 N ->
    let params := [:: ("n_interacting", PInt k); ("strength", PFloat (Fin s)); ("inlier_fraction", PFloat (Fin f))]%string in
    exists d t, [/\ task_multinormal_sparse_w_inliers F percent T eigvals cholesky normal_draw (Z.of_nat m) (Z.of_nat n) k s f N h
                    = (List.app h [:: params], Ok t),
      described t (List.app h [:: params])
        ("mult-sparse-w-inliers-" ++ int_str (Z.of_nat m) ++ "-" ++ int_str (Z.of_nat n) ++ "-" ++ int_str k
         ++ "-" ++ float_repr F s ++ "-" ++ float_repr F f)%string
        ("Multinormal " ++ int_str (Z.of_nat m) ++ " × " ++ int_str (Z.of_nat n) ++ " (sparse, " ++ percent f ++ " inliers)")%string params,
      samples_from id d N (t_sampler t)
    & normal_with_inliers d m n f (sparse_cov m (Z.to_nat k) s)].
  Proof.
    move=> m0 n0 k0 km kn f0 f1 hN params; have [d [hd wd]] := inliers_ok s m0 n0 k0 km kn f0 f1.
    have dx : (0 < jd_dim_x d)%N by rewrite (wi_dim_x wd).
    have dy : (0 < jd_dim_y d)%N by rewrite (wi_dim_y wd).
    have [t [es ss]] := sampler_ok dx dy hN.
    have ef : Rleb 0 f && Rleb f 1 = true.
    { by rewrite /Rleb; case: (Rle_dec 0 f) => //= _; case: (Rle_dec f 1). }
    exists d; eexists; split.
    - by rewrite /task_multinormal_sparse_w_inliers /pbind /BenchmarkModel.lift ef /= hd /= es.
    - split=> //; split=> /=; last by eexists; split; [reflexivity | exact: dread_new].
      by rewrite /dims_str !string_assoc.
    - by [].
    - by [].
  Qed.

  Lemma inliers_task_bad F percent dx dy k s f N h :
    ((Rlt f 0 \/ Rlt 1 f) ->
     task_multinormal_sparse_w_inliers F percent T eigvals cholesky normal_draw dx dy k s f N h = (h, Err AssertionError)) /\
    (Rle 0 f -> Rle f 1 -> ~ [/\ Z.le 0 k, Z.le k dx, Z.le k dy, Z.le 1 dx & Z.le 1 dy] \/ Z.lt N 1 ->
     task_multinormal_sparse_w_inliers F percent T eigvals cholesky normal_draw dx dy k s f N h = (h, Err ValueError)).
  Proof.
    split=> [hf|f0 f1 hb]; rewrite /task_multinormal_sparse_w_inliers /pbind /BenchmarkModel.lift.
    - have -> // : Rleb 0 f && Rleb f 1 = false.
      rewrite /Rleb; case: (Rle_dec 0 f) => //= a; case: (Rle_dec f 1) => //= b; exfalso; case: hf; lra.
    - have -> : Rleb 0 f && Rleb f 1 = true.
      { by rewrite /Rleb; case: (Rle_dec 0 f) => //= _; case: (Rle_dec f 1). }
      rewrite /=; case: hb => [hb|hN]; first by rewrite inliers_bad.
      case hd: (inliers dx dy k s f) => [d|e] /=; first by rewrite sampler_rejects.
      suff -> : e = ValueError by [].
      move: hd; rewrite /inliers_distribution.
      have [h1 [h2 _]] := lvm_init_spec dx dy k 0 s 1 None 0 None s None; rewrite -/(lvm_parameters dx dy k 0 s 0 s) in h1 h2.
      case: h2 => [[p ep]|->]; last by case.
      have [[k0 kx] ky] := proj1 h1 (ex_intro _ p ep).
      have [p' [c [ep' ec _ _]]] := sparse_matrix s k0 kx ky.
      have e' : p' = p by move: ep'; rewrite ep; case.
      rewrite ep /= -e' ec /=.
      case hn: (normal dx dy c None) => [d|e2] /=; last by move=> [<-]; rewrite (normal_errors hn).
      have [e1 e2 _ _ [_ s1 s2]] := normal_dims hn.
      rewrite /product_distribution s1 s2 /= /mixture /= !PeanoNat.Nat.eqb_refl //=.
  Qed.
End Inliers.

(** Pointwise mutual information with inliers. *)
Lemma inliers_pmi (J : prng) (d : joint_distribution J) m n f cov x y : Rle 0 f -> Rle f 1 ->
  normal_with_inliers d m n f cov -> List.length x = m -> List.length y = n ->
  point_pmi d x y = Fin (ln (Rplus (Rmult (Rminus 1 f) (exp (normal_pmi m n cov x y))) f)).
Proof.
  move=> f0 f1 [_ _ hj hx hy] lx ly.
  move: (hj x y lx ly) (hx x lx) (hy y ly); rewrite /normal_density_at /normal_pmi.
  set a := normal_log_density _ _ (to_cv (m + n) _); set b := normal_log_density _ _ (to_cv m _).
  set c := normal_log_density _ _ (to_cv n _) => dj dx dy.
  have ea : exp a = Rmult (exp (Rminus a (Rplus b c))) (Rmult (exp b) (exp c)).
  { rewrite -!exp_plus; congr exp; lazymatch goal with |- ?l = ?r => change (@eq R l r) end; ring. }
  set r := Rplus (Rmult (Rminus 1 f) (exp (Rminus a (Rplus b c)))) f.
  have r0 : Rlt 0 r.
  { have := exp_pos (Rminus a (Rplus b c)); rewrite /r; case: (Req_dec f 0) => [->|nf] e0; first by lra.
    have : Rle 0 (Rmult (Rminus 1 f) (exp (Rminus a (Rplus b c)))) by apply: Rmult_le_pos; lra.
    lra. }
  have e : Rplus (Rmult (Rminus 1 f) (exp a)) (Rmult f (Rmult (exp b) (exp c))) = Rmult r (exp (Rplus b c)).
  { rewrite ea -exp_plus /r; lazymatch goal with |- ?l = ?r => change (@eq R l r) end; ring. }
  rewrite /point_pmi (fin_density (exp_pos b) dx) (fin_density (exp_pos c) dy).
  rewrite (fin_density _ (density_eq dj e)); last by apply: Rmult_lt_0_compat => //; exact: exp_pos.
  rewrite ln_mult //; last exact: exp_pos.
  rewrite !ln_exp /fl_add /fl_sub /fl_opp; congr Fin; lazymatch goal with |- ?l = ?r => change (@eq R l r) end; ring.
Qed.

Lemma ln_below t : Rlt 0 t -> Rle (ln t) (Rminus t 1).
Proof.
  move=> t0; have := exp_ineq1_le (ln t); rewrite exp_ln //; lra.
Qed.

(** [t ln t] is convex. *)
Lemma entropy_tangent t0 t : Rlt 0 t0 -> Rlt 0 t ->
  Rle (Rplus (Rmult t0 (ln t0)) (Rmult (Rplus 1 (ln t0)) (Rminus t t0))) (Rmult t (ln t)).
Proof.
  move=> h0 h; have q : Rlt 0 (Rdiv t0 t) by apply: Rdiv_lt_0_compat.
  have := ln_below q; rewrite /Rdiv ln_mult //; last exact: Rinv_0_lt_compat.
  rewrite ln_Rinv // => b.
  have : Rle (Rmult t (Rminus (ln t0) (ln t))) (Rmult t (Rminus (Rdiv t0 t) 1)) by apply: Rmult_le_compat_l; rewrite /Rdiv; lra.
  have -> : Rmult t (Rminus (Rdiv t0 t) 1) = Rminus t0 t by field; lra.
  lra.
Qed.

Lemma inliers_lose f p : Rle 0 f -> Rle f 1 ->
  let q := ln (Rplus (Rmult (Rminus 1 f) (exp p)) f) in
  Rle (Rmult (exp q) q) (Rmult (Rminus 1 f) (Rmult (exp p) p)).
Proof.
  move=> f0 f1 q; set a := exp p; set t0 := Rplus (Rmult (Rminus 1 f) a) f.
  have a0 : Rlt 0 a := exp_pos p.
  have h0 : Rlt 0 t0.
  { rewrite /t0; case: (Req_dec f 0) => [->|nf]; first by lra.
    have : Rle 0 (Rmult (Rminus 1 f) a) by apply: Rmult_le_pos; lra.
    lra. }
  have -> : exp q = t0 by rewrite /q exp_ln.
  have -> : q = ln t0 by [].
  have -> : p = ln a by rewrite /a ln_exp.
  have h1 := entropy_tangent h0 a0; have h2 := entropy_tangent h0 Rlt_0_1; rewrite ln_1 in h2.
  have h3 := Rmult_le_compat_l (Rminus 1 f) _ _ (ltac:(lra) : Rle 0 (Rminus 1 f)) h1.
  have h4 := Rmult_le_compat_l f _ _ f0 h2.
  have e : Rplus (Rmult (Rminus 1 f) (Rminus a t0)) (Rmult f (Rminus 1 t0)) = IZR 0.
  { rewrite /t0; lazymatch goal with |- ?l = ?r => change (@eq R l r) end; ring. }
  have e2 : Rplus (Rmult (Rminus 1 f) (Rplus (Rmult t0 (ln t0)) (Rmult (Rplus 1 (ln t0)) (Rminus a t0))))
                  (Rmult f (Rplus (Rmult t0 (ln t0)) (Rmult (Rplus 1 (ln t0)) (Rminus 1 t0)))) =
            Rplus (Rmult t0 (ln t0)) (Rmult (Rplus 1 (ln t0)) (Rplus (Rmult (Rminus 1 f) (Rminus a t0)) (Rmult f (Rminus 1 t0)))).
  { lazymatch goal with |- ?l = ?r => change (@eq R l r) end; ring. }
  rewrite e in e2; lra.
Qed.

(** The metadata are not always computed. *)
Lemma x_metadata (J : prng) F eigvals cholesky (normal_draw : list R -> option UtilsModel.matrix -> key J -> nat -> UtilsModel.matrix) h :
  eigvals_symmetric eigvals -> factorises cholesky ->
  exists (T : tfp_draws J) h' t, task_x F T eigvals cholesky normal_draw (Rdiv 1 2) 1 h = (h', Ok t) /\
    metadata t h' = (h', Err ValidationError).
Proof.
  move=> eig cho.
  set T := {| mixture_draw := fun (_ : list R) (_ : list (tfd J)) (_ : key J) n => List.repeat [:: IZR 3; IZR 0] n;
              blockwise_draw := fun (_ _ : tfd J) (_ : key J) n => List.repeat [:: IZR 3; IZR 0] n |}.
  have hr : Rlt (Rabs (Rdiv 1 2)) 1 by rewrite Rabs_pos_eq; lra.
  have [d [hd md]] := x_ok T normal_draw eig cho hr.
  have [j1 j2] := mixture_dims md isT isT.
  have [s [es ss]] := sampler_ok j1 j2 (Z.le_refl 1).
  have dr : forall k n, draw (dist_joint d) k n = List.repeat [:: IZR 3; IZR 0] n.
  { move: hd; rewrite /x_distribution; case: (map_results _ _) => //= cs hm k n.
    by have [_ [-> _]] := mixture_parts T _ _ _ hm. }
  exists T; do 2 eexists; split; first by rewrite /task_x /pbind /BenchmarkModel.lift hd /= es.
  rewrite /metadata /pbind /BenchmarkModel.lift /= (sf_dim_x ss) (sf_dim_y ss) (sf_mi ss) dr (nm_dim_x md) /=.
  rewrite (x_pmi _ _ hr md).
  set v := (let s := _ in _).
  have v0 : Rlt v 0.
  { rewrite /v /= Rmult_0_r Rmult_0_r; set s' := Rminus 1 _.
    have e : s' = Rdiv 3 4 by rewrite /s'; field.
    rewrite e {1}/Rdiv Rmult_0_l cosh_0 ln_1.
    have := ln_below (ltac:(lra) : Rlt 0 (Rdiv 4 3)).
    have -> : ln (Rdiv 4 3) = Ropp (ln (Rdiv 3 4)).
    { rewrite -ln_Rinv; last lra.
      by congr ln; field. }
    set l := ln _ => b.
    have -> : Rdiv (Rmult (Rmult (Rdiv 1 2) (Rdiv 1 2)) (Rplus (Rmult 3 3) (Rmult 0 0))) (Rmult 2 (Rdiv 3 4)) = Rdiv 3 2 by field.
    lra. }
  rewrite /fl_mean /fl_sum /= Rplus_0_r /non_negative_float.
  have hv : Rleb 0 (Rdiv v 1) = false.
  { rewrite /Rleb; case: (Rle_dec _ _) => // h1; exfalso; move: h1; rewrite /Rdiv Rinv_1; lra. }
  set params := [:: ("gaussian_correlation"%string, PFloat (Fin (Rdiv 1 2)))].
  by rewrite dread_new /params hv.
Qed.

Lemma inliers_lose_points (J : prng) (d : joint_distribution J) m n f cov x y : Rle 0 f -> Rle f 1 ->
  normal_with_inliers d m n f cov -> List.length x = m -> List.length y = n ->
  let p := normal_pmi m n cov x y in
  exists q, point_pmi d x y = Fin q /\ Rle (Rmult (exp q) q) (Rmult (Rminus 1 f) (Rmult (exp p) p)).
Proof. move=> f0 f1 h lx ly; eexists; split; [exact: inliers_pmi h lx ly | exact: inliers_lose]. Qed.

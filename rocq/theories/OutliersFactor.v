(** The distribution of the signal. *)
From Coq Require Import String.
From Verif Require Import Base UtilsModel JaxModel SamplersModel GaussianModel MatrixUtilsModel TransformsModel BmmModel
  MultivariateModel GmmModel BenchmarkModel TasksModel MixturesModel PaperModel OutliersModel DiscreteSpec OutliersSpec BaseLemmas SamplersProofs BmmSpec BmmProofs
  MatrixUtilsSpec MatrixUtilsProofs LvmProofs MixturesLvm DiscreteThms OutliersSignal.
From mathcomp Require Import all_ssreflect ssralg matrix mxalgebra.
From Verif Require Import RStruct PosDef MatrixBridge GaussianSpec GaussianProofs ExpectationProofs GaussianThms
  MatrixUtilsThms MultivariateSpec MultivariateProofs MultivariateThms GmmMixSpec GmmThms MixturesSpec EigvalsExist
  MixturesProofs MixturesThms MixturesMore DiscreteFactor.
Set Implicit Arguments.
Unset Strict Implicit.
Unset Printing Implicit Defensive.
Import GRing.Theory.
Local Open Scope ring_scope.
Ltac real_eq := lazymatch goal with |- ?l = ?r => change (@eq R l r) end.

Lemma signal_accepted : signal_cov_matrix = Ok signal_correlation /\ has_shape signal_correlation 4 4 /\ posdef (sigma 2 2 signal_correlation).
Proof.
  rewrite /signal_cov_matrix; case ep: (sparse_init 2 2 2 _ _ _ None) => [p|] /=; last by [].
  have v : valid_lvm p by move: ep; rewrite /sparse_init /lvm_init /=; move=> [<-]; split=> /=; lia.
  have [[c ec] _] := lvm_computed _ v.
  have nx : lv_epsilon_x p <> R0 by move: ep; rewrite /sparse_init /lvm_init /=; move=> [<-] /=; exact: R1_neq_R0.
  have ny : lv_epsilon_y p <> R0 by move: ep; rewrite /sparse_init /lvm_init /=; move=> [<-] /=; exact: R1_neq_R0.
  have [k [ek [sh [pd _]]]] := @lvm_correlation p c v ec nx ny.
  have ek' : lvm_correlation_matrix p = Ok k by rewrite /lvm_correlation_matrix ek /= finite_matrix_fin.
  have e : k = signal_correlation by apply: signal_value; rewrite /signal_cov_matrix ep.
  rewrite ek' e; split=> //; split=> //.
  have dx : lv_dim_x p = 2%N by move: ep; rewrite /sparse_init /lvm_init /=; move=> [<-].
  have dy : lv_dim_y p = 2%N by move: ep; rewrite /sparse_init /lvm_init /=; move=> [<-].
  move: pd; by rewrite dx dy e.
Qed.

Definition signal_volume : R := Rdiv (Rmult (Rmult 902 102) (Rmult 900 100)) (Rmult (Rmult 501 501) (Rmult 501 501)).

Lemma signal_det : \det (sigma 2 2 signal_correlation) = signal_volume.
Proof. rewrite /sigma -det_to_mx /signal_correlation /signal_volume; cbn; real_eq; field. Qed.

Definition half_volume : R := Rdiv (Rmult 500 502) (Rmult 501 501).
Lemma signal_halves : \det (ulsubmx (sigma 2 2 signal_correlation)) = half_volume /\ \det (drsubmx (sigma 2 2 signal_correlation)) = half_volume.
Proof.
  split; rewrite /sigma -?to_mx_ul -?to_mx_dr -det_to_mx /signal_correlation /half_volume; cbn; real_eq; field.
Qed.

Lemma signal_form x1 x2 y1 y2 :
  qf (invmx (sigma 2 2 signal_correlation)) (to_cv (2 + 2) [:: x1; x2; y1; y2]) =
  Rplus (Rplus (Rdiv (pow (Rdiv (Rplus (Rplus (Rplus x1 x2) y1) y2) 2) 2) (Rdiv 902 501))
               (Rdiv (pow (Rdiv (Rminus (Rminus (Rplus x1 x2) y1) y2) 2) 2) (Rdiv 102 501)))
        (Rplus (Rdiv (pow (Rdiv (Rminus (Rplus (Rminus x1 x2) y1) y2) 2) 2) (Rdiv 900 501))
               (Rdiv (pow (Rdiv (Rplus (Rminus (Rminus x1 x2) y1) y2) 2) 2) (Rdiv 100 501))).
Proof.
  have [_ [_ pd]] := signal_accepted; set S := sigma 2 2 signal_correlation in pd *.
  have u : S \in unitmx by exact: posdef_unit.
  pose u1 := Rdiv (Rdiv (Rplus (Rplus (Rplus x1 x2) y1) y2) 2) (Rdiv 902 501).
  pose u2 := Rdiv (Rdiv (Rminus (Rminus (Rplus x1 x2) y1) y2) 2) (Rdiv 102 501).
  pose u3 := Rdiv (Rdiv (Rminus (Rplus (Rminus x1 x2) y1) y2) 2) (Rdiv 900 501).
  pose u4 := Rdiv (Rdiv (Rplus (Rminus (Rminus x1 x2) y1) y2) 2) (Rdiv 100 501).
  pose w1 := Rdiv (Rplus (Rplus (Rplus u1 u2) u3) u4) 2. pose w2 := Rdiv (Rminus (Rminus (Rplus u1 u2) u3) u4) 2.
  pose w3 := Rdiv (Rminus (Rplus (Rminus u1 u2) u3) u4) 2. pose w4 := Rdiv (Rplus (Rminus (Rminus u1 u2) u3) u4) 2.
  have e : S *m to_cv (2 + 2) [:: w1; w2; w3; w4] = to_cv (2 + 2) [:: x1; x2; y1; y2].
  { apply/matrixP => i j; rewrite !mxE !big_ord_recl big_ord0 !mxE /=.
    case: i => -[|[|[|[|i]]]] hi //=; rewrite /entry /= addr0.
    - change (@eq R (Rplus (Rmult 1 w1) (Rplus (Rmult (Rdiv 1 501) w2) (Rplus (Rmult (Rdiv 400 501) w3) (Rmult 0 w4)))) x1).
      rewrite /w1 /w2 /w3 /w4 /u1 /u2 /u3 /u4; field.
    - change (@eq R (Rplus (Rmult (Rdiv 1 501) w1) (Rplus (Rmult 1 w2) (Rplus (Rmult 0 w3) (Rmult (Rdiv 400 501) w4)))) x2).
      rewrite /w1 /w2 /w3 /w4 /u1 /u2 /u3 /u4; field.
    - change (@eq R (Rplus (Rmult (Rdiv 400 501) w1) (Rplus (Rmult 0 w2) (Rplus (Rmult 1 w3) (Rmult (Rdiv 1 501) w4)))) y1).
      rewrite /w1 /w2 /w3 /w4 /u1 /u2 /u3 /u4; field.
    - change (@eq R (Rplus (Rmult 0 w1) (Rplus (Rmult (Rdiv 400 501) w2) (Rplus (Rmult (Rdiv 1 501) w3) (Rmult 1 w4)))) y2).
      rewrite /w1 /w2 /w3 /w4 /u1 /u2 /u3 /u4; field. }
  rewrite (qf_inv u e) !mxE !big_ord_recl big_ord0 !mxE /= addr0.
  change (@eq R (Rplus (Rmult x1 w1) (Rplus (Rmult x2 w2) (Rplus (Rmult y1 w3) (Rmult y2 w4))))
  (Rplus (Rplus (Rdiv (pow (Rdiv (Rplus (Rplus (Rplus x1 x2) y1) y2) 2) 2) (Rdiv 902 501))
               (Rdiv (pow (Rdiv (Rminus (Rminus (Rplus x1 x2) y1) y2) 2) 2) (Rdiv 102 501)))
        (Rplus (Rdiv (pow (Rdiv (Rminus (Rplus (Rminus x1 x2) y1) y2) 2) 2) (Rdiv 900 501))
               (Rdiv (pow (Rdiv (Rplus (Rminus (Rminus x1 x2) y1) y2) 2) 2) (Rdiv 100 501))))).
  rewrite /w1 /w2 /w3 /w4 /u1 /u2 /u3 /u4; field.
Qed.

Lemma normal_line_log v t : Rlt 0 v -> Rlt 0 (normal_line v t) /\
  ln (normal_line v t) = Rminus (Rmult (- / 2) (Rdiv (pow t 2) v)) (Rmult (/ 2) (Rplus (ln v) (ln (Rmult 2 PI)))).
Proof.
  move=> v0; have p := PI_RGT_0; have p2 : Rlt 0 (Rmult 2 PI) by apply: Rmult_lt_0_compat; lra.
  have pv : Rlt 0 (Rmult (Rmult 2 PI) v) by exact: Rmult_lt_0_compat.
  have s : Rlt 0 (sqrt (Rmult (Rmult 2 PI) v)) by exact: sqrt_lt_R0.
  have i : Rlt 0 (Rinv (sqrt (Rmult (Rmult 2 PI) v))) by exact: Rinv_0_lt_compat.
  split; rewrite /normal_line; first by apply: Rmult_lt_0_compat => //; exact: exp_pos.
  rewrite (ln_mult _ _ i (exp_pos _)) ln_exp ln_Rinv //.
  have -> : ln (sqrt (Rmult (Rmult 2 PI) v)) = Rmult (/ 2) (Rplus (ln v) (ln (Rmult 2 PI))).
  { have e : ln (Rmult (Rmult 2 PI) v) = Rmult 2 (ln (sqrt (Rmult (Rmult 2 PI) v))).
    { rewrite -{1}(sqrt_sqrt (Rmult (Rmult 2 PI) v)); last lra. rewrite (ln_mult _ _ s s); real_eq; ring. }
    move: e; rewrite (ln_mult _ _ p2 v0) => e; lra. }
  field; lra.
Qed.

Lemma signal_density_log x1 x2 y1 y2 : Rlt 0 (signal_density [:: x1; x2] [:: y1; y2]) /\
  normal_log_density 0 (sigma 2 2 signal_correlation) (to_cv (2 + 2) [:: x1; x2; y1; y2]) = ln (signal_density [:: x1; x2] [:: y1; y2]).
Proof.
  rewrite /normal_log_density subr0 signal_form signal_det /signal_density.
  set t1 := Rdiv (Rplus (Rplus (Rplus x1 x2) y1) y2) 2; set t2 := Rdiv (Rminus (Rminus (Rplus x1 x2) y1) y2) 2.
  set t3 := Rdiv (Rminus (Rplus (Rminus x1 x2) y1) y2) 2; set t4 := Rdiv (Rplus (Rminus (Rminus x1 x2) y1) y2) 2.
  have [p1 l1] := @normal_line_log (Rdiv 902 501) t1 ltac:(lra). have [p2 l2] := @normal_line_log (Rdiv 102 501) t2 ltac:(lra).
  have [p3 l3] := @normal_line_log (Rdiv 900 501) t3 ltac:(lra). have [p4 l4] := @normal_line_log (Rdiv 100 501) t4 ltac:(lra).
  have p12 := Rmult_lt_0_compat _ _ p1 p2; have p34 := Rmult_lt_0_compat _ _ p3 p4; split; first exact: Rmult_lt_0_compat.
  rewrite (ln_mult _ _ p12 p34) (ln_mult _ _ p1 p2) (ln_mult _ _ p3 p4) l1 l2 l3 l4.
  have -> : ln signal_volume = Rplus (Rplus (ln (Rdiv 902 501)) (ln (Rdiv 102 501))) (Rplus (ln (Rdiv 900 501)) (ln (Rdiv 100 501))).
  { rewrite -!ln_mult; try lra. congr ln; rewrite /signal_volume; field. }
  rewrite /=; field.
Qed.

Lemma plane_log (J : prng) (cholesky : UtilsModel.matrix -> option UtilsModel.matrix) (nd : list R -> option UtilsModel.matrix -> key J -> nat -> UtilsModel.matrix)
  v rho C z : factorises cholesky -> Rlt 0 v -> Rlt (pow rho 2) 1 -> C = [:: [:: v; Rmult v rho]; [:: Rmult v rho; v]] ->
  List.length z = 2%N -> Rlt 0 (plane v rho z) /\ has_density (construct_normal cholesky nd [:: IZR 0; IZR 0] C) z (plane v rho z).
Proof.
  move=> cho v0 r1 -> ; case: z => [|z1 [|z2 [|z3 z]]] // _; rewrite /plane.
  have p := normal_plane_pos v rho z1 z2 v0 r1; split=> //; left; split=> //=.
  apply: normal_plane_log => //; apply: plane_factor => //.
  have -> : Rmult (Rmult v rho) (Rmult v rho) = Rmult (Rmult v v) (pow rho 2) by ring.
  rewrite -{2}(Rmult_1_r (Rmult v v)); apply: Rmult_lt_compat_l => //; exact: Rmult_lt_0_compat.
Qed.

Section Signal.
  Context {J : prng}.
  Variable eigvals : UtilsModel.matrix -> list (R * R).
  Variable cholesky : UtilsModel.matrix -> option UtilsModel.matrix.
  Variable normal_draw : list R -> option UtilsModel.matrix -> key J -> nat -> UtilsModel.matrix.
  Hypothesis eig : eigvals_symmetric eigvals.
  Hypothesis cho : factorises cholesky.

  Lemma signal_made : exists d, dist_signal_gauss eigvals cholesky normal_draw = Ok d /\
    jd_dim_x d = 2%N /\ jd_dim_y d = 2%N /\ event_shape (dist_x d) = [:: 2%N] /\ analytic_mi d = Some (Fin signal_information) /\
    densities d signal_density signal_y signal_y.
  Proof.
    have [e [sh pd]] := signal_accepted.
    set c := signal_correlation in e sh pd.
    have sy : (sigma 2 2 c)^T = sigma 2 2 c by exact: (proj1 pd).
    have ex : eigvals_exact eigvals 2 2 c by apply: eigvals_symmetric_exact.
    have ch : cholesky_exact cholesky 2 2 c by apply: cholesky_exact_of.
    have [d hd] := proj2 (@normal_accepts J eigvals cholesky normal_draw 2 2 c None isT isT sy ex) (And3 sh I pd).
    have [dj _ _] := normal_densities sy (proj1 ex) ch hd.
    exists d; split; first by rewrite /dist_signal_gauss e.
    move: (hd) => /normal_ok [s [hs ed]].
    split; first by rewrite ed. split; first by rewrite ed. split; first by rewrite ed.
    split.
    - rewrite ed /=; have [-> _ _] := mi_formula sy (proj1 ex) hs; congr (Some (Fin _)).
      rewrite /gaussian_mi; have [-> ->] := signal_halves; rewrite signal_det /signal_information.
      have -> : Rdiv (Rmult half_volume half_volume) signal_volume = Rdiv 1575025 207009 by rewrite /half_volume /signal_volume; field.
      real_eq; field.
    - split.
      + move=> x y; rewrite ed; case: x => [|x1 [|x2 [|x3 x]]] //= _; case: y => [|y1 [|y2 [|y3 y]]] //= _.
        have [p l] := signal_density_log x1 x2 y1 y2; left; split=> //.
        by have := dj [:: x1; x2; y1; y2] erefl; rewrite ed /= l.
      + move=> x lx; have lx' : List.length x = 2%N by move: lx; rewrite ed.
        rewrite ed /=; refine (proj2 (plane_log normal_draw cho _ _ _ lx')); [lra | lra |].
        rewrite /c /signal_correlation /square_slice /=; repeat apply: (f_equal2 cons) => //; lra.
      + move=> x lx; have lx' : List.length x = 2%N by move: lx; rewrite ed.
        rewrite ed /=; refine (proj2 (plane_log normal_draw cho _ _ _ lx')); [lra | lra |].
        rewrite /c /signal_correlation /square_slice /=; repeat apply: (f_equal2 cons) => //; lra.
  Qed.
End Signal.

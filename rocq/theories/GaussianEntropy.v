(** Entropies of the normal and Student distributions, and what SplitStudentT draws. *)
From Verif Require Import Base UtilsModel JaxModel SamplersModel GaussianModel BaseLemmas.
From mathcomp Require Import all_ssreflect ssralg matrix mxalgebra.
From Verif Require Import SamplersSpec RStruct PosDef MatrixBridge GaussianSpec GaussianProofs ExpectationProofs GaussianThms.
Set Implicit Arguments.
Unset Strict Implicit.
Unset Printing Implicit Defensive.
Import GRing.Theory.
Local Open Scope ring_scope.

Lemma exp_opp (V : Type) (I : (V -> R) -> Prop) (E : (V -> R) -> R) f : expectation I E -> I f ->
  I (fun z => Ropp (f z)) /\ E (fun z => Ropp (f z)) = Ropp (E f).
Proof.
  move=> HE h; have [k1 k2] := exp_scale HE (Ropp 1) h.
  have e : (fun z => Ropp (f z)) = (fun z => Rmult (Ropp 1) (f z)).
  { apply: fun_ext => z; lazymatch goal with |- ?l = ?r => change (@eq R l r) end; ring. }
  rewrite e; split=> //; rewrite k2; lazymatch goal with |- ?l = ?r => change (@eq R l r) end; ring.
Qed.

Lemma normal_entropy eigvals (n : nat) mean C d I E mu : multinormal_init eigvals mean C = Ok d ->
  n = List.length mean -> (0 < n)%N ->
  (to_mx n n C)^T = to_mx n n C -> eigvals_ok n C (eigvals C) ->
  expectation I E -> has_covariance I E mu (to_mx n n C) ->
  entropy d = Fin (E (fun z => Ropp (normal_log_density mu (to_mx n n C) z))).
Proof.
  move=> /multinormal_init_ok [sh [c ->]] en n0 sy k HE HS.
  rewrite -en in sh; have pd : posdef (to_mx n n C) by apply/(accepted_symmetric sh n0 k sy).
  have [h1 h2] := exp_normal_log_density HE HS pd.
  have [_ k2] := exp_opp HE h1.
  rewrite k2 h2 /entropy /mn_dim /= -en det_to_mx np_log_pos; last exact: det_posdef.
  rewrite /=; congr Fin.
  set a := ln (\det _); set b := ln _; set q := INR n; clearbody a b q.
  lazymatch goal with |- ?l = ?r => change (@eq R l r) end; field.
Qed.

Lemma standard_student_entropy psi log_gamma (n : nat) df I E mu : Rlt 0 df ->
  expectation I E -> student_log_moment psi df I E mu (1%:M : 'M[R]_n) ->
  student_entropy psi log_gamma n (Fin df)
  = Fin (E (fun z => Ropp (student_log_density log_gamma df mu (1%:M : 'M[R]_n) z))).
Proof.
  move=> df0 HE [i1 i2]; rewrite student_entropy_fin //; congr Fin.
  have [c1 c2] := exp_scale HE (Rdiv (Rplus df (INR n)) 2) i1.
  have [d1 d2] := exp_const HE (Rplus (Rmult (Rdiv (INR n) 2) (ln (Rmult df PI))) (Rmult (/ 2) (ln (\det (1%:M : 'M[R]_n))))).
  have [a1 a2] := exp_add HE d1 c1.
  have [f1 f2] := exp_const HE (Rminus (log_gamma (Rdiv (Rplus df (INR n)) 2)) (log_gamma (Rdiv df 2))).
  have [g1 g2] := exp_sub HE f1 a1.
  have [_ ->] := exp_opp HE g1.
  have z : ln (\det (1%:M : 'M[R]_n)) = 0 by rewrite det1; exact: ln_1.
  rewrite g2 f2 a2 d2 c2 i2 z.
  set l := ln _; set q := INR n; set g3 := log_gamma _; set g4 := log_gamma _; set p1 := psi _; set p2 := psi _.
  clearbody l q g3 g4 p1 p2.
  lazymatch goal with |- ?l = ?r => change (@eq R l r) end; change (@GRing.zero _) with (IZR 0); field.
Qed.

Lemma student_draws eigvals (J : prng) mvt dim_x dim_y df C mean st k r :
  (forall r mu D df k, List.length (mvt r mu D df k) = k) -> k <> 1%N ->
  split_student_init eigvals dim_x dim_y df C mean = Ok st ->
  let rows := mvt r (the_mean (Z.to_nat dim_x + Z.to_nat dim_y) mean) C df k in
  @split_student_sample mvt J st k (SeedInt r : seed J)
  = Ok (List.map (List.firstn (Z.to_nat dim_x)) rows, List.map (List.skipn (Z.to_nat dim_x)) rows).
Proof.
  move=> ok k1 /student_init_ok [s [h _ ->]].
  rewrite (student_sample_many J _ _ ok k1) /=.
  move: h => /split_init_ok [m [n [-> -> _ _ [_ _ _ _ ->]]]] /=.
  by rewrite !Nat2Z.id.
Qed.

(** The setups of [how_good_integration_is.smk]. *)
From Coq Require Import String.
From Verif Require Import Base UtilsModel JaxModel SamplersModel GaussianModel MatrixUtilsModel BmmModel MultivariateModel BenchmarkModel TasksModel
  MixturesModel PaperModel CriticsModel IntegrationModel IntegrationSpec BaseLemmas SamplersProofs BmmSpec BmmProofs PaperSpec MatrixUtilsSpec MatrixUtilsProofs TrainingExamples BmmExamples.
From mathcomp Require Import all_ssreflect ssralg matrix mxalgebra.
From Verif Require Import RStruct PosDef MatrixBridge GaussianSpec GaussianProofs ExpectationProofs GaussianThms MatrixUtilsThms MultivariateSpec
  MultivariateProofs MultivariateThms MultivariateExamples MixturesSpec EigvalsExist MixturesProofs MixturesThms PaperThms.
Set Implicit Arguments.
Unset Strict Implicit.
Unset Printing Implicit Defensive.
Import GRing.Theory.
Local Open Scope ring_scope.

Lemma sum_repeated (g : R -> R) a n : rsum (List.map g (List.repeat a n)) = Rmult (INR n) (g a).
Proof. elim: n => [|n IH]; first by rewrite Rmult_0_l. rewrite S_INR [List.repeat _ _]/= [List.map _ _]/= [rsum _]/= IH; lra. Qed.

Section Setups.
  Context {J : prng}.
  Variable T : tfp_draws J.
  Variable eigvals : UtilsModel.matrix -> list (R * R).
  Variable cholesky : UtilsModel.matrix -> option UtilsModel.matrix.
  Variable normal_draw : list R -> option UtilsModel.matrix -> key J -> nat -> UtilsModel.matrix.
  Hypothesis eig : eigvals_symmetric eigvals.
  Hypothesis cho : factorises cholesky.
  Local Notation normal := (normal_distribution eigvals cholesky normal_draw).

  Lemma correlated_normal (m : nat) (rho : R) : (0 < m)%N -> Rlt (Rabs rho) 1 ->
    exists C d, [/\ canonical_correlation (List.repeat rho m) 0 = Ok C, normal (Z.of_nat m) (Z.of_nat m) C None = Ok d,
      jd_dim_x d = m /\ jd_dim_y d = m,
      analytic_mi d = Some (Fin (rsum (List.map (fun r => Rmult (Ropp (Rdiv 1 2)) (ln (Rminus 1 (pow r 2)))) (List.repeat rho m))))
      & forall x y, List.length x = m -> List.length y = m -> point_pmi d x y = Fin (normal_pmi m m (paired_covariance m rho) x y)].
  Proof.
    move=> m0 hr; have lr : List.length (List.repeat rho m) = m by exact: List.repeat_length.
    have [C [eC hC]] := canonical_ok (List.repeat rho m) 0 (Z.le_refl 0).
    have fr : List.Forall (fun r => Rlt (Rabs r) 1) (List.repeat rho m) by apply/List.Forall_forall => r /(@List.repeat_spec R m rho r) ->.
    have nr : List.repeat rho m <> nil by case: (m) m0.
    have sy0 := canonical_sym hC; have pd0 := proj2 (canonical_posdef hC) fr; have sh0 := proj1 hC; have he := proj2 hC.
    have cs := @canonical_sampler eigvals (List.repeat rho m) 0 C None nr (Z.le_refl 0) eC.
    rewrite lr /= addn0 in sy0 pd0 cs; rewrite lr /= !plusE addn0 in sh0 he.
    have ex : eigvals_exact eigvals m m C by apply: eigvals_symmetric_exact.
    have ch : cholesky_exact cholesky m m C by apply: cholesky_exact_of.
    have [d hd] := proj2 (@normal_accepts J eigvals cholesky normal_draw m m C None m0 m0 sy0 ex) (And3 sh0 I pd0).
    have [dj dx dy] := normal_densities sy0 (proj1 ex) ch hd.
    have [e1 e2 _ _ _] := normal_dims hd.
    exists C, d; split=> //; first by split; lia.
    - have [s [es ->]] := proj1 (@normal_ok J eigvals cholesky normal_draw m m C None d) hd; rewrite /=.
      have [_ /(_ s es) ->] := cs ex I; by [].
    - have E : sigma m m C = \matrix_(i < m + m, j < m + m) paired_covariance m rho i j.
      { apply/matrixP => i j; rewrite !mxE; rewrite (he i j); [|exact/ltP|exact/ltP]. rewrite /paired_covariance.
        have /ltP hi : (i < m + m)%N by []. have /ltP hj : (j < m + m)%N by [].
        move: (nat_of_ord i) (nat_of_ord j) hi hj => {}i {}j; rewrite -!plusE => hi hj.
        have rep : forall k, lt k m -> List.nth k (List.repeat rho m) R0 = rho by move=> k hk; rewrite (List.nth_indep _ _ rho) ?lr //; exact: List.nth_repeat.
        case: (PeanoNat.Nat.eqb_spec i j) => // ne.
        case: (PeanoNat.Nat.ltb_spec i m) => h1; case: (PeanoNat.Nat.eqb_spec j (Nat.add m i)) => h2 /=; try lia; try exact: rep.
        - case: (PeanoNat.Nat.ltb_spec j m) => h3 /=; case: (PeanoNat.Nat.eqb_spec i (Nat.add m j)) => h4 //=; try exact: rep; lia.
        - case: (PeanoNat.Nat.ltb_spec j m) => h3 /=; case: (PeanoNat.Nat.eqb_spec i (Nat.add m j)) => h4 //=; try exact: rep; lia. }
      have Ex : ulsubmx (sigma m m C) = \matrix_(i < m, j < m) paired_covariance m rho i j by rewrite E; apply/matrixP => i j; rewrite !mxE.
      have Ey : drsubmx (sigma m m C) = \matrix_(i < m, j < m) paired_covariance m rho (m + i)%N (m + j)%N by rewrite E; apply/matrixP => i j; rewrite !mxE.
      have L0 : usubmx (location (m + m) None) = 0 :> 'cV[R]_m by apply/matrixP => i j; rewrite !mxE.
      have L1 : dsubmx (location (m + m) None) = 0 :> 'cV[R]_m by apply/matrixP => i j; rewrite !mxE.
      rewrite L0 Ex in dx; rewrite L1 Ey in dy; rewrite E /= in dj.
      move=> x y lx ly; rewrite /point_pmi dj ?List.app_length ?lx ?ly // dx // dy //.
  Qed.

  Theorem setups_made : exists balls n l f0 f1 f2 f3, declared T eigvals cholesky normal_draw = Ok l /\
    completed l = [:: ("Four_Balls", (balls, f0)); ("Four_Balls_Biased", (balls, f1)); ("Four_Balls_SinSquare", (balls, f2)); ("Normal-25Dim", (n, f3))]%string /\
    ball_mixture balls four_balls_parts /\ (forall x y, point_pmi balls [:: x] [:: y] = Fin (f0 [:: x] [:: y])) /\
    (forall x y, f1 x y = Rplus (f0 x y) (Rdiv 1 2) /\ f2 x y = Rplus (f0 x y) (sin (Rmult (List.hd (IZR 0) x) (List.hd (IZR 0) x)))) /\
    jd_dim_x n = 25%N /\ jd_dim_y n = 25%N /\ analytic_mi n = Some (Fin (Rmult (Ropp (Rdiv 25 2)) (ln (Rdiv 36 100)))) /\
    forall x y, List.length x = 25%N -> List.length y = 25%N ->
      point_pmi n x y = Fin (f3 x y) /\ f3 x y = normal_pmi 25 25 (paired_covariance 25 (Rdiv 8 10)) x y.
  Proof.
    have [b [eb hb]] := four_balls_ok T normal_draw eig cho.
    have hr : Rlt (Rabs (Rdiv 8 10)) 1 by rewrite Rabs_right; lra.
    have [C [n [eC en [d1 d2] am pm]]] := @correlated_normal 25 (Rdiv 8 10) isT hr.
    exists b, n; do 5 eexists; split.
    { rewrite /declared eb; cbn [bind]; rewrite eC; cbn [bind]; rewrite (en : normal 25 25 C None = Ok n); cbn [bind]; reflexivity. }
    split; first by rewrite /completed /=.
    split; first by [].
    split; last split; last split; last split; last split=> //.
    - move=> x y; rewrite /finite_pmi.
      have ne : four_balls_parts <> [::] by [].
      have pr : List.Forall proper four_balls_parts by repeat (constructor; first by rewrite /proper /=; lra).
      by rewrite (ball_pmi x y ne pr hb).
    - move=> x y; rewrite /biased /sin_square; split=> //; congr Rplus; lra.
    - by [].
    - by [].
    - rewrite am; congr Some; congr Fin; rewrite sum_repeated (_ : Rminus 1 (pow (Rdiv 8 10) 2) = Rdiv 36 100); last by rewrite /pow; lra.
      rewrite (_ : INR 25 = IZR 25); last by rewrite INR_IZR_INZ. by lra.
    - move=> x y lx ly; by rewrite /finite_pmi (pm x y lx ly).
  Qed.
End Setups.

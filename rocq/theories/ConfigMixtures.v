(** The mixtures of the configurations ([ConfigModel]). *)
From Coq Require Import String.
From Verif Require Import Base UtilsModel JaxModel SamplersModel GaussianModel MatrixUtilsModel TransformsModel BmmModel
  MultivariateModel BenchmarkModel BenchmarkSpec TasksModel TasksSpec TasksProofs MixturesModel ConfigModel ConfigSpec ConfigThms.
From mathcomp Require Import all_ssreflect ssralg matrix mxalgebra.
From Verif Require Import TransformsSpec RStruct PosDef MatrixBridge GaussianSpec GaussianProofs TasksGaussian MultivariateSpec MixturesSpec
  MixturesThms MixturesMore.
Set Implicit Arguments.
Unset Strict Implicit.
Unset Printing Implicit Defensive.
Import GRing.Theory.
Local Open Scope ring_scope.

(** Exact eigenvalues of positive definite matrices are positive. *)
Lemma symmetric_positive eigvals : eigvals_symmetric eigvals -> eigvals_positive eigvals.
Proof.
  move=> eig n C sh pd; apply/List.Forall_forall => -[a b] i.
  have ok := eig n C sh (proj1 pd).
  exact: (proj1 (posdef_eigenvalues (proj1 pd)) pd a b (proj1 (ok a b) i)).
Qed.

Lemma samples_listed (J : prng) f (d : joint_distribution J) n (t : task J) h m k id name :
  samples_from f d n (t_sampler t) -> jd_dim_x d = m -> jd_dim_y d = k -> t_id t = id -> t_name t = name ->
  valid_ref h (t_params t) -> listed h (id, name, Z.of_nat m, Z.of_nat k) t.
Proof.
  move=> s <- <- <- <- v; split=> //; split=> //; split; first exact: (sf_dim_x s).
  split; first exact: (sf_dim_y s).
  split=> //; eexists; exact: (sf_mi s).
Qed.

Lemma new_ext (h : dheap) p : ext h (List.app h [:: p]).
Proof.
  split; first by rewrite app_length; lia.
  by move=> r hr; rewrite /dread app_nth1.
Qed.

Lemma described_valid (J : prng) (t : task J) h id name p : described t (List.app h [:: p]) id name p -> p <> nil ->
  valid_ref (List.app h [:: p]) (t_params t).
Proof.
  move=> [_ [_ [r [-> e]]]] nz; rewrite /valid_ref; case: (Nat.lt_ge_cases r (List.length (List.app h [:: p]))) => // ge.
  case: nz; rewrite -e /dread nth_overflow //.
Qed.

Section Mixed.
  Context {J : prng}.
  Variables (F : formats) (percent : R -> string) (T : tfp_draws J) (eigvals : UtilsModel.matrix -> list (R * R))
    (cholesky : UtilsModel.matrix -> option UtilsModel.matrix)
    (draw : list R -> option UtilsModel.matrix -> key J -> nat -> UtilsModel.matrix) (expm : expm_function).
  Hypotheses (HF : more_floats F) (HP : percents percent) (eig : eigvals_symmetric eigvals) (cho : factorises cholesky) (ex : is_expm expm).

  Lemma sample_pos : Z.le 1 estimate_sample. Proof. by []. Qed.

  Lemma mixed_gives (p : prog (task J)) h ps t f d id name m k : p h = (List.app h [:: ps], Ok t) -> ps <> nil ->
    described t (List.app h [:: ps]) id name ps -> samples_from f d estimate_sample (t_sampler t) ->
    jd_dim_x d = m -> jd_dim_y d = k -> gives p h (id, name, Z.of_nat m, Z.of_nat k) false.
  Proof.
    move=> e nz de s dx dy; exists (List.app h [:: ps]), t; split=> //; split; first exact: new_ext.
    split=> //; apply: samples_listed; [exact: s | exact: dx | exact: dy | by case: de | by case: de => _ [] | exact: described_valid de nz].
  Qed.

  Lemma x_gives h : gives (default_x (J := J) F eigvals T cholesky draw) h ("1v1-X-0.9", "X 1 × 1", 1%Z, 1%Z)%string false.
  Proof.
    have hr : Rlt (Rabs (Rdiv 9 10)) 1 by rewrite Rabs_pos_eq; lra.
    have [d [t [e de s md]]] := @x_task J F T eigvals cholesky draw eig cho _ _ h hr sample_pos.
    rewrite (proj1 (proj2 HF)) in de.
    exact: (mixed_gives (m := 1) (k := 1) e _ de s (nm_dim_x md) (nm_dim_y md)).
  Qed.
  Lemma ai_gives h : gives (default_ai (J := J) eigvals T cholesky draw) h ("1v1-AI", "AI 1 × 1", 1%Z, 1%Z)%string false.
  Proof.
    have [d [t [e [i [n pa]] s md]]] := @ai_task J T eigvals cholesky draw eig cho _ h sample_pos.
    exists h, t; split=> //; split; first exact: ext_refl.
    split=> //; apply: (samples_listed (m := 1) (k := 1) s (nm_dim_x md) (nm_dim_y md)) => //; by rewrite pa.
  Qed.
  Lemma galaxy_gives h : gives (default_galaxy (J := J) F expm eigvals T cholesky draw) h ("2v1-galaxy-0.5-3.0", "Galaxy 2 × 1", 2%Z, 1%Z)%string false.
  Proof.
    have [d [t [e de s md]]] := @galaxy_task J F T eigvals cholesky draw expm eig cho (Rdiv 5 10) 3 _ h ex sample_pos.
    case: HF => -[_ [_ [f5 _]]] [_ [_ [f3 _]]]; rewrite f5 f3 in de.
    exact: (mixed_gives (m := 2) (k := 1) e _ de s (nm_dim_x md) (nm_dim_y md)).
  Qed.
  Lemma waves_gives h : gives (default_waves (J := J) F eigvals T cholesky draw) h ("2v1-waves-12-5.0-3.0", "Waves 2 × 1", 2%Z, 1%Z)%string false.
  Proof.
    have [d [t [e de s md]]] := @waves_task J F T eigvals cholesky draw eig cho 12 5 3 _ h (Logic.eq_refl : Z.lt 0 12) sample_pos.
    case: HF => _ [_ [_ [f3 f5]]]; rewrite f5 f3 in de.
    exact: (mixed_gives (m := 2) (k := 1) e _ de s (nm_dim_x md) (nm_dim_y md)).
  Qed.
  Lemma concentric_gives m n h : (0 < m)%N -> Z.lt 0 n ->
    gives (concentric (J := J) eigvals T cholesky draw (Z.of_nat m) n) h
      ((int_str (Z.of_nat m) ++ "v1-concentric_gaussians-" ++ int_str n), ("Concentric " ++ int_str (Z.of_nat m) ++ " × 1"), Z.of_nat m, 1%Z)%string false.
  Proof.
    move=> m0 n0.
    have [d [t [e de s md]]] := @concentric_task J T eigvals cholesky draw eig cho m n _ h m0 n0 sample_pos.
    exact: (mixed_gives (m := m) (k := 1) e _ de s (nm_dim_x md) (nm_dim_y md)).
  Qed.
  Lemma inliers_gives m f h : (2 <= m)%N -> Rle 0 f -> Rle f 1 ->
    gives (inliers (J := J) F percent eigvals T cholesky draw (Z.of_nat m) f) h
      ("mult-sparse-w-inliers-" ++ int_str (Z.of_nat m) ++ "-" ++ int_str (Z.of_nat m) ++ "-2-2.0-" ++ float_repr F f,
       "Multinormal " ++ int_str (Z.of_nat m) ++ " × " ++ int_str (Z.of_nat m) ++ " (sparse, " ++ percent f ++ " inliers)", Z.of_nat m, Z.of_nat m)%string false.
  Proof.
    move=> m2 f0 f1.
    have m0 : (0 < m)%N by apply: leq_trans m2.
    have l2 : Z.le 2 (Z.of_nat m) by move/leP: m2; lia.
    have [d [t [e de s md]]] := @inliers_task J T eigvals cholesky draw eig cho F percent m m 2 2 f _ h m0 m0 (ltac:(lia) : Z.le 0 2) l2 l2 f0 f1 sample_pos.
    case: HF => -[_ [_ [_ f2]]] _; rewrite f2 in de.
    exact: (mixed_gives (m := m) (k := m) e _ de s (wi_dim_x md) (wi_dim_y md)).
  Qed.
End Mixed.

(** What the sign of the correction means for the samplers and the tasks. *)
From Coq Require Import String Lia Lra.
From Verif Require Import Base UtilsModel JaxModel SamplersModel GaussianModel BaseLemmas MatrixUtilsModel TransformsModel BenchmarkModel TasksModel TasksSpec BasicSpec BenchmarkSpec
  SamplersSpec GaussianSpec GaussianThms BasicGaussian BasicThms TrainingSpec TransformsSpec ExpmProofs BmmModel MultivariateModel MixturesModel MixturesSpec RulesModel RulesSpec TasksGaussian TasksBuild ConfigModel ConfigSpec ConfigLoad CorrectionModel GammaSpec CorrectionThms BasicSpec.
Open Scope Z_scope.
Local Notation length := List.length.

Section Tasks.
  Variables psi lg : R -> R.
  Hypothesis G : gamma_functions psi lg.

  Lemma positive_dims df a b : 1 <= df -> 1 <= a -> 1 <= b -> (0 < student_correction psi lg (IZR df) (Z.to_nat a) (Z.to_nat b))%R.
  Proof. intros H A B. apply correction_positive; [assumption|apply IZR_lt; lia|lia|lia]. Qed.
  Lemma seven d df : In (d, df) [(1, 1); (2, 1); (2, 2); (3, 2); (3, 3); (5, 2); (5, 3)] ->
    (0 <= student_correction psi lg (IZR df) (Z.to_nat d) (Z.to_nat d))%R.
  Proof.
    intros H. apply Rlt_le, positive_dims; cbn [In] in H; repeat (destruct H as [E|H]; [injection E as <- <-; lia|]); contradiction.
  Qed.
  (** More than the normal distribution with the same matrix. *)
  Theorem student_more_than_normal eigvals (m n : nat) C mean df st :
    matrix.trmx (sigma m n C) = sigma m n C -> eigvals_ok (m + n) C (eigvals C) ->
    split_student_init eigvals (Z.of_nat m) (Z.of_nat n) (Fin df) C mean = Ok st ->
    exists normal student, split_multinormal_mi (st_multinormal st) = Fin normal /\ split_student_mi psi lg st = Fin student /\ (0 <= normal < student)%R.
  Proof.
    intros Sy Ei E. destruct (@student_mi eigvals psi lg m n C mean df st Sy Ei E) as [H Hn _ Hs].
    destruct (proj1 (student_init_ok _ _ _ _ _ _ _) E) as [s [I _ _]].
    destruct (accepted_posdef Sy Ei I) as [M N _]. destruct (mi_formula Sy Ei I) as [_ Z0 _].
    exists (gaussian_mi (sigma m n C)). eexists. split; [exact Hn|]. split; [exact Hs|].
    assert (P := correction_positive psi lg G df m n H (ssrbool.elimT ssrnat.leP M) (ssrbool.elimT ssrnat.leP N)). split; [exact Z0|lra].
  Qed.

  (** ** Tasks *)
  Section Build.
    Variable J : prng.
    Variables (F : formats) (eigvals : matrix -> list (R * R)).
    Variable mvt : Z -> list R -> matrix -> fl -> nat -> matrix.
    Hypothesis He : eigvals_positive eigvals.
    Hypothesis Hm : forall r mu D df k, length (mvt r mu D df k) = k.
    Theorem student_identity_builds dx dy df name h : 1 <= dx -> 1 <= dy -> 1 <= df ->
      let a := Z.to_nat dx in let b := Z.to_nat dy in
      let c := student_correction psi lg (IZR df) a b in
      (0 < c)%R /\
      builds (J := J) (task_student_identity eigvals psi lg mvt dx dy df name) h
        (dashed ["student"; "identity"; int_str dx; int_str dy; int_str df]%string)
        (given name ("Student-t " ++ int_str dx ++ " × " ++ int_str dy ++ " (dof=" ++ int_str df ++ ")")) dx dy
        c [("dof", PInt df)]%string (student_pairs mvt a b df (constant_off 0)).
    Proof.
      intros X Y D a b c. assert (P : (0 < c)%R) by now apply positive_dims. split; [assumption|].
      apply (student_identity_build (J := J) eigvals psi lg mvt He Hm dx dy df name h X Y D). now apply Rlt_le.
    Qed.
    Theorem student_dense_builds dx dy df r name h : 1 <= dx -> 1 <= dy -> 1 <= df -> (r < 1)%R -> (-1 < (IZR (dx + dy) - 1) * r)%R ->
      let a := Z.to_nat dx in let b := Z.to_nat dy in
      let mi := (dense_mi a b r + student_correction psi lg (IZR df) a b)%R in
      (0 <= dense_mi a b r < mi)%R /\
      builds (J := J) (task_student_dense F eigvals psi lg mvt dx dy df r name) h
        (dashed ["student"; "dense"; int_str dx; int_str dy; int_str df; float_repr F r]%string)
        (given name ("Student-t " ++ int_str dx ++ " × " ++ int_str dy ++ " (dof=" ++ int_str df ++ ", dense)")) dx dy
        mi [("dof", PInt df); ("off_diag", PFloat (Fin r)); ("dispersion", listed (a + b) (constant_off r))]%string
        (student_pairs mvt a b df (constant_off r)).
    Proof.
      intros X Y D R1 R2 a b mi. assert (P := positive_dims df dx dy D X Y). fold a b in P.
      destruct (dense_normal He (J := J) (fun _ _ _ _ => []) X Y R1 R2) as (_ & _ & Z0 & _). fold a b in Z0.
      split; [unfold mi; lra|]. apply (student_dense_build (J := J) F eigvals psi lg mvt He Hm dx dy df r name h X Y D R1 R2). fold a b. lra.
    Qed.
    Theorem student_sparse_builds dx dy df k st name h : 1 <= dx -> 1 <= dy -> 1 <= df -> 0 <= k <= Z.min dx dy ->
      let a := Z.to_nat dx in let r := strength_correlation st in
      let mi := (paired_mi (Z.to_nat k) r + student_correction psi lg (IZR df) a (Z.to_nat dy))%R in
      (0 <= paired_mi (Z.to_nat k) r < mi)%R /\
      builds (J := J) (task_student_sparse F eigvals psi lg mvt dx dy df k st name) h
        (dashed ["student"; "sparse"; int_str dx; int_str dy; int_str df; int_str k; float_repr F st]%string)
        (given name ("Student-t " ++ int_str dx ++ " × " ++ int_str dy ++ " (dof=" ++ int_str df ++ ", sparse)")) dx dy
        mi [("dof", PInt df); ("n_interacting", PInt k); ("strength", PFloat (Fin st))]%string
        (student_pairs mvt a (Z.to_nat dy) df (paired_off a (Z.to_nat k) r)).
    Proof.
      intros X Y D K a r mi. assert (P := positive_dims df dx dy D X Y). fold a in P.
      destruct (sparse_normal He (J := J) (fun _ _ _ _ => []) st X Y (proj1 K) ltac:(lia) ltac:(lia)) as (_ & _ & _ & _ & Z0 & _). fold r in Z0.
      split; [unfold mi; lra|]. apply (student_sparse_build (J := J) F eigvals psi lg mvt He Hm dx dy df k st name h X Y D K). fold a r. lra.
    Qed.
  End Build.
End Tasks.
(** The published list and the workflows. *)
Theorem published_builds (J : prng) F D erf expm eigvals mvn psi lg mvt : prng_ok J -> draws_ok J D -> eigvals_positive eigvals -> gamma_functions psi lg ->
  forall h, exists h' (d : sdict (task J)), benchmark_tasks F D erf expm eigvals mvn psi lg mvt h = (h', Ok d).
Proof. intros HJ HD He G. apply dictionary_builds; try assumption. now apply seven. Qed.
Theorem v1_loads (J : prng) F (D : draws J) erf expm eigvals mvn psi lg mvt :
  more_floats F -> prng_ok J -> draws_ok J D -> gamma_functions psi lg -> eigvals_positive eigvals -> forall h,
  loading (J := J) (v1_unscaled F D erf expm eigvals mvn psi lg mvt) (v1_tasks F D erf expm eigvals mvn psi lg mvt) h v1_catalogue [].
Proof. intros HF HJ HD G He. apply v1_loading; try assumption. now apply seven. Qed.
Theorem v2_loads (J : prng) F percent (D : draws J) erf expm eigvals mvn psi lg mvt T cholesky normal_draw :
  more_floats F -> prng_ok J -> draws_ok J D -> gamma_functions psi lg ->
  percents percent -> eigvals_symmetric eigvals -> factorises cholesky -> is_expm expm -> forall h,
  loading (J := J) (v2_unscaled F percent D erf expm eigvals mvn psi lg mvt T cholesky normal_draw)
    (v2_tasks F percent D erf expm eigvals mvn psi lg mvt T cholesky normal_draw) h v2_catalogue estimated.
Proof. intros HF HJ HD G P E C X. apply v2_loading; try assumption. now apply seven. Qed.

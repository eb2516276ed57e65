(** Concrete tasks for the statements in [TasksProps]. *)
From Coq Require Import String.
From Verif Require Import Base UtilsModel JaxModel SamplersModel GaussianModel MatrixUtilsModel TransformsModel
  BaseLemmas TrainingSpec TrainingExamples SamplersSpec SamplersExamples BenchmarkModel BenchmarkSpec BenchmarkProofs BenchmarkThms BenchmarkExamples
  TasksModel TasksSpec TasksProofs TasksThms GaussianSpec TasksGaussian TasksBuild.
Open Scope Z_scope.
Local Notation length := List.length.

(** A task with three coordinates on each side and a parameter. *)
Definition wide_task {J} : task J :=
  {| t_sampler := {| dim_x := Ok 3; dim_y := Ok 3;
       sample := fun n rng => match rng with
         | SeedInt s => Ok (repeat [IZR s; 1; 2]%R n, repeat [0; 1; 4]%R n) | SeedKey _ => Err TypeError end;
       mutual_information := Ok (Fin (1 / 2)) |};
     t_id := "wide"; t_name := "Wide"; t_params := Some 0%nat |}.

Lemma half_not_negative : fl_ltb (Fin (1 / 2)) (Fin 0) = false.
Proof. cbn. unfold Rltb. destruct (Rlt_dec (1 / 2) 0); [lra|reflexivity]. Qed.
Lemma wide_usable {J} : usable (@wide_task J) ex_heap.
Proof.
  destruct (metadata_ok (@wide_task J) ex_heap 3 3 (Fin (1 / 2))) as (h1 & m & E & _ & _ & X & Y & _);
    [first [reflexivity|apply half_not_negative|discriminate|repeat constructor]..|].
  split; [repeat constructor|]. exists h1, m. rewrite X, Y. split; [exact E|lia].
Qed.
Lemma ex_usable {J} : usable (@ex_task J) ex_heap.
Proof.
  destruct (metadata_ok (@ex_task J) ex_heap 1 1 (Fin (1 / 2))) as (h1 & m & E & _ & _ & X & Y & _);
    [first [reflexivity|apply half_not_negative|discriminate|repeat constructor]..|].
  split; [repeat constructor|]. exists h1, m. rewrite X, Y. split; [exact E|lia].
Qed.

(** A transformed task and its base share the dictionary of parameters. *)
Lemma params_shared_refuted :
  ~ (forall (J : prng) (base t : task J) name h h' d p, usable base h -> transform_asinh_task base name h = (h', Ok t) ->
     t_params t = Some p -> content (dwrite h' p d) (t_params base) = content h (t_params base)).
Proof.
  intros H. destruct (asinh_derived (@wide_task demo) None ex_heap wide_usable) as (h' & t & E & D & S).
  assert (P : t_params t = Some 0%nat) by (apply S; discriminate).
  specialize (H _ _ _ _ _ _ [] 0%nat wide_usable E P).
  destruct D as (_ & L & _). cbn in L. destruct h' as [|d0 h']; [cbn in L; lia|]. discriminate H.
Qed.

(** Two spirals with different speeds have the same id. *)
Lemma spiral_ids_collide expm {J} (base t1 t2 : task J) v1 v2 n1 n2 b1 b2 h h1 h2 h3 d :
  transform_spiral_task expm base v1 n1 b1 h = (h1, Ok t1) -> transform_spiral_task expm base v2 n2 b2 h1 = (h2, Ok t2) ->
  tasks_by_id [t1; t2] [] h2 = (h3, Ok d) -> d = [(t_id t1, t2)].
Proof. intros A B. apply spiral_id in A. apply spiral_id in B. apply shadowed_task. congruence. Qed.

Definition zero_expm : expm_function := fun m => m.

Lemma two_spirals : exists h1 h2 t1 t2,
  transform_spiral_task zero_expm (@wide_task demo) 1 None true ex_heap = (h1, Ok t1) /\
  transform_spiral_task zero_expm (@wide_task demo) 2 None true h1 = (h2, Ok t2) /\
  exists h3 d, tasks_by_id [t1; t2] [] h2 = (h3, Ok d).
Proof.
  destruct (spiral_derived zero_expm (@wide_task demo) 1 None true ex_heap 3 3 wide_usable eq_refl eq_refl ltac:(lia) ltac:(lia))
    as (h1 & t1 & ? & ? & ? & ? & E1 & _ & _ & _ & _ & D1 & _).
  assert (X1 : ext ex_heap h1).
  { destruct D1 as (_ & L & ? & ? & ? & ? & _ & _ & _ & _ & _ & _ & _ & _ & K & _). split; auto. }
  destruct (spiral_derived zero_expm (@wide_task demo) 2 None true h1 3 3 (usable_ext _ _ _ X1 wide_usable) eq_refl eq_refl ltac:(lia) ltac:(lia))
    as (h2 & t2 & ? & ? & ? & ? & E2 & _ & _ & _ & _ & D2 & _).
  assert (X2 : ext h1 h2).
  { destruct D2 as (_ & L & ? & ? & ? & ? & _ & _ & _ & _ & _ & _ & _ & _ & K & _). split; auto. }
  exists h1, h2, t1, t2. split; [exact E1|]. split; [exact E2|]. apply tasks_by_id_total.
  constructor; [|constructor; [|constructor]]; [eapply usable_ext; [exact X2|]; apply D1|apply D2].
Qed.

(** Formats which print the floats of the published list as Python does. *)
Definition ex_formats : formats :=
  {| float_repr := fun x => if Reqb x (75 / 100) then "0.75" else if Reqb x (10 / 100) then "0.1"
                            else if Reqb x (5 / 10) then "0.5" else "2.0";
     float_fixed := fun _ _ => "0.00000" |}%string.
Lemma ex_formats_ok : python_floats ex_formats.
Proof.
  unfold python_floats, ex_formats, Reqb. cbn [float_repr].
  repeat split; repeat match goal with |- context [Req_EM_T ?a ?b] => destruct (Req_EM_T a b); try lra end; reflexivity.
Qed.
Definition ex_eigvals : matrix -> list (R * R) := fun _ => [(1, 0)]%R.
Lemma ex_eigvals_ok : eigvals_positive ex_eigvals.
Proof. intros n C _ _. constructor; [cbn; lra|constructor]. Qed.
Definition ex_student_positive : forall d df, In (d, df) [(1, 1); (2, 1); (2, 2); (3, 2); (3, 3); (5, 2); (5, 3)] ->
  (0 <= student_correction (fun _ => 0) (fun _ => 0) (IZR df) (Z.to_nat d) (Z.to_nat d))%R.
Proof. intros d df _. unfold student_correction. cbv zeta. lra. Qed.

Lemma unreadable_base :
  forall (J : prng) (base : task J) h h1 ex, metadata base h = (h1, Err ex) ->
  forall (p : prog (task J)),
  (exists name, p = transform_asinh_task base name \/ p = transform_half_cube_task base name \/ p = transform_wiggly_task base name) \/
  (exists erf name, p = transform_normal_cdf_task erf base name) \/ (exists name, p = transform_swissroll_task base name) \/
  (exists expm name, p = transform_rotate_task expm base name) \/
  (exists expm v name b, p = transform_spiral_task expm base v name b) \/
  (exists F alpha name, p = transform_power_task F base alpha name) \/
  (exists Q name nq seed, p = transform_uniformise Q base name nq seed \/ p = transform_gaussianise Q base name nq seed) ->
  forall h' t, p h <> (h', Ok t).
Proof.
  intros J base h h1 ex M p H h' t E.
  assert (exists h1 m, metadata base h = (h1, Ok m)) as (? & ? & K); [|rewrite M in K; discriminate].
  destruct H as [(n & [-> | [-> | ->]])|[(? & ? & ->)|[(? & ->)|[(? & ? & ->)|[(? & ? & ? & ? & ->)|[(? & ? & ? & ->)|(? & ? & ? & ? & [-> | ->])]]]]]].
  - exact (asinh_reads _ _ _ _ _ E).
  - exact (half_cube_reads _ _ _ _ _ E).
  - exact (wiggly_reads _ _ _ _ _ E).
  - exact (normal_cdf_reads _ _ _ _ _ _ E).
  - exact (swissroll_reads _ _ _ _ _ E).
  - exact (rotate_reads _ _ _ _ _ _ E).
  - exact (spiral_reads _ _ _ _ _ _ _ _ E).
  - exact (power_reads _ _ _ _ _ _ _ E).
  - exact (uniformise_reads _ _ _ _ _ _ _ _ E).
  - exact (gaussianise_reads _ _ _ _ _ _ _ _ E).
Qed.

Lemma published_forty : NoDup published_ids /\ length published_ids = 40%nat.
Proof. split; [apply published_distinct|reflexivity]. Qed.

Lemma list_builds' :
  forall (J : prng) F D erf expm eigvals mvn psi log_gamma mvt, prng_ok J -> draws_ok J D -> eigvals_positive eigvals ->
  (forall d df, In (d, df) [(1, 1); (2, 1); (2, 2); (3, 2); (3, 3); (5, 2); (5, 3)] ->
     (0 <= student_correction psi log_gamma (IZR df) (Z.to_nat d) (Z.to_nat d))%R) ->
  forall h, exists h' (l : list (task J)), benchmark_tasks_list F D erf expm eigvals mvn psi log_gamma mvt h = (h', Ok l) /\
    (length h <= length h')%nat /\ (forall r, (r < length h)%nat -> dread h' r = dread h r) /\
    Forall (fun t => usable t h') l.
Proof.
  intros J F D erf expm eigvals mvn psi log_gamma mvt HJ HD He Hs h.
  destruct (list_builds F D erf expm eigvals mvn psi log_gamma mvt HJ HD He Hs h) as (h' & l & E & [X K] & U).
  exists h', l. auto.
Qed.

Lemma forty_tasks : exists h' d, benchmark_tasks ex_formats demo_draws (fun x => x) zero_expm ex_eigvals
    (fun _ _ _ n => repeat [] n) (fun _ => 0%R) (fun _ => 0%R) (fun _ _ _ _ n => repeat [] n) [] = (h', Ok d) /\
  length d = 40%nat.
Proof.
  edestruct (dictionary_builds ex_formats demo_draws) as (h' & d & E); [exact demo_ok|exact demo_draws_ok|exact ex_eigvals_ok|exact ex_student_positive|].
  exists h', d. split; [exact E|]. destruct (dictionary_complete _ _ _ _ _ _ _ _ _ ex_formats_ok _ _ _ E) as (h1 & l & _ & L & _ & _ & ->).
  rewrite map_length. exact L.
Qed.

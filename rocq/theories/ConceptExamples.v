(** Concrete instances for the statements in [ConceptProps]. *)
From Coq Require Import String Lia Lra.
From Verif Require Import Base BaseLemmas UtilsModel JaxModel SamplersModel GaussianModel TransformsModel TransformsSpec SimpleTransformProofs BenchmarkModel TasksModel TasksSpec TrainingExamples TasksExamples
  ExpmProofs TasksGaussian MixturesSpec EigvalsExist BasicSpec ConceptModel ConceptSpec ConceptSpiral ConceptThms.
Open Scope R_scope.

Definition mean_rows : key demo -> list R -> matrix -> nat -> matrix := fun _ mean _ n => repeat mean n.
Lemma mean_rows_ok : draws_rows mean_rows.
Proof.
  intros k mean C n. unfold mean_rows. rewrite repeat_length. split; [reflexivity|]. apply Forall_forall. intros z I. now rewrite (repeat_spec _ _ _ I).
Qed.
Definition count_rows (x y : matrix) : result R := Ok (INR (List.length x)).
Lemma count_total x y : exists v, count_rows x y = Ok v.
Proof. unfold count_rows. eauto. Qed.
Lemma concept_oracles : eigvals_positive ex_eigvals /\ draws_rows mean_rows /\ is_expm series_expm /\ (forall x y, exists v, count_rows x y = Ok v).
Proof. split; [exact ex_eigvals_ok|]. split; [exact mean_rows_ok|]. split; [exact series_expm_ok|]. exact count_total. Qed.
Lemma symmetric_oracle : exists eigvals, eigvals_symmetric eigvals.
Proof. destruct eigvals_exists as [e He]. eauto. Qed.
Lemma one_three : summarises [1; 3] 2 1.
Proof. unfold summarises. cbn. repeat split; lra. Qed.

(** A sampler of one point: the seed. *)
Definition seed_sampler : sampler demo :=
  {| dim_x := Ok 1%Z; dim_y := Ok 1%Z; mutual_information := Ok (Fin 0);
     sample := fun n r => Ok (match r with SeedInt k => ([[2 * IZR k + 1]], [[0]]) | _ => ([], []) end) |}.
Definition first_x (x y : matrix) : result R := Ok (nth 0 (nth 0 x []) 0).
Lemma seeds_one_three : estimated_with first_x (fun v => v) (fun v => v) seed_sampler 5 2 [1; 3] /\
  exists m d, get_estimates first_x seed_sampler (fun v => v) (fun v => v) 5 2 = Ok (Fin m, Fin d) /\ m = 2 /\ d = 1.
Proof.
  assert (E : estimated_with first_x (fun v => v) (fun v => v) seed_sampler 5 2 [1; 3]).
  { split; [reflexivity|]. intros [|[|i]] H; [| |lia]; do 2 eexists; (split; [reflexivity|]); unfold first_x; cbn; apply f_equal; lra. }
  split; [exact E|]. destruct (estimates_summarised first_x seed_sampler _ _ 5 2 _ ltac:(lia) E) as (m & d & G & S). exists m, d. split; [exact G|].
  apply (summary_unique [1; 3]); [discriminate|exact S|exact one_three].
Qed.
Lemma turned_front : front_spun (PI / 2) [0; 1; 0] = [-1; 0; 0].
Proof.
  unfold front_spun. rewrite norm2_two. replace (norm2 [0]) with 0 by (unfold norm2, sum_below; cbn; lra). replace (PI / 2 * _) with (PI / 2) by lra. cbv zeta. rewrite sin_PI2, cos_PI2.
  f_equal; [lra|]. f_equal. lra.
Qed.
Definition true_erf (x : R) : R := 2 / sqrt PI * Coquelicot.RInt.RInt (V := Coquelicot.Hierarchy.R_CompleteNormedModule) (fun t => exp (- (t * t))) 0 x.
Lemma true_erf_ok : is_erf true_erf.
Proof. intros x. reflexivity. Qed.
Lemma generator3 : exists g s, so_generator 3 0 1 = Ok g /\ spiral_init g None (PI / 2) = Ok s /\ spiral_call series_expm s [0; 1; 0] = Ok [-1; 0; 0].
Proof.
  destruct (RotateProofs.generator_ok 3 0 1 ltac:(lia) ltac:(lia)) as (g & G & S & _). destruct (RotateProofs.init_accepted _ g None (PI / 2) S I) as (s & E). exists g, s.
  split; [exact G|]. split; [exact E|]. rewrite <- turned_front. exact (front_spiral series_expm 3 g (PI / 2) s [0; 1; 0] series_expm_ok ltac:(lia) G E eq_refl).
Qed.

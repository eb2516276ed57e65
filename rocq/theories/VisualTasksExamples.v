(** Concrete instances for the statements in [VisualTasksProps]. *)
From Coq Require Import String.
From Verif Require Import Base BaseLemmas UtilsModel JaxModel SamplersModel BenchmarkModel BenchmarkExamples TasksModel TasksSpec TrainingExamples TasksExamples VisualTasksModel VisualTasksSpec VisualTasksThms.
Open Scope Z_scope.
Local Notation length := List.length.

Lemma wide_visualised : exists h' h0 m f, metadata (@wide_task demo) ex_heap = (h0, Ok m) /\ md_dim_x m = 3 /\ md_dim_y m = 3 /\
  visualise_task [("wide"%string, @wide_task demo)] "wide" ex_heap = (h', Ok ("Wide"%string, f)) /\
  pairs_frame 3 3 (repeat [0; 1; 2]%R 2000) (repeat [0; 1; 4]%R 2000) f.
Proof.
  destruct (@wide_usable demo) as [_ [h0 [m [M _]]]].
  assert (K : md_dim_x m = 3 /\ md_dim_y m = 3 /\ md_name m = "Wide"%string).
  { unfold metadata, pbind, lift, pret in M. cbn [wide_task t_sampler dim_x dim_y mutual_information t_params] in M.
    destruct (or_dict ex_heap (Some 0%nat)). destruct (non_negative_float _); [|discriminate]. inversion M; subst. repeat split; reflexivity. }
  destruct K as [X [Y N]].
  destruct (visualised [("wide"%string, @wide_task demo)] "wide" wide_task ex_heap h0 m (repeat [0; 1; 2]%R 2000) (repeat [0; 1; 4]%R 2000) eq_refl M eq_refl) as [h' [f [E P]]].
  { rewrite X. apply Forall_forall. intros r I. now rewrite (repeat_spec _ _ _ I). }
  { rewrite Y. apply Forall_forall. intros r I. now rewrite (repeat_spec _ _ _ I). }
  exists h', h0, m, f. rewrite N in E. rewrite X, Y in P. auto.
Qed.

(** Concrete instances for the theorems about grids, critics and integration. *)
From Verif Require Import Base UtilsModel JaxModel SamplersModel BmmModel ObjectivesModel ObjectivesSpec ObjectivesProofs CriticsModel CriticsSpec BaseLemmas CriticsThms.
From Verif Require Import TrainingExamples BmmExamples.
Open Scope R_scope.
Local Notation length := List.length.

(** A critic, the same with a constant added and the same with a function of x added. *)
Definition product_critic (x y : list R) : R := hd 0 x * hd 0 y.
Definition lifted_critic (x y : list R) : R := hd 0 x * hd 0 y + 3.
Definition bent_critic (x y : list R) : R := hd 0 x * hd 0 y + hd 0 x.

Lemma ex_grid : grid_critic (Some product_critic) (-1, 1) (Some (0, 4)) 3 = Ok [[0; -2; -4]; [0; 0; 0]; [0; 2; 4]].
Proof. unfold product_critic. cbn. apply (f_equal (@Ok _)). repeat apply (f_equal2 cons); try reflexivity; cbn [fst snd hd INR]; lra. Qed.
Lemma ex_grid_lifted : grid_critic (Some lifted_critic) (-1, 1) (Some (0, 4)) 3 = Ok [[3; 1; -1]; [3; 3; 3]; [3; 5; 7]].
Proof. unfold lifted_critic. cbn. apply (f_equal (@Ok _)). repeat apply (f_equal2 cons); try reflexivity; cbn [fst snd hd INR]; lra. Qed.
Lemma ex_grid_bent : grid_critic (Some bent_critic) (-1, 1) (Some (0, 4)) 3 = Ok [[-1; -3; -5]; [0; 0; 0]; [1; 3; 5]].
Proof. unfold bent_critic. cbn. apply (f_equal (@Ok _)). repeat apply (f_equal2 cons); try reflexivity; cbn [fst snd hd INR]; lra. Qed.

Lemma ex_rect (a b c d e f g h i : R) : rectangular [[a; b; c]; [d; e; f]; [g; h; i]] 3 3.
Proof. split; [reflexivity|]. repeat constructor. Qed.

Lemma ex_dv_dofs : remove_dv_dofs (Array2 (finite [[0; -2; -4]; [0; 0; 0]; [0; 2; 4]])) = remove_dv_dofs (Array2 (finite [[3; 1; -1]; [3; 3; 3]; [3; 5; 7]])).
Proof.
  apply (proj2 (dv_dofs_iff _ _ 3 3 ltac:(lia) ltac:(lia) (ex_rect _ _ _ _ _ _ _ _ _) (ex_rect _ _ _ _ _ _ _ _ _))). exists (-3).
  intros i j Hi Hj. destruct i as [|[|[|i]]]; [| | |lia]; (destruct j as [|[|[|j]]]; [| | |lia]); cbn; lra.
Qed.
Lemma ex_nce_dofs : remove_nce_dofs (Array2 (finite [[0; -2; -4]; [0; 0; 0]; [0; 2; 4]])) = remove_nce_dofs (Array2 (finite [[-1; -3; -5]; [0; 0; 0]; [1; 3; 5]])).
Proof.
  apply (proj2 (nce_dofs_iff _ _ 3 3 ltac:(lia) ltac:(lia) (ex_rect _ _ _ _ _ _ _ _ _) (ex_rect _ _ _ _ _ _ _ _ _))). exists (fun i => 1 - INR i).
  intros i j Hi Hj. destruct i as [|[|[|i]]]; [| | |lia]; (destruct j as [|[|[|j]]]; [| | |lia]); cbn; lra.
Qed.
(** The second kind of freedom is really larger. *)
Lemma ex_dv_not : remove_dv_dofs (Array2 (finite [[0; -2; -4]; [0; 0; 0]; [0; 2; 4]])) <> remove_dv_dofs (Array2 (finite [[-1; -3; -5]; [0; 0; 0]; [1; 3; 5]])).
Proof.
  intros E. apply (proj1 (dv_dofs_iff _ _ 3 3 ltac:(lia) ltac:(lia) (ex_rect _ _ _ _ _ _ _ _ _) (ex_rect _ _ _ _ _ _ _ _ _))) in E.
  destruct E as (c & H). pose proof (H 0%nat 0%nat ltac:(lia) ltac:(lia)) as H0. pose proof (H 1%nat 0%nat ltac:(lia) ltac:(lia)) as H1. cbn in H0, H1. lra.
Qed.

Lemma ex_nwj : nwj_shifted (fun _ _ : list R => 0) [[0]; [1]] [[2]; [3]] = Fin 0.
Proof.
  rewrite nwj_shifted_value by (cbn; lia). f_equal. unfold mean_paired, mean_exp_unpaired, rmean. cbn. rewrite exp_0. lra.
Qed.
Lemma ex_biased : monte_carlo (biased product_critic) [[0]; [1]] [[2]; [3]] = Ok (Fin 2).
Proof.
  destruct (biased_setup product_critic [[0]; [1]] [[2]; [3]] ltac:(cbn; lia) eq_refl) as (-> & _).
  do 2 f_equal. unfold mean_paired, rmean, product_critic. cbn. lra.
Qed.
Lemma ex_truth : ground_truth [(1, 2); (3, 4)] = (2, sqrt 2, 3).
Proof. unfold ground_truth, rmean. cbn. repeat f_equal; lra. Qed.
Lemma ex_swapped : sample_profile demo_mixture = Err ValueError /\ exists xy, jd_sample demo_mixture 100000 (cast_to_rng demo (SeedInt 0)) = Ok xy.
Proof. split; [reflexivity|]. eexists. reflexivity. Qed.

(** Concrete draws and samplers. *)
From Verif Require Import Base BaseLemmas UtilsModel JaxModel SamplersModel SamplersSpec TrainingSpec TrainingExamples.
Open Scope Z_scope.

Definition demo_draws : draws demo :=
  {| uniform := fun _ n lo hi => repeat ((lo + hi) / 2)%R n;
     randints := fun _ n lo hi => repeat lo n;
     exponential := fun _ n => repeat 1%R n;
     bernoulli := fun _ _ n => repeat true n;
     poisson := fun _ l => repeat 2 (List.length l) |}.

Lemma demo_draws_ok : draws_ok demo demo_draws.
Proof.
  split; cbn; intros.
  - apply repeat_length.
  - apply repeat_spec in H0. subst. lra.
  - apply repeat_length.
  - apply repeat_spec in H0. subst. lia.
  - apply repeat_length.
  - apply repeat_spec in H. subst. lra.
  - apply repeat_length.
  - apply repeat_length.
  - apply repeat_spec in H. subst. lia.
Qed.

(** A sampler with dimensions 2 and 1 whose rows depend on the seed. *)
Definition demo_sampler : sampler demo :=
  {| dim_x := Ok 2; dim_y := Ok 1;
     sample := fun n rng => let k := IZR (cast_to_rng demo rng) in Ok (repeat [k; k + 1]%R n, repeat [k] n);
     mutual_information := Ok (Fin (1 / 2)) |}.

Lemma demo_sampler_dims : well_dimensioned demo_sampler.
Proof.
  exists 2, 1. cbn. do 2 (split; [reflexivity|]). do 2 (split; [lia|]). intros n rng xy [= <-]. unfold paired_sample. cbn [fst snd].
  rewrite !repeat_length. do 2 (split; [reflexivity|]). split; apply Forall_forall; intros r Hr; apply repeat_spec in Hr; subst; reflexivity.
Qed.

(** Doubling the first coordinate, and adding a coordinate. *)
Definition demo_double : transform :=
  {| on_point := map (fun a => 2 * a)%R; on_batch := map (map (fun a => 2 * a)%R) |}.
Definition demo_widen : transform :=
  {| on_point := fun r => (r ++ [0%R])%list; on_batch := map (fun r => (r ++ [0%R])%list) |}.

(** Vocabulary of the statements about the tasks with noise and their ground truth. *)
From Coq Require Import String Lia Lra.
From Verif Require Import Base UtilsModel JaxModel SamplersModel BmmModel BmmSpec BenchmarkModel TasksModel ConfigSpec.
From mathcomp Require Import ssreflect.
From Verif Require Import MixturesSpec.
Open Scope R_scope.
Local Notation length := List.length.

(** A task: identifier, fraction and variance of the noise, parameters. *)
Record noisy := { n_id : string; n_level : R; n_variance : R; n_params : sdict py }.
Definition levels : list R := [1 / 1000; 1 / 100; 1 / 20; 1 / 10; 3 / 20; 1 / 5; 3 / 10; 2 / 5; 1 / 2].
(** Powers of two: in whole steps up to 1/8 and from 16 on, in half steps between. *)
Definition exponents : list R :=
  [-7; -6; -5; -4; -3; -2; -3 / 2; -1; -1 / 2; 0; 1 / 2; 1; 3 / 2; 2; 5 / 2; 3; 7 / 2; 4; 5; 6; 7].
Definition mixing_entry (F : formats) (setup : string) (variance a : R) : noisy :=
  {| n_id := "mixing-" ++ setup ++ "-" ++ float_repr F a; n_level := a; n_variance := variance; n_params := [("mixing", PFloat (Fin a))] |}%string.
Definition variance_entry (F : formats) (v : R) : noisy :=
  {| n_id := "variance-" ++ float_repr F v; n_level := 1 / 5; n_variance := v; n_params := [("variance", PFloat (Fin v))] |}%string.
Definition noisy_catalogue (F : formats) : list noisy :=
  (map (mixing_entry F "Gauss-Inlier" 1) levels ++ map (mixing_entry F "Gauss-Outlier" 25) levels
   ++ map (fun e => variance_entry F (Rpower 2 e)) exponents)%list.

(** The fractions are printed differently, and so are the variances. *)
Definition told_apart (F : formats) : Prop :=
  NoDup (map (float_repr F) levels) /\ NoDup (map (fun e => float_repr F (Rpower 2 e)) exponents).

(** The Monte Carlo estimate with the key of a seed. *)
Definition average_pmi {J} (d : joint_distribution J) (seed : Z) (n : nat) : fl :=
  fl_mean (map (fun z => point_pmi d (firstn (jd_dim_x d) z) (skipn (jd_dim_x d) z)) (draw (dist_joint d) (prng_key J seed) n)).

(** Sum of squared differences from the mean, divided by one less than their number. *)
Definition unbiased_variance (l : list R) : R := rsum (map (fun v => (v - rmean l) ^ 2) l) / (INR (length l) - 1).

(** The dictionaries that existed are unchanged. *)
Definition preserved (h h' : dheap) : Prop := (length h <= length h')%nat /\ forall r, (r < length h)%nat -> dread h' r = dread h r.
(** A task of the catalogue, made of a distribution. *)
Definition task_made {J} (h : dheap) (ed : noisy * joint_distribution J) (kt : string * task J) : Prop :=
  let (e, d) := ed in fst kt = n_id e /\ described (snd kt) h (n_id e) (n_id e) (n_params e) /\ samples_from (fun x => x) d 100000 (t_sampler (snd kt)).

(** The points drawn with a seed; their pointwise mutual information. *)
Definition points {J} (d : joint_distribution J) (seed : Z) : matrix := draw (dist_joint d) (prng_key J seed) (Z.to_nat 100000).
Definition pmi_values {J} (d : joint_distribution J) (seed : Z) (l : list R) : Prop :=
  Forall2 (fun z v => point_pmi d (firstn (jd_dim_x d) z) (skipn (jd_dim_x d) z) = Fin v) (points d seed) l.
(** The estimate and its standard error, the summary of several, and the variance of their noise. *)
Definition estimated (l : list R) : R * R := (rmean l, deviation l / sqrt 100000).
Definition summarized (ls : list (list R)) : fl * fl * fl :=
  (Fin (rmean (map rmean ls)), Fin (sqrt (unbiased_variance (map rmean ls))), Fin (rmean (map (fun l => snd (estimated l)) ls))).
Definition noise_variance (setup : string) (v : R) : Prop := (setup = "Gauss-Inlier"%string /\ v = 1) \/ (setup = "Gauss-Outlier"%string /\ v = 25).

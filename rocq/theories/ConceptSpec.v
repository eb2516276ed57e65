(** Vocabulary of the statements about the figures of the concept. *)
From Coq Require Import String.
From Verif Require Import Base UtilsModel JaxModel SamplersModel MatrixUtilsSpec BasicSpec TransformsSpec ConceptModel.
Open Scope R_scope.

(** The two numbers after "Estimate": the mean and the standard deviation of a list, by the sum and the sum of squares. *)
Definition summarises (vs : list R) (m d : R) : Prop :=
  let n := INR (List.length vs) in n * m = rsum vs /\ 0 <= d /\ n * (d ^ 2 + m ^ 2) = rsum (map (fun v => v * v) vs).
(** The estimates for [points] points drawn with the seeds 0, 1, .., after [f] and [g]. *)
Definition estimated_with {J} (estimate : matrix -> matrix -> result R) (f g : R -> R) (s : sampler J) (points seeds : nat) (vs : list R) : Prop :=
  List.length vs = seeds /\ forall i, (i < seeds)%nat -> exists x y,
    sample s points (SeedInt (Z.of_nat i)) = Ok (x, y) /\ estimate (map (map f) x) (map (map g) y) = Ok (nth i vs 0).
(** Draws from [mvn] are as many as asked for, each with as many coordinates as the mean. *)
Definition draws_rows {J} (mvn : key J -> list R -> matrix -> nat -> matrix) : Prop :=
  forall k mean C n, List.length (mvn k mean C n) = n /\ Forall (fun z => List.length z = List.length mean) (mvn k mean C n).
(** The covariance of 2v1.py: variances 4/5, correlation 1/2 in X and 161/200 between X and Y. *)
Definition two_one (i j : nat) : R :=
  4 / 5 * (if (i =? j)%nat then 1 else if (i <? 2)%nat && (j <? 2)%nat then 1 / 2 else 161 / 200).
(** A point with its first two coordinates turned by the angle speed |p|^2. *)
Definition front_spun (speed : R) (p : list R) : list R :=
  match p with
  | x :: y :: rest => let t := speed * norm2 p in (x * cos t - y * sin t) :: (x * sin t + y * cos t) :: rest
  | _ => p
  end.
(** A panel of 1v1.py: 20 estimates from 1000 points each, and 10000 points. *)
Definition shows_1v1 {J} (estimate : matrix -> matrix -> result R) (s : sampler J) (f g : R -> R) (p : concept_panel) : Prop :=
  cp_true p = Fin (1 / 2 * ln (400 / 39)) /\
  (exists vs m d, estimated_with estimate f g s 1000 20 vs /\ summarises vs m d /\ cp_mean p = Fin m /\ cp_std p = Fin d) /\
  exists x y, sample s 10000 (SeedInt 42) = Ok (map (fun a => [a]) x, map (fun b => [b]) y) /\ List.length x = 10000%nat /\ List.length y = 10000%nat /\
    cp_points p = map (fun q => [f (fst q); g (snd q)]) (combine x y).
(** A panel of 2v1.py: the points X turned with this speed and coloured by Y. *)
Definition turned_pairs {J} (mvn : key J -> list R -> matrix -> nat -> matrix) (C : matrix) (speed : R) (s : sampler J) : Prop :=
  forall n rng, let z := mvn (cast_to_rng J rng) [0; 0; 0] C n in sample s n rng = Ok (map (fun r => front_spun speed (firstn 2 r)) z, map (skipn 2) z).
Definition shows_2v1 {J} (estimate : matrix -> matrix -> result R) mvn (C : matrix) (speed : R) (p : concept_panel) : Prop :=
  exists s : sampler J, turned_pairs mvn C speed s /\ cp_true p = Fin (1 / 2 * ln (30000 / 4079)) /\
    (exists vs m d, estimated_with estimate (fun v => v) (fun v => v) s 5000 10 vs /\ summarises vs m d /\ cp_mean p = Fin m /\ cp_std p = Fin d) /\
    exists x y, sample s 5000 (SeedInt 42) = Ok (x, y) /\ List.length x = 5000%nat /\ List.length y = 5000%nat /\
      cp_points p = map (fun q => fst q ++ snd q)%list (combine x y) /\ Forall (fun q => List.length q = 3%nat) (cp_points p).

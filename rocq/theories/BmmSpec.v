(** Specification of Bend and Mix Models: densities, marginals and diffeomorphisms. *)
From Verif Require Import Base UtilsModel JaxModel SamplersModel BmmModel.
Open Scope R_scope.
Local Notation length := List.length.

(** [log_prob] reports the density [v >= 0] at [z]. *)
Definition has_density {J} (d : tfd J) (z : list R) (v : R) : Prop :=
  0 < v /\ log_prob d z = Fin (ln v) \/ v = 0 /\ log_prob d z = NInf.

(** The density as a function. *)
Definition is_density {J} (d : tfd J) (f : list R -> R) : Prop := forall z, has_density d z (f z).

(** [b] is inverted at [x], keeps the number of coordinates and has a finite Jacobian there. *)
Definition diffeomorphic_at (b : bijector) (x : list R) : Prop :=
  bij_inverse b (bij_forward b x) = x /\ length (bij_forward b x) = length x /\
  exists r, bij_ildj b (bij_forward b x) = Fin r.

(** An omitted transformation is the identity. *)
Definition optional_map (o : option bijector) : list R -> list R :=
  match o with None => fun x => x | Some b => bij_forward b end.
Definition optional_diffeomorphic_at (o : option bijector) (x : list R) : Prop :=
  match o with None => True | Some b => diffeomorphic_at b x end.

(** Integrating out coordinates: an operator which is additive and homogeneous on the
    functions it applies to, and depends only on their values. *)
Record linear_on (I : (list R -> R) -> Prop) (M : (list R -> R) -> list R -> R) : Prop := {
  lin_ext : forall f g, I f -> (forall z, f z = g z) -> I g /\ forall x, M f x = M g x;
  lin_zero : I (fun _ => 0) /\ forall x, M (fun _ => 0) x = 0;
  lin_add : forall f g, I f -> I g -> I (fun z => f z + g z) /\ forall x, M (fun z => f z + g z) x = M f x + M g x;
  lin_scale : forall c f, I f -> I (fun z => c * f z) /\ forall x, M (fun z => c * f z) x = c * M f x
}.

(** The weighted sum of densities. *)
Definition weighted (ps : list R) (fs : list (list R -> R)) (z : list R) : R :=
  rsum (map (fun pf => fst pf * snd pf z) (combine ps fs)).

(** What sampling must return: n rows on both sides. *)
Definition pairs_drawn (n : nat) (dx dy : nat) (xy : matrix) : Prop :=
  length xy = n /\ Forall (fun row => length row = (dx + dy)%nat) xy.

(** Proportions of a mixture: weights which are not negative and not all zero. *)
Definition good_proportions (ps : list R) : Prop := Forall (fun p => 0 <= p) ps /\ 0 < rsum ps.

(** The standard deviation of a list (with the factor 1/n). *)
Definition deviation (l : list R) : R := sqrt (rmean (map (fun v => (v - rmean l) ^ 2) l)).

(** What each call to a sampler must answer, whatever was called before. *)
Definition expected_answer {J} (d : joint_distribution J) (mi : fl) (c : bmm_call J) (a : bmm_answer) : Prop :=
  match c with
  | CallSample n rng => a = Drawn (jd_sample d n (cast_to_rng J rng))
  | CallMutualInformation => a = Informed (Ok mi)
  end.

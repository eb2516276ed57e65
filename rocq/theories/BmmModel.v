(** Model of the Bend and Mix Models: [samplers/_tfp/_core.py], [_product.py] and
    [_wrapper.py] in [src/bmi].

    A TensorFlow Probability (TFP) distribution over vectors is seen through its event
    shape, its log-density and the points drawn for a key.  Of TFP only the documented
    log-densities of Mixture, TransformedDistribution and Blockwise are modelled.
    Log-densities are exact reals, -inf outside the support, possibly NaN. *)
From Verif Require Import Base UtilsModel JaxModel SamplersModel.
Open Scope R_scope.
Local Notation length := List.length.

(** ** Distributions and bijectors of TFP *)

(** [tfd.Distribution]. *)
Record tfd (J : prng) := {
  event_shape : list nat;
  log_prob : list R -> fl;
  (** [dist.sample(seed=key, sample_shape=(n,))], an array of n rows *)
  draw : key J -> nat -> matrix
}.
Arguments event_shape {J} t.
Arguments log_prob {J} t.
Arguments draw {J} t.

(** [tfb.Bijector]; the last field is [inverse_log_det_jacobian(y, event_ndims=1)]. *)
Record bijector := {
  bij_forward : list R -> list R;
  bij_inverse : list R -> list R;
  bij_ildj : list R -> fl
}.

(** [tfb.Identity()]. *)
Definition tfb_identity : bijector :=
  {| bij_forward := fun x => x; bij_inverse := fun y => y; bij_ildj := fun _ => Fin 0 |}.

(** [tfb.Blockwise([f, g], block_sizes=[dx, _])]: [f] acts on the first [dx] coordinates. *)
Definition tfb_blockwise (f g : bijector) (dx : nat) : bijector :=
  {| bij_forward := fun z => (bij_forward f (firstn dx z) ++ bij_forward g (skipn dx z))%list;
     bij_inverse := fun z => (bij_inverse f (firstn dx z) ++ bij_inverse g (skipn dx z))%list;
     bij_ildj := fun z => fl_add (bij_ildj f (firstn dx z)) (bij_ildj g (skipn dx z)) |}.

(** [tfd.TransformedDistribution(distribution, bijector)] (the bijectors keep the shape). *)
Definition tfd_transformed {J} (d : tfd J) (b : bijector) : tfd J :=
  {| event_shape := event_shape d;
     log_prob := fun y => fl_add (log_prob d (bij_inverse b y)) (bij_ildj b y);
     draw := fun k n => map (bij_forward b) (draw d k n) |}.

(** [jnp.log]. *)
Definition log_fl (r : R) : fl :=
  if Rltb 0 r then Fin (ln r) else if Reqb r 0 then NInf else NaN.

(** The log-probabilities of [tfd.Categorical(probs=ps)] inside a Mixture: the softmax of
    log ps, so the proportions are normalised; NaN as soon as one is negative or all are
    zero. *)
Definition cat_log_probs (ps : list R) : list fl :=
  if existsb (fun p => Rltb p 0) ps || Reqb (rsum ps) 0 then map (fun _ => NaN) ps
  else map (fun p => log_fl (p / rsum ps)) ps.

(** log of the sum of exponentials. *)
Definition is_nan (v : fl) : bool := match v with NaN => true | _ => false end.
Definition is_pinf (v : fl) : bool := match v with PInf => true | _ => false end.
Definition exp_part (v : fl) : R := match v with Fin r => exp r | _ => 0 end.
Definition log_sum_exp (l : list fl) : fl :=
  if existsb is_nan l then NaN else if existsb is_pinf l then PInf
  else log_fl (rsum (map exp_part l)).

(** The ways TFP draws from mixtures and products, as arbitrary functions. *)
Record tfp_draws (J : prng) := {
  mixture_draw : list R -> list (tfd J) -> key J -> nat -> matrix;
  blockwise_draw : tfd J -> tfd J -> key J -> nat -> matrix
}.
Arguments mixture_draw {J} t.
Arguments blockwise_draw {J} t.

(** [tfd.Mixture(cat=tfd.Categorical(probs=ps), components=ds)]. *)
Definition tfd_mixture {J} (T : tfp_draws J) (ps : list R) (ds : list (tfd J)) : tfd J :=
  {| event_shape := match ds with [] => [] | d :: _ => event_shape d end;
     log_prob := fun z => log_sum_exp (map (fun wd => fl_add (fst wd) (log_prob (snd wd) z))
                                           (combine (cat_log_probs ps) ds));
     draw := mixture_draw T ps ds |}.

(** [tfd.Blockwise([a, b])] for distributions of vectors, [a] of [dx] coordinates. *)
Definition tfd_blockwise {J} (T : tfp_draws J) (a b : tfd J) (dx : nat) : tfd J :=
  {| event_shape := [(dx + hd 0 (event_shape b))%nat];
     log_prob := fun z => fl_add (log_prob a (firstn dx z)) (log_prob b (skipn dx z));
     draw := blockwise_draw T a b |}.

(** ** _core.py *)

(** JointDistribution, 12-34.  Simplification: dimensions are natural numbers. *)
Record joint_distribution (J : prng) := {
  dist_joint : tfd J;
  dist_x : tfd J;
  dist_y : tfd J;
  jd_dim_x : nat;
  jd_dim_y : nat;
  analytic_mi : option fl
}.
Arguments dist_joint {J} j.
Arguments dist_x {J} j.
Arguments dist_y {J} j.
Arguments jd_dim_x {J} j.
Arguments jd_dim_y {J} j.
Arguments analytic_mi {J} j.

(** JointDistribution.sample, 36-47. *)
Definition jd_sample {J} (d : joint_distribution J) (n_points : Z) (k : key J) : result (matrix * matrix) :=
  if (n_points <? 1)%Z then Err ValueError                                        (* 43-44 *)
  else
    let xy := draw (dist_joint d) k (Z.to_nat n_points) in                        (* 46 *)
    Ok (map (firstn (jd_dim_x d)) xy, map (skipn (jd_dim_x d)) xy).               (* 47 *)

(** [log_pxy - (log_px + log_py)] for one pair of points, 63-67. *)
Definition point_pmi {J} (d : joint_distribution J) (x y : list R) : fl :=
  fl_sub (log_prob (dist_joint d) (x ++ y)%list) (fl_add (log_prob (dist_x d) x) (log_prob (dist_y d) y)).

(** JointDistribution.pmi, 49-67.  [jnp.hstack] raises when the numbers of rows differ. *)
Definition jd_pmi {J} (d : joint_distribution J) (x y : matrix) : result (list fl) :=
  if negb (length x =? length y)%nat then Err ValueError                          (* 63 *)
  else Ok (map (fun xy => point_pmi d (fst xy) (snd xy)) (combine x y)).          (* 63-67 *)

(** [len(set(l)) == 1]. *)
Definition single_value (l : list nat) : bool :=
  match l with [] => false | a :: l' => forallb (Nat.eqb a) l' end.

(** mixture, 70-115. *)
Definition mixture {J} (T : tfp_draws J) (proportions : list R) (components : list (joint_distribution J))
  : result (joint_distribution J) :=
  let dim_xs := map jd_dim_x components in                                        (* 86 *)
  let dim_ys := map jd_dim_y components in                                        (* 87 *)
  if negb (single_value dim_xs) || negb (single_value dim_ys) then Err ValueError (* 89-90 *)
  else if negb (length components =? length proportions)%nat then Err ValueError  (* 92-93 *)
  else
    Ok {| dist_joint := tfd_mixture T proportions (map dist_joint components);    (* 98-100 *)
          dist_x := tfd_mixture T proportions (map dist_x components);            (* 101-103 *)
          dist_y := tfd_mixture T proportions (map dist_y components);            (* 104-106 *)
          jd_dim_x := hd 0%nat dim_xs;                                            (* 95 *)
          jd_dim_y := hd 0%nat dim_ys;                                            (* 96 *)
          analytic_mi := None |}.                                                 (* 114 *)

(** transform, 118-151. *)
Definition transform_dist {J} (d : joint_distribution J) (x_transform y_transform : option bijector)
  : joint_distribution J :=
  let f := match x_transform with None => tfb_identity | Some f => f end in       (* 134-135 *)
  let g := match y_transform with None => tfb_identity | Some g => g end in       (* 136-137 *)
  let product_bijector := tfb_blockwise f g (jd_dim_x d) in                       (* 139-141 *)
  {| jd_dim_x := jd_dim_x d; jd_dim_y := jd_dim_y d;                              (* 143-144 *)
     dist_joint := tfd_transformed (dist_joint d) product_bijector;               (* 145-147 *)
     dist_x := tfd_transformed (dist_x d) f;                                      (* 148 *)
     dist_y := tfd_transformed (dist_y d) g;                                      (* 149 *)
     analytic_mi := analytic_mi d |}.                                             (* 150 *)

(** pmi_profile, 154-166. *)
Definition pmi_profile {J} (k : key J) (d : joint_distribution J) (n : Z) : result (list fl) :=
  do (x, y) <- jd_sample d n k;                                                   (* 165 *)
  jd_pmi d x y.                                                                   (* 166 *)

(** Arithmetic of floats used by [jnp.mean] and [jnp.std]. *)
Definition fl_square (v : fl) : fl :=
  match v with Fin r => Fin (r * r) | NaN => NaN | _ => PInf end.
Definition fl_sqrt (v : fl) : fl :=
  match v with Fin r => if Rltb r 0 then NaN else Fin (sqrt r) | PInf => PInf | _ => NaN end.
Definition fl_mean (l : list fl) : fl := fl_divp (fl_sum l) (INR (length l)).
Definition fl_std (l : list fl) : fl :=
  fl_sqrt (fl_mean (map (fun v => fl_square (fl_sub v (fl_mean l))) l)).

(** monte_carlo_mi_estimate, 169-186. *)
Definition monte_carlo_mi_estimate {J} (k : key J) (d : joint_distribution J) (n : Z) : result (fl * fl) :=
  do profile <- pmi_profile k d n;                                                (* 182 *)
  let mi_estimate := fl_mean profile in                                           (* 183 *)
  let standard_error := fl_divp (fl_std profile) (sqrt (IZR n)) in                (* 184 *)
  Ok (mi_estimate, standard_error).                                               (* 186 *)

(** ** _product.py *)

(** ProductDistribution.__init__, 16-41. *)
Definition product_distribution {J} (T : tfp_draws J) (dist_x dist_y : tfd J) : result (joint_distribution J) :=
  match event_shape dist_x, event_shape dist_y with
  | [dx], [dy] =>                                                                 (* 23-30 *)
      Ok {| jd_dim_x := dx; jd_dim_y := dy;
            dist_joint := tfd_blockwise T dist_x dist_y dx;                       (* 32 *)
            dist_x := dist_x; dist_y := dist_y; analytic_mi := Some (Fin 0) |}    (* 34-41 *)
  | _, _ => Err AssertionError                                                    (* 26-27 *)
  end.

(** ** _wrapper.py *)

(** The attributes of BMMSampler, 29-39. *)
Record bmm (J : prng) := {
  bm_dist : joint_distribution J;
  bm_mi : option fl;
  bm_mi_stderr : option fl;
  bm_mi_estimate_seed : seed J;
  bm_mi_estimate_sample : Z
}.
Arguments bm_dist {J} b.
Arguments bm_mi {J} b.
Arguments bm_mi_stderr {J} b.
Arguments bm_mi_estimate_seed {J} b.
Arguments bm_mi_estimate_sample {J} b.

(** BMMSampler.__init__, 14-39. *)
Definition bmm_init {J} (d : joint_distribution J) (mi : option fl) (mi_estimate_seed : seed J)
    (mi_estimate_sample : Z) : result (bmm J) :=
  do _ <- base_sampler_init (Z.of_nat (jd_dim_x d)) (Z.of_nat (jd_dim_y d));      (* 30 *)
  if (mi_estimate_sample <? 1)%Z then Err ValueError                              (* 38-39 *)
  else Ok {| bm_dist := d;                                                        (* 31 *)
             bm_mi := mi;                                                         (* 33 *)
             bm_mi_stderr := None;                                                (* 34 *)
             bm_mi_estimate_seed := mi_estimate_seed;                             (* 36 *)
             bm_mi_estimate_sample := mi_estimate_sample |}.                      (* 37 *)

(** BMMSampler.sample, 41-45. *)
Definition bmm_sample {J} (s : bmm J) (n_points : Z) (rng : seed J) : result (matrix * matrix) :=
  jd_sample (bm_dist s) n_points (cast_to_rng J rng).                             (* 44-45 *)

(** BMMSampler.mutual_information, 47-55: the returned value and the sampler afterwards. *)
Definition bmm_mutual_information {J} (s : bmm J) : result fl * bmm J :=
  match bm_mi s with
  | Some v => (Ok v, s)                                                           (* 48-49 *)
  | None =>
      let rng := cast_to_rng J (bm_mi_estimate_seed s) in                         (* 51 *)
      match monte_carlo_mi_estimate rng (bm_dist s) (bm_mi_estimate_sample s) with (* 52-54 *)
      | Ok (mi, stderr) =>
          (Ok mi, {| bm_dist := bm_dist s; bm_mi := Some mi; bm_mi_stderr := Some stderr;
                     bm_mi_estimate_seed := bm_mi_estimate_seed s;
                     bm_mi_estimate_sample := bm_mi_estimate_sample s |})         (* 52, 55 *)
      | Err e => (Err e, s)
      end
  end.

(** A client calling the two methods in some order. *)
Inductive bmm_call (J : prng) := CallSample (n_points : Z) (rng : seed J) | CallMutualInformation.
Arguments CallSample {J} n_points rng.
Arguments CallMutualInformation {J}.
Inductive bmm_answer := Drawn (r : result (matrix * matrix)) | Informed (r : result fl).

Fixpoint bmm_run {J} (s : bmm J) (calls : list (bmm_call J)) : list bmm_answer * bmm J :=
  match calls with
  | [] => ([], s)
  | CallSample n rng :: calls' =>
      let '(answers, s') := bmm_run s calls' in (Drawn (bmm_sample s n rng) :: answers, s')
  | CallMutualInformation :: calls' =>
      let '(v, s1) := bmm_mutual_information s in
      let '(answers, s') := bmm_run s1 calls' in (Informed v :: answers, s')
  end.

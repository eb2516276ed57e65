(** Model of [workflows/projects/Mixtures/visualizing_critics.py] (line numbers without a file are of
    this one), of the plots and samples of [pmi_plot_1v1.smk] and [distinct_profiles.smk], and of the
    estimators of [how_good_integration_is.smk].  Numbers are exact reals; drawing is not modelled
    beyond the array handed to [imshow] and its extent. *)
From Verif Require Import Base UtilsModel JaxModel SamplersModel BmmModel ObjectivesModel.
Open Scope R_scope.
Local Notation length := List.length.

(** ** Grids *)

(** [jnp.linspace(lo, hi, n)]: ValueError for a negative number. *)
Definition linspace (lo hi : R) (n : Z) : result (list R) :=
  if (n <? 0)%Z then Err ValueError
  else Ok (map (fun i => lo + INR i * ((hi - lo) / IZR (n - 1))) (seq 0 (Z.to_nat n))).

(** [yrange or xrange]. *)
Definition or_else {A} (a : option A) (b : A) : A := match a with None => b | Some a => a end.

(** make_grid, 107-114.  [fn] takes points of X and as many of Y, as columns. *)
Definition make_grid {V} (fn : matrix -> matrix -> result (list V)) (xrange : R * R) (yrange : option (R * R)) (steps : Z)
  : result (list (list V)) :=
  let yrange := or_else yrange xrange in                                         (* 108 *)
  do xs <- linspace (fst xrange) (snd xrange) steps;                             (* 109 *)
  do ys <- linspace (fst yrange) (snd yrange) steps;                             (* 110 *)
  let mxs := map (fun x => map (fun _ => [x]) ys) xs in                          (* 111-112 *)
  let mys := map (fun _ => map (fun y => [y]) ys) xs in                          (* 111-112 *)
  map_results (fun r => fn (fst r) (snd r)) (combine mxs mys).                   (* 114 *)

(** grid_sampler_pdf, 117-124: the argument is [sampler._dist]. *)
Definition grid_sampler_pdf {J} (d : joint_distribution J) xrange yrange steps : result (list (list fl)) :=
  make_grid (fun xs ys => Ok (map (fun xy => fl_exp (log_prob (dist_joint d) (fst xy ++ snd xy)%list)) (combine xs ys)))   (* 121-122 *)
    xrange yrange steps.                                                         (* 124 *)

(** grid_sampler_pmi, 127-129. *)
Definition grid_sampler_pmi {J} (d : joint_distribution J) xrange yrange steps : result (list (list fl)) :=
  make_grid (jd_pmi d) xrange yrange steps.                                      (* 128-129 *)

(** grid_critic, 132-134: the argument is [trained_critic], None before training; [jax.vmap] raises a
    TypeError for something which cannot be called. *)
Definition grid_critic (trained : option (list R -> list R -> R)) xrange yrange steps : result (list (list R)) :=
  match trained with
  | None => Err TypeError                                                        (* 133 *)
  | Some f => make_grid (fun xs ys => Ok (vmap_pairs f xs ys)) xrange yrange steps   (* 133-134 *)
  end.

(** [a.T] of a 2-D array. *)
Definition transposed {V} (a : list (list V)) : list (list V) :=
  map (fun j => flat_map (fun row => match nth_error row j with Some v => [v] | None => [] end) a)
      (seq 0 (length (hd [] a))).

(** What [ax.imshow(rows, origin="lower", extent=...)] is given. *)
Record picture (V : Type) := { pic_rows : list (list V); pic_extent : option (R * R * (R * R)) }.
Arguments pic_rows {V} p.
Arguments pic_extent {V} p.

(** plot_grid, 140-149: [*None] is a TypeError. *)
Definition plot_grid {V} (grid : list (list V)) (xrange yrange : option (R * R)) : result (picture V) :=
  let yrange := match yrange with None => xrange | Some y => Some y end in       (* 141 *)
  match yrange with
  | None => Ok {| pic_rows := transposed grid; pic_extent := None |}             (* 142 *)
  | Some y => match xrange with
              | None => Err TypeError                                            (* 142 *)
              | Some x => Ok {| pic_rows := transposed grid; pic_extent := Some (x, y) |}   (* 144-149 *)
              end
  end.

(** An array of one or two dimensions. *)
Inductive array := Array1 (a : list fl) | Array2 (a : list (list fl)).

(** remove_dv_dofs, 153-155. *)
Definition remove_dv_dofs (fs : array) : result (list (list fl)) :=
  match fs with
  | Array1 _ => Err AssertionError                                               (* 154 *)
  | Array2 fs => let mean := ObjectivesModel.fl_mean (concat fs) in
                 Ok (map (map (fun v => fl_sub v mean)) fs)                      (* 155 *)
  end.

(** remove_nce_dofs, 159-161. *)
Definition remove_nce_dofs (fs : array) : result (list (list fl)) :=
  match fs with
  | Array1 _ => Err AssertionError                                               (* 160 *)
  | Array2 fs => Ok (map (fun row => map (fun v => fl_sub v (ObjectivesModel.fl_mean row)) row) fs)   (* 161 *)
  end.

(** ** pmi_plot_1v1.smk *)

(** [np.meshgrid(x, y)]: the rows have the same y. *)
Definition meshgrid (x y : list R) : list (list R) * list (list R) :=
  (map (fun _ => x) y, map (fun v => map (fun _ => v) x) y).

(** [a.reshape(shape)] of a flat array to [rows] rows of [cols]. *)
Fixpoint reshape {V} (a : list V) (rows cols : nat) : list (list V) :=
  match rows with O => [] | S rows => firstn cols a :: reshape (skipn cols a) rows cols end.

(** The array drawn by plot_pmi, pmi_plot_1v1.smk 55-59 and 65, with any resolution. *)
Definition pmi_picture {J} (d : joint_distribution J) (lo hi : R) (n : Z) : result (picture fl) :=
  do x <- linspace lo hi n;                                                      (* 55 *)
  do y <- linspace lo hi n;                                                      (* 56 *)
  let '(X, Y) := meshgrid x y in                                                 (* 57 *)
  do z <- jd_pmi d (map (fun v => [v]) (concat X)) (map (fun v => [v]) (concat Y));   (* 59 *)
  Ok {| pic_rows := reshape z (length X) (length (hd [] X));                     (* 59 *)
        pic_extent := Some ((lo, hi), (lo, hi)) |}.                              (* 65 *)

(** ** Calls with swapped arguments *)

(** An argument of JointDistribution.sample: a number or a key, which is an array of two numbers. *)
Inductive argument (J : prng) := Number (n : Z) | RandomKey (k : key J).
Arguments Number {J} n.
Arguments RandomKey {J} k.

(** JointDistribution.sample, src/bmi/samplers/_tfp/_core.py 36-47, with arguments of any type: the
    truth value of [array < 1] with two elements raises a ValueError, and a number is also accepted as
    a seed of TFP. *)
Definition sample_any {J} (d : joint_distribution J) (n_points k : argument J) : result (matrix * matrix) :=
  match n_points with
  | RandomKey _ => Err ValueError                                                (* 43 *)
  | Number n => match k with
                | RandomKey k => jd_sample d n k                                 (* 43-47 *)
                | Number seed => jd_sample d n (cast_to_rng J (SeedInt seed))    (* 46 *)
                end
  end.

(** sample_normal, distinct_profiles.smk 39-50, and sample_u_shape, 105-112: the samples and the
    profile which are saved ([n_samples] is 100000, 23; the key is PRNGKey(0), 42 and 105). *)
Definition sample_profile {J} (d : joint_distribution J) : result (matrix * matrix * list fl) :=
  let k := RandomKey (cast_to_rng J (SeedInt 0)) in                              (* 42, 105 *)
  do (x, y) <- sample_any d k (Number 100000);                                   (* 43, 106 *)
  do profile <- jd_pmi d x y;                                                    (* 44, 107 *)
  Ok (x, y, profile).                                                            (* 46-50, 108-112 *)

(** plot_pmi, pmi_plot_1v1.smk 49-92: the picture and the samples drawn beside it. *)
Definition plot_pmi {J} (d : joint_distribution J) : result (picture fl * (matrix * matrix)) :=
  do p <- pmi_picture d (-10) 10 3000;                                           (* 55-65 *)
  do xy <- sample_any d (RandomKey (cast_to_rng J (SeedInt 0))) (Number 10000);  (* 61, 71 *)
  Ok (p, xy).

(** ** how_good_integration_is.smk *)
Section Integration.
  Context {P Q : Type}.

  (** monte_carlo, how_good_integration_is.smk 24-25 (critics are finite, as in [ObjectivesModel]). *)
  Definition monte_carlo (pmi : P -> Q -> R) (xs : list P) (ys : list Q) : result fl :=
    if negb (length xs =? length ys)%nat then Err ValueError
    else Ok (ObjectivesModel.fl_mean (map Fin (vmap_pairs pmi xs ys))).

  (** nwj_shifted, 27-32. *)
  Definition nwj_shifted (pmi : P -> Q -> R) (xs : list P) (ys : list Q) : fl :=
    lin_nwj (fun x y => pmi x y + 1) xs ys.
End Integration.

(** The biased critics of _DISTRIBUTIONS: 99-102 and 103-106. *)
Definition biased (pmi : list R -> list R -> R) : list R -> list R -> R := fun x y => pmi x y + 5 / 10.   (* 101 *)
Definition sin_square (pmi : list R -> list R -> R) : list R -> list R -> R :=
  fun x y => pmi x y + sin (hd 0 x * hd 0 x).                                    (* 105 *)

(** estimate_ground_truth, 174-196: mean and standard deviation (ddof=1) of the estimates of the
    seeds and mean of their standard errors. *)
Definition ground_truth (estimates : list (R * R)) : R * R * R :=
  let mis := map fst estimates in
  let mean := rmean mis in                                                       (* 183 *)
  let std := sqrt (rsum (map (fun v => (v - mean) ^ 2) mis) / (INR (length mis) - 1)) in   (* 184 *)
  (mean, std, rmean (map snd estimates)).                                        (* 185 *)

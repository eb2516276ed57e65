(** Property theorems: grids and critics of the mixtures paper (C80) and its integration
    experiment (C81). *)
From Verif Require Import Base UtilsModel JaxModel SamplersModel BmmModel ObjectivesModel ObjectivesSpec CriticsModel CriticsSpec BaseLemmas CriticsThms.
From Verif Require Import TrainingExamples BmmExamples CriticsExamples.
Open Scope R_scope.

(** C80: a grid is the table of the values at equally spaced points, X along the first axis; Y has its
    own range, or the range of X when none is given. *)
Theorem C80_grids : forall (J : prng) (d : joint_distribution J) f xr yr n, (0 < n)%nat ->
  let x i := tick (fst xr) (snd xr) n i in
  let y j := match yr with Some yr => tick (fst yr) (snd yr) n j | None => tick (fst xr) (snd xr) n j end in
  (exists g, grid_sampler_pdf d xr yr (Z.of_nat n) = Ok g /\ table_of g n (fun i j => fl_exp (log_prob (dist_joint d) [x i; y j]))) /\
  (exists g, grid_sampler_pmi d xr yr (Z.of_nat n) = Ok g /\ table_of g n (fun i j => point_pmi d [x i] [y j])) /\
  (exists g, grid_critic (Some f) xr yr (Z.of_nat n) = Ok g /\ table_of g n (fun i j => f [x i] [y j])).
Proof. exact @all_grids. Qed.
Print Assumptions C80_grids.
Example C80_grids_example : grid_critic (Some product_critic) (-1, 1) (Some (0, 4)) 3 = Ok [[0; -2; -4]; [0; 0; 0]; [0; 2; 4]].
Proof. exact ex_grid. Qed.

(** C80: a grid of any of these, drawn with the same ranges, shows every value at its point. *)
Theorem C80_plots : forall (V : Type) (g : list (list V)) n f xr yr, (2 <= n)%nat -> fst xr <= snd xr ->
  fst (or_else yr xr) <= snd (or_else yr xr) -> table_of g n f ->
  exists p, plot_grid g (Some xr) yr = Ok p /\
    forall i j, (i < n)%nat -> (j < n)%nat ->
      drawn_at p (tick (fst xr) (snd xr) n i) (tick (fst (or_else yr xr)) (snd (or_else yr xr)) n j) (f i j).
Proof. exact @plot_drawn. Qed.
Print Assumptions C80_plots.
Example C80_plots_example : plot_grid [[0; -2; -4]; [0; 0; 0]; [0; 2; 4]] (Some (-1, 1)) (Some (0, 4)) =
  Ok {| pic_rows := [[0; 0; 0]; [-2; 0; 2]; [-4; 0; 4]]; pic_extent := Some ((-1, 1), (0, 4)) |}.
Proof. exact eq_refl. Qed.

(** C80: so does the picture of the pointwise mutual information of the 1v1 plots. *)
Theorem C80_pmi_picture : forall (J : prng) (d : joint_distribution J) lo hi n, (2 <= n)%nat -> lo <= hi ->
  exists p, pmi_picture d lo hi (Z.of_nat n) = Ok p /\
    forall i j, (i < n)%nat -> (j < n)%nat ->
      drawn_at p (tick lo hi n i) (tick lo hi n j) (point_pmi d [tick lo hi n i] [tick lo hi n j]).
Proof. exact @pmi_picture_drawn. Qed.
Print Assumptions C80_pmi_picture.
Example C80_pmi_picture_example : (2 <= 3000)%nat /\ -10 <= 10.
Proof. split; [lia|lra]. Qed.

(** C80: removing the degrees of freedom of Donsker-Varadhan centres the array, and identifies
    exactly the arrays which differ by a constant. *)
Theorem C80_dv_dofs : forall a b rows cols, (0 < rows)%nat -> (0 < cols)%nat -> rectangular a rows cols -> rectangular b rows cols ->
  (exists a', remove_dv_dofs (Array2 (finite a)) = Ok (finite a') /\ rectangular a' rows cols /\ rsum (concat a') = 0 /\
     exists c, forall i j, (i < rows)%nat -> (j < cols)%nat -> at_ a i j = at_ a' i j + c) /\
  (remove_dv_dofs (Array2 (finite a)) = remove_dv_dofs (Array2 (finite b)) <->
   exists c, forall i j, (i < rows)%nat -> (j < cols)%nat -> at_ a i j = at_ b i j + c).
Proof. exact dv_dofs_all. Qed.
Print Assumptions C80_dv_dofs.
Example C80_dv_dofs_example :
  remove_dv_dofs (Array2 (finite [[0; -2; -4]; [0; 0; 0]; [0; 2; 4]])) = remove_dv_dofs (Array2 (finite [[3; 1; -1]; [3; 3; 3]; [3; 5; 7]])) /\
  remove_dv_dofs (Array2 (finite [[0; -2; -4]; [0; 0; 0]; [0; 2; 4]])) <> remove_dv_dofs (Array2 (finite [[-1; -3; -5]; [0; 0; 0]; [1; 3; 5]])).
Proof. exact (conj ex_dv_dofs ex_dv_not). Qed.

(** C80: removing those of InfoNCE centres each row, and identifies exactly the arrays which differ by
    a function of x. *)
Theorem C80_nce_dofs : forall a b rows cols, (0 < rows)%nat -> (0 < cols)%nat -> rectangular a rows cols -> rectangular b rows cols ->
  (exists a', remove_nce_dofs (Array2 (finite a)) = Ok (finite a') /\ rectangular a' rows cols /\
     (forall i, (i < rows)%nat -> rsum (nth i a' []) = 0) /\
     exists c, forall i j, (i < rows)%nat -> (j < cols)%nat -> at_ a i j = at_ a' i j + c i) /\
  (remove_nce_dofs (Array2 (finite a)) = remove_nce_dofs (Array2 (finite b)) <->
   exists c, forall i j, (i < rows)%nat -> (j < cols)%nat -> at_ a i j = at_ b i j + c i).
Proof. exact nce_dofs_all. Qed.
Print Assumptions C80_nce_dofs.
Example C80_nce_dofs_example :
  remove_nce_dofs (Array2 (finite [[0; -2; -4]; [0; 0; 0]; [0; 2; 4]])) = remove_nce_dofs (Array2 (finite [[-1; -3; -5]; [0; 0; 0]; [1; 3; 5]])).
Proof. exact ex_nce_dofs. Qed.

(** C80: critics whose grids agree up to the degrees of freedom of an objective have the same value of
    this objective on every batch of grid points. *)
Theorem C80_same_dv : forall f g xr yr n a b is js, (0 < n)%nat ->
  grid_critic (Some f) xr yr (Z.of_nat n) = Ok a -> grid_critic (Some g) xr yr (Z.of_nat n) = Ok b ->
  remove_dv_dofs (Array2 (finite a)) = remove_dv_dofs (Array2 (finite b)) ->
  (2 <= length is)%nat -> length is = length js -> Forall (fun i => (i < n)%nat) is -> Forall (fun j => (j < n)%nat) js ->
  let xs := map (fun i => [tick (fst xr) (snd xr) n i]) is in
  let ys := map (fun j => [tick (fst (or_else yr xr)) (snd (or_else yr xr)) n j]) js in
  lin_donsker_varadhan f xs ys = lin_donsker_varadhan g xs ys.
Proof. exact grid_dv. Qed.
Print Assumptions C80_same_dv.
Example C80_same_dv_example : grid_critic (Some lifted_critic) (-1, 1) (Some (0, 4)) 3 = Ok [[3; 1; -1]; [3; 3; 3]; [3; 5; 7]].
Proof. exact ex_grid_lifted. Qed.

Theorem C80_same_infonce : forall f g xr yr n a b is js, (0 < n)%nat ->
  grid_critic (Some f) xr yr (Z.of_nat n) = Ok a -> grid_critic (Some g) xr yr (Z.of_nat n) = Ok b ->
  remove_nce_dofs (Array2 (finite a)) = remove_nce_dofs (Array2 (finite b)) ->
  (2 <= length is)%nat -> length is = length js -> Forall (fun i => (i < n)%nat) is -> Forall (fun j => (j < n)%nat) js ->
  let xs := map (fun i => [tick (fst xr) (snd xr) n i]) is in
  let ys := map (fun j => [tick (fst (or_else yr xr)) (snd (or_else yr xr)) n j]) js in
  lin_infonce f xs ys = lin_infonce g xs ys.
Proof. exact grid_infonce. Qed.
Print Assumptions C80_same_infonce.
Example C80_same_infonce_example : grid_critic (Some bent_critic) (-1, 1) (Some (0, 4)) 3 = Ok [[-1; -3; -5]; [0; 0; 0]; [1; 3; 5]].
Proof. exact ex_grid_bent. Qed.

(** C80: what is refused: an untrained estimator, a negative number of points, arrays with one axis,
    and a range for Y only. *)
Theorem C80_rejects : forall (J : prng) (d : joint_distribution J) xr yr n (a : list fl) (g : list (list fl)),
  grid_critic None xr yr n = Err TypeError /\
  ((n < 0)%Z -> grid_sampler_pmi d xr yr n = Err ValueError /\ grid_sampler_pdf d xr yr n = Err ValueError) /\
  remove_dv_dofs (Array1 a) = Err AssertionError /\ remove_nce_dofs (Array1 a) = Err AssertionError /\
  plot_grid g None (Some xr) = Err TypeError.
Proof. exact @critics_rejects. Qed.
Print Assumptions C80_rejects.
Example C80_rejects_example : remove_dv_dofs (Array1 [Fin 1; NaN]) = Err AssertionError.
Proof. exact eq_refl. Qed.

(** C80: the documented order of the arguments of [sample] is not the one used for the profiles and
    for the 1v1 plots: these rules never finish, for any distribution. *)
Theorem C80_swapped_refuted : forall (J : prng) (d : joint_distribution J),
  sample_profile d = Err ValueError /\ plot_pmi d = Err ValueError.
Proof. exact @swapped. Qed.
Print Assumptions C80_swapped_refuted.
Example C80_swapped_refuted_example : sample_profile demo_mixture = Err ValueError /\
  exists xy, jd_sample demo_mixture 100000 (cast_to_rng demo (SeedInt 0)) = Ok xy.
Proof. exact ex_swapped. Qed.

(** C81: adding a constant to the pointwise mutual information shifts the plain average and leaves
    Donsker-Varadhan and InfoNCE unchanged; NWJ pays [exp c] for it. *)
Theorem C81_constant_bias : forall (P Q : Type) (f : P -> Q -> R) c xs ys, (2 <= length xs)%nat -> length xs = length ys ->
  monte_carlo (fun x y => f x y + c) xs ys = Ok (Fin (mean_paired f xs ys + c)) /\
  lin_donsker_varadhan (fun x y => f x y + c) xs ys = lin_donsker_varadhan f xs ys /\
  lin_infonce (fun x y => f x y + c) xs ys = lin_infonce f xs ys /\
  nwj_shifted (fun x y => f x y + c) xs ys = Fin (mean_paired f xs ys + c + 1 - exp c * mean_exp_unpaired f xs ys).
Proof. exact @constant_bias. Qed.
Print Assumptions C81_constant_bias.
Example C81_constant_bias_example : monte_carlo (biased product_critic) [[0]; [1]] [[2]; [3]] = Ok (Fin 2).
Proof. exact ex_biased. Qed.

(** C81: a bounded function of x shifts the average by its mean, moves Donsker-Varadhan away from this
    by at most the bound, and leaves InfoNCE unchanged. *)
Theorem C81_x_bias : forall (P Q : Type) (f : P -> Q -> R) (g : P -> R) B xs ys, (2 <= length xs)%nat -> length xs = length ys ->
  (forall x, In x xs -> - B <= g x <= B) ->
  monte_carlo (fun x y => f x y + g x) xs ys = Ok (Fin (mean_paired f xs ys + rmean (map g xs))) /\
  lin_infonce (fun x y => f x y + g x) xs ys = lin_infonce f xs ys /\
  exists d d', lin_donsker_varadhan f xs ys = Fin d /\ lin_donsker_varadhan (fun x y => f x y + g x) xs ys = Fin d' /\
    d + rmean (map g xs) - B <= d' <= d + rmean (map g xs) + B.
Proof. exact @x_bias. Qed.
Print Assumptions C81_x_bias.
Example C81_x_bias_example : forall x : R, In x [0; 1] -> - 1 <= sin x <= 1.
Proof. exact (fun x _ => SIN_bound x). Qed.

(** C81: the two biased setups of the experiment. *)
Theorem C81_setups : forall (f : list R -> list R -> R) xs ys, (2 <= length xs)%nat -> length xs = length ys ->
  (monte_carlo (biased f) xs ys = Ok (Fin (mean_paired f xs ys + 1 / 2)) /\
   lin_donsker_varadhan (biased f) xs ys = lin_donsker_varadhan f xs ys /\
   lin_infonce (biased f) xs ys = lin_infonce f xs ys /\
   nwj_shifted (biased f) xs ys = Fin (mean_paired f xs ys + 3 / 2 - exp (1 / 2) * mean_exp_unpaired f xs ys)) /\
  let shift := rmean (map (fun x => sin (hd 0 x * hd 0 x)) xs) in
  monte_carlo (sin_square f) xs ys = Ok (Fin (mean_paired f xs ys + shift)) /\
  lin_infonce (sin_square f) xs ys = lin_infonce f xs ys /\
  exists d d', lin_donsker_varadhan f xs ys = Fin d /\ lin_donsker_varadhan (sin_square f) xs ys = Fin d' /\
    d + shift - 1 <= d' <= d + shift + 1.
Proof. exact setups. Qed.
Print Assumptions C81_setups.
Example C81_setups_example : monte_carlo (biased product_critic) [[0]; [1]] [[2]; [3]] = Ok (Fin 2).
Proof. exact ex_biased. Qed.

(** C81: the plain average is the mean of the pointwise values; numbers of points which differ are
    refused. *)
Theorem C81_monte_carlo : forall (P Q : Type) (f : P -> Q -> R) xs ys,
  (xs <> [] -> length xs = length ys -> monte_carlo f xs ys = Ok (Fin (mean_paired f xs ys))) /\
  (length xs <> length ys -> monte_carlo f xs ys = Err ValueError).
Proof. exact (fun P Q f xs ys => conj (@mc_value P Q f xs ys) (@mc_mismatch P Q f xs ys)). Qed.
Print Assumptions C81_monte_carlo.
Example C81_monte_carlo_example : monte_carlo product_critic [[0]; [1]] [[2]] = Err ValueError.
Proof. exact eq_refl. Qed.

(** C81: the shifted NWJ is never above Donsker-Varadhan and equal to it exactly when the average of
    the exponentials is one, as it is in expectation for the true pointwise mutual information. *)
Theorem C81_nwj : forall (P Q : Type) (f : P -> Q -> R) xs ys, (2 <= length xs)%nat -> length xs = length ys ->
  nwj_shifted f xs ys = Fin (mean_paired f xs ys + 1 - mean_exp_unpaired f xs ys) /\
  exists w d, nwj_shifted f xs ys = Fin w /\ lin_donsker_varadhan f xs ys = Fin d /\ w <= d /\ (w = d <-> mean_exp_unpaired f xs ys = 1).
Proof. exact (fun P Q f xs ys h l => conj (@nwj_shifted_value P Q f xs ys h l) (@nwj_shifted_below P Q f xs ys h l)). Qed.
Print Assumptions C81_nwj.
Example C81_nwj_example : nwj_shifted (fun _ _ : list R => 0) [[0]; [1]] [[2]; [3]] = Fin 0.
Proof. exact ex_nwj. Qed.

(** C81: the ground truth is the mean over the seeds, with the sample standard deviation and the mean
    of the standard errors. *)
Theorem C81_ground_truth : forall l, (2 <= length l)%nat -> let '(mean, std, err) := ground_truth l in
  INR (length l) * mean = rsum (map fst l) /\ 0 <= std /\
  (INR (length l) - 1) * (std * std) = rsum (map (fun v => (fst v - mean) ^ 2) l) /\ INR (length l) * err = rsum (map snd l).
Proof. exact ground_truth_spec. Qed.
Print Assumptions C81_ground_truth.
Example C81_ground_truth_example : ground_truth [(1, 2); (3, 4)] = (2, sqrt 2, 3).
Proof. exact ex_truth. Qed.

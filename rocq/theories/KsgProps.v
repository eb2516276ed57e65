(** Property theorems about [src/bmi/estimators/ksg.py]: C06-C13, C69 and the KSG
    part of C05.  [psi] is digamma at positive integers, [argsort] any function
    sorting indices by value ([valid_argsort]): the theorems hold whichever way
    ties are broken. *)
From Coq Require Import Permutation.
From Verif Require Import Base BaseLemmas UtilsModel UtilsSpec KsgModel KsgSpec KsgProofs KsgFitProofs KsgThms KsgFormula KsgHistory.
Open Scope Z_scope.

(** C06: whatever is called, in whatever order, the fast and the slow estimator
    answer the same, for every chunk size; provided the neighborhoods differ. *)
Theorem C06_fast_equals_slow :
  forall psi argsort ns std mx my p chunk chunk' (calls : list ksg_call),
  valid_argsort argsort -> make_params ns std mx my = Ok p -> NoDup ns -> 0 < chunk ->
  ksg_outputs (fast_fit psi argsort) (ksg_new p chunk) calls
  = ksg_outputs (slow_fit psi) (ksg_new p chunk') calls.
Proof.
  exact (fun psi argsort ns std mx my p chunk chunk' calls Ha Hp Hnd Hc =>
    outputs_agree psi argsort (ksg_new p chunk) (ksg_new p chunk') calls Ha
      (proj1 (make_params_valid ns std mx my p Hp))
      (eq_ind_r (fun l => NoDup l) Hnd (proj1 (proj2 (make_params_valid ns std mx my p Hp)))) Hc
      (conj eq_refl (conj eq_refl eq_refl))).
Qed.
Print Assumptions C06_fast_equals_slow.

Example C06_example :
  valid_argsort sorted_indices /\ NoDup [5; 10] /\
  make_params [5; 10] true Euclidean None =
  Ok {| neighborhoods := [5; 10]; standardize := true; metric_x := Euclidean; metric_y := Euclidean |}.
Proof.
  split; [exact sorted_indices_sorts|]. split; [|reflexivity].
  repeat constructor; simpl; intros H; repeat destruct H as [H|H]; try discriminate H; auto.
Qed.

(** ... and without that proviso the claim is false: with neighborhoods (1, 1)
    the two disagree on the sample x = y = 0, 1, 3, for any digamma with
    psi(1) < 0 and psi(1) < psi(3) (psi(1) = -0.577..., psi(3) = 0.922...). *)
Theorem C06_repeated_neighborhood_refuted :
  exists ns x y p, make_params ns false Manhattan None = Ok p /\
  forall psi argsort chunk, valid_argsort argsort -> (psi 1%Z < 0)%R -> (psi 1%Z < psi 3%Z)%R -> 0 < chunk ->
  exists v w, v <> w /\
  get_predictions (fst (slow_fit psi (ksg_new p chunk) x y)) = Ok [(1, Fin v)] /\
  get_predictions (fst (fast_fit psi argsort (ksg_new p chunk) x y)) = Ok [(1, Fin w)].
Proof. exact repeated_neighborhood_refuted. Qed.
Print Assumptions C06_repeated_neighborhood_refuted.

(** C07: equation (8).  [r i] is the distance from point [i] to its k-th nearest
    other point (k-th smallest of the max-metric distances), assumed positive;
    zero radii are the subject of C13. *)
Theorem C07_ksg_equation_8 :
  forall psi argsort (s : ksg_state) x y xs ys k (r : nat -> R),
  valid_argsort argsort -> valid_params (params s) -> NoDup (neighborhoods (params s)) -> 0 < chunk_size s ->
  product_space_values (standardize (params s)) x y = Ok (xs, ys) ->
  (forall k, In k (neighborhoods (params s)) -> k < zlen x) ->
  In k (neighborhoods (params s)) ->
  (forall i, (i < length xs)%nat ->
     radius (metric_x (params s)) (metric_y (params s)) xs ys k i (r i) /\ (0 < r i)%R) ->
  exists s' d, fast_fit psi argsort s x y = (s', Ok tt) /\ slow_fit psi s x y = (s', Ok tt) /\
    get_predictions s' = Ok d /\
    dict_get d k = Some (Fin (Rmax 0 (ksg_formula psi (metric_x (params s)) (metric_y (params s)) xs ys k r))).
Proof. exact ksg_equation_8. Qed.
Print Assumptions C07_ksg_equation_8.

(** The radius exists and is unique. *)
Theorem C07_radius_exists :
  forall (k : Z) (l : list R), 1 <= k <= zlen l -> exists r, kth_smallest k l r.
Proof. exact kth_smallest_exists. Qed.
Print Assumptions C07_radius_exists.

Theorem C07_radius_unique :
  forall (k : Z) (l : list R) (r r' : R), kth_smallest k l r -> kth_smallest k l r' -> r = r'.
Proof. exact kth_smallest_unique. Qed.
Print Assumptions C07_radius_unique.

(** The three metrics are what their names say. *)
Theorem C07_metrics :
  forall (d : nat) (a b : list R), length a = d -> length b = d ->
  dist Euclidean a b = std_euclidean d a b /\ dist Manhattan a b = std_manhattan d a b /\
  ((0 < d)%nat -> is_max_of (map (fun j => Rabs (nth j a 0%R - nth j b 0%R)) (seq 0 d)) (dist Chebyshev a b)).
Proof. exact metrics_spec. Qed.
Print Assumptions C07_metrics.

(** Sample 0, 1, 3 (x = y), k = 1: the radii are 1, 1, 2. *)
Example C07_example :
  let r := fun i => nth i [1; 1; 2]%R 0%R in
  forall i, (i < 3)%nat -> radius Manhattan Manhattan dup_x dup_x 1 i (r i) /\ (0 < r i)%R.
Proof.
  assert (D : forall a b : R, dist Manhattan [a] [b] = Rabs (a - b)) by (intros; simpl; unfold rsum; simpl; lra).
  intros r i Hi. unfold r, radius, kth_smallest, dup_x.
  destruct i as [|[|[|i]]]; [| | |lia]; cbn [nth]; (split; [|lra]);
  unfold others; cbn [length seq filter Nat.eqb negb map]; unfold dist_xy, dist_x, dist_y; cbn [nth]; rewrite !D;
  rewrite ?Rmax_left by lra;
  repeat match goal with |- context [Rabs ?v] =>
    first [rewrite (Rabs_right v) by lra | rewrite (Rabs_left v) by lra] end;
  rewrite !count_cons; repeat match goal with |- context [count ?f []] => change (count f []) with 0 end;
  (split; [simpl; repeat first [left; lra | right]|]);
  repeat match goal with
  | |- context [Rltb ?u ?v] => destruct (Rltb u v) eqn:?E
  | |- context [Rleb ?u ?v] => destruct (Rleb u v) eqn:?E end;
  repeat match goal with
  | H : Rltb _ _ = true |- _ => apply Rltb_true in H
  | H : Rltb _ _ = false |- _ => apply Rltb_false in H
  | H : Rleb _ _ = true |- _ => apply Rleb_true in H
  | H : Rleb _ _ = false |- _ => apply Rleb_false in H end;
  try (exfalso; lra); lia.
Qed.

(** C08: only the multiset of pairs (x_i, y_i) matters. *)
Theorem C08_permutation :
  forall psi argsort (s : ksg_state) dx dy x y x' y',
  valid_argsort argsort -> valid_params (params s) ->
  rectangular dx x -> rectangular dy y -> length x = length y -> length x' = length y' ->
  Permutation (combine x y) (combine x' y') ->
  fast_fit psi argsort s x y = fast_fit psi argsort s x' y' /\
  slow_fit psi s x y = slow_fit psi s x' y'.
Proof. exact ksg_perm. Qed.
Print Assumptions C08_permutation.

Example C08_example :
  Permutation (combine [[1]; [2]; [3]]%R [[4]; [5]; [6]]%R) (combine [[3]; [1]; [2]]%R [[6]; [4]; [5]]%R).
Proof.
  simpl. eapply perm_trans; [apply perm_skip, perm_swap|]. apply perm_swap.
Qed.

(** C09: exchanging x and y, together with their metrics. *)
Theorem C09_symmetry :
  forall psi argsort (s : ksg_state) x y,
  valid_argsort argsort -> valid_params (params s) ->
  fast_fit psi argsort (swap_metrics s) y x
  = (swap_metrics (fst (fast_fit psi argsort s x y)), snd (fast_fit psi argsort s x y)) /\
  slow_fit psi (swap_metrics s) y x
  = (swap_metrics (fst (slow_fit psi s x y)), snd (slow_fit psi s x y)).
Proof. exact ksg_swap. Qed.
Print Assumptions C09_symmetry.

Theorem C09_same_predictions :
  forall s : ksg_state, get_predictions (swap_metrics s) = get_predictions s.
Proof. exact (fun s => eq_refl). Qed.
Print Assumptions C09_same_predictions.

Example C09_example : valid_params (params (ksg_new (dup_params [5; 10]) 10)).
Proof. split; [discriminate|]. simpl. intros k [<-|[<-|[]]]; lia. Qed.

(** C10: there is one prediction per distinct neighborhood, each is +inf or a
    non-negative number (never NaN) ... *)
Theorem C10_lower_bound :
  forall psi p chunk x y s d k,
  valid_params p -> slow_fit psi (ksg_new p chunk) x y = (s, Ok tt) -> get_predictions s = Ok d ->
  (NoDup (dict_keys d) /\ (forall k, In k (dict_keys d) <-> In k (neighborhoods p))) /\
  (In k (neighborhoods p) ->
   dict_get d k = Some PInf \/ exists r, dict_get d k = Some (Fin r) /\ (0 <= r)%R).
Proof. exact predictions_bounds. Qed.
Print Assumptions C10_lower_bound.

(** ... at most psi(n) - psi(k) when distances from each point to the others are
    positive and differ, a bound which is attained when x = y. *)
Theorem C10_upper_bound :
  forall psi p chunk x y xs ys s d k,
  (forall a b, 1 <= a <= b -> (psi a <= psi b)%R) ->
  valid_params p -> slow_fit psi (ksg_new p chunk) x y = (s, Ok tt) -> get_predictions s = Ok d ->
  product_space_values (standardize p) x y = Ok (xs, ys) -> In k (neighborhoods p) ->
  no_ties (metric_x p) (metric_y p) xs ys ->
  (forall i j, (i < length xs)%nat -> (j < length xs)%nat -> i <> j ->
     (0 < dist_xy (metric_x p) (metric_y p) xs ys i j)%R) ->
  exists r, dict_get d k = Some (Fin r) /\ (0 <= r <= psi (zlen x) - psi k)%R /\
    (xs = ys -> metric_x p = metric_y p -> r = (psi (zlen x) - psi k)%R).
Proof. exact predictions_upper. Qed.
Print Assumptions C10_upper_bound.

(** The estimate is the mean of the predictions, hence between the extremes. *)
Theorem C10_estimate_is_mean :
  forall psi p chunk x y s d (vals : list R),
  valid_params p ->
  slow_fit psi (ksg_new p chunk) x y = (s, Ok tt) -> get_predictions s = Ok d -> dict_values d = map Fin vals ->
  snd (estimate_with (slow_fit psi) (ksg_new p chunk) x y) = Ok (Fin (rmean vals)) /\
  exists lo hi, In lo vals /\ In hi vals /\ (lo <= rmean vals <= hi)%R.
Proof.
  exact (fun psi p chunk x y s d vals Hv =>
    estimate_mean (slow_fit psi) p chunk x y s d vals (slow_law psi p chunk Hv) Hv).
Qed.
Print Assumptions C10_estimate_is_mean.

Theorem C10_estimate_is_mean_fast :
  forall psi argsort p chunk x y s d (vals : list R),
  valid_argsort argsort -> valid_params p ->
  fast_fit psi argsort (ksg_new p chunk) x y = (s, Ok tt) -> get_predictions s = Ok d -> dict_values d = map Fin vals ->
  snd (estimate_with (fast_fit psi argsort) (ksg_new p chunk) x y) = Ok (Fin (rmean vals)) /\
  exists lo hi, In lo vals /\ In hi vals /\ (lo <= rmean vals <= hi)%R.
Proof.
  exact (fun psi argsort p chunk x y s d vals Ha Hv =>
    estimate_mean (fast_fit psi argsort) p chunk x y s d vals (fast_law psi argsort p chunk Ha Hv) Hv).
Qed.
Print Assumptions C10_estimate_is_mean_fast.

Example C10_example :
  no_ties Manhattan Manhattan dup_x dup_x /\
  (forall i j, (i < 3)%nat -> (j < 3)%nat -> i <> j -> (0 < dist_xy Manhattan Manhattan dup_x dup_x i j)%R) /\
  (forall a b, 1 <= a <= b -> (IZR a <= IZR b)%R) /\
  snd (slow_fit IZR (ksg_new (dup_params [1]) 10) dup_x dup_x) = Ok tt.
Proof.
  assert (D : forall a b : R, dist Manhattan [a] [b] = Rabs (a - b)) by (intros; simpl; unfold rsum; simpl; lra).
  split; [|split; [|split]].
  - intros i Hi. unfold dup_x in *. cbn [length] in Hi.
    destruct i as [|[|[|i]]]; [| | |lia]; unfold others; cbn [length seq filter Nat.eqb negb map];
    unfold dist_xy, dist_x, dist_y; cbn [nth]; rewrite !D; rewrite ?Rmax_left by lra;
    repeat match goal with |- context [Rabs ?v] =>
      first [rewrite (Rabs_right v) by lra | rewrite (Rabs_left v) by lra] end;
    (constructor; [|constructor; [|constructor]]); simpl; intros H; repeat destruct H as [H|H]; auto; lra.
  - intros i j Hi Hj Hij. unfold dist_xy, dist_x, dist_y, dup_x.
    destruct i as [|[|[|i]]]; [| | |lia]; (destruct j as [|[|[|j]]]; [| | |lia]); try congruence; cbn [nth]; rewrite !D;
    rewrite Rmax_left by lra; apply Rabs_pos_lt; lra.
  - intros a b H. apply IZR_le. lia.
  - unfold slow_fit. reflexivity.
Qed.

(** C11: every call on an object with any history of calls answers as the
    history says: fit and estimate as on a new object, get_predictions the
    predictions of the last accepted fit. *)
Theorem C11_history_fast :
  forall psi argsort p chunk calls c,
  valid_argsort argsort -> valid_params p ->
  let F := fast_fit psi argsort in
  snd (ksg_step F (ksg_run F (ksg_new p chunk) calls) c) =
  match c with
  | CallFit x y => OutFit (snd (F (ksg_new p chunk) x y))
  | CallEstimate x y => OutEstimate (snd (estimate_with F (ksg_new p chunk) x y))
  | CallGet => OutGet (match last_accepted F (ksg_new p chunk) None calls with
                       | None => Err NotFitted
                       | Some (x, y) => get_predictions (fst (F (ksg_new p chunk) x y))
                       end)
  end.
Proof.
  exact (fun psi argsort p chunk calls c Ha Hv =>
    history (fast_fit psi argsort) p chunk (fast_law psi argsort p chunk Ha Hv) calls c).
Qed.
Print Assumptions C11_history_fast.

Theorem C11_history_slow :
  forall psi p chunk calls c,
  valid_params p ->
  let F := slow_fit psi in
  snd (ksg_step F (ksg_run F (ksg_new p chunk) calls) c) =
  match c with
  | CallFit x y => OutFit (snd (F (ksg_new p chunk) x y))
  | CallEstimate x y => OutEstimate (snd (estimate_with F (ksg_new p chunk) x y))
  | CallGet => OutGet (match last_accepted F (ksg_new p chunk) None calls with
                       | None => Err NotFitted
                       | Some (x, y) => get_predictions (fst (F (ksg_new p chunk) x y))
                       end)
  end.
Proof.
  exact (fun psi p chunk calls c Hv => history (slow_fit psi) p chunk (slow_law psi p chunk Hv) calls c).
Qed.
Print Assumptions C11_history_slow.

(** Which fits are accepted. *)
Theorem C11_fit_accepts :
  forall psi argsort p chunk dx dy x y,
  valid_argsort argsort -> valid_params p -> rectangular dx x -> rectangular dy y -> (0 < dx)%nat -> (0 < dy)%nat ->
  (snd (slow_fit psi (ksg_new p chunk) x y)
   = if (length x =? length y)%nat && forallb (fun k => k <? zlen x) (neighborhoods p) then Ok tt else Err ValueError) /\
  (snd (fast_fit psi argsort (ksg_new p chunk) x y)
   = if (length x =? length y)%nat && forallb (fun k => k <? zlen x) (neighborhoods p) && (0 <? chunk)
     then Ok tt else Err ValueError).
Proof. exact fit_success. Qed.
Print Assumptions C11_fit_accepts.

Example C11_example :
  let F := slow_fit IZR in
  let s0 := ksg_new (dup_params [1]) 10 in
  last_accepted F s0 None [CallFit dup_x dup_x; CallFit dup_x []; CallGet; CallFit [[1]]%R [[1]]%R]
  = Some (dup_x, dup_x).
Proof. reflexivity. Qed.

(** C12: constructor arguments. *)
Theorem C12_constructor :
  forall ns std mx my,
  ((ns <> [] /\ forall k, In k ns -> 1 <= k) ->
     exists p, make_params ns std mx my = Ok p /\ neighborhoods p = ns /\ standardize p = std /\
       metric_x p = mx /\ metric_y p = match my with Some m => m | None => mx end) /\
  (~ (ns <> [] /\ forall k, In k ns -> 1 <= k) -> make_params ns std mx my = Err ValueError).
Proof. exact make_params_spec. Qed.
Print Assumptions C12_constructor.

Example C12_example :
  make_params [3; 0] true Chebyshev None = Err ValueError /\ make_params [] true Chebyshev None = Err ValueError.
Proof. split; reflexivity. Qed.

(** C13: the prediction for k is +infinity exactly when some sample occurs (as a
    pair) at k other places. *)
Theorem C13_duplicates :
  forall psi s dx dy x y k,
  valid_params (params s) -> rectangular dx x -> rectangular dy y ->
  (forall k, In k (neighborhoods (params s)) -> k < zlen x) -> In k (neighborhoods (params s)) ->
  forall s' d, slow_fit psi s x y = (s', Ok tt) -> get_predictions s' = Ok d ->
  (dict_get d k = Some PInf <->
   exists i js, (i < length x)%nat /\ NoDup js /\ zlen js = k /\
     (forall j, In j js -> (j < length x)%nat /\ j <> i /\ nth j x [] = nth i x [] /\ nth j y [] = nth i y [])).
Proof. exact ksg_duplicates. Qed.
Print Assumptions C13_duplicates.

Example C13_example :
  let x := [[0]; [7]; [0]]%R in
  exists i js, (i < length x)%nat /\ NoDup js /\ zlen js = 1 /\
     (forall j, In j js -> (j < length x)%nat /\ j <> i /\ nth j x [] = nth i x []).
Proof.
  exists 0%nat, [2%nat]. simpl. split; [lia|]. split; [repeat constructor; auto|]. split; [reflexivity|].
  intros j [<-|[]]. repeat split; lia.
Qed.

(** C69: without standardization, moving the data and multiplying everything by
    one non-zero number changes nothing. *)
Theorem C69_affine :
  forall psi argsort (s : ksg_state) dx dy c b b' x y,
  valid_argsort argsort -> valid_params (params s) -> standardize (params s) = false ->
  rectangular dx x -> rectangular dy y -> c <> 0%R ->
  fast_fit psi argsort s (affine_rows (fun _ => c) b x) (affine_rows (fun _ => c) b' y)
    = fast_fit psi argsort s x y /\
  slow_fit psi s (affine_rows (fun _ => c) b x) (affine_rows (fun _ => c) b' y) = slow_fit psi s x y.
Proof. exact ksg_affine. Qed.
Print Assumptions C69_affine.

Example C69_example :
  standardize (dup_params [1]) = false /\ rectangular 1 dup_x /\
  affine_rows (fun _ => (-2)%R) (fun _ => 5%R) dup_x = [[-2 * 0 + 5]; [-2 * 1 + 5]; [-2 * 3 + 5]]%R.
Proof. split; [reflexivity|]. split; [repeat constructor|reflexivity]. Qed.

(** C05 for KSG: with standardization each coordinate may have its own units. *)
Theorem C05_ksg_units :
  forall psi argsort (s : ksg_state) dx dy a b a' b' x y,
  standardize (params s) = true ->
  rectangular dx x -> rectangular dy y -> x <> [] -> y <> [] -> (0 < dx)%nat -> (0 < dy)%nat ->
  (forall j, (j < dx)%nat -> (0 < a j)%R) -> (forall j, (j < dy)%nat -> (0 < a' j)%R) ->
  fast_fit psi argsort s (affine_rows a b x) (affine_rows a' b' y) = fast_fit psi argsort s x y /\
  slow_fit psi s (affine_rows a b x) (affine_rows a' b' y) = slow_fit psi s x y.
Proof. exact ksg_units. Qed.
Print Assumptions C05_ksg_units.

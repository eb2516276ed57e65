(** Model of [src/bmi/estimators/ksg.py]. *)
From Verif Require Import Base UtilsModel.
Open Scope Z_scope.

(** ** Metrics: ksg.py 15, [sklearn.metrics.pairwise_distances] between two
    points (coordinates in exact reals). *)
Inductive metric := Euclidean | Manhattan | Chebyshev.

Definition coord_diffs (a b : list R) : list R :=
  map (fun p => Rabs (fst p - snd p)) (combine a b).

Definition dist (m : metric) (a b : list R) : R :=
  match m with
  | Euclidean => sqrt (rsum (map (fun d => (d * d)%R) (coord_diffs a b)))
  | Manhattan => rsum (coord_diffs a b)
  | Chebyshev => fold_right Rmax 0%R (coord_diffs a b)
  end.

(** ** Parameters: ksg.py 18-30.
    The validator of lines 24-30 runs inside the constructor (lines 68-73 and
    176-181); pydantic turns its ValueError into a ValidationError, which is a
    subclass of ValueError. *)
Record ksg_params := {
  neighborhoods : list Z;
  standardize : bool;
  metric_x : metric;
  metric_y : metric }.

(** [min(l)] and [max(l)] of a non-empty list of ints. *)
Definition zmin_list (l : list Z) : Z := fold_right Z.min (hd 0 l) l.
Definition zmax_list (l : list Z) : Z := fold_right Z.max (hd 0 l) l.

Definition validate_neighborhoods (l : list Z) : result (list Z) :=
  if (zlen l =? 0) then Err ValueError                 (* 26-27 *)
  else if zmin_list l <? 1 then Err ValueError         (* 28-29 *)
  else Ok l.                                           (* 30 *)

(** Constructor arguments to parameters, ksg.py 68-73 / 176-181. *)
Definition make_params (ns : list Z) (std : bool) (mx : metric) (my : option metric)
  : result ksg_params :=
  do ns' <- validate_neighborhoods ns;
  Ok {| neighborhoods := ns'; standardize := std; metric_x := mx;
        metric_y := match my with Some m => m | None => mx end |}.   (* 72 / 180 *)

(** ** The estimator object: ksg.py 68-79 and 176-186. *)
Record ksg_state := {
  params : ksg_params;
  chunk_size : Z;                (* 76; unused by the slow version *)
  fitted : bool;                 (* 78 *)
  mi_dict : zdict fl }.          (* 79 *)

Definition ksg_new (p : ksg_params) (chunk : Z) : ksg_state :=
  {| params := p; chunk_size := chunk; fitted := false; mi_dict := [] |}.

Section Fit.
(** [psi n] is the value of scipy's digamma at the positive integer [n]. *)
Variable psi : Z -> R.
(** [np.argsort] of one row of distances (line 107); the order it gives to equal
    entries is unspecified. *)
Variable argsort : list R -> list nat.

(** scipy.special.digamma on an int array: finite at positive integers, -inf at
    zero.  (At negative integers scipy returns nan; never reached, n_x >= -1.) *)
Definition digamma (z : Z) : fl := if 0 <? z then Fin (psi z) else if z =? 0 then NInf else NaN.

(** [{k: [] for k in neighborhoods}], lines 90 and 198: repeated keys collapse. *)
Definition empty_dict (ns : list Z) : zdict (list fl) :=
  fold_left (fun d k => dict_set d k []) ns [].

(** [digammas_dict[k].append(v)], lines 126 and 226. *)
Definition dict_append (d : zdict (list fl)) (k : Z) (v : fl) : zdict (list fl) :=
  match dict_get d k with
  | Some l => dict_set d k (l ++ [v])
  | None => d            (* KeyError in Python; all keys are present here *)
  end.

(** [(distances < r).sum()] for one row. *)
Definition count_less (ds : list R) (r : R) : Z := zlen (filter (fun d => Rltb d r) ds).

(** One row of distances from [point] to all points. *)
Definition distances_from (m : metric) (points : matrix) (point : list R) : list R :=
  map (fun q => dist m point q) points.

(** [np.maximum] of two rows, lines 103 and 210. *)
Definition maximum (a b : list R) : list R := map (fun p => Rmax (fst p) (snd p)) (combine a b).

(** Digamma term of one point for one [k], lines 113-123 (row-wise). *)
Definition fast_term (dx dy : list R) (k : Z) : fl :=
  let dxy := maximum dx dy in                              (* 103 *)
  let closest := argsort dxy in                            (* 107 *)
  let kth := nth (Z.to_nat k) closest 0%nat in             (* 113 *)
  let dk := nth kth dxy 0%R in                             (* 115-117 *)
  let nx := count_less dx dk - 1 in                        (* 120 *)
  let ny := count_less dy dk - 1 in                        (* 121 *)
  fl_add (digamma (nx + 1)) (digamma (ny + 1)).            (* 123 *)

(** Body of the loop over chunks, lines 93-126: [px], [py] are the points of the
    chunk ([space.x[batch_index]], [space.y[batch_index]]). *)
Definition fast_chunk (p : ksg_params) (xs ys : matrix) (d : zdict (list fl)) (sl : Z * Z)
  : zdict (list fl) :=
  let bx := py_slice xs (fst sl) (snd sl) in
  let by_ := py_slice ys (fst sl) (snd sl) in
  let rows := combine (map (distances_from (metric_x p) xs) bx)         (* 95-97 *)
                      (map (distances_from (metric_y p) ys) by_) in     (* 98-100 *)
  fold_left (fun d k =>                                                 (* 109 *)
     let digammas := map (fun r => fast_term (fst r) (snd r) k) rows in
     let contribution := fl_sum (map (fun v => fl_divp v (INR (length xs))) digammas) in (* 125 *)
     dict_append d k contribution)                                      (* 126 *)
   (neighborhoods p) d.

(** [for k, digammas in digammas_dict.items(): self._mi_dict[k] = ...],
    lines 128-132; [total] is [np.sum] there and [np.mean] in line 229. *)
Definition write_predictions (total : list fl -> fl) (n : Z)
    (dg : zdict (list fl)) (mi : zdict fl) : zdict fl :=
  fold_left (fun mi kv =>
     let '(k, digammas) := kv in
     let est := fl_add (fl_sub (digamma k) (total digammas)) (digamma n) in   (* 131 / 229 *)
     dict_set mi k (py_max (Fin 0) est)) dg mi.                                (* 132 / 230 *)

(** KSGEnsembleFirstEstimator.fit, ksg.py 81-134. *)
Definition fast_fit (s : ksg_state) (x y : matrix) : ksg_state * result unit :=
  let p := params s in
  match product_space_values (standardize p) x y with                   (* 82 *)
  | Err e => (s, Err e)
  | Ok (xs, ys) =>
    if zlen xs <=? zmax_list (neighborhoods p) then (s, Err ValueError) (* 84-88 *)
    else
      match chunker (zlen xs) (chunk_size s) with                       (* 93 *)
      | Err e => (s, Err e)
      | Ok slices =>
        let dg := fold_left (fast_chunk p xs ys) slices (empty_dict (neighborhoods p)) in (* 90-126 *)
        ({| params := p; chunk_size := chunk_size s; fitted := true;    (* 134 *)
            mi_dict := write_predictions fl_sum (zlen xs) dg (mi_dict s) |}, Ok tt)  (* 128-132 *)
      end
  end.

(** [sorted(range(len(ds)), key=lambda i: ds[i])], line 212: Python's sort is
    stable; insertion sort by key. *)
Fixpoint insert_by (key : nat -> R) (i : nat) (l : list nat) : list nat :=
  match l with
  | [] => [i]
  | j :: l' => if Rltb (key j) (key i) then j :: insert_by key i l'
               else i :: l
  end.
Definition sorted_indices (ds : list R) : list nat :=
  fold_right (insert_by (fun i => nth i ds 0%R)) [] (seq 0 (length ds)).

(** Body of the loop over points, lines 200-226. *)
Definition slow_term (dx dy : list R) (k : Z) : fl :=
  let dz := maximum dx dy in                               (* 210 *)
  let closest := sorted_indices dz in                      (* 212 *)
  let kth := nth (Z.to_nat k) closest 0%nat in             (* 218 *)
  let distance := nth kth dz 0%R in                        (* 219 *)
  let nx := count_less dx distance - 1 in                  (* 222 *)
  let ny := count_less dy distance - 1 in                  (* 223 *)
  fl_add (digamma (nx + 1)) (digamma (ny + 1)).            (* 225 *)

Definition slow_point (p : ksg_params) (xs ys : matrix) (d : zdict (list fl)) (i : nat)
  : zdict (list fl) :=
  let dx := distances_from (metric_x p) xs (nth i xs []) in (* 202-204 *)
  let dy := distances_from (metric_y p) ys (nth i ys []) in (* 205-207 *)
  fold_left (fun d k => dict_append d k (slow_term dx dy k)) (neighborhoods p) d. (* 214-226 *)

(** [np.mean] of a list, line 229. *)
Definition fl_mean (l : list fl) : fl := fl_divp (fl_sum l) (INR (length l)).

(** KSGEnsembleFirstEstimatorSlow.fit, ksg.py 188-232. *)
Definition slow_fit (s : ksg_state) (x y : matrix) : ksg_state * result unit :=
  let p := params s in
  match product_space_values (standardize p) x y with                   (* 189 *)
  | Err e => (s, Err e)
  | Ok (xs, ys) =>
    if zlen xs <=? zmax_list (neighborhoods p) then (s, Err ValueError) (* 192-196 *)
    else
      let dg := fold_left (slow_point p xs ys) (seq 0 (length xs))
                          (empty_dict (neighborhoods p)) in             (* 198-226 *)
      ({| params := p; chunk_size := chunk_size s; fitted := true;      (* 232 *)
          mi_dict := write_predictions fl_mean (zlen xs) dg (mi_dict s) |}, Ok tt) (* 228-230 *)
  end.
End Fit.

(** get_predictions, ksg.py 136-139 and 234-237 ([copy()]: a new dictionary). *)
Definition get_predictions (s : ksg_state) : result (zdict fl) :=
  if fitted s then Ok (mi_dict s) else Err NotFitted.

(** estimate, ksg.py 141-144 and 239-242: fit, then the mean of the predictions. *)
Definition estimate_with (fit : ksg_state -> matrix -> matrix -> ksg_state * result unit)
    (s : ksg_state) (x y : matrix) : ksg_state * result fl :=
  match fit s x y with
  | (s', Err e) => (s', Err e)
  | (s', Ok _) => (s', do d <- get_predictions s';
                       Ok (fl_divp (fl_sum (dict_values d)) (INR (length d))))
  end.

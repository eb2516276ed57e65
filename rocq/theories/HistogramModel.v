(** Model of [src/bmi/estimators/_histogram.py]. *)
From Verif Require Import Base UtilsModel.
Open Scope R_scope.

(** ** HistogramEstimator.__init__: _histogram.py 18-38.
    [n_bins_y or n_bins_x] (36): Python's [or] also replaces the value 0.
    pydantic's PositiveInt (19-20) refuses values below 1. *)
Record hist_params := { hp_bins_x : nat; hp_bins_y : nat; hp_standardize : bool }.

Definition hist_init (n_bins_x : Z) (n_bins_y : option Z) (standardize : bool)
  : result hist_params :=
  let by_ := match n_bins_y with
             | Some b => if Z.eqb b 0 then n_bins_x else b
             | None => n_bins_x
             end in                                                    (* 36 *)
  if (n_bins_x <=? 0)%Z || (by_ <=? 0)%Z then Err ValidationError      (* 19-20 *)
  else Ok {| hp_bins_x := Z.to_nat n_bins_x; hp_bins_y := Z.to_nat by_;
             hp_standardize := standardize |}.

(** ** np.histogramdd(sample, bins, density=False), called on line 51.
    Written out from NumPy's documented algorithm: the outer edges of a
    coordinate are its extremes (moved apart by 1/2 each when they coincide, and
    (0, 1) without data) ... *)
Definition outer_edges (l : list R) : R * R :=
  match l with
  | [] => (0, 1)
  | v :: t =>
      let lo := fold_left Rmin t v in
      let hi := fold_left Rmax t v in
      if Req_EM_T lo hi then (lo - 1 / 2, hi + 1 / 2) else (lo, hi)
  end.

(** ... the edges are [np.linspace(lo, hi, n + 1)], whose last entry is exactly [hi] ... *)
Definition linspace (lo hi : R) (n : nat) : list R :=
  map (fun i => lo + INR i * ((hi - lo) / INR n)) (seq 0 n) ++ [hi].

(** ... a value gets the index [np.searchsorted(edges, v, side='right')], one less
    when it sits on the last edge ... *)
Definition searchsorted_right (edges : list R) (v : R) : nat :=
  length (filter (fun e => Rleb e v) edges).
Definition raw_index (edges : list R) (v : R) : nat :=
  let c := searchsorted_right edges v in
  if Req_EM_T v (last edges 0) then (c - 1)%nat else c.

Definition edges_of (sample : matrix) (bins : list nat) (j : nat) : list R :=
  let '(lo, hi) := outer_edges (column sample j) in linspace lo hi (nth j bins O).

(** ... and the histogram counts the rows by index vector; the first and last
    index along each dimension (outliers) are cut off, so that entry [idx] counts
    the rows with raw indices [idx + 1]. *)
Definition row_indices (sample : matrix) (bins : list nat) (row : list R) : list nat :=
  map (fun j => raw_index (edges_of sample bins j) (nth j row 0)) (seq 0 (length bins)).
Definition histogramdd (sample : matrix) (bins : list nat) (idx : list nat) : R :=
  INR (length (filter (fun row =>
         if list_eq_dec Nat.eq_dec (row_indices sample bins row) (map S idx)
         then true else false) sample)).

(** [itertools.product(range(n), repeat=d)] (lines 56-57): lexicographic order. *)
Fixpoint product_range (n d : nat) : list (list nat) :=
  match d with
  | O => [[]]
  | S d' => flat_map (fun i => map (cons i) (product_range n d')) (seq 0 n)
  end.

(** ** HistogramEstimator.estimate: _histogram.py 43-79.
    Simplification: exact reals instead of floats.  (With no rows, p_xy is NaN in
    NumPy and 0 here; either way line 76 is never satisfied.) *)
Definition hist_loop (range_x range_y : nat) (p_xy : matrix) (p_x p_y : list R) : R :=
  fold_left (fun mi i =>                                               (* 74 *)
    fold_left (fun mi j =>                                             (* 75 *)
      let p := nth j (nth i p_xy []) 0 in
      if Rltb 0 p                                                      (* 76 *)
      then mi + p * (ln p - ln (nth i p_x 0) - ln (nth j p_y 0))       (* 77 *)
      else mi) (seq 0 range_y) mi) (seq 0 range_x) 0.

Definition hist_estimate (par : hist_params) (x y : matrix) : result R :=
  do (sx, sy) <- product_space_values (hp_standardize par) x y;        (* 48 *)
  let nx := hp_bins_x par in                                           (* 45 *)
  let ny := hp_bins_y par in                                           (* 46 *)
  let dx := ncols sx in
  let dy := ncols sy in
  let bins := (repeat nx dx ++ repeat ny dy)%list in                   (* 49 *)
  let histogram := histogramdd (hstack sx sy) bins in                  (* 51 *)
  let range_x := (nx ^ dx)%nat in                                      (* 52 *)
  let range_y := (ny ^ dy)%nat in                                      (* 53 *)
  let flat_histogram :=                                                (* 55-59 *)
    map (fun ix => map (fun iy => histogram (ix ++ iy)%list) (product_range ny dy))
        (product_range nx dx) in
  let total := rsum (map rsum flat_histogram) in
  let p_xy := map (map (fun c => c / total)) flat_histogram in         (* 64 *)
  let p_x := map rsum p_xy in                                          (* 66 *)
  let p_y := map (fun j => rsum (map (fun row => nth j row 0) p_xy)) (seq 0 range_y) in (* 67 *)
  if (length p_x =? range_x)%nat && (length p_y =? range_y)%nat        (* 69-70 *)
  then Ok (hist_loop range_x range_y p_xy p_x p_y)                     (* 73-79 *)
  else Err AssertionError.

(** Property theorems about [src/bmi/utils.py]: C01-C05. *)
From Coq Require Import Ascii String.
From Verif Require Import Base UtilsModel UtilsSpec UtilsProofs CsvProofs.
Open Scope Z_scope.

(** C01: the slices of [chunker] cut any sequence into consecutive pieces. *)
Theorem C01_chunker_partition :
  forall (A : Type) (X : list A) (chunk_size : Z),
  X <> [] -> 0 < chunk_size ->
  exists slices, chunker (zlen X) chunk_size = Ok slices /\
    List.concat (map (fun s => py_slice X (fst s) (snd s)) slices) = X /\
    Forall (fun s => 1 <= zlen (py_slice X (fst s) (snd s)) <= chunk_size) slices /\
    Forall (fun s => zlen (py_slice X (fst s) (snd s)) = chunk_size) (removelast slices) /\
    (zlen slices - 1) * chunk_size < zlen X <= zlen slices * chunk_size.
Proof. exact @chunker_partition. Qed.
Print Assumptions C01_chunker_partition.

Theorem C01_chunker_error :
  forall n_items chunk_size : Z,
  (n_items <= 0 \/ chunk_size <= 0 -> chunker n_items chunk_size = Err ValueError) /\
  (0 < n_items -> 0 < chunk_size -> exists slices, chunker n_items chunk_size = Ok slices).
Proof. exact chunker_error_iff. Qed.
Print Assumptions C01_chunker_error.

Example C01_example :
  chunker 4 3 = Ok [(0, 3); (3, 4)] /\ py_slice ["a"; "b"; "c"; "d"]%string 3 4 = ["d"]%string.
Proof. split; reflexivity. Qed.

(** C02: what save_sample writes, read_sample reads back.  [show] prints a number
    into a CSV cell, [parse] reads a cell; they are only assumed to be inverse to
    each other on the numbers stored ([good]) and not to produce separators. *)
Theorem C02_csv_round_trip :
  forall (show : R -> string) (parse : string -> option R) (good : R -> Prop),
  (forall r, good r -> parse (show r) = Some r) ->
  (forall r, good r -> contains_char comma (show r) = false /\ contains_char newline (show r) = false) ->
  forall (dim_x dim_y : nat) (xs ys : matrix) (text : string),
  (0 < dim_x + dim_y)%nat -> rectangular dim_x xs -> rectangular dim_y ys ->
  all_entries good xs -> all_entries good ys ->
  save_sample show (Arr2 dim_x xs) (Arr2 dim_y ys) = Ok text ->
  read_sample parse text = Ok (xs, ys) /\ read_sample_dims text = (dim_x, dim_y).
Proof. exact sample_round_trip. Qed.
Print Assumptions C02_csv_round_trip.

Theorem C02_save_accepts :
  forall (show : R -> string) (a b : ndarray),
  (exists text, save_sample show a b = Ok text) <->
  (exists dim_x xs dim_y ys, a = Arr2 dim_x xs /\ b = Arr2 dim_y ys /\ List.length xs = List.length ys).
Proof. exact save_sample_accepts. Qed.
Print Assumptions C02_save_accepts.

Example C02_example :
  let show := fun r => if Req_EM_T r 0 then "0.0"%string else "1.0"%string in
  let parse := fun s => if String.eqb s "0.0" then Some 0%R
                        else if String.eqb s "1.0" then Some 1%R else None in
  let good := fun r => r = 0%R \/ r = 1%R in
  (forall r, good r -> parse (show r) = Some r) /\
  (forall r, good r -> contains_char comma (show r) = false /\ contains_char newline (show r) = false) /\
  exists text, save_sample show (Arr2 1 [[0%R]; [1%R]]) (Arr2 2 [[1; 1]; [0; 1]]%R) = Ok text /\
               csv_header text = ["X0"; "Y0"; "Y1"]%string.
Proof.
  cbv zeta. split; [|split].
  - intros r [->| ->]; destruct (Req_EM_T _ _) as [E|E]; try reflexivity; exfalso; lra.
  - intros r _. destruct (Req_EM_T r 0); split; reflexivity.
  - eexists. split; [reflexivity|]. cbn.
    repeat (match goal with |- context [Req_EM_T ?a ?b] => destruct (Req_EM_T a b) end; cbn);
      try reflexivity; exfalso; lra.
Qed.

(** Outside files written by save_sample the check of read_sample does not
    guarantee that each column is used exactly once: a header "XY,Z" passes it,
    and the first column is returned both as x and as y. *)
Theorem C02_read_check_refuted :
  exists (text : string), forall (parse : string -> option R) (v w : R),
  parse "1"%string = Some v -> parse "2"%string = Some w ->
  csv_header text = ["XY"; "Z"]%string /\ read_sample parse text = Ok ([[v]], [[v]]).
Proof. exact read_check_refuted. Qed.
Print Assumptions C02_read_check_refuted.

(** C03: standardization. *)
Theorem C03_standardized_columns :
  forall (d : nat) (m : matrix) (j : nat),
  rectangular d m -> m <> [] -> (j < d)%nat ->
  exists out, standard_scaler m = Ok out /\
    List.length out = List.length m /\ rectangular d out /\
    rsum (coords out j) = 0%R /\
    (~ all_equal (coords m j) -> rsum (map (fun v => (v * v)%R) (coords out j)) = INR (List.length m)) /\
    (all_equal (coords m j) -> Forall (fun v => v = 0%R) (coords out j)) /\
    (exists a b, (0 < a)%R /\ coords out j = map (fun v => (a * v + b)%R) (coords m j)).
Proof. exact standardized_columns_full. Qed.
Print Assumptions C03_standardized_columns.

Example C03_example :
  rectangular 2 [[1; 5]; [3; 5]]%R /\ ~ all_equal (coords [[1; 5]; [3; 5]]%R 0) /\
  all_equal (coords [[1; 5]; [3; 5]]%R 1).
Proof.
  split; [repeat constructor|split].
  - intros H. assert (1 = 3)%R by (apply H; simpl; auto). lra.
  - intros v w Hv Hw. simpl in Hv, Hw. intuition congruence.
Qed.

(** The constructor copies its arguments: arrays the caller holds ([q] ranges over
    all of them) are untouched, the stored arrays are new ones, and they hold the
    (standardized) data.  Errors are reported exactly when lengths differ or the
    scaler refuses the data. *)
Theorem C03_constructor_copies :
  forall (standardize : bool) (h : heap) (x y : ref),
  (x < List.length h)%nat -> (y < List.length h)%nat ->
  let '(h', r) := product_space_init standardize h x y in
  (forall q, (q < List.length h)%nat -> heap_read h' q = heap_read h q) /\
  match r with
  | Ok s => (List.length h <= ps_x s < List.length h')%nat /\ (List.length h <= ps_y s < List.length h')%nat /\
            ps_x s <> ps_y s /\
            product_space_values standardize (heap_read h x) (heap_read h y)
            = Ok (heap_read h' (ps_x s), heap_read h' (ps_y s))
  | Err e => product_space_values standardize (heap_read h x) (heap_read h y) = Err e
  end.
Proof. exact product_space_init_spec. Qed.
Print Assumptions C03_constructor_copies.

(** What the stored arrays are: the data, or its columns standardized; ValueError
    exactly for different numbers of points (for data with at least one point and
    at least one coordinate per variable). *)
Theorem C03_constructor_values :
  forall (standardize : bool) (dx dy : nat) (x y : matrix),
  rectangular dx x -> rectangular dy y -> (0 < dx)%nat -> (0 < dy)%nat -> x <> [] ->
  (List.length x <> List.length y -> product_space_values standardize x y = Err ValueError) /\
  (List.length x = List.length y ->
     exists x' y', product_space_values standardize x y = Ok (x', y') /\
       (standardize = false -> x' = x /\ y' = y) /\
       (standardize = true -> standard_scaler x = Ok x' /\ standard_scaler y = Ok y')).
Proof. exact product_space_values_spec. Qed.
Print Assumptions C03_constructor_values.

Example C03_constructor_example :
  exists s, product_space_init false [[[1%R]]; [[2%R]]] 0%nat 1%nat =
            ([[[1%R]]; [[2%R]]; [[1%R]]; [[2%R]]], Ok s) /\ ps_x s = 2%nat /\ ps_y s = 3%nat.
Proof. eexists. split; reflexivity || (split; reflexivity). Qed.

(** C04: indexing the space is indexing the concatenated array. *)
Theorem C04_getitem_is_xy :
  forall (h : heap) (s : product_space) (dx dy : nat),
  let x := heap_read h (ps_x s) in
  let y := heap_read h (ps_y s) in
  List.length x = List.length y -> rectangular dx x -> rectangular dy y ->
  List.length (space_xy h s) = List.length x /\
  space_len h s = zlen x /\
  rectangular (dx + dy) (space_xy h s) /\
  (forall i r1 r2, nth_error x i = Some r1 -> nth_error y i = Some r2 ->
     nth_error (space_xy h s) i = Some (r1 ++ r2)) /\
  (forall i, space_getitem_int h s i = py_index (space_xy h s) i) /\
  (forall a b, space_getitem_slice h s a b = py_slice (space_xy h s) a b).
Proof. exact getitem_spec. Qed.
Print Assumptions C04_getitem_is_xy.

Example C04_example :
  let h := [[[1]; [2]]%R; [[3; 4]; [5; 6]]%R] in
  let s := {| ps_x := 0%nat; ps_y := 1%nat |} in
  space_getitem_int h s (-1) = Ok [2; 5; 6]%R /\ space_getitem_int h s 2 = Err IndexError /\
  space_getitem_slice h s (-1) 7 = [[2; 5; 6]]%R.
Proof. split; [reflexivity|]. split; reflexivity. Qed.

(** C05: standardized data do not depend on the units of measurement. *)
Theorem C05_units_do_not_matter :
  forall (d : nat) (a b : nat -> R) (m : matrix),
  rectangular d m -> m <> [] -> (0 < d)%nat -> (forall j, (j < d)%nat -> (0 < a j)%R) ->
  standard_scaler (affine_rows a b m) = standard_scaler m.
Proof. exact units_do_not_matter. Qed.
Print Assumptions C05_units_do_not_matter.

Theorem C05_product_space_units :
  forall (dx dy : nat) (a b a' b' : nat -> R) (x y : matrix),
  rectangular dx x -> rectangular dy y -> x <> [] -> y <> [] -> (0 < dx)%nat -> (0 < dy)%nat ->
  (forall j, (j < dx)%nat -> (0 < a j)%R) -> (forall j, (j < dy)%nat -> (0 < a' j)%R) ->
  product_space_values true (affine_rows a b x) (affine_rows a' b' y) = product_space_values true x y.
Proof. exact product_space_units. Qed.
Print Assumptions C05_product_space_units.

Example C05_example :
  affine_rows (fun _ => 2%R) (fun j => INR j) [[1; 1]; [0; 3]]%R = [[2 * 1 + 0; 2 * 1 + 1]; [2 * 0 + 0; 2 * 3 + 1]]%R /\
  (forall j : nat, (j < 2)%nat -> (0 < 2)%R).
Proof. split; [reflexivity|intros; lra]. Qed.

(** C71: add_noise adds the generated noise, entry by entry, and keeps the shape. *)
Theorem C71_add_noise :
  forall (noise : Z -> R -> nat -> nat -> matrix) (d : nat) (points : matrix) (std : R) (seed : Z),
  rectangular d points -> points <> [] ->
  List.length (noise seed std (List.length points) d) = List.length points -> rectangular d (noise seed std (List.length points) d) ->
  let out := add_noise noise points std seed in
  List.length out = List.length points /\ rectangular d out /\
  forall i j, (i < List.length points)%nat -> (j < d)%nat ->
    (nth j (nth i out []) 0 = nth j (nth i points []) 0 + nth j (nth i (noise seed std (List.length points) d) []) 0)%R.
Proof. exact add_noise_spec. Qed.
Print Assumptions C71_add_noise.

Example C71_example :
  let noise (seed : Z) (std : R) (n d : nat) := repeat (map (fun j => (std * INR j)%R) (seq 0 d)) n in
  nth 1 (nth 1 (add_noise noise [[5; 6]; [7; 8]]%R 3 42) []) 0%R = (8 + 3 * 1)%R.
Proof.
  intros noise. rewrite (proj2 (proj2 (C71_add_noise noise 2 [[5; 6]; [7; 8]]%R 3 42 ltac:(repeat constructor) ltac:(discriminate)
    eq_refl ltac:(repeat constructor))) 1%nat 1%nat) by (cbn; lia). reflexivity.
Qed.

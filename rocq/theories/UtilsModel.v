(** Model of [src/bmi/utils.py]. *)
From Coq Require Import Ascii String.
From Verif Require Import Base.
Open Scope Z_scope.

(** ** chunker: utils.py 150-178.
    The generator is modelled as the list of the slices it yields; the check of
    lines 173-174 runs when the generator is first advanced, i.e. before any
    slice is produced, hence an error instead of a list. *)
Definition chunker (n_items chunk_size : Z) : result (list (Z * Z)) :=
  if (n_items <=? 0) || (chunk_size <=? 0) then Err ValueError   (* 173-174 *)
  else Ok (map (fun start => (start, Z.min n_items (start + chunk_size)))  (* 177-178 *)
               (py_range 0 n_items chunk_size)).                           (* 176 *)

(** ** 2-D arrays: a list of rows (utils.py uses NumPy arrays of shape
    (n_points, dim)).  Simplification: floats are exact reals. *)
Definition matrix := list (list R).

(** [np.hstack([a, b])] of two 2-D arrays with equally many rows. *)
Definition hstack (a b : matrix) : matrix :=
  map (fun p => (fst p ++ snd p)%list) (combine a b).

(** ** StandardScaler(copy=False).fit_transform, called on utils.py 115-116.
    sklearn subtracts the column mean and divides by the column's population
    standard deviation, replaced by 1 where it is zero (constant column).
    sklearn refuses an array without rows or without columns (ValueError).
    Simplification: the tolerance sklearn uses to decide that a variance is
    zero is a rounding matter and is not modelled. *)
Definition column (m : matrix) (j : nat) : list R := map (fun row => nth j row 0%R) m.

Definition variance (l : list R) : R :=
  rmean (map (fun v => ((v - rmean l) * (v - rmean l))%R) l).

Definition column_scale (l : list R) : R :=
  if Req_EM_T (variance l) 0 then 1%R else sqrt (variance l).

Definition ncols (m : matrix) : nat := List.length (hd [] m).

Definition scaler_transform (m : matrix) : matrix :=
  map (fun row =>
         map (fun j => ((nth j row 0 - rmean (column m j)) / column_scale (column m j))%R)
             (seq 0 (ncols m))) m.

Definition standard_scaler (m : matrix) : result matrix :=
  match m with
  | [] => Err ValueError
  | row :: _ => match row with [] => Err ValueError | _ => Ok (scaler_transform m) end
  end.

(** ** ProductSpace.__init__: utils.py 109-119.
    Arrays live in a heap so that copying ([np.array], line 110) and writing in
    place ([copy=False], lines 115-116) can be told apart.  A reference is the
    position of the array in the heap. *)
Definition heap := list matrix.
Definition ref := nat.

Definition heap_read (h : heap) (r : ref) : matrix := nth r h [].

(** [np.array(x)]: allocate a copy. *)
Definition np_array (h : heap) (r : ref) : heap * ref :=
  (h ++ [heap_read h r], List.length h).

Fixpoint heap_write (h : heap) (r : ref) (m : matrix) : heap :=
  match h, r with
  | [], _ => []
  | _ :: t, O => m :: t
  | a :: t, S r' => a :: heap_write t r' m
  end.

(** [StandardScaler(copy=False).fit_transform(a)]: the result is the same array,
    overwritten. *)
Definition fit_transform_inplace (h : heap) (r : ref) : heap * result ref :=
  match standard_scaler (heap_read h r) with
  | Ok m => (heap_write h r m, Ok r)
  | Err e => (h, Err e)
  end.

Record product_space := { ps_x : ref; ps_y : ref }.

Definition product_space_init (standardize : bool) (h : heap) (x y : ref)
  : heap * result product_space :=
  let '(h1, x1) := np_array h x in                                     (* 110 *)
  let '(h2, y1) := np_array h1 y in                                    (* 110 *)
  if negb (List.length (heap_read h2 x1) =? List.length (heap_read h2 y1))%nat
  then (h2, Err ValueError)                                            (* 112-113 *)
  else if standardize then                                             (* 114 *)
    match fit_transform_inplace h2 x1 with                             (* 115 *)
    | (h3, Err e) => (h3, Err e)
    | (h3, Ok x2) =>
        match fit_transform_inplace h3 y1 with                         (* 116 *)
        | (h4, Err e) => (h4, Err e)
        | (h4, Ok y2) => (h4, Ok {| ps_x := x2; ps_y := y2 |})         (* 118-119 *)
        end
    end
  else (h2, Ok {| ps_x := x1; ps_y := y1 |}).                          (* 118-119 *)

(** The same constructor on values, used by the estimators' models (they only
    look at the arrays, never at aliasing); utils.py 109-119. *)
Definition product_space_values (standardize : bool) (x y : matrix)
  : result (matrix * matrix) :=
  if negb (List.length x =? List.length y)%nat then Err ValueError
  else if standardize then
    do x' <- standard_scaler x; do y' <- standard_scaler y; Ok (x', y')
  else Ok (x, y).

(** ProductSpace.__len__, utils.py 121-122. *)
Definition space_len (h : heap) (s : product_space) : Z := zlen (heap_read h (ps_x s)).
(** ProductSpace.dim_x / dim_y, utils.py 124-130. *)
Definition space_dim_x (h : heap) (s : product_space) : nat := ncols (heap_read h (ps_x s)).
Definition space_dim_y (h : heap) (s : product_space) : nat := ncols (heap_read h (ps_y s)).
(** ProductSpace.xy, utils.py 140-142. *)
Definition space_xy (h : heap) (s : product_space) : matrix :=
  hstack (heap_read h (ps_x s)) (heap_read h (ps_y s)).

(** ProductSpace.__getitem__, utils.py 144-147: an integer selects one point
    ([np.hstack] of two 1-D arrays concatenates them) ... *)
Definition space_getitem_int (h : heap) (s : product_space) (i : Z) : result (list R) :=
  do a <- py_index (heap_read h (ps_x s)) i;
  do b <- py_index (heap_read h (ps_y s)) i;
  Ok (a ++ b)%list.
(** ... and a slice selects rows. *)
Definition space_getitem_slice (h : heap) (s : product_space) (a b : Z) : matrix :=
  hstack (py_slice (heap_read h (ps_x s)) a b) (py_slice (heap_read h (ps_y s)) a b).

(** ** add_noise: utils.py 19-31.
    [noise] stands for [np.random.default_rng(rng_key).normal(scale, size)]: a
    function of the seed, the scale and the shape. *)
Definition add_noise (noise : Z -> R -> nat -> nat -> matrix)
    (points : matrix) (noise_std : R) (rng_key : Z) : matrix :=
  map (fun p => map (fun q => (fst q + snd q)%R) (combine (fst p) (snd p)))
      (combine points (noise rng_key noise_std (List.length points) (ncols points))).

(** ** save_sample / read_sample / read_sample_dims: utils.py 34-79.
    Files are modelled as text. *)

(** A NumPy array argument: its [shape] and, when it is 2-D, its rows. *)
Inductive ndarray :=
| Arr2 (cols : nat) (rows : matrix)     (* shape (len rows, cols) *)
| ArrOther.                             (* any other number of dimensions *)

(** Python's [str(i)] for i >= 0. *)
Definition digit (d : nat) : ascii := ascii_of_nat (48 + d).
Fixpoint decimal_aux (fuel n : nat) (acc : string) : string :=
  match fuel with
  | O => acc
  | S f => let acc' := String (digit (n mod 10)) acc in
           if (n / 10 =? 0)%nat then acc' else decimal_aux f (n / 10) acc'
  end.
Definition decimal (n : nat) : string := decimal_aux (S n) n EmptyString.

Definition comma : ascii := ","%char.
Definition newline : ascii := ascii_of_nat 10.

(** [sep.join(parts)]. *)
Fixpoint join (sep : ascii) (parts : list string) : string :=
  match parts with
  | [] => EmptyString
  | [p] => p
  | p :: ps => (p ++ String sep (join sep ps))%string
  end.

(** Text split at every occurrence of a separator. *)
Fixpoint split_on (sep : ascii) (s : string) : list string :=
  match s with
  | EmptyString => [EmptyString]
  | String c s' =>
      if Ascii.eqb c sep then EmptyString :: split_on sep s'
      else match split_on sep s' with
           | [] => [String c EmptyString]
           | p :: ps => String c p :: ps
           end
  end.

(** [data.to_csv(path, index=False)]: the header line, then one line per row,
    each line terminated; cells are printed by [show]. *)
Definition terminate (line : string) : string := (line ++ String newline EmptyString)%string.
Definition to_csv (show : R -> string) (columns : list string) (rows : matrix) : string :=
  String.concat EmptyString
    (terminate (join comma columns)
     :: map (fun row => terminate (join comma (map show row))) rows).

(** [pd.read_csv(path)]: split into lines (the text after the last newline is
    empty), the first one is the header; cells are parsed by [parse].
    Simplifications: no quoting, no blank lines, no NaN, no renaming of
    duplicated column names (none of which save_sample produces). *)
Fixpoint parse_row (parse : string -> option R) (cells : list string) : option (list R) :=
  match cells with
  | [] => Some []
  | c :: cs => match parse c, parse_row parse cs with
               | Some v, Some vs => Some (v :: vs)
               | _, _ => None
               end
  end.
Fixpoint parse_rows (parse : string -> option R) (lines : list string) : option matrix :=
  match lines with
  | [] => Some []
  | l :: ls => match parse_row parse (split_on comma l), parse_rows parse ls with
               | Some v, Some vs => Some (v :: vs)
               | _, _ => None
               end
  end.
Definition csv_lines (text : string) : list string := removelast (split_on newline text).
Definition csv_header (text : string) : list string :=
  match csv_lines text with [] => [] | h :: _ => split_on comma h end.
Definition read_csv (parse : string -> option R) (text : string)
  : result (list string * matrix) :=
  match csv_lines text with
  | [] => Err OtherError                                     (* EmptyDataError *)
  | h :: ls => match parse_rows parse ls with
               | Some rows => Ok (split_on comma h, rows)
               | None => Err OtherError
               end
  end.

(** save_sample, utils.py 34-49. *)
Definition sample_columns (dim_x dim_y : nat) : list string :=       (* 47 *)
  map (fun i => String "X" (decimal i)) (seq 0 dim_x)
  ++ map (fun i => String "Y" (decimal i)) (seq 0 dim_y).

Definition save_sample (show : R -> string) (samples_x samples_y : ndarray) : result string :=
  match samples_x, samples_y with
  | Arr2 dim_x xs, Arr2 dim_y ys =>                                  (* 38-39 *)
      if (List.length xs =? List.length ys)%nat then                 (* 40 *)
        Ok (to_csv show (sample_columns dim_x dim_y) (hstack xs ys)) (* 42-49 *)
      else Err AssertionError
  | _, _ => Err AssertionError
  end.

(** ["X" in col]. *)
Fixpoint contains_char (c : ascii) (s : string) : bool :=
  match s with
  | EmptyString => false
  | String d s' => Ascii.eqb c d || contains_char c s'
  end.

(** [data[cols]]: for each name in turn, the cells standing under that name. *)
Definition cells_under (columns : list string) (name : string) (row : list R) : list R :=
  map snd (filter (fun p => String.eqb (fst p) name) (combine columns row)).
Definition select_columns (columns : list string) (rows : matrix) (names : list string) : matrix :=
  map (fun row => flat_map (fun name => cells_under columns name row) names) rows.

(** read_sample, utils.py 52-67. *)
Definition read_sample (parse : string -> option R) (text : string) : result (matrix * matrix) :=
  do (columns, rows) <- read_csv parse text;                         (* 53 *)
  let cols_x := filter (contains_char "X") columns in                (* 55 *)
  let cols_y := filter (contains_char "Y") columns in                (* 56 *)
  if (List.length cols_x + List.length cols_y =? List.length columns)%nat  (* 58-61 *)
  then Ok (select_columns columns rows cols_x, select_columns columns rows cols_y) (* 64-67 *)
  else Err AssertionError.

(** read_sample_dims, utils.py 70-79 ([nrows=0]: only the header is read). *)
Definition read_sample_dims (text : string) : nat * nat :=
  let columns := csv_header text in
  (List.length (filter (contains_char "X") columns),
   List.length (filter (contains_char "Y") columns)).

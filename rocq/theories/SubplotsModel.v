(** Model of [src/bmi/plot_utils/subplots_from_axsize.py].

    Sizes are exact reals.  A figure is its size and its axes; an axes is the rectangle
    at which its locator places it.  Drawing is not modelled. *)
From Verif Require Import Base.
Open Scope Z_scope.
Local Notation length := List.length.

(** A size argument: a number or an iterable of numbers. *)
Inductive sizes_arg := OneSize (s : R) | ManySizes (l : list R).

(** _normalize_axsizes_and_axcounts, 19-34. *)
Definition normalize_sizes (axs : sizes_arg) (axc : option Z) : result (list R * Z) :=
  match axs with
  | ManySizes l =>                                                       (* 21-22 *)
      match axc with
      | None => Ok (l, zlen l)                                           (* 23-24 *)
      | Some c => if c =? zlen l then Ok (l, c) else Err AssertionError  (* 26 *)
      end
  | OneSize s =>
      let c := match axc with None => 1 | Some c => c end in             (* 30-31 *)
      Ok (map (fun _ => s) (py_range 0 c 1), c)                          (* 32 *)
  end.

(** _make_sizes, 37-44; [Size.Fixed(length)] is represented by its length. *)
Definition make_sizes (start : R) (axs : list R) (end_ : R) (spaces : list R) : result (list R * R) :=
  if zlen spaces =? zlen axs - 1 then                                    (* 38-39 *)
    do last <- py_index axs (-1);                                        (* 41 *)
    let lengths := start :: flat_map (fun p => [fst p; snd p]) (combine axs spaces) ++ [last; end_] in
    Ok (lengths, rsum lengths)                                           (* 42, 44 *)
  else Err AssertionError.

(** A rectangle in fractions of the figure, measured from the bottom left corner. *)
Record axes := { ax_x : R; ax_y : R; ax_w : R; ax_h : R }.

(** [np.cumsum([0, *sizes])] (Divider._calc_offsets for fixed sizes). *)
Fixpoint offsets_from (a : R) (sizes : list R) : list R :=
  a :: match sizes with [] => [] | s :: rest => offsets_from (a + s) rest end.

(** mpl_toolkits.axes_grid1.Divider over the whole figure, aspect=False, with fixed sizes
    ([divider], 80), and the rectangle of [new_locator(nx, ny)] (86): the cell [nx] from the
    left and [ny] from the bottom.  Cells out of range are errors. *)
Definition locate (fig_w fig_h : R) (horizontal vertical : list R) (nx ny : Z) : result axes :=
  let ox := offsets_from 0 horizontal in
  let oy := offsets_from 0 vertical in
  do x0 <- py_index ox nx; do x1 <- py_index ox (nx + 1);
  do y0 <- py_index oy ny; do y1 <- py_index oy (ny + 1);
  Ok {| ax_x := x0 / fig_w; ax_y := y0 / fig_h; ax_w := (x1 - x0) / fig_w; ax_h := (y1 - y0) / fig_h |}%R.

Fixpoint results {A} (l : list (result A)) : result (list A) :=
  match l with
  | [] => Ok []
  | r :: l' => do a <- r; do l'' <- results l'; Ok (a :: l'')
  end.

(** What is returned beside the figure: an array with two, one or no axes, or one axes. *)
Inductive returned := Grid (rows : list (list axes)) | Line (l : list axes) | Single (a : axes).

(** [np.squeeze] of an array of shape [(nrows, ncols)], 94-95: dimensions of length 1 vanish. *)
Definition np_squeeze (rows : list (list axes)) : returned :=
  match rows with
  | [[a]] => Single a
  | [row] => Line row
  | _ => if forallb (fun row => (length row =? 1)%nat) rows then Line (concat rows) else Grid rows
  end.
Definition ravel (r : returned) : list axes :=
  match r with Grid rows => concat rows | Line l => l | Single a => [a] end.

Record figure := { fg_w : R; fg_h : R; fg_axes : list (list axes) }.

(** subplots_from_axsize, 47-100. *)
Definition subplots_from_axsize (axx axy : sizes_arg) (nrows ncols : option Z) (top bottom left right : R)
    (hspace wspace : sizes_arg) (squeeze : bool) : result (figure * returned) :=
  do (axx, ncols) <- normalize_sizes axx ncols;                          (* 69 *)
  do (axy, nrows) <- normalize_sizes axy nrows;                          (* 70 *)
  do (hs, _) <- normalize_sizes hspace (Some (nrows - 1));               (* 72 *)
  do (ws, _) <- normalize_sizes wspace (Some (ncols - 1));               (* 73 *)
  do (w_sizes, total_w) <- make_sizes left axx right ws;                 (* 75 *)
  do (h_sizes, total_h) <- make_sizes top axy bottom hs;                 (* 76 *)
  do axs <- results (map (fun row => results (map (fun col =>            (* 80-92 *)
      locate total_w total_h w_sizes (rev h_sizes) (2 * col + 1) (2 * row + 1)) (py_range 0 ncols 1)))
    (rev (py_range 0 nrows 1)));
  let fig := {| fg_w := total_w; fg_h := total_h; fg_axes := axs |} in   (* 78 *)
  let axs := if squeeze then np_squeeze axs else Grid axs in             (* 94-95 *)
  match ravel axs with                                                   (* 97-100 *)
  | [a] => Ok (fig, Single a)
  | _ => Ok (fig, axs)
  end.

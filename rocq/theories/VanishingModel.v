(** Model of [scripts/Mixtures/plot_appearing_and_vanishing_mi.py]: five densities on a square and the mutual information
    written above them.  Line numbers are of this file.
    Simplifications: exact reals; of a picture the array, the extent, the limits of the colours and the title. *)
From Coq Require Import String.
From Verif Require Import Base UtilsModel CriticsModel.
Open Scope R_scope.

(** What [plot_density] gives to [imshow], 7-14; [origin="lower"] puts the first row at the bottom. *)
Record picture := {
  pc_array : matrix;
  pc_lower : bool;
  pc_extent : R * R * R * R;
  pc_vmin : R;
  pc_vmax : R;
  pc_title : string
}.
(** plot_density, 7-14. *)
Definition plot_density (array : matrix) (title : string) : picture :=
  {| pc_array := array; pc_lower := true; pc_extent := (0, 2, 0, 2); pc_vmin := 0; pc_vmax := 1; pc_title := title |}.

(** [np.meshgrid(x, y)] (21) and an array of booleans computed from it: row [j] and column [i] have [X = x[i]] and [Y = y[j]]. *)
Definition on_grid (xs ys : list R) (f : R -> R -> bool) : list (list bool) := map (fun y => map (fun x => f x y) xs) ys.
(** [a | b] of two arrays. *)
Definition or_masks (a b : list (list bool)) : list (list bool) :=
  map (fun rows => map (fun p => orb (fst p) (snd p)) (combine (fst rows) (snd rows))) (combine a b).
(** [w * mask]; a mask alone is drawn as zeros and ones. *)
Definition weigh (w : R) (a : list (list bool)) : matrix := map (map (fun b : bool => w * (if b then 1 else 0))) a.

(** mask1, 27. *)
Definition mask1 (x y : R) : bool := Rltb 0 x && Rltb x 1 && Rltb 0 y && Rltb y 1.
(** mask2, 32. *)
Definition mask2 (x y : R) : bool := Rltb 1 x && Rltb x 2 && Rltb 1 y && Rltb y 2.
(** mask4, 42. *)
Definition mask4 (x y : R) : bool :=
  orb (Rltb 0 x && Rltb x 1 && Rltb 1 y && Rltb y 2) (Rltb 1 x && Rltb x 2 && Rltb 0 y && Rltb y 1).

(** main, 17-50; [np.linspace] gives 50 numbers. *)
Definition main : result (list picture) :=
  do x <- linspace 0 2 50;                                                          (* 18 *)
  do y <- linspace 0 2 50;                                                          (* 19 *)
  let m1 := on_grid x y mask1 in
  let m2 := on_grid x y mask2 in
  let m3 := or_masks m1 m2 in                                                       (* 37 *)
  let m4 := on_grid x y mask4 in
  Ok [plot_density (weigh 1 m1) "$I=0$";                                            (* 28 *)
      plot_density (weigh 1 m2) "$I=0$";                                            (* 33 *)
      plot_density (weigh (1 / 2) m3) "$I=\log 2$";                                 (* 38 *)
      plot_density (weigh (1 / 2) m4) "$I=\log 2$";                                 (* 43 *)
      plot_density (weigh (1 / 4) (or_masks m3 m4)) "$I=0$"]%string.                (* 47 *)

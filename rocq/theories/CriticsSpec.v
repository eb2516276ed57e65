(** Vocabulary of the statements about grids, critics and integration. *)
From Verif Require Import Base CriticsModel.
Open Scope R_scope.
Local Notation length := List.length.

(** The [i]-th of [n] equally spaced positions from [lo] to [hi] (for a single one the factor [INR i]
    is zero). *)
Definition tick (lo hi : R) (n i : nat) : R := lo + INR i * ((hi - lo) / (INR n - 1)).

(** The table of the values of [f] at these positions; the first index is that of X. *)
Record table_of {V} (g : list (list V)) (n : nat) (f : nat -> nat -> V) : Prop := {
  tab_rows : length g = n;
  tab_cols : Forall (fun row => length row = n) g;
  tab_at : forall i j, (i < n)%nat -> (j < n)%nat -> exists row, nth_error g i = Some row /\ nth_error row j = Some (f i j)
}.

(** [imshow] with origin "lower" divides the extent in equal cells: the [c]-th of [n] cells. *)
Definition in_cell (range : R * R) (n c : nat) (x : R) : Prop :=
  fst range + (snd range - fst range) * (INR c / INR n) <= x <= fst range + (snd range - fst range) * (INR (S c) / INR n).
(** The value [v] is drawn at [(x, y)]: rows of the picture run along Y. *)
Definition drawn_at {V} (p : picture V) (x y : R) (v : V) : Prop :=
  exists xr yr r c row, pic_extent p = Some (xr, yr) /\ nth_error (pic_rows p) r = Some row /\ nth_error row c = Some v /\
    in_cell xr (length row) c x /\ in_cell yr (length (pic_rows p)) r y.

(** Arrays of finite numbers. *)
Definition finite (m : list (list R)) : list (list fl) := map (map Fin) m.
Definition rectangular {V} (m : list (list V)) (rows cols : nat) : Prop :=
  length m = rows /\ Forall (fun r => length r = cols) m.
Definition at_ (m : list (list R)) (i j : nat) : R := nth j (nth i m []) 0.

(** Vocabulary of the statements about grids of axes. *)
From Verif Require Import Base SubplotsModel.
Open Scope Z_scope.
Local Notation length := List.length.

(** The sizes meant by an argument and a number of axes: an iterable is taken as it is and
    has to agree with the number, a number is repeated (once by default). *)
Definition meant (axs : sizes_arg) (count : option Z) (l : list R) : Prop :=
  match axs with
  | ManySizes l' => l = l' /\ (count = None \/ count = Some (Z.of_nat (length l)))
  | OneSize s => l = repeat s (length l) /\ count = match count with None => None | Some _ => Some (Z.of_nat (length l)) end /\
                 (count = None -> length l = 1%nat)
  end.

(** How far the [i]-th axes is from the border: the sizes and gaps before it. *)
Fixpoint before (start : R) (axs spaces : list R) (i : nat) : R :=
  match i with
  | O => start
  | S i' => before start axs spaces i' + nth i' axs 0 + nth i' spaces 0
  end%R.

(** In inches: the distances of the edges of an axes from the left and from the top of the figure. *)
Definition left_edge (f : figure) (a : axes) : R := (ax_x a * fg_w f)%R.
Definition right_edge (f : figure) (a : axes) : R := ((ax_x a + ax_w a) * fg_w f)%R.
Definition top_edge (f : figure) (a : axes) : R := ((1 - (ax_y a + ax_h a)) * fg_h f)%R.
Definition bottom_edge (f : figure) (a : axes) : R := ((1 - ax_y a) * fg_h f)%R.

(** Two axes do not overlap: one is beside or above the other. *)
Definition apart (f : figure) (a b : axes) : Prop :=
  (right_edge f a <= left_edge f b \/ right_edge f b <= left_edge f a \/
   bottom_edge f a <= top_edge f b \/ bottom_edge f b <= top_edge f a)%R.

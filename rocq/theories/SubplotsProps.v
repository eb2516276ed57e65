(** The property C68 (axes of fixed sizes). *)
From Verif Require Import Base BaseLemmas SubplotsModel SubplotsSpec SubplotsProofs SubplotsThms.
Open Scope Z_scope.
Local Notation length := List.length.

(** A figure is made exactly when the arguments mean some sizes, and gaps between them. *)
Theorem C68_accepts :
  forall ax ay nrows ncols top bottom left right hspace wspace squeeze,
  (exists f r, subplots_from_axsize ax ay nrows ncols top bottom left right hspace wspace squeeze = Ok (f, r)) <->
  exists axx ws axy hs, length axx = S (length ws) /\ length axy = S (length hs) /\
    meant ax ncols axx /\ meant ay nrows axy /\
    meant wspace (Some (Z.of_nat (length ws))) ws /\ meant hspace (Some (Z.of_nat (length hs))) hs.
Proof. exact accepts. Qed.
Print Assumptions C68_accepts.

Theorem C68_error :
  forall ax ay nrows ncols top bottom left right hspace wspace squeeze e,
  subplots_from_axsize ax ay nrows ncols top bottom left right hspace wspace squeeze = Err e -> e = AssertionError.
Proof. exact subplots_error. Qed.
Print Assumptions C68_error.

(** The size of the figure, the number of axes, and the position of each of them: rows go
    from top to bottom, and every axes has the size asked for. *)
Theorem C68_layout :
  forall ax ay nrows ncols top bottom left right hspace wspace squeeze axx ws axy hs f r,
  subplots_from_axsize ax ay nrows ncols top bottom left right hspace wspace squeeze = Ok (f, r) ->
  (length axx = S (length ws) /\ length axy = S (length hs) /\ meant ax ncols axx /\ meant ay nrows axy /\
   meant wspace (Some (Z.of_nat (length ws))) ws /\ meant hspace (Some (Z.of_nat (length hs))) hs) ->
  fg_w f = (left + rsum axx + rsum ws + right)%R /\ fg_h f = (top + rsum axy + rsum hs + bottom)%R /\
  length (fg_axes f) = length axy /\ Forall (fun row => length row = length axx) (fg_axes f) /\
  (fg_w f <> 0%R -> fg_h f <> 0%R -> forall i j d, (i < length axy)%nat -> (j < length axx)%nat ->
    let a := nth j (nth i (fg_axes f) []) d in
    left_edge f a = before left axx ws j /\ right_edge f a = (before left axx ws j + nth j axx 0)%R /\
    top_edge f a = before top axy hs i /\ bottom_edge f a = (before top axy hs i + nth i axy 0)%R).
Proof. exact layout. Qed.
Print Assumptions C68_layout.

(** No two axes overlap, and none leaves the figure. *)
Theorem C68_no_overlap :
  forall ax ay nrows ncols top bottom left right hspace wspace squeeze axx ws axy hs f r,
  subplots_from_axsize ax ay nrows ncols top bottom left right hspace wspace squeeze = Ok (f, r) ->
  (length axx = S (length ws) /\ length axy = S (length hs) /\ meant ax ncols axx /\ meant ay nrows axy /\
   meant wspace (Some (Z.of_nat (length ws))) ws /\ meant hspace (Some (Z.of_nat (length hs))) hs) ->
  Forall (fun s => 0 <= s)%R axx -> Forall (fun s => 0 <= s)%R ws ->
  Forall (fun s => 0 <= s)%R axy -> Forall (fun s => 0 <= s)%R hs -> fg_w f <> 0%R -> fg_h f <> 0%R ->
  forall i j i' j' d, (i < length axy)%nat -> (j < length axx)%nat -> (i' < length axy)%nat -> (j' < length axx)%nat ->
  (i, j) <> (i', j') -> apart f (nth j (nth i (fg_axes f) []) d) (nth j' (nth i' (fg_axes f) []) d).
Proof. exact no_overlap. Qed.
Print Assumptions C68_no_overlap.

Theorem C68_inside :
  forall ax ay nrows ncols top bottom left right hspace wspace squeeze axx ws axy hs f r,
  subplots_from_axsize ax ay nrows ncols top bottom left right hspace wspace squeeze = Ok (f, r) ->
  (length axx = S (length ws) /\ length axy = S (length hs) /\ meant ax ncols axx /\ meant ay nrows axy /\
   meant wspace (Some (Z.of_nat (length ws))) ws /\ meant hspace (Some (Z.of_nat (length hs))) hs) ->
  Forall (fun s => 0 <= s)%R axx -> Forall (fun s => 0 <= s)%R ws ->
  Forall (fun s => 0 <= s)%R axy -> Forall (fun s => 0 <= s)%R hs ->
  (0 <= left)%R -> (0 <= right)%R -> (0 <= top)%R -> (0 <= bottom)%R -> fg_w f <> 0%R -> fg_h f <> 0%R ->
  forall i j d, (i < length axy)%nat -> (j < length axx)%nat -> let a := nth j (nth i (fg_axes f) []) d in
  (0 <= left_edge f a /\ right_edge f a <= fg_w f /\ 0 <= top_edge f a /\ bottom_edge f a <= fg_h f)%R.
Proof. exact inside. Qed.
Print Assumptions C68_inside.

(** All axes are returned, row by row, and the shape depends only on the numbers of rows and
    columns ... *)
Theorem C68_all_returned :
  forall ax ay nrows ncols top bottom left right hspace wspace squeeze f r,
  subplots_from_axsize ax ay nrows ncols top bottom left right hspace wspace squeeze = Ok (f, r) ->
  ravel r = concat (fg_axes f).
Proof. exact all_returned. Qed.
Print Assumptions C68_all_returned.

Theorem C68_shape_returned :
  forall ax ay nrows ncols top bottom left right hspace wspace squeeze axx ws axy hs f r,
  subplots_from_axsize ax ay nrows ncols top bottom left right hspace wspace squeeze = Ok (f, r) ->
  (length axx = S (length ws) /\ length axy = S (length hs) /\ meant ax ncols axx /\ meant ay nrows axy /\
   meant wspace (Some (Z.of_nat (length ws))) ws /\ meant hspace (Some (Z.of_nat (length hs))) hs) ->
  match r with
  | Single _ => length axx = 1%nat /\ length axy = 1%nat
  | Line l => squeeze = true /\ (length axx = 1%nat /\ length l = length axy /\ (2 <= length axy)%nat \/
                                length axy = 1%nat /\ length l = length axx /\ (2 <= length axx)%nat)
  | Grid rows => rows = fg_axes f /\ (squeeze = true -> (2 <= length axx)%nat /\ (2 <= length axy)%nat) /\
                 (2 <= length axx * length axy)%nat
  end.
Proof. exact shape_returned. Qed.
Print Assumptions C68_shape_returned.

(** ... but squeeze=False does not always give the array: a single axes is returned bare. *)
Theorem C68_squeeze_false_refuted :
  ~ (forall ax ay nrows ncols top bottom left right hspace wspace f r,
     subplots_from_axsize ax ay nrows ncols top bottom left right hspace wspace false = Ok (f, r) -> r = Grid (fg_axes f)).
Proof. exact squeeze_false_refuted. Qed.
Print Assumptions C68_squeeze_false_refuted.

(** The example of the documentation: [axsize=(3, [2, 1])]; the lower axes is 2.6 inches
    from the top and 1 inch high. *)
Example C68_example :
  exists f r, subplots_from_axsize (OneSize 3) (ManySizes [2; 1]%R) None None (1/10) (1/2) (1/2) (1/10) (OneSize (1/2)) (OneSize (1/2)) true
      = Ok (f, r) /\ fg_w f = (36/10)%R /\ fg_h f = (41/10)%R /\
    exists a b, r = Line [a; b] /\ top_edge f b = (26/10)%R /\ bottom_edge f b = (36/10)%R /\ left_edge f b = (1/2)%R /\ right_edge f b = (35/10)%R.
Proof.
  assert (M1 : meant (OneSize 3) None [3%R]) by (repeat split).
  assert (M2 : meant (ManySizes [2; 1]%R) None [2; 1]%R) by (split; auto).
  assert (M3 : meant (OneSize (1/2)) (Some 0) []) by (cbn; repeat split; discriminate).
  assert (M4 : meant (OneSize (1/2)) (Some 1) [(1/2)%R]) by (cbn; repeat split; discriminate).
  assert (E := subplots_complete (OneSize 3) (ManySizes [2; 1]%R) None None (1/10) (1/2) (1/2) (1/10) (OneSize (1/2)) (OneSize (1/2)) true
    [3%R] [] [2; 1]%R [(1/2)%R] eq_refl eq_refl M1 M2 M3 M4).
  do 2 eexists. split; [exact E|].
  destruct (C68_layout _ _ _ _ _ _ _ _ _ _ _ [3%R] [] [2; 1]%R [(1/2)%R] _ _ E) as (EW & EH & _ & _ & L); [repeat (split; auto)|].
  split; [rewrite EW; unfold rsum; cbn; lra|]. split; [rewrite EH; unfold rsum; cbn; lra|].
  do 2 eexists. split; [reflexivity|].
  destruct (L ltac:(rewrite EW; unfold rsum; cbn; lra) ltac:(rewrite EH; unfold rsum; cbn; lra) 1%nat 0%nat
    {| ax_x := 0; ax_y := 0; ax_w := 0; ax_h := 0 |}%R ltac:(cbn; lia) ltac:(cbn; lia)) as (A & B & C & D).
  cbn [nth fg_axes figure_of grid map seq length] in A, B, C, D. rewrite A, B, C, D. cbn. lra.
Qed.

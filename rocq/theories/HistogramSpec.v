(** Vocabulary of the statements about the histogram estimator, independent of
    its model. *)
From Verif Require Import Base UtilsModel UtilsSpec.
Open Scope R_scope.

(** ** The plug-in mutual information of a paired sample of labels: the average
    over the sample of [log (n * #(a, b) / (#a * #b))]. *)
Section Plugin.
  Context {A B : Type} (da : forall a a' : A, {a = a'} + {a <> a'})
          (db : forall b b' : B, {b = b'} + {b <> b'}).

  Definition num (p : A * B -> bool) (s : list (A * B)) : R := INR (length (filter p s)).
  Definition is_a (a : A) (q : A * B) : bool := if da (fst q) a then true else false.
  Definition is_b (b : B) (q : A * B) : bool := if db (snd q) b then true else false.

  Definition plugin_mi (s : list (A * B)) : R :=
    rmean (map (fun q =>
      ln (INR (length s) * num (fun r => is_a (fst q) r && is_b (snd q) r) s
          / (num (is_a (fst q)) s * num (is_b (snd q)) s))) s).

  (** The counts factorise: #(a, b) * n = #a * #b for all labels which occur. *)
  Definition counts_factorise (s : list (A * B)) : Prop :=
    forall a b, In a (map fst s) -> In b (map snd s) ->
      INR (length s) * num (fun r => is_a a r && is_b b r) s = num (is_a a) s * num (is_b b) s.
End Plugin.

(** ** Equal-width cells.
    The range divided into cells: the extremes of the values, or one unit
    around the value if all are equal. *)
Definition value_range (col : list R) (lo hi : R) : Prop :=
  (all_equal col /\ exists v, In v col /\ lo = v - 1 / 2 /\ hi = v + 1 / 2)
  \/ (In lo col /\ In hi col /\ lo < hi /\ forall v, In v col -> lo <= v <= hi).

(** [v] lies in cell [k] of [n]: left-closed, the last one closed. *)
Definition in_cell (col : list R) (n : nat) (v : R) (k : nat) : Prop :=
  exists lo hi, value_range col lo hi /\ (k < n)%nat /\
    let w := (hi - lo) / INR n in
    (lo + INR k * w <= v < lo + (INR k + 1) * w \/ (S k = n /\ v = hi)).

Definition label := list nat.
Definition label_dec : forall a b : label, {a = b} + {a <> b} := list_eq_dec Nat.eq_dec.

(** [labs] are the cells of the points [m], [n] cells along each axis. *)
Definition cells_of (n : nat) (m : matrix) (labs : list label) : Prop :=
  Forall2 (fun row lab =>
      length lab = length row /\
      forall j, (j < length row)%nat -> in_cell (coords m j) n (nth j row 0) (nth j lab O))
    m labs.

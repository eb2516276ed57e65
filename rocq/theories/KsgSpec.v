(** Specification vocabulary for the KSG estimators: equation (8) of the KSG
    paper, written with indices of points and independently of the code. *)
From Coq Require Import Permutation.
From Verif Require Import Base UtilsModel KsgModel.
Open Scope Z_scope.

(** [sorts l idx]: [idx] lists all the positions of [l], in an order in which the
    entries do not decrease. *)
Definition sorts (l : list R) (idx : list nat) : Prop :=
  Permutation idx (seq 0 (length l)) /\
  (forall a b, (a <= b)%nat -> (b < length l)%nat ->
     (nth (nth a idx 0%nat) l 0 <= nth (nth b idx 0%nat) l 0)%R).

(** All that is assumed about [np.argsort]. *)
Definition valid_argsort (argsort : list R -> list nat) : Prop := forall l, sorts l (argsort l).

(** The indices 0..n-1 without [i]. *)
Definition others (n i : nat) : list nat := filter (fun j => negb (j =? i)%nat) (seq 0 n).

(** The number of elements with a property. *)
Definition count {A} (f : A -> bool) (l : list A) : Z := zlen (filter f l).

(** [r] is the k-th smallest entry of [l] (k = 1 is the minimum). *)
Definition kth_smallest (k : Z) (l : list R) (r : R) : Prop :=
  In r l /\ count (fun v => Rltb v r) l < k <= count (fun v => Rleb v r) l.

(** Standard metrics, on index ranges. *)
Definition std_euclidean (d : nat) (a b : list R) : R :=
  sqrt (rsum (map (fun j => ((nth j a 0 - nth j b 0) * (nth j a 0 - nth j b 0))%R) (seq 0 d))).
Definition std_manhattan (d : nat) (a b : list R) : R :=
  rsum (map (fun j => Rabs (nth j a 0%R - nth j b 0%R)) (seq 0 d)).
Definition is_max_of (l : list R) (v : R) : Prop := In v l /\ Forall (fun w => (w <= v)%R) l.

Section Formula.
Variable psi : Z -> R.
Variables (mx my : metric) (xs ys : matrix).

Definition dist_x (i j : nat) : R := dist mx (nth i xs []) (nth j xs []).
Definition dist_y (i j : nat) : R := dist my (nth i ys []) (nth j ys []).
Definition dist_xy (i j : nat) : R := Rmax (dist_x i j) (dist_y i j).

(** [r] is the distance from point [i] to its k-th nearest other point. *)
Definition radius (k : Z) (i : nat) (r : R) : Prop :=
  kth_smallest k (map (dist_xy i) (others (length xs) i)) r.

Definition n_x (i : nat) (r : R) : Z := count (fun j => Rltb (dist_x i j) r) (others (length xs) i).
Definition n_y (i : nat) (r : R) : Z := count (fun j => Rltb (dist_y i j) r) (others (length xs) i).

(** psi(k) + psi(n) - < psi(n_x + 1) + psi(n_y + 1) >. *)
Definition ksg_formula (k : Z) (r : nat -> R) : R :=
  (psi k + psi (zlen xs)
   - rmean (map (fun i => psi (n_x i (r i) + 1)%Z + psi (n_y i (r i) + 1)%Z) (seq 0 (length xs))))%R.

(** All other points are at different distances from each point. *)
Definition no_ties : Prop :=
  forall i, (i < length xs)%nat -> NoDup (map (dist_xy i) (others (length xs) i)).
End Formula.

(** Parameters as the constructor guarantees them (C12). *)
Definition valid_params (p : ksg_params) : Prop :=
  neighborhoods p <> [] /\ (forall k, In k (neighborhoods p) -> 1 <= k).

(** The same settings with the roles of x and y exchanged. *)
Definition swap_metrics (s : ksg_state) : ksg_state :=
  {| params := {| neighborhoods := neighborhoods (params s); standardize := standardize (params s);
                  metric_x := metric_y (params s); metric_y := metric_x (params s) |};
     chunk_size := chunk_size s; fitted := fitted s; mi_dict := mi_dict s |}.

(** Histories of calls on one estimator object, with [fit] either of the two
    implementations.  A call either fits (fit), fits and averages (estimate) or
    reads the predictions (get_predictions). *)
Inductive ksg_call := CallFit (x y : matrix) | CallEstimate (x y : matrix) | CallGet.
Inductive ksg_out := OutFit (r : result unit) | OutEstimate (r : result fl) | OutGet (r : result (zdict fl)).

Definition fit_method := ksg_state -> matrix -> matrix -> ksg_state * result unit.

Definition ksg_step (fit : fit_method) (s : ksg_state) (c : ksg_call) : ksg_state * ksg_out :=
  match c with
  | CallFit x y => (fst (fit s x y), OutFit (snd (fit s x y)))
  | CallEstimate x y => (fst (estimate_with fit s x y), OutEstimate (snd (estimate_with fit s x y)))
  | CallGet => (s, OutGet (get_predictions s))
  end.

Fixpoint ksg_run (fit : fit_method) (s : ksg_state) (calls : list ksg_call) : ksg_state :=
  match calls with [] => s | c :: cs => ksg_run fit (fst (ksg_step fit s c)) cs end.

(** The outputs of all the calls. *)
Fixpoint ksg_outputs (fit : fit_method) (s : ksg_state) (calls : list ksg_call) : list ksg_out :=
  match calls with
  | [] => []
  | c :: cs => snd (ksg_step fit s c) :: ksg_outputs fit (fst (ksg_step fit s c)) cs
  end.

(** The data of the last fit (or estimate) in a history which a fresh object
    [s0] would have accepted. *)
Definition accepted (fit : fit_method) (s0 : ksg_state) (x y : matrix) : bool :=
  match snd (fit s0 x y) with Ok _ => true | Err _ => false end.
Fixpoint last_accepted (fit : fit_method) (s0 : ksg_state) (acc : option (matrix * matrix))
    (calls : list ksg_call) : option (matrix * matrix) :=
  match calls with
  | [] => acc
  | CallFit x y :: cs | CallEstimate x y :: cs =>
      last_accepted fit s0 (if accepted fit s0 x y then Some (x, y) else acc) cs
  | CallGet :: cs => last_accepted fit s0 acc cs
  end.

(** Shared vocabulary of the model: Python results, sequences, dictionaries and
    floats.  Nothing here is specific to one module of the repository. *)
From Coq Require Export List ZArith Lia Bool Arith.
From Coq Require String.
From Coq Require Export Reals Lra.
Export ListNotations.
Open Scope Z_scope.

(** * Exceptions as values.
    The exception classes which the modelled code raises itself or lets escape
    from the library calls it makes. *)
Inductive exn :=
| ValueError | AssertionError | IndexError | TypeError | AttributeError
| ZeroDivisionError | KeyError | NotFitted | ValidationError | OtherError.

Inductive result (A : Type) : Type :=
| Ok (a : A)
| Err (e : exn).
Arguments Ok {A} a.
Arguments Err {A} e.

Definition bind {A B} (r : result A) (f : A -> result B) : result B :=
  match r with Ok a => f a | Err e => Err e end.
Notation "'do' x <- r ; k" := (bind r (fun x => k))
  (at level 200, x pattern, r at level 100, k at level 200).

Definition rmap {A B} (f : A -> B) (r : result A) : result B :=
  match r with Ok a => Ok (f a) | Err e => Err e end.

(** * Python sequences *)

(** [len(l)] as a Python int. *)
Definition zlen {A} (l : list A) : Z := Z.of_nat (length l).

(** [range(start, stop, step)] for a positive step (CPython: the length is
    [max(0, ceil((stop - start) / step))]). *)
Definition py_range (start stop step : Z) : list Z :=
  map (fun i => start + Z.of_nat i * step)
      (seq 0 (Z.to_nat ((stop - start + step - 1) / step))).

(** The index normalisation Python applies to slice bounds:
    negative bounds count from the end, then both are clamped to [0, len]. *)
Definition py_clamp (len i : Z) : Z :=
  let j := if i <? 0 then i + len else i in Z.max 0 (Z.min len j).

(** [l[a:b]]. *)
Definition py_slice {A} (l : list A) (a b : Z) : list A :=
  let a' := py_clamp (zlen l) a in
  let b' := py_clamp (zlen l) b in
  firstn (Z.to_nat (b' - a')) (skipn (Z.to_nat a') l).

(** [l[i]], negative indices count from the end. *)
Definition py_index {A} (l : list A) (i : Z) : result A :=
  let j := if i <? 0 then i + zlen l else i in
  if j <? 0 then Err IndexError
  else match nth_error l (Z.to_nat j) with Some a => Ok a | None => Err IndexError end.

(** * Python dictionaries with integer keys, in insertion order. *)
Definition zdict (V : Type) := list (Z * V).

Fixpoint dict_get {V} (d : zdict V) (k : Z) : option V :=
  match d with
  | [] => None
  | (k', v) :: d' => if k =? k' then Some v else dict_get d' k
  end.

(** [d[k] = v]: overwrite in place, or append at the end. *)
Fixpoint dict_set {V} (d : zdict V) (k : Z) (v : V) : zdict V :=
  match d with
  | [] => [(k, v)]
  | (k', v') :: d' => if k =? k' then (k', v) :: d' else (k', v') :: dict_set d' k v
  end.

Definition dict_values {V} (d : zdict V) : list V := map snd d.
Definition dict_keys {V} (d : zdict V) : list Z := map fst d.

(** * Python dictionaries with string keys, in insertion order. *)
Definition sdict (V : Type) := list (String.string * V).

Fixpoint sdict_get {V} (d : sdict V) (k : String.string) : option V :=
  match d with
  | [] => None
  | (k', v) :: d' => if String.eqb k k' then Some v else sdict_get d' k
  end.

(** [d[k] = v]. *)
Fixpoint sdict_set {V} (d : sdict V) (k : String.string) (v : V) : sdict V :=
  match d with
  | [] => [(k, v)]
  | (k', v') :: d' => if String.eqb k k' then (k', v) :: d' else (k', v') :: sdict_set d' k v
  end.

(** [a | b] (and the new content of [a] after [a |= b]). *)
Definition sdict_merge {V} (a b : sdict V) : sdict V :=
  fold_left (fun d kv => sdict_set d (fst kv) (snd kv)) b a.

(** * Exact real sums *)
Definition rsum (l : list R) : R := fold_right Rplus 0%R l.
Definition rmean (l : list R) : R := (rsum l / INR (length l))%R.

(** * Floats: exact reals with the IEEE special values (no rounding). *)
Inductive fl := Fin (r : R) | PInf | NInf | NaN.

Definition fl_add (a b : fl) : fl :=
  match a, b with
  | Fin x, Fin y => Fin (x + y)
  | NaN, _ | _, NaN => NaN
  | PInf, NInf | NInf, PInf => NaN
  | PInf, _ | _, PInf => PInf
  | NInf, _ | _, NInf => NInf
  end.

Definition fl_opp (a : fl) : fl :=
  match a with Fin x => Fin (- x) | PInf => NInf | NInf => PInf | NaN => NaN end.

Definition fl_sub (a b : fl) : fl := fl_add a (fl_opp b).

(** Division by a positive number (the only use: dividing by a sample size). *)
Definition fl_divp (a : fl) (n : R) : fl :=
  match a with Fin x => Fin (x / n) | PInf => PInf | NInf => NInf | NaN => NaN end.

Definition fl_sum (l : list fl) : fl := fold_right fl_add (Fin 0) l.

(** IEEE [a < b]: false as soon as one side is NaN. *)
Definition fl_ltb (a b : fl) : bool :=
  match a, b with
  | Fin x, Fin y => if Rlt_dec x y then true else false
  | NaN, _ | _, NaN => false
  | NInf, NInf => false
  | NInf, _ => true
  | _, NInf => false
  | PInf, _ => false
  | Fin _, PInf => true
  end.

(** Python's [max(a, b)]: [b] if [b > a], else [a]. *)
Definition py_max (a b : fl) : fl := if fl_ltb a b then b else a.

(** Boolean comparisons of reals, as NumPy computes them. *)
Definition Rltb (x y : R) : bool := if Rlt_dec x y then true else false.
Definition Rleb (x y : R) : bool := if Rle_dec x y then true else false.
Definition Reqb (x y : R) : bool := if Req_EM_T x y then true else false.

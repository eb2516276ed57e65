(** Vocabulary of the statements about [benchmark/utils], [benchmark/task.py] and
    [benchmark/result.py]. *)
From Coq Require Import String Permutation Sorted.
From Verif Require Import Base BenchmarkModel.
Local Notation length := List.length.

(** ** Clocks *)
Definition monotone (c : nat -> R) : Prop := forall n m, (n <= m)%nat -> (c n <= c m)%R.

(** How often a method reads the clock, and the index of the reading which a method
    stores as the new origin ([k] readings were taken before it). *)
Definition readings (o : timer_op) : nat := match o with TCheckAndReset => 2 | _ => 1 end.
Fixpoint total_readings (os : list timer_op) : nat :=
  match os with [] => 0 | o :: os => readings o + total_readings os end%nat.
Definition stored (o : timer_op) (k : nat) : option nat :=
  match o with TReset => Some k | TCheckAndReset => Some (S k) | TCheck => None end.
(** The last stored reading, given that reading [r] was stored before and [k] readings
    were taken. *)
Fixpoint last_stored (r k : nat) (os : list timer_op) : nat :=
  match os with
  | [] => r
  | o :: os => last_stored (match stored o k with Some r' => r' | None => r end) (k + readings o) os
  end.

(** ** Dumped values *)

(** The conversions which the docstring of DictDumper promises, applied recursively;
    tuples become lists. *)
Fixpoint plain (p : py) : py :=
  match p with
  | PList l | PTuple l => PList (map plain l)
  | PDict d => PDict (map (fun kv => match kv with (k, v) => (k, plain v) end) d)
  | PPath s => PStr s
  | PNpGeneric v | PNdarray v | PEnum v => plain v
  | _ => p
  end.

Definition is_converted (p : py) : bool :=
  match p with PPath _ | PNpGeneric _ | PNdarray _ | PEnum _ => true | _ => false end.

(** No value is wrapped twice: [item()], [tolist()] and the value of an Enum member are
    not themselves paths, NumPy values or Enum members. *)
Fixpoint unwrapped_once (p : py) : bool :=
  match p with
  | PList l | PTuple l => forallb unwrapped_once l
  | PDict d => forallb (fun kv => match kv with (_, v) => unwrapped_once v end) d
  | PNpGeneric v | PNdarray v | PEnum v => negb (is_converted v) && unwrapped_once v
  | _ => true
  end.

(** No value inside has a type unknown to PyYAML. *)
Fixpoint known (p : py) : bool :=
  match p with
  | PList l | PTuple l => forallb known l
  | PDict d => forallb (fun kv => match kv with (_, v) => known v end) d
  | PNpGeneric v | PNdarray v | PEnum v => known v
  | PObject => false
  | _ => true
  end.

(** [depicts p n]: the node [n] shows the value [p]; mappings are sorted by key. *)
Inductive depicts : py -> node -> Prop :=
| D_none : depicts PNone YNull
| D_bool b : depicts (PBool b) (YBool b)
| D_int n : depicts (PInt n) (YInt n)
| D_float v : depicts (PFloat v) (YFloat v)
| D_str s : depicts (PStr s) (YStr s)
| D_list l ns : Forall2 depicts l ns -> depicts (PList l) (YSeq ns)
| D_tuple l ns : Forall2 depicts l ns -> depicts (PTuple l) (YSeq ns)
| D_dict d ns m :
    Forall2 (fun kv kn => fst kv = fst kn /\ depicts (snd kv) (snd kn)) d ns ->
    Permutation ns m -> Sorted (fun a b => String.leb (fst a) (fst b) = true) m ->
    depicts (PDict d) (YMap m)
| D_path s : depicts (PPath s) (YStr s)
| D_generic v n : depicts v n -> depicts (PNpGeneric v) n
| D_array v n : depicts v n -> depicts (PNdarray v) n
| D_enum v n : depicts v n -> depicts (PEnum v) n.

(** ** Runs *)

(** The call of the estimator which a run makes. *)
Definition estimator_call (e : estimator) (path : string) (xs ys : list (list R)) : outcome :=
  match external e with true => estimate_with_info_from_path e path | false => estimate_with_info e xs ys end.

(** What a run adds to the additional information. *)
Definition recorded (o : outcome) : list (string * py) :=
  match o with
  | Returned r => er_info r
  | Raised message None => [("error", PStr message)]
  | Raised message (Some out) => [("error", PStr message); ("subprocess_output", PStr out)]
  | Escaped _ => []
  end%string.

(** [d'] is the dictionary [d] updated with the entries [new]: the last new entry of a
    key wins, other keys keep their value. *)
Definition updated (d new d' : sdict py) : Prop :=
  forall k, sdict_get d' k = match sdict_get (rev new) k with Some v => Some v | None => sdict_get d k end.

(** A reference to an existing dictionary, or none. *)
Definition valid_ref (h : dheap) (o : option dref) : Prop :=
  match o with Some r => (r < length h)%nat | None => True end.
(** The content of an optional dictionary. *)
Definition content (h : dheap) (o : option dref) : sdict py :=
  match o with Some r => dread h r | None => [] end.
(** The dictionaries passed to a sequence of runs. *)
Fixpoint passed (qs : list run_call) : list dref :=
  match qs with
  | [] => []
  | q :: qs => match rc_info q with Some r => r :: passed qs | None => passed qs end
  end.

(** Model of [benchmark/utils/timer.py], [benchmark/utils/dict_dumper.py],
    [benchmark/task.py] and [benchmark/result.py] in [src/bmi].

    Dictionaries reachable from several objects live in a heap; a reference stands for
    one Python dict object.  Strings are byte strings. *)
From Coq Require Import String.
From Verif Require Import Base UtilsModel JaxModel SamplersModel.
Open Scope Z_scope.
Local Notation length := List.length.

(** ** timer.py *)

(** The readings of [time.perf_counter()], in order (_current_time, 23-26). *)
Definition clock := nat -> R.

(** Timer's attribute [_t0], with the number of readings taken so far by the program. *)
Record timer := { tm_t0 : R; tm_ticks : nat }.

(** Timer.__init__, 19-21, when [k] readings have been taken before. *)
Definition timer_new (c : clock) (k : nat) : timer := {| tm_t0 := c k; tm_ticks := S k |}.
(** reset, 28-30. *)
Definition timer_reset (c : clock) (t : timer) : timer :=
  {| tm_t0 := c (tm_ticks t); tm_ticks := S (tm_ticks t) |}.
(** check, 32-34. *)
Definition timer_check (c : clock) (t : timer) : R * timer :=
  ((c (tm_ticks t) - tm_t0 t)%R, {| tm_t0 := tm_t0 t; tm_ticks := S (tm_ticks t) |}).
(** check_and_reset, 36-49. *)
Definition timer_check_and_reset (c : clock) (t : timer) : R * timer :=
  let (v, t) := timer_check c t in                                       (* 47 *)
  let t := timer_reset c t in                                            (* 48 *)
  (v, t).                                                                (* 49 *)

(** A sequence of method calls on one timer and the values they return. *)
Inductive timer_op := TReset | TCheck | TCheckAndReset.
Definition timer_step (c : clock) (o : timer_op) (t : timer) : option R * timer :=
  match o with
  | TReset => (None, timer_reset c t)
  | TCheck => let (v, t) := timer_check c t in (Some v, t)
  | TCheckAndReset => let (v, t) := timer_check_and_reset c t in (Some v, t)
  end.
Fixpoint timer_run (c : clock) (os : list timer_op) (t : timer) : list (option R) * timer :=
  match os with
  | [] => ([], t)
  | o :: os => let (v, t) := timer_step c o t in let (vs, t) := timer_run c os t in (v :: vs, t)
  end.

(** ** dict_dumper.py *)

(** The Python values which are dumped.  Dictionaries have string keys; [PObject] is a
    value of a type PyYAML has no safe representation of.  Values are trees: no object
    occurs twice (PyYAML would emit an alias). *)
Inductive py :=
| PNone | PBool (b : bool) | PInt (n : Z) | PFloat (v : fl) | PStr (s : string)
| PList (l : list py) | PTuple (l : list py) | PDict (d : list (string * py))
| PPath (s : string)                    (* pathlib.Path, with its str() *)
| PNpGeneric (item : py)                (* np.generic, with its item() *)
| PNdarray (tolist : py)                (* np.ndarray, with its tolist() *)
| PEnum (value : py)                    (* Enum member, with its value *)
| PObject.

(** YAML nodes. *)
Inductive node :=
| YNull | YBool (b : bool) | YInt (n : Z) | YFloat (v : fl) | YStr (s : string)
| YSeq (l : list node) | YMap (d : list (string * node)).

(** [sorted(mapping)] for a dictionary with string keys (PyYAML's represent_mapping):
    the order of code points. *)
Fixpoint insert_key {V} (k : string) (v : V) (d : list (string * V)) : list (string * V) :=
  match d with
  | [] => [(k, v)]
  | (k', v') :: d' => if String.ltb k' k then (k', v') :: insert_key k v d' else (k, v) :: d
  end.
Fixpoint sort_keys {V} (d : list (string * V)) : list (string * V) :=
  match d with [] => [] | (k, v) :: d' => insert_key k v (sort_keys d') end.

(** [represent_data] of DictDumper (20-30, [override = true]) and of yaml.SafeDumper
    ([override = false]).  [super()] marks the calls [super().represent_data(..)] (22,
    24, 26, 28), which skip the override for the value itself but not for the values
    inside it.  A value without safe representation makes PyYAML raise RepresenterError.
    (PyYAML sorts the items before representing them; here the other way round, which
    is the same unless an item is not representable, when both raise.) *)
Fixpoint represent (override super : bool) (data : py) : result node :=
  match data with
  | PNone => Ok YNull
  | PBool b => Ok (YBool b)
  | PInt n => Ok (YInt n)
  | PFloat v => Ok (YFloat v)
  | PStr s => Ok (YStr s)
  | PList l | PTuple l =>
      do ns <- (fix go (l : list py) : result (list node) :=
                  match l with
                  | [] => Ok []
                  | p :: l => do n <- represent override false p; do ns <- go l; Ok (n :: ns)
                  end) l;
      Ok (YSeq ns)
  | PDict d =>
      do ns <- (fix go (d : list (string * py)) : result (list (string * node)) :=
                  match d with
                  | [] => Ok []
                  | (k, p) :: d => do n <- represent override false p; do ns <- go d; Ok ((k, n) :: ns)
                  end) d;
      Ok (YMap (sort_keys ns))
  | PPath s => if override && negb super then Ok (YStr s) else Err OtherError                  (* 21-22 *)
  | PNpGeneric v => if override && negb super then represent override true v else Err OtherError  (* 23-24 *)
  | PNdarray v => if override && negb super then represent override true v else Err OtherError    (* 25-26 *)
  | PEnum v => if override && negb super then represent override true v else Err OtherError       (* 27-28 *)
  | PObject => Err OtherError
  end.

(** [yaml.dump(data, Dumper=DictDumper)] and [yaml.dump(data, Dumper=yaml.SafeDumper)],
    up to the printing of nodes. *)
Definition dict_dump (data : py) : result node := represent true false data.
Definition safe_dump (data : py) : result node := represent false false data.

(** ** The heap of dictionaries *)
Definition dheap := list (sdict py).
Definition dref := nat.
Definition dread (h : dheap) (r : dref) : sdict py := nth r h [].
Definition dalloc (h : dheap) (d : sdict py) : dheap * dref := (h ++ [d], length h)%list.
Fixpoint dwrite (h : dheap) (r : dref) (d : sdict py) : dheap :=
  match h, r with
  | [], _ => []
  | _ :: h', O => d :: h'
  | d' :: h', S r' => d' :: dwrite h' r' d
  end.
(** [a |= b], the object [a] is updated. *)
Definition dupdate (h : dheap) (a : dref) (b : sdict py) : dheap := dwrite h a (sdict_merge (dread h a) b).

(** [params or dict()]: a fresh dictionary in place of None and of an empty one. *)
Definition or_dict (h : dheap) (o : option dref) : dheap * dref :=
  match o with
  | Some r => match dread h r with [] => dalloc h [] | _ => (h, r) end
  | None => dalloc h []
  end.

(** Programs which use the heap. *)
Definition prog (A : Type) := dheap -> dheap * result A.
Definition pret {A} (a : A) : prog A := fun h => (h, Ok a).
Definition lift {A} (r : result A) : prog A := fun h => (h, r).
Definition pbind {A B} (p : prog A) (k : A -> prog B) : prog B :=
  fun h => let (h, r) := p h in match r with Ok a => k a h | Err e => (h, Err e) end.
Notation "'run' x <- p ; k" := (pbind p (fun x => k))
  (at level 200, x pattern, p at level 100, k at level 200).
Definition new_dict (d : sdict py) : prog dref := fun h => let (h, r) := dalloc h d in (h, Ok r).
Definition read_dict (r : dref) : prog (sdict py) := fun h => (h, Ok (dread h r)).

(** ** task.py *)

(** TaskMetadata, 12-18, after pydantic's validation ([dict] fields keep the object). *)
Record task_metadata := {
  md_id : string; md_name : string; md_dim_x : Z; md_dim_y : Z; md_mi : fl; md_params : dref
}.

(** pydantic's NonNegativeFloat: [v >= 0]. *)
Definition non_negative_float (v : fl) : result fl :=
  match v with
  | Fin r => if Rleb 0 r then Ok v else Err ValidationError
  | PInf => Ok v
  | NInf | NaN => Err ValidationError
  end.

(** Task's attributes, 24-34. *)
Record task (J : prng) := {
  t_sampler : sampler J;
  t_id : string;
  t_name : string;
  t_params : option dref
}.
Arguments t_sampler {J} t.
Arguments t_id {J} t.
Arguments t_name {J} t.
Arguments t_params {J} t.

(** metadata, 36-45. *)
Definition metadata {J} (t : task J) : prog task_metadata :=
  run dx <- lift (dim_x (t_sampler t));                                  (* 41 *)
  run dy <- lift (dim_y (t_sampler t));                                  (* 42 *)
  run mi <- lift (mutual_information (t_sampler t));                     (* 43 *)
  run ps <- (fun h => let (h, r) := or_dict h (t_params t) in (h, Ok r));  (* 44 *)
  run mi <- lift (non_negative_float mi);                                (* 17 *)
  pret {| md_id := t_id t; md_name := t_name t; md_dim_x := dx; md_dim_y := dy;
          md_mi := mi; md_params := ps |}.

(** The properties id, name, params, dim_x, dim_y and mutual_information, 47-69. *)
Definition task_id {J} (t : task J) : prog string := run m <- metadata t; pret (md_id m).
Definition task_name {J} (t : task J) : prog string := run m <- metadata t; pret (md_name m).
Definition task_params {J} (t : task J) : prog dref := run m <- metadata t; pret (md_params m).
Definition task_dim_x {J} (t : task J) : prog Z := run m <- metadata t; pret (md_dim_x m).
Definition task_dim_y {J} (t : task J) : prog Z := run m <- metadata t; pret (md_dim_y m).
Definition task_mi {J} (t : task J) : prog fl := run m <- metadata t; pret (md_mi m).

(** save_metadata, 71-73: the YAML document written. *)
Definition metadata_dict (m : task_metadata) (params : sdict py) : py :=
  PDict [("task_id", PStr (md_id m)); ("task_name", PStr (md_name m));
         ("dim_x", PInt (md_dim_x m)); ("dim_y", PInt (md_dim_y m));
         ("mi_true", PFloat (md_mi m)); ("task_params", PDict params)]%string.
Definition save_metadata {J} (t : task J) : prog node :=
  run m <- metadata t;
  run ps <- read_dict (md_params m);
  lift (dict_dump (metadata_dict m ps)).

(** sample, 75-76. *)
Definition task_sample {J} (t : task J) (n_samples : nat) (seed : Z) : result (matrix * matrix) :=
  sample (t_sampler t) n_samples (SeedInt seed).

(** save_sample, 78-80: the text of the file.  The sampler returns two-dimensional
    arrays, the number of columns is read off the first row. *)
Definition task_save_sample {J} (show : R -> string) (t : task J) (n_samples : nat) (seed : Z)
  : result string :=
  do (x, y) <- task_sample t n_samples seed;                             (* 79 *)
  save_sample show (Arr2 (ncols x) x) (Arr2 (ncols y) y).                (* 80 *)

(** ** result.py *)

(** EstimateResult, interface.py 35-38. *)
Record estimate_result := { er_mi : fl; er_time : option fl; er_info : sdict py }.

(** What a call of the estimator ends with. *)
Inductive outcome :=
| Returned (r : estimate_result)
| Raised (message : string) (output : option string)   (* an Exception: str(e), str(e.output) if present *)
| Escaped (e : exn).                                    (* BaseException, e.g. KeyboardInterrupt *)

(** An estimator, as run_estimator uses it; [external] tells whether it is an instance of
    ExternalEstimator. *)
Record estimator := {
  external : bool;
  estimate_with_info : matrix -> matrix -> outcome;
  estimate_with_info_from_path : string -> outcome
}.

(** RunResult, 13-23 (pydantic keeps the dict object). *)
Record run_result := {
  rr_mi : fl; rr_time : fl; rr_success : bool; rr_estimator_id : string; rr_task_id : string;
  rr_n_samples : Z; rr_seed : option Z; rr_info : dref
}.

(** RunResult.dump, 25-27: the YAML document written. *)
Definition py_seed (s : option Z) : py := match s with Some n => PInt n | None => PNone end.
Definition run_result_dict (r : run_result) (info : sdict py) : py :=
  PDict [("mi_estimate", PFloat (rr_mi r)); ("time_in_seconds", PFloat (rr_time r));
         ("success", PBool (rr_success r)); ("estimator_id", PStr (rr_estimator_id r));
         ("task_id", PStr (rr_task_id r)); ("n_samples", PInt (rr_n_samples r));
         ("seed", py_seed (rr_seed r)); ("additional_information", PDict info)]%string.
Definition run_result_dump (h : dheap) (r : run_result) : result node :=
  dict_dump (run_result_dict r (dread h (rr_info r))).

Section RunEstimator.
  (** The number parser of pandas, the files and the clock ([tick] readings before). *)
  Variable parse : string -> option R.
  Variable files : string -> option string.
  Variable c : clock.

  (** [read_sample(path)]; a missing file raises. *)
  Definition read_sample_file (path : string) : result (matrix * matrix) :=
    match files path with Some text => read_sample parse text | None => Err OtherError end.

  (** run_estimator, 30-79. *)
  Definition run_estimator (tick : nat) (e : estimator) (estimator_id sample_path task_id : string)
      (seed : option Z) (additional_information : option dref) : prog run_result :=
    run info <- (fun h => let (h, r) := or_dict h additional_information in (h, Ok r));   (* 38 *)
    run (samples_x, samples_y) <- lift (read_sample_file sample_path);   (* 39 *)
    let n_samples := zlen samples_x in                                   (* 40 *)
    let finish (mi time : fl) (success : bool) :=                        (* 70-79 *)
      pret {| rr_mi := mi; rr_time := time; rr_success := success; rr_estimator_id := estimator_id;
              rr_task_id := task_id; rr_n_samples := n_samples; rr_seed := seed; rr_info := info |} in
    let t := timer_new c tick in                                         (* 43 *)
    match (if external e then estimate_with_info_from_path e sample_path (* 46-47 *)
           else estimate_with_info e samples_x samples_y) with           (* 48-49 *)
    | Returned r =>
        let (time_measured, _) := timer_check c t in                     (* 51 *)
        let time := match er_time r with Some v => v | None => Fin time_measured end in   (* 55-56 *)
        run _ <- (fun h => (dupdate h info (er_info r), Ok tt));         (* 58 *)
        finish (er_mi r) time true                                       (* 54, 57 *)
    | Raised message output =>
        run _ <- (fun h => (dupdate h info [("error", PStr message)]%string, Ok tt));   (* 65 *)
        run _ <- (fun h => (match output with
                            | Some o => dupdate h info [("subprocess_output", PStr o)]%string
                            | None => h
                            end, Ok tt));                                (* 67-68 *)
        finish NaN NaN false                                             (* 62-64 *)
    | Escaped ex => lift (Err ex)
    end.

  (** A sequence of runs in one program (e.g. a benchmark loop): the results in order. *)
  Record run_call := {
    rc_tick : nat; rc_estimator : estimator; rc_estimator_id : string; rc_path : string;
    rc_task_id : string; rc_seed : option Z; rc_info : option dref
  }.
  Definition run_one (q : run_call) : prog run_result :=
    run_estimator (rc_tick q) (rc_estimator q) (rc_estimator_id q) (rc_path q) (rc_task_id q)
                  (rc_seed q) (rc_info q).
  Fixpoint run_all (qs : list run_call) (h : dheap) : dheap * list (result run_result) :=
    match qs with
    | [] => (h, [])
    | q :: qs => let (h, r) := run_one q h in let (h, rs) := run_all qs h in (h, r :: rs)
    end.
End RunEstimator.

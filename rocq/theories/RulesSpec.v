(** Vocabulary of the statements about the workflow running the benchmark. *)
From Coq Require Import String Ascii.
From Verif Require Import Base UtilsModel UtilsSpec JaxModel SamplersModel BenchmarkModel BenchmarkSpec RulesModel.
Local Notation length := List.length.

(** The character occurs in the string. *)
Definition occurs (c : ascii) (s : string) : Prop := In c (list_ascii_of_string s).

(** The wildcards of a pattern. *)
Definition names (ps : list part) : list string := flat_map (fun p => match p with Wild n => [n] | Lit _ => [] end) ps.

(** Names of tasks and estimators which Snakemake can handle. *)
Definition usable_name (s : string) : Prop :=
  s <> ""%string /\ ~ occurs "010" s /\ ~ occurs "{" s /\ ~ occurs "}" s.

(** Decimal notation: [numeral s z] when [s] is a non-empty row of digits with value [z],
    or such a row after a minus sign. *)
Definition digit_value (c : ascii) : option Z :=
  let n := Z.of_nat (nat_of_ascii c) in if ((48 <=? n) && (n <=? 57))%Z then Some (n - 48)%Z else None.
Fixpoint digits_value (acc : Z) (l : list ascii) : option Z :=
  match l with
  | [] => Some acc
  | c :: l => match digit_value c with Some d => digits_value (10 * acc + d) l | None => None end
  end.
Definition numeral (s : string) (z : Z) : Prop :=
  match list_ascii_of_string s with
  | [] => False
  | "-"%char :: l => l <> [] /\ digits_value 0 l = Some (- z)%Z
  | l => digits_value 0 l = Some z
  end.

(** The files of one run. *)
Definition sample_path (t : string) (n s : Z) : string :=
  ("tasks/" ++ t ++ "/" ++ show_int n ++ "-" ++ show_int s ++ ".csv")%string.
Definition result_path (e t : string) (n s : Z) : string :=
  ("results/" ++ e ++ "/" ++ t ++ "/" ++ show_int n ++ "-" ++ show_int s ++ ".yaml")%string.

(** All runs, in the order of the table. *)
Definition combinations (es ts : list string) (ns ss : list Z) : list (string * string * Z * Z) :=
  list_prod (list_prod (list_prod es ts) ns) ss.

(** Numbers which survive being written and read. *)
Definition readable (show : R -> string) (parse : string -> option R) (r : R) : Prop :=
  parse (show r) = Some r /\ contains_char comma (show r) = false /\ contains_char newline (show r) = false.

(** The task gives [n] points when asked for them, and all of their coordinates are readable. *)
Definition sample_ok {J} (show : R -> string) (parse : string -> option R) (t : task J) (n s : Z) (xs ys : matrix) : Prop :=
  (0 < n)%Z /\ sample (t_sampler t) (Z.to_nat n) (SeedInt s) = Ok (xs, ys) /\
  length xs = Z.to_nat n /\ length ys = Z.to_nat n /\
  exists dx dy, (0 < dx + dy)%nat /\ rectangular dx xs /\ rectangular dy ys /\
    all_entries (readable show parse) xs /\ all_entries (readable show parse) ys.

(** The row of the table for estimator [e] (called [eid]) and task [t] (called [tid]): the
    estimate from the sample of that task with that seed, and the truth about the task. *)
Definition row_of {J} (h0 : dheap) (c : clock) (eid : string) (e : estimator) (tid : string) (t : task J) (n s : Z)
    (xs ys : matrix) (row : sdict py) : Prop :=
  let entry := sdict_get row in
  entry "estimator_id"%string = Some (PStr eid) /\ entry "task_id"%string = Some (PStr tid) /\
  entry "n_samples"%string = Some (PInt n) /\ entry "seed"%string = Some (PInt s) /\
  match estimator_call e (sample_path tid n s) xs ys with
  | Returned r => entry "success"%string = Some (PBool true) /\ entry "mi_estimate"%string = Some (PFloat (er_mi r)) /\
      entry "time_in_seconds"%string = Some (PFloat match er_time r with Some v => v | None => Fin (c 1%nat - c 0%nat) end)
  | Raised _ _ => entry "success"%string = Some (PBool false) /\ entry "mi_estimate"%string = Some (PFloat NaN) /\
      entry "time_in_seconds"%string = Some (PFloat NaN)
  | Escaped _ => False
  end /\
  (exists info doc, updated [] (recorded (estimator_call e (sample_path tid n s) xs ys)) info /\ depicts (PDict info) doc /\
     entry "additional_information"%string = Some (load_node doc)) /\
  (exists mi, mutual_information (t_sampler t) = Ok mi /\ entry "mi_true"%string = Some (PFloat mi)) /\
  entry "task_name"%string = Some (PStr (t_name t)) /\
  entry "task_params"%string = Some (PDict (content h0 (t_params t))).

(** What is needed of the configuration: usable names, no slash in the names of the tasks,
    seeds which are not negative, and tasks which give the samples asked for. *)
Definition config_ok {J} (show : R -> string) (parse : string -> option R) (es : sdict estimator) (ts : sdict (task J))
    (ns ss : list Z) (h0 : dheap) : Prop :=
  Forall (fun e => usable_name (fst e)) es /\
  Forall (fun t => usable_name (fst t) /\ ~ occurs "/" (fst t) /\ valid_ref h0 (t_params (snd t))) ts /\
  Forall (Z.le 0) ss /\
  (forall tid t n s, In (tid, t) ts -> In n ns -> In s ss -> exists xs ys, sample_ok show parse t n s xs ys).

(** The estimators return or raise an exception which [run_estimator] catches, and report
    values which can be written. *)
Definition estimators_ok {J} (show : R -> string) (parse : string -> option R) (es : sdict estimator) (ts : sdict (task J))
    (ns ss : list Z) : Prop :=
  forall eid e tid t n s xs ys, In (eid, e) es -> In (tid, t) ts -> In n ns -> In s ss ->
  sample_ok show parse t n s xs ys ->
  (forall ex, estimator_call e (sample_path tid n s) xs ys <> Escaped ex) /\
  (forall r, estimator_call e (sample_path tid n s) xs ys = Returned r ->
     Forall (fun kv => (known (snd kv) && unwrapped_once (snd kv))%bool = true) (er_info r)).

(** The tasks know their dimensions and their mutual information, a number not below zero. *)
Definition tasks_described {J} (ts : sdict (task J)) : Prop :=
  forall tid t, In (tid, t) ts ->
  exists dx dy mi, dim_x (t_sampler t) = Ok dx /\ dim_y (t_sampler t) = Ok dy /\ mutual_information (t_sampler t) = Ok mi /\
    fl_ltb mi (Fin 0) = false /\ mi <> NaN.

(** Every run after its sample. *)
Definition schedule (es ts : list string) (ns ss : list Z) : list string :=
  flat_map (fun q => match q with (eid, tid, n, s) => [sample_path tid n s; result_path eid tid n s] end)
    (combinations es ts ns ss).

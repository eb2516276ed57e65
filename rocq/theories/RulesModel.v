(** Model of [workflows/benchmark/_common_benchmark_rules.smk] and of the parts of Snakemake
    it relies on.

    Snakemake runs every job in a process of its own, in any order in which the inputs of a
    job are made before it; a job which raises ends the run.  Files are found by the string
    naming them. *)
From Coq Require Import String Ascii DecimalString.
From Verif Require Import Base UtilsModel JaxModel SamplersModel BenchmarkModel TasksModel.
Open Scope Z_scope.
Local Notation length := List.length.

(** ** Snakemake: patterns with wildcards *)
(** A pattern such as 'tasks/{task_id}/{n_samples}-{seed}.csv'; in each pattern of the file
    a wildcard occurs once. *)
Inductive part := Lit (s : string) | Wild (name : string).
Definition wildcards := list (string * string).

(** Putting values in place of the wildcards; one which is not given raises. *)
Fixpoint fill (ps : list part) (wc : wildcards) : result string :=
  match ps with
  | [] => Ok EmptyString
  | Lit s :: ps => do r <- fill ps wc; Ok (s ++ r)%string
  | Wild n :: ps => match sdict_get wc n with
                    | Some v => do r <- fill ps wc; Ok (v ++ r)%string
                    | None => Err OtherError
                    end
  end.

(** A wildcard is the group [(?P<name>.+)] of a regular expression which has to match
    the whole path: it takes as many characters as it can, at least one and no newline.
    (Python's [$] also matches before a newline which ends the path; paths have none.) *)
Definition newline_char : ascii := "010".
Fixpoint strip_prefix (l s : list ascii) : option (list ascii) :=
  match l, s with
  | [], _ => Some s
  | a :: l, b :: s => if Ascii.eqb a b then strip_prefix l s else None
  | _ :: _, [] => None
  end.
Fixpoint match_chars (ps : list part) (s : list ascii) : option wildcards :=
  match ps with
  | [] => match s with [] => Some [] | _ => None end
  | Lit l :: ps => match strip_prefix (list_ascii_of_string l) s with
                   | Some r => match_chars ps r
                   | None => None
                   end
  | Wild n :: ps =>
      (fix longest (k : nat) : option wildcards :=
         match k with
         | O => None
         | S k' =>
             if existsb (Ascii.eqb newline_char) (firstn k s) then longest k'
             else match match_chars ps (skipn k s) with
                  | Some m => Some ((n, string_of_list_ascii (firstn k s)) :: m)
                  | None => longest k'
                  end
         end) (length s)
  end.
Definition match_path (ps : list part) (path : string) : option wildcards :=
  match_chars ps (list_ascii_of_string path).

(** Names among the inputs of a rule: a brace would start a wildcard, which a rule without
    wildcards does not know. *)
Definition input_name (path : string) : result string :=
  if existsb (fun c => Ascii.eqb "{" c || Ascii.eqb "}" c) (list_ascii_of_string path) then Err OtherError else Ok path.

(** Python's [str] of an integer; [int] of a string.  Simplification: of the strings which
    are not made of digits with an optional minus sign, [int] also accepts some (with
    underscores, blanks or a plus sign). *)
Definition show_int (z : Z) : string := NilZero.string_of_int (Z.to_int z).
Definition read_int (s : string) : result Z :=
  match NilZero.int_of_string s with Some d => Ok (Z.of_int d) | None => Err ValueError end.

(** ** The patterns of the rules *)
(** Line 36. *)
Definition results_input : list part :=
  [Lit "results/"; Wild "estimator_id"; Lit "/"; Wild "task_id"; Lit "/"; Wild "n_samples"; Lit "-"; Wild "seed"; Lit ".yaml"]%string.
(** Line 57. *)
Definition sample_output : list part :=
  [Lit "tasks/"; Wild "task_id"; Lit "/"; Wild "n_samples"; Lit "-"; Wild "seed"; Lit ".csv"]%string.
(** Line 68. *)
Definition apply_output : list part :=
  [Lit "results/"; Wild "estimator_id"; Lit "/"; Wild "task_id"; Lit "/"; Wild "n_samples"; Lit "-"; Wild "seed"; Lit ".yaml"]%string.
(** Line 69. *)
Definition apply_input : list part :=
  [Lit "tasks/"; Wild "task_id"; Lit "/"; Wild "n_samples"; Lit "-"; Wild "seed"; Lit ".csv"]%string.

(** [wildcards.name]. *)
Definition wildcard (wc : wildcards) (n : string) : result string :=
  match sdict_get wc n with Some v => Ok v | None => Err AttributeError end.

(** [yaml.load(f, yaml.SafeLoader)] of a document. *)
Fixpoint load_node (n : node) : py :=
  match n with
  | YNull => PNone
  | YBool b => PBool b
  | YInt z => PInt z
  | YFloat v => PFloat v
  | YStr s => PStr s
  | YSeq l => PList (map load_node l)
  | YMap d => PDict (map (fun kv => match kv with (k, v) => (k, load_node v) end) d)
  end.

(** The files: CSV texts and YAML documents. *)
Inductive file := Text (s : string) | Doc (n : node).
Definition world := sdict file.
Definition texts (w : world) (path : string) : option string :=
  match sdict_get w path with Some (Text s) => Some s | _ => None end.

Section Rules.
  Context {J : prng}.
  (** The configuration (config.py): ESTIMATORS_DICT, TASKS_DICT (11-13, built by
      [tasks_by_id] of TasksModel), N_SAMPLES and SEEDS, and the memory after loading it. *)
  Variable ESTIMATORS_DICT : sdict estimator.
  Variable TASKS_DICT : sdict (task J).
  Variables N_SAMPLES SEEDS : list Z.
  Variable h0 : dheap.
  (** The number formats of pandas; the clock of the job making a path. *)
  Variable show : R -> string.
  Variable parse : string -> option R.
  Variable clock_of : string -> clock.

  Definition lookup {V} (d : sdict V) (k : string) : result V :=
    match sdict_get d k with Some v => Ok v | None => Err KeyError end.

  (** Rule sample_task, 56-63: the text of the output.  A sampler asked for a negative
      number of points raises. *)
  Definition sample_task (wc : wildcards) : result string :=
    do task_id <- wildcard wc "task_id";                                 (* 59 *)
    do n <- wildcard wc "n_samples"; do n_samples <- read_int n;         (* 60 *)
    do s <- wildcard wc "seed"; do seed <- read_int s;                   (* 61 *)
    do task <- lookup TASKS_DICT task_id;                                (* 62 *)
    if n_samples <? 0 then Err ValueError
    else task_save_sample show task (Z.to_nat n_samples) seed.           (* 63 *)

  (** Rule apply_estimator, 67-86: the document of the output, given the files.  The memory
      limit (77) is not modelled. *)
  Definition apply_estimator (w : world) (output : string) (wc : wildcards) : result node :=
    do input <- fill apply_input wc;                                     (* 69 *)
    do estimator_id <- wildcard wc "estimator_id";                       (* 71 *)
    do estimator <- lookup ESTIMATORS_DICT estimator_id;                 (* 72 *)
    do task_id <- wildcard wc "task_id";                                 (* 73 *)
    do s <- wildcard wc "seed"; do seed <- read_int s;                   (* 74 *)
    let (h, r) := run_estimator parse (texts w) (clock_of output) 0 estimator estimator_id input task_id
                    (Some seed) None h0 in                               (* 79-85 *)
    do result <- r;
    run_result_dump h result.                                            (* 86 *)

  (** The job making a path: the rule whose output pattern matches; no rule, no file. *)
  Definition make_path (w : world) (path : string) : result world :=
    match match_path sample_output path with
    | Some wc => do text <- sample_task wc; Ok (sdict_set w path (Text text))
    | None => match match_path apply_output path with
              | Some wc => do doc <- apply_estimator w path wc; Ok (sdict_set w path (Doc doc))
              | None => Err OtherError
              end
    end.
  (** Jobs in some order. *)
  Fixpoint make_all (paths : list string) (w : world) : result world :=
    match paths with
    | [] => Ok w
    | p :: ps => do w <- make_path w p; make_all ps w
    end.

  (** [expand(...)], 35-41: all combinations, the last wildcard changing fastest. *)
  Definition expand : list (result string) :=
    flat_map (fun e => flat_map (fun t => flat_map (fun n => map (fun s =>
      fill results_input [("estimator_id", e); ("task_id", t); ("n_samples", show_int n); ("seed", show_int s)]%string)
      SEEDS) N_SAMPLES) (map fst TASKS_DICT)) (map fst ESTIMATORS_DICT).
  (** The inputs of rule results. *)
  Fixpoint inputs_of (l : list (result string)) : result (list string) :=
    match l with
    | [] => Ok []
    | r :: l => do p <- r; do p <- input_name p; do ps <- inputs_of l; Ok (p :: ps)
    end.
  Definition results_inputs : result (list string) := inputs_of expand.

  (** Rule results, 43-51: one row.  [result['task_params']] is read at once; nothing
      changes the dictionary later. *)
  Definition results_row (w : world) (path : string) : prog (sdict py) :=
    match sdict_get w path with
    | Some (Doc n) =>                                                    (* 45-46 *)
        match load_node n with
        | PDict d =>
            run tid <- lift (lookup d "task_id");
            match tid with
            | PStr i =>
                run task <- lift (lookup TASKS_DICT i);                  (* 47 *)
                run mi <- task_mi task;                                  (* 48 *)
                let d := sdict_set d "mi_true" (PFloat mi) in
                run name <- task_name task;                              (* 49 *)
                let d := sdict_set d "task_name" (PStr name) in
                run r <- task_params task;                               (* 50 *)
                run params <- read_dict r;
                pret (sdict_set d "task_params" (PDict params))          (* 51 *)
            | _ => lift (Err KeyError)
            end
        | _ => lift (Err TypeError)
        end
    | _ => lift (Err OtherError)
    end.
  Fixpoint results_rows (w : world) (paths : list string) : prog (list (sdict py)) :=
    match paths with
    | [] => pret []
    | p :: ps => run row <- results_row w p; run rows <- results_rows w ps; pret (row :: rows)
    end.
  (** Rule results, 32-52, up to the table written by pandas (52). *)
  Definition results (w : world) : prog (list (sdict py)) :=
    run paths <- lift results_inputs; results_rows w paths.
End Rules.

(** Model of [src/bmi/estimators/external/external_estimator.py], [r_estimators.py] and
    [julia_estimators.py], and of the scripts they run: [external/rmi.R] and
    [external/mi_estimator.jl].

    The libraries called by the scripts and the printing and reading of floats are
    oracles.  Strings are byte strings. *)
From Coq Require Import Ascii String.
From Verif Require Import Base UtilsModel JaxModel SamplersModel BenchmarkModel TasksModel.
Open Scope Z_scope.
Local Notation length := List.length.

(** ** Processes *)

(** A finished process: its exit code and what it wrote, in order; [true] marks the
    standard error stream.  Or the program could not be started. *)
Inductive process :=
| Exited (code : Z) (chunks : list (bool * string))
| NotStarted (message : string).

(** The files a process can read. *)
Definition files := string -> option string.

(** [str.strip()] (external_estimator.py 12).  Simplification: ASCII white space only. *)
Definition is_space (c : ascii) : bool :=
  let n := nat_of_ascii c in ((9 <=? n) && (n <=? 13) || (28 <=? n) && (n <=? 32))%nat.
Fixpoint lstrip (s : string) : string :=
  match s with
  | EmptyString => EmptyString
  | String c s' => if is_space c then lstrip s' else s
  end.
Fixpoint rstrip (s : string) : string :=
  match s with
  | EmptyString => EmptyString
  | String c s' => match rstrip s' with
                   | EmptyString => if is_space c then EmptyString else String c EmptyString
                   | t => String c t
                   end
  end.
Definition strip (s : string) : string := rstrip (lstrip s).

(** [Path(path).absolute()] (r_estimators.py 36 and the other commands) and its [str].
    Simplification: no collapsing of "//" and "./". *)
Definition absolute (cwd path : string) : string :=
  match path with
  | String "/" _ => path
  | _ => (cwd ++ "/" ++ path)%string
  end.

(** Python's conversions: [bytes.decode()], [float(text)] and the messages of the
    exceptions; [py_bytes] is [str(b)] of a bytes object. *)
Record conversions := {
  decode : string -> option string;
  parse_float : string -> option fl;
  py_bytes : string -> string;
  exit_message : list string -> Z -> string;
  decode_message : string -> string;
  cast_message : string -> string
}.

(** The value of a computation, or the exception it raised: its [str] and, for
    CalledProcessError, the attribute [output]. *)
Inductive attempt (A : Type) := Done (a : A) | Failed (message : string) (output : option string).
Arguments Done {A}. Arguments Failed {A}.

Section External.
  Variable V : conversions.
  (** [subprocess] runs a command in a world of files. *)
  Variable exec : list string -> files -> process.
  (** [str] of the exceptions of pandas for a missing and for an empty file. *)
  Variables missing_file empty_file : string.

  (** [subprocess.check_output(args, stderr=subprocess.STDOUT)], external_estimator.py 11:
      both streams are captured together; a non-zero exit code raises CalledProcessError. *)
  Definition check_output (args : list string) (fs : files) : attempt string :=
    match exec args fs with
    | Exited code chunks =>
        let out := String.concat EmptyString (map snd chunks) in
        if code =? 0 then Done out else Failed (exit_message V args code) (Some (py_bytes V out))
    | NotStarted message => Failed message None
    end.

  (** _run_command_and_read_mi, 10-19. *)
  Definition run_command_and_read_mi (args : list string) (fs : files) : attempt fl :=
    match check_output args fs with                                      (* 11 *)
    | Failed m o => Failed m o
    | Done raw =>
        match decode V raw with                                          (* 12 *)
        | None => Failed (decode_message V raw) None
        | Some text =>
            match parse_float V (strip text) with                        (* 12, 14-15 *)
            | Some v => Done v                                           (* 19 *)
            | None => Failed (cast_message V (strip text)) None          (* 16-17 *)
            end
        end
    end.

  (** An estimator's [_build_command]. *)
  Definition command := string -> Z -> Z -> list string.

  (** [utils.read_sample_dims(path)] (27) with the exceptions of pandas. *)
  Definition dims_of_file (fs : files) (path : string) : attempt (Z * Z) :=
    match fs path with
    | None => Failed missing_file None
    | Some text =>
        match csv_lines text with
        | [] => Failed empty_file None
        | _ => let (dx, dy) := read_sample_dims text in Done (Z.of_nat dx, Z.of_nat dy)
        end
    end.

  (** ExternalEstimator.estimate_with_info_from_path, 26-30. *)
  Definition external_from_path (build : command) (fs : files) (path : string) : outcome :=
    match dims_of_file fs path with                                      (* 27 *)
    | Failed m o => Raised m o
    | Done (dx, dy) =>
        match run_command_and_read_mi (build path dx dy) fs with         (* 28-29 *)
        | Failed m o => Raised m o
        | Done mi => Returned {| er_mi := mi; er_time := None; er_info := [] |}   (* 30 *)
        end
    end.

  (** ExternalEstimator.estimate_with_info, 32-35: the sample goes to a temporary file with
      the name [tmp], which exists (empty) from the start and is deleted in the end.
      [show] prints a CSV cell.  Returns the files which are left. *)
  Definition with_file (fs : files) (name : string) (content : option string) : files :=
    fun p => if String.eqb p name then content else fs p.
  Definition external_with_info (build : command) (show : R -> string) (tmp : string) (fs : files)
      (x y : ndarray) : files * outcome :=
    let result :=
      match save_sample show x y with                                    (* 34 *)
      | Ok text => external_from_path build (with_file fs tmp (Some text)) tmp   (* 35 *)
      | Err _ => Raised "" None                                          (* AssertionError *)
      end in
    (with_file fs tmp None, result).

  (** ExternalEstimator.estimate, 37-39. *)
  Definition external_estimate (build : command) (show : R -> string) (tmp : string) (fs : files)
      (x y : ndarray) : attempt fl :=
    match snd (external_with_info build show tmp fs x y) with
    | Returned r => Done (er_mi r)
    | Raised m o => Failed m o
    | Escaped _ => Failed "" None                                        (* never, see above *)
    end.

  (** The estimator as run_estimator (benchmark/result.py 46-49) sees it. *)
  Definition external_estimator (build : command) (show : R -> string) (tmp : string) (fs : files) : estimator :=
    {| external := true;
       estimate_with_info := fun x y => snd (external_with_info build show tmp fs (Arr2 (ncols x) x) (Arr2 (ncols y) y));
       estimate_with_info_from_path := external_from_path build fs |}.
End External.

(** ** The estimators *)
Section Commands.
  (** The current directory and the directory "external" (R_CODE_DIR, r_estimators.py 10;
      JULIA_CODE_DIR, julia_estimators.py 10); [float_str] is [str] of a float. *)
  Variables (cwd code_dir : string) (float_str : R -> string).

  (** pydantic.PositiveInt and Literal[1, 2]; pydantic's coercions are not modelled. *)
  Definition positive_int (n : Z) : result Z := if 0 <? n then Ok n else Err ValidationError.
  Definition literal_12 (n : Z) : result Z := if (n =? 1) || (n =? 2) then Ok n else Err ValidationError.

  Definition r_script : string := absolute cwd (code_dir ++ "/rmi.R").
  Definition julia_script : string := absolute cwd (code_dir ++ "/mi_estimator.jl").

  (** RKSGEstimator, r_estimators.py 13-48. *)
  Record ksg_params := { kp_variant : Z; kp_neighbors : Z }.
  Definition r_ksg (variant neighbors : Z) : result ksg_params :=        (* 27-30 *)
    do v <- literal_12 variant; do n <- positive_int neighbors; Ok {| kp_variant := v; kp_neighbors := n |}.
  Definition r_ksg_command (p : ksg_params) : command := fun path dim_x dim_y =>   (* 35-48 *)
    ["Rscript"; r_script; absolute cwd path; int_str dim_x; int_str dim_y;
     "--method"; "KSG" ++ int_str (kp_variant p); "--neighbors"; int_str (kp_neighbors p)]%string.

  (** RLNNEstimator, 51-88. *)
  Record lnn_params := { lp_k : Z; lp_truncation : Z }.
  Definition r_lnn (k truncation : Z) : result lnn_params :=             (* 65-68 *)
    do k <- positive_int k; do t <- positive_int truncation; Ok {| lp_k := k; lp_truncation := t |}.
  Definition r_lnn_command (p : lnn_params) : command := fun path dim_x dim_y =>   (* 73-88 *)
    ["Rscript"; r_script; absolute cwd path; int_str dim_x; int_str dim_y;
     "--method"; "LNN"; "--neighbors"; int_str (lp_k p); "--truncation"; int_str (lp_truncation p)]%string.

  (** RBNSLEstimator, 91-126; the parameters are just [proc]. *)
  Definition r_bnsl (proc : Z) : result Z := positive_int proc.          (* 106-108 *)
  Definition r_bnsl_command (proc : Z) : command := fun path dim_x dim_y =>   (* 113-126 *)
    ["Rscript"; r_script; absolute cwd path; int_str dim_x; int_str dim_y;
     "--method"; "BNSL"; "--proc"; int_str proc]%string.

  (** JuliaKSGEstimator, julia_estimators.py 13-51. *)
  Definition julia_ksg (variant neighbors : Z) : result ksg_params :=    (* 30-33 *)
    do v <- literal_12 variant; do n <- positive_int neighbors; Ok {| kp_variant := v; kp_neighbors := n |}.
  Definition julia_ksg_command (p : ksg_params) : command := fun path dim_x dim_y =>   (* 38-51 *)
    ["julia"; julia_script; absolute cwd path; int_str dim_x; int_str dim_y;
     "--estimator"; "KSG" ++ int_str (kp_variant p); "--neighbors"; int_str (kp_neighbors p)]%string.

  (** JuliaHistogramEstimator, 54-87, and JuliaTransferEstimator, 90-123; the parameters are
      just [bins]. *)
  Definition julia_bins (bins : Z) : result Z :=                         (* 64-69, 100-105 *)
    if bins <? 2 then Err ValueError else positive_int bins.
  Definition julia_histogram_command (bins : Z) : command := fun path dim_x dim_y =>   (* 74-87 *)
    ["julia"; julia_script; absolute cwd path; int_str dim_x; int_str dim_y;
     "--estimator"; "Histogram"; "--bins"; int_str bins]%string.
  Definition julia_transfer_command (bins : Z) : command := fun path dim_x dim_y =>   (* 110-123 *)
    ["julia"; julia_script; absolute cwd path; int_str dim_x; int_str dim_y;
     "--estimator"; "Transfer"; "--bins"; int_str bins]%string.

  (** JuliaKernelEstimator, 126-160; the parameters are just [bandwidth]. *)
  Definition julia_kernel (bandwidth : R) : result R :=                  (* 137-142 *)
    if Rleb bandwidth 0 then Err ValueError else Ok bandwidth.
  Definition julia_kernel_command (bandwidth : R) : command := fun path dim_x dim_y =>   (* 147-160 *)
    ["julia"; julia_script; absolute cwd path; int_str dim_x; int_str dim_y;
     "--estimator"; "Kernel"; "--bandwidth"; float_str bandwidth]%string.
End Commands.

(** ** Command line arguments *)

(** An integer argument: an optional sign and digits. *)
Definition digit_value (c : ascii) : option Z :=
  let n := Z.of_nat (nat_of_ascii c) in if (48 <=? n) && (n <=? 57) then Some (n - 48) else None.
Fixpoint digits_from (s : string) (acc : Z) : option Z :=
  match s with
  | EmptyString => Some acc
  | String c s' => match digit_value c with Some d => digits_from s' (10 * acc + d) | None => None end
  end.
Definition parse_int (s : string) : option Z :=
  match s with
  | EmptyString => None
  | String "-" EmptyString => None
  | String "-" s' => match digits_from s' 0 with Some n => Some (- n) | None => None end
  | _ => digits_from s 0
  end.

Definition starts_with (p s : string) : bool := String.prefix p s.

(** Splitting a command line into positional arguments and options (both argparse packages).
    Simplifications: options are written in full, with the value as the next argument,
    which does not start with "--". *)
Fixpoint split_args (names : list string) (args : list string) : option (list string * sdict string) :=
  match args with
  | [] => Some ([], [])
  | a :: rest =>
      if starts_with "--" a then
        if existsb (String.eqb a) names then
          match rest with
          | v :: rest' =>
              if starts_with "--" v then None
              else match split_args names rest' with
                   | Some (ps, os) => Some (ps, (a, v) :: os)
                   | None => None
                   end
          | [] => None
          end
        else None
      else match split_args names rest with
           | Some (ps, os) => Some (a :: ps, os)
           | None => None
           end
  end.

(** The value of an option; the last occurrence counts. *)
Definition option_value (os : sdict string) (name : string) : option string := sdict_get (rev os) name.
Definition int_option (os : sdict string) (name : string) (dflt : Z) : option Z :=
  match option_value os name with Some v => parse_int v | None => Some dflt end.

(** ** rmi.R *)

(** [a:b] of R, and the selection of the columns with these (one-based) numbers: zeros
    are skipped, numbers out of range are errors.  (Negative numbers do not occur here.) *)
Definition r_colon (a b : Z) : list Z :=
  if a <=? b then map (fun i => a + Z.of_nat i) (seq 0 (Z.to_nat (b - a + 1)))
  else map (fun i => a - Z.of_nat i) (seq 0 (Z.to_nat (a - b + 1))).
Definition r_columns (n_columns : nat) (data : matrix) (ids : list Z) : option matrix :=
  let ids := filter (fun i => negb (i =? 0)) ids in
  if forallb (fun i => (1 <=? i) && (i <=? Z.of_nat n_columns)) ids
  then Some (map (fun row => map (fun i => nth (Z.to_nat (i - 1)) row 0%R) ids) data)
  else None.

(** What the script asks its libraries to compute. *)
Inductive r_call :=
| KnnMi (data : matrix) (splits : Z * Z) (method : string) (k : Z)      (* rmi::knn_mi *)
| LnnMi (data : matrix) (splits : Z * Z) (k tr : Z)                     (* rmi::lnn_mi *)
| BnslMi (x y : matrix) (proc : Z).                                     (* BNSL::mi *)

Section Scripts.
  Variable read_cell : string -> option R.     (* read.csv and CSV.File *)

  (** The validation of --proc, rmi.R 25-27. *)
  Definition r_proc_ok (proc : Z) : bool := negb (((2 <? proc) && negb (proc =? 10)) || (proc <? 0)).

  (** rmi.R 10-60: the call made, or None when the script stops with an error.  A matrix
      with one selected column is passed as a vector, which is not distinguished here. *)
  Definition rmi_script (args : list string) (fs : files) : option r_call :=
    match split_args ["--method"; "--neighbors"; "--alpha"; "--truncation"; "--proc"]%string args with
    | Some ([file; dimx; dimy], os) =>                                   (* 12-14, 22 *)
        match parse_int dimx, parse_int dimy, int_option os "--neighbors" 10, int_option os "--truncation" 30,
              int_option os "--proc" 0 with                              (* 16, 18, 19 *)
        | Some dimx, Some dimy, Some neighbors, Some truncation, Some proc =>
            let method := match option_value os "--method" with Some m => m | None => "KSG1"%string end in   (* 15 *)
            if negb (r_proc_ok proc) then None                           (* 25-27 *)
            else match fs file with
                 | None => None
                 | Some text =>
                     match read_csv read_cell text with                  (* 30, 37 *)
                     | Err _ => None
                     | Ok (columns, data) =>
                         if (String.eqb method "KSG1" || String.eqb method "KSG2")%string then   (* 47-49 *)
                           Some (KnnMi data (dimx, dimy) method neighbors)
                         else if String.eqb method "LNN" then            (* 50-51 *)
                           Some (LnnMi data (dimx, dimy) neighbors truncation)
                         else if String.eqb method "BNSL" then           (* 52-57 *)
                           match r_columns (length columns) data (r_colon 1 dimx),
                                 r_columns (length columns) data (r_colon (dimx + 1) (dimx + dimy)) with
                           | Some x, Some y => Some (BnslMi x y proc)
                           | _, _ => None
                           end
                         else None                                       (* 40-43, 58-60 *)
                     end
                 end
        | _, _, _, _, _ => None
        end
    | _ => None
    end.

  (** ** mi_estimator.jl *)
  Inductive julia_method :=
  | Kraskov1 (k : Z) | Kraskov2 (k : Z) | VisitationFrequency (bins : Z) | TransferOperator (bins : Z)
  | NaiveKernel (bandwidth : R).

  (** What the script computes: [mutualinfo(x, y, estimator, base=e)], 141. *)
  Record julia_call := { jc_x : matrix; jc_y : matrix; jc_method : julia_method }.

  (** get_estimator, 83-102. *)
  Definition get_estimator (name : string) (k bins : Z) (bandwidth : R) : option julia_method :=
    if String.eqb name "KSG1" then Some (Kraskov1 k)
    else if String.eqb name "KSG2" then Some (Kraskov2 k)
    else if String.eqb name "Histogram" then Some (VisitationFrequency bins)
    else if String.eqb name "Transfer" then Some (TransferOperator bins)
    else if String.eqb name "Kernel" then Some (NaiveKernel bandwidth)
    else None.

  (** [df[:, a:b]], 114-115: an empty range selects nothing, a column out of range is an error. *)
  Definition julia_columns (n_columns : nat) (data : matrix) (a b : Z) : option matrix :=
    if b <? a then Some (map (fun _ => []) data)
    else if (1 <=? a) && (b <=? Z.of_nat n_columns)
    then Some (map (fun row => map (fun i => nth (Z.to_nat (a + Z.of_nat i - 1)) row 0%R) (seq 0 (Z.to_nat (b - a + 1)))) data)
    else None.

  Variable parse_double : string -> option R.

  (** main with get_args and get_samples, 19-80, 105-148; None: an exception.  The flag
      --verbose is not modelled. *)
  Definition julia_main (args : list string) (fs : files) : option julia_call :=
    match split_args ["--neighbors"; "--estimator"; "--bins"; "--bandwidth"]%string args with
    | Some ([samples; dim_x; dim_y], os) =>                              (* 25-35 *)
        match parse_int dim_x, parse_int dim_y, int_option os "--neighbors" 10, int_option os "--bins" 10,
              (match option_value os "--bandwidth" with Some v => parse_double v | None => Some 1%R end) with   (* 39-53 *)
        | Some dim_x, Some dim_y, Some neighbors, Some bins, Some bandwidth =>
            let name := match option_value os "--estimator" with Some m => m | None => "KSG1"%string end in
            match fs samples with
            | None => None                                               (* 60-62 *)
            | Some text =>
                if Z.min dim_x dim_y <? 1 then None                      (* 64-66 *)
                else if neighbors <? 1 then None                         (* 70-72 *)
                else match get_estimator name neighbors bins bandwidth with   (* 75-77, 140 *)
                     | None => None
                     | Some m =>
                         match read_csv read_cell text with              (* 107 *)
                         | Err _ => None
                         | Ok (columns, data) =>
                             match julia_columns (length columns) data 1 dim_x,          (* 114 *)
                                   julia_columns (length columns) data (1 + dim_x) (dim_x + dim_y) with   (* 115 *)
                             | Some x, Some y => Some {| jc_x := x; jc_y := y; jc_method := m |}
                             | _, _ => None
                             end
                         end
                     end
            end
        | _, _, _, _, _ => None
        end
    | _ => None
    end.

  (** Running a command: what the libraries answer ([inr]: printed by [cat] (62-63) and
      [println] (146); [inl]: an error message), and the messages of scripts which fail. *)
  Variable r_library : r_call -> string + string.
  Variable julia_library : julia_call -> string + string.
  Variables (r_error julia_error : string) (script_r script_julia : string).

  Definition printed (r : string + string) : process :=
    match r with
    | inr number => Exited 0 [(false, number); (false, String newline EmptyString)]
    | inl message => Exited 1 [(true, message)]
    end.
  Definition shell (args : list string) (fs : files) : process :=
    match args with
    | program :: script :: rest =>
        if (String.eqb program "Rscript" && String.eqb script script_r)%string then
          match rmi_script rest fs with
          | Some c => printed (r_library c)
          | None => printed (inl r_error)
          end
        else if (String.eqb program "julia" && String.eqb script script_julia)%string then
          match julia_main rest fs with
          | Some c => printed (julia_library c)
          | None => printed (inl julia_error)
          end
        else NotStarted "No such file or directory"
    | _ => NotStarted "No such file or directory"
    end.
End Scripts.

(** Model of [workflows/projects/Mixtures/gmm_benchmark.smk], the rules sample_task,
    apply_gmm_estimator, results and create_table (88-215); the tasks and names are in ConfigModel.

    Snakemake is modelled as in RulesModel.  Simplifications: exact reals for finite floats;
    the memory limit (110) and the MCMC samples kept for inspection (115, 119) are left out;
    a CSV file is read back as the rows which were written. *)
From Coq Require Import String.
From Verif Require Import Base UtilsModel JaxModel SamplersModel BenchmarkModel TablesModel RulesModel.
Open Scope Z_scope.
Local Notation length := List.length.

(** ** Summaries *)

(** [mi_samples[np.isfinite(mi_samples)]], 147. *)
Definition finite_values (l : list fl) : list R := flat_map (fun v => match v with Fin r => [r] | _ => [] end) l.
(** [posterior_mi.mean()], 120. *)
Definition array_mean (l : list fl) : fl := match l with [] => NaN | _ => fl_divp (fl_sum l) (INR (length l)) end.
(** [np.quantile(a, q)] of a non-empty array for [0 <= q <= 1], method "linear": between the
    neighbours of the virtual index in the sorted array, the next index not beyond the last. *)
Definition quantile (q : R) (l : list R) : R :=
  let s := sort_by Rleb l in
  let v := (INR (length s - 1) * q)%R in
  let j := Z.to_nat (Int_part v) in
  (nth j s 0 + (v - INR j) * (nth (S j) s (nth j s 0) - nth j s 0))%R.
(** 146-157: low quantile, mean, high quantile; number of entries left out and used. *)
Record summary := { s_low : R; s_mean : R; s_high : R; s_filtered : Z; s_used : Z }.
Definition summarize (posterior_mi : list fl) : summary :=
  let original_length := zlen posterior_mi in                            (* 146 *)
  let mi_samples := finite_values posterior_mi in                        (* 147 *)
  let new_length := zlen mi_samples in                                   (* 148 *)
  if 0 <? new_length then                                                (* 150-153, 168-172 *)
    {| s_low := quantile (1 / 10) mi_samples; s_mean := rmean mi_samples; s_high := quantile (9 / 10) mi_samples;
       s_filtered := original_length - new_length; s_used := new_length |}
  else                                                                   (* 154-157 *)
    {| s_low := -1; s_mean := -1; s_high := -1; s_filtered := original_length - new_length; s_used := new_length |}.

(** ** Rules *)

(** The dictionary saved for a run, 117-124. *)
Record run_info := { ri_posterior : list fl; ri_mi : fl; ri_task_id : string; ri_estimator_id : string; ri_seed : Z }.
(** The files: CSV texts and joblib files. *)
Inductive gfile := GText (s : string) | GRun (r : run_info).
Definition gworld := sdict gfile.
Definition gtexts (w : gworld) (path : string) : option string :=
  match sdict_get w path with Some (GText s) => Some s | _ => None end.

(** 101 and 134. *)
Definition gmm_output : list part :=
  [Lit "results/"; Wild "estimator_id"; Lit "/"; Wild "task_id"; Lit "/"; Wild "n_samples"; Lit "-"; Wild "seed"; Lit ".joblib"]%string.

Section Rules.
  Context {J : prng}.
  (** ESTIMATORS_DICT (78-80): the method [get_posterior_mi] of each; TASKS_DICT (70-72);
      N_SAMPLES (75), a list here; SEEDS (73). *)
  Variable ESTIMATORS_DICT : sdict (matrix -> matrix -> result (list fl)).
  Variable TASKS_DICT : sdict (task J).
  Variables N_SAMPLES SEEDS : list Z.
  (** The number formats of pandas. *)
  Variable show : R -> string.
  Variable parse : string -> option R.

  (** Rule apply_gmm_estimator, 100-126; sample_task (89-96) is the rule of RulesModel. *)
  Definition apply_gmm_estimator (w : gworld) (wc : wildcards) : result run_info :=
    do input <- fill apply_input wc;                                     (* 102 *)
    do estimator_id <- wildcard wc "estimator_id";                       (* 104 *)
    do estimator <- RulesModel.lookup ESTIMATORS_DICT estimator_id;      (* 105 *)
    do task_id <- wildcard wc "task_id";                                 (* 106 *)
    do s <- wildcard wc "seed"; do seed <- read_int s;                   (* 107 *)
    do xy <- read_sample_file parse (gtexts w) input;                    (* 112 *)
    do posterior_mi <- estimator (fst xy) (snd xy);                      (* 114 *)
    Ok {| ri_posterior := posterior_mi; ri_mi := array_mean posterior_mi; ri_task_id := task_id;
          ri_estimator_id := estimator_id; ri_seed := seed |}.           (* 117-124 *)

  (** The job making a path. *)
  Definition gmm_make_path (w : gworld) (path : string) : result gworld :=
    match match_path sample_output path with
    | Some wc => do text <- sample_task TASKS_DICT show wc; Ok (sdict_set w path (GText text))
    | None => match match_path gmm_output path with
              | Some wc => do r <- apply_gmm_estimator w wc; Ok (sdict_set w path (GRun r))
              | None => Err OtherError
              end
    end.
  Fixpoint gmm_make_all (paths : list string) (w : gworld) : result gworld :=
    match paths with
    | [] => Ok w
    | p :: ps => do w <- gmm_make_path w p; gmm_make_all ps w
    end.

  (** Rule results, 133-139: the inputs. *)
  Definition gmm_expand : list (result string) :=
    flat_map (fun e => flat_map (fun t => flat_map (fun n => map (fun s =>
      fill gmm_output [("estimator_id", e); ("task_id", t); ("n_samples", show_int n); ("seed", show_int s)]%string)
      SEEDS) N_SAMPLES) (map fst TASKS_DICT)) (map fst ESTIMATORS_DICT).
  (** 143-173: one row. *)
  Definition gmm_row (w : gworld) (path : string) : prog (sdict py) :=
    match sdict_get w path with
    | Some (GRun run_info) =>                                            (* 143 *)
        let s := summarize (ri_posterior run_info) in                    (* 144-157 *)
        run task <- lift (RulesModel.lookup TASKS_DICT (ri_task_id run_info));   (* 160 *)
        run mi <- task_mi task;                                          (* 162 *)
        run i <- task_id task;                                           (* 163 *)
        run name <- task_name task;                                      (* 166 *)
        run r <- task_params task;                                       (* 167 *)
        run params <- read_dict r;
        pret [("mi_true", PFloat mi); ("task_id", PStr i); ("estimator_id", PStr (ri_estimator_id run_info));
              ("seed", PInt (ri_seed run_info)); ("task_name", PStr name); ("task_params", PDict params);
              ("entries_filtered_out", PInt (s_filtered s)); ("used_length", PInt (s_used s));
              ("mi_q_low", PFloat (Fin (s_low s))); ("mi_mean", PFloat (Fin (s_mean s)));
              ("mi_q_high", PFloat (Fin (s_high s)))]%string             (* 161-173 *)
    | _ => lift (Err OtherError)
    end.
  Fixpoint gmm_rows (w : gworld) (paths : list string) : prog (list (sdict py)) :=
    match paths with
    | [] => pret []
    | p :: ps => run row <- gmm_row w p; run rows <- gmm_rows w ps; pret (row :: rows)
    end.
  (** Rule results, 130-175. *)
  Definition gmm_results (w : gworld) : prog (list (sdict py)) :=
    run paths <- lift (inputs_of gmm_expand); gmm_rows w paths.
End Rules.

(** ** The table *)

(** The columns of a row of the file which create_table and the figure read. *)
Record record := { g_task : string; g_seed : Z; g_true : fl; g_low : R; g_mean : R; g_high : R }.
(** [record["..."]], 201-204. *)
Definition read_record (row : sdict py) : result record :=
  do t <- get_key row "task_id"; do m <- get_key row "mi_mean"; do l <- get_key row "mi_q_low"; do u <- get_key row "mi_q_high";
  do v <- get_key row "mi_true"; do s <- get_key row "seed";
  match t, m, l, u, v, s with
  | PStr t, PFloat (Fin m), PFloat (Fin l), PFloat (Fin u), PFloat v, PInt s =>
      Ok {| g_task := t; g_seed := s; g_true := v; g_low := l; g_mean := m; g_high := u |}
  | _, _, _, _, _, _ => Err TypeError
  end.

Section Table.
  (** [f"{x:.2f}"]; the names of the tasks (45-67). *)
  Variable two_digits : fl -> string.
  Variable NAMES : sdict string.

  (** create_result_entry, 185-186. *)
  Definition create_result_entry (mean qlow qhigh : R) : string :=
    (two_digits (Fin mean) ++ " (" ++ two_digits (Fin qlow) ++ "–" ++ two_digits (Fin qhigh) ++ ")")%string.
  (** create_row, 188-195. *)
  Definition placeholder : string := "mean (qlow – qhigh)".
  Definition create_row : sdict py :=
    [("Task name", PStr ""); ("True MI", PInt (-10)); ("Run 1", PStr placeholder); ("Run 2", PStr placeholder);
     ("Run 3", PStr placeholder)]%string.
  (** 200-209: one record. *)
  Definition add_record (table_map : sdict (sdict py)) (r : record) : result (sdict (sdict py)) :=
    let row := match sdict_get table_map (g_task r) with Some row => row | None => create_row end in   (* 206 *)
    do name <- RulesModel.lookup NAMES (g_task r);                       (* 207 *)
    let row := sdict_set row "Task name" (PStr name) in
    let row := sdict_set row "True MI" (PStr (two_digits (g_true r))) in (* 208 *)
    let row := sdict_set row ("Run " ++ show_int (g_seed r + 1))
                 (PStr (create_result_entry (g_mean r) (g_low r) (g_high r))) in   (* 202, 209 *)
    Ok (sdict_set table_map (g_task r) row).
  Fixpoint add_records (table_map : sdict (sdict py)) (l : list record) : result (sdict (sdict py)) :=
    match l with
    | [] => Ok table_map
    | r :: l => do table_map <- add_record table_map r; add_records table_map l
    end.
  (** Rule create_table, 178-215: the rows of the table.  Without rows there is no column
      "Task name" (212). *)
  Definition create_table (rows : list (sdict py)) : result (list (sdict py)) :=
    do records <- map_rows read_record rows;
    do table_map <- add_records [] records;
    match table_map with [] => Err KeyError | _ => Ok (map snd table_map) end.   (* 211-212 *)
End Table.

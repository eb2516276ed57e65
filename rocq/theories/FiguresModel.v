(** Model of the tables behind the benchmark figures,
    [workflows/projects/Beyond_Normal/_common_figure_utils.py] 70-102 and 162-365.

    Rows are those of [TablesModel].  Simplifications: drawing ([sns.heatmap], colours,
    transposition) is left out, so a figure is the tables which are drawn; the columns which
    the code reads are present and (estimator, task, sample size, seed) is unique; an
    estimator is the fact whether it is neural (182-185), a task its name and mutual
    information; the dictionary of estimators or tasks is the list of its items. *)
From Coq Require Import String.
From Verif Require Import Base UtilsModel JaxModel SamplersModel GaussianModel BenchmarkModel TasksModel TablesModel.
Open Scope R_scope.
Local Notation length := List.length.

(** read_results, 99-100 (70-97 is [TablesModel.read_results]). *)
Definition limit_estimates (max_mi_estimate : option fl) (results : list row) : list row :=
  match max_mi_estimate with
  | Some m => filter (fun r => fl_ltb (r_estimate r) m) results
  | None => results
  end.

(** [np.log] of a column. *)
Definition np_ln (a : fl) : fl := match a with Fin x => np_log x | PInf => PInf | NInf | NaN => NaN end.

(** A row after preprocess_benchmark_results. *)
Record prow := { p_row : row; p_neural : bool; p_fail : bool; p_error : fl }.
(** preprocess_benchmark_results, 175-202.  (Line 191 spreads the maximum of the groups of
    the first three levels over their seeds.) *)
Definition preprocess (estimators : sdict bool) (results : list row) : list prow :=
  map (fun r =>
    let neural := match sdict_get estimators (r_estimator r) with Some b => b | None => false end in   (* 179-187 *)
    let m := pd_max (map r_estimate (filter (same_run r) results)) in                                  (* 191 *)
    let fail := (fl_ltb (r_estimate r) (Fin 0) || fl_ltb (r_estimate r) (fl_scale (1 / 10) m))%bool in (* 192-194 *)
    {| p_row := r; p_neural := neural; p_fail := (neural && fail)%bool;                                (* 195 *)
       p_error := np_ln (np_divide (r_estimate r) (r_true r)) |}) results.                             (* 199-200 *)

(** [data["n_samples"].max()] and the rows with that size (232, 347): nothing of an empty frame. *)
Definition largest_size (results : list row) : option Z :=
  match map r_n results with [] => None | n :: ns => Some (fold_left Z.max ns n) end.
Definition at_largest_size (data : list prow) : list prow :=
  match largest_size (map p_row data) with
  | Some m => filter (fun p => Z.eqb (r_n (p_row p)) m) data
  | None => []
  end.

(** [groupby(["estimator_id", "task_id", "n_samples"])] (236, 310, 350): for every pair and
    size, in this order, the rows. *)
Definition by_size (data : list prow) : list ((string * string) * Z * list prow) :=
  flat_map (fun g =>
    map (fun n => (fst g, n, filter (fun p => Z.eqb (r_n (p_row p)) n) (snd g)))
        (sort_by Z.leb (nodup Z.eq_dec (map (fun p => r_n (p_row p)) (snd g)))))
    (group (fun p => (r_estimator (p_row p), r_task (p_row p))) data).

(** [table.loc[task, estimator]]; [reindex] (210) gives NaN for a label which is missing. *)
Fixpoint find_label (l : list string) (x : string) : option nat :=
  match l with
  | [] => None
  | y :: l => if String.eqb y x then Some 0%nat else option_map S (find_label l x)
  end.
Definition loc (t : table) (task estimator : string) : fl :=
  match find_label (tb_index t) task, find_label (tb_columns t) estimator with
  | Some i, Some j => nth j (nth i (tb_values t) []) NaN
  | _, _ => NaN
  end.
(** [d[k]] *)
Definition get_name (d : sdict string) (k : string) : result string :=
  match sdict_get d k with Some s => Ok s | None => Err KeyError end.
(** make_benchmark_table, 205-225; a task is its name and mutual information. *)
Definition make_benchmark_table (d : long) (estimators : sdict bool) (tasks : sdict (string * fl)) (estimator_names : sdict string)
  : result table :=
  do t <- pivot d;                                                       (* 206 *)
  let task_order := filter (fun i => existsb (String.eqb i) (map (fun x => snd (fst x)) d)) (map fst tasks) in            (* 209 *)
  let estimator_order := filter (fun e => existsb (String.eqb e) (map (fun x => fst (fst x)) d)) (map fst estimators) in  (* 211-215 *)
  do index <- map_rows (get_name (map (fun x => (fst x, fst (snd x))) tasks)) task_order;   (* 221 *)
  do columns <- map_rows (get_name estimator_names) estimator_order;     (* 222 *)
  Ok {| tb_index := index; tb_columns := columns;
        tb_values := map (fun i => map (loc t i) estimator_order) task_order |}.   (* 210, 216 *)

(** [table[name] = values]: columns of that name are replaced, else one is added. *)
Definition set_column (t : table) (name : string) (values : list fl) : result table :=
  if (length values =? length (tb_index t))%nat then
    if existsb (String.eqb name) (tb_columns t) then
      Ok {| tb_index := tb_index t; tb_columns := tb_columns t;
            tb_values := map (fun x => map (fun cv => if String.eqb (fst cv) name then fst x else snd cv) (combine (tb_columns t) (snd x)))
                             (combine values (tb_values t)) |}
    else
      Ok {| tb_index := tb_index t; tb_columns := (tb_columns t ++ [name])%list;
            tb_values := map (fun x => (snd x ++ [fst x])%list) (combine values (tb_values t)) |}
  else Err ValueError.

Section Figures.
  (** ESTIMATOR_NAMES, 49-66. *)
  Variable default_names : sdict string.
  Variables (estimators : sdict bool) (tasks : sdict (string * fl)) (names : sdict string).

  (** plot_benchmark_mi_estimate, 228-264: the colours and the numbers of the heat map.
      (If no row is left, pandas gives line 245 a new index, and the heat map rejects the two
      tables of different shapes: a ValueError, too.) *)
  Definition mi_estimate_figure (results : list row) : result (table * table) :=
    let estimator_names := sdict_merge default_names names in            (* 229 *)
    let data := preprocess estimators results in                         (* 231 *)
    let data := at_largest_size data in                                  (* 232 *)
    let data := filter (fun p => negb (p_fail p)) data in                (* 233 *)
    let data := by_size data in                                          (* 236-242 *)
    let estimates := map (fun g => (fst (fst g), pd_mean (map (fun p => r_estimate (p_row p)) (snd g)))) data in
    let errors := map (fun g => (fst (fst g), pd_mean (map p_error (snd g)))) data in
    do table_estimate <- make_benchmark_table estimates estimators tasks estimator_names;   (* 244 *)
    do table_estimate <- set_column table_estimate "True MI" (map (fun x => snd (snd x)) tasks);   (* 245 *)
    do table_log_rel_err <- make_benchmark_table errors estimators tasks estimator_names;   (* 247-249 *)
    do table_log_rel_err <- set_column table_log_rel_err "True MI" (map (fun _ => Fin 0) (tb_index table_log_rel_err));   (* 250 *)
    Ok (table_log_rel_err, table_estimate).

  (** n_samples_needed, 267-285, on the rows (sample size, error) of an estimator and task. *)
  Definition n_samples_needed (rows : list (Z * fl)) : fl :=
    let abs v := match v with Fin x => Fin (Rabs x) | NInf => PInf | w => w end in
    let is_solved := sort_by (fun a b => Z.leb (fst a) (fst b))
                       (map (fun nv => (fst nv, fl_ltb (abs (snd nv)) (Fin (ln (3 / 2))))) rows) in   (* 268-270 *)
    let index_min l := match map fst l with [] => NaN | n :: ns => Fin (IZR (fold_left Z.min ns n)) end in
    let failed := filter (fun x => negb (snd x)) is_solved in            (* 272 *)
    match map fst failed with
    | [] => index_min is_solved                                          (* 275-276 *)
    | n :: ns =>
        let last_failed := fold_left Z.max ns n in
        let above := filter (fun m => Z.ltb last_failed m) (map fst is_solved) in
        let succeeded := flat_map (fun m => filter (fun x => Z.eqb (fst x) m) is_solved) above in      (* 279 *)
        match succeeded with
        | [] => PInf                                                     (* 282-283 *)
        | _ => index_min succeeded                                       (* 285 *)
        end
    end.

  (** [int(x)] of a float. *)
  Definition py_int (x : R) : Z := if Rltb x 0 then (- Int_part (- x))%Z else Int_part x.
  (** n_samples_annotator, 288-301. *)
  Definition n_samples_annotator (max_n_samples : Z) (val : fl) : string :=
    match val with
    | NaN => ""                                                          (* 290-291 *)
    | PInf | NInf => ">" ++ int_str (py_int (IZR max_n_samples / 1000)) ++ "k"   (* 293-294 *)
    | Fin v => if Rltb v 1000 then int_str (py_int v)                    (* 296-297 *)
               else int_str (py_int (v / 1000)) ++ "k"                   (* 299 *)
    end%string.

  (** [np.clip] between two numbers. *)
  Definition np_clip (lo hi : R) (v : fl) : fl :=
    match v with NaN => NaN | PInf => Fin (Rmin (Rmax hi lo) hi) | NInf => Fin (Rmin lo hi) | Fin x => Fin (Rmin (Rmax x lo) hi) end.
  (** plot_benchmark_n_samples, 304-340: the table, the colours (clipped) and the texts of the
      heat map.  (The maximum of an empty frame is NaN: then there are no cells.) *)
  Definition n_samples_table (results : list row) : result table :=
    let estimator_names := sdict_merge default_names names in            (* 305 *)
    let data := preprocess estimators results in                         (* 309 *)
    let data := filter (fun p => negb (p_fail p)) data in                (* 310 *)
    let data := map (fun g => (fst g, pd_mean (map p_error (snd g)))) (by_size data) in   (* 311-317 *)
    let data_samples := map (fun g => (fst g, n_samples_needed (map (fun x => (snd (fst x), snd x)) (snd g))))
                            (group (fun x => fst (fst x)) data) in       (* 319-321 *)
    make_benchmark_table data_samples estimators tasks estimator_names.  (* 323-325 *)
  Definition n_samples_figure (results : list row) : result (table * list (list fl) * list (list string)) :=
    let max_n_samples := match largest_size results with Some m => m | None => 0%Z end in   (* 307 *)
    do t <- n_samples_table results;
    Ok (t, map (map (np_clip 0 (100 * IZR max_n_samples))) (tb_values t),          (* 329 *)
        map (map (n_samples_annotator max_n_samples)) (tb_values t)).    (* 326 *)

  (** plot_benchmark_neural_fails, 343-365: the numbers of failed seeds. *)
  Definition neural_fails_figure (results : list row) : result table :=
    let estimator_names := sdict_merge default_names names in            (* 344 *)
    let data := preprocess estimators results in                         (* 346 *)
    let data := at_largest_size data in                                  (* 347 *)
    let data := filter p_neural data in                                  (* 348 *)
    let data := map (fun g => (fst (fst g), Fin (INR (length (filter p_fail (snd g)))))) (by_size data) in   (* 349-351 *)
    make_benchmark_table data estimators tasks estimator_names.          (* 353 *)
End Figures.

(** scale_tasks, 162-172. *)
Fixpoint scale_tasks {J : prng} (tasks : sdict (task J)) : prog (sdict (task J)) :=
  match tasks with
  | [] => pret []
  | (key, base_task) :: tasks =>
      run n <- task_name base_task;                                      (* 168 *)
      run i <- task_id base_task;                                        (* 169 *)
      run t <- transform_rescale base_task (Some n) (Some i);            (* 166-170 *)
      run ts <- scale_tasks tasks;
      pret ((key, t) :: ts)
  end.

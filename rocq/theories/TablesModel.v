(** Model of [workflows/benchmark/_utils.py]: reading results and the two tables.

    A data frame of results is the list of its rows.  Simplifications: the columns which the
    code reads are present and the keys of the groups are not missing; the styling of the
    tables (formats, colours, captions) is left out; [mi_true] is never -0.0. *)
From Coq Require Import String.
From Verif Require Import Base UtilsModel GaussianModel BenchmarkModel.
Open Scope R_scope.
Local Notation length := List.length.

(** ** read_results *)

(** [row_dict |= v] (23, 27) for a dictionary [v]; [None], numbers and lists are rejected. *)
Definition update_row (row : sdict py) (v : py) : result (sdict py) :=
  match v with PDict d => Ok (sdict_merge row d) | _ => Err TypeError end.
(** [row_dict[k]], [del row_dict[k]]. *)
Definition get_key (row : sdict py) (k : string) : result py :=
  match sdict_get row k with Some v => Ok v | None => Err KeyError end.
Definition del_key (row : sdict py) (k : string) : sdict py :=
  filter (fun kv => negb (String.eqb (fst kv) k)) row.
(** 22-24 and 26-28. *)
Definition unpack (key : string) (row : sdict py) : result (sdict py) :=
  do v <- get_key row key;
  do row <- update_row row v;
  Ok (del_key row key).
(** One row of the file, 15 and 20-30; [yaml_load] is [yaml.safe_load] of a cell. *)
Definition read_row (yaml_load : py -> result py) (unpack_task_params unpack_additional_information : bool) (row : sdict py)
  : result (sdict py) :=
  do p <- get_key row "task_params"; do p <- yaml_load p;                (* 14-15 *)
  let row := sdict_set row "task_params" p in
  do a <- get_key row "additional_information"; do a <- yaml_load a;
  let row := sdict_set row "additional_information" a in
  do row <- (if unpack_task_params then unpack "task_params" row else Ok row);                        (* 22-24 *)
  if unpack_additional_information then unpack "additional_information" row else Ok row.              (* 26-28 *)
Fixpoint map_rows {A B} (f : A -> result B) (l : list A) : result (list B) :=
  match l with
  | [] => Ok []
  | a :: l => do b <- f a; do bs <- map_rows f l; Ok (b :: bs)
  end.
(** read_results, 6-33, on the rows which [pd.read_csv] returns.  (The columns of the frame
    made in line 32 are the keys of all rows, a missing value is NaN.) *)
Definition read_results (yaml_load : py -> result py) (p a : bool) (rows : list (sdict py)) : result (list (sdict py)) :=
  map_rows (read_row yaml_load p a) rows.

(** ** Columns *)

(** The columns of a row which the tables read. *)
Record row := { r_estimator : string; r_task : string; r_n : Z; r_estimate : fl; r_true : fl }.

(** [a / b] for floats, [b] not -0.0. *)
Definition np_divide (a b : fl) : fl :=
  match a, b with
  | NaN, _ | _, NaN => NaN
  | Fin x, Fin y => if Reqb y 0 then (if Rltb 0 x then PInf else if Rltb x 0 then NInf else NaN) else Fin (x / y)
  | Fin _, _ => Fin 0
  | PInf, Fin y => if Rltb y 0 then NInf else PInf
  | NInf, Fin y => if Rltb y 0 then PInf else NInf
  | _, _ => NaN
  end.
(** [np.log2]. *)
Definition np_log2 (a : fl) : fl :=
  match a with
  | Fin x => match np_log x with Fin l => Fin (l / ln 2) | v => v end
  | PInf => PInf
  | NInf | NaN => NaN
  end.
(** add_col_log_relative_error, 36-40: the new column. *)
Definition log_relative_error (r : row) : fl := np_log2 (np_divide (r_estimate r) (r_true r)).

(** [max] of a group, which skips NaN: NaN if nothing is left. *)
Definition is_nan (v : fl) : bool := match v with NaN => true | _ => false end.
Definition pd_max (l : list fl) : fl :=
  match filter (fun v => negb (is_nan v)) l with
  | [] => NaN
  | v :: vs => fold_left py_max vs v
  end.
(** [mean] of a group, which skips NaN. *)
Definition pd_mean (l : list fl) : fl :=
  match filter (fun v => negb (is_nan v)) l with
  | [] => NaN
  | vs => fl_divp (fl_sum vs) (INR (length vs))
  end.
(** Rows of the same estimator, task and sample size (44). *)
Definition same_run (a b : row) : bool :=
  (String.eqb (r_estimator a) (r_estimator b) && String.eqb (r_task a) (r_task b) && Z.eqb (r_n a) (r_n b))%bool.
(** add_col_converged, 43-48: the new column. *)
Definition converged (data : list row) (r : row) : bool :=
  let m := pd_max (map r_estimate (filter (same_run r) data)) in         (* 44-46 *)
  fl_ltb (fl_scale (1 / 10) m) (r_estimate r).                           (* 47 *)

(** ** Groups and pivots *)

(** The distinct keys, sorted (pandas sorts groups and the labels of a pivot). *)
Fixpoint insert_by {A} (leb : A -> A -> bool) (a : A) (l : list A) : list A :=
  match l with
  | [] => [a]
  | b :: l' => if leb a b then a :: l else b :: insert_by leb a l'
  end.
Definition sort_by {A} (leb : A -> A -> bool) (l : list A) : list A := fold_right (insert_by leb) [] l.
Definition labels (l : list string) : list string := sort_by String.leb (nodup string_dec l).
Definition pair_leb (a b : string * string) : bool :=
  match String.compare (fst a) (fst b) with Lt => true | Gt => false | Eq => String.leb (snd a) (snd b) end.
Definition pair_dec (a b : string * string) : {a = b} + {a <> b}.
Proof. decide equality; apply string_dec. Defined.
(** [groupby(["estimator_id", "task_id"])] (68, 132): the groups with their rows. *)
Definition group {A} (key : A -> string * string) (data : list A) : list ((string * string) * list A) :=
  map (fun k => (k, filter (fun r => if pair_dec (key r) k then true else false) data))
      (sort_by pair_leb (nodup pair_dec (map key data))).

(** A table with row labels and column labels. *)
Record table := { tb_index : list string; tb_columns : list string; tb_values : list (list fl) }.
(** A long frame: (estimator, task, value). *)
Definition long := list (string * string * fl).
Fixpoint lookup (d : long) (estimator task : string) : fl :=
  match d with
  | [] => NaN
  | (e, t, v) :: d => if (String.eqb e estimator && String.eqb t task)%bool then v else lookup d estimator task
  end.
(** [data.pivot(index="task_id", columns="estimator_id", values=...)], 91-92, 144: a pair of
    labels which occurs twice is rejected; missing pairs are NaN. *)
Definition pivot (d : long) : result table :=
  if (length (nodup pair_dec (map fst d)) =? length (map fst d))%nat then
    let index := labels (map (fun x => snd (fst x)) d) in
    let columns := labels (map (fun x => fst (fst x)) d) in
    Ok {| tb_index := index; tb_columns := columns;
          tb_values := map (fun t => map (fun e => lookup d e t) columns) index |}
  else Err ValueError.

(** [drop_duplicates(subset=["task_id"])], 74: the first row of every task. *)
Fixpoint first_of_each (seen : list string) (data : list row) : list row :=
  match data with
  | [] => []
  | r :: data => if in_dec string_dec (r_task r) seen then first_of_each seen data
                 else r :: first_of_each (r_task r :: seen) data
  end.

(** 52-55 (and 121-124): the rows with [n_samples] samples, by default the largest size. *)
Definition select (results : list row) (n_samples : option Z) : list row :=
  let n := match n_samples with Some n => n | None => fold_right Z.max 0%Z (map r_n results) end in
  filter (fun r => Z.eqb (r_n r) n) results.

(** create_benchmark_table, 51-117: the tables [table_mi] and [table_err]. *)
Definition create_benchmark_table (results : list row) (n_samples : option Z) (converged_only : bool) : result (table * table) :=
  let data := select results n_samples in                                (* 52-55 *)
  let data := results in                                                 (* 56 *)
  let data := if converged_only then filter (converged data) data else data in   (* 62-64 *)
  let means := map (fun g => (fst g, pd_mean (map r_estimate (snd g)), pd_mean (map log_relative_error (snd g))))
                   (group (fun r => (r_estimator r, r_task r)) data) in  (* 67-71 *)
  let truth := map (fun r => (("True MI"%string, r_task r), r_true r, Fin 0)) (first_of_each [] results) in   (* 74-86 *)
  let data := (means ++ truth)%list in                                   (* 75 *)
  do table_mi <- pivot (map (fun x => (fst (fst x), snd (fst x))) data); (* 91 *)
  do table_err <- pivot (map (fun x => (fst (fst x), snd x)) data);      (* 92 *)
  Ok (table_mi, table_err).

(** create_convergence_table, 120-166: the table of fractions. *)
Definition create_convergence_table (results : list row) (n_samples : option Z) : result table :=
  let data := select results n_samples in                                (* 121-124 *)
  let data := results in                                                 (* 125 *)
  let counts := map (fun g => (fst g, length (filter (converged data) (snd g)),
                                      length (filter (fun r => negb (converged data r)) (snd g))))
                    (group (fun r => (r_estimator r, r_task r)) data) in (* 127-135 *)
  pivot (map (fun x => match x with (k, yes, no) =>
                         (k, np_divide (Fin (INR yes)) (Fin (INR (yes + no)))) end) counts).   (* 138-144 *)

(** Model of [workflows/projects/Mixtures/v2_results_table.smk]: the table of the second version
    of the benchmark as printed in the paper.  [read_results] (6-34) is the function of the
    same name in [TablesModel].

    Simplifications: as in [TablesModel]; the text of a number with two digits is a
    parameter, and the LaTeX file (147-148) is represented by the table. *)
From Coq Require Import String.
From Verif Require Import Base UtilsModel GaussianModel BenchmarkModel TablesModel.
Open Scope R_scope.
Local Notation length := List.length.

(** [std(ddof=1)] of a group (54), which skips NaN: NaN if less than two numbers are left, and
    if one of them is infinite. *)
Fixpoint finite_all (l : list fl) : option (list R) :=
  match l with
  | [] => Some []
  | Fin x :: l => match finite_all l with Some xs => Some (x :: xs) | None => None end
  | _ => None
  end.
Definition pd_std (l : list fl) : fl :=
  match finite_all (filter (fun v => negb (is_nan v)) l) with
  | Some xs =>
      if (length xs <? 2)%nat then NaN
      else let m := rsum xs / INR (length xs) in
           Fin (sqrt (rsum (map (fun x => (x - m) * (x - m)) xs) / (INR (length xs) - 1)))
  | None => NaN
  end.
(** [np.ceil] of a number. *)
Definition np_ceil (x : R) : R := IZR (- Int_part (- x)).
(** The column [new_std], 62; [np.maximum] keeps NaN. *)
Definition new_std (s : fl) : fl :=
  match s with Fin s => Fin (Rmax (np_ceil (100 * s) / 100) (1 / 100)) | v => v end.

Section Texts.
  (** [f"{x:.2f}"]. *)
  Variable two_digits : fl -> string.

  (** format_output, 64-67. *)
  Definition format_output (mean std : fl) : string :=
    ("$" ++ two_digits mean ++ " \pm " ++ two_digits std ++ "$")%string.
  (** make_mi_true_nice, 74-76. *)
  Definition make_mi_true_nice (x : fl) : string := ("\textbf{" ++ two_digits x ++ "}")%string.

  (** A table of texts; missing cells are [None]. *)
  Record texts := { tx_index : list string; tx_columns : list string; tx_values : list (list (option string)) }.
  Fixpoint find_text (d : list (string * string * string)) (estimator task : string) : option string :=
    match d with
    | [] => None
    | (e, t, v) :: d => if (String.eqb e estimator && String.eqb t task)%bool then Some v else find_text d estimator task
    end.
  (** [pivot], 91: a pair of labels which occurs twice is rejected. *)
  Definition pivot_texts (d : list (string * string * string)) : result texts :=
    if (length (nodup pair_dec (map fst d)) =? length (map fst d))%nat then
      let index := labels (map (fun x => snd (fst x)) d) in
      let columns := labels (map (fun x => fst (fst x)) d) in
      Ok {| tx_index := index; tx_columns := columns;
            tx_values := map (fun t => map (fun e => find_text d e t) columns) index |}
    else Err ValueError.

  (** create_benchmark_table, 38-91.  Of an empty frame [apply] (69) gives a frame, which is
      not accepted as a column. *)
  Definition create_benchmark_table (results : list row) (n_samples : option Z) : result texts :=
    let data := select results n_samples in                              (* 39-42 *)
    let data := results in                                               (* 43 *)
    let merged := map (fun g => (fst g, pd_mean (map r_estimate (snd g)), pd_std (map r_estimate (snd g))))
                      (group (fun r => (r_estimator r, r_task r)) data) in   (* 46-61 *)
    match merged with
    | [] => Err ValueError                                               (* 69 *)
    | _ =>
        let merged := map (fun x => match x with (k, m, s) => (k, format_output m (new_std s)) end) merged in   (* 62-70 *)
        let truth := map (fun r => ("True MI"%string, r_task r, make_mi_true_nice (r_true r))) (first_of_each [] results) in   (* 73-87 *)
        pivot_texts (merged ++ truth)%list                               (* 78, 91 *)
    end.

  (** [names[x]], 145. *)
  Definition name_of (names : sdict string) (x : string) : result string :=
    match sdict_get names x with Some n => Ok n | None => Err KeyError end.
  (** generate_table, 98-148. *)
  Definition generate_table (names : sdict string) (results : list row) : result texts :=
    do t <- create_benchmark_table results (Some 5000%Z);                (* 104 *)
    do index <- map_rows (name_of names) (tx_index t);                   (* 145 *)
    Ok {| tx_index := index; tx_columns := tx_columns t; tx_values := tx_values t |}.
End Texts.

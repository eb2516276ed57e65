(** Model of the figures of [workflows/projects/Beyond_Normal/] which show estimates over a
    parameter of the tasks: [plot_mi] of [_common_figure_utils.py] and the panels of
    [figure_tails.smk] and [figure_sparsity.smk].  The limits of the axes, ticks, line widths and
    the legend are left out.  Simplifications: exact reals; the parameter is a number where it is
    present. *)
From Coq Require Import String.
From Verif Require Import Base UtilsModel JaxModel SamplersModel GaussianModel MatrixUtilsModel TransformsModel BenchmarkModel TasksModel TablesModel V2TableModel RulesModel
  OutliersModel FiguresModel.
Open Scope R_scope.
Local Notation length := List.length.

(** The keys of ESTIMATORS, _common_figure_utils.py 18-37. *)
Definition ESTIMATOR_IDS : list string :=
  ["MINE"; "InfoNCE"; "NWJ"; "Donsker-Varadhan"; "R-KSG-I-10"; "R-LNN"; "Julia-Hist-10"; "Julia-Transfer-30"; "CCA"]%string.
(** ESTIMATOR_COLORS, 39-49. *)
Definition COLORS : sdict string :=
  [("MINE", "purple"); ("InfoNCE", "magenta"); ("Donsker-Varadhan", "red"); ("NWJ", "orangered"); ("R-KSG-I-10", "mediumblue");
   ("R-LNN", "goldenrod"); ("Julia-Hist-10", "limegreen"); ("Julia-Transfer-30", "green"); ("CCA", "grey")]%string.
(** ESTIMATOR_NAMES, 53-66. *)
Definition NAMES : sdict string :=
  [("MINE", "MINE"); ("InfoNCE", "InfoNCE"); ("Donsker-Varadhan", "D-V"); ("NWJ", "NWJ"); ("R-KSG-I-10", "KSG I (R)"); ("R-LNN", "LNN (R)");
   ("R-BNSL", "BNSL (R)"); ("Julia-Hist-10", "Hist. (Julia)"); ("Julia-Transfer-30", "Transfer (Julia)"); ("Julia-Kernel", "Kernel (Julia)");
   ("CCA", "CCA")]%string.
(** [assert set(ESTIMATORS.keys()) <= set(d.keys())], 50 and 67. *)
Definition covered (d : sdict string) : bool :=
  forallb (fun e => match sdict_get d e with Some _ => true | None => false end) ESTIMATOR_IDS.

(** A row of the frame with the unpacked parameters of its task, 70-95 ([TablesModel.read_results]). *)
Record mrow := { mr_run : row; mr_params : sdict py }.
(** The frame: the columns made from the parameters, and the rows. *)
Record frame := { f_columns : list string; f_rows : list mrow }.
(** The frame which read_results returns, 97-102.  Without rows there is no column of estimates. *)
Definition read_frame (max_mi_estimate : option fl) (rows : list mrow) : result frame :=
  let columns := flat_map (fun r => map fst (mr_params r)) rows in       (* 97 *)
  match max_mi_estimate with
  | None => Ok {| f_columns := columns; f_rows := rows |}
  | Some m =>                                                            (* 99-100 *)
      match rows with
      | [] => Err KeyError
      | _ => Ok {| f_columns := columns; f_rows := filter (fun r => fl_ltb (r_estimate (mr_run r)) m) rows |}
      end
  end.

(** The entry of a row in a column of parameters; [None] is a missing value. *)
Definition entry_of (x_col : string) (r : mrow) : option R :=
  match sdict_get (mr_params r) x_col with
  | Some (PInt n) => Some (IZR n)
  | Some (PFloat (Fin v)) => Some v
  | _ => None
  end.
(** [groupby(x_col)], 127, 135 and 145: the keys, ascending and without missing ones, and the group of a key. *)
Definition group_keys (x_col : string) (rows : list mrow) : list R :=
  sort_by Rleb (nodup Req_EM_T (flat_map (fun r => match entry_of x_col r with Some v => [v] | None => [] end) rows)).
Definition group_rows (x_col : string) (rows : list mrow) (k : R) : list mrow :=
  filter (fun r => match entry_of x_col r with Some v => Reqb v k | None => false end) rows.

(** The line and the band of an estimator, 126-143. *)
Record mi_curve := { mc_estimator : string; mc_color : string; mc_label : string; mc_points : list (R * fl); mc_band : option (list (R * fl * fl)) }.
(** What a call of plot_mi draws: the curves, the dotted line of the true values, 145-152, and the label of the axis, 155. *)
Record panel := { pn_curves : list mi_curve; pn_truth : list (R * fl); pn_x_label : string }.

(** The body of the loop, 126-143. *)
Definition mi_curve_of (x_col : string) (estimator_colors estimator_names : sdict string) (plot_std : bool) (rows : list mrow) (e : string) : result mi_curve :=
  let data_estimator := filter (fun r => String.eqb (r_estimator (mr_run r)) e) rows in   (* 126 *)
  let estimates k := map (fun r => r_estimate (mr_run r)) (group_rows x_col data_estimator k) in
  let keys := group_keys x_col data_estimator in
  do color <- lookup estimator_colors e;                                 (* 131 *)
  do name <- lookup estimator_names e;                                   (* 132 *)
  Ok {| mc_estimator := e; mc_color := color; mc_label := name;
        mc_points := map (fun k => (k, pd_mean (estimates k))) keys;     (* 127-130 *)
        mc_band := if plot_std                                           (* 134-143 *)
                   then Some (map (fun k => (k, fl_sub (pd_mean (estimates k)) (pd_std (estimates k)),
                                                fl_add (pd_mean (estimates k)) (pd_std (estimates k)))) keys)
                   else None |}.
(** plot_mi, 114-156. *)
Definition plot_mi (fr : frame) (x_col : string) (estimator_colors estimator_names : sdict string) (x_label : option string) (plot_std : bool) : result panel :=
  let label := match x_label with Some s => if String.eqb s "" then x_col else s | None => x_col end in   (* 124 *)
  let rows := f_rows fr in
  if existsb (String.eqb x_col) (f_columns fr) then                      (* 127, 145 *)
    do curves <- each (mi_curve_of x_col estimator_colors estimator_names plot_std rows) (labels (map (fun r => r_estimator (mr_run r)) rows));   (* 126 *)
    Ok {| pn_curves := curves;
          pn_truth := map (fun k => (k, pd_mean (map (fun r => r_true (mr_run r)) (group_rows x_col rows k)))) (group_keys x_col rows);   (* 145-152 *)
          pn_x_label := label |}
  else Err KeyError.

(** The rule figure_tails, figure_tails.smk 42-56: the two panels. *)
Definition figure_tails (rows : list mrow) : result (panel * panel) :=
  do results <- read_frame (Some (Fin 3)) rows;                          (* 46 *)
  do panel_l <- plot_mi results "alpha" COLORS NAMES (Some "Exponent"%string) true;   (* 53 *)
  do panel_r <- plot_mi results "dof" COLORS NAMES (Some "Deg. of freedom"%string) true;   (* 54 *)
  Ok (panel_l, panel_r).

(** [results[results[column] == value]], figure_sparsity.smk 53 and 60. *)
Definition where_equal (fr : frame) (column : string) (value : R) : result frame :=
  if existsb (String.eqb column) (f_columns fr) then
    Ok {| f_columns := f_columns fr; f_rows := filter (fun r => match entry_of column r with Some v => Reqb v value | None => false end) (f_rows fr) |}
  else Err KeyError.
(** The rule figure_estimates, figure_sparsity.smk 40-66: the two panels. *)
Definition figure_sparsity (rows : list mrow) : result (panel * panel) :=
  do results <- read_frame (Some (Fin 3)) rows;                          (* 44 *)
  do data <- where_equal results "n_interacting" 10;                     (* 53 *)
  do panel_l <- plot_mi data "alpha" COLORS NAMES (Some "$\alpha$"%string) true;   (* 54 *)
  do data <- where_equal results "alpha" 0;                              (* 60 *)
  do panel_r <- plot_mi data "n_interacting" COLORS NAMES (Some "Num. of interactions"%string) true;   (* 61 *)
  Ok (panel_l, panel_r).

(** ** The tasks of figure_tails.smk *)
Section Tails.
  Context {J : prng}.
  Variables (F : formats) (eigvals : matrix -> list (R * R)) (mvn : key J -> list R -> matrix -> nat -> matrix)
    (psi log_gamma : R -> R) (mvt : Z -> list R -> matrix -> fl -> nat -> matrix).

  (** [jnp.linspace(1, 5, 10)], figure_tails.smk 23. *)
  Definition EXPONENTS : list R := map (fun i => 1 + 4 / 9 * INR i) (seq 0 10).
  (** [range(1, 21, 2)], 26. *)
  Definition DEGREES : list Z := map (fun i => 1 + 2 * Z.of_nat i)%Z (seq 0 10).
  (** The tasks, 21-27, and TASKS, 20-28. *)
  Definition power_normal (alpha : R) : prog (task J) :=
    run base <- task_multinormal_2pair F eigvals mvn 3 3 2 None; transform_power_task F base alpha None.   (* 22 *)
  Definition tails_list : prog (list (task J)) :=
    run powers <- sequence (map power_normal EXPONENTS);                 (* 21-24 *)
    run students <- sequence (map (fun df => task_student_2pair F eigvals psi log_gamma mvt 3 3 df 2 None) DEGREES);   (* 24-27 *)
    pret (powers ++ students)%list.
  Definition tails_tasks : prog (sdict (task J)) :=
    run l <- tails_list;
    run d <- tasks_by_id l [];                                           (* 21 *)
    scale_tasks d.                                                       (* 20 *)
End Tails.

(** Model of [workflows/projects/Mixtures/figure_bmm_vs_other.smk]: where the points and error
    bars are drawn.  Titles, limits, ticks on the horizontal axis and colours are left out.
    Simplifications: exact reals; no posterior summary in the file is missing. *)
From Coq Require Import String.
From Verif Require Import Base UtilsModel GaussianModel BenchmarkModel TablesModel RulesModel CriticsModel GmmBenchModel.
Open Scope R_scope.
Local Notation length := List.length.

(** ** YScaler, 21-43 *)
Record y_scaler := { ys_ids : list string; ys_eps : R }.
(** __init__, 22-25. *)
Definition make_scaler (estimator_ids : list string) (eps : R) : result y_scaler :=
  if Rltb 0 eps then Ok {| ys_ids := estimator_ids; ys_eps := eps |} else Err AssertionError.
(** n, 27-29. *)
Definition ys_n (s : y_scaler) : nat := length (ys_ids s).
(** offset, 31-33. *)
Definition ys_offset (s : y_scaler) : result R :=
  match ys_n s with O => Err ZeroDivisionError | n => Ok (ys_eps s * (1 / 2) * 1 / INR n) end.
(** [list.index]. *)
Fixpoint index_of (x : string) (l : list string) : result nat :=
  match l with
  | [] => Err ValueError
  | y :: l => if String.eqb x y then Ok O else do i <- index_of x l; Ok (S i)
  end.
(** get_y, 35-40; the number of points is a length. *)
Definition get_y (s : y_scaler) (estimator_id : string) (n_points : nat) : result (list R) :=
  do index <- index_of estimator_id (ys_ids s);                          (* 36 *)
  let y0 := INR index / INR (ys_n s) in                                  (* 37 *)
  let y1 := INR (index + 1) / INR (ys_n s) in                            (* 38 *)
  linspace (y0 + ys_eps s) (y1 - ys_eps s) (Z.of_nat n_points).          (* 40 *)
(** get_tick_locations, 42-43. *)
Definition get_tick_locations (s : y_scaler) : list R :=
  map (fun i => (INR i + 1 / 2) / INR (ys_n s)) (seq 0 (ys_n s)).

(** ** One panel, 125-144 *)
(** [ax.errorbar(x, y, xerr)]: the ends of the bars; negative lengths are refused. *)
Definition errorbar (x : list R) (lengths : list (R * R)) : result (list (R * R)) :=
  if existsb (fun e => (Rltb (fst e) 0 || Rltb (snd e) 0)%bool) lengths then Err ValueError
  else Ok (map (fun xe => (fst xe - fst (snd xe), fst xe + snd (snd xe))) (combine x lengths)).

Record panel := { p_true : fl;                        (* vertical line *)
                  p_bars : list (R * (R * R));        (* height, ends *)
                  p_dots : list (R * R);              (* position, height *)
                  p_estimates : list (string * list (fl * R)) }.
(** 138-144. *)
Fixpoint point_estimates (s : y_scaler) (data_v2 : list row) (n_samples : Z) (task_id : string) (ids : list string)
  : result (list (string * list (fl * R))) :=
  match ids with
  | [] => Ok []
  | e :: ids =>
      let estimates := map r_estimate (filter (fun r => String.eqb (r_task r) task_id && String.eqb (r_estimator r) e
                                                        && Z.eqb (r_n r) n_samples)%bool data_v2) in   (* 141-142 *)
      do y <- get_y s e (length estimates);                              (* 143 *)
      do rest <- point_estimates s data_v2 n_samples task_id ids;
      Ok ((e, combine estimates y) :: rest)                              (* 144 *)
  end.
Definition draw_panel (s : y_scaler) (data_v2 : list row) (data_bmm : list record) (n_samples : Z) (ids : list string) (task_id : string)
  : result panel :=
  let of_task := filter (fun r => String.eqb (r_task r) task_id) data_v2 in
  match of_task with
  | [] => Err KeyError                                                   (* 125 *)
  | _ =>
      let mi_true := pd_mean (map r_true of_task) in
      let sub := filter (fun r => String.eqb (g_task r) task_id) data_bmm in   (* 129 *)
      let lengths := map (fun r => (g_mean r - g_low r, g_high r - g_mean r)) sub in   (* 130-131 *)
      do y <- get_y s "BMM" (length sub);                                (* 133 *)
      do bars <- errorbar (map g_mean sub) lengths;                      (* 134 *)
      do estimates <- point_estimates s data_v2 n_samples task_id ids;   (* 138-144 *)
      Ok {| p_true := mi_true; p_bars := combine y bars; p_dots := combine (map g_mean sub) y; p_estimates := estimates |}
  end.

(** ** The figure, 109-150 *)
(** TASKS, 58-63: the identifiers and names. *)
Definition figure_tasks : sdict string :=
  [("1v1-AI", "AI"); ("mult-sparse-w-inliers-5-5-2-2.0-0.2", "Inliers (5-dim, 0.2)");
   ("5v1-concentric_gaussians-5", "Concentric (5-dim, 5)"); ("multinormal-sparse-5-5-2-2.0", "Normal (5-dim, sparse)")]%string.
(** POINT_ESTIMATORS, 96-99: the identifiers; N_SAMPLES, 95. *)
Definition point_estimators : list string := ["KSG-10"; "InfoNCE"]%string.
Definition figure_n_samples : Z := 5000.
Definition figure (data_v2 : list row) (data_bmm : list record) : result (list (string * panel) * list R) :=
  do s <- make_scaler ("BMM"%string :: point_estimators) (12 / 100);     (* 115 *)
  do panels <- map_rows (fun t => do p <- draw_panel s data_v2 data_bmm figure_n_samples point_estimators (fst t); Ok (snd t, p)) figure_tasks;   (* 117-144 *)
  Ok (panels, get_tick_locations s).                                     (* 147 *)

(** Model of [workflows/projects/Mixtures/cool_tasks.smk]: the dictionaries (19-53) and the rule
    plot_results (160-193).  Line numbers are of this file.  The samplers are in [PaperModel], the
    rules of the benchmark in [RulesModel].  Simplifications: exact reals; the normal numbers which shift the
    points of an estimator are a parameter; legend and limits of the axes are left out. *)
From Coq Require Import String.
From Verif Require Import Base UtilsModel RulesModel OutliersModel OutliersPlotModel TablesModel.
Open Scope R_scope.
Local Notation length := List.length.

(** The keys of ESTIMATORS, 19-27; ESTIMATOR_NAMES, 28-34; ESTIMATOR_COLORS, 35-41; ESTIMATOR_MARKERS, 43-49. *)
Definition cool_estimators : list string := ["MINE"; "InfoNCE"; "KSG-10"; "Hist-10"; "CCA"]%string.
Definition ESTIMATOR_NAMES : sdict string :=
  [("MINE", "MINE"); ("InfoNCE", "InfoNCE"); ("KSG-10", "KSG"); ("Hist-10", "Histogram"); ("CCA", "CCA")]%string.
Definition ESTIMATOR_COLORS : sdict string :=
  [("MINE", "#377eb8"); ("InfoNCE", "#ff7f00"); ("KSG-10", "#4daf4a"); ("Hist-10", "#f781bf"); ("CCA", "#a65628")]%string.
Definition ESTIMATOR_MARKERS : sdict string :=
  [("MINE", "o"); ("InfoNCE", "v"); ("KSG-10", "^"); ("Hist-10", "D"); ("CCA", "X")]%string.
(** tasks and tasks_official, 168-169. *)
Definition cool_tasks : list string := ["X"; "AI"; "Fence"; "Balls"]%string.
Definition tasks_official : list string := ["X"; "AI"; "Waves"; "Galaxy"]%string.

(** [l.index(s)], 173 and 184: ValueError when missing. *)
Fixpoint list_index (l : list string) (s : string) : result nat :=
  match l with
  | [] => Err ValueError
  | a :: l => if String.eqb a s then Ok O else do i <- list_index l s; Ok (S i)
  end.

(** What is drawn for an estimator, 172-180, and for a task, 185; the marks of the horizontal axis, 187. *)
Record series := { s_label : string; s_marker : string; s_color : string; s_points : list (R * fl) }.
Record results_plot := { rp_series : list series; rp_truth : list (R * R * fl); rp_ticks : list (nat * string) }.

Section Plot.
  (** [np.random.normal(size=n)] in the turn of an estimator. *)
  Variable normal : string -> nat -> list R.

  (** The body of the loop over estimators, 171-180. *)
  Definition plot_estimator (data_5k : list row) (estimator_id : string) : result series :=
    let data_est := filter (fun r => String.eqb (r_estimator r) estimator_id) data_5k in   (* 171 *)
    do places <- each (fun r => list_index cool_tasks (r_task r)) data_est;      (* 173 *)
    let shift := normal estimator_id (length data_est) in
    do label <- RulesModel.lookup ESTIMATOR_NAMES estimator_id;                  (* 175 *)
    do marker <- RulesModel.lookup ESTIMATOR_MARKERS estimator_id;               (* 177 *)
    do color <- RulesModel.lookup ESTIMATOR_COLORS estimator_id;                 (* 178 *)
    Ok {| s_label := label; s_marker := marker; s_color := color;
          s_points := combine (map (fun p => INR (fst p) + 5 / 100 * snd p) (combine places shift)) (map r_estimate data_est) |}.   (* 173-174 *)
  (** The body of the loop over tasks, 182-185. *)
  Definition plot_truth (data_5k : list row) (task_id : string) : result (R * R * fl) :=
    let data_task := filter (fun r => String.eqb (r_task r) task_id) data_5k in  (* 182 *)
    let true_mi := pd_mean (map r_true data_task) in                             (* 183 *)
    do x <- list_index cool_tasks task_id;                                       (* 184 *)
    Ok (INR x - 2 / 10, INR x + 2 / 10, true_mi).                                (* 185 *)
  (** plot_results, 160-193. *)
  Definition plot_results (data : list row) : result results_plot :=
    let data_5k := filter (fun r => Z.eqb (r_n r) 5000) data in                  (* 167 *)
    do s <- each (plot_estimator data_5k) (labels (map r_estimator data_5k));    (* 171-180 *)
    do t <- each (plot_truth data_5k) (labels (map r_task data_5k));             (* 182-185 *)
    Ok {| rp_series := s; rp_truth := t; rp_ticks := combine (seq 0 (length cool_tasks)) tasks_official |}.   (* 187 *)
End Plot.

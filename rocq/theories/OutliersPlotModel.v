(** Model of the figure of [workflows/projects/Mixtures/outliers.smk]: where curves, markers and
    bands are drawn.  Labels, limits of the axes and the legend are left out.  Simplifications:
    exact reals; the parameters in the file are numbers; equal levels keep their order when the
    ground truth is sorted (numpy leaves it open). *)
From Coq Require Import String.
From Verif Require Import Base UtilsModel JaxModel SamplersModel GaussianModel MatrixUtilsModel BmmModel MultivariateModel BenchmarkModel
  TasksModel MixturesModel PaperModel TablesModel V2TableModel RulesModel OutliersModel.
Open Scope R_scope.
Local Notation length := List.length.

(** A row of results.csv, as far as the figure reads it (208). *)
Record result_row := { rr_task : string; rr_params : string; rr_estimator : string; rr_estimate : fl }.

(** ESTIMATOR_COLORS and ESTIMATOR_MARKERS, 115-127. *)
Definition ESTIMATOR_COLORS : sdict string :=
  [("InfoNCE", "#ff7f00"); ("MINE", "#377eb8"); ("KSG", "#4daf4a"); ("CCA", "#a65628")]%string.
Definition ESTIMATOR_MARKERS : sdict string := [("InfoNCE", "v"); ("MINE", "."); ("KSG", "^"); ("CCA", "X")]%string.

(** [Series.str.contains(pat)], for a pattern without special characters (215, 223, 231). *)
Fixpoint contains (pat s : string) : bool :=
  (String.prefix pat s || match s with EmptyString => false | String _ s => contains pat s end)%bool.

(** ** plot_data, 164-177 *)
(** The order and the equality of the pairs (key, estimator_id), 166. *)
Definition key_leb (a b : R * string) : bool :=
  if Rltb (fst a) (fst b) then true else if Rltb (fst b) (fst a) then false else String.leb (snd a) (snd b).
Definition key_dec (a b : R * string) : {a = b} + {a <> b}.
Proof. decide equality; [apply string_dec|apply Req_EM_T]. Defined.
(** [groupby([key, "estimator_id"])["mi_estimate"].agg(["mean", "std"]).reset_index()], 166. *)
Definition grouped (data : list (R * result_row)) : list ((R * string) * (fl * fl)) :=
  let key r := (fst r, rr_estimator (snd r)) in
  map (fun k => let l := map (fun r => rr_estimate (snd r)) (filter (fun r => if key_dec (key r) k then true else false) data) in
                (k, (pd_mean l, pd_std l)))
      (sort_by key_leb (nodup key_dec (map key data))).
(** [Series.unique()], 168. *)
Fixpoint unique (l : list string) : list string :=
  match l with [] => [] | x :: l => x :: filter (fun y => negb (String.eqb x y)) (unique l) end.
(** The line, markers and band of an estimator, 172-174: positions, means, and the ends of the band. *)
Record curve := { c_estimator : string; c_color : string; c_marker : string; c_points : list (R * fl); c_band : list (fl * fl) }.
Definition draw_curve (g : list ((R * string) * (fl * fl))) (e : string) : result curve :=
  let subset := filter (fun r => String.eqb (snd (fst r)) e) g in        (* 169 *)
  do color <- lookup ESTIMATOR_COLORS e;                                 (* 171 *)
  do marker <- lookup ESTIMATOR_MARKERS e;                               (* 173 *)
  Ok {| c_estimator := e; c_color := color; c_marker := marker;
        c_points := map (fun r => (fst (fst r), fst (snd r))) subset;    (* 172-173 *)
        c_band := map (fun r => (fl_sub (fst (snd r)) (snd (snd r)), fl_add (fst (snd r)) (snd (snd r)))) subset |}.   (* 174 *)
Section Plot.
  (** [yaml.load(text)[key]]. *)
  Variable parameter : string -> string -> result R.
  Definition plot_data (data : list result_row) (key : string) : result (list curve) :=
    do rows <- each (fun r => do p <- parameter (rr_params r) key; Ok (p, r)) data;   (* 165 *)
    let g := grouped rows in
    each (draw_curve g) (unique (map (fun r => snd (fst r)) g)).         (* 168 *)

  (** plot_ground_truth_mixing, 179-198, given "mixing", "mi_mean" and "mi_std" of the files: the
      line and the band. *)
  Definition plot_ground_truth (docs : list (R * fl * fl)) : list (R * fl) * list (fl * fl) :=
    let sorted := sort_by (fun a b => Rleb (fst (fst a)) (fst (fst b))) docs in   (* 193-196 *)
    (map (fun d => (fst (fst d), snd (fst d))) sorted,                   (* 197 *)
     map (fun d => (fl_sub (snd (fst d)) (snd d), fl_add (snd (fst d)) (snd d))) sorted).   (* 198 *)

  Context {J : prng}.
  Variable F : formats.
  Variable T : tfp_draws J.
  Variable eigvals : matrix -> list (R * R).
  Variable cholesky : matrix -> option matrix.
  Variable normal_draw : list R -> option matrix -> key J -> nat -> matrix.
  Variable float_of : string -> result R.
  (** VARIANCE_TASKS, 88-111. *)
  Definition variance_tasks : prog (sdict (task J)) :=
    run signal <- lift (dist_signal_gauss eigvals cholesky normal_draw);
    store_tasks (map (variance_task F T cholesky normal_draw signal) VARIANCES) [].
  (** [VARIANCE_TASKS[f"variance-{var}"].mutual_information for var in VARIANCES], 232. *)
  Fixpoint variance_truth (tasks : sdict (task J)) (vars : list R) : prog (list fl) :=
    match vars with
    | [] => pret []
    | v :: vars =>
        run t <- lift (lookup tasks ("variance-" ++ float_repr F v)%string);
        run m <- task_mi t;
        run rest <- variance_truth tasks vars;
        pret (m :: rest)
    end.

  (** The documents of a setup, 203-204 and 182-187. *)
  Definition ground_truths (setup : string) : result (list (R * fl * fl)) :=
    each (fun a => do d <- mixed_all_seeds T eigvals cholesky normal_draw float_of setup (float_repr F a);
                   let '(mean, std, _, mixing) := d in Ok (mixing, mean, std)) ALPHAS.
  (** The rule plot, 200-233: curves and ground truth of the three panels. *)
  Definition select (pat : string) (df : list result_row) : list result_row := filter (fun r => contains pat (rr_task r)) df.
  Definition mixing_panel (df : list result_row) (setup : string) : result (list curve * (list (R * fl) * list (fl * fl))) :=
    do curves <- plot_data (select ("mixing-" ++ setup) df) "mixing";    (* 215, 223 *)
    do docs <- ground_truths setup;
    Ok (curves, plot_ground_truth docs).                                 (* 216, 224 *)
  Definition variance_panel (df : list result_row) (tasks : sdict (task J)) : prog (list curve * list (R * fl)) :=
    run curves <- lift (plot_data (select "variance" df) "variance");    (* 231 *)
    run mi_var <- variance_truth tasks VARIANCES;                        (* 232 *)
    pret (curves, combine VARIANCES mi_var).                             (* 233 *)
End Plot.

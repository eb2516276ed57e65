(** Model of [workflows/projects/Mixtures/how_good_integration_is.smk]: the setups, the rules making samples,
    estimates and ground truth, and where the figure draws its curves.  The distributions are in [PaperModel], the
    estimators in [CriticsModel] and [ObjectivesModel], Snakemake's patterns in [RulesModel].
    Simplifications: exact reals; critics are finite; files hold the values which were written; of the rules making
    figures only what [plot_estimates] draws is modelled. *)
From Coq Require Import String.
From Verif Require Import Base UtilsModel JaxModel SamplersModel GaussianModel MatrixUtilsModel BmmModel MultivariateModel BenchmarkModel
  TasksModel MixturesModel PaperModel TablesModel V2TableModel RulesModel ObjectivesModel CriticsModel OutliersModel OutliersPlotModel.
Open Scope R_scope.
Local Notation length := List.length.

Definition critic := list R -> list R -> R.
(** The values of [dist.pmi], where they are finite. *)
Definition finite_pmi {J} (d : joint_distribution J) : critic := fun x y => match point_pmi d x y with Fin r => r | _ => 0 end.

(** ** The setups *)
(** DistributionAndPMI, 34-38. *)
Record dist_and_pmi (J : prng) := { dp_dist : joint_distribution J; dp_pmi : option critic }.
Arguments dp_dist {J} _.
Arguments dp_pmi {J} _.
Section Setups.
  Context {J : prng}.
  Variable T : tfp_draws J.
  Variable eigvals : matrix -> list (R * R).
  Variable cholesky : matrix -> option matrix.
  Variable normal_draw : list R -> option matrix -> key J -> nat -> matrix.
  (** _DISTRIBUTIONS, 95-110. *)
  Definition declared : result (sdict (dist_and_pmi J)) :=
    do four_balls <- four_balls T eigvals cholesky normal_draw;
    do c <- canonical_correlation (repeat (8 / 10) 25) 0;
    do n <- normal_distribution eigvals cholesky normal_draw 25 25 c None;                                (* 108 *)
    Ok [("Four_Balls", {| dp_dist := four_balls; dp_pmi := None |});                                      (* 96-98 *)
        ("Four_Balls_Biased", {| dp_dist := four_balls; dp_pmi := Some (biased (finite_pmi four_balls)) |});         (* 99-102 *)
        ("Four_Balls_SinSquare", {| dp_dist := four_balls; dp_pmi := Some (sin_square (finite_pmi four_balls)) |});  (* 103-106 *)
        ("Normal-25Dim", {| dp_dist := n; dp_pmi := None |})]%string.
  (** DISTRIBUTION_AND_PMIS, 112-114. *)
  Definition completed (l : sdict (dist_and_pmi J)) : sdict (joint_distribution J * critic) :=
    map (fun nv => (fst nv, (dp_dist (snd nv), match dp_pmi (snd nv) with None => finite_pmi (dp_dist (snd nv)) | Some f => f end))) l.
End Setups.

(** ESTIMATORS, 46-51. *)
Definition ESTIMATORS : sdict (critic -> matrix -> matrix -> result fl) :=
  [("NWJ", fun f xs ys => Ok (nwj_shifted f xs ys)); ("InfoNCE", fun f xs ys => Ok (lin_infonce f xs ys));
   ("DV", fun f xs ys => Ok (lin_donsker_varadhan f xs ys)); ("MC", fun f xs ys => monte_carlo f xs ys)]%string.
(** N_POINTS, SEEDS, 116-117; _N_SEEDS_GROUND_TRUTH, 173. *)
Definition N_POINTS : list Z := [8; 16; 32; 64; 128; 256; 512; 1024; 2048; 4096; 8192]%Z.
Definition SEEDS : list Z := map Z.of_nat (seq 0 20).
Definition truth_seeds : list Z := map Z.of_nat (seq 0 10).

(** ** The rules *)
(** The document of an estimate, 151-156. *)
Record estimate_doc := { ed_estimator : string; ed_setup : string; ed_estimate : fl; ed_points : Z }.
(** The files: samples (136), estimates (150-159), tables of them (170), "mi" and "mi_stderr" of a seed (205-212), and
    "mi_mean", "mi_std", "mi_stderr_mean", "samples" (187-196). *)
Inductive hfile :=
| HSample (xs ys : matrix) | HEstimate (e : estimate_doc) | HTable (rows : list estimate_doc)
| HSeed (e : fl * fl) | HTruth (summary : fl * fl * fl) (samples : list (fl * fl)).
Definition hworld := sdict hfile.

(** The rules with their outputs: 129, 141, 163, 175, 200. *)
Inductive rule := Sample | Apply | Assemble | Truth | Seed.
Definition output (r : rule) : list part :=
  match r with
  | Sample => [Wild "setup"; Lit "/samples/"; Wild "n_points"; Lit "-"; Wild "seed"; Lit ".npz"]
  | Apply => [Wild "setup"; Lit "/estimates/"; Wild "estimator"; Lit "/"; Wild "n_points"; Lit "-"; Wild "seed"; Lit ".json"]
  | Assemble => [Wild "setup"; Lit "/estimates.csv"]
  | Truth => [Wild "setup"; Lit "/ground_truth.json"]
  | Seed => [Wild "setup"; Lit "/_ground_truth_seeds/"; Wild "seed"; Lit ".json"]
  end%string.

Section Rules.
  Context {J : prng}.
  Variable SETUPS : sdict (joint_distribution J * critic).
  Variable ESTIMATORS : sdict (critic -> matrix -> matrix -> result fl).
  Variables N_POINTS SEEDS : list Z.

  (** sample_distribution, 128-136. *)
  Definition sample_distribution (wc : wildcards) : result hfile :=
    do name <- wildcard wc "setup"; do setup <- lookup SETUPS name;      (* 131-132 *)
    do s <- wildcard wc "seed"; do seed <- read_int s;                   (* 133 *)
    do n <- wildcard wc "n_points"; do n_points <- read_int n;
    do xy <- jd_sample (fst setup) n_points (prng_key J seed);           (* 134 *)
    Ok (HSample (fst xy) (snd xy)).
  (** apply_estimator, 139-159. *)
  Definition apply_estimator (w : hworld) (wc : wildcards) : result hfile :=
    do input <- fill (output Sample) wc;                                 (* 140 *)
    match sdict_get w input with
    | Some (HSample xs ys) =>                                            (* 143-144 *)
        do name <- wildcard wc "setup"; do setup <- lookup SETUPS name;  (* 146 *)
        do e <- wildcard wc "estimator"; do estimator <- lookup ESTIMATORS e;   (* 147 *)
        do estimate <- estimator (snd setup) xs ys;                      (* 149 *)
        do n <- wildcard wc "n_points"; do n_points <- read_int n;       (* 155 *)
        Ok (HEstimate {| ed_estimator := e; ed_setup := name; ed_estimate := estimate; ed_points := n_points |})
    | _ => Err OtherError
    end.
  (** assemble_estimates, 161-170; [expand] (162) varies its last argument fastest. *)
  Definition estimate_of (w : hworld) (path : result string) : result estimate_doc :=
    do p <- path; match sdict_get w p with Some (HEstimate e) => Ok e | _ => Err OtherError end.
  Definition assemble_estimates (w : hworld) (wc : wildcards) : result hfile :=
    do name <- wildcard wc "setup";
    let paths := flat_map (fun n => flat_map (fun s => map (fun e =>
        fill (output Apply) [("setup", name); ("n_points", show_int n); ("seed", show_int s); ("estimator", e)]%string)
        (map fst ESTIMATORS)) SEEDS) N_POINTS in
    do rows <- each (estimate_of w) paths;                               (* 165-168 *)
    Ok (HTable rows).
  (** estimate_ground_truth_single_seed, 199-213. *)
  Definition single_seed (wc : wildcards) : result hfile :=
    do name <- wildcard wc "setup"; do setup <- lookup SETUPS name;      (* 203 *)
    do s <- wildcard wc "seed"; do seed <- read_int s;                   (* 204 *)
    do e <- monte_carlo_mi_estimate (prng_key J seed) (fst setup) 100000;   (* 202, 205 *)
    Ok (HSeed e).
  (** estimate_ground_truth, 174-196. *)
  Definition seed_of (w : hworld) (path : result string) : result (fl * fl) :=
    do p <- path; match sdict_get w p with Some (HSeed e) => Ok e | _ => Err OtherError end.
  Definition estimate_ground_truth (w : hworld) (wc : wildcards) : result hfile :=
    do name <- wildcard wc "setup";
    do samples <- each (seed_of w) (map (fun s => fill (output Seed) [("setup", name); ("seed", show_int s)]%string) truth_seeds);   (* 176-181 *)
    Ok (HTruth (OutliersModel.summary samples) samples).                 (* 183-196 *)

  Definition run_rule (r : rule) (w : hworld) (wc : wildcards) : result hfile :=
    match r with
    | Sample => sample_distribution wc
    | Apply => apply_estimator w wc
    | Assemble => assemble_estimates w wc
    | Truth => estimate_ground_truth w wc
    | Seed => single_seed wc
    end.
  (** The rules which can make a path.  None, or several, is an error. *)
  Definition candidates (path : string) : list (rule * wildcards) :=
    flat_map (fun r => match match_path (output r) path with Some wc => [(r, wc)] | None => [] end) [Sample; Apply; Assemble; Truth; Seed].
  Definition make_path (w : hworld) (path : string) : result hworld :=
    match candidates path with
    | [(r, wc)] => do f <- run_rule r w wc; Ok (sdict_set w path f)
    | _ => Err OtherError
    end.
  Fixpoint make_all (paths : list string) (w : hworld) : result hworld :=
    match paths with
    | [] => Ok w
    | p :: ps => do w <- make_path w p; make_all ps w
    end.
End Rules.

(** ** The figure *)
(** ESTIMATOR_COLORS and ESTIMATOR_MARKERS, 53-64. *)
Definition ESTIMATOR_COLORS : sdict string := [("InfoNCE", "#ff7f00"); ("DV", "#984ea3"); ("NWJ", "#999999"); ("MC", "#dede00")]%string.
Definition ESTIMATOR_MARKERS : sdict string := [("InfoNCE", "v"); ("DV", "D"); ("NWJ", "X"); ("MC", ".")]%string.
(** One estimator, 230-243. *)
Definition draw_estimator (g : list ((R * string) * (fl * fl))) (e : string) : result curve :=
  let sub := filter (fun r => String.eqb (snd (fst r)) e) g in           (* 231 *)
  let sub := sort_by (fun a b => Rleb (fst (fst a)) (fst (fst b))) sub in   (* 232 *)
  do color <- lookup ESTIMATOR_COLORS e;                                 (* 238 *)
  do marker <- lookup ESTIMATOR_MARKERS e;                               (* 241 *)
  Ok {| c_estimator := e; c_color := color; c_marker := marker;
        c_points := map (fun r => (fst (fst r), fst (snd r))) sub;       (* 240-241 *)
        c_band := map (fun r => (fl_sub (fst (snd r)) (snd (snd r)), fl_add (fst (snd r)) (snd (snd r)))) sub |}.   (* 242 *)
(** plot_estimates, 216-247: the curves, and the line of the ground truth from the least to the greatest number of
    points.  Without rows the ends of the line are not numbers. *)
Definition extreme (pick : Z -> Z -> Z) (l : list Z) : fl := match l with [] => NaN | n :: l => Fin (IZR (fold_left pick l n)) end.
Definition plot_estimates (df : list estimate_doc) (mi_mean : fl) : result (list curve * list (fl * fl)) :=
  let rows := map (fun r => (IZR (ed_points r),
      {| rr_task := EmptyString; rr_params := EmptyString; rr_estimator := ed_estimator r; rr_estimate := ed_estimate r |})) df in
  let g := grouped rows in                                               (* 229 *)
  do curves <- each (draw_estimator g) (unique (map (fun r => snd (fst r)) g));   (* 230 *)
  Ok (curves, [(extreme Z.min (map ed_points df), mi_mean); (extreme Z.max (map ed_points df), mi_mean)]).   (* 246-247 *)

(** A panel of the figure: the title, the limits of the vertical axis if they are set, the curves and the dotted line. *)
Record panel := { p_title : string; p_limits : option (R * R); p_curves : list curve; p_truth : list (fl * fl) }.
(** plot_estimates reading its files, 217-219. *)
Definition performance_panel (w : hworld) (t : string * string * option (R * R)) : result panel :=
  let '(title, setup, limits) := t in
  match sdict_get w (setup ++ "/estimates.csv")%string, sdict_get w (setup ++ "/ground_truth.json")%string with
  | Some (HTable df), Some (HTruth (mi_mean, _, _) _) =>
      do p <- plot_estimates df mi_mean;
      Ok {| p_title := title; p_limits := limits; p_curves := fst p; p_truth := snd p |}
  | _, _ => Err OtherError
  end.
(** plot_performance_all, 250-286. *)
Definition plot_performance_all (w : hworld) : result (list panel) :=
  each (performance_panel w)
    [("Unbiased critic", "Four_Balls", Some (0, 1));                     (* 269-272 *)
     ("Constant bias", "Four_Balls_Biased", Some (0, 1));                (* 274-277 *)
     ("Functional bias", "Four_Balls_SinSquare", Some (0, 1));           (* 279-282 *)
     ("Unbiased critic, high dimensions", "Normal-25Dim", None)]%string. (* 284-286 *)

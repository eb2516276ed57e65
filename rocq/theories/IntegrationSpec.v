(** Vocabulary of the statements about [how_good_integration_is.smk]. *)
From Coq Require Import String Ascii Sorted.
From Verif Require Import Base UtilsModel JaxModel SamplersModel BmmModel BenchmarkModel TablesModel TablesSpec V2TableSpec RulesModel RulesSpec
  OutliersPlotModel OutliersPlotSpec ObjectivesSpec IntegrationModel.
Open Scope R_scope.
Local Notation length := List.length.

(** Names of setups and estimators which can be parts of a path. *)
Definition plain_name (s : string) : Prop := s <> ""%string /\ ~ occurs "010" s /\ ~ occurs "/" s.
(** The files. *)
Definition samples_path (setup : string) (n s : Z) : string := (setup ++ "/samples/" ++ show_int n ++ "-" ++ show_int s ++ ".npz")%string.
Definition estimate_path (setup e : string) (n s : Z) : string :=
  (setup ++ "/estimates/" ++ e ++ "/" ++ show_int n ++ "-" ++ show_int s ++ ".json")%string.
Definition table_path (setup : string) : string := (setup ++ "/estimates.csv")%string.
Definition truth_path (setup : string) : string := (setup ++ "/ground_truth.json")%string.
Definition seed_path (setup : string) (s : Z) : string := (setup ++ "/_ground_truth_seeds/" ++ show_int s ++ ".json")%string.

(** All runs for a setup, in the order of the table. *)
Definition runs (es : list string) (ns ss : list Z) : list (Z * Z * string) := list_prod (list_prod ns ss) es.

(** A row reports what the estimator says, with the critic of the setup, about the sample with that many points drawn with that seed. *)
Record row_reports {J} (setups : sdict (joint_distribution J * critic)) (es : sdict (critic -> matrix -> matrix -> result fl))
    (setup : string) (q : Z * Z * string) (row : estimate_doc) : Prop := {
  reports_setup : ed_setup row = setup;
  reports_estimator : ed_estimator row = snd q;
  reports_points : ed_points row = fst (fst q);
  reports_estimate : exists d f e xs ys, sdict_get setups setup = Some (d, f) /\ sdict_get es (snd q) = Some e /\
    jd_sample d (fst (fst q)) (prng_key J (snd (fst q))) = Ok (xs, ys) /\ e f xs ys = Ok (ed_estimate row)
}.

(** How the estimators are drawn. *)
Definition integration_styles : list (string * (string * string)) :=
  [("NWJ", ("#999999", "X")); ("InfoNCE", ("#ff7f00", "v")); ("DV", ("#984ea3", "D")); ("MC", ("#dede00", "."))]%string.
(** The estimates of an estimator with a number of points. *)
Definition estimates_with (df : list estimate_doc) (e : string) (n : R) : list fl :=
  map ed_estimate (filter (fun r => (Reqb (IZR (ed_points r)) n && String.eqb (ed_estimator r) e)%bool) df).
(** A curve shows the mean of the estimates for every number of points, from left to right, in a band of one standard deviation. *)
Record estimator_shown (df : list estimate_doc) (c : curve) : Prop := {
  shown_style : In (c_estimator c, (c_color c, c_marker c)) integration_styles;
  shown_order : StronglySorted Rlt (map fst (c_points c));
  shown_values : forall k, In k (map fst (c_points c)) <-> exists r, In r df /\ ed_estimator r = c_estimator c /\ k = IZR (ed_points r);
  shown_means : Forall2 (fun km b => let l := estimates_with df (c_estimator c) (fst km) in
    mean_of l (snd km) /\ exists s, deviation_of l s /\ b = (fl_sub (snd km) s, fl_add (snd km) s)) (c_points c) (c_band c)
}.

(** Every run after its sample, then the table; the estimates of the seeds, then the ground truth. *)
Definition integration_schedule (setup : string) (es : list string) (ns ss : list Z) : list string :=
  (flat_map (fun q => let '(n, s, e) := q in [samples_path setup n s; estimate_path setup e n s]) (runs es ns ss) ++ [table_path setup]
   ++ map (seed_path setup) [0; 1; 2; 3; 4; 5; 6; 7; 8; 9]%Z ++ [truth_path setup])%list.

(** The workflow: 8 to 8192 points, twenty seeds, four estimators. *)
Definition sizes : list Z := map (fun k => 2 ^ k)%Z [3; 4; 5; 6; 7; 8; 9; 10; 11; 12; 13]%Z.
Definition twenty : list Z := [0; 1; 2; 3; 4; 5; 6; 7; 8; 9; 10; 11; 12; 13; 14; 15; 16; 17; 18; 19]%Z.
Definition bounds : list string := ["NWJ"; "InfoNCE"; "DV"; "MC"]%string.
(** What an estimator says about a sample with a critic. *)
Definition bound_value (e : string) (f : critic) (xs ys : matrix) : option R :=
  if String.eqb e "NWJ" then Some (mean_paired f xs ys + 1 - mean_exp_unpaired f xs ys)
  else if String.eqb e "InfoNCE" then Some (textbook_infonce f xs ys)
  else if String.eqb e "DV" then Some (textbook_dv f xs ys)
  else if String.eqb e "MC" then Some (mean_paired f xs ys)
  else None.
(** A distribution gives as many points as are asked for. *)
Definition full_draws {J} (d : joint_distribution J) : Prop := forall k n, length (draw (dist_joint d) k n) = n.
(** A row of the table for a setup with distribution and critic. *)
Record row_of_run {J} (setup : string) (d : joint_distribution J) (f : critic) (q : Z * Z * string) (row : estimate_doc) : Prop := {
  run_setup : ed_setup row = setup;
  run_estimator : ed_estimator row = snd q;
  run_points : ed_points row = fst (fst q);
  run_estimate : exists xs ys v, jd_sample d (fst (fst q)) (prng_key J (snd (fst q))) = Ok (xs, ys) /\
    bound_value (snd q) f xs ys = Some v /\ ed_estimate row = Fin v
}.

(** What [plot_estimates] draws: one curve for every estimator, and the ground truth as a line over all numbers of points. *)
Record estimates_shown (df : list estimate_doc) (truth : fl) (curves : list curve) (line : list (fl * fl)) : Prop := {
  drawn_once : NoDup (map c_estimator curves);
  drawn_all : forall e, In e (map c_estimator curves) <-> exists r, In r df /\ ed_estimator r = e;
  drawn_curves : Forall (estimator_shown df) curves;
  drawn_line : exists lo hi, In lo (map ed_points df) /\ In hi (map ed_points df) /\ Forall (fun r => lo <= ed_points r <= hi)%Z df /\
    line = [(Fin (IZR lo), truth); (Fin (IZR hi), truth)]
}.
(** The panels: title, setup, limits of the vertical axis. *)
Definition panels : list (string * string * option (R * R)) :=
  [("Unbiased critic", "Four_Balls", Some (0, 1)); ("Constant bias", "Four_Balls_Biased", Some (0, 1));
   ("Functional bias", "Four_Balls_SinSquare", Some (0, 1)); ("Unbiased critic, high dimensions", "Normal-25Dim", None)]%string.
(** The files of a setup hold estimates of known estimators, and the ground truth. *)
Definition files_of (w : hworld) (setup : string) (df : list estimate_doc) (truth : fl) : Prop :=
  sdict_get w (table_path setup) = Some (HTable df) /\ exists std err samples, sdict_get w (truth_path setup) = Some (HTruth (truth, std, err) samples).
Definition panel_shows (w : hworld) (t : string * string * option (R * R)) (p : panel) : Prop :=
  p_title p = fst (fst t) /\ p_limits p = snd t /\
  exists df truth, files_of w (snd (fst t)) df truth /\ estimates_shown df truth (p_curves p) (p_truth p).

(** Rows of the same run with a critic [f], and with [f] to which a function of X is added. *)
Record bias_seen {J} (d : joint_distribution J) (f : critic) (g : list R -> R) (q : Z * Z * string) (rr : estimate_doc * estimate_doc) : Prop := {
  seen_run : ed_estimator (fst rr) = snd q /\ ed_estimator (snd rr) = snd q /\ ed_points (fst rr) = fst (fst q) /\ ed_points (snd rr) = fst (fst q);
  seen_values : exists xs ys v v', jd_sample d (fst (fst q)) (prng_key J (snd (fst q))) = Ok (xs, ys) /\
    ed_estimate (fst rr) = Fin v /\ ed_estimate (snd rr) = Fin v' /\
    (snd q = "InfoNCE"%string -> v' = v) /\
    (snd q = "MC"%string -> v' = v + rmean (map g xs)) /\
    (snd q = "DV"%string -> forall b, (forall x, - b <= g x <= b) -> v + rmean (map g xs) - b <= v' <= v + rmean (map g xs) + b) /\
    (forall c, (forall x, g x = c) -> (snd q = "DV"%string -> v' = v) /\ (snd q = "NWJ"%string -> v' = v + c - (exp c - 1) * mean_exp_unpaired f xs ys))
}.

(** Covariance of X and Y with [m] coordinates of which only those with the same index are correlated. *)
Definition paired_covariance (m : nat) (rho : R) (i j : nat) : R :=
  if Nat.eqb i j then 1 else if (Nat.eqb j (m + i) || Nat.eqb i (m + j))%bool then rho else 0.

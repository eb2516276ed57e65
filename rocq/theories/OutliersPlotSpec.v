(** Vocabulary of the statements about the figure of the tasks with noise. *)
From Coq Require Import String Ascii Sorted.
From Verif Require Import Base BenchmarkModel TablesModel TablesSpec V2TableSpec OutliersPlotModel.
Open Scope R_scope.
Local Notation length := List.length.

(** The estimates of an estimator at a value of the parameter. *)
Definition estimates_at (rows : list (R * result_row)) (e : string) (k : R) : list fl :=
  map (fun r => rr_estimate (snd r)) (filter (fun r => (Reqb (fst r) k && String.eqb (rr_estimator (snd r)) e)%bool) rows).
(** How the estimators are drawn. *)
Definition styles : list (string * (string * string)) :=
  [("InfoNCE", ("#ff7f00", "v")); ("MINE", ("#377eb8", ".")); ("KSG", ("#4daf4a", "^")); ("CCA", ("#a65628", "X"))]%string.
(** A curve shows the mean of the estimates at every value, from left to right, in a band of
    one standard deviation. *)
Record curve_shows (rows : list (R * result_row)) (c : curve) : Prop := {
  shows_style : In (c_estimator c, (c_color c, c_marker c)) styles;
  shows_order : StronglySorted Rlt (map fst (c_points c));
  shows_values : forall k, In k (map fst (c_points c)) <-> exists r, In (k, r) rows /\ rr_estimator r = c_estimator c;
  shows_means : Forall2 (fun km b => let l := estimates_at rows (c_estimator c) (fst km) in
    mean_of l (snd km) /\ exists s, deviation_of l s /\ b = (fl_sub (snd km) s, fl_add (snd km) s)) (c_points c) (c_band c)
}.

(** Texts of numbers: no letters but e. *)
Definition number_text (s : string) : Prop := Forall (fun c => In c (list_ascii_of_string "0123456789.e+-")) (list_ascii_of_string s).
(** Identifiers of tasks. *)
Definition inlier_id (s : string) : Prop := exists t, number_text t /\ s = ("mixing-Gauss-Inlier-" ++ t)%string.
Definition outlier_id (s : string) : Prop := exists t, number_text t /\ s = ("mixing-Gauss-Outlier-" ++ t)%string.
Definition variance_id (s : string) : Prop := exists t, number_text t /\ s = ("variance-" ++ t)%string.

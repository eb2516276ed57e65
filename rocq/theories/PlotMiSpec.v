(** Vocabulary of the statements about the figures which show estimates over a parameter. *)
From Coq Require Import String Sorted.
From Verif Require Import Base BenchmarkModel TasksModel TasksSpec TablesModel TablesSpec V2TableSpec PlotMiModel.
Open Scope R_scope.
Local Notation length := List.length.

(** The parameter [x] of the task of a row is the number [k]. *)
Inductive has_parameter (x : string) (r : mrow) : R -> Prop :=
| has_int n : sdict_get (mr_params r) x = Some (PInt n) -> has_parameter x r (IZR n)
| has_float v : sdict_get (mr_params r) x = Some (PFloat (Fin v)) -> has_parameter x r v.

(** How the estimators are drawn: identifier, colour, label. *)
Definition mi_styles : list (string * string * string) :=
  [("CCA", "grey", "CCA"); ("Donsker-Varadhan", "red", "D-V"); ("InfoNCE", "magenta", "InfoNCE"); ("Julia-Hist-10", "limegreen", "Hist. (Julia)");
   ("Julia-Transfer-30", "green", "Transfer (Julia)"); ("MINE", "purple", "MINE"); ("NWJ", "orangered", "NWJ"); ("R-KSG-I-10", "mediumblue", "KSG I (R)");
   ("R-LNN", "goldenrod", "LNN (R)")]%string.
Definition style_id (s : string * string * string) : string := fst (fst s).

(** A line through the means of the values [f] of the rows with [P], at all values of the
    parameter, from left to right. *)
Record mean_line (x : string) (rows : list mrow) (P : mrow -> Prop) (f : mrow -> fl) (line : list (R * fl)) : Prop := {
  ml_order : StronglySorted Rlt (map fst line);
  ml_values : forall k, In k (map fst line) <-> exists r, In r rows /\ P r /\ has_parameter x r k;
  ml_means : Forall (fun km => exists group, keeping (fun r => P r /\ has_parameter x r (fst km)) rows group /\ mean_of (map f group) (snd km)) line
}.
(** The band around such a line: one standard deviation of the values. *)
Definition band_around (x : string) (rows : list mrow) (P : mrow -> Prop) (f : mrow -> fl) (line : list (R * fl)) (band : list (R * fl * fl)) : Prop :=
  Forall2 (fun km b => exists group s, keeping (fun r => P r /\ has_parameter x r (fst km)) rows group /\ deviation_of (map f group) s /\
    b = (fst km, fl_sub (snd km) s, fl_add (snd km) s)) line band.
(** The curve of an estimator, with or without its band. *)
Definition curve_of (x : string) (rows : list mrow) (std : bool) (c : mi_curve) : Prop :=
  let P r := r_estimator (mr_run r) = mc_estimator c in
  let f r := r_estimate (mr_run r) in
  mean_line x rows P f (mc_points c) /\
  match mc_band c with Some b => std = true /\ band_around x rows P f (mc_points c) b | None => std = false end.
(** A panel over the parameter [x]: the curves of all estimators in the rows, in the order of their
    identifiers and in their colours, and the true values. *)
Record shows_panel (x : string) (rows : list mrow) (std : bool) (p : panel) : Prop := {
  sp_sorted : sorted_labels (map mc_estimator (pn_curves p));
  sp_all : forall e, In e (map mc_estimator (pn_curves p)) <-> exists r, In r rows /\ r_estimator (mr_run r) = e;
  sp_curves : Forall (fun c => In (mc_estimator c, mc_color c, mc_label c) mi_styles /\ curve_of x rows std c) (pn_curves p);
  sp_truth : mean_line x rows (fun _ => True) (fun r => r_true (mr_run r)) (pn_truth p)
}.

(** ** The tasks *)
(** In the heap [h], the metadata of the task are these. *)
Definition reports {J} (h : dheap) (t : task J) (id name : string) (dx dy : Z) (mi : R) (params : list (string * py)) : Prop :=
  usable t h /\ exists h2 m, metadata t h = (h2, Ok m) /\ md_id m = id /\ md_name m = name /\ md_dim_x m = dx /\ md_dim_y m = dy /\ md_mi m = Fin mi /\
    forall k, sdict_get (dread h2 (md_params m)) k = sdict_get params k.
(** A row of the results of a task with these parameters and this mutual information. *)
Definition row_about (r : mrow) (mi : R) (params : list (string * py)) : Prop :=
  r_true (mr_run r) = Fin mi /\ forall k, sdict_get (mr_params r) k = sdict_get params k.

(** A task of the figure of the tails: identifier, name, mutual information and parameters. *)
Definition sheet := (string * string * R * list (string * py))%type.
Definition sheet_id (e : sheet) : string := fst (fst (fst e)).
Definition sheet_mi (e : sheet) : R := snd (fst e).
Definition power_sheet (F : formats) (a : R) : sheet :=
  ("power_" ++ float_fixed F 5 a ++ "-multinormal-sparse-3-3-2-2.0", "Power " ++ float_fixed F 2 a ++ " @ Multinormal 3 × 3 (2-pair)", ln (25 / 9),
   [("n_interacting", PInt 2); ("strength", PFloat (Fin 2)); ("alpha", PFloat (Fin a))])%string.
Definition student_sheet (c : R -> R) (df : Z) : sheet :=
  ("student-sparse-3-3-" ++ int_str df ++ "-2-2.0", "Student-t 3 × 3 (dof=" ++ int_str df ++ ", 2-pair)", ln (25 / 9) + c (IZR df),
   [("dof", PInt df); ("n_interacting", PInt 2); ("strength", PFloat (Fin 2))])%string.
Definition exponents : list R := [1; 13 / 9; 17 / 9; 21 / 9; 25 / 9; 29 / 9; 33 / 9; 37 / 9; 41 / 9; 5].
Definition degrees : list R := [1; 3; 5; 7; 9; 11; 13; 15; 17; 19].
Definition tails_sheets (F : formats) (c : R -> R) : list sheet :=
  map (power_sheet F) exponents ++ map (student_sheet c) [1; 3; 5; 7; 9; 11; 13; 15; 17; 19]%Z.

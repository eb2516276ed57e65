(** C89: what the figure of the tasks with noise shows. *)
From Coq Require Import String Permutation Sorted ZArith Lra.
From Verif Require Import Base UtilsModel JaxModel SamplersModel GaussianModel MatrixUtilsModel BmmModel MultivariateModel BenchmarkModel TasksModel TasksSpec
  MixturesModel PaperModel TablesModel TablesSpec RulesModel OutliersModel DiscreteSpec OutliersSpec BmmSpec ConfigSpec OutliersTasksSpec TrainingExamples BmmExamples
  OutliersPlotModel OutliersPlotSpec OutliersPlotThms.
From mathcomp Require Import ssreflect.
From Verif Require Import MixturesSpec MultivariateThms MultivariateExamples OutliersTasksExamples OutliersPlotTruth OutliersPlotExamples.
Open Scope R_scope.
Local Notation length := List.length.

(** One curve for every estimator in the rows, in its colour and marker: the mean of its estimates at every value of
    the parameter that it has, from left to right, in a band of one standard deviation. *)
Theorem C89_curves : forall parameter key data rows,
  Forall2 (fun r kr => snd kr = r /\ parameter (rr_params r) key = Ok (fst kr)) data rows -> (forall r, In r data -> In (rr_estimator r) (map fst styles)) ->
  exists curves, plot_data parameter data key = Ok curves /\ NoDup (map c_estimator curves) /\
    (forall e, In e (map c_estimator curves) <-> exists r, In r data /\ rr_estimator r = e) /\ Forall (curve_shows rows) curves.
Proof. exact plot_made. Qed.
Print Assumptions C89_curves.
Example C89_curves_example : Forall2 (fun r kr => snd kr = r /\ demo_parameter (rr_params r) "mixing" = Ok (fst kr)) demo_rows demo_read /\
  (forall r, In r demo_rows -> In (rr_estimator r) (map fst styles)) /\ estimates_at demo_read "KSG" (1 / 10) = [Fin 1; Fin 2].
Proof. exact demo_reads. Qed.

(** An estimator without colour raises a KeyError. *)
Theorem C89_unknown_estimator : forall parameter key data rows,
  Forall2 (fun r kr => snd kr = r /\ parameter (rr_params r) key = Ok (fst kr)) data rows -> (exists r, In r data /\ ~ In (rr_estimator r) (map fst styles)) ->
  plot_data parameter data key = Err KeyError.
Proof. exact plot_unknown. Qed.
Print Assumptions C89_unknown_estimator.
Example C89_unknown_estimator_example :
  Forall2 (fun r kr => snd kr = r /\ demo_parameter (rr_params r) "mixing" = Ok (fst kr)) [stranger] [(1 / 10, stranger)] /\ ~ In (rr_estimator stranger) (map fst styles).
Proof. exact (conj (Forall2_cons stranger (1 / 10, stranger) (conj eq_refl eq_refl) (Forall2_nil _)) stranger_unknown). Qed.

(** The first row whose parameter cannot be read decides the exception. *)
Theorem C89_unreadable : forall parameter key pre r post e, Forall (fun x => exists p, parameter (rr_params x) key = Ok p) pre ->
  parameter (rr_params r) key = Err e -> plot_data parameter (pre ++ r :: post) key = Err e.
Proof. exact plot_unreadable. Qed.
Print Assumptions C89_unreadable.
Example C89_unreadable_example : Forall (fun x => exists p, demo_parameter (rr_params x) "mixing" = Ok p) [stranger] /\ demo_parameter "variance: 2.0" "mixing" = Err KeyError.
Proof. exact (conj (Forall_cons stranger (ex_intro _ (1 / 10) eq_refl) (Forall_nil _)) eq_refl). Qed.

(** The ground truth is drawn from left to right, whatever the order of the files. *)
Theorem C89_ground_truth : forall docs, (exists sorted, Permutation docs sorted /\ StronglySorted (fun a b => fst (fst a) <= fst (fst b)) sorted /\
    plot_ground_truth docs = (map (fun d => (fst (fst d), snd (fst d))) sorted, map (fun d => (fl_sub (snd (fst d)) (snd d), fl_add (snd (fst d)) (snd d))) sorted)) /\
  (forall docs', Permutation docs docs' -> NoDup (map (fun d => fst (fst d)) docs) -> plot_ground_truth docs = plot_ground_truth docs').
Proof. exact (fun docs => conj (truth_sorted docs) (truth_order docs)). Qed.
Print Assumptions C89_ground_truth.
Example C89_ground_truth_example : NoDup (map (fun d => fst (fst d)) [(1 / 10, Fin 1, Fin 0); (1 / 20, Fin 2, Fin 0)]).
Proof. apply NoDup_cons; [cbn; intros [H|[]]; lra|]. apply NoDup_cons; [intros []|apply NoDup_nil]. Qed.

(** Every panel has the rows of its own tasks. *)
Theorem C89_selected : forall df f g k, Forall (fun r => inlier_id (rr_task r) \/ outlier_id (rr_task r) \/ variance_id (rr_task r)) df ->
  (forall r, f r = true <-> inlier_id (rr_task r)) -> (forall r, g r = true <-> outlier_id (rr_task r)) -> (forall r, k r = true <-> variance_id (rr_task r)) ->
  select "mixing-Gauss-Inlier" df = filter f df /\ select "mixing-Gauss-Outlier" df = filter g df /\ select "variance" df = filter k df.
Proof. exact selection. Qed.
Print Assumptions C89_selected.
Example C89_selected_example : (inlier_id "mixing-Gauss-Inlier-0.1" /\ outlier_id "mixing-Gauss-Outlier-0.3" /\ variance_id "variance-2.0") /\
  exists f g k, (forall r, f r = true <-> inlier_id (rr_task r)) /\ (forall r, g r = true <-> outlier_id (rr_task r)) /\ (forall r, k r = true <-> variance_id (rr_task r)).
Proof. exact (conj demo_ids demo_deciders). Qed.

(** The panels of the setups: the rows of the setup over the fraction of noise, and the mean of ten estimates of the
    signal with that fraction of noise, in a band of their standard deviation (with the factor 1/9). *)
Theorem C89_mixing_panel : forall (J : prng) F (T : tfp_draws J) eigvals cholesky (normal_draw : list R -> option matrix -> key J -> nat -> matrix) parameter float_of
    setup v, eigvals_symmetric eigvals -> factorises cholesky -> noise_variance setup v -> Forall (fun a => float_of (float_repr F a) = Ok a) levels ->
  exists ds, Forall2 (fun a d => contaminated_signal d a v /\ mixed_draws T d a v) levels ds /\
    forall lss, Forall2 (fun d ls => Forall2 (pmi_values d) [0; 1; 2; 3; 4; 5; 6; 7; 8; 9]%Z ls) ds lss -> forall df,
      mixing_panel parameter F T eigvals cholesky normal_draw float_of df setup =
      do curves <- plot_data parameter (select ("mixing-" ++ setup) df) "mixing";
      Ok (curves, (combine levels (map (fun ls => Fin (rmean (map rmean ls))) lss),
        map (fun ls => let m := rmean (map rmean ls) in let s := sqrt (unbiased_variance (map rmean ls)) in (Fin (m - s), Fin (m + s))) lss)).
Proof. exact (fun J F T e c nd p fo s v He Hc => panel_truth F T e c nd He Hc p fo s v). Qed.
Print Assumptions C89_mixing_panel.
Example C89_mixing_panel_example : exists eigvals cholesky curves line band, eigvals_symmetric eigvals /\ factorises cholesky /\
  mixing_panel demo_parameter printed origin_tfp eigvals cholesky demo_normal_draw read_back demo_rows "Gauss-Inlier" = Ok (curves, (line, band)) /\ length line = 9%nat.
Proof. exact origin_panel. Qed.

(** The panel of the variances: the rows of its tasks over the variance, and the mutual information that the tasks
    report, at the 21 variances, for one fifth of noise. *)
Theorem C89_variance_panel : forall (J : prng) F (T : tfp_draws J) eigvals cholesky (normal_draw : list R -> option matrix -> key J -> nat -> matrix) h,
  eigvals_symmetric eigvals -> factorises cholesky -> told_apart F -> exists ds,
  Forall2 (fun e d => contaminated_signal d (1 / 5) (Rpower 2 e) /\ mixed_draws T d (1 / 5) (Rpower 2 e)) exponents ds /\
  (Forall (fun d => acceptable (average_pmi d 0 (Z.to_nat 100000))) ds -> exists h' tasks,
     variance_tasks F T eigvals cholesky normal_draw h = (h', Ok tasks) /\ preserved h h' /\
     forall h1 parameter df, preserved h' h1 -> variance_panel parameter F df tasks h1 =
       (h1, do curves <- plot_data parameter (select "variance" df) "variance";
            Ok (curves, combine (map (Rpower 2) exponents) (map (fun d => average_pmi d 0 (Z.to_nat 100000)) ds)))).
Proof. exact (fun J F T e c nd h He Hc => variance_line F T e c nd He Hc h). Qed.
Print Assumptions C89_variance_panel.
Example C89_variance_panel_example : exists eigvals cholesky h' tasks, eigvals_symmetric eigvals /\ factorises cholesky /\ told_apart printed /\
  variance_tasks printed origin_tfp eigvals cholesky demo_normal_draw [] = (h', Ok tasks).
Proof. exact origin_acceptable. Qed.

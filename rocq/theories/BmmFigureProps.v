(** C84: the figure comparing Bayesian mixtures with other estimators. *)
From Coq Require Import String Ascii Permutation Lia Lra.
From Verif Require Import Base BaseLemmas UtilsModel BenchmarkModel TablesModel RulesModel CriticsModel ConfigModel
  GmmBenchModel GmmBenchSpec GmmBenchQuantiles BmmFigureModel BmmFigureThms GmmBenchExamples BmmFigureExamples.
Local Notation length := List.length.
Open Scope R_scope.

(** Only a positive margin is accepted; only listed estimators have heights. *)
Theorem C84_scaler :
  forall ids eps, (0 < eps -> make_scaler ids eps = Ok {| ys_ids := ids; ys_eps := eps |}) /\ (eps <= 0 -> make_scaler ids eps = Err AssertionError).
Proof. exact scaler_made. Qed.
Print Assumptions C84_scaler.
Example C84_scaler_example : make_scaler ["a"; "b"]%string 0 = Err AssertionError.
Proof. apply scaler_made. lra. Qed.
Theorem C84_known :
  forall s id m, (In id (ys_ids s) -> exists ys, get_y s id m = Ok ys) /\ (~ In id (ys_ids s) -> get_y s id m = Err ValueError).
Proof. exact get_y_total. Qed.
Print Assumptions C84_known.
Example C84_known_example : get_y ex_scaler "c" 3 = Err ValueError.
Proof. reflexivity. Qed.

(** The heights for [m] points: [m] of them, equally spaced between the borders of the strip
    of the estimator moved inwards by the margin; its tick is in the middle. *)
Theorem C84_heights :
  forall s id i m ys, index_of id (ys_ids s) = Ok i -> get_y s id m = Ok ys ->
  let n := INR (ys_n s) in let lo := INR i / n + ys_eps s in let hi := INR (i + 1) / n - ys_eps s in
  length ys = m /\ (forall j, (j < m)%nat -> nth j ys 0 = lo + INR j * ((hi - lo) / INR (m - 1))) /\
  ((0 < m)%nat -> nth 0 ys 0 = lo) /\ ((1 < m)%nat -> nth (m - 1) ys 0 = hi) /\
  nth i (get_tick_locations s) 0 = (lo + hi) / 2.
Proof.
  exact (fun s id i m ys Hi Hy => conj (proj1 (ys_shape s id i m ys Hi Hy)) (conj (proj2 (ys_shape s id i m ys Hi Hy))
    (conj (ys_first s id i m ys Hi Hy) (conj (ys_last s id i m ys Hi Hy) (proj1 (tick_middle s id i Hi)))))).
Qed.
Print Assumptions C84_heights.
Example C84_heights_example : index_of "b" (ys_ids ex_scaler) = Ok 1%nat /\ get_y ex_scaler "b" 3 = Ok [6 / 10; 75 / 100; 9 / 10].
Proof. exact (conj eq_refl ex_heights). Qed.

(** The offset is half the margin shared by the estimators; without estimators there is none. *)
Theorem C84_offset :
  forall s, (ys_ids s = [] -> ys_offset s = Err ZeroDivisionError) /\
  (ys_ids s <> [] -> ys_offset s = Ok (ys_eps s / (2 * INR (ys_n s)))).
Proof. exact offset_value. Qed.
Print Assumptions C84_offset.
Example C84_offset_example : ys_ids ex_scaler <> [].
Proof. discriminate. Qed.

(** The position of an estimator is the first one in the list. *)
Theorem C84_position :
  forall x l i, index_of x l = Ok i <-> (i < length l)%nat /\ nth i l ""%string = x /\ forall j, (j < i)%nat -> nth j l ""%string <> x.
Proof. exact index_of_ok. Qed.
Print Assumptions C84_position.
Example C84_position_example : index_of "b" ["a"; "b"; "b"]%string = Ok 1%nat.
Proof. reflexivity. Qed.

(** The points of an estimator are in its strip if and only if the margin is less than the
    width of a strip; then points of different estimators are apart. *)
Theorem C84_strips :
  forall s id i m ys, 0 < ys_eps s -> index_of id (ys_ids s) = Ok i -> get_y s id m = Ok ys -> (0 < m)%nat ->
  (Forall (strip s i) ys <-> ys_eps s < 1 / INR (ys_n s)).
Proof. exact ys_strip. Qed.
Print Assumptions C84_strips.
Example C84_strips_example : ys_eps ex_scaler < 1 / INR (ys_n ex_scaler) /\
  ~ Forall (strip wide_scaler 0) [7 / 10] /\ get_y wide_scaler "a" 1 = Ok [7 / 10].
Proof. exact ex_strips. Qed.
Theorem C84_apart :
  forall s i j y z, (i < j)%nat -> (0 < ys_n s)%nat -> strip s i y -> strip s j z -> y < z.
Proof. exact strips_apart. Qed.
Print Assumptions C84_apart.
Example C84_apart_example : strip ex_scaler 0 (1 / 4) /\ strip ex_scaler 1 (3 / 4).
Proof. unfold strip. cbn. lra. Qed.

(** A panel shows for each run the interval from its low to its high quantile and the mean, at
    the same height; for each other estimator its estimates for the task and sample size;
    and the mean of the true values in the rows of the task. *)
Theorem C84_panel :
  forall s data_v2 data_bmm n ids task p, draw_panel s data_v2 data_bmm n ids task = Ok p ->
  let sub := filter (fun r => String.eqb (g_task r) task) data_bmm in
  exists ys, get_y s "BMM" (length sub) = Ok ys /\
    p_bars p = combine ys (map (fun r => (g_low r, g_high r)) sub) /\ p_dots p = combine (map g_mean sub) ys /\
    Forall2 (fun e o => fst o = e /\ exists ys, get_y s e (length (filter (row_for n task e) data_v2)) = Ok ys /\
      snd o = combine (map r_estimate (filter (row_for n task e) data_v2)) ys) ids (p_estimates p) /\
    p_true p = pd_mean (map r_true (filter (fun r => String.eqb (r_task r) task) data_v2)).
Proof. exact panel_shows. Qed.
Print Assumptions C84_panel.
Example C84_panel_example : exists p, draw_panel ex_bmm_scaler ex_v2 [ex_record 1 0; ex_record 0 1] 5000 ["KSG"]%string "a" = Ok p /\ p_true p = Fin 1.
Proof. exact ex_panel. Qed.
(** One true value is shown as it is. *)
Theorem C84_true : forall v l, l <> [] -> Forall (eq (Fin v)) l -> pd_mean l = Fin v.
Proof. exact mean_same. Qed.
Print Assumptions C84_true.
Example C84_true_example : Forall (eq (Fin (1 / 2))) [Fin (1 / 2); Fin (1 / 2)].
Proof. repeat constructor. Qed.

(** A panel is drawn if and only if the other benchmark has the task and no mean is outside
    the quantiles of its run. *)
Theorem C84_drawn :
  forall s data_v2 data_bmm n ids task, In "BMM"%string (ys_ids s) -> (forall e, In e ids -> In e (ys_ids s)) ->
  (~ (exists r, In r data_v2 /\ r_task r = task) -> draw_panel s data_v2 data_bmm n ids task = Err KeyError) /\
  ((exists r, In r data_v2 /\ r_task r = task) ->
    ((forall r, In r data_bmm -> g_task r = task -> g_low r <= g_mean r <= g_high r) -> exists p, draw_panel s data_v2 data_bmm n ids task = Ok p) /\
    (~ (forall r, In r data_bmm -> g_task r = task -> g_low r <= g_mean r <= g_high r) -> draw_panel s data_v2 data_bmm n ids task = Err ValueError)).
Proof. exact panel_fails. Qed.
Print Assumptions C84_drawn.
Example C84_drawn_example : draw_panel ex_bmm_scaler ex_v2 [ex_record 1 0] 5000 ["KSG"]%string "b" = Err KeyError /\
  draw_panel ex_bmm_scaler ex_v2 [{| g_task := "a"; g_seed := 0; g_true := Fin 1; g_low := 0; g_mean := 2; g_high := 1 |}] 5000 ["KSG"]%string "a" = Err ValueError.
Proof. exact ex_not_drawn. Qed.

(** The mean of up to ten finite values is between their quantiles. *)
Theorem C84_few_values :
  forall l, (length (finite_values l) <= 10)%nat -> s_low (summarize l) <= s_mean (summarize l) <= s_high (summarize l).
Proof. exact summary_mean_inside. Qed.
Print Assumptions C84_few_values.
Example C84_few_values_example : (length (finite_values (repeat (Fin 1) 9 ++ [Fin 100; NaN])) <= 10)%nat.
Proof. cbn. lia. Qed.
(** Of more, it need not be: for every number above ten there is a posterior, of values
    which are not negative, whose mean is above its high quantile, so that the figure is not drawn. *)
Theorem C84_many_values_refuted :
  forall m, (11 <= m)%nat -> exists l, length l = m /\ Forall (fun v => exists r, v = Fin r /\ 0 <= r) l /\
  s_high (summarize l) < s_mean (summarize l).
Proof. exact summary_mean_outside. Qed.
Print Assumptions C84_many_values_refuted.
Example C84_many_values_refuted_example : (11 <= 1000)%nat.
Proof. lia. Qed.

(** The tasks of the figure are in both benchmarks under the names in its titles, its estimators
    and sample size in the one with points. *)
Theorem C84_configuration :
  incl figure_tasks gmm_names /\ incl figure_tasks v2_names /\ incl point_estimators v2_estimators /\
  In figure_n_samples v2_n_samples /\ NoDup ("BMM"%string :: point_estimators).
Proof. exact figure_configuration. Qed.
Print Assumptions C84_configuration.

(** The figure has one panel for each task with its name, and ticks in the middle of the
    three strips; it is drawn if all tasks are in the other benchmark and all means between
    their quantiles. *)
Theorem C84_figure :
  forall data_v2 data_bmm out, figure data_v2 data_bmm = Ok out ->
  let s := {| ys_ids := "BMM"%string :: point_estimators; ys_eps := 12 / 100 |} in
  Forall2 (fun t p => fst p = snd t /\ draw_panel s data_v2 data_bmm 5000 point_estimators (fst t) = Ok (snd p)) figure_tasks (fst out) /\
  snd out = [1 / 6; 1 / 2; 5 / 6].
Proof. exact figure_draws. Qed.
Print Assumptions C84_figure.
Theorem C84_figure_drawn :
  forall data_v2 data_bmm, (forall t, In t (map fst figure_tasks) -> exists r, In r data_v2 /\ r_task r = t) ->
  (forall r, In r data_bmm -> g_low r <= g_mean r <= g_high r) -> exists out, figure data_v2 data_bmm = Ok out.
Proof. exact figure_total. Qed.
Print Assumptions C84_figure_drawn.
Example C84_figure_drawn_example :
  (forall t, In t (map fst figure_tasks) -> exists r, In r (ex_rows_of (map fst figure_tasks)) /\ r_task r = t) /\
  (forall r, In r [ex_record 1 0; ex_record 0 1] -> g_low r <= g_mean r <= g_high r).
Proof. exact ex_figure. Qed.

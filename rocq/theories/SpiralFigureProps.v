(** C97: the figures of spirals. *)
From Coq Require Import String.
From Verif Require Import Base UtilsModel JaxModel SamplersModel GaussianModel TransformsModel TransformsSpec BenchmarkModel TasksModel TasksProofs TasksSpec TasksGaussian TablesModel TablesSpec V2TableSpec
  FiguresSpec TrainingExamples TasksExamples BasicExamples ExpmProofs PlotMiModel PlotMiSpec PlotMiExamples SpiralFigureModel SpiralFigureSpec SpiralFigureThms SpiralFigureExamples.
Open Scope R_scope.
Local Notation length := List.length.

(** For every speed and every correlation: the task loads, has the information of its normal distribution, and its points X
    are those of this distribution, each turned by the angle speed |x|^2. *)
Theorem C97_task : forall (J : prng) F eigvals mvn expm, eigvals_positive eigvals -> is_expm expm -> forall speed c h, -1 < c < 1 ->
  exists h' t, spiral_task (J := J) F eigvals mvn expm speed c h = (h', Ok t) /\ (forall r, (r < length h)%nat -> dread h' r = dread h r) /\
    (let e := turned_sheet F c speed in reports h' t (sheet_id e) (snd (fst (fst e))) 2 1 (sheet_mi e) (snd e)) /\ spun_pairs mvn c speed (t_sampler t).
Proof. exact @spiral_task_reported. Qed.
Print Assumptions C97_task.
Example C97_task_example : eigvals_positive ex_eigvals /\ is_expm series_expm /\ spun (PI / 2) [0; 1] = [-1; 0].
Proof. exact demo_turn. Qed.

(** The seven tasks of the figure load under different identifiers with the information ln (5/3), whatever the speed;
    the samples are those of the listed tasks, scaled. *)
Theorem C97_tasks : forall (J : prng) F eigvals mvn expm, eigvals_positive eigvals -> is_expm expm -> forall h, NoDup (map (float_repr F) speeds) ->
  exists h0 l h' d, spiral_list (J := J) F eigvals mvn expm h = (h0, Ok l) /\ spiral_tasks F eigvals mvn expm h = (h', Ok d) /\ NoDup (map fst d) /\
    Forall2 (fun e t => reports h' t (sheet_id e) (snd (fst (fst e))) 2 1 (sheet_mi e) (snd e)) (map (spiral_sheet F) speeds) l /\
    Forall2 (fun s t => spun_pairs mvn (4 / 5) s (t_sampler t)) speeds l /\
    Forall2 (fun e kt => fst kt = sheet_id e /\ reports h' (snd kt) (sheet_id e) (snd (fst (fst e))) 2 1 (sheet_mi e) (snd e)) (map (spiral_sheet F) speeds) d /\
    Forall2 (fun t kt => rescaled h0 h' t (snd kt)) l d.
Proof. exact @spiral_tasks_built. Qed.
Print Assumptions C97_tasks.
Example C97_tasks_example : exists h' d, spiral_tasks (J := demo) ranked ex_eigvals ex_mvn series_expm [] = (h', Ok d) /\ length d = 7%nat.
Proof. exact demo_spiral_tasks. Qed.

(** The speed of a task is found by its identifier; other identifiers raise a KeyError. *)
Theorem C97_find_speed : forall (J : prng) F, NoDup (map (float_repr F) speeds) -> forall h (l : list (task J)),
  Forall2 (fun e t => reports h t (sheet_id e) (snd (fst (fst e))) 2 1 (sheet_mi e) (snd e)) (map (spiral_sheet F) speeds) l ->
  forall s, In s speeds -> exists h2, find_speed l (sheet_id (spiral_sheet F s)) h = (h2, Ok (PFloat (Fin s))).
Proof. exact @speed_found. Qed.
Print Assumptions C97_find_speed.
Theorem C97_find_no_speed : forall (J : prng) F h (l : list (task J)),
  Forall2 (fun e t => reports h t (sheet_id e) (snd (fst (fst e))) 2 1 (sheet_mi e) (snd e)) (map (spiral_sheet F) speeds) l ->
  forall id, (forall s, In s speeds -> id <> sheet_id (spiral_sheet F s)) -> exists h2, find_speed l id h = (h2, Err KeyError).
Proof. exact @speed_missing. Qed.
Print Assumptions C97_find_no_speed.

(** The panel shows the estimates under 3 over the speeds of their tasks, and a flat line at ln (5/3). *)
Theorem C97_figure : forall (J : prng) F, NoDup (map (float_repr F) speeds) -> forall h (l : list (task J)),
  Forall2 (fun e t => reports h t (sheet_id e) (snd (fst (fst e))) 2 1 (sheet_mi e) (snd e)) (map (spiral_sheet F) speeds) l ->
  forall rows, rows <> [] -> Forall (fun r => exists s, In s speeds /\ about_speed F s r) rows ->
  (forall r, In r rows -> In (r_estimator (mr_run r)) (map style_id mi_styles)) ->
  exists h2 kept own p, plot_performance l rows h = (h2, Ok p) /\ keeping (fun r => fl_ltb (r_estimate (mr_run r)) (Fin 3) = true) rows kept /\
    marked_rows F kept own /\ shows_panel "speed" own true p /\ pn_x_label p = "Speed"%string /\
    Forall (fun q => In (fst q) speeds /\ snd q = Fin (ln (5 / 3))) (pn_truth p).
Proof. exact @spiral_shown. Qed.
Print Assumptions C97_figure.
Example C97_figure_example : exists h l, Forall2 (fun e t => reports (J := demo) h t (sheet_id e) (snd (fst (fst e))) 2 1 (sheet_mi e) (snd e)) (map (spiral_sheet ranked) speeds) l /\
  Forall (fun r => exists s, In s speeds /\ about_speed ranked s r) [speed_row 1 (1 / 2); speed_row (1 / 2) 4] /\
  exists h2 p, plot_performance l [speed_row 1 (1 / 2); speed_row (1 / 2) 4] h = (h2, Ok p) /\ pn_truth p = [(1, Fin (ln (5 / 3)))].
Proof. exact demo_spiral_rows. Qed.

(** A row about another task raises a KeyError, if its estimate is under 3 (other rows are never looked up). *)
Theorem C97_unknown_task : forall (J : prng) F h (l : list (task J)),
  Forall2 (fun e t => reports h t (sheet_id e) (snd (fst (fst e))) 2 1 (sheet_mi e) (snd e)) (map (spiral_sheet F) speeds) l ->
  forall rows r, In r rows -> fl_ltb (r_estimate (mr_run r)) (Fin 3) = true -> (forall s, In s speeds -> r_task (mr_run r) <> sheet_id (spiral_sheet F s)) ->
  exists h2, plot_performance l rows h = (h2, Err KeyError).
Proof. exact @spiral_unknown. Qed.
Print Assumptions C97_unknown_task.

(** The picture: the points drawn from the rectangle, and the same points turned with the speeds 1/2 and 3/2. *)
Theorem C97_picture : forall draw normal expm text, is_expm expm ->
  let points := map (fun p => [fst p; snd p]) (combine (draw 42%Z 0%nat (-2) 2 2000%nat) (draw 42%Z 1%nat (- (1 / 20)) (1 / 20) 2000%nat)) in
  spiral_picture draw normal expm text =
    Ok [{| cl_label := "Original"; cl_color := "green"; cl_points := points |};
        {| cl_label := "Speed " ++ text (1 / 2); cl_color := "goldenrod"; cl_points := map (spun (1 / 2)) points |};
        {| cl_label := "Speed " ++ text (3 / 2); cl_color := "orangered"; cl_points := map (spun (3 / 2)) points |}]%string.
Proof. exact picture_drawn. Qed.
Print Assumptions C97_picture.
(** Turning keeps the distance from the origin. *)
Theorem C97_distance : forall speed p, length p = 2%nat -> dot_product (spun speed p) (spun speed p) = dot_product p p.
Proof. exact spun_radius. Qed.
Print Assumptions C97_distance.
Example C97_distance_example : length [3; 4] = 2%nat /\ dot_product [3; 4] [3; 4] = 25.
Proof. exact (conj eq_refl three_four). Qed.

(** The tasks, the panel and the picture of spirals. *)
From Coq Require Import String Ascii Permutation Sorted Lia Lra.
From Verif Require Import Base BaseLemmas UtilsModel UtilsSpec JaxModel SamplersModel SamplersSpec GaussianModel GaussianSpec MatrixUtilsModel MatrixUtilsSpec TransformsModel TransformsSpec RotateProofs
  BenchmarkModel BenchmarkThms BenchmarkSpec TasksModel TasksSpec TasksProofs TasksThms TasksBuild
  TasksGaussian FiguresModel FiguresSpec FiguresScale TablesModel TablesSpec TablesProofs V2TableModel V2TableSpec RulesModel OutliersModel OutliersPlotThms
  BasicSpec PlotMiModel PlotMiSpec PlotMiThms PlotMiTails PlotMiFigure SpiralFigureModel SpiralFigureSpec SpiralGaussian.
Open Scope R_scope.
Local Notation length := List.length.

Lemma speeds_are : SPEEDS = speeds.
Proof. unfold SPEEDS, speeds. repeat (f_equal; try lra). Qed.
Lemma sheet_turned F s : turned_sheet F (8 / 10) s = spiral_sheet F s.
Proof.
  unfold turned_sheet, spiral_sheet. replace (8 / 10) with (4 / 5) by lra.
  replace (- (ln (1 - (4 / 5) ^ 2) / 2)) with (ln (5 / 3)); [reflexivity|].
  replace (1 - (4 / 5) ^ 2) with (/ ((5 / 3) * (5 / 3))) by field. rewrite ln_Rinv by lra. rewrite ln_mult by lra. lra.
Qed.
Lemma plane_generator : so_generator 2 0 1 = Ok [[0; -1]; [1; 0]].
Proof. reflexivity. Qed.
Lemma spiral_spun expm speed : is_expm expm -> exists s, spiral_init [[0; -1]; [1; 0]] None speed = Ok s /\
  (forall p, match spiral_call expm s p with Ok v => v | Err _ => [] end = spun speed p) /\
  forall p, length p = 2%nat -> spiral_call expm s p = Ok (spun speed p).
Proof.
  intros E. destruct (plane_spiral expm speed 0 0 E) as (s & I & _). exists s. split; [exact I|].
  assert (C : forall x y, spiral_call expm s [x; y] = Ok (spun speed [x; y])).
  { intros x y. destruct (plane_spiral expm speed x y E) as (s' & I' & H). rewrite I in I'. injection I' as <-. exact H. }
  split.
  - intros [|x [|y [|z p]]]; try (rewrite C; reflexivity); unfold spiral_call; cbn in I; injection I as <-; reflexivity.
  - intros [|x [|y [|z p]]]; try discriminate. intros _. apply C.
Qed.

Section Tasks.
  Context {J : prng}.
  Variables (F : formats) (eigvals : matrix -> list (R * R)) (mvn : key J -> list R -> matrix -> nat -> matrix) (expm : expm_function).
  Hypotheses (He : eigvals_positive eigvals) (Hx : is_expm expm).

  Theorem spiral_task_built speed c h : -1 < c < 1 ->
    exists h' t, spiral_task F eigvals mvn expm speed c h = (h', Ok t) /\ ext h h' /\ fits 2 1 h' t (turned_sheet F c speed) /\ spun_pairs mvn c speed (t_sampler t).
  Proof.
    intros [C1 C2]. destruct (spiral_normal He mvn C1 C2) as (C & s & EC & Es & Dx & Dy & M & P & N).
    destruct (spiral_spun expm speed Hx) as (sp & Ei & Sp & _).
    destruct (new_dict_ext [("correlation", PFloat (Fin c)); ("speed", PFloat (Fin speed))]%string h) as (Ed & X & L).
    eexists. eexists. split.
    - unfold spiral_task, pbind, lift. rewrite EC, plane_generator, Es, Ei. unfold transformed_sampler. rewrite Dx, Dy. cbn [bind Z.ltb orb Z.compare].
      change (base_sampler_init (2 + 0) (1 + 0)) with (@Ok (Z * Z) (2, 1)%Z). cbn [bind]. rewrite Ed. reflexivity.
    - split; [exact X|]. split.
      + split; [reflexivity|]. split; [reflexivity|]. cbn [t_sampler t_params dim_x dim_y mutual_information sheet_mi turned_sheet fst snd]. split.
        * split; [exact L|]. split; [reflexivity|]. split; [reflexivity|].
          replace (- (ln (1 - c ^ 2) / 2)) with (paired_mi 1 c) by (unfold paired_mi; cbn [INR]; lra).
          split; [exact M|]. split; [|discriminate]. cbn. unfold Rltb. destruct (Rlt_dec _ 0); [exfalso; lra|reflexivity].
        * intros k. cbn [content t_params snd turned_sheet]. unfold dread. rewrite app_nth2 by lia. now rewrite Nat.sub_diag.
      + destruct N as (D & HD & Sa). exists D. split.
        * destruct HD as [H1 H2]. split; [exact H1|]. intros i j Hi Hj. rewrite (H2 i j Hi Hj). unfold paired_off.
          destruct i as [|[|[|i]]]; [| | |lia]; destruct j as [|[|[|j]]]; try lia; reflexivity.
        * intros n rng. cbn [t_sampler sample]. rewrite (Sa n rng). cbn [bind]. unfold cut, vmap. cbn [on_point pointwise identity]. f_equal. f_equal.
          -- rewrite map_map. apply map_ext. intros p. apply Sp.
          -- now rewrite map_id.
  Qed.
  Theorem spiral_task_reported speed c h : -1 < c < 1 ->
    exists h' t, spiral_task F eigvals mvn expm speed c h = (h', Ok t) /\ (forall r, (r < length h)%nat -> dread h' r = dread h r) /\
      (let e := turned_sheet F c speed in reports h' t (sheet_id e) (snd (fst (fst e))) 2 1 (sheet_mi e) (snd e)) /\ spun_pairs mvn c speed (t_sampler t).
  Proof.
    intros H. destruct (spiral_task_built speed c h H) as (h' & t & E & X & Ft & S). exists h', t. split; [exact E|]. split; [apply X|]. split; [|exact S].
    apply (fits_reports (dx := 2) (dy := 1) ltac:(lia) ltac:(lia) _ _ _ Ft).
  Qed.

  Lemma sheets_distinct_spiral : NoDup (map (float_repr F) speeds) -> NoDup (map sheet_id (map (spiral_sheet F) speeds)).
  Proof.
    intros N. rewrite map_map. unfold spiral_sheet, sheet_id. cbn [fst].
    rewrite <- (map_map (float_repr F) (fun s => "spiral-" ++ float_repr F (4 / 5) ++ "-" ++ s)%string). apply FinFun.Injective_map_NoDup; [|exact N].
    intros a b H. apply append_left in H. apply append_left in H. now apply append_left in H.
  Qed.
  Lemma derived_grows h h' (base t : task J) id name added new fx fy : derived base t h h' id name added new fx fy -> ext h h'.
  Proof. intros (_ & L & h1 & m & h2 & m' & _ & _ & _ & _ & _ & _ & _ & _ & K & _). split; assumption. Qed.

  Lemma sequence_spun (ss : list R) h : exists h' l, sequence (map (fun s => spiral_task F eigvals mvn expm s (8 / 10)) ss) h = (h', Ok l) /\ ext h h' /\
    Forall2 (fits 2 1 h') l (map (spiral_sheet F) ss) /\ Forall2 (fun s t => spun_pairs mvn (4 / 5) s (t_sampler t)) ss l.
  Proof.
    revert h. induction ss as [|s ss IH]; intros h.
    - exists h, []. split; [reflexivity|]. split; [apply ext_refl|]. split; constructor.
    - destruct (spiral_task_built s (8 / 10) h ltac:(lra)) as (h1 & t & E & X & Ft & Sp). destruct (IH h1) as (h2 & l & E2 & X2 & Fl & Sl).
      exists h2, (t :: l). cbn [map sequence]. unfold pbind at 1. rewrite E. unfold pbind at 1. rewrite E2. split; [reflexivity|]. split; [eapply ext_trans; eauto|]. split.
      + constructor; [|exact Fl]. rewrite <- sheet_turned. eapply fits_ext; eauto.
      + constructor; [|exact Sl]. replace (4 / 5) with (8 / 10) by lra. exact Sp.
  Qed.

  Theorem spiral_tasks_built h : NoDup (map (float_repr F) speeds) ->
    exists h0 l h' d, spiral_list F eigvals mvn expm h = (h0, Ok l) /\ spiral_tasks F eigvals mvn expm h = (h', Ok d) /\ NoDup (map fst d) /\
      Forall2 (fun e t => reports h' t (sheet_id e) (snd (fst (fst e))) 2 1 (sheet_mi e) (snd e)) (map (spiral_sheet F) speeds) l /\
      Forall2 (fun s t => spun_pairs mvn (4 / 5) s (t_sampler t)) speeds l /\
      Forall2 (fun e kt => fst kt = sheet_id e /\ reports h' (snd kt) (sheet_id e) (snd (fst (fst e))) 2 1 (sheet_mi e) (snd e)) (map (spiral_sheet F) speeds) d /\
      Forall2 (fun t kt => rescaled h0 h' t (snd kt)) l d.
  Proof.
    intros N. destruct (sequence_spun speeds h) as (h0 & l & E & X & Fl & Sl).
    destruct (loaded (dx := 2) (dy := 1) ltac:(lia) ltac:(lia) l _ h0 Fl (sheets_distinct_spiral N)) as (h' & d & E' & Nd & S & Z).
    { apply Forall_map, Forall_forall. intros s _. cbn. split; discriminate. }
    assert (EL : spiral_list F eigvals mvn expm h = (h0, Ok l)).
    { unfold spiral_list. rewrite speeds_are. rewrite <- E. f_equal. }
    exists h0, l, h', d. split; [exact EL|]. split; [unfold spiral_tasks, pbind at 1; rewrite EL; exact E'|]. split; [exact Nd|]. split; [|auto].
    assert (X' : ext h0 h').
    { inversion Z as [|t kt ? ? Zt _ Q1 Q2]; [|exact (derived_grows _ _ _ _ _ _ _ _ _ _ Zt)]. subst. inversion Fl. }
    clear - Fl X'. induction Fl as [|t e l es Ft _ IH]; constructor; [|exact IH]. apply (fits_reports (dx := 2) (dy := 1) ltac:(lia) ltac:(lia)). eapply fits_ext; eauto.
  Qed.
End Tasks.

(** ** The panel *)
Section Panel.
  Context {J : prng}.
  Variable F : formats.
  Hypothesis N : NoDup (map (float_repr F) speeds).
  Lemma same_speed s s' : In s speeds -> In s' speeds -> sheet_id (spiral_sheet F s) = sheet_id (spiral_sheet F s') -> s = s'.
  Proof.
    intros I I' E. unfold sheet_id, spiral_sheet in E. cbn [fst] in E. apply append_left in E. apply append_left in E. apply append_left in E.
    revert I I' E. generalize N. generalize speeds. clear. induction l as [|a l IH]; intros N I I' E; [destruct I|]. cbn in N. inversion N as [|? ? N1 N2]; subst.
    destruct I as [->|I], I' as [->|I']; auto.
    - destruct N1. rewrite E. now apply in_map.
    - destruct N1. rewrite <- E. now apply in_map.
  Qed.
  Lemma reports_fits h (t : task J) e : reports h t (sheet_id e) (snd (fst (fst e))) 2 1 (sheet_mi e) (snd e) -> fits 2 1 h t e.
  Proof. intros (U & h2 & m & E & A1 & A2 & A3 & A4 & A5 & A6). eapply fits_of; eauto. Qed.

  Lemma find_speed_known ss (l : list (task J)) id h : Forall2 (fits 2 1 h) l (map (spiral_sheet F) ss) -> forall h1, ext h h1 -> (exists s, In s ss /\ id = sheet_id (spiral_sheet F s)) ->
    exists h2 s, find_speed l id h1 = (h2, Ok (PFloat (Fin s))) /\ ext h1 h2 /\ In s ss /\ id = sheet_id (spiral_sheet F s).
  Proof.
    revert l. induction ss as [|s ss IH]; intros l G h1 X (s0 & I & E); [destruct I|]. cbn [map] in G. inversion G as [|t ? l' ? Ft G']; subst.
    cbn [find_speed]. destruct (step_id t h1 2 1 (Fin (sheet_mi (spiral_sheet F s)))) as (h2 & E2 & X2); [eapply ready_ext; [exact X|apply Ft]|].
    unfold pbind at 1. rewrite E2. assert (T : t_id t = sheet_id (spiral_sheet F s)) by apply Ft. rewrite T.
    destruct (String.eqb_spec (sheet_id (spiral_sheet F s)) (sheet_id (spiral_sheet F s0))) as [Q|Q].
    - destruct (step_params t h2 2 1 (Fin (sheet_mi (spiral_sheet F s)))) as (h3 & r & E3 & X3 & D & _); [eapply ready_ext; [exact (ext_trans _ _ _ X X2)|apply Ft]|].
      exists h3, s. unfold pbind at 1. rewrite E3. unfold pbind, read_dict. rewrite D. split; [|split; [eapply ext_trans; eauto|split; [now left|auto]]].
      assert (K : forall k, sdict_get (content h2 (t_params t)) k = sdict_get (snd (spiral_sheet F s)) k).
      { apply (fits_ext _ _ _ _ (ext_trans _ _ _ X X2) Ft). }
      unfold lift, lookup. rewrite K. reflexivity.
    - destruct (IH l' G' h2 (ext_trans _ _ _ X X2)) as (h3 & s' & E3 & X3 & I3 & Q3).
      { exists s0. split; [|reflexivity]. destruct I as [->|I]; [contradiction|exact I]. }
      exists h3, s'. split; [exact E3|]. split; [eapply ext_trans; eauto|]. split; [now right|exact Q3].
  Qed.
  Lemma find_speed_unknown ss (l : list (task J)) id h : Forall2 (fits 2 1 h) l (map (spiral_sheet F) ss) -> forall h1, ext h h1 -> (forall s, In s ss -> id <> sheet_id (spiral_sheet F s)) ->
    exists h2, find_speed l id h1 = (h2, Err KeyError) /\ ext h1 h2.
  Proof.
    revert l. induction ss as [|s ss IH]; intros l G h1 X H; cbn [map] in G; inversion G as [|t ? l' ? Ft G']; subst; [exists h1; split; [reflexivity|apply ext_refl]|].
    cbn [find_speed]. destruct (step_id t h1 2 1 (Fin (sheet_mi (spiral_sheet F s)))) as (h2 & E2 & X2); [eapply ready_ext; [exact X|apply Ft]|].
    unfold pbind at 1. rewrite E2. assert (T : t_id t = sheet_id (spiral_sheet F s)) by apply Ft. rewrite T.
    destruct (String.eqb_spec (sheet_id (spiral_sheet F s)) id) as [Q|_]; [destruct (H s (or_introl eq_refl)); auto|].
    destruct (IH l' G' h2 (ext_trans _ _ _ X X2)) as (h3 & E3 & X3); [intros; apply H; now right|]. exists h3. split; [exact E3|eapply ext_trans; eauto].
  Qed.

  Section Rows.
    Variables (h : dheap) (l : list (task J)).
    Hypothesis G : Forall2 (fun e t => reports h t (sheet_id e) (snd (fst (fst e))) 2 1 (sheet_mi e) (snd e)) (map (spiral_sheet F) speeds) l.
    Lemma all_fit : Forall2 (fits 2 1 h) l (map (spiral_sheet F) speeds).
    Proof. generalize G. generalize (map (spiral_sheet F) speeds). clear. intros es H. induction H as [|e t es ts Ht _ IH]; constructor; [now apply reports_fits|exact IH]. Qed.
    Theorem speed_found s : In s speeds -> exists h2, find_speed l (sheet_id (spiral_sheet F s)) h = (h2, Ok (PFloat (Fin s))).
    Proof.
      intros I. destruct (find_speed_known speeds l (sheet_id (spiral_sheet F s)) h all_fit h (ext_refl h)) as (h2 & s' & E & _ & I' & Q); [eauto|].
      rewrite <- (same_speed s s' I I' Q) in E. eauto.
    Qed.
    Theorem speed_missing id : (forall s, In s speeds -> id <> sheet_id (spiral_sheet F s)) -> exists h2, find_speed l id h = (h2, Err KeyError).
    Proof. intros H. destruct (find_speed_unknown speeds l id h all_fit h (ext_refl h) H) as (h2 & E & _). eauto. Qed.

    Lemma speeds_of rows : forall h1, ext h h1 -> Forall (fun r => exists s, In s speeds /\ about_speed F s r) rows ->
      exists h2 ss, sequence (map (fun r => find_speed l (r_task (mr_run r))) rows) h1 = (h2, Ok (map (fun s => PFloat (Fin s)) ss)) /\
        Forall2 (fun r s => In s speeds /\ r_task (mr_run r) = sheet_id (spiral_sheet F s)) rows ss.
    Proof.
      induction rows as [|r rows IH]; intros h1 X A; [exists h1, []; split; [reflexivity|constructor]|]. inversion A as [|? ? (s & I & T & _) A']; subst.
      destruct (find_speed_known speeds l (r_task (mr_run r)) h all_fit h1 X) as (h2 & s' & E & X2 & I' & Q); [eauto|].
      destruct (IH h2 (ext_trans _ _ _ X X2) A') as (h3 & ss & E3 & S3). exists h3, (s' :: ss). cbn [map sequence]. unfold pbind at 1. rewrite E. unfold pbind at 1. rewrite E3.
      split; [reflexivity|]. constructor; auto.
    Qed.
    Lemma marked rows ss : Forall2 (fun r s => In s speeds /\ r_task (mr_run r) = sheet_id (spiral_sheet F s)) rows ss ->
      marked_rows F rows (map (fun rs => {| mr_run := mr_run (fst rs); mr_params := sdict_set (mr_params (fst rs)) "speed" (snd rs) |}) (combine rows (map (fun s => PFloat (Fin s)) ss))).
    Proof.
      induction 1 as [|r s rows ss [I T] _ IH]; cbn [map combine]; constructor; [|exact IH]. split; [reflexivity|]. cbn [fst snd mr_run mr_params]. intros s'.
      assert (Gs : sdict_get (sdict_set (mr_params r) "speed" (PFloat (Fin s))) "speed" = Some (PFloat (Fin s))).
      { apply sdict_get_set_eq. }
      split.
      - intros [n E|v E]; cbn [mr_params] in E; rewrite Gs in E; [discriminate|]. injection E as <-. auto.
      - intros [I' T']. rewrite (same_speed s' s I' I); [|congruence]. now apply has_float.
    Qed.
    Theorem spiral_shown rows : rows <> [] -> Forall (fun r => exists s, In s speeds /\ about_speed F s r) rows ->
      (forall r, In r rows -> In (r_estimator (mr_run r)) (map style_id mi_styles)) ->
      exists h2 kept own p, plot_performance l rows h = (h2, Ok p) /\ keeping (fun r => fl_ltb (r_estimate (mr_run r)) (Fin 3) = true) rows kept /\
        marked_rows F kept own /\ shows_panel "speed" own true p /\ pn_x_label p = "Speed"%string /\
        Forall (fun q => In (fst q) speeds /\ snd q = Fin (ln (5 / 3))) (pn_truth p).
    Proof.
      intros Nr A K. destruct (frame_read (Fin 3) rows Nr) as (fr & E & C & Ke).
      assert (Ak : Forall (fun r => exists s, In s speeds /\ about_speed F s r) (f_rows fr)).
      { apply Forall_forall. intros r I. rewrite Forall_forall in A. apply A. now apply (keeping_in _ _ _ r Ke) in I. }
      destruct (speeds_of (f_rows fr) h (ext_refl h) Ak) as (h2 & ss & Es & Ss). assert (M := marked _ _ Ss).
      set (own := map _ _) in M.
      assert (B : forall r', In r' own -> exists r, In r (f_rows fr) /\ mr_run r' = mr_run r /\ forall s, has_parameter "speed" r' s <-> In s speeds /\ r_task (mr_run r) = sheet_id (spiral_sheet F s)).
      { clear - M. intros r' I. unfold marked_rows in M. induction M as [|r r1 rs rs' H _ IH]; [destruct I|]. destruct I as [->|I]; [exists r; split; [now left|exact H]|].
        destruct (IH I) as (r2 & I2 & H2). exists r2. split; [now right|exact H2]. }
      destruct (plot_shown {| f_columns := "speed"%string :: f_columns fr; f_rows := own |} "speed" (Some "Speed"%string) true) as (p & Ep & Sp & Lp).
      { now left. }
      { intros r' I. destruct (B r' I) as (r & Ir & Er & _). rewrite Er. apply K. now apply (keeping_in _ _ _ r Ke) in Ir. }
      exists h2, (f_rows fr), own, p. split.
      { unfold plot_performance, pbind at 1, lift at 1. rewrite E. unfold pbind at 1. rewrite Es. unfold lift. fold own. now rewrite Ep. }
      split; [exact Ke|]. split; [exact M|]. split; [exact Sp|]. split; [exact Lp|]. cbn [f_rows] in Sp.
      assert (D := line_determined _ _ _ _ _ (fun _ => ln (5 / 3)) (sp_truth _ _ _ _ Sp)). rewrite Forall_forall in *. intros q I. split.
      - destruct (proj1 (ml_values _ _ _ _ _ (sp_truth _ _ _ _ Sp) (fst q)) (in_map fst _ _ I)) as (r & Ir & _ & Hr). destruct (B r Ir) as (r0 & _ & _ & H). now apply H in Hr.
      - apply D; [|exact I]. intros r k Ir _ _. destruct (B r Ir) as (r0 & I0 & -> & _). destruct (Ak r0 I0) as (s & _ & _ & T). exact T.
    Qed.
    Theorem spiral_unknown rows r : In r rows -> fl_ltb (r_estimate (mr_run r)) (Fin 3) = true -> (forall s, In s speeds -> r_task (mr_run r) <> sheet_id (spiral_sheet F s)) ->
      exists h2, plot_performance l rows h = (h2, Err KeyError).
    Proof.
      intros I L U. assert (Nr : rows <> []) by (intros ->; destruct I). destruct (frame_read (Fin 3) rows Nr) as (fr & E & C & Ke).
      assert (Ik : In r (f_rows fr)) by (apply (keeping_in _ _ _ r Ke); auto).
      assert (Q : forall h1, ext h h1 -> exists h2, sequence (map (fun r => find_speed l (r_task (mr_run r))) (f_rows fr)) h1 = (h2, Err KeyError)).
      { clear - Ik U G. induction (f_rows fr) as [|a rs IH]; [destruct Ik|]. intros h1 X. cbn [map sequence]. unfold pbind at 1.
        destruct (in_dec string_dec (r_task (mr_run a)) (map (fun s => sheet_id (spiral_sheet F s)) speeds)) as [Y|Y].
        - apply in_map_iff in Y as (s & Y & Is). destruct (find_speed_known speeds l (r_task (mr_run a)) h all_fit h1 X) as (h2 & s' & E & X2 & _); [eauto|]. rewrite E.
          destruct Ik as [->|Ik]; [destruct (U s Is); auto|]. destruct (IH Ik h2 (ext_trans _ _ _ X X2)) as (h3 & E3). unfold pbind. rewrite E3. eauto.
        - destruct (find_speed_unknown speeds l (r_task (mr_run a)) h all_fit h1 X) as (h2 & E & _).
          { intros s Is Q. apply Y. apply in_map_iff. exists s. auto. }
          rewrite E. eauto. }
      destruct (Q h (ext_refl h)) as (h2 & E2). exists h2. unfold plot_performance, pbind at 1, lift at 1. rewrite E. unfold pbind. now rewrite E2.
    Qed.
  End Rows.
End Panel.

(** ** The picture *)
Definition radius2 (p : list R) : R := dot_product p p.
Lemma spun_radius speed p : length p = 2%nat -> radius2 (spun speed p) = radius2 p.
Proof.
  destruct p as [|x [|y [|z p]]]; try discriminate. intros _. unfold radius2, spun, dot_product. cbn. set (t := speed * _).
  assert (H := sin2_cos2 t). unfold Rsqr in H. replace (x * x + (y * y + 0)) with ((sin t * sin t + cos t * cos t) * (x * x + y * y)) by (rewrite H; ring). ring.
Qed.
Theorem picture_drawn draw normal expm text : is_expm expm ->
  let points := map (fun p => [fst p; snd p]) (combine (draw 42%Z 0%nat (-2) 2 2000%nat) (draw 42%Z 1%nat (- (1 / 20)) (1 / 20) 2000%nat)) in
  spiral_picture draw normal expm text =
    Ok [{| cl_label := "Original"; cl_color := "green"; cl_points := points |};
        {| cl_label := "Speed " ++ text (1 / 2); cl_color := "goldenrod"; cl_points := map (spun (1 / 2)) points |};
        {| cl_label := "Speed " ++ text (3 / 2); cl_color := "orangered"; cl_points := map (spun (3 / 2)) points |}]%string.
Proof.
  intros He points. unfold spiral_picture.
  replace (get_points draw normal 42 2 (5 / 100) true 2000) with points by (unfold get_points, points; replace (5 / 100) with (1 / 20) by lra; replace (Ropp 2) with (-2) by lra; reflexivity).
  replace (5 / 10) with (1 / 2) by lra. replace (15 / 10) with (3 / 2) by lra.
  assert (T : forall speed, get_transformed_points expm points speed = Ok (map (spun speed) points)).
  { intros speed. unfold get_transformed_points. rewrite plane_generator. cbn [bind]. destruct (spiral_spun expm speed He) as (s & -> & _ & S). cbn [bind].
    unfold points. clear - S. induction (combine _ _) as [|[x y] l IH]; [reflexivity|]. cbn [map each fst snd]. rewrite S by reflexivity. cbn [bind]. now rewrite IH. }
  cbv zeta. cbn [each]. rewrite !T. cbn [bind]. reflexivity.
Qed.

(** What the figure of the tails shows. *)
From Coq Require Import String Ascii Permutation Sorted Lia Lra.
From Verif Require Import Base BaseLemmas UtilsModel GaussianModel BenchmarkModel BenchmarkSpec TasksModel TasksSpec TablesModel TablesSpec TablesProofs V2TableModel V2TableSpec
  RulesModel OutliersModel GaussianSpec GammaSpec CorrectionThms PlotMiModel PlotMiSpec PlotMiThms.
Open Scope R_scope.
Local Notation length := List.length.

Lemma keeping_in {A} (P : A -> Prop) l s a : keeping P l s -> (In a s <-> In a l /\ P a).
Proof. induction 1; cbn; [tauto| |]; rewrite IHkeeping; intuition (subst; auto; contradiction). Qed.
Lemma rmean_const m xs : xs <> [] -> Forall (eq m) xs -> rmean xs = m.
Proof.
  intros N H. assert (E : rsum xs = INR (length xs) * m).
  { clear N. induction H as [|x l <- _ IH]; cbn [rsum fold_right length]; [cbn; ring|]. change (m + rsum l = INR (S (length l)) * m). rewrite S_INR, IH. ring. }
  unfold rmean. rewrite E. field. destruct xs; [contradiction|]. apply not_0_INR. discriminate.
Qed.
Lemma mean_const l m v : l <> [] -> (forall x, In x l -> x = Fin m) -> mean_of l v -> v = Fin m.
Proof.
  intros N C [A|xs Nx E|I|I|I]; try (specialize (C _ I); discriminate).
  - destruct l as [|x l]; [contradiction|]. specialize (A x (or_introl eq_refl)). specialize (C x (or_introl eq_refl)). congruence.
  - f_equal. apply rmean_const; [exact Nx|]. apply Forall_forall. intros x I. assert (J : In (Fin x) (filter (fun v => match v with NaN => false | _ => true end) l)).
    { rewrite E. now apply in_map. } apply filter_In in J as [J _]. apply C in J. congruence.
Qed.
(** A line through values which are determined by the parameter. *)
Lemma line_determined x rows (P : mrow -> Prop) f line (g : R -> R) : mean_line x rows P f line ->
  (forall r k, In r rows -> P r -> has_parameter x r k -> f r = Fin (g k)) -> Forall (fun km => snd km = Fin (g (fst km))) line.
Proof.
  intros [_ V M] H. rewrite Forall_forall in *. intros km I. destruct (M km I) as (gr & K & Me). eapply mean_const; [|intros v Hv|exact Me].
  - destruct (proj1 (V (fst km)) (in_map fst _ _ I)) as (r & Ir & Pr & Hr). assert (J : In r gr) by (apply (keeping_in _ _ _ r K); auto). destruct gr; [destruct J|discriminate].
  - apply in_map_iff in Hv as (r & <- & J). apply (keeping_in _ _ _ r K) in J as (Ir & Pr & Hr). now apply H.
Qed.
Lemma get_in {V} (d : sdict V) k v : sdict_get d k = Some v -> In (k, v) d.
Proof.
  induction d as [|[k' v'] d IH]; cbn; [discriminate|]. destruct (String.eqb_spec k k') as [->|_]; [intros [= ->]; now left|]. intros H. right. auto.
Qed.

Section Figure.
  Variables (F : formats) (c : R -> R).
  Hypothesis falls : forall a b, 1 <= a -> a < b -> c b < c a.
  Definition about_tails (rows : list mrow) : Prop := Forall (fun r => exists e, In e (tails_sheets F c) /\ row_about r (sheet_mi e) (snd e)) rows.

  Lemma sheet_cases e : In e (tails_sheets F c) -> (exists a, In a exponents /\ e = power_sheet F a) \/ (exists df, In df [1; 3; 5; 7; 9; 11; 13; 15; 17; 19]%Z /\ e = student_sheet c df).
  Proof. unfold tails_sheets. rewrite in_app_iff, !in_map_iff. intros [(a & <- & H)|(d & <- & H)]; eauto. Qed.
  Lemma alpha_row rows r k : about_tails rows -> In r rows -> has_parameter "alpha" r k -> In k exponents /\ r_true (mr_run r) = Fin (ln (25 / 9)).
  Proof.
    intros A I H. unfold about_tails in A. rewrite Forall_forall in A. destruct (A r I) as (e & Ie & T & Pa). specialize (Pa "alpha"%string).
    destruct (sheet_cases e Ie) as [(a & Ha & ->)|(df & Hd & ->)].
    - cbn in Pa. destruct H as [n E|v E]; rewrite Pa in E; [discriminate|]. injection E as <-. split; [exact Ha|exact T].
    - cbn in Pa. destruct H as [n E|v E]; rewrite Pa in E; discriminate.
  Qed.
  Lemma dof_row rows r k : about_tails rows -> In r rows -> has_parameter "dof" r k ->
    In k degrees /\ r_true (mr_run r) = Fin (ln (25 / 9) + c k).
  Proof.
    intros A I H. unfold about_tails in A. rewrite Forall_forall in A. destruct (A r I) as (e & Ie & T & Pa). specialize (Pa "dof"%string).
    destruct (sheet_cases e Ie) as [(a & Ha & ->)|(df & Hd & ->)].
    - cbn in Pa. destruct H as [n E|v E]; rewrite Pa in E; discriminate.
    - cbn in Pa. destruct H as [n E|v E]; rewrite Pa in E; [|discriminate]. injection E as <-. split; [|exact T]. now apply (in_map IZR) in Hd.
  Qed.
  Lemma degrees_from_one k : In k degrees -> 1 <= k.
  Proof. cbn. intuition (subst; lra). Qed.

  Theorem tails_shown rows : about_tails rows -> known rows ->
    (exists r k, In r rows /\ has_parameter "alpha" r k) -> (exists r k, In r rows /\ has_parameter "dof" r k) ->
    exists kept exponent freedom, figure_tails rows = Ok (exponent, freedom) /\
      keeping (fun r => fl_ltb (r_estimate (mr_run r)) (Fin 3) = true) rows kept /\
      shows_panel "alpha" kept true exponent /\ pn_x_label exponent = "Exponent"%string /\
      Forall (fun p => In (fst p) exponents /\ snd p = Fin (ln (25 / 9))) (pn_truth exponent) /\
      shows_panel "dof" kept true freedom /\ pn_x_label freedom = "Deg. of freedom"%string /\
      Forall (fun p => In (fst p) degrees /\ snd p = Fin (ln (25 / 9) + c (fst p))) (pn_truth freedom) /\
      StronglySorted (fun p q => exists u v, snd p = Fin u /\ snd q = Fin v /\ v < u) (pn_truth freedom).
  Proof.
    intros A K (ra & ka & Ia & Ha) (rd & kd & Id & Hd). assert (N : rows <> []) by (intros ->; destruct Ia).
    destruct (frame_read (Fin 3) rows N) as (fr & E & C & Ke).
    assert (Ak : about_tails (f_rows fr)).
    { apply Forall_forall. intros r I. unfold about_tails in A. rewrite Forall_forall in A. apply A. now apply (keeping_in _ _ _ r Ke) in I. }
    assert (Kk : known (f_rows fr)) by (intros r I; apply K; now apply (keeping_in _ _ _ r Ke) in I).
    assert (Cx : forall x r k, In r rows -> has_parameter x r k -> In x (f_columns fr)).
    { intros x r k I [n G|v G]; apply get_in in G; apply C; eauto. }
    destruct (plot_shown fr "alpha" (Some "Exponent"%string) true (Cx _ _ _ Ia Ha) Kk) as (p & Ep & Sp & Lp).
    destruct (plot_shown fr "dof" (Some "Deg. of freedom"%string) true (Cx _ _ _ Id Hd) Kk) as (q & Eq & Sq & Lq).
    exists (f_rows fr), p, q. split; [unfold figure_tails; rewrite E; cbn [bind]; rewrite Ep; cbn [bind]; now rewrite Eq|].
    split; [exact Ke|]. split; [exact Sp|]. split; [exact Lp|]. split; [|split; [exact Sq|split; [exact Lq|]]].
    - assert (D := line_determined _ _ _ _ _ (fun _ => ln (25 / 9)) (sp_truth _ _ _ _ Sp) (fun r k I _ H => proj2 (alpha_row _ r k Ak I H))).
      rewrite Forall_forall in *. intros km I. split; [|now apply D].
      destruct (proj1 (ml_values _ _ _ _ _ (sp_truth _ _ _ _ Sp) (fst km)) (in_map fst _ _ I)) as (r & Ir & _ & Hr). exact (proj1 (alpha_row _ r _ Ak Ir Hr)).
    - assert (D := line_determined _ _ _ _ _ (fun k => ln (25 / 9) + c k) (sp_truth _ _ _ _ Sq) (fun r k I _ H => proj2 (dof_row _ r k Ak I H))).
      assert (D' : Forall (fun p => In (fst p) degrees /\ snd p = Fin (ln (25 / 9) + c (fst p))) (pn_truth q)).
      { rewrite Forall_forall in *. intros km I. split; [|now apply D].
        destruct (proj1 (ml_values _ _ _ _ _ (sp_truth _ _ _ _ Sq) (fst km)) (in_map fst _ _ I)) as (r & Ir & _ & Hr). exact (proj1 (dof_row _ r _ Ak Ir Hr)). }
      split; [exact D'|]. assert (O := ml_order _ _ _ _ _ (sp_truth _ _ _ _ Sq)). clear - O D' falls.
      induction (pn_truth q) as [|a l IH]; constructor; inversion D' as [|? ? [D1 D2] D3]; subst; cbn in O; apply StronglySorted_inv in O as [O1 O2]; [now apply IH|].
      apply Forall_forall. intros b I. rewrite Forall_forall in D3, O2. destruct (D3 b I) as [_ Db]. do 2 eexists. split; [exact D2|]. split; [exact Db|].
      apply Rplus_lt_compat_l, falls; [now apply degrees_from_one|]. apply O2. now apply in_map.
  Qed.
End Figure.
(** With the correction of the Student distribution. *)
Theorem tails_figure F psi lg : gamma_functions psi lg -> let c df := student_correction psi lg df 3 3 in
  forall rows, Forall (fun r => exists e, In e (tails_sheets F c) /\ row_about r (sheet_mi e) (snd e)) rows ->
  (forall r, In r rows -> In (r_estimator (mr_run r)) (map style_id mi_styles)) ->
  (exists r k, In r rows /\ has_parameter "alpha" r k) -> (exists r k, In r rows /\ has_parameter "dof" r k) ->
  exists kept exponent freedom, figure_tails rows = Ok (exponent, freedom) /\
    keeping (fun r => fl_ltb (r_estimate (mr_run r)) (Fin 3) = true) rows kept /\
    shows_panel "alpha" kept true exponent /\ pn_x_label exponent = "Exponent"%string /\
    Forall (fun p => In (fst p) exponents /\ snd p = Fin (ln (25 / 9))) (pn_truth exponent) /\
    shows_panel "dof" kept true freedom /\ pn_x_label freedom = "Deg. of freedom"%string /\
    Forall (fun p => In (fst p) degrees /\ snd p = Fin (ln (25 / 9) + c (fst p)) /\ 0 < c (fst p)) (pn_truth freedom) /\
    StronglySorted (fun p q => exists u v, snd p = Fin u /\ snd q = Fin v /\ v < u) (pn_truth freedom).
Proof.
  intros G c rows A K Ha Hd. destruct (tails_shown F c) with (rows := rows) as (kept & e & f & H1 & H2 & H3 & H4 & H5 & H6 & H7 & H8 & H9); try assumption.
  - intros a b La Lb. apply correction_decreasing; try assumption; try lia; lra.
  - exists kept, e, f. repeat (split; [assumption|]). split; [|exact H9]. rewrite Forall_forall in *. intros p I. destruct (H8 p I) as [X Y]. split; [exact X|]. split; [exact Y|].
    apply correction_positive; try assumption; try lia. apply degrees_from_one in X. lra.
Qed.

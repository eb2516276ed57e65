(** The tasks and the panels of the figure of growing mutual information. *)
From Coq Require Import String Ascii Permutation Sorted Lia Lra.
From Verif Require Import Base BaseLemmas UtilsModel UtilsSpec JaxModel SamplersModel SamplersSpec GaussianModel GaussianSpec MatrixUtilsModel MatrixUtilsSpec TransformsModel TransformsSpec BenchmarkModel BenchmarkThms BenchmarkSpec TasksModel TasksSpec TasksProofs TasksThms
  TasksGaussian FiguresModel FiguresSpec FiguresScale HighMiModel HighMiSpec HighMiThms TablesModel TablesSpec TablesProofs V2TableModel V2TableSpec RulesModel OutliersModel OutliersPlotThms
  PlotMiModel PlotMiSpec PlotMiThms PlotMiTails PlotMiFigure SparsityFigureThms HighMiFigureModel HighMiFigureSpec.
Open Scope R_scope.
Local Notation length := List.length.

Lemma desired_are : DESIRED = desired.
Proof. unfold DESIRED, desired. repeat (f_equal; try lra). Qed.
Lemma desired_range : Forall (fun mi => 0 <= mi <= 3000) desired.
Proof. unfold desired. repeat constructor; lra. Qed.

Section Tasks.
  Context {J : prng}.
  Variables (F : formats) (eigvals : matrix -> list (R * R)) (mvn : key J -> list R -> matrix -> nat -> matrix) (expm : expm_function) (uniform : nat -> R).
  Hypothesis He : eigvals_positive eigvals.

  Lemma base_fits mi title (t : task J) h h1 : sparse_task F mi title 3 t h h1 -> exists e, high_sheet F ((title, "", "Gaussian", []), mi)%string e /\ fits 3 3 h1 t e.
  Proof.
    intros (c & v & p & Hc & -> & W & M & Dx & Dy & Ei & En & Ep & El & Ed). eexists. split; [exists c; split; [exact Hc|split; [exact W|reflexivity]]|].
    assert (P : (p < length h1)%nat).
    { destruct (Nat.lt_ge_cases p (length h1)) as [|G]; [assumption|]. unfold dread in Ed. rewrite nth_overflow in Ed by exact G. discriminate. }
    assert (V : 0 <= - ln (1 - c ^ 2)).
    { assert (Q : 0 < 1 - c ^ 2 < 1) by (cbn [pow]; split; nra). assert (L : ln (1 - c ^ 2) < ln 1) by (apply ln_increasing; lra). rewrite ln_1 in L. lra. }
    split; [exact Ei|]. split; [exact En|]. split.
    - split; [now rewrite Ep|]. split; [exact Dx|]. split; [exact Dy|]. split; [exact M|]. split; [|discriminate]. cbn. unfold Rltb. destruct (Rlt_dec _ 0); [exfalso; cbn in V; lra|reflexivity].
    - intros k. rewrite Ep. cbn [content]. rewrite Ed. now rewrite app_nil_r.
  Qed.
  Definition giving (fm : (string * string * string * list (string * py)) * R) (p : prog (option (task J))) : Prop :=
    forall h, exists h' t e, p h = (h', Ok (Some t)) /\ ext h h' /\ high_sheet F fm e /\ fits 3 3 h' t e.
  Lemma gaussian_fits mi title : 0 <= mi <= 3000 -> giving ((title, "", "Gaussian", []), mi)%string (generate_sparse_gaussian_task F eigvals mvn uniform mi title 3).
  Proof.
    intros H h. destruct (generate_found eigvals J mvn F uniform mi title 3 h He ltac:(lia) H) as (h1 & t & E & S & _ & X).
    destruct (base_fits _ _ _ _ _ S) as (e & He' & Fe). eauto 10.
  Qed.
  Lemma child_fits mi title prefix name more h h1 h2 (base t : task J) fx fy :
    sparse_task F mi title 3 base h h1 -> Forall (fun kv => sdict_get [("correlation", 0); ("desired_mi", 0); ("true_mi", 0); ("dim", 0); ("family_name", 0)]%string (fst kv) = None) more -> NoDup (map fst more) ->
    derived base t h1 h2 (fun i => prefix ++ i)%string (fun _ => name ++ " with " ++ float_fixed F 2 mi ++ " MI")%string 0 more fx fy ->
    exists e, ext h1 h2 /\ high_sheet F ((title, prefix, name, more), mi) e /\ fits 3 3 h2 t e.
  Proof.
    intros S M N D. destruct (base_fits _ _ _ _ _ S) as (e & (c & Hc & W & ->) & Fe).
    eexists. assert (Q := derived_fits (dx := 3) (dy := 3) h1 h2 base t _ _ _ _ _ _
      ((prefix ++ "sparse-gaussian-" ++ float_fixed F 3 mi)%string, (name ++ " with " ++ float_fixed F 2 mi ++ " MI")%string, - ln (1 - c ^ 2),
         ([("correlation", PFloat (Fin c)); ("desired_mi", PFloat (Fin mi)); ("true_mi", PFloat (Fin (- ln (1 - c ^ 2))));
           ("dim", PInt 3); ("family_name", PStr title)]%string ++ more)%list) Fe D eq_refl eq_refl eq_refl).
    destruct Q as [X Ft].
    - intros k. cbn [snd]. rewrite app_nil_r. assert (G : forall (a b : sdict py) k, sdict_get (a ++ b)%list k = match sdict_get a k with Some v => Some v | None => sdict_get b k end).
      { clear. intros a b k. induction a as [|[k' v] a IH]; cbn; [reflexivity|]. destruct (String.eqb k k'); [reflexivity|exact IH]. }
      rewrite G. assert (Rv : sdict_get (rev more) k = sdict_get more k).
      { clear - N G. induction more as [|[k' v] m IH]; [reflexivity|]. cbn [rev]. rewrite G. inversion N as [|? ? N1 N2]; subst. rewrite (IH N2). cbn. destruct (String.eqb_spec k k') as [->|_].
        - destruct (sdict_get m k') as [w|] eqn:E; [|reflexivity]. apply get_in in E. destruct N1. apply (in_map fst) in E. exact E.
        - destruct (sdict_get m k); reflexivity. }
      rewrite Rv. destruct (sdict_get more k) as [v|] eqn:E.
      + apply get_in in E. rewrite Forall_forall in M. specialize (M _ E). cbn [fst] in M. revert M. cbn. repeat (destruct (String.eqb k _); [discriminate|]). reflexivity.
      + destruct (sdict_get [("correlation"%string, PFloat (Fin c)); _; _; _; _] k); reflexivity.
    - split; [exact X|]. split; [|exact Ft]. exists c. split; [exact Hc|]. split; [exact W|]. reflexivity.
  Qed.
  Lemma spiral_fits mi title : 0 <= mi <= 3000 -> giving ((title, "spiral-", "Spiral", [("speed", PFloat (Fin (1 / 3))); ("normalize_speed", PBool true)]), mi)%string
    (generate_spiral_task F eigvals mvn expm uniform mi title 3 (1 / 3)).
  Proof.
    intros H h. destruct (generate_found eigvals J mvn F uniform mi title 3 h He ltac:(lia) H) as (h1 & base & E & S & U & X).
    assert (D := S). destruct D as (c & v & p & _ & _ & _ & _ & Dx & Dy & _).
    destruct (spiral_derived expm base (1 / 3) (Some ("Spiral with " ++ float_fixed F 2 mi ++ " MI")%string) true h1 3 3 U Dx Dy ltac:(lia) ltac:(lia))
      as (h' & t & gx & gy & sx & sy & Et & Gx & Gy & Sx & Sy & D & _).
    destruct (child_fits mi title "spiral-" "Spiral" [("speed", PFloat (Fin (1 / 3))); ("normalize_speed", PBool true)]%string h h1 h' base t _ _ S ltac:(repeat constructor) ltac:(repeat constructor; cbn; intuition discriminate) D) as (e & X2 & He' & Fe).
    exists h', t, e. split; [unfold generate_spiral_task, pbind; rewrite E, Et; reflexivity|]. split; [eapply ext_trans; eauto|]. auto.
  Qed.
  Lemma half_cube_fits mi title : 0 <= mi <= 3000 -> giving ((title, "half_cube-", "Half-cube", []), mi)%string (generate_half_cube_task F eigvals mvn uniform mi title 3).
  Proof.
    intros H h. destruct (generate_found eigvals J mvn F uniform mi title 3 h He ltac:(lia) H) as (h1 & base & E & S & U & X).
    destruct (half_cube_derived base (Some ("Half-cube with " ++ float_fixed F 2 mi ++ " MI")%string) h1 U) as (h' & t & Et & D & _).
    destruct (child_fits mi title "half_cube-" "Half-cube" []%string h h1 h' base t _ _ S ltac:(constructor) ltac:(constructor) D) as (e & X2 & He' & Fe).
    exists h', t, e. split; [unfold generate_half_cube_task, pbind; rewrite E, Et; reflexivity|]. split; [eapply ext_trans; eauto|]. auto.
  Qed.
  Lemma sequence_giving cs ps : Forall2 giving cs ps -> forall h, exists h' l es, sequence ps h = (h', Ok (map Some l)) /\ ext h h' /\ Forall2 (high_sheet F) cs es /\ Forall2 (fits 3 3 h') l es.
  Proof.
    induction 1 as [|c p cs ps Hp _ IH]; intros h.
    - exists h, [], []. split; [reflexivity|]. split; [apply ext_refl|]. split; constructor.
    - destruct (Hp h) as (h1 & t & e & E & X & Te & Fe). destruct (IH h1) as (h2 & l & es & E2 & X2 & Ts & Fs). exists h2, (t :: l), (e :: es).
      cbn [sequence]. unfold pbind at 1. rewrite E. unfold pbind at 1. rewrite E2. split; [reflexivity|]. split; [eapply ext_trans; eauto|]. split; constructor; try assumption.
      eapply fits_ext; eauto.
  Qed.

  Lemma high_distinct es : NoDup (map (float_fixed F 3) desired) -> Forall2 (high_sheet F) high_cases es -> NoDup (map sheet_id es).
  Proof.
    intros N H.
    assert (Q : map sheet_id es = flat_map (fun p => map (fun mi => (p ++ "sparse-gaussian-" ++ float_fixed F 3 mi)%string) desired) [""; "spiral-"; "half_cube-"]%string).
    { replace (flat_map _ _) with (map (fun fm : (string * string * string * list (string * py)) * R => (snd (fst (fst (fst fm))) ++ "sparse-gaussian-" ++ float_fixed F 3 (snd fm))%string) high_cases) by reflexivity.
      induction H as [|[[[[a b] c] d] mi] e cs es (x & _ & _ & ->) _ IH]; cbn [map]; [reflexivity|]. rewrite IH. reflexivity. }
    rewrite Q. cbn [flat_map]. rewrite app_nil_r.
    assert (P : forall p, NoDup (map (fun mi => (p ++ "sparse-gaussian-" ++ float_fixed F 3 mi)%string) desired)).
    { intros p. rewrite <- (map_map (float_fixed F 3) (fun s => (p ++ "sparse-gaussian-" ++ s)%string)). apply FinFun.Injective_map_NoDup; [|exact N].
      intros a b E. apply append_left in E. now apply append_left in E. }
    apply nodup_app; [apply P|apply nodup_app; [apply P|apply P|]|].
    - intros s I I'. rewrite in_map_iff in I, I'. destruct I as (a & <- & _). destruct I' as (b & E & _). discriminate.
    - intros s I I'. rewrite in_app_iff, !in_map_iff in I'. rewrite in_map_iff in I. destruct I as (a & <- & _). destruct I' as [(b & E & _)|(b & E & _)]; discriminate.
  Qed.

  Theorem high_mi_built h : NoDup (map (float_fixed F 3) desired) ->
    exists h0 l h' d es, high_mi_list F eigvals mvn expm uniform h = (h0, Ok l) /\ high_mi_tasks F eigvals mvn expm uniform h = (h', Ok d) /\ NoDup (map fst d) /\
      Forall2 (high_sheet F) high_cases es /\
      Forall2 (fun e kt => fst kt = sheet_id e /\ reports h' (snd kt) (sheet_id e) (snd (fst (fst e))) 3 3 (sheet_mi e) (snd e)) es d /\
      Forall2 (fun t kt => rescaled h0 h' t (snd kt)) l d.
  Proof.
    intros N.
    destruct (sequence_giving high_cases (flat_map (fun family => map (fun mi => snd family mi (fst family)) DESIRED) (FAMILIES F eigvals mvn expm uniform))) with (h := h) as (h1 & l & es & E & X & T & Fl).
    { rewrite desired_are. unfold high_cases, high_families, FAMILIES. cbn [flat_map fst snd]. rewrite !app_nil_r. assert (P := desired_range).
      apply Forall2_app; [|apply Forall2_app]; clear N; induction P as [|mi l Hm _ IH]; cbn [map]; try constructor; try exact IH; [now apply gaussian_fits|now apply spiral_fits|now apply half_cube_fits]. }
    destruct (loaded (dx := 3) (dy := 3) ltac:(lia) ltac:(lia) _ _ h1 Fl (high_distinct es N T)) as (h4 & d & E4 & Nd & S & Z).
    { assert (G : Forall (fun fm : (string * string * string * list (string * py)) * R => snd (fst (fst fm)) <> ""%string) high_cases).
      { unfold high_cases, high_families. cbn [flat_map]. rewrite !Forall_app, !Forall_map. repeat split; try (apply Forall_forall; intros; discriminate). constructor. }
      clear - G T. induction T as [|[[[[a b] c] d] mi] e cs es (x & _ & _ & ->) _ IH]; constructor; inversion G; subst; [|now apply IH]. cbn. split.
      - destruct b; discriminate.
      - destruct c; [contradiction|discriminate]. }
    assert (EL : high_mi_list F eigvals mvn expm uniform h = (h1, Ok l)).
    { unfold high_mi_list, pbind. rewrite E. unfold pret. f_equal. f_equal. clear. induction l; cbn; congruence. }
    exists h1, l, h4, d, es. split; [exact EL|]. split; [|auto]. unfold high_mi_tasks, pbind at 1. rewrite EL. exact E4.
  Qed.
End Tasks.

(** ** The panels *)
Lemma family_spec r f : family_of r = Ok f <-> has_family f r.
Proof.
  unfold family_of, lookup, has_family. destruct (sdict_get (mr_params r) "family_name") as [w|]; cbn [bind]; [|split; discriminate].
  destruct w; split; try discriminate; intros [= ->]; reflexivity.
Qed.
Definition described (r : mrow) : Prop := (exists v, sdict_get (mr_params r) "desired_mi" = Some v) /\ exists f, has_family f r.
Theorem high_mi_shown rows : rows <> [] -> Forall described rows -> (forall r, In r rows -> In (r_estimator (mr_run r)) (map style_id mi_styles)) ->
  exists ps all, figure_high_mi rows = Ok ps /\ sorted_labels all /\ (forall f, In f all <-> exists r, In r rows /\ has_family f r) /\ map fst ps = firstn 3 all /\
    Forall (fun fp => exists own, keeping (has_family (fst fp)) rows own /\ shows_panel "desired_mi" own true (snd fp) /\ pn_x_label (snd fp) = "True MI [nats]"%string) ps.
Proof.
  intros N D K. rewrite Forall_forall in D.
  assert (E1 : exists vs, each (fun r => lookup (mr_params r) "desired_mi") rows = Ok vs).
  { clear N K. induction rows as [|r rows IH]; [now exists []|]. destruct IH as (vs & E); [intros; apply D; now right|]. destruct (D r (or_introl eq_refl)) as [(v & G) _].
    exists (v :: vs). cbn. unfold lookup at 1. rewrite G. cbn [bind]. now rewrite E. }
  assert (E2 : exists fs, each family_of rows = Ok fs /\ forall f, In f fs <-> exists r, In r rows /\ has_family f r).
  { clear N K E1. induction rows as [|r rows IH].
    - exists []. split; [reflexivity|]. intros f. split; [intros []|intros (r & [] & _)].
    - destruct IH as (fs & E & I); [intros; apply D; now right|]. destruct (D r (or_introl eq_refl)) as [_ (f0 & G)].
      exists (f0 :: fs). cbn [each]. rewrite (proj2 (family_spec r f0) G). cbn [bind]. rewrite E. split; [reflexivity|]. intros f. cbn [In]. rewrite I. split.
      + intros [->|(r' & A & B)]; eauto.
      + intros (r' & [<-|A] & B); [left; unfold has_family in *; congruence|right; eauto]. }
  destruct E1 as (vs & E1), E2 as (fs & E2 & I2).
  assert (E3 : forall l, (forall f, In f l -> exists r, In r rows /\ has_family f r) ->
    exists ps, each (fun family => do p <- plot_mi {| f_columns := ["desired_mi"]%string; f_rows := of_family family rows |} "desired_mi" COLORS NAMES (Some "True MI [nats]"%string) true; Ok (family, p)) l = Ok ps /\
      map fst ps = l /\ Forall (fun fp => exists own, keeping (has_family (fst fp)) rows own /\ shows_panel "desired_mi" own true (snd fp) /\ pn_x_label (snd fp) = "True MI [nats]"%string) ps).
  { induction l as [|f l IH]; intros H; [exists []; cbn; auto|]. destruct IH as (ps & E & M & A); [intros; apply H; now right|].
    destruct (plot_shown {| f_columns := ["desired_mi"]%string; f_rows := of_family f rows |} "desired_mi" (Some "True MI [nats]"%string) true) as (p & Ep & Sp & Lp).
    - now left.
    - intros r I. cbn [f_rows] in I. unfold of_family in I. apply filter_In in I as [I _]. now apply K.
    - exists ((f, p) :: ps). cbn [each]. rewrite Ep. cbn [bind]. rewrite E. cbn [bind]. split; [reflexivity|]. split; [cbn; now rewrite M|]. constructor; [|exact A]. cbn [fst snd].
      exists (of_family f rows). split; [|auto]. apply keeping_filter. intros r. rewrite <- family_spec. destruct (family_of r) as [s|]; [|split; discriminate].
      rewrite String.eqb_eq. split; congruence. }
  destruct (E3 (firstn 3 (labels fs))) as (ps & E & M & A).
  { intros f I. apply I2. rewrite <- labels_in. rewrite <- (firstn_skipn 3 (labels fs)). apply in_app_iff. now left. }
  exists ps, (labels fs). split.
  - unfold figure_high_mi. destruct rows as [|r rows]; [contradiction|]. rewrite E1. cbn [bind]. rewrite E2. cbn [bind]. exact E.
  - split; [split; [apply labels_nodup|apply labels_sorted]|]. split; [|auto]. intros f. rewrite labels_in. apply I2.
Qed.
Theorem high_mi_missing rows : rows = [] \/ (exists r, In r rows /\ sdict_get (mr_params r) "desired_mi" = None) -> figure_high_mi rows = Err KeyError.
Proof.
  intros [->|(r & I & E)]; [reflexivity|]. unfold figure_high_mi. destruct rows as [|r0 rows]; [reflexivity|]. rewrite (each_all_fails _ _ KeyError); [reflexivity| |].
  - intros a _. cbv beta. unfold lookup. destruct (sdict_get (mr_params a) "desired_mi"); [left; eauto|right; reflexivity].
  - exists r. split; [exact I|]. unfold lookup. now rewrite E.
Qed.

Lemma line_near x rows (P : mrow -> Prop) f line e : mean_line x rows P f line ->
  (forall r k, In r rows -> P r -> has_parameter x r k -> exists m, f r = Fin m /\ k - e < m < k + e) -> Forall (fun km => exists u, snd km = Fin u /\ fst km - e < u < fst km + e) line.
Proof.
  intros [_ V M] H. rewrite Forall_forall in *. intros km I. destruct (M km I) as (gr & K & Me). eapply mean_between; [|intros v Hv|exact Me].
  - destruct (proj1 (V (fst km)) (in_map fst _ _ I)) as (r & Ir & Pr & Hr). assert (J : In r gr) by (apply (keeping_in _ _ _ r K); auto). destruct gr; [destruct J|discriminate].
  - apply in_map_iff in Hv as (r & <- & J). apply (keeping_in _ _ _ r K) in J as (Ir & Pr & Hr). now apply H.
Qed.

Section Panels.
  Variable F : formats.
  Definition about_high_mi (r : mrow) : Prop := exists c e, In c high_cases /\ high_sheet F c e /\ row_about r (sheet_mi e) (snd e).
  Lemma high_case r : about_high_mi r -> exists f mi m, In f high_families /\ In mi desired /\ has_family (family_title f) r /\
    sdict_get (mr_params r) "desired_mi" = Some (PFloat (Fin mi)) /\ r_true (mr_run r) = Fin m /\ mi - 1 / 10000 < m < mi + 1 / 10000.
  Proof.
    intros (([[[a b] c0] d] & mi) & e & I & (c & Hc & W & ->) & T & P). unfold high_cases in I. apply in_flat_map in I as (f & If & I). apply in_map_iff in I as (mi' & [= -> ->] & I).
    exists (a, b, c0, d), mi, (- ln (1 - c ^ 2)). split; [exact If|]. split; [exact I|]. split; [exact (P "family_name"%string)|]. split; [exact (P "desired_mi"%string)|]. split; [exact T|].
    exact W.
  Qed.
  Theorem high_mi_figure rows : rows <> [] -> Forall about_high_mi rows -> (forall r, In r rows -> In (r_estimator (mr_run r)) (map style_id mi_styles)) ->
    exists ps, figure_high_mi rows = Ok ps /\ sorted_labels (map fst ps) /\ (forall f, In f (map fst ps) <-> exists r, In r rows /\ has_family f r) /\
      Forall (fun fp => exists own, In (fst fp) (map family_title high_families) /\ keeping (has_family (fst fp)) rows own /\ shows_panel "desired_mi" own true (snd fp) /\
        pn_x_label (snd fp) = "True MI [nats]"%string /\
        Forall (fun q => In (fst q) desired /\ exists m, snd q = Fin m /\ within m (fst q) (1 / 10000)) (pn_truth (snd fp))) ps.
  Proof.
    intros N A K. assert (D : Forall described rows).
    { eapply Forall_impl; [|exact A]. intros r H. destruct (high_case r H) as (f & mi & m & _ & _ & Hf & Hm & _). split; eauto. }
    destruct (high_mi_shown rows N D K) as (ps & all & E & S & I & M & B). rewrite Forall_forall in A.
    assert (T : forall f, In f all -> In f (map family_title high_families)).
    { intros f H. apply I in H as (r & Ir & Hr). destruct (high_case r (A r Ir)) as (g & mi & m & Ig & _ & Hg & _). unfold has_family in *. rewrite Hr in Hg. injection Hg as ->. now apply in_map. }
    assert (L : firstn 3 all = all).
    { apply firstn_all2. change 3%nat with (length (map family_title high_families)). apply NoDup_incl_length; [apply S|exact T]. }
    rewrite L in M. exists ps. rewrite M. split; [exact E|]. split; [exact S|]. split; [exact I|]. rewrite Forall_forall in B |- *. intros fp Ifp.
    destruct (B fp Ifp) as (own & Ko & So & Lo). exists own. split; [apply T; rewrite <- M; now apply in_map|]. split; [exact Ko|]. split; [exact So|]. split; [exact Lo|].
    assert (Q : forall r k, In r own -> has_parameter "desired_mi" r k -> In k desired /\ exists m, r_true (mr_run r) = Fin m /\ k - 1 / 10000 < m < k + 1 / 10000).
    { intros r k Ir Hk. apply (keeping_in _ _ _ r Ko) in Ir as [Ir _]. destruct (high_case r (A r Ir)) as (g & mi & m & _ & Im & _ & Hm & Tm & Wm).
      assert (k = mi) as -> by (destruct Hk as [n G|v G]; rewrite Hm in G; congruence). split; [exact Im|eauto]. }
    assert (W := line_near _ _ _ _ _ (1 / 10000) (sp_truth _ _ _ _ So) (fun r k Ir _ Hk => proj2 (Q r k Ir Hk))). rewrite Forall_forall in W |- *. intros q Iq. split; [|now apply W].
    destruct (proj1 (ml_values _ _ _ _ _ (sp_truth _ _ _ _ So) (fst q)) (in_map fst _ _ Iq)) as (r & Ir & _ & Hr). now apply (Q r (fst q)).
  Qed.
End Panels.

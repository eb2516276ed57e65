(** The tasks of the figure of the tails. *)
From Coq Require Import String Ascii Permutation Sorted Lia Lra.
From Verif Require Import Base UtilsModel JaxModel SamplersModel GaussianModel BaseLemmas MatrixUtilsModel TransformsModel BenchmarkModel BenchmarkThms TasksModel TasksSpec TasksProofs TasksThms BenchmarkSpec
  SamplersSpec GaussianSpec GaussianThms BasicGaussian TrainingSpec TransformsSpec TasksGaussian FiguresModel FiguresSpec FiguresScale GammaSpec CorrectionThms CorrectionTasks BasicSpec BasicThms PlotMiModel PlotMiSpec.
Open Scope Z_scope.
Local Notation length := List.length.

(** ** Descriptions which survive the growth of the heap *)
Definition fits {J} (dx dy : Z) (h : dheap) (t : task J) (e : sheet) : Prop :=
  t_id t = sheet_id e /\ t_name t = snd (fst (fst e)) /\ ready t h dx dy (Fin (sheet_mi e)) /\
  forall k, sdict_get (content h (t_params t)) k = sdict_get (snd e) k.
Section Fits.
  Context {J : prng}.
  Context {dx dy : Z}.
  Hypotheses (Hx : 1 <= dx) (Hy : 1 <= dy).
  Lemma fits_ext h h' (t : task J) e : ext h h' -> fits dx dy h t e -> fits dx dy h' t e.
  Proof.
    intros X (A & B & C & D). split; [exact A|]. split; [exact B|]. split; [eapply ready_ext; eauto|].
    rewrite (ext_content h h' _ X); [exact D|apply C].
  Qed.
  Lemma fits_reports h (t : task J) e : fits dx dy h t e -> reports h t (sheet_id e) (snd (fst (fst e))) dx dy (sheet_mi e) (snd e).
  Proof.
    intros (A & B & C & D). destruct (ready_metadata _ _ _ _ _ C) as (h2 & m & E & X & I1 & I2 & I3 & I4 & I5 & I6 & _). split.
    - split; [apply C|]. exists h2, m. rewrite I3, I4. repeat split; auto; lia.
    - exists h2, m. rewrite I6. split; [exact E|]. split; [congruence|]. split; [congruence|]. repeat (split; [assumption|]). exact D.
  Qed.
  Lemma fits_usable h (t : task J) e : fits dx dy h t e -> usable t h.
  Proof. intros H. apply (fits_reports _ _ _ H). Qed.
  Lemma fits_of h (t : task J) h2 m e : usable t h -> metadata t h = (h2, Ok m) -> md_id m = sheet_id e -> md_name m = snd (fst (fst e)) -> md_dim_x m = dx -> md_dim_y m = dy ->
    md_mi m = Fin (sheet_mi e) -> (forall k, sdict_get (dread h2 (md_params m)) k = sdict_get (snd e) k) -> fits dx dy h t e.
  Proof.
    intros U E I1 I2 I3 I4 I5 I6. destruct (usable_ready _ _ U) as (a & b & mi & Rd & _). destruct (ready_metadata _ _ _ _ _ Rd) as (h2' & m' & E' & X & J1 & J2 & J3 & J4 & J5 & J6 & _).
    rewrite E in E'. injection E' as <- <-. rewrite J6 in I6. split; [congruence|]. split; [congruence|]. split; [|exact I6].
    replace dx with a by congruence. replace dy with b by congruence. replace (Fin (sheet_mi e)) with mi by congruence. exact Rd.
  Qed.
  Lemma builds_fits (p : prog (task J)) h id name mi params b e : builds p h id name dx dy mi params b -> e = (id, name, mi, params) ->
    exists h' t, p h = (h', Ok t) /\ ext h h' /\ fits dx dy h' t e.
  Proof.
    intros (h' & t & h2 & m & E & U & M & A1 & A2 & A3 & A4 & A5 & A6 & _ & L & K & _) ->. exists h', t. split; [exact E|]. split; [split; assumption|].
    eapply fits_of; eauto. cbn [snd]. now rewrite A6.
  Qed.
  Lemma derived_fits h h' (base t : task J) id name new fx fy e e' : fits dx dy h base e -> derived base t h h' id name 0 new fx fy ->
    sheet_id e' = id (sheet_id e) -> snd (fst (fst e')) = name (snd (fst (fst e))) -> sheet_mi e' = sheet_mi e -> updated (snd e) new (snd e') -> ext h h' /\ fits dx dy h' t e'.
  Proof.
    intros Fb (U & L & h1 & m & h2 & m' & E1 & E2 & A1 & A2 & A3 & A4 & A5 & A6 & K & _) I1 I2 I3 I4. split; [split; assumption|].
    destruct Fb as (B1 & B2 & B3 & B4). destruct (ready_metadata _ _ _ _ _ B3) as (h1' & m1 & E' & X & J1 & J2 & J3 & J4 & J5 & J6 & _).
    rewrite E1 in E'. injection E' as <- <-. eapply fits_of; [exact U|exact E2|congruence|congruence|lia|lia|congruence|].
    intros k. rewrite A6, I4, J6, B4. reflexivity.
  Qed.
  Lemma sequence_fits (ps : list (prog (task J))) es : forall h h0, ext h0 h -> Forall2 (fun p e => forall h', ext h0 h' -> exists h'' t, p h' = (h'', Ok t) /\ ext h' h'' /\ fits dx dy h'' t e) ps es ->
    exists h' l, sequence ps h = (h', Ok l) /\ ext h h' /\ Forall2 (fits dx dy h') l es.
  Proof.
    intros h h0 X G. revert h X. induction G as [|p e ps es G _ IH]; intros h X.
    - exists h, []. split; [reflexivity|]. split; [apply ext_refl|constructor].
    - destruct (G h X) as (h1 & t & E & X1 & Ft). destruct (IH h1 (ext_trans _ _ _ X X1)) as (h2 & l & E2 & X2 & Fl).
      exists h2, (t :: l). cbn [sequence]. unfold pbind at 1. rewrite E. unfold pbind at 1. rewrite E2. split; [reflexivity|]. split; [eapply ext_trans; eauto|].
      constructor; [eapply fits_ext; eauto|exact Fl].
  Qed.
  Lemma by_id_fits (l : list (task J)) es h : Forall2 (fits dx dy h) l es -> NoDup (map sheet_id es) ->
    exists h', tasks_by_id l [] h = (h', Ok (map (fun t => (t_id t, t)) l)) /\ ext h h'.
  Proof.
    intros G N. assert (T : forall acc h0, ext h h0 -> exists h' r, tasks_by_id l acc h0 = (h', Ok r) /\ ext h0 h').
    { clear N. induction G as [|t e l es Ft _ IH]; intros acc h0 X; [exists h0, acc; split; [reflexivity|apply ext_refl]|].
      destruct (step_id t h0 dx dy (Fin (sheet_mi e))) as (h1 & E & X1); [eapply ready_ext; [exact X|apply Ft]|].
      destruct (IH (sdict_set acc (t_id t) t) h1 (ext_trans _ _ _ X X1)) as (h' & r & E' & X'). exists h', r. cbn [tasks_by_id]. unfold pbind. rewrite E.
      split; [exact E'|eapply ext_trans; eauto]. }
    destruct (T [] h (ext_refl h)) as (h' & r & E & X). exists h'. split; [|exact X]. rewrite E. rewrite (tasks_by_id_distinct l h h' r); [reflexivity| |exact E].
    replace (map t_id l) with (map sheet_id es); [exact N|]. clear - G. induction G as [|t e l es Ft _ IH]; cbn; [reflexivity|]. rewrite IH. f_equal. symmetry. apply Ft.
  Qed.
  Lemma scale_fits (l : list (task J)) es h : Forall2 (fits dx dy h) l es -> Forall (fun e => sheet_id e <> ""%string /\ snd (fst (fst e)) <> ""%string) es ->
    exists h' r, scale_tasks (map (fun t => (t_id t, t)) l) h = (h', Ok r) /\ ext h h' /\ Forall2 (fun e kt => fst kt = sheet_id e /\ fits dx dy h' (snd kt) e) es r /\
      Forall2 (fun t kt => rescaled h h' t (snd kt)) l r.
  Proof.
    intros G N. destruct (scale_tasks_ok (map (fun t => (t_id t, t)) l) h) as (h' & r & E & X & S).
    { clear N. induction G as [|t e l es Ft _ IH]; cbn; constructor; [eapply fits_usable; eauto|exact IH]. }
    exists h', r. split; [exact E|]. split; [exact X|]. clear E. split.
    - revert r S. induction G as [|t e l es Ft _ IH]; cbn; intros r S; inversion S as [|? [k t'] ? r' [S1 S2] S3]; subst; constructor.
      + inversion N as [|? ? [N1 N2] _]; subst. cbn [fst snd] in *. split; [rewrite S1; apply Ft|]. unfold rescaled in S2.
        eapply derived_fits; [exact Ft|exact S2| | |reflexivity|intros k'; reflexivity]; unfold given; symmetry.
        * destruct (String.eqb_spec (sheet_id e) ""); [contradiction|reflexivity].
        * destruct (String.eqb_spec (snd (fst (fst e))) ""); [contradiction|reflexivity].
      + apply IH; [now inversion N|exact S3].
    - clear - S. revert r S. induction l as [|t l IH]; cbn; intros r S; inversion S as [|? [k t'] ? r' [S1 S2] S3]; subst; constructor; [exact S2|now apply IH].
  Qed.
  (** A list of tasks with different identifiers, as a dictionary of scaled tasks. *)
  Lemma loaded (l : list (task J)) es h : Forall2 (fits dx dy h) l es -> NoDup (map sheet_id es) -> Forall (fun e => sheet_id e <> ""%string /\ snd (fst (fst e)) <> ""%string) es ->
    exists h' r, (run x <- tasks_by_id l []; scale_tasks x) h = (h', Ok r) /\ NoDup (map fst r) /\
      Forall2 (fun e kt => fst kt = sheet_id e /\ reports h' (snd kt) (sheet_id e) (snd (fst (fst e))) dx dy (sheet_mi e) (snd e)) es r /\
      Forall2 (fun t kt => rescaled h h' t (snd kt)) l r.
  Proof.
    intros FA N NE. destruct (by_id_fits _ _ h FA N) as (h3 & E3 & X3).
    assert (FB : Forall2 (fits dx dy h3) l es).
    { clear - FA X3. induction FA; constructor; auto. eapply fits_ext; eauto. }
    destruct (scale_fits _ _ h3 FB NE) as (h4 & r & E4 & X4 & S & Z).
    exists h4, r. split; [unfold pbind; rewrite E3; exact E4|]. split; [|split].
    - replace (map fst r) with (map sheet_id es); [exact N|]. clear - S. induction S as [|e kt es r [A _] _ IH]; cbn; congruence.
    - clear - S Hx Hy. induction S as [|e kt es r [A B] _ IH]; constructor; [|exact IH]. split; [exact A|]. now apply fits_reports.
    - clear - Z FA X3 Hx Hy. revert r Z. induction FA as [|t e l es Ft _ IH]; intros r Z; inversion Z; subst; constructor; [|auto]. eapply derived_ext; [eapply fits_usable; exact Ft|exact X3|eassumption].
  Qed.
End Fits.

(** ** Numbers and texts *)
Lemma two_pairs_mi : paired_mi 2 (strength_correlation 2) = ln (25 / 9).
Proof.
  unfold paired_mi, strength_correlation. replace (25 / 9)%R with (/ (1 - (2 ^ 2 / (1 + 2 ^ 2)) ^ 2))%R by field. rewrite ln_Rinv by lra. cbn [INR]. lra.
Qed.
Lemma exponents_are : EXPONENTS = exponents.
Proof. unfold EXPONENTS, exponents. cbn [seq map INR]. repeat (f_equal; try lra). Qed.
Lemma append_left a b s : (s ++ a)%string = (s ++ b)%string -> a = b.
Proof. induction s as [|c s IH]; cbn; [auto|]. intros [= H]. auto. Qed.
Lemma append_right a b s : (a ++ s)%string = (b ++ s)%string -> a = b.
Proof.
  intros H. assert (L : forall x y, list_ascii_of_string (x ++ y) = (list_ascii_of_string x ++ list_ascii_of_string y)%list) by (induction x; cbn; congruence).
  apply (f_equal list_ascii_of_string) in H. rewrite !L in H. apply app_inv_tail in H. rewrite <- (string_of_list_ascii_of_string a), <- (string_of_list_ascii_of_string b). now rewrite H.
Qed.
Lemma sheets_ids F c : map sheet_id (tails_sheets F c) = (map (fun a => "power_" ++ float_fixed F 5 a ++ "-multinormal-sparse-3-3-2-2.0")%string exponents ++
  map (fun df => "student-sparse-3-3-" ++ int_str df ++ "-2-2.0")%string [1; 3; 5; 7; 9; 11; 13; 15; 17; 19])%list.
Proof. unfold tails_sheets. rewrite map_app, !map_map. reflexivity. Qed.
Lemma nodup_app {A} (l l' : list A) : NoDup l -> NoDup l' -> (forall a, In a l -> ~ In a l') -> NoDup (l ++ l').
Proof.
  intros N N' D. induction N as [|a l I _ IH]; cbn; [exact N'|]. constructor; [|apply IH; intros b Hb; apply D; now right].
  rewrite in_app_iff. intros [H|H]; [contradiction|]. exact (D a (or_introl eq_refl) H).
Qed.
Lemma sheets_distinct F c : NoDup (map (float_fixed F 5) exponents) -> NoDup (map sheet_id (tails_sheets F c)).
Proof.
  intros N. rewrite sheets_ids. apply nodup_app.
  - rewrite <- (map_map (float_fixed F 5) (fun s => "power_" ++ s ++ "-multinormal-sparse-3-3-2-2.0")%string). apply FinFun.Injective_map_NoDup; [|exact N].
    intros a b H. apply append_left in H. now apply append_right in H.
  - apply (NoDup_count_occ' string_dec). intros s H. cbn [map In] in H. repeat (destruct H as [<-|H]; [vm_compute; reflexivity|]). destruct H.
  - intros s H K. apply in_map_iff in H as (a & <- & _). apply in_map_iff in K as (df & E & _). discriminate.
Qed.

Section Tails.
  Context {J : prng}.
  Variables (F : formats) (eigvals : matrix -> list (R * R)) (mvn : key J -> list R -> matrix -> nat -> matrix)
    (psi lg : R -> R) (mvt : Z -> list R -> matrix -> fl -> nat -> matrix).
  Hypotheses (HF : float_repr F 2 = "2.0"%string) (He : eigvals_positive eigvals) (Hm : forall r mu D df k, length (mvt r mu D df k) = k) (G : gamma_functions psi lg).
  Let c df := student_correction psi lg df 3 3.

  Lemma power_fits a h : exists h' t, power_normal F eigvals mvn a h = (h', Ok t) /\ ext h h' /\ fits 3 3 h' t (power_sheet F a).
  Proof.
    destruct (builds_fits (J := J) _ h _ _ _ _ _ _ (pair_build F eigvals mvn He 3 3 2 None h ltac:(lia) ltac:(lia)) eq_refl) as (h1 & b & E & X & Fb).
    destruct (power_derived F b a None h1 (fits_usable (dx := 3) (dy := 3) ltac:(lia) ltac:(lia) _ _ _ Fb)) as (h2 & t & E2 & D & _).
    destruct (derived_fits h1 h2 b t _ _ _ _ _ _ (power_sheet F a) Fb D) as [X2 Ft].
    - cbn [sheet_id power_sheet fst]. rewrite HF. reflexivity.
    - reflexivity.
    - cbn. symmetry. exact two_pairs_mi.
    - intros k. cbn [snd power_sheet rev app sdict_get fst]. repeat (match goal with |- context [String.eqb ?a ?b] => destruct (String.eqb_spec a b); subst; try discriminate end); reflexivity.
    - exists h2, t. unfold power_normal, pbind. rewrite E. split; [exact E2|]. split; [eapply ext_trans; eauto|exact Ft].
  Qed.
  Lemma student_fits df h : 1 <= df -> exists h' t, task_student_2pair (J := J) F eigvals psi lg mvt 3 3 df 2 None h = (h', Ok t) /\ ext h h' /\ fits 3 3 h' t (student_sheet c df).
  Proof.
    intros L. eapply builds_fits; [apply (student_pair_build (J := J) F eigvals psi lg mvt He Hm 3 3 df 2 None h); try lia|].
    - assert (P := positive_dims psi lg G df 3 3 L ltac:(lia) ltac:(lia)). rewrite two_pairs_mi.
      assert (0 < ln (25 / 9))%R by (rewrite <- ln_1; apply ln_increasing; lra). lra.
    - unfold student_sheet. rewrite <- two_pairs_mi. rewrite HF. reflexivity.
  Qed.

  Theorem tails_built h : NoDup (map (float_fixed F 5) exponents) ->
    exists h0 l h' d, tails_list F eigvals mvn psi lg mvt h = (h0, Ok l) /\ tails_tasks F eigvals mvn psi lg mvt h = (h', Ok d) /\ NoDup (map fst d) /\
      Forall2 (fun e kt => fst kt = sheet_id e /\ reports h' (snd kt) (sheet_id e) (snd (fst (fst e))) 3 3 (sheet_mi e) (snd e)) (tails_sheets F c) d /\
      Forall2 (fun t kt => rescaled h0 h' t (snd kt)) l d.
  Proof.
    intros N.
    destruct (sequence_fits (J := J) (dx := 3) (dy := 3) (map (power_normal F eigvals mvn) EXPONENTS) (map (power_sheet F) exponents) h h (ext_refl h)) as (h1 & l1 & E1 & X1 & F1).
    { rewrite exponents_are. clear N. induction exponents as [|a l IH]; cbn [map]; [constructor|constructor; [|exact IH]]. intros h' _. apply power_fits. }
    destruct (sequence_fits (J := J) (dx := 3) (dy := 3) (map (fun df => task_student_2pair F eigvals psi lg mvt 3 3 df 2 None) DEGREES) (map (student_sheet c) [1; 3; 5; 7; 9; 11; 13; 15; 17; 19]) h1 h1 (ext_refl h1))
      as (h2 & l2 & E2 & X2 & F2).
    { change DEGREES with [1; 3; 5; 7; 9; 11; 13; 15; 17; 19]. assert (P : Forall (fun df => 1 <= df) [1; 3; 5; 7; 9; 11; 13; 15; 17; 19]) by (repeat constructor; lia).
      induction P as [|df l L _ IH]; cbn [map]; [constructor|constructor; [|exact IH]]. intros h' _. now apply student_fits. }
    assert (FA : Forall2 (fits 3 3 h2) (l1 ++ l2) (tails_sheets F c)).
    { apply Forall2_app; [|exact F2]. clear - F1 X2. induction F1; constructor; auto. eapply fits_ext; eauto. }
    destruct (loaded (dx := 3) (dy := 3) ltac:(lia) ltac:(lia) _ _ h2 FA (sheets_distinct F c N)) as (h4 & d & E4 & Nd & S & Z).
    { unfold tails_sheets. apply Forall_app. split; apply Forall_map, Forall_forall; intros; cbn; split; discriminate. }
    assert (EL : tails_list F eigvals mvn psi lg mvt h = (h2, Ok (l1 ++ l2)%list)) by (unfold tails_list, pbind; rewrite E1, E2; reflexivity).
    exists h2, (l1 ++ l2)%list, h4, d. split; [exact EL|]. split; [|auto]. unfold tails_tasks, pbind at 1. rewrite EL. exact E4.
  Qed.
End Tails.

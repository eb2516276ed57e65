(** The tasks, the matrices and the panels of the figure of sparsity. *)
From Coq Require Import String Ascii Permutation Sorted Lia Lra.
From Verif Require Import Base BaseLemmas UtilsModel UtilsSpec JaxModel SamplersModel SamplersSpec GaussianModel GaussianSpec MatrixUtilsModel MatrixUtilsSpec TransformsModel BenchmarkModel BenchmarkThms BenchmarkSpec TasksModel TasksSpec TasksProofs TasksThms
  TasksGaussian BasicGaussian FiguresModel FiguresSpec FiguresScale HighMiModel HighMiSpec HighMiThms SparsityModel SparsitySpec SparsityThms SparsityPath TablesModel TablesSpec TablesProofs V2TableModel V2TableSpec RulesModel OutliersModel
  PlotMiModel PlotMiSpec PlotMiThms PlotMiTails PlotMiFigure SparsityFigureModel SparsityFigureSpec BasicSpec BasicThms.
Open Scope R_scope.
Local Notation length := List.length.

(** ** Numbers *)
Lemma ten : INR (Z.to_nat 10) = 10.
Proof. rewrite INR_IZR_INZ, Z2Nat.id by lia. reflexivity. Qed.
Lemma ten_nat : Z.to_nat 10 = 10%nat. Proof. reflexivity. Qed.
Lemma ten_fits : (1 <= 10 <= 10 ^ 1000)%Z.
Proof. split; [lia|]. change 10%Z with (10 ^ 1)%Z at 1. apply Z.pow_le_mono_r; lia. Qed.
Lemma coupling_100 : 1 <= coupling 100.
Proof. assert (H := coupling_high 100 ltac:(lra) ltac:(lra)). lra. Qed.
Lemma alphas_range a : In a alphas -> 0 <= a <= first_alpha.
Proof. unfold alphas, first_alpha. cbn. intros H. repeat (destruct H as [<-|H]; [lra|]). destruct H. Qed.
Lemma dense_range a : 0 <= a <= first_alpha -> pairs_mi (Z.to_nat 10) a 0 - 1 / 20000 <= 1 <= pairs_mi (Z.to_nat 10) a 10 + 1 / 20000.
Proof.
  intros H. unfold first_alpha in H. split.
  - rewrite pairs_at_0, ten. assert (T := coupling_there). cbv zeta in T. assert (M : coupling (10 * a ^ 2) <= coupling (10 * (18865 / 16384) ^ 2)); [|lra].
    apply coupling_monotone. cbn [pow]. nra.
  - unfold pairs_mi. rewrite ten. assert (A := coupling_100). replace (10 ^ 2) with 100 by lra.
    assert (B : coupling 100 <= coupling (100 + 10 * a ^ 2)); [|lra]. apply coupling_monotone. cbn [pow]. nra.
Qed.
Lemma steps_are b : ten_steps b = map (fun i => b * i / 9) [0; 1; 2; 3; 4; 5; 6; 7; 8; 9].
Proof. unfold ten_steps. cbn [seq map INR]. repeat (f_equal; try lra). Qed.

(** ** Texts *)
Lemma dash_cut a b x y : dashless a -> dashless b -> (a ++ "-" ++ x)%string = (b ++ "-" ++ y)%string -> a = b.
Proof.
  unfold dashless. revert b. induction a as [|c a IH]; intros [|c' b] A B H; cbn in *; [reflexivity| | |].
  - exfalso. apply B. left. congruence.
  - exfalso. apply A. left. congruence.
  - injection H as -> H. f_equal. apply IH; [tauto|tauto|exact H].
Qed.

Lemma nodup_by {A B} (P : A -> B -> Prop) ks ids : NoDup ks -> (forall k k' s, In k ks -> In k' ks -> P k s -> P k' s -> k = k') -> Forall2 P ks ids -> NoDup ids.
Proof.
  intros N D H. induction H as [|k i ks ids Hk Hs IH]; constructor.
  - intros I. inversion N as [|? ? N1 _]; subst. assert (E : exists k', In k' ks /\ P k' i).
    { clear - Hs I. induction Hs as [|k i' ks ids Hk _ IH]; [destruct I|]. destruct I as [->|I]; [exists k; split; [now left|exact Hk]|]. destruct (IH I) as (k' & A1 & A2). exists k'. split; [now right|exact A2]. }
    destruct E as (k' & I' & P'). apply N1. rewrite (D k k' i); auto; [now left|now right].
  - apply IH; [now inversion N|]. intros k1 k2 s I1 I2. apply D; now right.
Qed.
Lemma small_text k k' : (1 <= k <= 10)%Z -> (1 <= k' <= 10)%Z -> dashless (int_str k) /\ (int_str k = int_str k' -> k = k').
Proof.
  intros H H'. assert (C : forall z, (1 <= z <= 10)%Z -> In z [1; 2; 3; 4; 5; 6; 7; 8; 9; 10]%Z) by (intros; cbn [In]; lia). apply C in H. apply C in H'. cbn [In] in H, H'. split.
  - repeat (destruct H as [<-|H]; [unfold dashless; vm_compute; intuition discriminate|]). destruct H.
  - repeat (destruct H as [<-|H]; [repeat (destruct H' as [<-|H']; [intros E; (reflexivity || (vm_compute in E; discriminate))|]); destruct H'|]). destruct H.
Qed.
Lemma zero_alpha : In 0 alphas.
Proof. unfold alphas. cbn [map In]. left. unfold Rdiv. ring. Qed.

Section Tasks.
  Context {J : prng}.
  Variables (F : formats) (eigvals : matrix -> list (R * R)) (mvn : key J -> list R -> matrix -> nat -> matrix) (uniform : nat -> R).
  Hypothesis He : eigvals_positive eigvals.

  Definition fitting (c : Z * R) (p : prog (task J)) : Prop := forall h, exists h' t e, p h = (h', Ok t) /\ ext h h' /\ tuned_sheet F c e /\ fits 10 10 h' t e.
  Lemma made_fits (p : prog (task J)) h k a l mi : latent_task F mvn p h 10 k a l mi -> tuned (k, a) l -> mi = case_mi k a l ->
    exists h' t e, p h = (h', Ok t) /\ ext h h' /\ tuned_sheet F (k, a) e /\ fits 10 10 h' t e.
  Proof.
    intros M T ->. destruct (builds_fits p h _ _ _ _ _ _ M eq_refl) as (h' & t & E & X & Ft). do 3 eexists. split; [exact E|]. split; [exact X|].
    split; [|exact Ft]. exists l. split; [exact T|]. reflexivity.
  Qed.
  Lemma dense_fits a : 0 <= a <= first_alpha -> fitting (10%Z, a) (get_lambda_task F eigvals mvn uniform 1 10 a).
  Proof.
    intros H h. destruct (lambda_found F eigvals mvn uniform He 1 10 a h ten_fits (dense_range a H)) as (l & L & W & M).
    eapply made_fits; [exact M| |reflexivity]. split; [exact L|exact W].
  Qed.
  Lemma sparse_fits k : (1 <= k <= 10)%Z -> fitting (k, 0) (get_n_interacting_task F eigvals mvn uniform 1 10 k).
  Proof.
    intros H h. assert (E : INR (Z.to_nat k) = IZR k) by (rewrite INR_IZR_INZ, Z2Nat.id by lia; reflexivity).
    assert (K : 1 <= IZR k) by (apply IZR_le; lia).
    destruct (interacting_found F eigvals mvn uniform He 1 10 k h ten_fits ltac:(lia)) as (l & L & W & M).
    { rewrite E. assert (A := coupling_100). split; [lra|]. nra. }
    assert (C : INR (Z.to_nat k) * coupling (l ^ 2) = case_mi k 0 l).
    { unfold case_mi. destruct (Z.eqb_spec k 10) as [->|_]; [|now rewrite E]. unfold pairs_mi. rewrite <- ten_nat, ten. replace (l ^ 2 + 10 * 0 ^ 2) with (l ^ 2) by ring. ring. }
    eapply made_fits; [exact M| |exact C]. split; [exact L|]. cbn [fst snd]. rewrite <- C. exact W.
  Qed.
  Lemma sequence_fitting cs ps : Forall2 fitting cs ps -> forall h, exists h' l es, sequence ps h = (h', Ok l) /\ ext h h' /\ Forall2 (tuned_sheet F) cs es /\ Forall2 (fits 10 10 h') l es.
  Proof.
    induction 1 as [|c p cs ps Hp _ IH]; intros h.
    - exists h, [], []. split; [reflexivity|]. split; [apply ext_refl|]. split; constructor.
    - destruct (Hp h) as (h1 & t & e & E & X & Te & Fe). destruct (IH h1) as (h2 & l & es & E2 & X2 & Ts & Fs). exists h2, (t :: l), (e :: es).
      cbn [sequence]. unfold pbind at 1. rewrite E. unfold pbind at 1. rewrite E2. split; [reflexivity|]. split; [eapply ext_trans; eauto|]. split; constructor; try assumption.
      eapply fits_ext; eauto.
  Qed.

  Lemma cases_distinct es : NoDup (map (float_fixed F 5) alphas) -> Forall (fun a => dashless (float_fixed F 5 a)) alphas -> Forall2 (tuned_sheet F) sparsity_cases es -> NoDup (map sheet_id es).
  Proof.
    intros N D H.
    set (key := fun c : Z * R => (fst c, float_fixed F 5 (snd c))).
    assert (Dc : forall c, In c sparsity_cases -> (1 <= fst c <= 10)%Z /\ dashless (float_fixed F 5 (snd c))).
    { rewrite Forall_forall in D. intros c I. unfold sparsity_cases in I. rewrite in_app_iff, !in_map_iff in I. destruct I as [(a & <- & I)|(k & <- & I)]; cbn [fst snd].
      - split; [lia|now apply D].
      - split; [cbn [In] in I; lia|apply D, zero_alpha]. }
    apply (nodup_by (fun kt id => exists s, id = ("multinormal-lvm-10-10-" ++ int_str (fst kt) ++ "-" ++ snd kt ++ "-" ++ s)%string) (map key sparsity_cases)).
    - unfold sparsity_cases. rewrite map_app. apply nodup_app.
      + rewrite map_map. unfold key. cbn [fst snd]. rewrite <- (map_map (float_fixed F 5) (fun s => (10%Z, s))). apply FinFun.Injective_map_NoDup; [|exact N]. intros a b E. congruence.
      + rewrite map_map. unfold key. cbn [fst snd]. apply FinFun.Injective_map_NoDup; [intros a b E; congruence|]. repeat (apply NoDup_cons; [cbn [In]; lia|]). apply NoDup_nil.
      + intros kt I I'. rewrite map_map in I, I'. unfold key in I, I'. cbn [fst snd] in I, I'. rewrite in_map_iff in I, I'. destruct I as (a & <- & _). destruct I' as (k & E & K).
        injection E as -> _. cbn [In] in K. lia.
    - intros kt kt' s I I' (x & Ex) (y & Ey). rewrite in_map_iff in I, I'. destruct I as (c & <- & I). destruct I' as (c' & <- & I'). unfold key in *. cbn [fst snd] in *.
      destruct (Dc c I) as [Kc Tc]. destruct (Dc c' I') as [Kc' Tc']. rewrite Ex in Ey. apply append_left in Ey.
      assert (Ei := dash_cut _ _ _ _ (proj1 (small_text _ _ Kc Kc)) (proj1 (small_text _ _ Kc' Kc')) Ey). rewrite Ei in Ey. apply append_left in Ey. cbn [append] in Ey. injection Ey as Ey.
      apply dash_cut in Ey; try assumption. f_equal; [|exact Ey]. now apply small_text.
    - clear N D Dc. induction H as [|c e cs es (l & _ & ->) _ IH]; cbn [map]; constructor; [|exact IH]. eexists. reflexivity.
  Qed.

  Theorem sparsity_built h : NoDup (map (float_fixed F 5) alphas) -> Forall (fun a => dashless (float_fixed F 5 a)) alphas ->
    exists h0 l h' d es, sparsity_list F eigvals mvn uniform h = (h0, Ok l) /\ sparsity_tasks F eigvals mvn uniform h = (h', Ok d) /\ NoDup (map fst d) /\
      Forall2 (tuned_sheet F) sparsity_cases es /\
      Forall2 (fun e kt => fst kt = sheet_id e /\ reports h' (snd kt) (sheet_id e) (snd (fst (fst e))) 10 10 (sheet_mi e) (snd e)) es d /\
      Forall2 (fun t kt => rescaled h0 h' t (snd kt)) l d.
  Proof.
    intros N D.
    destruct (sequence_fitting (map (fun a => (10%Z, a)) alphas) (map (get_lambda_task F eigvals mvn uniform 1 10) alphas)) with (h := h) as (h1 & l1 & s1 & E1 & X1 & T1 & F1).
    { assert (P : Forall (fun a => 0 <= a <= first_alpha) alphas) by (apply Forall_forall; intros a I; now apply alphas_range).
      clear N D. induction P as [|a l Pa _ IH]; cbn [map]; [constructor|constructor; [|exact IH]]. now apply dense_fits. }
    destruct (sequence_fitting (map (fun k => (k, 0)) [1; 2; 3; 4; 5; 6; 7; 8; 9]%Z) (map (get_n_interacting_task F eigvals mvn uniform 1 10) [1; 2; 3; 4; 5; 6; 7; 8; 9]%Z)) with (h := h1)
      as (h2 & l2 & s2 & E2 & X2 & T2 & F2).
    { repeat (apply Forall2_cons; [apply sparse_fits; lia|]). apply Forall2_nil. }
    set (es := (s1 ++ s2)%list). assert (T : Forall2 (tuned_sheet F) sparsity_cases es) by (apply Forall2_app; assumption).
    assert (Ds := cases_distinct es N D T).
    assert (FA : Forall2 (fits 10 10 h2) (l1 ++ l2) es).
    { apply Forall2_app; [|exact F2]. clear - F1 X2. induction F1; constructor; auto. eapply fits_ext; eauto. }
    destruct (loaded (dx := 10) (dy := 10) ltac:(lia) ltac:(lia) _ _ h2 FA Ds) as (h4 & d & E4 & Nd & S & Z).
    { clear - T. induction T as [|c e cs es (l & _ & ->) _ IH]; constructor; [|exact IH]. split; discriminate. }
    assert (EL : sparsity_list F eigvals mvn uniform h = (h2, Ok (l1 ++ l2)%list)).
    { unfold sparsity_list, pbind at 1. rewrite initial_alpha_is by exact He. unfold pbind at 1. rewrite steps_are. fold first_alpha. fold alphas. rewrite E1. unfold pbind at 1.
      change (map (fun k => get_n_interacting_task F eigvals mvn uniform 1 10 (Z.of_nat k)) (seq 1 9)) with (map (get_n_interacting_task F eigvals mvn uniform 1 10) [1; 2; 3; 4; 5; 6; 7; 8; 9]%Z).
      rewrite E2. reflexivity. }
    exists h2, (l1 ++ l2)%list, h4, d, es. split; [exact EL|]. split; [|auto]. unfold sparsity_tasks, pbind at 1. rewrite EL. exact E4.
  Qed.

  (** ** The matrices *)
  Lemma matrix_made c e h (t : task J) : (0 <= fst c <= 10)%Z -> tuned_sheet F c e -> fits 10 10 h t e -> exists h' m, task_matrix t h = (h', Ok m) /\ ext h h' /\ tuned_matrix c m.
  Proof.
    intros K (l & T & ->) Ft. destruct Ft as (_ & _ & Rd & P). destruct (ready_metadata _ _ _ _ _ Rd) as (h2 & m & E & X & _ & _ & _ & _ & _ & J6 & _).
    destruct c as [k a]. cbn [fst snd] in *.
    destruct (@latent_correlation 10 10 (Z.to_nat k) a l 0 l ltac:(lia) ltac:(lia)) as (_ & C & _ & EC & HC & _).
    exists h2, C. split; [|split; [exact X|exists l; split; assumption]].
    unfold task_matrix, task_params, pbind at 1 2. rewrite E. unfold pret at 1, pbind at 1, read_dict. unfold pbind, lift, params_to_lvm, int_entry, float_entry, lookup. rewrite J6, !P.
    cbn [sdict_get latent_parameters String.eqb Ascii.eqb Bool.eqb bind]. fold (lvm_parameters 10 10 k a l 0 l). rewrite lvm_parameters_ok by lia. cbn [bind]. change (Z.to_nat 10) with 10%nat. now rewrite EC.
  Qed.
  Lemma matrices_made cs es : Forall (fun c => (0 <= fst c <= 10)%Z) cs -> Forall2 (tuned_sheet F) cs es -> forall h (l : list (task J)), Forall2 (fits 10 10 h) l es ->
    exists h' ms, sequence (map task_matrix l) h = (h', Ok ms) /\ Forall2 tuned_matrix cs ms.
  Proof.
    intros K H. induction H as [|c e cs es T _ IH]; intros h l Fl; inversion Fl as [|t ? l' ? Ft Fl']; subst; cbn [map sequence].
    - exists h, []. split; [reflexivity|constructor].
    - inversion K as [|? ? Kc K']; subst. destruct (matrix_made c e h t Kc T Ft) as (h1 & m & E & X & Tm).
      destruct (IH K' h1 l') as (h2 & ms & E2 & Tms). { clear - Fl' X. induction Fl'; constructor; auto. eapply fits_ext; eauto. }
      exists h2, (m :: ms). unfold pbind at 1. rewrite E. unfold pbind at 1. rewrite E2. split; [reflexivity|]. constructor; assumption.
  Qed.
  Theorem matrices_built h : exists h' ms, sparsity_matrices F eigvals mvn uniform h = (h', Ok ms) /\ Forall2 tuned_matrix matrix_cases ms.
  Proof.
    edestruct (sequence_fitting matrix_cases) with (h := h) as (h1 & l & es & E & X & T & Fl).
    - unfold matrix_cases. assert (A : 0 < first_alpha) by (unfold first_alpha; lra).
      apply Forall2_cons; [apply dense_fits; lra|]. apply Forall2_cons; [apply dense_fits; lra|]. apply Forall2_cons; [apply dense_fits; lra|].
      apply Forall2_cons; [apply sparse_fits; lia|]. apply Forall2_cons; [apply sparse_fits; lia|]. apply Forall2_cons; [apply sparse_fits; lia|]. apply Forall2_nil.
    - destruct (matrices_made matrix_cases es) with (h := h1) (l := l) as (h2 & ms & E2 & Tms); [|exact T|exact Fl|].
      + unfold matrix_cases. repeat constructor; cbn; lia.
      + exists h2, ms. split; [|exact Tms]. unfold sparsity_matrices, pbind at 1. rewrite initial_alpha_is by exact He. change (10 / 2)%Z with 5%Z. fold first_alpha. unfold pbind. rewrite E. exact E2.
  Qed.
End Tasks.

(** ** The panels *)
Lemma rmean_between lo hi xs : xs <> [] -> Forall (fun x => lo < x < hi) xs -> lo < rmean xs < hi.
Proof.
  intros N H. assert (E : xs = [] \/ INR (length xs) * lo < rsum xs < INR (length xs) * hi).
  { clear N. induction H as [|x l Hx _ IH]; [now left|]. right. change (rsum (x :: l)) with (x + rsum l). cbn [length]. rewrite S_INR. destruct IH as [->|IH]; [cbn; lra|]. lra. }
  destruct E as [|E]; [contradiction|]. assert (P : 0 < INR (length xs)) by (destruct xs; [contradiction|]; apply lt_0_INR; cbn; lia). unfold rmean.
  split; apply Rmult_lt_reg_r with (INR (length xs)); try exact P; replace (rsum xs / INR (length xs) * INR (length xs)) with (rsum xs) by (field; lra); lra.
Qed.
Lemma mean_between lo hi l v : l <> [] -> (forall x, In x l -> exists m, x = Fin m /\ lo < m < hi) -> mean_of l v -> exists u, v = Fin u /\ lo < u < hi.
Proof.
  intros N C [A|xs Nx E|I|I|I]; try (destruct (C _ I) as (? & ? & _); discriminate).
  - destruct l as [|x l]; [contradiction|]. specialize (A x (or_introl eq_refl)). destruct (C x (or_introl eq_refl)) as (? & ? & _). congruence.
  - eexists. split; [reflexivity|]. apply rmean_between; [exact Nx|]. apply Forall_forall. intros x I. assert (J : In (Fin x) (filter (fun v => match v with NaN => false | _ => true end) l)).
    { rewrite E. now apply in_map. } apply filter_In in J as [J _]. destruct (C _ J) as (m & [= ->] & H). exact H.
Qed.
Lemma line_between x rows (P : mrow -> Prop) f line lo hi : mean_line x rows P f line ->
  (forall r, In r rows -> P r -> exists m, f r = Fin m /\ lo < m < hi) -> Forall (fun km => exists u, snd km = Fin u /\ lo < u < hi) line.
Proof.
  intros [_ V M] H. rewrite Forall_forall in *. intros km I. destruct (M km I) as (gr & K & Me). eapply mean_between; [|intros v Hv|exact Me].
  - destruct (proj1 (V (fst km)) (in_map fst _ _ I)) as (r & Ir & Pr & Hr). assert (J : In r gr) by (apply (keeping_in _ _ _ r K); auto). destruct gr; [destruct J|discriminate].
  - apply in_map_iff in Hv as (r & <- & J). apply (keeping_in _ _ _ r K) in J as (Ir & Pr & Hr). now apply H.
Qed.
Lemma keeping_trans {A} (P Q : A -> Prop) l s u : keeping P l s -> keeping Q s u -> keeping (fun a => P a /\ Q a) l u.
Proof.
  intros H. revert u. induction H as [|a l s Ha H IH|a l s Ha H IH]; intros u K.
  - inversion K; subst. constructor.
  - inversion K; subst; [apply keeping_yes; auto|apply keeping_no; [tauto|auto]].
  - apply keeping_no; [tauto|auto].
Qed.
Lemma where_kept fr x v : In x (f_columns fr) -> exists fr', where_equal fr x v = Ok fr' /\ f_columns fr' = f_columns fr /\ keeping (fun r => has_parameter x r v) (f_rows fr) (f_rows fr').
Proof.
  intros I. unfold where_equal. assert (E : existsb (String.eqb x) (f_columns fr) = true) by (apply existsb_exists; exists x; split; [exact I|apply String.eqb_refl]). rewrite E.
  eexists. split; [reflexivity|]. split; [reflexivity|]. cbn [f_rows]. apply keeping_filter. intros r. rewrite <- entry_spec. destruct (entry_of x r) as [u|]; [|split; discriminate].
  unfold Reqb. destruct (Req_EM_T u v) as [->|N]; split; congruence.
Qed.
Lemma where_missing fr x v : ~ In x (f_columns fr) -> where_equal fr x v = Err KeyError.
Proof.
  intros I. unfold where_equal. destruct (existsb (String.eqb x) (f_columns fr)) eqn:E; [|reflexivity]. apply existsb_exists in E as (y & Iy & Ey). apply String.eqb_eq in Ey. subst. contradiction.
Qed.

Section Panels.
  Variable F : formats.
  Definition about_sparsity (r : mrow) : Prop := exists c e, In c sparsity_cases /\ tuned_sheet F c e /\ row_about r (sheet_mi e) (snd e).
  Lemma case_of r : about_sparsity r -> exists k a, In (k, a) sparsity_cases /\ (exists m, r_true (mr_run r) = Fin m /\ 1 - 1 / 10000 < m < 1 + 1 / 10000) /\
    (forall v, has_parameter "n_interacting" r v <-> v = IZR k) /\ (forall v, has_parameter "alpha" r v <-> v = a).
  Proof.
    intros ((k & a) & e & I & (l & [_ W] & ->) & T & P). exists k, a. split; [exact I|]. split; [eexists; split; [exact T|exact W]|].
    assert (Pn := P "n_interacting"%string). assert (Pa := P "alpha"%string). cbn in Pn, Pa. split; intros v; split.
    - intros [n E|x E]; rewrite Pn in E; congruence.
    - intros ->. now apply has_int.
    - intros [n E|x E]; rewrite Pa in E; congruence.
    - intros ->. now apply has_float.
  Qed.
  Lemma case_dense a : In (10%Z, a) sparsity_cases -> In a alphas.
  Proof. unfold sparsity_cases. rewrite in_app_iff, !in_map_iff. intros [(b & [= <-] & H)|(k & [= -> _] & H)]; [exact H|]. cbn [In] in H. lia. Qed.
  Lemma case_pairs k a : In (k, a) sparsity_cases -> (1 <= k <= 10)%Z.
  Proof. unfold sparsity_cases. rewrite in_app_iff, !in_map_iff. intros [(b & [= <- _] & H)|(n & [= -> _] & H)]; [lia|]. cbn [In] in H. lia. Qed.

  Theorem sparsity_shown rows : rows <> [] -> Forall about_sparsity rows -> (forall r, In r rows -> In (r_estimator (mr_run r)) (map style_id mi_styles)) ->
    exists dense few by_alpha by_pairs, figure_sparsity rows = Ok (by_alpha, by_pairs) /\
      keeping (fun r => fl_ltb (r_estimate (mr_run r)) (Fin 3) = true /\ has_parameter "n_interacting" r 10) rows dense /\
      shows_panel "alpha" dense true by_alpha /\ pn_x_label by_alpha = "$\alpha$"%string /\
      Forall (fun p => In (fst p) alphas /\ exists m, snd p = Fin m /\ within m 1 (1 / 10000)) (pn_truth by_alpha) /\
      keeping (fun r => fl_ltb (r_estimate (mr_run r)) (Fin 3) = true /\ has_parameter "alpha" r 0) rows few /\
      shows_panel "n_interacting" few true by_pairs /\ pn_x_label by_pairs = "Num. of interactions"%string /\
      Forall (fun p => (exists k, (1 <= k <= 10)%Z /\ fst p = IZR k) /\ exists m, snd p = Fin m /\ within m 1 (1 / 10000)) (pn_truth by_pairs).
  Proof.
    intros N A K. rewrite Forall_forall in A. destruct (frame_read (Fin 3) rows N) as (fr & E & C & Ke).
    assert (Cx : In "n_interacting"%string (f_columns fr) /\ In "alpha"%string (f_columns fr)).
    { destruct rows as [|r rows]; [contradiction|]. destruct (case_of r (A r (or_introl eq_refl))) as (k & a & _ & _ & Hn & Ha). split; apply C; exists r.
      - destruct (proj2 (Hn _) eq_refl) as [n G|v G]; apply get_in in G; eexists; split; try exact G; now left.
      - destruct (proj2 (Ha _) eq_refl) as [n G|v G]; apply get_in in G; eexists; split; try exact G; now left. }
    destruct Cx as [Cn Ca].
    destruct (where_kept fr "n_interacting" 10 Cn) as (f1 & E1 & C1 & K1). destruct (where_kept fr "alpha" 0 Ca) as (f2 & E2 & C2 & K2).
    assert (Q1 := keeping_trans _ _ _ _ _ Ke K1). assert (Q2 := keeping_trans _ _ _ _ _ Ke K2).
    assert (I1 : forall r, In r (f_rows f1) -> In r rows /\ has_parameter "n_interacting" r 10) by (intros r I; apply (keeping_in _ _ _ r Q1) in I; tauto).
    assert (I2 : forall r, In r (f_rows f2) -> In r rows /\ has_parameter "alpha" r 0) by (intros r I; apply (keeping_in _ _ _ r Q2) in I; tauto).
    destruct (plot_shown f1 "alpha" (Some "$\alpha$"%string) true) as (p & Ep & Sp & Lp); [now rewrite C1|intros r I; now apply K, I1|].
    destruct (plot_shown f2 "n_interacting" (Some "Num. of interactions"%string) true) as (q & Eq & Sq & Lq); [now rewrite C2|intros r I; now apply K, I2|].
    exists (f_rows f1), (f_rows f2), p, q. split.
    { unfold figure_sparsity. rewrite E. cbn [bind]. rewrite E1. cbn [bind]. rewrite Ep. cbn [bind]. rewrite E2. cbn [bind]. now rewrite Eq. }
    split; [exact Q1|]. split; [exact Sp|]. split; [exact Lp|]. split; [|split; [exact Q2|split; [exact Sq|split; [exact Lq|]]]].
    - assert (D := line_between _ _ _ _ _ (1 - 1 / 10000) (1 + 1 / 10000) (sp_truth _ _ _ _ Sp)). rewrite Forall_forall in D |- *. intros km I. split.
      + destruct (proj1 (ml_values _ _ _ _ _ (sp_truth _ _ _ _ Sp) (fst km)) (in_map fst _ _ I)) as (r & Ir & _ & Hr). destruct (I1 r Ir) as [Ir' Hn].
        destruct (case_of r (A r Ir')) as (k & a & Ic & _ & Pn & Pa). apply Pa in Hr. apply Pn in Hn. apply eq_IZR in Hn. rewrite <- Hn in Ic. rewrite Hr. now apply case_dense.
      + apply D; [|exact I]. intros r Ir _. destruct (I1 r Ir) as [Ir' _]. destruct (case_of r (A r Ir')) as (k & a & _ & M & _). exact M.
    - assert (D := line_between _ _ _ _ _ (1 - 1 / 10000) (1 + 1 / 10000) (sp_truth _ _ _ _ Sq)). rewrite Forall_forall in D |- *. intros km I. split.
      + destruct (proj1 (ml_values _ _ _ _ _ (sp_truth _ _ _ _ Sq) (fst km)) (in_map fst _ _ I)) as (r & Ir & _ & Hr). destruct (I2 r Ir) as [Ir' Hn].
        destruct (case_of r (A r Ir')) as (k & a & Ic & _ & Pn & Pa). apply Pn in Hr. exists k. split; [eapply case_pairs; eauto|exact Hr].
      + apply D; [|exact I]. intros r Ir _. destruct (I2 r Ir) as [Ir' _]. destruct (case_of r (A r Ir')) as (k & a & _ & M & _). exact M.
  Qed.
End Panels.
Theorem sparsity_missing rows : ~ (exists r v, In r rows /\ In ("n_interacting"%string, v) (mr_params r)) -> figure_sparsity rows = Err KeyError.
Proof.
  intros H. unfold figure_sparsity. destruct rows as [|r rows]; [reflexivity|]. destruct (frame_read (Fin 3) (r :: rows)) as (fr & -> & C & _); [discriminate|].
  cbn [bind]. rewrite where_missing; [reflexivity|]. rewrite C. exact H.
Qed.

(** Proofs about the figure of the tasks with noise. *)
From Coq Require Import String Ascii Permutation Sorted Lia Lra.
From Verif Require Import Base BaseLemmas UtilsModel GaussianModel BenchmarkModel TablesModel TablesSpec TablesProofs V2TableModel V2TableSpec V2TableThms
  RulesModel OutliersModel OutliersPlotModel OutliersPlotSpec.
Open Scope R_scope.
Local Notation length := List.length.

(** ** Running over lists *)
Lemma each_ok {A B} (f : A -> result B) l bs : Forall2 (fun a b => f a = Ok b) l bs -> each f l = Ok bs.
Proof. induction 1 as [|a b l bs E _ IH]; cbn; [reflexivity|]. now rewrite E, IH. Qed.
Lemma each_inv {A B} (f : A -> result B) l bs : each f l = Ok bs -> Forall2 (fun a b => f a = Ok b) l bs.
Proof.
  revert bs. induction l as [|a l IH]; cbn; intros bs E; [injection E as <-; constructor|].
  destruct (f a) as [b|] eqn:Ea; [|discriminate]. cbn [bind] in E. destruct (each f l) as [bs'|]; [|discriminate]. injection E as <-. constructor; auto.
Qed.
Lemma each_first {A B} (f : A -> result B) pre a post e : Forall (fun x => exists b, f x = Ok b) pre -> f a = Err e -> each f (pre ++ a :: post) = Err e.
Proof.
  intros H E. induction H as [|x pre [b Eb] _ IH]; cbn; [now rewrite E|]. rewrite Eb. cbn [bind]. now rewrite IH.
Qed.
Lemma each_all_fails {A B} (f : A -> result B) l e : (forall a, In a l -> (exists b, f a = Ok b) \/ f a = Err e) -> (exists a, In a l /\ f a = Err e) -> each f l = Err e.
Proof.
  induction l as [|x l IH]; intros H (a & I & E); [destruct I|]. cbn. destruct (H x (or_introl eq_refl)) as [[b Eb]|Ex]; [|now rewrite Ex].
  rewrite Eb. cbn [bind]. destruct I as [->|I]; [congruence|]. rewrite IH; [reflexivity| |eauto]. intros y Hy. apply H. now right.
Qed.

(** ** The order of the groups *)
Lemma key_total a b : key_leb a b = false -> key_leb b a = true.
Proof.
  unfold key_leb. destruct (Rltb (fst a) (fst b)) eqn:A; [discriminate|]. destruct (Rltb (fst b) (fst a)) eqn:B; [reflexivity|]. apply leb_total.
Qed.
Lemma key_fst a b : key_leb a b = true -> fst a <= fst b.
Proof.
  unfold key_leb. destruct (Rltb (fst a) (fst b)) eqn:A; [apply Rltb_true in A; lra|].
  destruct (Rltb (fst b) (fst a)) eqn:B; [discriminate|]. apply Rltb_false in A, B. lra.
Qed.
Lemma sorted_weak l : Sorted (fun a b => key_leb a b = true) l -> StronglySorted (fun a b : R * string => fst a <= fst b) l.
Proof.
  intros H. apply Sorted_StronglySorted; [intros x y z; lra|]. induction H as [|a l _ IH D]; constructor; [exact IH|]. destruct D; constructor. now apply key_fst.
Qed.
Lemma filter_strong {A} (P : A -> A -> Prop) f l : StronglySorted P l -> StronglySorted P (filter f l).
Proof.
  induction 1 as [|a l _ IH F]; cbn; [constructor|]. destruct (f a); [|exact IH]. constructor; [exact IH|].
  apply Forall_forall. intros x I. apply filter_In in I. rewrite Forall_forall in F. now apply F.
Qed.
(** Keys of one estimator: different and in order, hence increasing. *)
Lemma strict_keys (l : list (R * string)) e : StronglySorted (fun a b => fst a <= fst b) l -> NoDup l -> Forall (fun k => snd k = e) l -> StronglySorted Rlt (map fst l).
Proof.
  induction 1 as [|a l _ IH F]; cbn; intros N E; [constructor|]. inversion N as [|? ? N1 N2]; inversion E as [|? ? E1 E2]; subst. constructor; [now apply IH|].
  apply Forall_forall. intros k I. apply in_map_iff in I as (b & <- & I). rewrite Forall_forall in F, E2. specialize (F b I).
  destruct F as [F|F]; [exact F|]. destruct N1. specialize (E2 b I). destruct a, b; cbn in *; subst. exact I.
Qed.

Lemma unique_in l x : In x (unique l) <-> In x l.
Proof.
  induction l as [|y l IH]; [reflexivity|]. cbn [unique In]. rewrite filter_In, IH.
  destruct (String.eqb_spec y x); intuition (subst; auto).
Qed.
Lemma unique_nodup l : NoDup (unique l).
Proof.
  induction l as [|y l IH]; [constructor|]. cbn. constructor; [|now apply NoDup_filter].
  rewrite filter_In. rewrite String.eqb_refl. intros [_ H]. discriminate.
Qed.

Definition keys (rows : list (R * result_row)) : list (R * string) :=
  sort_by key_leb (nodup key_dec (map (fun r => (fst r, rr_estimator (snd r))) rows)).
Lemma keys_in rows k e : In (k, e) (keys rows) <-> exists r, In (k, r) rows /\ rr_estimator r = e.
Proof.
  unfold keys. transitivity (In (k, e) (map (fun r => (fst r, rr_estimator (snd r))) rows)).
  - rewrite <- (nodup_In key_dec (map _ rows)). split; apply Permutation_in; [apply sort_perm|apply Permutation_sym, sort_perm].
  - rewrite in_map_iff. split.
    + intros ([k' r] & E & I). cbn in E. injection E as -> <-. eauto.
    + intros (r & I & <-). exists (k, r). auto.
Qed.
Lemma keys_nodup rows : NoDup (keys rows).
Proof. eapply Permutation_NoDup; [apply Permutation_sym, sort_perm|apply NoDup_nodup]. Qed.
Lemma grouped_keys rows : grouped rows = map (fun k => (k, (pd_mean (estimates_at rows (snd k) (fst k)), pd_std (estimates_at rows (snd k) (fst k))))) (keys rows).
Proof.
  unfold grouped. cbv zeta. apply map_ext. intros [k e]. cbn [fst snd]. unfold estimates_at.
  replace (filter (fun r : R * result_row => if key_dec (fst r, rr_estimator (snd r)) (k, e) then true else false) rows)
    with (filter (fun r : R * result_row => (Reqb (fst r) k && String.eqb (rr_estimator (snd r)) e)%bool) rows); [reflexivity|].
  apply filter_ext. intros r. unfold Reqb. destruct (key_dec _ _) as [E|N].
  - injection E as -> ->. rewrite String.eqb_refl. now destruct (Req_EM_T k k).
  - destruct (Req_EM_T (fst r) k) as [E1|]; [|reflexivity]. destruct (String.eqb_spec (rr_estimator (snd r)) e) as [E2|]; [|reflexivity].
    destruct N. congruence.
Qed.

Lemma filter_map_comm {A B} (f : A -> B) p l : filter p (map f l) = map f (filter (fun a => p (f a)) l).
Proof. induction l as [|a l IH]; cbn; [reflexivity|]. destruct (p (f a)); cbn; now rewrite IH. Qed.

Definition style_of e : result (string * string) := do c <- lookup ESTIMATOR_COLORS e; do m <- lookup ESTIMATOR_MARKERS e; Ok (c, m).
Lemma style_known e : In e (map fst styles) -> exists s, style_of e = Ok s /\ In (e, s) styles.
Proof. cbn. intros [<-|[<-|[<-|[<-|[]]]]]; eexists; (split; [reflexivity|cbn; tauto]). Qed.
Lemma style_unknown e : ~ In e (map fst styles) -> lookup ESTIMATOR_COLORS e = Err KeyError.
Proof.
  cbn. intros N. unfold lookup, ESTIMATOR_COLORS. cbn [sdict_get fst snd].
  repeat match goal with |- context [String.eqb e ?c] => destruct (String.eqb_spec e c); [destruct N; subst; tauto|] end. reflexivity.
Qed.

Lemma curve_known rows e : In e (map fst styles) -> exists c, draw_curve (grouped rows) e = Ok c /\ c_estimator c = e /\ curve_shows rows c.
Proof.
  intros K. destruct (style_known e K) as ([co ma] & S & I). unfold style_of in S. unfold draw_curve.
  destruct (lookup ESTIMATOR_COLORS e) as [co'|]; [|discriminate]. cbn [bind] in S |- *.
  destruct (lookup ESTIMATOR_MARKERS e) as [ma'|]; [|discriminate]. cbn [bind] in S |- *. injection S as -> ->.
  eexists. split; [reflexivity|]. split; [reflexivity|]. rewrite grouped_keys, filter_map_comm. cbn [fst snd].
  assert (D : Forall (fun k => snd k = e) (filter (fun a => String.eqb (snd a) e) (keys rows))).
  { apply Forall_forall. intros k H. apply filter_In in H as [_ H]. now apply String.eqb_eq. }
  split; cbn [c_estimator c_color c_marker c_points c_band].
  - exact I.
  - rewrite !map_map. cbn [fst snd]. apply (strict_keys _ e); [|apply NoDup_filter, keys_nodup|exact D].
    apply filter_strong, sorted_weak, sort_sorted. exact key_total.
  - intros k. rewrite !map_map. cbn [fst snd]. rewrite in_map_iff. split.
    + intros ([k' e'] & E & H). cbn in E. subst k'. apply filter_In in H as [H1 H2]. cbn in H2. apply String.eqb_eq in H2. subst e'. now apply keys_in.
    + intros H. apply keys_in in H. exists (k, e). split; [reflexivity|]. apply filter_In. split; [exact H|apply String.eqb_refl].
  - rewrite !map_map. cbn [fst snd]. induction D as [|[k e'] l E _ IH]; cbn; constructor; [|exact IH]. cbn in E. subst e'. cbn.
    split; [apply mean_spec|]. exists (pd_std (estimates_at rows e k)). split; [apply std_spec|reflexivity].
Qed.

Section Plot.
  Variable parameter : string -> string -> result R.
  Definition read_rows key (data : list result_row) (rows : list (R * result_row)) : Prop :=
    Forall2 (fun r kr => snd kr = r /\ parameter (rr_params r) key = Ok (fst kr)) data rows.
  Lemma rows_read key data rows : read_rows key data rows -> each (fun r => do p <- parameter (rr_params r) key; Ok (p, r)) data = Ok rows.
  Proof.
    intros H. apply each_ok. induction H as [|r [k r'] data rows [E P] _ IH]; constructor; [|exact IH]. cbn in E, P. subst r'. now rewrite P.
  Qed.
  Lemma grouped_estimators rows e : In e (map (fun r => snd (fst r)) (grouped rows)) <-> exists kr, In kr rows /\ rr_estimator (snd kr) = e.
  Proof.
    rewrite grouped_keys, map_map. cbn [fst snd]. rewrite in_map_iff. split.
    - intros ([k e'] & <- & I). apply keys_in in I as (r & I & E). exists (k, r). auto.
    - intros ([k r] & I & <-). exists (k, rr_estimator r). split; [reflexivity|]. apply keys_in. eauto.
  Qed.

  Theorem plot_made key data rows : read_rows key data rows -> (forall r, In r data -> In (rr_estimator r) (map fst styles)) ->
    exists curves, plot_data parameter data key = Ok curves /\ NoDup (map c_estimator curves) /\
      (forall e, In e (map c_estimator curves) <-> exists r, In r data /\ rr_estimator r = e) /\ Forall (curve_shows rows) curves.
  Proof.
    intros Rd K. unfold plot_data. rewrite (rows_read _ _ _ Rd). cbn [bind].
    assert (Q : forall e, (exists kr, In kr rows /\ rr_estimator (snd kr) = e) <-> exists r, In r data /\ rr_estimator r = e).
    { intros e. clear K. induction Rd as [|r kr data rows [E P] _ IH]; [split; intros (x & [] & _)|]. split.
      - intros (x & [<-|I] & H); [exists r; split; [now left|congruence]|]. destruct (proj1 IH) as (y & Iy & Hy); [eauto|]. exists y. split; [now right|exact Hy].
      - intros (x & [<-|I] & H); [exists kr; split; [now left|congruence]|]. destruct (proj2 IH) as (y & Iy & Hy); [eauto|]. exists y. split; [now right|exact Hy]. }
    assert (M : forall l, (forall e, In e l -> In e (map fst styles)) -> exists cs, each (draw_curve (grouped rows)) l = Ok cs /\ map c_estimator cs = l /\ Forall (curve_shows rows) cs).
    { induction l as [|e l IH]; intros H; [exists []; repeat split; constructor|].
      destruct (curve_known rows e) as (c & E & N & S); [apply H; now left|]. destruct IH as (cs & E' & N' & S'); [intros x I; apply H; now right|].
      exists (c :: cs). cbn. rewrite E. cbn [bind]. rewrite E'. cbn [bind]. split; [reflexivity|]. split; [now rewrite N, N'|now constructor]. }
    destruct (M (unique (map (fun r => snd (fst r)) (grouped rows)))) as (cs & E & N & S).
    { intros e I. apply (proj1 (unique_in _ _)) in I. apply grouped_estimators in I. apply Q in I as (r & I & <-). now apply K. }
    exists cs. split; [exact E|]. split; [rewrite N; apply unique_nodup|]. split; [|exact S].
    intros e. rewrite N. rewrite unique_in, grouped_estimators. apply Q.
  Qed.
  Theorem plot_unknown key data rows : read_rows key data rows -> (exists r, In r data /\ ~ In (rr_estimator r) (map fst styles)) ->
    plot_data parameter data key = Err KeyError.
  Proof.
    intros Rd (r & I & N). unfold plot_data. rewrite (rows_read _ _ _ Rd). cbn [bind]. apply each_all_fails.
    - intros e _. destruct (in_dec string_dec e (map fst styles)) as [K|K].
      + left. destruct (curve_known rows e K) as (c & E & _). eauto.
      + right. unfold draw_curve. now rewrite (style_unknown e K).
    - exists (rr_estimator r). split; [|unfold draw_curve; now rewrite (style_unknown _ N)]. apply unique_in, grouped_estimators.
      clear N. induction Rd as [|r' kr data rows [E P] _ IH]; [destruct I|]. destruct I as [->|I].
      + exists kr. split; [now left|congruence].
      + destruct (IH I) as (x & Ix & Hx). exists x. split; [now right|exact Hx].
  Qed.
  Theorem plot_unreadable key pre r post e : Forall (fun x => exists p, parameter (rr_params x) key = Ok p) pre -> parameter (rr_params r) key = Err e ->
    plot_data parameter (pre ++ r :: post) key = Err e.
  Proof.
    intros H E. unfold plot_data. rewrite (each_first _ pre r post e); [reflexivity| |now rewrite E].
    eapply Forall_impl; [|exact H]. intros x [p Hp]. rewrite Hp. cbn. eauto.
  Qed.
End Plot.

(** ** Ground truth *)
Definition level (d : R * fl * fl) : R := fst (fst d).
Lemma docs_sorted docs : StronglySorted (fun a b => level a <= level b) (sort_by (fun a b => Rleb (fst (fst a)) (fst (fst b))) docs).
Proof.
  apply Sorted_StronglySorted; [intros x y z; lra|].
  assert (H := sort_sorted (fun a b : R * fl * fl => Rleb (fst (fst a)) (fst (fst b))) docs (fun x y E => proj2 (Rleb_true _ _) (Rlt_le _ _ (proj1 (Rleb_false _ _) E)))).
  induction H as [|a l _ IH D]; constructor; [exact IH|]. destruct D; constructor. now apply Rleb_true.
Qed.
Theorem truth_sorted docs : exists sorted, Permutation docs sorted /\ StronglySorted (fun a b => level a <= level b) sorted /\
  plot_ground_truth docs = (map (fun d => (level d, snd (fst d))) sorted, map (fun d => (fl_sub (snd (fst d)) (snd d), fl_add (snd (fst d)) (snd d))) sorted).
Proof. eexists. split; [apply Permutation_sym, sort_perm|]. split; [apply docs_sorted|reflexivity]. Qed.
Lemma levels_unique s : forall s', Permutation s s' -> NoDup (map level s) -> StronglySorted (fun a b => level a <= level b) s ->
  StronglySorted (fun a b => level a <= level b) s' -> s = s'.
Proof.
  induction s as [|a s IH]; intros s' P N A B; [apply Permutation_nil in P; congruence|].
  destruct s' as [|b s']; [apply Permutation_sym, Permutation_nil in P; discriminate|].
  inversion A as [|? ? A1 A2]; inversion B as [|? ? B1 B2]; inversion N as [|? ? N1 N2]; subst. rewrite Forall_forall in A2, B2.
  assert (E : a = b).
  { assert (Ia : In a (b :: s')) by (eapply Permutation_in; [exact P|now left]).
    assert (Ib : In b (a :: s)) by (eapply Permutation_in; [apply Permutation_sym, P|now left]).
    destruct Ia as [<-|Ia]; [reflexivity|]. destruct Ib as [->|Ib]; [reflexivity|].
    destruct N1. replace (level a) with (level b); [now apply in_map|]. apply Rle_antisym; auto. }
  subst b. f_equal. apply IH; auto. now apply Permutation_cons_inv in P.
Qed.
Theorem truth_order docs docs' : Permutation docs docs' -> NoDup (map level docs) -> plot_ground_truth docs = plot_ground_truth docs'.
Proof.
  intros P N. unfold plot_ground_truth.
  set (s := sort_by _ docs). set (s' := sort_by _ docs').
  assert (Ps : Permutation docs s) by (apply Permutation_sym, sort_perm). assert (Ps' : Permutation docs' s') by (apply Permutation_sym, sort_perm).
  replace s' with s; [reflexivity|]. apply levels_unique; [|eapply Permutation_NoDup; [apply Permutation_map; exact Ps|exact N]|apply docs_sorted|apply docs_sorted].
  eapply perm_trans; [apply Permutation_sym, Ps|]. eapply perm_trans; [exact P|exact Ps'].
Qed.
Lemma truth_increasing docs : StronglySorted Rlt (map level docs) ->
  plot_ground_truth docs = (map (fun d => (level d, snd (fst d))) docs, map (fun d => (fl_sub (snd (fst d)) (snd d), fl_add (snd (fst d)) (snd d))) docs).
Proof.
  intros H. destruct (truth_sorted docs) as (s & P & S & ->).
  assert (N : NoDup (map level docs)).
  { clear - H. induction H as [|a l _ IH F]; constructor; [|exact IH]. intros I. rewrite Forall_forall in F. specialize (F a I). lra. }
  replace s with docs; [reflexivity|]. apply levels_unique; auto. clear - H. induction docs as [|d docs IH]; cbn in H; constructor; inversion H as [|? ? H1 H2]; subst.
  - now apply IH.
  - apply Forall_forall. intros x I. rewrite Forall_forall in H2. left. apply H2. now apply in_map.
Qed.

(** ** Selecting rows *)
Lemma contains_head c p s : ~ In c (list_ascii_of_string s) -> contains (String c p) s = false.
Proof.
  induction s as [|d s IH]; intros N; [reflexivity|]. cbn [contains String.prefix]. cbn in N.
  destruct (ascii_dec c d) as [->|]; [tauto|]. cbn. apply IH. tauto.
Qed.
Lemma contains_front p s : contains p (p ++ s) = true.
Proof.
  assert (H : String.prefix p (p ++ s) = true). { induction p as [|c p IH]; cbn; [now destruct s|]. destruct (ascii_dec c c); [exact IH|tauto]. }
  destruct (p ++ s)%string; cbn [contains]; now rewrite H.
Qed.
Lemma number_not t c : number_text t -> ~ In c (list_ascii_of_string "0123456789.e+-") -> ~ In c (list_ascii_of_string t).
Proof. intros H N I. unfold number_text in H. rewrite Forall_forall in H. auto. Qed.
Lemma chars_app a b : list_ascii_of_string (a ++ b) = (list_ascii_of_string a ++ list_ascii_of_string b)%list.
Proof. induction a as [|c a IH]; cbn; [reflexivity|]. now rewrite IH. Qed.
Ltac absent := let I := fresh in intros I; cbn in I; repeat (destruct I as [I|I]; [discriminate|]); try contradiction.
Lemma tail_free c a t : ~ In c (list_ascii_of_string a) -> ~ In c (list_ascii_of_string "0123456789.e+-") -> number_text t -> ~ In c (list_ascii_of_string (a ++ t)).
Proof. intros A N T I. rewrite chars_app in I. apply in_app_iff in I as [I|I]; [auto|]. eapply number_not; eauto. Qed.

Lemma once p c s : ~ In "m"%char (list_ascii_of_string s) -> contains (String "m" p) (String c s) = String.prefix (String "m" p) (String c s).
Proof. intros N. cbn [contains]. rewrite contains_head by exact N. apply Bool.orb_false_r. Qed.
Theorem selected s : inlier_id s \/ outlier_id s \/ variance_id s ->
  (contains "mixing-Gauss-Inlier" s = true <-> inlier_id s) /\ (contains "mixing-Gauss-Outlier" s = true <-> outlier_id s) /\
  (contains "variance" s = true <-> variance_id s).
Proof.
  assert (Diff : ~ (inlier_id s /\ outlier_id s) /\ ~ (inlier_id s /\ variance_id s) /\ ~ (outlier_id s /\ variance_id s)).
  { split; [|split]; intros [(t & _ & E) (t' & _ & E')]; rewrite E in E'; discriminate. }
  intros H.
  assert (C : (inlier_id s /\ contains "mixing-Gauss-Inlier" s = true /\ contains "mixing-Gauss-Outlier" s = false /\ contains "variance" s = false) \/
    (outlier_id s /\ contains "mixing-Gauss-Inlier" s = false /\ contains "mixing-Gauss-Outlier" s = true /\ contains "variance" s = false) \/
    (variance_id s /\ contains "mixing-Gauss-Inlier" s = false /\ contains "mixing-Gauss-Outlier" s = false /\ contains "variance" s = true)).
  { destruct H as [H|[H|H]]; assert (H' := H); destruct H' as (t & T & ->).
    - left. split; [exact H|]. split; [exact (contains_front "mixing-Gauss-Inlier" ("-" ++ t))|]. split.
      + cbn [append]. rewrite once; [reflexivity|]. apply (tail_free "m" "ixing-Gauss-Inlier-" t); [absent|absent|exact T].
      + apply contains_head. apply (tail_free "v" "mixing-Gauss-Inlier-" t); [absent|absent|exact T].
    - right. left. split; [exact H|]. split; [|split; [exact (contains_front "mixing-Gauss-Outlier" ("-" ++ t))|]].
      + cbn [append]. rewrite once; [reflexivity|]. apply (tail_free "m" "ixing-Gauss-Outlier-" t); [absent|absent|exact T].
      + apply contains_head. apply (tail_free "v" "mixing-Gauss-Outlier-" t); [absent|absent|exact T].
    - right. right. split; [exact H|]. split; [|split; [|exact (contains_front "variance" ("-" ++ t))]];
        apply contains_head; apply (tail_free "m" "variance-" t); [absent|absent|exact T|absent|absent|exact T]. }
  destruct Diff as (D1 & D2 & D3). destruct C as [(K & -> & -> & ->)|[(K & -> & -> & ->)|(K & -> & -> & ->)]]; split; [|split| |split| |split]; split; intros; auto; try discriminate; tauto.
Qed.
Theorem selection df f g k : Forall (fun r => inlier_id (rr_task r) \/ outlier_id (rr_task r) \/ variance_id (rr_task r)) df ->
  (forall r, f r = true <-> inlier_id (rr_task r)) -> (forall r, g r = true <-> outlier_id (rr_task r)) -> (forall r, k r = true <-> variance_id (rr_task r)) ->
  select "mixing-Gauss-Inlier" df = filter f df /\ select "mixing-Gauss-Outlier" df = filter g df /\ select "variance" df = filter k df.
Proof.
  intros D Hf Hg Hk. unfold select.
  assert (Q : forall r, In r df -> contains "mixing-Gauss-Inlier" (rr_task r) = f r /\ contains "mixing-Gauss-Outlier" (rr_task r) = g r /\ contains "variance" (rr_task r) = k r).
  { intros r I. rewrite Forall_forall in D. destruct (selected (rr_task r) (D r I)) as (A & B & C).
    assert (T : forall a b : bool, (a = true <-> b = true) -> a = b) by (intros [] []; intuition congruence).
    split; [|split]; apply T; [rewrite A; symmetry; apply Hf|rewrite B; symmetry; apply Hg|rewrite C; symmetry; apply Hk]. }
  split; [|split]; apply filter_ext_in; intros r I; apply Q; exact I.
Qed.

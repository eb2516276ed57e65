(** The plot of results on the demonstration tasks. *)
From Coq Require Import String Lia Lra.
From Verif Require Import Base BaseLemmas UtilsModel RulesModel OutliersModel OutliersPlotModel OutliersPlotThms TablesModel TablesProofs BmmFigureThms CoolTasksModel CoolTasksSpec.
Open Scope R_scope.
Local Notation length := List.length.

Lemma filter_both {A} (f g : A -> bool) l : filter g (filter f l) = filter (fun a => f a && g a)%bool l.
Proof. induction l as [|a l IH]; [reflexivity|]. cbn. destruct (f a); cbn; [destruct (g a); now rewrite IH|exact IH]. Qed.
Lemma index_ok t : In t cool_tasks -> exists k name, list_index cool_tasks t = Ok k /\ placed t k name /\ nth_error tasks_official k = Some name.
Proof.
  unfold cool_tasks, placed. intros H. cbn [In] in H. destruct H as [<-|[<-|[<-|[<-|[]]]]]; eexists _, _; (split; [vm_compute; reflexivity|]); (split; [|vm_compute; reflexivity]); cbn [In]; auto.
Qed.
Lemma index_bad l t : ~ In t l -> list_index l t = Err ValueError.
Proof.
  induction l as [|a l IH]; intros H; [reflexivity|]. cbn [list_index]. destruct (String.eqb_spec a t) as [->|N]; [exfalso; apply H; now left|].
  rewrite IH; [reflexivity|]. intros I. apply H. now right.
Qed.
Lemma style_ok e : In e cool_estimators -> exists a b c, RulesModel.lookup ESTIMATOR_NAMES e = Ok a /\ RulesModel.lookup ESTIMATOR_MARKERS e = Ok b /\
  RulesModel.lookup ESTIMATOR_COLORS e = Ok c /\ forall p, styled e {| s_label := a; s_marker := b; s_color := c; s_points := p |}.
Proof.
  unfold cool_estimators, styled. intros H. cbn [In] in H. destruct H as [<-|[<-|[<-|[<-|[<-|[]]]]]]; eexists _, _, _; (split; [vm_compute; reflexivity|]); (split; [vm_compute; reflexivity|]);
    (split; [vm_compute; reflexivity|]); intros p; cbn [In s_label s_marker s_color]; auto 6.
Qed.
Lemma style_bad e : ~ In e cool_estimators -> RulesModel.lookup ESTIMATOR_NAMES e = Err KeyError.
Proof.
  intros H. unfold RulesModel.lookup. destruct (sdict_get ESTIMATOR_NAMES e) eqn:E; [|reflexivity]. exfalso. apply H. unfold ESTIMATOR_NAMES in E. cbn [sdict_get] in E. unfold cool_estimators.
  repeat (match type of E with (if String.eqb e ?k then _ else _) = _ => destruct (String.eqb_spec e k) as [->|_]; [cbn [In]; auto 6|] end). discriminate.
Qed.

Section Plot.
  Variable normal : string -> nat -> list R.
  Variable data : list row.
  Let data_5k := filter (fun r => Z.eqb (r_n r) 5000) data.
  Hypothesis sizes : forall e n, length (normal e n) = n.

  Lemma rows_eq e : filter (fun r => String.eqb (r_estimator r) e) data_5k = rows_of data e.
  Proof. apply filter_both. Qed.
  Lemma places_ok rows : (forall r, In r rows -> In (r_task r) cool_tasks) -> exists ks, each (fun r => list_index cool_tasks (r_task r)) rows = Ok ks /\ length ks = length rows /\
    forall i r, nth_error rows i = Some r -> exists k name, nth_error ks i = Some k /\ placed (r_task r) k name.
  Proof.
    induction rows as [|r rows IH]; intros H.
    - exists []. repeat split. intros [|i] r0 X; discriminate X.
    - destruct (index_ok (r_task r)) as [k [name [E [P _]]]]; [apply H; now left|]. destruct IH as [ks [E2 [L N]]]; [intros r0 I; apply H; now right|].
      exists (k :: ks). cbn [each]. rewrite E. cbn [bind]. rewrite E2. cbn [bind]. split; [reflexivity|]. split; [cbn; now rewrite L|].
      intros [|i] r0 X; cbn in X |- *; [injection X as <-; exists k, name; split; [reflexivity|exact P]|now apply N].
  Qed.
  Lemma nth_combine {A B} (l : list A) (m : list B) i a b : nth_error l i = Some a -> nth_error m i = Some b -> nth_error (combine l m) i = Some (a, b).
  Proof. revert m i. induction l as [|x l IH]; intros [|y m] [|i] H K; cbn in *; try discriminate; [congruence|now apply IH]. Qed.
  Lemma estimator_ok e : In e cool_estimators -> (forall r, In r data_5k -> In (r_task r) cool_tasks) -> exists s, plot_estimator normal data_5k e = Ok s /\ series_of normal data e s.
  Proof.
    intros He Ht. destruct (style_ok e He) as [a [b [c [E1 [E2 [E3 S]]]]]]. unfold plot_estimator. rewrite rows_eq.
    destruct (places_ok (rows_of data e)) as [ks [K [L N]]].
    { intros r I. apply Ht. rewrite <- rows_eq in I. now apply filter_In in I. }
    rewrite K. cbn [bind]. rewrite E1. cbn [bind]. rewrite E2. cbn [bind]. rewrite E3. cbn [bind]. eexists. split; [reflexivity|].
    split; [apply S|]. cbn [s_points]. split.
    - rewrite combine_length, !map_length, combine_length, sizes, L. lia.
    - intros i r z R0 Z0. destruct (N i r R0) as [k [name [K1 P]]]. exists k, name. split; [exact P|].
      replace (INR k + z / 20) with (INR (fst (k, z)) + 5 / 100 * snd (k, z)) by (cbn; lra). apply nth_combine; [|now apply map_nth_error].
      apply (map_nth_error (fun p : nat * R => INR (fst p) + 5 / 100 * snd p)). now apply nth_combine.
  Qed.
  Lemma truth_ok t : In t cool_tasks -> exists l, plot_truth data_5k t = Ok l /\ line_of data t l.
  Proof.
    intros H. destruct (index_ok t H) as [k [name [E [P _]]]]. unfold plot_truth. rewrite E. cbn [bind]. eexists. split; [reflexivity|]. exists k, name. split; [exact P|].
    unfold data_5k. rewrite filter_both. fold (truths_of data t). f_equal. f_equal; lra.
  Qed.
  Lemma labels_distinct f : distinct data f (labels (map f data_5k)).
  Proof.
    split; [apply labels_nodup|]. intros e. rewrite labels_in, in_map_iff. unfold data_5k. split.
    - intros [r [<- I]]. apply filter_In in I as [I N]. apply Z.eqb_eq in N. eauto.
    - intros [r [I [N <-]]]. exists r. split; [reflexivity|]. apply filter_In. split; [exact I|]. now apply Z.eqb_eq.
  Qed.
  Lemma each_exists {A B} (f : A -> result B) (P : A -> B -> Prop) l : (forall a, In a l -> exists b, f a = Ok b /\ P a b) -> exists bs, each f l = Ok bs /\ Forall2 P l bs.
  Proof.
    induction l as [|a l IH]; intros H; [exists []; split; [reflexivity|constructor]|]. destruct (H a) as [b [E K]]; [now left|]. destruct IH as [bs [E2 K2]]; [intros x I; apply H; now right|].
    exists (b :: bs). cbn [each]. rewrite E. cbn [bind]. rewrite E2. split; [reflexivity|now constructor].
  Qed.
  Lemma known : (forall r, In r data -> r_n r = 5000%Z -> In (r_task r) cool_tasks) -> forall r, In r data_5k -> In (r_task r) cool_tasks.
  Proof. intros H r I. unfold data_5k in I. apply filter_In in I as [I N]. apply Z.eqb_eq in N. auto. Qed.
  Theorem results_drawn : (forall r, In r data -> r_n r = 5000%Z -> In (r_task r) cool_tasks /\ In (r_estimator r) cool_estimators) ->
    exists p ids tasks, plot_results normal data = Ok p /\
      distinct data r_estimator ids /\ Forall2 (series_of normal data) ids (rp_series p) /\
      distinct data r_task tasks /\ Forall2 (line_of data) tasks (rp_truth p) /\
      forall k name, In (k, name) (rp_ticks p) <-> exists t, placed t k name.
  Proof.
    intros H. assert (Ht : forall r, In r data_5k -> In (r_task r) cool_tasks) by (apply known; intros r I N; now apply H).
    destruct (each_exists (plot_estimator normal data_5k) (series_of normal data) (labels (map r_estimator data_5k))) as [ss [E1 F1]].
    { intros e I. apply (labels_distinct r_estimator) in I as [r [I [N <-]]]. apply estimator_ok; [now apply H|exact Ht]. }
    destruct (each_exists (plot_truth data_5k) (line_of data) (labels (map r_task data_5k))) as [ls [E2 F2]].
    { intros t I. apply (labels_distinct r_task) in I as [r [I [N <-]]]. apply truth_ok. now apply H. }
    unfold plot_results. fold data_5k. rewrite E1. cbn [bind]. rewrite E2. cbn [bind].
    eexists _, _, _. split; [reflexivity|]. split; [apply labels_distinct|]. split; [exact F1|]. split; [apply labels_distinct|]. split; [exact F2|].
    intros k name. unfold placed. cbn [rp_ticks cool_tasks tasks_official length seq combine In]. split.
    - intros [X|[X|[X|[X|[]]]]]; injection X as <- <-; eexists; auto.
    - intros [t [X|[X|[X|[X|[]]]]]]; injection X as <- <- <-; auto.
  Qed.
  Theorem unknown_task r : (forall r, In r data -> r_n r = 5000%Z -> In (r_estimator r) cool_estimators) ->
    In r data -> r_n r = 5000%Z -> ~ In (r_task r) cool_tasks -> plot_results normal data = Err ValueError.
  Proof.
    intros He I N U. unfold plot_results. fold data_5k. rewrite (each_all_fails _ _ ValueError); [reflexivity| |].
    - intros e Ie. apply (labels_distinct r_estimator) in Ie as [r0 [I0 [N0 <-]]]. destruct (style_ok _ (He r0 I0 N0)) as [a [b [c [E1 [E2 [E3 _]]]]]]. unfold plot_estimator.
      destruct (each _ _) as [ks|x] eqn:E.
      + left. cbn [bind]. rewrite E1. cbn [bind]. rewrite E2. cbn [bind]. rewrite E3. cbn [bind]. eauto.
      + right. cbn [bind]. f_equal. clear -E. revert E. generalize (filter (fun r => String.eqb (r_estimator r) (r_estimator r0)) data_5k). intros l.
        induction l as [|q l IH]; [discriminate|]. cbn [each]. destruct (in_dec string_dec (r_task q) cool_tasks) as [K|K].
        * destruct (index_ok _ K) as [k [nm [Ek _]]]. rewrite Ek. cbn [bind]. destruct (each _ l); [discriminate|]. cbn [bind]. auto.
        * rewrite (index_bad _ _ K). cbn [bind]. congruence.
    - exists (r_estimator r). split; [apply (labels_distinct r_estimator); eauto|]. unfold plot_estimator. rewrite (each_all_fails _ _ ValueError); [reflexivity| |].
      + intros q _. destruct (in_dec string_dec (r_task q) cool_tasks) as [K|K]; [left; destruct (index_ok _ K) as [k [nm [Ek _]]]; eauto|right; now apply index_bad].
      + exists r. split; [|now apply index_bad]. apply filter_In. split; [|apply String.eqb_refl]. apply filter_In. split; [exact I|now apply Z.eqb_eq].
  Qed.
  Theorem unknown_estimator r : (forall r, In r data -> r_n r = 5000%Z -> In (r_task r) cool_tasks) ->
    In r data -> r_n r = 5000%Z -> ~ In (r_estimator r) cool_estimators -> plot_results normal data = Err KeyError.
  Proof.
    intros Ht I N U. assert (Hk := known Ht). unfold plot_results. fold data_5k.
    assert (B : forall e, ~ In e cool_estimators -> plot_estimator normal data_5k e = Err KeyError).
    { intros e X. unfold plot_estimator. rewrite rows_eq. destruct (places_ok (rows_of data e)) as [ks [K _]].
      { intros q Iq. apply Hk. rewrite <- rows_eq in Iq. now apply filter_In in Iq. }
      rewrite K. cbn [bind]. now rewrite (style_bad _ X). }
    rewrite (each_all_fails _ _ KeyError); [reflexivity| |].
    - intros e _. destruct (in_dec string_dec e cool_estimators) as [K|K]; [left; destruct (estimator_ok e K Hk) as [s [E _]]; eauto|right; now apply B].
    - exists (r_estimator r). split; [apply (labels_distinct r_estimator); eauto|now apply B].
  Qed.
End Plot.
Lemma line_at_truth data t v l : (exists r, In r data /\ r_n r = 5000%Z /\ r_task r = t) -> (forall r, In r data -> r_n r = 5000%Z -> r_task r = t -> r_true r = Fin v) ->
  line_of data t l -> snd l = Fin v.
Proof.
  intros [r [I [N T]]] H [k [name [_ ->]]]. cbn [snd]. apply mean_same.
  - unfold truths_of. intros X. assert (Q : In (r_true r) []) by (rewrite <- X; apply in_map, filter_In; split; [exact I|]; rewrite N, T, String.eqb_refl; reflexivity). destruct Q.
  - unfold truths_of. apply Forall_forall. intros w W. apply in_map_iff in W as [q [<- Q]]. apply filter_In in Q as [Q K]. apply Bool.andb_true_iff in K as [K1 K2].
    apply Z.eqb_eq in K1. apply String.eqb_eq in K2. symmetry. now apply H.
Qed.
(** The assertions 51-53, and styles can be told apart. *)
Lemma cool_asserts : map fst ESTIMATOR_NAMES = cool_estimators /\ map fst ESTIMATOR_COLORS = cool_estimators /\ map fst ESTIMATOR_MARKERS = cool_estimators /\
  NoDup (map snd ESTIMATOR_NAMES) /\ NoDup (map snd ESTIMATOR_COLORS) /\ NoDup (map snd ESTIMATOR_MARKERS).
Proof.
  repeat (split; [reflexivity|]). assert (D : forall l : list string, nodup string_dec l = l -> NoDup l) by (intros l E; rewrite <- E; apply NoDup_nodup).
  repeat split; apply D; vm_compute; reflexivity.
Qed.

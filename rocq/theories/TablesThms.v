(** The tables of results ([TablesModel]). *)
From Coq Require Import String Permutation Sorted.
From Verif Require Import Base BaseLemmas UtilsModel GaussianModel BenchmarkModel BenchmarkSpec BenchmarkThms TablesModel TablesSpec TablesProofs.
Open Scope R_scope.
Local Notation length := List.length.

(** ** Convergence *)
Lemma same_run_seeds data r : filter (same_run r) data = seeds data (r_estimator r) (r_task r) (r_n r).
Proof.
  unfold seeds, runs. induction data as [|a data IH]; [reflexivity|]. cbn [filter]. unfold same_run at 1.
  rewrite (String.eqb_sym (r_estimator r)), (String.eqb_sym (r_task r)), (Z.eqb_sym (r_n r)).
  destruct (String.eqb (r_estimator a) (r_estimator r)); cbn [andb]; [|exact IH].
  destruct (String.eqb (r_task a) (r_task r)); cbn [andb]; [|exact IH]. cbn [filter]. destruct (Z.eqb (r_n a) (r_n r)); [now f_equal|exact IH].
Qed.
Lemma converged_good data r : converged data r = true <-> good data r.
Proof.
  unfold converged, good. rewrite same_run_seeds. set (l := map r_estimate _). assert (M := max_spec l).
  assert (K : fl_ltb (fl_scale (1 / 10) (pd_max l)) (r_estimate r) = true <->
    match pd_max l with Fin v => fl_ltb (Fin (v / 10)) (r_estimate r) = true | PInf => False | NInf => r_estimate r <> NaN /\ r_estimate r <> NInf | NaN => False end).
  { destruct (pd_max l) as [v| | |]; cbn [fl_scale fl_mul].
    - replace (1 / 10 * v) with (v / 10) by lra. reflexivity.
    - destruct (r_estimate r); cbn; split; try discriminate; tauto.
    - destruct (r_estimate r); cbn; split; try discriminate; try tauto; intros; split; discriminate.
    - destruct (r_estimate r); cbn; split; try discriminate; tauto. }
  rewrite K. split; [eauto|]. intros (m & L & H). now rewrite (largest_unique _ _ _ M L).
Qed.

Lemma in_seeds data r e t n : In r (seeds data e t n) <-> In r data /\ r_estimator r = e /\ r_task r = t /\ r_n r = n.
Proof.
  unfold seeds, runs. rewrite !filter_In, andb_true_iff, !String.eqb_eq, Z.eqb_eq. tauto.
Qed.
Lemma in_runs data r e t : In r (runs data e t) <-> In r data /\ r_estimator r = e /\ r_task r = t.
Proof. unfold runs. rewrite filter_In, andb_true_iff, !String.eqb_eq. tauto. Qed.

(** The best seed converged if its estimate is positive (and finite). *)
Lemma best_converges data r v : r_estimate r = Fin v -> 0 < v ->
  (forall r', In r' data -> r_estimator r' = r_estimator r -> r_task r' = r_task r -> r_n r' = r_n r -> fl_ltb (r_estimate r) (r_estimate r') = false) ->
  In r data -> good data r.
Proof.
  intros E P M I. exists (Fin v). split.
  - right. split; [discriminate|]. split; [rewrite <- E; apply in_map, in_seeds; auto|].
    intros x Hx. apply in_map_iff in Hx as (r' & <- & Hr). apply in_seeds in Hr as (A & B & C & D). rewrite <- E. now apply M.
  - rewrite E. cbn. destruct (Rlt_dec (v / 10) v); [reflexivity|exfalso; lra].
Qed.
(** If no estimate of the seeds is positive, none converged. *)
Lemma none_converges data r : In r data -> (forall r', In r' data -> r_estimator r' = r_estimator r -> r_task r' = r_task r -> r_n r' = r_n r ->
    fl_ltb (Fin 0) (r_estimate r') = false) -> ~ good data r.
Proof.
  intros I N (m & L & H). destruct L as [[-> _]|(Nm & Im & Lm)]; [exact H|].
  apply in_map_iff in Im as (r' & <- & Hr). apply in_seeds in Hr as (A & B & C & D). assert (K := N r' A B C D).
  assert (Lr := Lm (r_estimate r) ltac:(apply in_map, in_seeds; auto)).
  destruct (r_estimate r') as [v| | |]; cbn in K, H; try congruence; try tauto.
  - destruct (Rlt_dec 0 v); [congruence|]. destruct (r_estimate r) as [w| | |]; cbn in *; try congruence.
    destruct (Rlt_dec v w); [congruence|]. destruct (Rlt_dec (v / 10) w); [lra|congruence].
  - destruct (r_estimate r); cbn in *; try congruence; intuition congruence.
Qed.

(** ** create_benchmark_table *)
Section Benchmark.
  Variables (results : list row) (converged_only : bool).
  Let kept := if converged_only then filter (converged results) results else results.
  Let means := map (fun g => (fst g, pd_mean (map r_estimate (snd g)), pd_mean (map log_relative_error (snd g))))
                   (group (fun r => (r_estimator r, r_task r)) kept).
  Let truth := map (fun r => (("True MI"%string, r_task r), r_true r, Fin 0)) (first_of_each [] results).
  Let d1 := map (fun x : (string * string) * fl * fl => (fst (fst x), snd (fst x))) (means ++ truth)%list.
  Let d2 := map (fun x : (string * string) * fl * fl => (fst (fst x), snd x)) (means ++ truth)%list.

  Lemma kept_in r : In r kept <-> In r results /\ (converged_only = true -> good results r).
  Proof.
    unfold kept. destruct converged_only.
    - rewrite filter_In, converged_good. tauto.
    - split; [intros H; split; [exact H|discriminate]|tauto].
  Qed.

  Lemma first_in seen data t : In t (map r_task (first_of_each seen data)) <-> In t (map r_task data) /\ ~ In t seen.
  Proof.
    revert seen. induction data as [|r data IH]; intros seen; cbn [first_of_each map]; [cbn; tauto|].
    destruct (in_dec string_dec (r_task r) seen) as [H|H]; cbn [map In]; rewrite IH; cbn [In].
    - split; [tauto|]. intros [[<-|A] B]; [contradiction|tauto].
    - split; [intros [<-|[A B]]; [auto|tauto]|]. intros [[<-|A] B]; [auto|]. destruct (string_dec (r_task r) t); [auto|tauto].
  Qed.
  Lemma first_nodup seen data : NoDup (map r_task (first_of_each seen data)).
  Proof.
    revert seen. induction data as [|r data IH]; intros seen; cbn [first_of_each map]; [constructor|].
    destruct (in_dec string_dec (r_task r) seen); [apply IH|]. cbn [map]. constructor; [|apply IH]. rewrite first_in. cbn. tauto.
  Qed.
  Lemma first_row seen data r : In r (first_of_each seen data) ->
    exists before after, data = (before ++ r :: after)%list /\ ~ In (r_task r) (map r_task before).
  Proof.
    revert seen. induction data as [|a data IH]; intros seen; cbn [first_of_each]; [intros []|].
    assert (Tl : forall s, In r (first_of_each s data) -> In (r_task a) s -> exists before after, a :: data = (before ++ r :: after)%list /\ ~ In (r_task r) (map r_task before)).
    { intros s H Ha. assert (F := proj1 (first_in s data (r_task r)) (in_map r_task _ _ H)).
      destruct (IH s H) as (b & c & -> & N). exists (a :: b), c. split; [reflexivity|]. cbn. intros [E|E]; [|auto]. rewrite E in Ha. tauto. }
    destruct (in_dec string_dec (r_task a) seen) as [Hs|Hs]; [eauto|]. intros [<-|H].
    - exists [], data. split; [reflexivity|auto].
    - eapply Tl; [exact H|now left].
  Qed.

  Lemma keys1 : map fst d1 = (map fst (group (fun r => (r_estimator r, r_task r)) kept) ++ map (fun t => ("True MI"%string, t)) (map r_task (first_of_each [] results)))%list.
  Proof. unfold d1, means, truth. rewrite map_map, map_app, !map_map. reflexivity. Qed.
  Lemma keys2 : map fst d2 = map fst d1.
  Proof. unfold d1, d2. now rewrite !map_map. Qed.
  Lemma key_in e t : In (e, t) (map fst d1) <-> (exists r, In r kept /\ r_estimator r = e /\ r_task r = t) \/ (e = "True MI"%string /\ In t (map r_task results)).
  Proof.
    rewrite keys1, in_app_iff.
    assert (G : In (e, t) (map fst (group (fun r => (r_estimator r, r_task r)) kept)) <-> exists r, In r kept /\ r_estimator r = e /\ r_task r = t).
    { split.
      - intros H. apply (Permutation_in _ (group_keys _ _)) in H. apply nodup_In, in_map_iff in H as (r & E & H). injection E as <- <-. eauto.
      - intros (r & H & <- & <-). apply (Permutation_in _ (Permutation_sym (group_keys _ _))), nodup_In, in_map_iff. eauto. }
    rewrite G. rewrite in_map_iff. split; (intros [H|H]; [now left|right]).
    - destruct H as (x & E & H). injection E as <- <-. split; [reflexivity|]. now apply first_in in H.
    - destruct H as [-> H]. exists t. split; [reflexivity|]. apply first_in. cbn. tauto.
  Qed.
  Lemma keys_distinct : NoDup (map fst d1) <-> forall r, In r kept -> r_estimator r <> "True MI"%string.
  Proof.
    rewrite keys1. set (a := map fst (group _ _)). set (b := map _ (map r_task _)).
    assert (Na : NoDup a) by apply group_nodup.
    assert (Nb : NoDup b) by (apply FinFun.Injective_map_NoDup; [intros x y E; now injection E|apply first_nodup]).
    split.
    - intros N r H E.
      assert (Ia : In ("True MI"%string, r_task r) a).
      { apply (Permutation_in _ (Permutation_sym (group_keys _ _))), nodup_In, in_map_iff. exists r. now rewrite E. }
      assert (Ib : In ("True MI"%string, r_task r) b).
      { apply in_map, first_in. split; [|auto]. apply in_map. now apply kept_in in H. }
      clearbody a b. clear - N Ia Ib. induction a as [|x a IH]; [destruct Ia|]. cbn in N. inversion N as [|? ? A B]; subst. destruct Ia as [->|Ia]; [|auto].
      apply A, in_or_app. now right.
    - intros H. assert (D : forall x, In x a -> ~ In x b).
      { intros x Ha Hb. apply in_map_iff in Hb as (t & <- & _). apply (Permutation_in _ (group_keys _ _)), nodup_In, in_map_iff in Ha as (r & E & Hr).
        injection E as E _. now apply (H r). }
      clearbody a b. clear H. induction Na as [|x a Nx Na IH]; cbn; [exact Nb|]. constructor.
      + rewrite in_app_iff. intros [H|H]; [auto|]. apply (D x); cbn; auto.
      + apply IH. intros y Hy. apply D. now right.
  Qed.

  Lemma benchmark_eq n_samples : create_benchmark_table results n_samples converged_only =
    do t <- pivot d1; do u <- pivot d2; Ok (t, u).
  Proof. reflexivity. Qed.
  Lemma benchmark_ok n_samples t u : create_benchmark_table results n_samples converged_only = Ok (t, u) <->
    (forall r, In r kept -> r_estimator r <> "True MI"%string) /\ t = pivoted d1 /\ u = pivoted d2.
  Proof.
    rewrite benchmark_eq, <- keys_distinct. split.
    - destruct (pivot d1) as [t'|] eqn:E1; [|discriminate]. destruct (pivot d2) as [u'|] eqn:E2; [|discriminate].
      cbn [bind]. intros H. injection H as <- <-. apply pivot_ok in E1, E2. tauto.
    - intros (N & -> & ->). rewrite (proj2 (pivot_ok d1 _) (conj N eq_refl)). rewrite <- keys2 in N.
      rewrite (proj2 (pivot_ok d2 _) (conj N eq_refl)). reflexivity.
  Qed.
  Lemma benchmark_total n_samples : (exists t u, create_benchmark_table results n_samples converged_only = Ok (t, u)) \/
    (create_benchmark_table results n_samples converged_only = Err ValueError /\
     exists r, In r results /\ (converged_only = true -> good results r) /\ r_estimator r = "True MI"%string).
  Proof.
    destruct (in_dec string_dec "True MI"%string (map r_estimator kept)) as [H|H].
    - right. apply in_map_iff in H as (r & E & H). split.
      + rewrite benchmark_eq. assert (~ NoDup (map fst d1)) as N by (rewrite keys_distinct; intros K; now apply (K r)).
        now rewrite (proj2 (pivot_err d1) N).
      + apply kept_in in H. exists r. tauto.
    - left. do 2 eexists. apply benchmark_ok. split; [|split; reflexivity]. intros r Hr E. apply H, in_map_iff. eauto.
  Qed.

  Lemma index_in (d : long) t : In t (map (fun x => snd (fst x)) d) <-> exists e, In (e, t) (map fst d).
  Proof.
    rewrite in_map_iff. split.
    - intros ([[e t'] v] & <- & H). exists e. apply in_map_iff. exists ((e, t'), v). auto.
    - intros (e & H). apply in_map_iff in H as ([k v] & E & H). cbn in E. subst. exists ((e, t), v). auto.
  Qed.
  Lemma column_in (d : long) e : In e (map (fun x => fst (fst x)) d) <-> exists t, In (e, t) (map fst d).
  Proof.
    rewrite in_map_iff. split.
    - intros ([[e' t] v] & <- & H). exists t. apply in_map_iff. exists ((e', t), v). auto.
    - intros (t & H). apply in_map_iff in H as ([k v] & E & H). cbn in E. subst. exists ((e, t), v). auto.
  Qed.
  Lemma benchmark_labels d : map fst d = map fst d1 ->
    (forall t, In t (tb_index (pivoted d)) <-> exists r, In r results /\ r_task r = t) /\
    (forall e, In e (tb_columns (pivoted d)) <-> (exists r, In r results /\ (converged_only = true -> good results r) /\ r_estimator r = e) \/ (e = "True MI"%string /\ results <> [])).
  Proof.
    intros K. cbn [tb_index tb_columns pivoted]. split; intros z; rewrite labels_in.
    - rewrite index_in, K. split.
      + intros (e & H). apply key_in in H as [(r & H & _ & <-)|[_ H]]; [apply kept_in in H as [H _]; eauto|]. apply in_map_iff in H as (r & <- & H). eauto.
      + intros (r & H & <-). exists "True MI"%string. apply key_in. right. split; [reflexivity|now apply in_map].
    - rewrite column_in, K. split.
      + intros (t & H). apply key_in in H as [(r & H & <- & _)|[-> H]]; [left; apply kept_in in H as [A B]; eauto|right]. split; [reflexivity|].
        intros E. rewrite E in H. destruct H.
      + intros [(r & A & B & <-)|[-> H]].
        * exists (r_task r). apply key_in. left. exists r. rewrite kept_in. auto.
        * assert (X : exists r, In r results) by (clear - H; destruct results as [|r rs]; [contradiction|exists r; now left]).
          destruct X as (r & X). exists (r_task r). apply key_in. right. split; [reflexivity|]. now apply in_map.
  Qed.
  Lemma kept_runs e t : runs kept e t = filter (fun r => if converged_only then converged results r else true) (runs results e t).
  Proof.
    unfold kept, runs. destruct converged_only.
    - induction results as [|r l IH] at 2 4; [reflexivity|]. cbn [filter]. destruct (converged results r) eqn:C; cbn [filter];
        destruct (String.eqb (r_estimator r) e && String.eqb (r_task r) t)%bool; cbn [filter]; rewrite ?C, IH; reflexivity.
    - symmetry. induction (filter _ results) as [|r l IH]; [reflexivity|]. cbn. now rewrite IH.
  Qed.
  Lemma lookup_mean (f : (string * string) * fl * fl -> fl) (g : row -> fl) e t : NoDup (map fst d1) -> e <> "True MI"%string ->
    (forall k a b, f (k, a, b) = f (k, a, b)) ->
    (forall k rows, f (k, pd_mean (map r_estimate rows), pd_mean (map log_relative_error rows)) = pd_mean (map g rows)) ->
    lookup (map (fun x => (fst (fst x), f x)) (means ++ truth)) e t = pd_mean (map g (runs kept e t)).
  Proof.
    intros N Ne _ Hf. set (d := map _ _). assert (K : map fst d = map fst d1) by (unfold d, d1; now rewrite !map_map).
    destruct (runs kept e t) as [|r rs] eqn:E.
    - apply lookup_out. rewrite K, key_in. intros [(r & H & He & Ht)|[H _]]; [|contradiction].
      assert (In r (runs kept e t)) as X by (apply in_runs; auto). rewrite E in X. destruct X.
    - apply lookup_in; [now rewrite K|]. apply in_map_iff. exists ((e, t), pd_mean (map r_estimate (runs kept e t)), pd_mean (map log_relative_error (runs kept e t))).
      split; [cbn [fst]; rewrite Hf, E; reflexivity|]. apply in_or_app. left. unfold means. apply in_map_iff. exists ((e, t), runs kept e t). split; [reflexivity|].
      apply group_in. split; [|now rewrite group_rows].
      assert (X : In r (runs kept e t)) by (rewrite E; now left). apply in_runs in X as (X & <- & <-). apply in_map_iff. eauto.
  Qed.
  Lemma lookup_truth (f : (string * string) * fl * fl -> fl) t : NoDup (map fst d1) -> In t (map r_task results) ->
    exists before r after, results = (before ++ r :: after)%list /\ r_task r = t /\ ~ In t (map r_task before) /\
      lookup (map (fun x => (fst (fst x), f x)) (means ++ truth)) "True MI" t = f (("True MI"%string, t), r_true r, Fin 0).
  Proof.
    intros N H. assert (F : In t (map r_task (first_of_each [] results))) by (apply first_in; auto).
    apply in_map_iff in F as (r & <- & F). destruct (first_row _ _ _ F) as (b & a & E & Nb). exists b, r, a. split; [exact E|]. split; [reflexivity|]. split; [exact Nb|].
    set (d := map _ _). assert (K : map fst d = map fst d1) by (unfold d, d1; now rewrite !map_map).
    apply lookup_in; [now rewrite K|]. apply in_map_iff. eexists. split; [|apply in_or_app; right; apply in_map_iff; exists r; split; [reflexivity|exact F]]. reflexivity.
  Qed.
End Benchmark.

Lemma keeping_filter {A} (P : A -> Prop) (f : A -> bool) l : (forall x, f x = true <-> P x) -> keeping P l (filter f l).
Proof.
  intros H. induction l as [|x l IH]; cbn; [constructor|]. destruct (f x) eqn:E; constructor; auto.
  - now apply H.
  - rewrite <- H. congruence.
Qed.
Lemma keeping_unique {A} (P : A -> Prop) l s s' : keeping P l s -> keeping P l s' -> s = s'.
Proof.
  intros H. revert s'. induction H; intros s' K; inversion K; subst; try contradiction; [reflexivity|f_equal; auto|auto].
Qed.
Lemma shown_keeping (co : bool) results l : keeping (counted co results) l (filter (fun r => if co then converged results r else true) l).
Proof.
  apply keeping_filter. intros r. unfold counted. destruct co.
  - rewrite converged_good. tauto.
  - split; [discriminate|reflexivity].
Qed.

Lemma benchmark_cells results n_samples co t u : create_benchmark_table results n_samples co = Ok (t, u) ->
  (forall task e v, e <> "True MI"%string -> cell t task e v ->
     exists s, keeping (counted co results) (runs results e task) s /\ mean_of (map r_estimate s) v) /\
  (forall task e v, e <> "True MI"%string -> cell u task e v ->
     exists s, keeping (counted co results) (runs results e task) s /\ mean_of (map log_relative_error s) v) /\
  (forall task v, cell t task "True MI" v -> exists before r after, results = (before ++ r :: after)%list /\ r_task r = task /\ ~ In task (map r_task before) /\ v = r_true r) /\
  (forall task v, cell u task "True MI" v -> v = Fin 0).
Proof.
  intros H. apply benchmark_ok in H as (N & -> & ->). assert (D := proj2 (keys_distinct results co) N).
  match goal with |- context [pivoted (map (fun x => (fst (fst x), snd (fst x))) ?l)] => set (L := l) in * end.
  assert (T : forall (f : (string * string) * fl * fl -> fl) t, In t (map (fun x : (string * string) * fl => snd (fst x)) (map (fun x : (string * string) * fl * fl => (fst (fst x), f x)) L)) -> In t (map r_task results)).
  { intros f t H. apply index_in in H as (e & H).
    assert (K : In (e, t) (map fst (map (fun x : (string * string) * fl * fl => (fst (fst x), snd (fst x))) L))) by (rewrite map_map in *; exact H).
    apply (key_in results co) in K as [(r & K & _ & <-)|[_ K]]; [|exact K]. apply in_map. now apply (kept_in results co) in K. }
  split; [|split; [|split]].
  - intros task e v Ne C. apply pivot_cell in C as (_ & _ & ->).
    assert (K := lookup_mean results co (fun x => snd (fst x)) r_estimate e task D Ne (fun _ _ _ => eq_refl) (fun _ _ => eq_refl)).
    exists (filter (fun r => if co then converged results r else true) (runs results e task)). split; [apply shown_keeping|].
    rewrite <- kept_runs. unfold L. rewrite K. apply mean_spec.
  - intros task e v Ne C. apply pivot_cell in C as (_ & _ & ->).
    assert (K := lookup_mean results co (fun x => snd x) log_relative_error e task D Ne (fun _ _ _ => eq_refl) (fun _ _ => eq_refl)).
    exists (filter (fun r => if co then converged results r else true) (runs results e task)). split; [apply shown_keeping|].
    rewrite <- kept_runs. unfold L. rewrite K. apply mean_spec.
  - intros task v C. apply pivot_cell in C as (I & _ & ->).
    destruct (lookup_truth results co (fun x => snd (fst x)) task D (T _ _ I)) as (b & r & a & E & Er & Nb & K).
    exists b, r, a. unfold L. rewrite K. auto.
  - intros task v C. apply pivot_cell in C as (I & _ & ->).
    destruct (lookup_truth results co (fun x => snd x) task D (T _ _ I)) as (b & r & a & E & Er & Nb & K). unfold L. now rewrite K.
Qed.

Lemma benchmark_index results n_samples co t u : create_benchmark_table results n_samples co = Ok (t, u) ->
  forall x, x = t \/ x = u ->
  sorted_labels (tb_index x) /\ sorted_labels (tb_columns x) /\
  (forall task, In task (tb_index x) <-> exists r, In r results /\ r_task r = task) /\
  (forall e, In e (tb_columns x) <-> (exists r, In r results /\ counted co results r /\ r_estimator r = e) \/ (e = "True MI"%string /\ results <> [])) /\
  (forall task e, In task (tb_index x) -> In e (tb_columns x) -> exists v, cell x task e v).
Proof.
  intros H x Hx. apply benchmark_ok in H as (N & -> & ->).
  assert (P : exists d, x = pivoted d /\
     map fst d = map fst (map (fun x : (string * string) * fl * fl => (fst (fst x), snd (fst x)))
      (map (fun g => (fst g, pd_mean (map r_estimate (snd g)), pd_mean (map log_relative_error (snd g)))) (group (fun r => (r_estimator r, r_task r)) (if co then filter (converged results) results else results)) ++
      map (fun r => (("True MI"%string, r_task r), r_true r, Fin 0)) (first_of_each [] results))%list)).
  { destruct Hx as [->| ->]; eexists; (split; [reflexivity|]); [reflexivity|]. now rewrite !map_map. }
  destruct P as (d & -> & K). destruct (benchmark_labels results co d K) as [A B].
  split; [split; [apply labels_nodup|apply labels_sorted]|]. split; [split; [apply labels_nodup|apply labels_sorted]|].
  split; [exact A|]. split; [exact B|]. intros task e I J. exists (lookup d e task). apply pivot_cell. cbn [tb_index tb_columns pivoted] in I, J. rewrite labels_in in I, J. auto.
Qed.

Lemma benchmark_any_n results n m co : create_benchmark_table results n co = create_benchmark_table results m co.
Proof. reflexivity. Qed.
Lemma convergence_any_n results n m : create_convergence_table results n = create_convergence_table results m.
Proof. reflexivity. Qed.

(** ** create_convergence_table *)
Lemma conv_counts (f : row -> bool) : forall l : list row, (length (filter f l) + length (filter (fun r => negb (f r)) l) = length l)%nat.
Proof. induction l as [|r l IH]; [reflexivity|]. cbn [filter]. destruct (f r); cbn [negb length]; lia. Qed.
Lemma convergence_table results n_samples : exists t, create_convergence_table results n_samples = Ok t /\
  sorted_labels (tb_index t) /\ sorted_labels (tb_columns t) /\
  (forall task, In task (tb_index t) <-> exists r, In r results /\ r_task r = task) /\
  (forall e, In e (tb_columns t) <-> exists r, In r results /\ r_estimator r = e) /\
  (forall task e, In task (tb_index t) -> In e (tb_columns t) -> exists v, cell t task e v) /\
  (forall task e v, cell t task e v -> (runs results e task = [] /\ v = NaN) \/
     exists s, keeping (good results) (runs results e task) s /\ runs results e task <> [] /\ v = Fin (INR (length s) / INR (length (runs results e task)))).
Proof.
  set (key := fun r => (r_estimator r, r_task r)).
  set (d := map (fun x => match x with (k, yes, no) => (k, np_divide (Fin (INR yes)) (Fin (INR (yes + no)))) end)
     (map (fun g => (fst g, length (filter (converged results) (snd g)), length (filter (fun r => negb (converged results r)) (snd g)))) (group key results))).
  assert (K : map fst d = map fst (group key results)) by (unfold d; now rewrite !map_map).
  assert (N : NoDup (map fst d)) by (rewrite K; apply group_nodup).
  assert (I : forall e t, In (e, t) (map fst d) <-> exists r, In r results /\ r_estimator r = e /\ r_task r = t).
  { intros e t. rewrite K. split.
    - intros H. apply (Permutation_in _ (group_keys _ _)), nodup_In, in_map_iff in H as (r & E & H). injection E as <- <-. eauto.
    - intros (r & H & <- & <-). apply (Permutation_in _ (Permutation_sym (group_keys _ _))), nodup_In, in_map_iff. exists r. auto. }
  exists (pivoted d). split; [apply pivot_ok; auto|].
  split; [split; [apply labels_nodup|apply labels_sorted]|]. split; [split; [apply labels_nodup|apply labels_sorted]|].
  cbn [tb_index tb_columns pivoted].
  split; [intros t; rewrite labels_in, index_in; split; [intros (e & H); apply I in H as (r & H & _ & <-); eauto|intros (r & H & <-); exists (r_estimator r); apply I; eauto]|].
  split; [intros e; rewrite labels_in, column_in; split; [intros (t & H); apply I in H as (r & H & <- & _); eauto|intros (r & H & <-); exists (r_task r); apply I; eauto]|].
  split; [intros t e A B; exists (lookup d e t); apply pivot_cell; rewrite labels_in in A, B; auto|].
  intros t e v C. apply pivot_cell in C as (_ & _ & ->). destruct (runs results e t) as [|r rs] eqn:E.
  - left. split; [reflexivity|]. apply lookup_out. rewrite I. intros (r & H & He & Ht).
    assert (X : In r (runs results e t)) by (apply in_runs; auto). rewrite E in X. destruct X.
  - right. exists (filter (converged results) (r :: rs)). split; [apply keeping_filter, converged_good|]. split; [discriminate|].
    apply lookup_in; [exact N|]. unfold d. apply in_map_iff. exists ((e, t), length (filter (converged results) (r :: rs)), length (filter (fun r => negb (converged results r)) (r :: rs))).
    split.
    + rewrite conv_counts. cbn [np_divide]. destruct (Reqb _ 0) eqn:Z; [apply Reqb_true in Z; exfalso; revert Z; apply not_0_INR; discriminate|reflexivity].
    + apply in_map_iff. exists ((e, t), r :: rs). split; [reflexivity|]. rewrite <- E. apply group_in. split; [|now rewrite <- group_rows].
      assert (X : In r (runs results e t)) by (rewrite E; now left). apply in_runs in X as (X & <- & <-). apply in_map_iff. exists r. auto.
Qed.

(** ** read_results *)
Lemma get_del (d : sdict py) key k : sdict_get (del_key d key) k = if String.eqb k key then None else sdict_get d k.
Proof.
  unfold del_key. induction d as [|[k' v] d IH]; cbn; [now destruct (String.eqb k key)|].
  destruct (String.eqb_spec k' key) as [->|N]; cbn.
  - rewrite IH. now destruct (String.eqb k key).
  - rewrite IH. destruct (String.eqb_spec k k') as [->|]; [|reflexivity]. destruct (String.eqb_spec k' key); [contradiction|reflexivity].
Qed.
Lemma unpack_ok key row out : unpack key row = Ok out -> exists d, sdict_get row key = Some (PDict d) /\ forall k : string, sdict_get out k = unpacked key (sdict_get row) d k.
Proof.
  unfold unpack, get_key. destruct (sdict_get row key) as [v|] eqn:E; [|discriminate]. cbn [bind]. destruct v as [| | | | | | |d| | | | |]; try discriminate.
  cbn [update_row bind]. intros H. injection H as <-. exists d. split; [reflexivity|]. intros k. rewrite get_del. unfold unpacked.
  destruct (String.eqb k key); [reflexivity|]. apply merge_updated.
Qed.
Lemma unpack_if_ok (b : bool) key row out : (if b then unpack key row else Ok row) = Ok out -> unpacked_if b key (sdict_get row) (sdict_get out).
Proof. destruct b; [apply unpack_ok|]. intros H. injection H as <-. intros k. reflexivity. Qed.
Lemma read_row_ok yaml p a row out : read_row yaml p a row = Ok out ->
  exists ctp cai tp ai v, sdict_get row "task_params" = Some ctp /\ yaml ctp = Ok tp /\
    sdict_get row "additional_information" = Some cai /\ yaml cai = Ok ai /\
    unpacked_if p "task_params" (loaded row tp ai) v /\ unpacked_if a "additional_information" v (sdict_get out).
Proof.
  unfold read_row. unfold get_key at 1. destruct (sdict_get row "task_params") as [ctp|] eqn:E1; [|discriminate]. cbn [bind].
  destruct (yaml ctp) as [tp|] eqn:E2; [|discriminate]. cbn [bind]. unfold get_key. rewrite sdict_get_set_neq by discriminate.
  destruct (sdict_get row "additional_information") as [cai|] eqn:E3; [|discriminate]. cbn [bind]. destruct (yaml cai) as [ai|] eqn:E4; [|discriminate]. cbn [bind].
  set (row1 := sdict_set (sdict_set _ _ _) _ _). intros H.
  assert (L : forall k, sdict_get row1 k = loaded row tp ai k).
  { intros k. unfold row1, loaded. destruct (String.eqb_spec k "additional_information") as [->|N1]; [now rewrite sdict_get_set_eq|].
    rewrite sdict_get_set_neq by congruence. destruct (String.eqb_spec k "task_params") as [->|N2]; [apply sdict_get_set_eq|]. now rewrite sdict_get_set_neq by congruence. }
  destruct (if p then unpack "task_params" row1 else Ok row1) as [row2|] eqn:E5; [|discriminate]. cbn [bind] in H.
  exists ctp, cai, tp, ai, (sdict_get row2). do 4 (split; [solve [auto]|]). split.
  - apply unpack_if_ok in E5. destruct p; cbn [unpacked_if] in *.
    + destruct E5 as (d & A & B). exists d. rewrite <- L. split; [exact A|]. intros k. rewrite B. unfold unpacked. now rewrite L.
    + intros k. rewrite E5. apply L.
  - now apply unpack_if_ok.
Qed.
Lemma read_row_default yaml row ctp cai tp ai : sdict_get row "task_params" = Some ctp -> yaml ctp = Ok tp ->
  sdict_get row "additional_information" = Some cai -> yaml cai = Ok ai ->
  ((exists out, read_row yaml true false row = Ok out) <-> exists d, tp = PDict d) /\ (read_row yaml true false row = Err TypeError <-> forall d, tp <> PDict d).
Proof.
  intros E1 E2 E3 E4. unfold read_row, get_key, unpack, get_key. rewrite E1. cbn [bind]. rewrite E2. cbn [bind]. rewrite sdict_get_set_neq by discriminate.
  rewrite E3. cbn [bind]. rewrite E4. cbn [bind]. rewrite sdict_get_set_neq by discriminate. rewrite sdict_get_set_eq. cbn [bind].
  destruct tp; cbn [update_row bind]; (split; [split; [intros [? H]; solve [discriminate|eauto]|intros [? H]; solve [discriminate|eauto]]|split; [intros; congruence|]]); try reflexivity.
  intros H. exfalso. eapply H. reflexivity.
Qed.
Lemma read_results_rows yaml p a rows out : read_results yaml p a rows = Ok out <-> Forall2 (fun r o => read_row yaml p a r = Ok o) rows out.
Proof.
  unfold read_results. revert out. induction rows as [|r rows IH]; intros out; cbn [map_rows].
  - split; [intros H; injection H as <-; constructor|intros H; inversion H; reflexivity].
  - destruct (read_row yaml p a r) as [o|] eqn:E; cbn [bind].
    + destruct (map_rows (read_row yaml p a) rows) as [os|]; cbn [bind].
      * split; [intros H; injection H as <-; constructor; [exact E|now apply IH]|]. intros H. inversion H; subst. apply IH in H4. congruence.
      * split; [discriminate|]. intros H. inversion H; subst. apply IH in H4. congruence.
    + split; [discriminate|]. intros H. inversion H; subst. congruence.
Qed.

(** ** The relative error *)
Lemma relative_error_log r e t : r_estimate r = Fin e -> r_true r = Fin t -> 0 < t ->
  (0 < e -> exists l, log_relative_error r = Fin l /\ e = t * Rpower 2 l) /\
  (e = 0 -> log_relative_error r = NInf) /\ (e < 0 -> log_relative_error r = NaN).
Proof.
  intros E T Ht. unfold log_relative_error, np_divide, np_log2, np_log, Rltb. rewrite E, T.
  assert (Q : Reqb t 0 = false) by (unfold Reqb; destruct (Req_EM_T t 0); [lra|reflexivity]). rewrite Q. clear Q.
  assert (I : 0 < / t) by now apply Rinv_0_lt_compat. change (e / t) with (e * / t).
  repeat split.
  - intros He. assert (P : 0 < e * / t) by now apply Rmult_lt_0_compat.
    destruct (Rlt_dec 0 (e * / t)); [|exfalso; lra]. eexists. split; [reflexivity|].
    unfold Rpower. replace (ln (e * / t) / ln 2 * ln 2) with (ln (e * / t)).
    + rewrite exp_ln by exact P. field. lra.
    + field. assert (ln 1 < ln 2) by (apply ln_increasing; lra). rewrite ln_1 in *. lra.
  - intros ->. rewrite Rmult_0_l. destruct (Rlt_dec 0 0); [exfalso; lra|]. unfold Reqb. destruct (Req_EM_T 0 0); [reflexivity|lra].
  - intros He. assert (P : e * / t < 0) by nra. destruct (Rlt_dec 0 (e * / t)); [exfalso; lra|].
    unfold Reqb. destruct (Req_EM_T (e * / t) 0); [exfalso; lra|reflexivity].
Qed.

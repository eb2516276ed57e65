(** Lemmas about [FiguresModel]. *)
From Coq Require Import String Permutation Sorted.
From Verif Require Import Base BaseLemmas UtilsModel GaussianModel BenchmarkModel BenchmarkSpec BenchmarkThms TablesModel TablesSpec TablesProofs TablesThms
  FiguresModel FiguresSpec.
Open Scope R_scope.
Local Notation length := List.length.

(** ** make_benchmark_table *)
Lemma find_label_in l x : In x l -> exists k, find_label l x = Some k /\ nth_error l k = Some x.
Proof.
  induction l as [|y l IH]; [intros []|]. intros H. cbn. destruct (String.eqb_spec y x) as [->|N]; [exists 0%nat; auto|].
  destruct H as [->|H]; [contradiction|]. destruct (IH H) as (k & -> & E). exists (S k). auto.
Qed.
Lemma find_label_out l x : ~ In x l -> find_label l x = None.
Proof.
  induction l as [|y l IH]; [reflexivity|]. intros H. cbn in *. destruct (String.eqb_spec y x) as [->|N]; [tauto|]. rewrite IH; tauto.
Qed.
Lemma loc_pivoted d task e : loc (pivoted d) task e = lookup d e task.
Proof.
  unfold loc. cbn [pivoted tb_index tb_columns tb_values].
  destruct (in_dec string_dec task (map (fun x => snd (fst x)) d)) as [It|Nt].
  - destruct (find_label_in (labels (map (fun x => snd (fst x)) d)) task) as (i & -> & Ei); [now apply labels_in|].
    destruct (in_dec string_dec e (map (fun x => fst (fst x)) d)) as [Ie|Ne].
    + destruct (find_label_in (labels (map (fun x => fst (fst x)) d)) e) as (j & -> & Ej); [now apply labels_in|].
      assert (E1 := map_nth_error (fun t => map (fun e0 => lookup d e0 t) (labels (map (fun x => fst (fst x)) d))) _ _ Ei).
      rewrite (nth_error_nth _ _ _ E1). assert (E2 := map_nth_error (fun e0 => lookup d e0 task) _ _ Ej). now rewrite (nth_error_nth _ _ _ E2).
    + rewrite find_label_out by now rewrite labels_in. symmetry. apply lookup_out. intros H. apply Ne, column_in. eauto.
  - rewrite find_label_out by now rewrite labels_in. symmetry. apply lookup_out. intros H. apply Nt, index_in. eauto.
Qed.

Lemma existsb_label x l : existsb (String.eqb x) l = true <-> In x l.
Proof.
  rewrite existsb_exists. split; [intros (y & H & E); apply String.eqb_eq in E; now subst|]. intros H. exists x. split; [exact H|apply String.eqb_refl].
Qed.
Lemma map_rows_ok {A B} (f : A -> result B) l out : map_rows f l = Ok out <-> Forall2 (fun a b => f a = Ok b) l out.
Proof.
  revert out. induction l as [|r rows IH]; intros out; cbn [map_rows].
  - split; [intros H; injection H as <-; constructor|intros H; inversion H; reflexivity].
  - destruct (f r) as [o|] eqn:E; cbn [bind].
    + destruct (map_rows f rows) as [os|]; cbn [bind].
      * split; [intros H; injection H as <-; constructor; [exact E|now apply IH]|]. intros H. inversion H; subst. apply IH in H4. congruence.
      * split; [discriminate|]. intros H. inversion H; subst. apply IH in H4. congruence.
    + split; [discriminate|]. intros H. inversion H; subst. congruence.
Qed.
Lemma map_rows_err {A B} (f : A -> result B) l e : map_rows f l = Err e -> exists a, In a l /\ f a = Err e.
Proof.
  induction l as [|a l IH]; [discriminate|]. cbn. destruct (f a) eqn:E; cbn.
  - destruct (map_rows f l) eqn:E'; [discriminate|]. cbn. intros H. injection H as ->. destruct (IH eq_refl) as (x & I & X). exists x. auto.
  - intros H. injection H as ->. exists a. auto.
Qed.
Lemma map_rows_total {A B} (f : A -> result B) l : (forall a, In a l -> exists b, f a = Ok b) -> exists out, map_rows f l = Ok out.
Proof.
  induction l as [|a l IH]; intros H; cbn; [eauto|]. destruct (H a) as (b & ->); [now left|]. cbn. destruct IH as (bs & ->); [intros; apply H; now right|]. cbn. eauto.
Qed.
Lemma get_name_ok d k s : get_name d k = Ok s <-> sdict_get d k = Some s.
Proof. unfold get_name. destruct (sdict_get d k); split; congruence. Qed.
Lemma get_name_err d k e : get_name d k = Err e -> e = KeyError /\ sdict_get d k = None.
Proof. unfold get_name. destruct (sdict_get d k); intros; split; congruence. Qed.
Lemma get_in {V} (d : sdict V) k : In k (map fst d) -> exists v, sdict_get d k = Some v.
Proof. induction d as [|[k' v] d IH]; cbn; [tauto|]. destruct (String.eqb_spec k k'); [eauto|]. intros [H|H]; [congruence|auto]. Qed.
Lemma get_mapped {V W} (f : V -> W) (d : sdict V) k : sdict_get (map (fun x => (fst x, f (snd x))) d) k = option_map f (sdict_get d k).
Proof. induction d as [|[k' v] d IH]; cbn; [reflexivity|]. now destruct (String.eqb k k'). Qed.

Section Make.
  Variables (d : long) (value : string -> string -> fl -> Prop).
  Hypothesis same : forall e k v, In ((e, k), v) d <-> value e k v.

  Lemma has_estimator e : existsb (String.eqb e) (map (fun x => fst (fst x)) d) = true <-> exists k v, value e k v.
  Proof.
    rewrite existsb_label, in_map_iff. split.
    - intros ([[e' k] v] & <- & H). exists k, v. now apply same.
    - intros (k & v & H). exists ((e, k), v). split; [reflexivity|now apply same].
  Qed.
  Lemma has_task k : existsb (String.eqb k) (map (fun x => snd (fst x)) d) = true <-> exists e v, value e k v.
  Proof.
    rewrite existsb_label, in_map_iff. split.
    - intros ([[e k'] v] & <- & H). exists e, v. now apply same.
    - intros (e & v & H). exists ((e, k), v). split; [reflexivity|now apply same].
  Qed.
  Lemma value_lookup e k : NoDup (map fst d) -> value e k (lookup d e k) \/ (lookup d e k = NaN /\ forall w, ~ value e k w).
  Proof.
    intros N. destruct (in_dec pair_dec (e, k) (map fst d)) as [I|I].
    - apply in_map_iff in I as ([p v] & E & I). cbn in E. subst. left. rewrite (lookup_in _ _ _ _ N I). now apply same.
    - right. split; [now apply lookup_out|]. intros w H. apply I, in_map_iff. exists ((e, k), w). split; [reflexivity|now apply same].
  Qed.
  Variables (estimators : sdict bool) (tasks : sdict (string * fl)) (names : sdict string).
  Lemma make_shows t : make_benchmark_table d estimators tasks names = Ok t -> shows value estimators tasks names t.
  Proof.
    unfold make_benchmark_table. set (ts := filter _ (map fst tasks)). set (es := filter _ (map fst estimators)).
    destruct (pivot d) as [p|] eqn:P; [|discriminate]. apply pivot_ok in P as [N ->]. cbn [bind].
    destruct (map_rows _ ts) as [index|] eqn:E1; [|discriminate]. cbn [bind]. destruct (map_rows _ es) as [columns|] eqn:E2; [|discriminate]. cbn [bind].
    intros H. injection H as <-. exists es, ts. split; [apply keeping_filter, has_estimator|]. split; [apply keeping_filter, has_task|].
    cbn [tb_columns tb_index tb_values]. apply map_rows_ok in E1, E2. split; [|split].
    - clear - E2. induction E2 as [|? ? ? ? H]; constructor; auto. now apply get_name_ok.
    - clear - E1. induction E1 as [|? ? ? ? H]; constructor; auto. apply get_name_ok in H. rewrite (get_mapped fst) in H.
      destruct (sdict_get tasks x) as [[n mi]|]; [|discriminate]. injection H as <-. eauto.
    - clear - same N. induction ts as [|k ts IH]; cbn; constructor; auto. clear IH. induction es as [|e es IH]; cbn; constructor; auto.
      rewrite loc_pivoted. now apply value_lookup.
  Qed.
  Lemma make_total : NoDup (map fst d) ->
    (exists t, make_benchmark_table d estimators tasks names = Ok t) \/
    (make_benchmark_table d estimators tasks names = Err KeyError /\ unnamed value estimators names).
  Proof.
    intros N. unfold make_benchmark_table. rewrite (proj2 (pivot_ok d _) (conj N eq_refl)). cbn [bind].
    destruct (map_rows_total (get_name (map (fun x => (fst x, fst (snd x))) tasks)) (filter (fun i => existsb (String.eqb i) (map (fun x => snd (fst x)) d)) (map fst tasks))) as (ix & ->).
    { intros k H. apply filter_In in H as [H _]. destruct (get_in _ _ H) as (v & E). exists (fst v). apply get_name_ok. now rewrite (get_mapped fst), E. }
    cbn [bind]. destruct (map_rows _ _) as [cs|x] eqn:E; cbn [bind]; [left; eauto|right].
    apply map_rows_err in E as (e & I & E). apply get_name_err in E as [-> E]. split; [reflexivity|].
    apply filter_In in I as [I H]. apply has_estimator in H as (k & v & H). apply in_map_iff in I as ([e' b] & <- & I). exists e', b, k, v. auto.
  Qed.
  Lemma make_named t : make_benchmark_table d estimators tasks names = Ok t -> ~ unnamed value estimators names.
  Proof.
    intros H (e & b & k & v & I & V & E). apply make_shows in H as (es & ts & K & _ & C & _).
    assert (X : In e es).
    { assert (J := in_map fst _ _ I). cbn in J. clear - K J V. induction K; cbn in *; [tauto| |].
      - destruct J as [->|J]; auto.
      - destruct J as [->|J]; auto. exfalso. eauto. }
    clear - C X E. induction C; [destruct X|]. destruct X as [->|X]; [congruence|auto].
  Qed.
  Lemma make_index_length t : make_benchmark_table d estimators tasks names = Ok t ->
    (length (tb_index t) = length tasks <-> forall k, In k (map fst tasks) -> exists e v, value e k v).
  Proof.
    intros H. apply make_shows in H as (es & ts & _ & K & _ & C & _).
    assert (L : length (tb_index t) = length ts) by (clear - C; induction C; cbn; congruence). rewrite L. clear - K.
    remember (map fst tasks) as l. replace (length tasks) with (length l) by (subst; apply map_length). clear Heql.
    assert (B : forall (P : string -> Prop) a b, keeping P a b -> (length b <= length a)%nat) by (intros P a b X; induction X; cbn; lia).
    induction K as [|x l s H K IH|x l s H K IH]; cbn.
    - tauto.
    - split.
      + intros E k [<-|I]; [exact H|]. apply IH; [lia|exact I].
      + intros E. f_equal. apply IH. auto.
    - assert (X := B _ _ _ K). split; [lia|]. intros E. exfalso. auto.
  Qed.
End Make.

(** ** Preprocessing *)
Definition prepared (estimators : sdict bool) (results : list row) (r : row) : prow :=
  let neural := match sdict_get estimators (r_estimator r) with Some b => b | None => false end in
  let m := pd_max (map r_estimate (filter (same_run r) results)) in
  let fail := (fl_ltb (r_estimate r) (Fin 0) || fl_ltb (r_estimate r) (fl_scale (1 / 10) m))%bool in
  {| p_row := r; p_neural := neural; p_fail := (neural && fail)%bool; p_error := np_ln (np_divide (r_estimate r) (r_true r)) |}.
Lemma preprocess_map estimators results : preprocess estimators results = map (prepared estimators results) results.
Proof. reflexivity. Qed.
Lemma prepared_neural estimators results r : p_neural (prepared estimators results r) = true <-> neural estimators (r_estimator r).
Proof. unfold prepared, neural. cbn. destruct (sdict_get _ _) as [[]|]; split; congruence. Qed.
Lemma prepared_fail estimators results r : p_fail (prepared estimators results r) = true <-> failed_run estimators results r.
Proof.
  unfold failed_run. rewrite <- (prepared_neural estimators results). cbn [prepared p_fail p_neural]. rewrite andb_true_iff, orb_true_iff.
  assert (K : fl_ltb (r_estimate r) (fl_scale (1 / 10) (pd_max (map r_estimate (filter (same_run r) results)))) = true <-> far_below results r); [|rewrite K; tauto].
  unfold far_below. rewrite same_run_seeds. set (l := map r_estimate _). assert (M := max_spec l).
  assert (Q : fl_ltb (r_estimate r) (fl_scale (1 / 10) (pd_max l)) = true <->
    match pd_max l with Fin v => fl_ltb (r_estimate r) (Fin (v / 10)) = true | PInf => r_estimate r <> NaN /\ r_estimate r <> PInf | NInf | NaN => False end).
  { destruct (pd_max l) as [v| | |]; cbn [fl_scale].
    - replace (1 / 10 * v) with (v / 10) by lra. reflexivity.
    - destruct (r_estimate r); cbn; split; try discriminate; try tauto; intros; split; discriminate.
    - destruct (r_estimate r); cbn; split; try discriminate; tauto.
    - destruct (r_estimate r); cbn; split; try discriminate; tauto. }
  rewrite Q. split; [eauto|]. intros (m & L & H). now rewrite (largest_unique _ _ _ M L).
Qed.
Lemma prepared_error estimators results r : log_error r (p_error (prepared estimators results r)).
Proof.
  intros a b Ha Hb Pb. cbn [prepared p_error]. rewrite Ha, Hb. cbn [np_divide].
  destruct (Reqb b 0) eqn:E; [apply Reqb_true in E; lra|]. cbn [np_ln]. unfold np_log.
  assert (P : 0 < / b) by now apply Rinv_0_lt_compat. unfold Rdiv.
  split; [|split]; intros H.
  - assert (0 < a * / b) by now apply Rmult_lt_0_compat. destruct (Rltb 0 (a * / b)) eqn:L; [reflexivity|]. apply Rltb_false in L. lra.
  - subst a. rewrite Rmult_0_l. destruct (Rltb 0 0) eqn:L; [apply Rltb_true in L; lra|]. destruct (Reqb 0 0) eqn:Z; [reflexivity|].
    exfalso. apply Bool.not_true_iff_false in Z. apply Z, Reqb_true. reflexivity.
  - assert (a * / b < 0) by (rewrite <- (Rmult_0_l (/ b)); now apply Rmult_lt_compat_r).
    destruct (Rltb 0 (a * / b)) eqn:L; [apply Rltb_true in L; lra|]. destruct (Reqb (a * / b) 0) eqn:Z; [apply Reqb_true in Z; lra|reflexivity].
Qed.

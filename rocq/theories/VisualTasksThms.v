(** The figures of the tasks. *)
From Coq Require Import String Lia.
From Verif Require Import Base BaseLemmas UtilsModel JaxModel SamplersModel GaussianModel TransformsModel BenchmarkModel BenchmarkSpec TasksModel TasksSpec TasksThms RulesModel FiguresProofs VisualTasksModel VisualTasksSpec.
Open Scope Z_scope.
Local Notation length := List.length.

Lemma select_ok {V} (all : sdict V) ids : NoDup ids -> incl ids (map fst all) -> forall acc, (forall i, In i ids -> ~ In i (map fst acc)) ->
  exists d, select all ids acc = Ok d /\ map fst d = (map fst acc ++ ids)%list /\ (forall i, In i ids -> sdict_get d i = sdict_get all i) /\
    (forall i, ~ In i ids -> sdict_get d i = sdict_get acc i).
Proof.
  intros N. induction N as [|i ids NI N IH]; intros I acc A.
  - exists acc. cbn. rewrite app_nil_r. repeat split; try reflexivity. intros i [].
  - destruct (get_in all i) as [v V0]; [apply I; now left|]. cbn [select]. unfold lookup. rewrite V0. cbn [bind].
    assert (K : map fst (sdict_set acc i v) = (map fst acc ++ [i])%list).
    { assert (A0 := A i (or_introl eq_refl)). clear -A0. induction acc as [|[k w] acc IH]; [reflexivity|]. cbn in *. destruct (String.eqb_spec i k) as [->|Q]; [tauto|]. cbn. f_equal. apply IH. tauto. }
    destruct (IH (fun j J => I j (or_intror J)) (sdict_set acc i v)) as [d [D1 [D2 [D3 D4]]]].
    { intros j J X. rewrite K in X. apply in_app_or in X as [X|[X|[]]]; [now apply (A j (or_intror J))|]. subst j. contradiction. }
    exists d. split; [exact D1|]. split; [rewrite D2, K, <- app_assoc; reflexivity|]. split.
    + intros j [<-|J]; [|now apply D3]. rewrite D4 by exact NI. rewrite sdict_get_set_eq. now rewrite V0.
    + intros j J. rewrite D4 by (intros X; apply J; now right). apply sdict_get_set_neq. intros ->. apply J. now left.
Qed.
Lemma ids_distinct : NoDup TASK_IDS.
Proof.
  assert (H : (if list_eq_dec string_dec (nodup string_dec TASK_IDS) TASK_IDS then true else false) = true) by (vm_compute; reflexivity).
  destruct (list_eq_dec string_dec (nodup string_dec TASK_IDS) TASK_IDS) as [E|]; [|discriminate]. rewrite <- E. apply NoDup_nodup.
Qed.
Lemma ids_published : incl TASK_IDS published_ids.
Proof.
  intros i I. unfold TASK_IDS in I. cbn [In] in I.
  repeat (destruct I as [<-|I]; [unfold published_ids; repeat (first [left; reflexivity|right])|]). destruct I.
Qed.
Lemma select_missing {V} (all : sdict V) ids i : In i ids -> sdict_get all i = None -> forall acc, select all ids acc = Err KeyError.
Proof.
  intros I M. induction ids as [|j ids IH]; [destruct I|]. intros acc. cbn [select]. unfold lookup. destruct I as [->|I].
  - now rewrite M.
  - destruct (sdict_get all j); [|reflexivity]. cbn [bind]. now apply IH.
Qed.

Lemma selected (J : prng) F D erf expm eigvals mvn psi log_gamma mvt : python_floats F ->
  forall h h' (all : sdict (task J)), benchmark_tasks F D erf expm eigvals mvn psi log_gamma mvt h = (h', Ok all) ->
  exists d, select all TASK_IDS [] = Ok d /\ map fst d = TASK_IDS /\
    forall i, In i TASK_IDS -> exists t, sdict_get d i = Some t /\ sdict_get all i = Some t /\ t_id t = i.
Proof.
  intros P h h' all B. destruct (dictionary_complete (J := J) F D erf expm eigvals mvn psi log_gamma mvt P h h' all B) as [h1 [l [_ [_ [L [N E]]]]]].
  assert (K : map fst all = published_ids) by (rewrite E, map_map; exact L).
  destruct (select_ok all TASK_IDS ids_distinct) with (acc := @nil (string * task J)) as [d [D1 [D2 [D3 _]]]].
  { rewrite K. exact ids_published. }
  { intros i _ []. }
  exists d. split; [exact D1|]. split; [exact D2|]. intros i I.
  destruct (get_in all i) as [t T]; [rewrite K; now apply ids_published|]. exists t. rewrite (D3 i I). split; [exact T|]. split; [exact T|].
  subst all. clear -T. induction l as [|u l IH]; [discriminate|]. cbn in T. destruct (String.eqb_spec i (t_id u)) as [->|Q]; [congruence|now apply IH].
Qed.

Lemma no_overlap dx dy : existsb (fun c => existsb (String.eqb c) (axis_names "Y" dy)) (axis_names "X" dx) = false.
Proof.
  apply Bool.not_true_is_false. intros H. apply existsb_exists in H as [c [Hc E]]. apply existsb_exists in E as [c' [Hc' E]]. apply String.eqb_eq in E. subst c'.
  unfold axis_names in *. apply in_map_iff in Hc as [i [<- _]]. apply in_map_iff in Hc' as [j [X _]]. cbn in X. discriminate X.
Qed.
Lemma frame_ok a names : Forall (fun row => length row = length names) a -> data_frame a names = Ok {| fr_columns := names; fr_rows := a |}.
Proof.
  intros H. unfold data_frame. replace (forallb (fun row => Nat.eqb (length row) (length names)) a) with true; [reflexivity|].
  symmetry. apply forallb_forall. intros row I. apply Nat.eqb_eq. rewrite Forall_forall in H. now apply H.
Qed.
Lemma frame_bad a names : Exists (fun row => length row <> length names) a -> data_frame a names = Err ValueError.
Proof.
  intros H. unfold data_frame. replace (forallb (fun row => Nat.eqb (length row) (length names)) a) with false; [reflexivity|].
  symmetry. apply Bool.not_true_is_false. intros X. rewrite forallb_forall in X. apply Exists_exists in H as [row [I N]]. apply N. now apply Nat.eqb_eq, X.
Qed.
Lemma axis_length letter dim : length (axis_names letter dim) = Z.to_nat dim.
Proof. unfold axis_names. now rewrite map_length, seq_length. Qed.
Lemma axis_nth letter dim i : (i < Z.to_nat dim)%nat -> nth_error (axis_names letter dim) i = Some (named letter (S i)).
Proof.
  intros H. unfold axis_names. rewrite nth_error_map. rewrite (nth_error_nth' _ 0%nat) by (rewrite seq_length; exact H). rewrite seq_nth by exact H. reflexivity.
Qed.

Lemma metadata_again {J} (t : task J) h h' m : metadata t h = (h', Ok m) -> forall h0, exists h1 m', metadata t h0 = (h1, Ok m') /\
  md_dim_x m' = md_dim_x m /\ md_dim_y m' = md_dim_y m /\ md_name m' = md_name m.
Proof.
  unfold metadata, pbind, lift, pret. destruct (dim_x (t_sampler t)); [|discriminate]. destruct (dim_y (t_sampler t)); [|discriminate].
  destruct (mutual_information (t_sampler t)) as [v|]; [|discriminate]. intros X h0. destruct (or_dict h (t_params t)). destruct (or_dict h0 (t_params t)).
  destruct (non_negative_float v); [|discriminate]. inversion X; subst. eexists _, _. split; [reflexivity|]. cbn. auto.
Qed.
Lemma pairwise {J} (t : task J) n seed h h0 m x y : metadata t h = (h0, Ok m) -> task_sample t n seed = Ok (x, y) ->
  Forall (fun row => length row = Z.to_nat (md_dim_x m)) x -> Forall (fun row => length row = Z.to_nat (md_dim_y m)) y ->
  exists h' f, plot_sampler_pairwise t n seed h = (h', Ok (md_name m, f)) /\ pairs_frame (Z.to_nat (md_dim_x m)) (Z.to_nat (md_dim_y m)) x y f.
Proof.
  intros M S X Y. unfold plot_sampler_pairwise, task_dim_x, task_dim_y, task_name, pbind, lift, pret. rewrite S. cbn [fst snd].
  destruct (metadata_again t h h0 m M h) as [h1 [m1 [M1 [A1 [B1 C1]]]]]. rewrite M1, A1.
  destruct (metadata_again t h h0 m M h1) as [h2 [m2 [M2 [A2 [B2 C2]]]]]. rewrite M2, B2.
  rewrite frame_ok by (rewrite axis_length; exact X). rewrite frame_ok by (rewrite axis_length; exact Y). unfold join. cbn [fr_columns fr_rows].
  rewrite no_overlap. destruct (metadata_again t h h0 m M h2) as [h3 [m3 [M3 [A3 [B3 C3]]]]]. rewrite M3, C3.
  eexists _, _. split; [reflexivity|]. unfold pairs_frame. cbn [fr_columns fr_rows]. repeat split.
  - now rewrite app_length, !axis_length.
  - intros i H. rewrite nth_error_app1 by (rewrite axis_length; exact H). now apply axis_nth.
  - intros i H. rewrite nth_error_app2 by (rewrite axis_length; lia). rewrite axis_length. replace (_ + i - _)%nat with i by lia. now apply axis_nth.
Qed.
Lemma visualised {J} (tasks : sdict (task J)) i t h h0 m x y : sdict_get tasks i = Some t -> metadata t h = (h0, Ok m) -> task_sample t 2000 0 = Ok (x, y) ->
  Forall (fun row => length row = Z.to_nat (md_dim_x m)) x -> Forall (fun row => length row = Z.to_nat (md_dim_y m)) y ->
  exists h' f, visualise_task tasks i h = (h', Ok (md_name m, f)) /\ pairs_frame (Z.to_nat (md_dim_x m)) (Z.to_nat (md_dim_y m)) x y f.
Proof. intros T M S X Y. unfold visualise_task, lookup, pbind at 1, lift. rewrite T. eapply pairwise; eassumption. Qed.
Lemma files_ok : NoDup visual_files /\ forall f, In f visual_files <-> exists i, In i TASK_IDS /\ f = (i ++ ".pdf")%string.
Proof.
  split.
  - assert (E : nodup string_dec visual_files = visual_files) by (vm_compute; reflexivity). rewrite <- E. apply NoDup_nodup.
  - intros f. unfold visual_files. rewrite in_map_iff. split; intros [i [A B]]; exists i; auto.
Qed.

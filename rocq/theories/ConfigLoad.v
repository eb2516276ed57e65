(** Loading the tasks of the configurations ([ConfigModel]) and facts about the catalogues. *)
From Coq Require Import String Ascii Permutation Classical.
From Verif Require Import Base UtilsModel JaxModel SamplersModel GaussianModel MatrixUtilsModel TransformsModel
  BaseLemmas TrainingSpec SamplersSpec TransformsSpec BmmModel MultivariateModel BenchmarkModel BenchmarkSpec BenchmarkProofs BenchmarkThms
  TasksModel TasksSpec TasksProofs TasksThms GaussianSpec TasksGaussian TasksBuild MixturesModel RulesModel RulesSpec RulesThms
  ConfigModel ConfigSpec ConfigThms MixturesSpec ConfigMixtures ConfigBuild.
Open Scope Z_scope.
Local Notation length := List.length.

(** ** Catalogues *)
Definition good_entry (e : entry) : bool :=
  (1 <=? snd (fst e)) && (1 <=? snd e) && negb (String.eqb (entry_id e) "") && negb (String.eqb (entry_name e) "").
Lemma good_entries es : forallb good_entry es = true ->
  Forall (fun e => 1 <= snd (fst e) /\ 1 <= snd e) es /\ Forall (fun e => entry_id e <> ""%string /\ entry_name e <> ""%string) es.
Proof.
  intros H. rewrite forallb_forall in H. split; apply Forall_forall; intros e I; specialize (H e I); unfold good_entry in H;
    repeat (apply andb_prop in H; destruct H as [H ?]).
  - split; apply Z.leb_le; assumption.
  - split; apply String.eqb_neq; apply negb_true_iff; assumption.
Qed.
Lemma catalogues_good : forallb good_entry demo_catalogue = true /\ forallb good_entry v1_catalogue = true /\
  forallb good_entry v2_catalogue = true /\ forallb good_entry gmm_catalogue = true.
Proof. repeat split; vm_compute; reflexivity. Qed.
Lemma nodup_ids l : nodup string_dec l = l -> NoDup l.
Proof. intros <-. apply NoDup_nodup. Qed.
Lemma catalogues_distinct : NoDup (map entry_id demo_catalogue) /\ NoDup (map entry_id v1_catalogue) /\
  NoDup (map entry_id v2_catalogue) /\ NoDup (map entry_id gmm_catalogue).
Proof. repeat split; apply nodup_ids; vm_compute; reflexivity. Qed.

Section Load.
  Context {J : prng}.

  Lemma informed_of_built p (h : dheap) es u : @built J p h es u ->
    exists h' l, p h = (h', Ok l) /\ ext h h' /\ Forall2 (listed h') es l /\ forall t, In t l -> ~ In (t_id t) u -> informed t.
  Proof.
    intros (h' & l & E & X & L & U). exists h', l. repeat (split; [assumption|]). intros t I N. eapply usable_informed. apply U; assumption.
  Qed.

  Lemma loading_of (p : prog (list (task J))) h es u : built p h es u -> forallb good_entry es = true -> NoDup (map entry_id es) ->
    loading p (run l <- p; load_tasks l []) h es u.
  Proof.
    intros B G D. destruct (informed_of_built _ _ _ _ B) as (h0 & l & E & _ & L & I). destruct (good_entries _ G) as [G1 G2].
    destruct (load_listed es l h0 L G1 G2 D) as [A B']. exists h0, l. split; [exact E|]. split; [exact L|]. split; [exact I|].
    unfold pbind. rewrite E. split.
    - intros F. destruct (A F) as (h' & d & E' & _ & R). eauto.
    - intros F. destruct (B' F) as (h' & E'). eauto.
  Qed.

  Lemma collect_fails pre base post : forall acc h e, Forall (fun t : task J => usable t h) pre -> listed h e base -> ~ informed base ->
    exists h', tasks_by_id (pre ++ base :: post) acc h = (h', Err ValidationError).
  Proof.
    induction pre as [|b pre IH]; intros acc h e U L B.
    - destruct (uninformed_metadata _ _ _ L B) as (h' & M & _). exists h'. cbn. unfold pbind at 1, task_id, pbind at 1. now rewrite M.
    - inversion U as [|? ? U1 U2]; subst. destruct (usable_ready _ _ U1) as (dx & dy & mi & R & _).
      destruct (step_id _ _ _ _ _ R) as (h1 & E & X). cbn [app tasks_by_id]. unfold pbind at 1. rewrite E.
      apply (IH _ h1 e); [eapply Forall_impl; [|exact U2]; intros u; apply usable_ext, X|eapply listed_ext; eauto|exact B].
  Qed.
  Lemma collecting_of (p : prog (list (task J))) h es u : built p h es u -> forallb good_entry es = true -> NoDup (map entry_id es) ->
    collecting p (run l <- p; tasks_by_id l []) h es u.
  Proof.
    intros B G D. destruct (informed_of_built _ _ _ _ B) as (h0 & l & E & _ & L & I). destruct (good_entries _ G) as [G1 G2].
    assert (Ids : map t_id l = map entry_id es).
    { clear - L. induction L as [|e b es bs H L IH]; cbn; [reflexivity|]. rewrite IH. f_equal. apply H. }
    exists h0, l. split; [exact E|]. split; [exact L|]. split; [exact I|]. unfold pbind. rewrite E. split.
    - intros F. destruct (tasks_by_id_total l [] h0) as (h' & d & E').
      { clear - L G1 F. induction L as [|e b es bs H L IH]; constructor; inversion G1; inversion F; subst; auto. eapply listed_usable; eauto; tauto. }
      exists h'. rewrite E'. rewrite (tasks_by_id_distinct _ _ _ _ ltac:(rewrite Ids; exact D) E'). reflexivity.
    - intros F.
      assert (S : exists pre b post e, l = (pre ++ b :: post)%list /\ Forall (fun t => usable t h0) pre /\ listed h0 e b /\ ~ informed b).
      { clear - L G1 F. induction L as [|e b es bs H L IH]; [destruct F; constructor|]. inversion G1 as [|? ? [P1 P2] P3]; subst.
        destruct (classic (informed b)) as [Ib|Nb].
        - destruct IH as (pre & b' & post & e' & -> & U & H' & N); [exact P3|intros F'; apply F; constructor; auto|].
          exists (b :: pre), b', post, e'. split; [reflexivity|]. split; [|auto]. constructor; [eapply listed_usable; eauto|exact U].
        - exists [], b, bs, e. auto. }
      destruct S as (pre & b & post & e & -> & U & H & Nb). exact (collect_fails pre b post [] h0 e U H Nb).
  Qed.
End Load.

Section Tasks.
  Context {J : prng}.
  Variables (F : formats) (percent : R -> string) (D : draws J) (erf : R -> R) (expm : expm_function)
    (eigvals : matrix -> list (R * R)) (mvn : key J -> list R -> matrix -> nat -> matrix) (psi log_gamma : R -> R)
    (mvt : Z -> list R -> matrix -> fl -> nat -> matrix) (T : tfp_draws J) (cholesky : matrix -> option matrix)
    (normal_draw : list R -> option matrix -> key J -> nat -> matrix).
  Hypotheses (HF : more_floats F) (HJ : prng_ok J) (HD : draws_ok J D).
  Hypothesis Hs : forall d df, In (d, df) [(1, 1); (2, 1); (2, 2); (3, 2); (3, 3); (5, 2); (5, 3)] ->
    (0 <= student_correction psi log_gamma (IZR df) (Z.to_nat d) (Z.to_nat d))%R.

  Lemma demo_loading : eigvals_positive eigvals -> forall h, loading (demo_unscaled F erf eigvals mvn) (demo_tasks F erf eigvals mvn) h demo_catalogue [].
  Proof. intros He h. apply loading_of; [eapply demo_built; eassumption|apply catalogues_good|apply catalogues_distinct]. Qed.
  Lemma v1_loading : eigvals_positive eigvals -> forall h,
    loading (v1_unscaled F D erf expm eigvals mvn psi log_gamma mvt) (v1_tasks F D erf expm eigvals mvn psi log_gamma mvt) h v1_catalogue [].
  Proof. intros He h. apply loading_of; [apply v1_built; assumption|apply catalogues_good|apply catalogues_distinct]. Qed.
  Lemma v2_loading : percents percent -> eigvals_symmetric eigvals -> factorises cholesky -> is_expm expm -> forall h,
    loading (v2_unscaled F percent D erf expm eigvals mvn psi log_gamma mvt T cholesky normal_draw)
      (v2_tasks F percent D erf expm eigvals mvn psi log_gamma mvt T cholesky normal_draw) h v2_catalogue estimated.
  Proof.
    intros HP He Hc Hx h. apply loading_of; [apply v2_built; try assumption; apply symmetric_positive, He|apply catalogues_good|apply catalogues_distinct].
  Qed.
  Lemma gmm_collecting : percents percent -> eigvals_symmetric eigvals -> factorises cholesky -> is_expm expm -> forall h,
    collecting (gmm_tasks F percent D expm eigvals mvn psi log_gamma mvt T cholesky normal_draw)
      (gmm_tasks_dict F percent D expm eigvals mvn psi log_gamma mvt T cholesky normal_draw) h gmm_catalogue estimated.
  Proof.
    intros HP He Hc Hx h. apply collecting_of; [apply gmm_built; try assumption; apply symmetric_positive, He|apply catalogues_good|apply catalogues_distinct].
  Qed.
End Tasks.

(** ** The catalogues *)
Lemma catalogue_counts : length demo_catalogue = 2%nat /\ length v1_catalogue = 39%nat /\ length v2_catalogue = 26%nat /\ length gmm_catalogue = 16%nat.
Proof. repeat split. Qed.

Lemma distinct_permutation (l l' : list string) : NoDup l -> NoDup l' ->
  forallb (fun x => existsb (String.eqb x) l') l = true -> forallb (fun x => existsb (String.eqb x) l) l' = true -> Permutation l l'.
Proof.
  intros A B C D. apply NoDup_Permutation; auto. intros x.
  split; intros I; [rewrite forallb_forall in C; apply C in I|rewrite forallb_forall in D; apply D in I];
    apply existsb_exists in I; destruct I as (y & K & E); apply String.eqb_eq in E; congruence.
Qed.

Lemma v1_published : Permutation ("1v1-additive-0.1"%string :: map entry_id v1_catalogue) published_ids.
Proof. apply distinct_permutation; [apply nodup_ids; vm_compute; reflexivity|apply published_distinct|vm_compute; reflexivity..]. Qed.
Lemma v1_names_distinct : NoDup (map entry_name v1_catalogue).
Proof. apply nodup_ids; vm_compute; reflexivity. Qed.

Lemma display_names : Permutation (map fst v2_names) (map entry_id v2_catalogue) /\ NoDup (map snd v2_names) /\
  Permutation (map fst gmm_names) (map entry_id gmm_catalogue) /\ NoDup (map snd gmm_names).
Proof.
  split; [|split; [|split]]; try (apply nodup_ids; vm_compute; reflexivity);
    (apply distinct_permutation; [apply nodup_ids; vm_compute; reflexivity|apply catalogues_distinct|vm_compute; reflexivity..]).
Qed.
Lemma gmm_in_v2 : incl gmm_catalogue v2_catalogue /\ incl gmm_names v2_names.
Proof. split; intros x I; cbv [gmm_catalogue gmm_names In] in I; repeat (destruct I as [<-|I]; [cbn [v2_catalogue v2_names In]; tauto|]); contradiction. Qed.
Lemma v2_same_names : ~ NoDup (map entry_name v2_catalogue).
Proof.
  intros N. assert (K : nodup string_dec (map entry_name v2_catalogue) = map entry_name v2_catalogue) by (apply nodup_fixed_point; exact N).
  apply (f_equal (@length string)) in K. vm_compute in K. discriminate.
Qed.

(** ** The runs *)
Definition fine_char (c : ascii) : bool := negb (existsb (Ascii.eqb c) ["010"; "{"; "}"; "/"]%char).
Definition fine (s : string) : bool := negb (String.eqb s "") && forallb fine_char (list_ascii_of_string s).
Lemma fine_name s : fine s = true -> usable_name s /\ ~ occurs "/" s.
Proof.
  intros H. apply andb_prop in H. destruct H as [A B]. rewrite forallb_forall in B.
  assert (N : forall c, In c ["010"; "{"; "}"; "/"]%char -> ~ occurs c s).
  { intros c I K. apply B in K. unfold fine_char in K. apply negb_true_iff in K.
    assert (existsb (Ascii.eqb c) ["010"; "{"; "}"; "/"]%char = true); [|congruence].
    apply existsb_exists. exists c. split; [exact I|apply Ascii.eqb_refl]. }
  split; [split; [apply String.eqb_neq, negb_true_iff, A|]; repeat split; apply N; cbn; tauto|apply N; cbn; tauto].
Qed.

Lemma list_prod_NoDup {A B} (l : list A) (l' : list B) : NoDup l -> NoDup l' -> NoDup (list_prod l l').
Proof.
  intros N N'. induction l as [|a l IH]; cbn; [constructor|]. inversion N as [|? ? Na N2]; subst.
  assert (D : forall x, In x (map (fun y => (a, y)) l') -> ~ In x (list_prod l l')).
  { intros x I K. apply in_map_iff in I. destruct I as (y & <- & _). apply in_prod_iff in K. tauto. }
  clear N. induction l' as [|b l' IH']; [cbn; auto|].
  cbn [map app]. 
  assert (G : forall (u v : list (A * B)), NoDup u -> NoDup v -> (forall x, In x u -> ~ In x v) -> NoDup (u ++ v)).
  { clear. induction u as [|x u IH]; cbn; intros v Nu Nv Dj; [exact Nv|]. inversion Nu; subst. constructor.
    - intros K. apply in_app_or in K. destruct K; [contradiction|]. apply (Dj x); auto.
    - apply IH; auto. }
  apply (G ((a, b) :: map (fun y => (a, y)) l')); [|auto|exact D].
  change (NoDup (map (fun y => (a, y)) (b :: l'))). apply FinFun.Injective_map_NoDup; [intros ? ? E; congruence|exact N'].
Qed.

Lemma runs_distinct (es ts : list string) (ns ss : list Z) :
  forallb fine es = true -> forallb fine ts = true -> forallb (Z.leb 0) ss = true -> NoDup es -> NoDup ts -> NoDup ns -> NoDup ss ->
  Forall usable_name es /\ Forall (fun t => usable_name t /\ ~ occurs "/" t) ts /\ Forall (Z.le 0) ss /\
  length (combinations es ts ns ss) = (length es * length ts * length ns * length ss)%nat /\
  NoDup (map (fun q => match q with (e, t, n, s) => result_path e t n s end) (combinations es ts ns ss)).
Proof.
  intros Fe Ft Fs Ne Nt Nn Ns. rewrite forallb_forall in Fe, Ft, Fs.
  split; [apply Forall_forall; intros e I; apply fine_name, Fe, I|]. split; [apply Forall_forall; intros t I; apply fine_name, Ft, I|].
  split; [apply Forall_forall; intros s I; apply Z.leb_le, Fs, I|]. unfold combinations. split; [now rewrite !prod_length|].
  assert (Nc : NoDup (list_prod (list_prod (list_prod es ts) ns) ss)) by (repeat apply list_prod_NoDup; assumption).
  assert (M : forall l : list (string * string * Z * Z), (forall q, In q l -> In q (list_prod (list_prod (list_prod es ts) ns) ss)) -> NoDup l ->
    NoDup (map (fun q => match q with (e, t, n, s) => result_path e t n s end) l)).
  { induction l as [|q l IH]; intros In_l Nl; cbn [map]; [constructor|]. inversion Nl as [|? ? Nq Nl2]; subst. constructor; [|apply IH; auto with datatypes].
    intros K. apply in_map_iff in K. destruct K as (q' & E & I'). apply Nq.
    assert (Q : In q (list_prod (list_prod (list_prod es ts) ns) ss)) by (apply In_l; left; reflexivity).
    assert (Q' : In q' (list_prod (list_prod (list_prod es ts) ns) ss)) by (apply In_l; right; exact I').
    destruct q as [[[e t] n] s], q' as [[[e' t'] n'] s'].
    apply in_prod_iff in Q; destruct Q as [Q S]. apply in_prod_iff in Q; destruct Q as [Q Nn1]. apply in_prod_iff in Q; destruct Q as [Qe Qt].
    apply in_prod_iff in Q'; destruct Q' as [Q' S']. apply in_prod_iff in Q'; destruct Q' as [Q' Nn1']. apply in_prod_iff in Q'; destruct Q' as [Qe' Qt'].
    destruct (fine_name _ (Fe _ Qe)) as [Ue _], (fine_name _ (Fe _ Qe')) as [Ue' _], (fine_name _ (Ft _ Qt)) as [Ut St], (fine_name _ (Ft _ Qt')) as [Ut' St'].
    apply Fs, Z.leb_le in S. apply Fs, Z.leb_le in S'.
    destruct (result_path_inj e' t' n' s' e t n s) as (-> & -> & -> & ->); auto. }
  apply M; auto.
Qed.

(** The settings of the four workflows. *)
Definition settings : list (list string * list entry * list Z * list Z * nat) :=
  [(demo_estimators, demo_catalogue, demo_n_samples, demo_seeds, 8%nat);
   (v1_estimators, v1_catalogue, v1_n_samples, v1_seeds, 3510%nat);
   (v2_estimators, v2_catalogue, v2_n_samples, v2_seeds, 1560%nat);
   (gmm_estimators, gmm_catalogue, gmm_n_samples, gmm_seeds, 48%nat)].
Lemma nodup_z (l : list Z) : nodup Z.eq_dec l = l -> NoDup l.
Proof. intros <-. apply NoDup_nodup. Qed.
Lemma settings_runs es cs ns ss k : In (es, cs, ns, ss, k) settings ->
  let ts := map entry_id cs in
  Forall usable_name es /\ Forall (fun t => usable_name t /\ ~ occurs "/" t) ts /\ Forall (Z.le 0) ss /\
  length (combinations es ts ns ss) = k /\
  NoDup (map (fun q => match q with (e, t, n, s) => result_path e t n s end) (combinations es ts ns ss)).
Proof.
  intros I. cbv zeta.
  assert (A : forallb fine es = true /\ forallb fine (map entry_id cs) = true /\ forallb (Z.leb 0) ss = true /\ NoDup es /\ NoDup (map entry_id cs) /\ NoDup ns /\ NoDup ss /\
    (length es * length cs * length ns * length ss)%nat = k).
  { unfold settings in I. repeat (destruct I as [I|I]; [injection I as <- <- <- <- <-; repeat split;
      first [vm_compute; reflexivity|apply nodup_ids; vm_compute; reflexivity|apply nodup_z; vm_compute; reflexivity]|]). contradiction. }
  destruct A as (A1 & A2 & A3 & A4 & A5 & A6 & A7 & A8).
  destruct (runs_distinct es (map entry_id cs) ns ss A1 A2 A3 A4 A5 A6 A7) as (B1 & B2 & B3 & B4 & B5).
  rewrite map_length in B4. repeat (split; [assumption|]). split; [congruence|assumption].
Qed.

(** The demo needs nothing but normal distributions. *)
Lemma demo_loads {J} F erf eigvals mvn : more_floats F -> eigvals_positive eigvals -> forall h,
  loading (J := J) (demo_unscaled F erf eigvals mvn) (demo_tasks F erf eigvals mvn) h demo_catalogue [].
Proof.
  intros HF He. apply (demo_loading F erf eigvals mvn (fun _ => 0%R) (fun _ => 0%R) (fun _ _ _ _ _ => [])); [exact HF| |exact He].
  intros d df _. unfold student_correction. cbv zeta. lra.
Qed.
Lemma settings_numbers :
  (demo_n_samples, demo_seeds) = ([500], [1; 2]) /\ (gmm_n_samples, gmm_seeds) = ([5000], [0; 1; 2]) /\
  (v1_n_samples, v1_seeds) = ([5000], [0; 1; 2; 3; 4; 5; 6; 7; 8; 9]) /\ (v2_n_samples, v2_seeds) = (v1_n_samples, v1_seeds).
Proof. repeat split. Qed.

(** Ids of tasks, the published list and the dictionary of tasks ([TasksModel]). *)
From Coq Require Import String.
From Verif Require Import Base UtilsModel JaxModel SamplersModel GaussianModel MatrixUtilsModel TransformsModel
  BaseLemmas BenchmarkModel BenchmarkSpec BenchmarkProofs BenchmarkThms TasksModel TasksSpec TasksProofs.
Open Scope Z_scope.
Local Notation length := List.length.

Lemma pbind_ok {A B} (p : prog A) (k : A -> prog B) h h' b : pbind p k h = (h', Ok b) ->
  exists h1 a, p h = (h1, Ok a) /\ k a h1 = (h', Ok b).
Proof. unfold pbind. destruct (p h) as [h1 [a|e]]; [eauto|discriminate]. Qed.
Lemma lift_ok {A} (r : result A) h h' a : lift r h = (h', Ok a) -> h' = h /\ r = Ok a.
Proof. unfold lift. intros H. injection H as <- ->. auto. Qed.
Lemma pret_ok {A} (a b : A) h h' : pret a h = (h', Ok b) -> h' = h /\ b = a.
Proof. unfold pret. intros H. injection H as <- <-. auto. Qed.

Ltac inv_prog :=
  repeat match goal with
  | H : pbind _ _ _ = (_, Ok _) |- _ =>
      let h := fresh "h" in let a := fresh "a" in let E := fresh "E" in
      apply pbind_ok in H; destruct H as (h & a & E & H); cbv beta zeta in H
  | H : pret _ _ = (_, Ok _) |- _ => apply pret_ok in H; destruct H as [? ?]; subst
  | H : lift (Err _) _ = (_, Ok _) |- _ => discriminate H
  | H : lift (Ok _) _ = (_, Ok _) |- _ => apply lift_ok in H; destruct H as [? H]; injection H as ?; subst
  | H : (if ?b then _ else _) _ = (_, Ok _) |- _ => destruct b eqn:?
  | H : (let (_, _) := ?p in _) _ = (_, Ok _) |- _ => destruct p
  end.

Section Ids.
  Context {J : prng}.
  Implicit Types base t : task J.

  Lemma task_id_ok t h h' i : task_id t h = (h', Ok i) -> i = t_id t.
  Proof. unfold task_id. intros H. inv_prog. destruct (metadata_inv _ _ _ _ E) as [-> _]. reflexivity. Qed.

  Ltac ids := intros; inv_prog; repeat match goal with
    | H : task_id _ _ = (_, Ok _) |- _ => apply task_id_ok in H; subst end; cbn [t_id]; try reflexivity.

  Lemma asinh_id base name h h' t : transform_asinh_task base name h = (h', Ok t) -> t_id t = ("asinh-" ++ t_id base)%string.
  Proof. unfold transform_asinh_task. ids. Qed.
  Lemma half_cube_id base name h h' t : transform_half_cube_task base name h = (h', Ok t) -> t_id t = ("half_cube-" ++ t_id base)%string.
  Proof. unfold transform_half_cube_task. ids. Qed.
  Lemma normal_cdf_id erf base name h h' t : transform_normal_cdf_task erf base name h = (h', Ok t) -> t_id t = ("normal_cdf-" ++ t_id base)%string.
  Proof. unfold transform_normal_cdf_task. ids. Qed.
  Lemma wiggly_id base name h h' t : transform_wiggly_task base name h = (h', Ok t) -> t_id t = ("wiggly-" ++ t_id base)%string.
  Proof. unfold transform_wiggly_task. ids. Qed.
  Lemma swissroll_id base name h h' t : transform_swissroll_task base name h = (h', Ok t) -> t_id t = ("swissroll_x-" ++ t_id base)%string.
  Proof. unfold transform_swissroll_task. ids. Qed.
  Lemma rotate_id expm base name h h' t : transform_rotate_task expm base name h = (h', Ok t) -> t_id t = ("rotate-" ++ t_id base)%string.
  Proof. unfold transform_rotate_task. ids. Qed.
  Lemma spiral_id expm base speed name nrm h h' t : transform_spiral_task expm base speed name nrm h = (h', Ok t) -> t_id t = ("spiral-" ++ t_id base)%string.
  Proof. unfold transform_spiral_task. ids. Qed.

  (** A transform reads the metadata of the base task before anything else it does to the heap. *)
  Lemma prog_meta {A} (f : task_metadata -> A) t h h' i : (run m <- metadata t; pret (f m)) h = (h', Ok i) ->
    exists h1 m, metadata t h = (h1, Ok m).
  Proof. intros H. inv_prog. eauto. Qed.
  Ltac read_base := intros H; apply pbind_ok in H; destruct H as (h1 & a & E & H); cbv beta zeta in H;
    try (apply lift_ok in E; destruct E as [-> _]; apply pbind_ok in H; destruct H as (h2 & i & E & H));
    unfold task_id, task_dim_x in E; eapply prog_meta; exact E.
  Section Reads.
    Variables (base t : task J) (name id : option string) (h h' : dheap).
    Let readable := exists h1 m, metadata base h = (h1, Ok m).
    Lemma asinh_reads : transform_asinh_task base name h = (h', Ok t) -> readable.
    Proof. read_base. Qed.
    Lemma half_cube_reads : transform_half_cube_task base name h = (h', Ok t) -> readable.
    Proof. read_base. Qed.
    Lemma normal_cdf_reads erf : transform_normal_cdf_task erf base name h = (h', Ok t) -> readable.
    Proof. read_base. Qed.
    Lemma wiggly_reads : transform_wiggly_task base name h = (h', Ok t) -> readable.
    Proof. read_base. Qed.
    Lemma swissroll_reads n : transform_swissroll_task base n h = (h', Ok t) -> readable.
    Proof. read_base. Qed.
    Lemma rotate_reads expm : transform_rotate_task expm base name h = (h', Ok t) -> readable.
    Proof. read_base. Qed.
    Lemma spiral_reads expm v nrm : transform_spiral_task expm base v name nrm h = (h', Ok t) -> readable.
    Proof. read_base. Qed.
    Lemma power_reads F alpha : transform_power_task F base alpha name h = (h', Ok t) -> readable.
    Proof. read_base. Qed.
    Lemma uniformise_reads Q nq seed : transform_uniformise Q base name nq seed h = (h', Ok t) -> readable.
    Proof. read_base. Qed.
    Lemma gaussianise_reads Q nq seed : transform_gaussianise Q base name nq seed h = (h', Ok t) -> readable.
    Proof. read_base. Qed.
  End Reads.

  Section Constructors.
    Variables (F : formats) (D : draws J) (erf : R -> R) (expm : expm_function) (eigvals : matrix -> list (R * R))
      (mvn : key J -> list R -> matrix -> nat -> matrix) (psi log_gamma : R -> R)
      (mvt : Z -> list R -> matrix -> fl -> nat -> matrix).

    Lemma additive_id eps h h' t : task_additive_noise F D eps h = (h', Ok t) -> t_id t = ("1v1-additive-" ++ float_repr F eps)%string.
    Proof. unfold task_additive_noise. ids. Qed.
    Lemma bivariate_id rho h h' t : task_bivariate_normal F eigvals mvn rho h = (h', Ok t) -> t_id t = ("1v1-normal-" ++ float_repr F rho)%string.
    Proof. unfold task_bivariate_normal. ids. Qed.
    Lemma bimodal_id rho h h' t : task_bimodal_gaussians F erf eigvals mvn rho h = (h', Ok t) -> t_id t = ("1v1-bimodal-" ++ float_repr F rho)%string.
    Proof. unfold task_bimodal_gaussians. ids. Qed.
    Lemma dense_id dx dy off name h h' t : task_multinormal_dense F eigvals mvn dx dy off name h = (h', Ok t) ->
      t_id t = ("multinormal-dense-" ++ int_str dx ++ "-" ++ int_str dy ++ "-" ++ float_repr F off)%string.
    Proof. unfold task_multinormal_dense. ids. Qed.
    Lemma sparse_id dx dy k strength name h h' t : task_multinormal_sparse F eigvals mvn dx dy k strength name h = (h', Ok t) ->
      t_id t = ("multinormal-sparse-" ++ int_str dx ++ "-" ++ int_str dy ++ "-" ++ int_str k ++ "-" ++ float_repr F strength)%string.
    Proof. unfold task_multinormal_sparse. ids. Qed.
    Lemma two_pair_id dx dy strength name h h' t : task_multinormal_2pair F eigvals mvn dx dy strength name h = (h', Ok t) ->
      t_id t = ("multinormal-sparse-" ++ int_str dx ++ "-" ++ int_str dy ++ "-2-" ++ float_repr F strength)%string.
    Proof. unfold task_multinormal_2pair. intros H. apply pbind_ok in H. destruct H as (h1 & n & _ & H).
      rewrite (sparse_id _ _ _ _ _ _ _ _ H). reflexivity. Qed.
    Lemma identity_id dx dy df name h h' t : task_student_identity eigvals psi log_gamma mvt dx dy df name h = (h', Ok t) ->
      t_id t = ("student-identity-" ++ int_str dx ++ "-" ++ int_str dy ++ "-" ++ int_str df)%string.
    Proof. unfold task_student_identity. ids. Qed.
  End Constructors.

  (** ** Programs which make a task with a known id *)
  Definition has_id (p : prog (task J)) (i : string) : Prop := forall h h' t, p h = (h', Ok t) -> t_id t = i.
  Lemma has_id_then p q i j : has_id p i -> (forall t, t_id t = i -> has_id (q t) j) -> has_id (pbind p q) j.
  Proof. intros H K h h' t E. apply pbind_ok in E. destruct E as (h1 & a & E & E'). eapply K; eauto. Qed.
  Lemma sequence_ids ps is : Forall2 has_id ps is -> forall h h' l, sequence ps h = (h', Ok l) -> map t_id l = is.
  Proof.
    induction 1 as [|p i ps is H _ IH]; cbn [sequence]; intros h h' l E.
    - apply pret_ok in E. now destruct E as [_ ->].
    - inv_prog. cbn. f_equal; eauto.
  Qed.

  (** ** The dictionary *)
  Lemma find_app_ {A} (f : A -> bool) l l' : find f (l ++ l') = match find f l with Some a => Some a | None => find f l' end.
  Proof. induction l as [|a l IH]; cbn; [reflexivity|]. destruct (f a); auto. Qed.
  Lemma tasks_by_id_get ts : forall acc h h' d, tasks_by_id ts acc h = (h', Ok d) -> forall i,
    sdict_get d i = match find (fun t => String.eqb (t_id t) i) (rev ts) with Some t => Some t | None => sdict_get acc i end.
  Proof.
    induction ts as [|t ts IH]; cbn [tasks_by_id rev]; intros acc h h' d H i.
    - apply pret_ok in H. now destruct H as [_ ->].
    - apply pbind_ok in H. destruct H as (h1 & j & E & H). apply task_id_ok in E. subst j.
      rewrite (IH _ _ _ _ H i). rewrite find_app_.
      destruct (find _ (rev ts)); [reflexivity|]. cbn.
      destruct (String.eqb_spec (t_id t) i) as [<-|N]; [apply sdict_get_set_eq|]. apply sdict_get_set_neq. congruence.
  Qed.
  Lemma sdict_set_fresh {V} (d : sdict V) k v : ~ In k (map fst d) -> sdict_set d k v = (d ++ [(k, v)])%list.
  Proof.
    induction d as [|[k' v'] d IH]; cbn; [reflexivity|]. intros H. destruct (String.eqb_spec k k') as [->|N]; [tauto|].
    rewrite IH by tauto. reflexivity.
  Qed.
  Lemma tasks_by_id_all ts : forall acc h h' d, NoDup (map fst acc ++ map t_id ts) -> tasks_by_id ts acc h = (h', Ok d) ->
    d = (acc ++ map (fun t => (t_id t, t)) ts)%list.
  Proof.
    induction ts as [|t ts IH]; cbn [tasks_by_id map]; intros acc h h' d N H.
    - apply pret_ok in H. destruct H as [_ ->]. now rewrite app_nil_r.
    - apply pbind_ok in H. destruct H as (h1 & j & E & H). apply task_id_ok in E. subst j.
      rewrite sdict_set_fresh in H.
      2:{ intros I. apply NoDup_remove_2 in N. apply N. apply in_or_app. auto. }
      apply IH in H.
      + rewrite H, <- app_assoc. reflexivity.
      + rewrite map_app. cbn. rewrite <- app_assoc. exact N.
  Qed.
  Lemma tasks_by_id_distinct ts h h' d : NoDup (map t_id ts) -> tasks_by_id ts [] h = (h', Ok d) ->
    d = map (fun t => (t_id t, t)) ts.
  Proof. intros N H. exact (tasks_by_id_all ts [] h h' d N H). Qed.
  (** Reading all the ids succeeds as soon as the metadata of every task can be read. *)
  Lemma tasks_by_id_total ts : forall acc h, Forall (fun t => usable t h) ts -> exists h' d, tasks_by_id ts acc h = (h', Ok d).
  Proof.
    induction ts as [|t ts IH]; cbn [tasks_by_id]; intros acc h U; [unfold pret; eauto|].
    inversion U as [|? ? U1 U2]; subst. destruct (usable_ready _ _ U1) as (dx & dy & mi & R & _).
    destruct (step_id _ _ _ _ _ R) as (h1 & E & X). unfold pbind. rewrite E. apply IH.
    eapply Forall_impl; [|exact U2]. intros u. apply usable_ext, X.
  Qed.
  Lemma shadowed_task t t' h h' d : t_id t = t_id t' -> tasks_by_id [t; t'] [] h = (h', Ok d) -> d = [(t_id t, t')].
  Proof.
    cbn [tasks_by_id]. intros E H. inv_prog.
    repeat match goal with H : task_id _ _ = (_, Ok _) |- _ => apply task_id_ok in H; subst end.
    cbn. rewrite E, String.eqb_refl. reflexivity.
  Qed.
End Ids.

(** ** The published list *)

Fixpoint distinct (l : list string) : bool :=
  match l with [] => true | s :: l => negb (existsb (String.eqb s) l) && distinct l end.
Lemma distinct_NoDup l : distinct l = true -> NoDup l.
Proof.
  induction l as [|s l IH]; cbn; [constructor|]. intros H. apply andb_prop in H as [H1 H2]. constructor; [|auto].
  intros I. apply negb_true_iff in H1. rewrite <- not_true_iff_false in H1. apply H1.
  apply existsb_exists. exists s. split; [exact I|apply String.eqb_refl].
Qed.
Lemma published_distinct : NoDup published_ids.
Proof. apply distinct_NoDup. vm_compute. reflexivity. Qed.

Section List_.
  Context {J : prng}.
  Variables (F : formats) (D : draws J) (erf : R -> R) (expm : expm_function) (eigvals : matrix -> list (R * R))
    (mvn : key J -> list R -> matrix -> nat -> matrix) (psi log_gamma : R -> R)
    (mvt : Z -> list R -> matrix -> fl -> nat -> matrix).
  Hypothesis HF : python_floats F.

  Local Notation the_list := (benchmark_tasks_list F D erf expm eigvals mvn psi log_gamma mvt).

  Local Notation cdf := (normal_cdfise erf).
  Local Notation pair2 := (two_pair F eigvals mvn).
  Local Notation ident := (identity_student eigvals psi log_gamma mvt).
  Local Notation spi := (spiralise expm).

  Lemma id_binormal : has_id (task_bivariate_normal (J := J) F eigvals mvn (75 / 100)) "1v1-normal-0.75".
  Proof. intros h h' t E. rewrite (bivariate_id _ _ _ _ _ _ _ E). destruct HF as (-> & _). reflexivity. Qed.
  Lemma id_cdf (t : task J) : has_id (cdf t) ("normal_cdf-" ++ t_id t)%string.
  Proof. intros h h' u E. exact (normal_cdf_id _ _ _ _ _ _ E). Qed.
  Lemma id_half (t : task J) : has_id (half_cubed t) ("half_cube-" ++ t_id t)%string.
  Proof. intros h h' u E. exact (half_cube_id _ _ _ _ _ E). Qed.
  Lemma id_asinh (t : task J) : has_id (asinh t) ("asinh-" ++ t_id t)%string.
  Proof. intros h h' u E. exact (asinh_id _ _ _ _ _ E). Qed.
  Lemma id_wiggly (t : task J) : has_id (wigglify t) ("wiggly-" ++ t_id t)%string.
  Proof. intros h h' u E. exact (wiggly_id _ _ _ _ _ E). Qed.
  Lemma id_spiral (t : task J) : has_id (spi t) ("spiral-" ++ t_id t)%string.
  Proof. intros h h' u E. unfold spiralise in E. exact (spiral_id _ _ _ _ _ _ _ _ E). Qed.
  Lemma id_pret (t : task J) : has_id (pret t) (t_id t).
  Proof. intros h h' u E. apply pret_ok in E. now destruct E as [_ ->]. Qed.
  Lemma id_add_1 : has_id (task_additive_noise F D (10 / 100)) "1v1-additive-0.1".
  Proof. intros h h' t E. rewrite (additive_id _ _ _ _ _ _ E). destruct HF as (_ & -> & _). reflexivity. Qed.
  Lemma id_add_2 : has_id (task_additive_noise F D (75 / 100)) "1v1-additive-0.75".
  Proof. intros h h' t E. rewrite (additive_id _ _ _ _ _ _ E). destruct HF as (-> & _). reflexivity. Qed.
  Lemma id_bimodal : has_id (task_bimodal_gaussians (J := J) F erf eigvals mvn (75 / 100)) "1v1-bimodal-0.75".
  Proof. intros h h' t E. rewrite (bimodal_id _ _ _ _ _ _ _ _ E). destruct HF as (-> & _). reflexivity. Qed.
  Lemma id_dense d : has_id (dense (J := J) F eigvals mvn d) ("multinormal-dense-" ++ int_str d ++ "-" ++ int_str d ++ "-0.5")%string.
  Proof. intros h h' t E. unfold dense in E. rewrite (dense_id _ _ _ _ _ _ _ _ _ _ E). destruct HF as (_ & _ & -> & _). reflexivity. Qed.
  Lemma id_pair d : has_id (pair2 d : prog (task J)) ("multinormal-sparse-" ++ int_str d ++ "-" ++ int_str d ++ "-2-2.0")%string.
  Proof. intros h h' t E. unfold two_pair in E. rewrite (two_pair_id _ _ _ _ _ _ _ _ _ _ E). destruct HF as (_ & _ & _ & ->). reflexivity. Qed.
  Lemma id_identity d df : has_id (ident d df : prog (task J)) ("student-identity-" ++ int_str d ++ "-" ++ int_str d ++ "-" ++ int_str df)%string.
  Proof. intros h h' t E. exact (identity_id _ _ _ _ _ _ _ _ _ _ _ E). Qed.

  Lemma one_dim_ids h h' l : one_dim_tasks F D erf eigvals mvn psi log_gamma mvt h = (h', Ok l) ->
    map t_id l = firstn 10 published_ids.
  Proof.
    unfold one_dim_tasks. intros H.
    apply pbind_ok in H. destruct H as (h1 & b & Eb & H). apply id_binormal in Eb.
    apply pbind_ok in H. destruct H as (h2 & u & Eu & H). apply id_cdf in Eu. rewrite Eb in Eu.
    apply pbind_ok in H. destruct H as (h3 & s & Es & H). apply id_identity in Es.
    apply pbind_ok in H. destruct H as (h4 & m & Em & H).
    apply pbind_ok in H. destruct H as (h5 & e & Ee & H). apply swissroll_id in Ee. rewrite Eu in Ee.
    apply pret_ok in H. destruct H as [_ ->]. rewrite map_app. cbn [map]. rewrite Ee.
    eapply sequence_ids in Em.
    2:{ repeat apply Forall2_cons; try apply Forall2_nil;
        first [apply id_pret|apply id_add_1|apply id_add_2|apply id_bimodal|apply id_wiggly|apply id_half|apply id_asinh]. }
    rewrite Em, Eb, Eu, Es. reflexivity.
  Qed.
  Lemma multinormal_ids h h' l : multinormal_tasks (J := J) F eigvals mvn h = (h', Ok l) ->
    map t_id l = firstn 9 (skipn 10 published_ids).
  Proof.
    unfold multinormal_tasks. intros Em. eapply sequence_ids in Em.
    2:{ repeat apply Forall2_cons; try apply Forall2_nil; first [apply id_dense|apply id_pair]. }
    rewrite Em. reflexivity.
  Qed.
  Lemma student_ids h h' l : student_tasks (J := J) eigvals psi log_gamma mvt h = (h', Ok l) ->
    map t_id l = firstn 6 (skipn 19 published_ids).
  Proof.
    unfold student_tasks. intros Em. eapply sequence_ids in Em.
    2:{ repeat apply Forall2_cons; try apply Forall2_nil; apply id_identity. }
    rewrite Em. reflexivity.
  Qed.
  Lemma id_then p (q : task J -> prog (task J)) i pre : has_id p i -> (forall t, has_id (q t) (pre ++ t_id t)%string) ->
    has_id (pbind p q) (pre ++ i)%string.
  Proof. intros H K. apply (has_id_then _ _ i); [exact H|]. intros t <-. apply K. Qed.
  Lemma transformed_ids h h' l : transformed_tasks F erf expm eigvals mvn psi log_gamma mvt h = (h', Ok l) ->
    map (@t_id J) l = skipn 25 published_ids.
  Proof.
    unfold transformed_tasks. intros H.
    apply pbind_ok in H. destruct H as (h1 & b3 & E3 & H). apply id_pair in E3.
    apply pbind_ok in H. destruct H as (h2 & b5 & E5 & H). apply id_pair in E5.
    apply pbind_ok in H. destruct H as (h3 & b25 & E25 & Em). apply id_pair in E25.
    eapply sequence_ids in Em.
    2:{ repeat apply Forall2_cons; try apply Forall2_nil;
        first [apply id_cdf|apply id_half|apply id_spiral
              |(eapply id_then; [apply id_cdf|apply id_spiral])|(eapply id_then; [apply id_identity|apply id_asinh])]. }
    rewrite Em, E3, E5, E25. reflexivity.
  Qed.

  Lemma list_ids h h' l : the_list h = (h', Ok l) -> map t_id l = published_ids.
  Proof.
    unfold benchmark_tasks_list. intros H.
    apply pbind_ok in H. destruct H as (h1 & a & Ea & H). apply one_dim_ids in Ea.
    apply pbind_ok in H. destruct H as (h2 & b & Eb & H). apply multinormal_ids in Eb.
    apply pbind_ok in H. destruct H as (h3 & c & Ec & H). apply student_ids in Ec.
    apply pbind_ok in H. destruct H as (h4 & d & Ed & H). apply transformed_ids in Ed.
    apply pret_ok in H. destruct H as [_ ->]. rewrite !map_app, Ea, Eb, Ec, Ed. reflexivity.
  Qed.

  Lemma dictionary_complete h h' d : benchmark_tasks F D erf expm eigvals mvn psi log_gamma mvt h = (h', Ok d) ->
    exists h1 l, the_list h = (h1, Ok l) /\ length l = 40%nat /\ map t_id l = published_ids /\ NoDup (map t_id l) /\
      d = map (fun t => (t_id t, t)) l.
  Proof.
    unfold benchmark_tasks. intros H. apply pbind_ok in H. destruct H as (h1 & l & E & H).
    assert (I := list_ids _ _ _ E). exists h1, l. split; [exact E|].
    assert (N : NoDup (map t_id l)) by (rewrite I; exact published_distinct).
    split; [rewrite <- (map_length t_id), I; reflexivity|]. split; [exact I|]. split; [exact N|].
    exact (tasks_by_id_distinct _ _ _ _ N H).
  Qed.
End List_.

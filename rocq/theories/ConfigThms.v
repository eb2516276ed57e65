(** The configurations of the workflows: catalogues and loading ([ConfigModel]). *)
From Coq Require Import String Classical.
From Verif Require Import Base UtilsModel JaxModel SamplersModel GaussianModel MatrixUtilsModel TransformsModel
  BaseLemmas TrainingSpec SamplersSpec BmmModel MultivariateModel BenchmarkModel BenchmarkSpec BenchmarkProofs BenchmarkThms
  TasksModel TasksSpec TasksProofs TasksThms GaussianSpec TasksGaussian TasksBuild MixturesModel FiguresScale ConfigModel ConfigSpec.
Open Scope Z_scope.
Local Notation length := List.length.

Section Load.
  Context {J : prng}.
  Implicit Types t base : task J.

  Lemma given_self s f : s <> ""%string -> given (Some s) f = s.
  Proof. intros N. unfold given. destruct (String.eqb_spec s ""); congruence. Qed.

  Lemma acceptable_spec v : acceptable v <-> fl_ltb v (Fin 0) = false /\ v <> NaN.
  Proof.
    destruct v as [r| | |]; cbn; try (split; [tauto|intros [? ?]; try discriminate; tauto]).
    - unfold Rltb. destruct (Rlt_dec r 0); split; intros H; [lra|destruct H; discriminate|split; [reflexivity|discriminate]|lra].
    - split; [intros _; split; [reflexivity|discriminate]|tauto].
  Qed.

  Lemma listed_usable h e t : listed h e t -> 1 <= snd (fst e) -> 1 <= snd e -> informed t -> usable t h.
  Proof.
    intros (_ & _ & Dx & Dy & V & _) Lx Ly (mi & M & A). apply acceptable_spec in A. destruct A as [A N].
    destruct (metadata_ok t h (snd (fst e)) (snd e) mi) as (h1 & m & E & _ & _ & X & Y & _); auto.
    split; [exact V|]. exists h1, m. rewrite X, Y. auto.
  Qed.
  Lemma usable_informed h t : usable t h -> informed t.
  Proof.
    intros U. destruct (usable_ready _ _ U) as (dx & dy & mi & R & _). exists mi.
    destruct R as (_ & _ & _ & M & A & B). split; [exact M|]. apply acceptable_spec. auto.
  Qed.
  Lemma usable_listed h t dx dy : usable t h -> dim_x (t_sampler t) = Ok dx -> dim_y (t_sampler t) = Ok dy -> listed h (t_id t, t_name t, dx, dy) t.
  Proof.
    intros U Dx Dy. destruct (usable_informed _ _ U) as (mi & M & _). split; [reflexivity|]. split; [reflexivity|].
    split; [exact Dx|]. split; [exact Dy|]. split; [apply U|]. exists mi. exact M.
  Qed.
  Lemma listed_ext h h' e t : ext h h' -> listed h e t -> listed h' e t.
  Proof. intros X (A & A' & B & C & V & M). repeat split; auto. eapply ext_valid; eauto. Qed.

  (** Reading the metadata of a task with a negative mutual information. *)
  Lemma uninformed_metadata h e t : listed h e t -> ~ informed t -> exists h', metadata t h = (h', Err ValidationError) /\ ext h h'.
  Proof.
    intros (_ & _ & Dx & Dy & V & mi & M) N.
    assert (B : non_negative_float mi = Err ValidationError).
    { unfold non_negative_float. destruct mi as [r| | |]; try reflexivity; [|exfalso; apply N; eexists; (split; [exact M|exact I])].
      destruct (Rleb 0 r) eqn:L; [|reflexivity]. exfalso. apply N. exists (Fin r). split; [exact M|]. cbn.
      unfold Rleb in L. destruct (Rle_dec 0 r); [assumption|discriminate]. }
    unfold metadata, pbind, lift. rewrite Dx, Dy, M.
    destruct (or_dict h (t_params t)) as [h1 r] eqn:O. rewrite B. eexists. split; [reflexivity|].
    unfold or_dict in O. destruct (t_params t) as [p|]; [destruct (dread h p)|];
      unfold new_dict in O; repeat match type of O with context [let (_, _) := ?x in _] => destruct x eqn:? end;
      injection O as <- <-; try apply ext_refl.
    all: try (split; [rewrite app_length; lia|intros ? ?; now apply dread_app]).
  Qed.
  Lemma entry_derived base t h h' : usable base h -> t_id base <> ""%string -> t_name base <> ""%string ->
    derived base t h h' (fun _ => given (Some (t_id base)) ("rescale-" ++ t_id base)) (fun _ => given (Some (t_name base)) ("Rescale @ " ++ t_name base)) 0 []
      (whole scaler_transform) (whole scaler_transform) -> standardized h h' base t.
  Proof.
    intros U Ni Nn (Ut & L & h1 & m & h2 & m' & M & M' & I & N & Rest). split; [exact Ut|]. split; [exact L|].
    exists h1, m, h2, m'. split; [exact M|]. split; [exact M'|].
    destruct (metadata_inv _ _ _ _ M) as (A & B & _). rewrite given_self in I, N by assumption.
    split; [congruence|]. split; [congruence|]. exact Rest.
  Qed.
  Lemma standardized_id base t h h' : standardized h h' base t -> t_id t = t_id base /\ t_name t = t_name base.
  Proof.
    intros (_ & _ & h1 & m & h2 & m' & M & M' & I & N & _). destruct (metadata_inv _ _ _ _ M) as (A & B & _).
    destruct (metadata_inv _ _ _ _ M') as (A' & B' & _). split; congruence.
  Qed.

  (** One step of the loop. *)
  Lemma load_step base h : usable base h -> t_id base <> ""%string -> t_name base <> ""%string ->
    exists h' t, ext h h' /\ standardized h h' base t /\
      forall bases acc, load_tasks (base :: bases) acc h = load_tasks bases (sdict_set acc (t_id base) t) h'.
  Proof.
    intros U1 Ni Nn. destruct (usable_ready _ _ U1) as (dx & dy & mi & R & _).
    destruct (ready_metadata _ _ _ _ _ R) as (h1 & m & M & X1 & I1 & N1 & _).
    assert (E1 : task_name base h = (h1, Ok (t_name base))) by (destruct (task_properties _ _ _ _ M) as (_ & Q & _); now rewrite Q, N1).
    assert (R1 := ready_ext _ _ _ _ _ _ X1 R). destruct (step_id _ _ _ _ _ R1) as (h2 & E2 & X2).
    assert (X02 : ext h h2) by (eapply ext_trans; eauto). assert (U3 := usable_ext _ _ _ X02 U1).
    destruct (rescale_derived base (Some (t_name base)) (Some (t_id base)) h2 U3) as (h3 & t & E3 & D).
    assert (X3 := derived_heap _ _ _ _ _ _ _ _ _ _ D).
    assert (S : standardized h2 h3 base t).
    { apply entry_derived; auto. destruct D as (Ut & L & a1 & m1 & a2 & m2 & M1 & M2 & I & N & Rest). split; [exact Ut|]. split; [exact L|].
      exists a1, m1, a2, m2. split; [exact M1|]. split; [exact M2|]. destruct (metadata_inv _ _ _ _ M1) as (A & B & _).
      rewrite A in I. rewrite B in N. split; [exact I|]. split; [exact N|]. exact Rest. }
    assert (Ut : usable t h3) by apply S. destruct (usable_ready _ _ Ut) as (dx' & dy' & mi' & R' & _).
    destruct (step_id _ _ _ _ _ R') as (h4 & E4 & X4). destruct (standardized_id _ _ _ _ S) as [It _].
    exists h4, t. split; [repeat (eapply ext_trans; [eassumption|]); apply ext_refl|].
    split.
    - unfold standardized. apply (derived_later _ _ _ h3); [exact X4|]. apply (derived_ext _ _ h h2); [exact U1|exact X02|exact S].
    - intros bases acc. cbn [load_tasks]. unfold pbind at 1. rewrite E1. unfold pbind at 1. rewrite E2. unfold pbind at 1. rewrite E3.
      unfold pbind at 1. rewrite E4, It. reflexivity.
  Qed.

  Lemma load_ok bases : forall acc h, Forall (fun t => usable t h) bases ->
    Forall (fun t => t_id t <> ""%string /\ t_name t <> ""%string) bases -> NoDup (map fst acc ++ map t_id bases) ->
    exists h' d, load_tasks bases acc h = (h', Ok (acc ++ d)%list) /\ ext h h' /\
      Forall2 (fun b kt => fst kt = t_id b /\ standardized h h' b (snd kt)) bases d.
  Proof.
    induction bases as [|base bases IH]; intros acc h U N D.
    - exists h, []. cbn. rewrite app_nil_r. split; [reflexivity|]. split; [apply ext_refl|constructor].
    - inversion U as [|? ? U1 U2]; inversion N as [|? ? [Ni Nn] N2]; subst.
      destruct (load_step base h U1 Ni Nn) as (h1 & t & X1 & S & E).
      cbn [map] in D. assert (Fresh : ~ In (t_id base) (map fst acc)).
      { intros I. apply NoDup_remove_2 in D. apply D. apply in_or_app. auto. }
      destruct (IH (acc ++ [(t_id base, t)])%list h1) as (h2 & d & E2 & X2 & F).
      + eapply Forall_impl; [|exact U2]. intros u. apply usable_ext, X1.
      + exact N2.
      + rewrite map_app. cbn. rewrite <- app_assoc. exact D.
      + exists h2, ((t_id base, t) :: d). split; [|split].
        * rewrite E, sdict_set_fresh by exact Fresh. rewrite E2, <- app_assoc. reflexivity.
        * eapply ext_trans; eauto.
        * constructor.
          -- cbn. split; [reflexivity|]. unfold standardized. eapply derived_later; eauto.
          -- clear - F X1 U2. induction F as [|a b l l' [A B] F IH]; constructor.
             ++ inversion U2; subst. split; [exact A|]. unfold standardized in *. eapply derived_ext; eauto.
             ++ inversion U2; subst. auto.
  Qed.

  (** A task without an acceptable mutual information ends the loading. *)
  Lemma load_fails pre base post : forall acc h e, Forall (fun t => usable t h) pre ->
    Forall (fun t => t_id t <> ""%string /\ t_name t <> ""%string) pre -> listed h e base -> ~ informed base ->
    exists h', load_tasks (pre ++ base :: post) acc h = (h', Err ValidationError).
  Proof.
    induction pre as [|b pre IH]; intros acc h e U N L B.
    - destruct (uninformed_metadata _ _ _ L B) as (h' & M & _). exists h'. cbn. unfold pbind at 1, task_name, pbind at 1. now rewrite M.
    - inversion U as [|? ? U1 U2]; inversion N as [|? ? [Ni Nn] N2]; subst.
      destruct (load_step b h U1 Ni Nn) as (h1 & t & X1 & S & E). cbn [app]. rewrite E.
      apply (IH _ h1 e); [eapply Forall_impl; [|exact U2]; intros u; apply usable_ext, X1|exact N2|eapply listed_ext; eauto|exact B].
  Qed.

  (** Loading a list of tasks which are all listed. *)
  Lemma load_listed es (bases : list (task J)) h : Forall2 (listed h) es bases -> Forall (fun e => 1 <= snd (fst e) /\ 1 <= snd e) es ->
    Forall (fun e => entry_id e <> ""%string /\ entry_name e <> ""%string) es -> NoDup (map entry_id es) ->
    (Forall informed bases -> exists h' d, load_tasks bases [] h = (h', Ok d) /\ ext h h' /\
       Forall2 (fun b kt => fst kt = t_id b /\ standardized h h' b (snd kt)) bases d) /\
    (~ Forall informed bases -> exists h', load_tasks bases [] h = (h', Err ValidationError)).
  Proof.
    intros L P N D.
    assert (Ids : map t_id bases = map entry_id es).
    { clear - L. induction L as [|e b es bs H L IH]; cbn; [reflexivity|]. rewrite IH. f_equal. apply H. }
    assert (Ns : Forall (fun t : task J => t_id t <> ""%string /\ t_name t <> ""%string) bases).
    { clear - L N. induction L as [|e b es bs (A & B & _) L IH]; constructor; inversion N; subst; auto. rewrite A, B. auto. }
    split.
    - intros I. destruct (load_ok bases [] h) as (h' & d & E & R).
      + clear - L P I. induction L as [|e b es bs H L IH]; constructor; inversion P; inversion I; subst; auto. eapply listed_usable; eauto; tauto.
      + exact Ns.
      + cbn. rewrite Ids. exact D.
      + exists h', d. auto.
    - intros I.
      assert (S : exists pre b post e, bases = (pre ++ b :: post)%list /\ Forall (fun t => usable t h) pre /\ listed h e b /\ ~ informed b).
      { clear - L P I. induction L as [|e b es bs H L IH]; [destruct I; constructor|]. inversion P as [|? ? [P1 P2] P3]; subst.
        destruct (classic (informed b)) as [Ib|Nb].
        - destruct IH as (pre & b' & post & e' & -> & U & H' & N); [exact P3|intros F; apply I; constructor; auto|].
          exists (b :: pre), b', post, e'. split; [reflexivity|]. split; [|auto]. constructor; [eapply listed_usable; eauto|exact U].
        - exists [], b, bs, e. auto. }
      destruct S as (pre & b & post & e & -> & U & H & B). apply (load_fails pre b post [] h e U); auto.
      apply Forall_app in Ns. apply Ns.
  Qed.
End Load.

(** ** Names of tasks *)
Section Names.
  Context {J : prng}.
  Implicit Types base t : task J.
  Definition has_name (p : prog (task J)) (n : string) : Prop := forall h h' t, p h = (h', Ok t) -> t_name t = n.

  Lemma task_name_ok t h h' n : task_name t h = (h', Ok n) -> n = t_name t.
  Proof. unfold task_name. intros H. inv_prog. destruct (metadata_inv _ _ _ _ E) as (_ & -> & _). reflexivity. Qed.
  Lemma or_name_none (p : prog string) h h' n : or_name None p h = (h', Ok n) -> p h = (h', Ok n).
  Proof. exact (fun H => H). Qed.

  Ltac named := intros h h' t H; inv_prog; repeat match goal with
    | H : or_name None _ _ = (_, Ok _) |- _ => apply or_name_none in H; inv_prog
    | H : task_name _ _ = (_, Ok _) |- _ => apply task_name_ok in H; subst end; cbn [t_name]; try reflexivity.

  Lemma name_asinh base : has_name (asinh base) ("Asinh @ " ++ t_name base)%string.
  Proof. unfold asinh, transform_asinh_task. named. Qed.
  Lemma name_half base : has_name (half_cubed base) ("Half-cube @ " ++ t_name base)%string.
  Proof. unfold half_cubed, transform_half_cube_task. named. Qed.
  Lemma name_cdf erf base : has_name (normal_cdfise erf base) ("Normal CDF @ " ++ t_name base)%string.
  Proof. unfold normal_cdfise, transform_normal_cdf_task. named. Qed.
  Lemma name_wiggly base : has_name (wigglify base) ("Wiggly @ " ++ t_name base)%string.
  Proof. unfold wigglify, transform_wiggly_task. named. Qed.
  Lemma name_spiral expm base : has_name (spiralise expm base) ("Spiral @ " ++ t_name base)%string.
  Proof. unfold spiralise, transform_spiral_task. named. Qed.
  Lemma name_swissroll base n : has_name (transform_swissroll_task base n) n.
  Proof. unfold transform_swissroll_task. named. Qed.
  Lemma name_pret base : has_name (pret base) (t_name base).
  Proof. intros h h' t H. apply pret_ok in H. now destruct H as [_ ->]. Qed.
  Lemma name_binormal F eigvals mvn r : has_name (task_bivariate_normal (J := J) F eigvals mvn r) "Bivariate normal 1 × 1".
  Proof. unfold task_bivariate_normal. named. Qed.
  Lemma name_bimodal F erf eigvals mvn r : has_name (task_bimodal_gaussians (J := J) F erf eigvals mvn r) "Bimodal 1 × 1".
  Proof. unfold task_bimodal_gaussians. named. Qed.
  Lemma name_additive F D r : has_name (task_additive_noise (J := J) F D r) ("Uniform 1 × 1 (additive noise=" ++ float_repr F r ++ ")")%string.
  Proof. unfold task_additive_noise. named. Qed.
  Lemma name_dense F eigvals mvn d : has_name (dense (J := J) F eigvals mvn d) ("Multinormal " ++ dims_str d d ++ " (dense)")%string.
  Proof. unfold dense, task_multinormal_dense. named. Qed.
  Lemma name_pair F eigvals mvn d : has_name (two_pair (J := J) F eigvals mvn d) ("Multinormal " ++ dims_str d d ++ " (2-pair)")%string.
  Proof. unfold two_pair, task_multinormal_2pair, task_multinormal_sparse. named. all: cbn in *; inv_prog; reflexivity. Qed.
  Lemma name_identity eigvals psi lg mvt d df : has_name (identity_student (J := J) eigvals psi lg mvt d df)
    ("Student-t " ++ dims_str d d ++ " (dof=" ++ int_str df ++ ")")%string.
  Proof. unfold identity_student, task_student_identity. named. Qed.
  Lemma has_name_then p (q : task J -> prog (task J)) n pre : has_name p n -> (forall t, has_name (q t) (pre ++ t_name t)%string) ->
    has_name (pbind p q) (pre ++ n)%string.
  Proof. intros H K h h' t E. apply pbind_ok in E. destruct E as (h1 & u & E1 & E2). rewrite (K _ _ _ _ E2), (H _ _ _ E1). reflexivity. Qed.

  (** ** Programs giving the task of an entry *)
  Definition gives (p : prog (task J)) (h : dheap) (e : entry) (sure : bool) : Prop :=
    exists h' t, p h = (h', Ok t) /\ ext h h' /\ listed h' e t /\ (sure = true -> usable t h').

  Lemma makes_gives p h i n dx dy : makes p h dx dy -> has_id p i -> has_name p n -> gives p h (i, n, dx, dy) true.
  Proof.
    intros (h' & t & E & X & U & Dx & Dy) I N. exists h', t. split; [exact E|]. split; [exact X|]. split; [|auto].
    assert (K := usable_listed h' t dx dy U Dx Dy). rewrite (I _ _ _ E), (N _ _ _ E) in K. exact K.
  Qed.
  Lemma gives_weaken p h e : gives p h e true -> gives p h e false.
  Proof. intros (h' & t & E & X & L & _). exists h', t. split; [exact E|]. split; [exact X|]. split; [exact L|discriminate]. Qed.

  Lemma sequence_gives (ps : list (prog (task J))) es : forall h0 h, ext h0 h ->
    Forall2 (fun p es => forall h, ext h0 h -> gives p h (fst es) (snd es)) ps es ->
    exists h' l, sequence ps h = (h', Ok l) /\ ext h h' /\
      Forall2 (fun es t => listed h' (fst es) t /\ (snd es = true -> usable t h')) es l.
  Proof.
    intros h0 h X F. revert h X. induction F as [|p [e b] ps es G F IH]; intros h X; cbn [sequence].
    - exists h, []. split; [reflexivity|]. split; [apply ext_refl|constructor].
    - destruct (G h X) as (h1 & t & E & X1 & L & U). cbn [fst snd] in *.
      destruct (IH h1) as (h2 & l & E2 & X2 & Ls); [eapply ext_trans; eauto|].
      exists h2, (t :: l). unfold pbind, pret. rewrite E, E2. split; [reflexivity|]. split; [eapply ext_trans; eauto|].
      constructor; [|exact Ls]. cbn [fst snd]. split; [eapply listed_ext; eauto|]. intros B. eapply usable_ext; [exact X2|auto].
  Qed.
End Names.

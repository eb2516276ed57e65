(** The tasks with noise. *)
From Coq Require Import String Lia Lra Classical.
From Verif Require Import Base BaseLemmas UtilsModel JaxModel SamplersModel GaussianModel MatrixUtilsModel BmmModel MultivariateModel BenchmarkModel BenchmarkSpec
  BenchmarkProofs BenchmarkThms TasksModel TasksSpec TasksProofs TasksThms MixturesModel PaperModel RulesModel OutliersModel DiscreteSpec OutliersSpec BmmSpec SamplersProofs BmmProofs
  OutliersThms FiguresScale ConfigModel ConfigSpec ConfigThms OutliersTasksSpec.
From mathcomp Require Import ssreflect.
From Verif Require Import MixturesSpec MixturesProofs OutliersFactor OutliersMade.
Open Scope R_scope.
Local Notation length := List.length.

Section Store.
  Context {J : prng}.

  (** A task in a heap whose next dictionary is its own. *)
  Definition task_of (s : sampler J) (e : noisy) (p : nat) : task J :=
    {| t_sampler := s; t_id := n_id e; t_name := n_id e; t_params := Some p |}.
  Definition makes (m : prog (task J)) (s : sampler J) (e : noisy) : Prop :=
    forall h, m h = ((h ++ [n_params e])%list, Ok (task_of s e (length h))).
  Definition reads (s : sampler J) (mi : fl) : Prop := dim_x s = Ok 2%Z /\ dim_y s = Ok 2%Z /\ mutual_information s = Ok mi.

  Lemma own_params (h : dheap) d : dread (h ++ [d]) (length h) = d.
  Proof. unfold dread. rewrite app_nth2; [|lia]. now rewrite PeanoNat.Nat.sub_diag. Qed.
  Lemma read_id s e mi h p : reads s mi -> dread h p = n_params e -> n_params e <> [] ->
    task_id (task_of s e p) h = (h, if match mi with Fin r => Rleb 0 r | PInf => true | _ => false end then Ok (n_id e) else Err ValidationError).
  Proof.
    intros (Dx & Dy & M) E N. unfold task_id, metadata, pbind, lift. cbn [task_of t_sampler]. rewrite Dx Dy M.
    unfold or_dict. cbn [task_of t_params]. rewrite E. destruct (n_params e); [tauto|].
    unfold non_negative_float. destruct mi as [r| | |]; try reflexivity. now destruct (Rleb 0 r).
  Qed.
  Lemma acceptable_bool mi : acceptable mi <-> match mi with Fin r => Rleb 0 r | PInf => true | _ => false end = true.
  Proof. destruct mi as [r| | |]; cbn; [symmetry; apply Rleb_true|tauto|split; [tauto|discriminate]|split; [tauto|discriminate]]. Qed.

  Record built := { b_sampler : sampler J; b_entry : noisy; b_mi : fl }.
  Definition good (m : prog (task J)) (b : built) : Prop :=
    makes m (b_sampler b) (b_entry b) /\ reads (b_sampler b) (b_mi b) /\ n_params (b_entry b) <> [].
  Fixpoint tasks_at (bs : list built) (n : nat) : sdict (task J) :=
    match bs with [] => [] | b :: bs => (n_id (b_entry b), task_of (b_sampler b) (b_entry b) n) :: tasks_at bs (S n) end.
  Lemma tasks_at_keys bs : forall n, map fst (tasks_at bs n) = map (fun b => n_id (b_entry b)) bs.
  Proof. induction bs as [|b bs IH]; intros n; cbn; [reflexivity|]. now rewrite IH. Qed.

  Lemma store_ok ms bs : Forall2 good ms bs -> Forall (fun b => acceptable (b_mi b)) bs ->
    forall acc h, NoDup (map fst acc ++ map (fun b => n_id (b_entry b)) bs) ->
    store_tasks ms acc h = ((h ++ map (fun b => n_params (b_entry b)) bs)%list, Ok (acc ++ tasks_at bs (length h))%list).
  Proof.
    induction 1 as [|m b ms bs (M & Rd & P) _ IH]; intros A acc h N.
    - cbn. now rewrite !app_nil_r.
    - inversion A as [|? ? A1 A2]; subst. cbn [store_tasks]. unfold pbind at 1. rewrite M.
      unfold pbind at 1. rewrite (read_id _ _ _ _ _ Rd (own_params _ _) P). rewrite (proj1 (acceptable_bool _) A1). cbn [map] in N.
      rewrite sdict_set_fresh; [|intros I; apply NoDup_remove_2 in N; apply N, in_or_app; auto].
      rewrite IH; [|exact A2|rewrite map_app; cbn; rewrite <- app_assoc; exact N].
      cbn [map tasks_at]. rewrite <- !app_assoc. rewrite app_length. cbn [length app]. now rewrite PeanoNat.Nat.add_1_r.
  Qed.
  Lemma store_fails ms bs : Forall2 good ms bs -> ~ Forall (fun b => acceptable (b_mi b)) bs ->
    forall acc h, exists h', store_tasks ms acc h = (h', Err ValidationError).
  Proof.
    induction 1 as [|m b ms bs (M & Rd & P) _ IH]; intros A acc h; [destruct A; constructor|].
    cbn [store_tasks]. unfold pbind at 1. rewrite M. unfold pbind at 1. rewrite (read_id _ _ _ _ _ Rd (own_params _ _) P).
    destruct (match b_mi b with Fin r => Rleb 0 r | PInf => true | _ => false end) eqn:E; [|eauto].
    apply IH. intros F. apply A. constructor; [now apply acceptable_bool|exact F].
  Qed.

  Lemma tasks_described bs : forall n pre post, n = length pre -> Forall2 (fun b kt => fst kt = n_id (b_entry b) /\ t_sampler (snd kt) = b_sampler b /\
    described (snd kt) (pre ++ map (fun b => n_params (b_entry b)) bs ++ post)%list (n_id (b_entry b)) (n_id (b_entry b)) (n_params (b_entry b))) bs (tasks_at bs n).
  Proof.
    induction bs as [|b bs IH]; intros n pre post ->; cbn [tasks_at]; constructor.
    - split; [reflexivity|]. split; [reflexivity|]. split; [reflexivity|]. split; [reflexivity|]. exists (length pre). split; [reflexivity|].
      unfold dread. rewrite app_nth2; [|lia]. now rewrite PeanoNat.Nat.sub_diag.
    - assert (Q := IH (S (length pre)) (pre ++ [n_params (b_entry b)])%list post ltac:(rewrite app_length; cbn; lia)).
      cbn [map]. rewrite <- app_assoc in Q. exact Q.
  Qed.
End Store.

Section Scale.
  Context {J : prng}.
  Lemma scale_ok (d : sdict (task J)) : forall h, Forall (fun kb => usable (snd kb) h) d ->
    Forall (fun kb => t_id (snd kb) <> ""%string /\ t_name (snd kb) <> ""%string) d ->
    exists h' d', scale_tasks d h = (h', Ok d') /\ ext h h' /\
      Forall2 (fun kb kt => fst kt = fst kb /\ standardized h h' (snd kb) (snd kt)) d d'.
  Proof.
    induction d as [|[k base] d IH]; intros h U N.
    - exists h, []. split; [reflexivity|]. split; [apply ext_refl|constructor].
    - inversion U as [|? ? U1 U2]; inversion N as [|? ? [Ni Nn] N2]; subst. cbn [snd] in *.
      destruct (usable_ready _ _ U1) as (dx & dy & mi & Rd & _).
      destruct (ready_metadata _ _ _ _ _ Rd) as (h1 & m & M & X1 & I1 & N1 & _).
      assert (E1 : task_name base h = (h1, Ok (t_name base))) by (destruct (task_properties _ _ _ _ M) as (_ & Q & _); now rewrite Q N1).
      assert (R1 := ready_ext _ _ _ _ _ _ X1 Rd). destruct (step_id _ _ _ _ _ R1) as (h2 & E2 & X2).
      assert (X02 : ext h h2) by (eapply ext_trans; eauto). assert (U3 := usable_ext _ _ _ X02 U1).
      destruct (rescale_derived base (Some (t_name base)) (Some (t_id base)) h2 U3) as (h3 & t & E3 & D).
      assert (X3 := derived_heap _ _ _ _ _ _ _ _ _ _ D).
      assert (S : standardized h2 h3 base t).
      { apply entry_derived; auto. destruct D as (Ut & L & a1 & m1 & a2 & m2 & M1 & M2 & I & Nm & Rest). split; [exact Ut|]. split; [exact L|].
        exists a1, m1, a2, m2. split; [exact M1|]. split; [exact M2|]. destruct (metadata_inv _ _ _ _ M1) as (A & B & _).
        rewrite A in I. rewrite B in Nm. split; [exact I|]. split; [exact Nm|]. exact Rest. }
      assert (X03 : ext h h3) by (eapply ext_trans; eauto).
      destruct (IH h3) as (h4 & d' & E4 & X4 & F); [eapply Forall_impl; [|exact U2]; intros u; apply usable_ext, X03|exact N2|].
      exists h4, ((k, t) :: d'). split; [|split].
      + cbn [scale_tasks]. unfold pbind at 1. rewrite E1. unfold pbind at 1. rewrite E2. unfold pbind at 1. rewrite E3.
        unfold pbind at 1. rewrite E4. reflexivity.
      + eapply ext_trans; eauto.
      + constructor.
        * cbn. split; [reflexivity|]. unfold standardized. apply (derived_later _ _ _ h3); [exact X4|]. apply (derived_ext _ _ h h2); [exact U1|exact X02|exact S].
        * clear - F X03 U2. induction F as [|a b l l' [A B] F IH]; constructor.
          -- inversion U2; subst. split; [exact A|]. unfold standardized in *. eapply derived_ext; eauto.
          -- apply IH. now inversion U2.
  Qed.
End Scale.

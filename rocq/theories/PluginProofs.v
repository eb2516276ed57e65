(** The plug-in mutual information: bounds and symmetries. *)
From Coq Require Import Permutation.
From Coquelicot Require Rcomplements.
From Verif Require Import Base BaseLemmas UtilsModel UtilsSpec HistogramSpec.
Open Scope R_scope.

Lemma filter_length_le {A} (f g : A -> bool) l :
  (forall x, In x l -> f x = true -> g x = true) -> (length (filter f l) <= length (filter g l))%nat.
Proof.
  induction l as [|x l IH]; intros H; simpl; [lia|].
  pose proof (IH (fun y Hy => H y (or_intror Hy))).
  destruct (f x) eqn:E; destruct (g x) eqn:E2; simpl; try lia.
  rewrite (H x (or_introl eq_refl) E) in E2. discriminate.
Qed.

Lemma filter_pos {A} (f : A -> bool) l x : In x l -> f x = true -> 0 < INR (length (filter f l)).
Proof.
  intros H E. apply lt_0_INR. assert (Hin : In x (filter f l)) by (apply filter_In; auto).
  destruct (filter f l); [destruct Hin|simpl; lia].
Qed.

Lemma rsum_map_ext {A} (f g : A -> R) l : (forall x, In x l -> f x = g x) -> rsum (map f l) = rsum (map g l).
Proof. intros H. f_equal. apply map_ext_in, H. Qed.

Lemma rsum_indicator {A} (d : forall a b : A, {a = b} + {a <> b}) (f : A -> R) U a :
  NoDup U -> In a U -> rsum (map (fun u => (if d a u then 1 else 0) * f u) U) = f a.
Proof.
  induction 1 as [|u U Hu HU IH]; intros Hin; [destruct Hin|].
  cbn [map]. rewrite rsum_cons. destruct (d a u) as [->|n].
  - replace (rsum (map (fun u0 => (if d u u0 then 1 else 0) * f u0) U)) with 0; [lra|].
    symmetry. rewrite (rsum_map_ext _ (fun _ => 0)); [rewrite rsum_const; lra|].
    intros x Hx. destruct (d u x) as [<-|]; [contradiction|lra].
  - destruct Hin as [->|Hin]; [congruence|]. rewrite IH by assumption. lra.
Qed.

Lemma rsum_indicator_le {A} (d : forall a b : A, {a = b} + {a <> b}) (f : A -> R) U a :
  NoDup U -> 0 <= f a -> rsum (map (fun u => (if d a u then 1 else 0) * f u) U) <= f a.
Proof.
  induction 1 as [|u U Hu HU IH]; intros H0.
  { cbn. exact H0. }
  cbn [map]. rewrite rsum_cons. destruct (d a u) as [->|n].
  - replace (rsum (map (fun u0 => (if d u u0 then 1 else 0) * f u0) U)) with 0; [lra|].
    symmetry. rewrite (rsum_map_ext _ (fun _ => 0)); [rewrite rsum_const; lra|].
    intros x Hx. destruct (d u x) as [<-|]; [contradiction|lra].
  - specialize (IH H0). lra.
Qed.

(** Summing over labels weighted by their number of occurrences is summing over
    the sample. *)
Lemma sum_over_occurrences {S A} (d : forall a b : A, {a = b} + {a <> b}) (k : S -> A) (f : A -> R) U s :
  NoDup U -> (forall x, In x s -> In (k x) U) ->
  rsum (map (fun u => INR (length (filter (fun x => if d (k x) u then true else false) s)) * f u) U)
  = rsum (map (fun x => f (k x)) s).
Proof.
  intros HU. induction s as [|x s IH]; intros Hin.
  - cbn [filter length map]. rewrite (rsum_map_ext _ (fun _ => 0)); [rewrite rsum_const; cbn; lra|].
    intros; cbn; lra.
  - cbn [map]. rewrite rsum_cons. rewrite <- IH by (intros; apply Hin; right; assumption).
    rewrite <- (rsum_indicator d f U (k x) HU) by (apply Hin; left; reflexivity).
    rewrite <- rsum_plus. apply rsum_map_ext. intros u Hu. cbn [filter].
    destruct (d (k x) u); cbn [length]; [rewrite S_INR|]; lra.
Qed.

Lemma ln_le_minus1 t : 0 < t -> ln t <= t - 1.
Proof.
  intros Ht. pose proof (exp_ineq1_le (ln t)) as H. rewrite exp_ln in H by assumption. lra.
Qed.

Lemma ln_eq_minus1 t : 0 < t -> ln t = t - 1 -> t = 1.
Proof.
  intros Ht H. destruct (Req_dec (ln t) 0) as [E|E]; [lra|].
  pose proof (exp_ineq1 _ E) as H1. rewrite exp_ln in H1 by assumption. lra.
Qed.

Section PluginThms.
  Context {A B : Type} (da : forall a a' : A, {a = a'} + {a <> a'})
          (db : forall b b' : B, {b = b'} + {b <> b'}).

  Let na (a : A) (s : list (A * B)) := num (is_a da (B := B) a) s.
  Let nb (b : B) (s : list (A * B)) := num (is_b db (A := A) b) s.
  Let nab (a : A) (b : B) (s : list (A * B)) := num (fun r => is_a da a r && is_b db b r) s.

  Lemma na_pos q s : In q s -> 0 < na (fst q) s.
  Proof. intros H. apply (filter_pos _ _ q); auto. unfold is_a. destruct (da _ _); congruence. Qed.
  Lemma nb_pos q s : In q s -> 0 < nb (snd q) s.
  Proof. intros H. apply (filter_pos _ _ q); auto. unfold is_b. destruct (db _ _); congruence. Qed.
  Lemma nab_pos q s : In q s -> 0 < nab (fst q) (snd q) s.
  Proof.
    intros H. apply (filter_pos _ _ q); auto. unfold is_a, is_b.
    destruct (da _ _), (db _ _); simpl; congruence.
  Qed.
  Lemma na_nonneg a s : 0 <= na a s. Proof. apply pos_INR. Qed.
  Lemma nb_nonneg b s : 0 <= nb b s. Proof. apply pos_INR. Qed.
  Lemma nab_nonneg a b s : 0 <= nab a b s. Proof. apply pos_INR. Qed.

  Lemma num_perm p s s' : Permutation s s' -> num (A := A) (B := B) p s = num p s'.
  Proof.
    intros H. unfold num. f_equal. induction H; simpl; auto; try congruence.
    - destruct (p x); simpl; congruence.
    - destruct (p x), (p y); reflexivity.
  Qed.

  Lemma plugin_perm s s' : Permutation s s' -> plugin_mi da db s = plugin_mi da db s'.
  Proof.
    intros H. unfold plugin_mi.
    rewrite (rmean_perm _ _ (Permutation_map _ H)). unfold rmean at 1 2. rewrite !map_length.
    f_equal. apply rsum_map_ext. intros q Hq.
    rewrite (Permutation_length H), !(num_perm _ _ _ H). reflexivity.
  Qed.

  (** Lists of distinct labels and pairs of labels occurring in the sample. *)
  Let ua (s : list (A * B)) := nodup da (map fst s).
  Let ub (s : list (A * B)) := nodup db (map snd s).
  Definition pair_dec : forall p q : A * B, {p = q} + {p <> q}.
  Proof. decide equality. Defined.
  Let uab (s : list (A * B)) := nodup pair_dec s.

  Lemma nab_is_pair a b s :
    nab a b s = INR (length (filter (fun r => if pair_dec r (a, b) then true else false) s)).
  Proof.
    unfold nab, num. f_equal. f_equal. apply filter_ext. intros [a' b']. unfold is_a, is_b. cbn.
    destruct (da a' a), (db b' b), (pair_dec (a', b') (a, b)); simpl; congruence.
  Qed.

  Lemma sum_pairs (f : A * B -> R) s :
    rsum (map (fun q => nab (fst q) (snd q) s * f q) (uab s)) = rsum (map f s).
  Proof.
    transitivity (rsum (map (fun u => INR (length (filter (fun x => if pair_dec x u then true else false) s)) * f u) (uab s))).
    - apply rsum_map_ext. intros [a b] _. cbn [fst snd]. now rewrite nab_is_pair.
    - apply (sum_over_occurrences pair_dec (fun x => x) f). apply NoDup_nodup. intros x Hx. apply nodup_In, Hx.
  Qed.

  Lemma sum_na (f : A -> R) s :
    rsum (map (fun a => na a s * f a) (ua s)) = rsum (map (fun q => f (fst q)) s).
  Proof.
    apply (sum_over_occurrences da fst f). apply NoDup_nodup. intros x Hx. apply nodup_In, in_map, Hx.
  Qed.
  Lemma sum_nb (f : B -> R) s :
    rsum (map (fun b => nb b s * f b) (ub s)) = rsum (map (fun q => f (snd q)) s).
  Proof.
    apply (sum_over_occurrences db snd f). apply NoDup_nodup. intros x Hx. apply nodup_In, in_map, Hx.
  Qed.

  Lemma sum_na_total s : rsum (map (fun a => na a s) (ua s)) = INR (length s).
  Proof.
    rewrite (rsum_map_ext _ (fun a => na a s * 1)) by (intros; lra).
    rewrite (sum_na (fun _ => 1)), rsum_const. lra.
  Qed.
  Lemma sum_nb_total s : rsum (map (fun b => nb b s) (ub s)) = INR (length s).
  Proof.
    rewrite (rsum_map_ext _ (fun a => nb a s * 1)) by (intros; lra).
    rewrite (sum_nb (fun _ => 1)), rsum_const. lra.
  Qed.

  Lemma rsum_incl (f : A * B -> R) l l' :
    NoDup l -> incl l l' -> (forall q, 0 <= f q) -> rsum (map f l) <= rsum (map f l').
  Proof.
    intros Hnd. revert l'. induction Hnd as [|q l Hq Hl IH]; intros l' Hi Hf.
    - apply rsum_nonneg. apply Forall_forall. intros v Hv. apply in_map_iff in Hv. destruct Hv as (x & <- & _). auto.
    - assert (Hin : In q l') by (apply Hi; left; reflexivity).
      apply in_split in Hin. destruct Hin as (l1 & l2 & ->).
      assert (rsum (map f l) <= rsum (map f (l1 ++ l2))).
      { apply IH; [|assumption]. intros r Hr. assert (Hr' := Hi r (or_intror Hr)).
        apply in_app_iff in Hr'. apply in_app_iff. destruct Hr' as [|[<-|]]; auto. contradiction. }
      cbn [map]. rewrite map_app in *. cbn [map] in *. rewrite rsum_cons, rsum_app in *. rewrite rsum_cons. lra.
  Qed.

  Lemma rsum_prod (f : A -> R) (g : B -> R) U V :
    rsum (map (fun q => f (fst q) * g (snd q)) (list_prod U V)) = rsum (map f U) * rsum (map g V).
  Proof.
    induction U as [|u U IH]; cbn [list_prod map]; [cbn; lra|].
    rewrite map_app, rsum_app, rsum_cons, IH, map_map. cbn [fst snd]. rewrite rsum_scal. lra.
  Qed.

  Lemma uab_incl s : incl (uab s) (list_prod (ua s) (ub s)).
  Proof.
    intros [a b] H. apply nodup_In in H. apply in_prod; apply nodup_In; apply in_map_iff; exists (a, b); auto.
  Qed.

  Definition ratio (s : list (A * B)) (q : A * B) : R :=
    na (fst q) s * nb (snd q) s / (INR (length s) * nab (fst q) (snd q) s).

  Lemma ratio_pos s q : In q s -> 0 < ratio s q.
  Proof.
    intros H. unfold ratio. assert (0 < INR (length s)) by (apply INR_length_pos; destruct s; [destruct H|discriminate]).
    apply Rdiv_lt_0_compat; apply Rmult_lt_0_compat; auto using na_pos, nb_pos, nab_pos.
  Qed.

  Lemma ratio_sum s : s <> [] -> rsum (map (ratio s) s) <= INR (length s).
  Proof.
    intros Hs. assert (Hn := INR_length_pos s Hs).
    rewrite <- (sum_pairs (ratio s)).
    rewrite (rsum_map_ext _ (fun q => / INR (length s) * (na (fst q) s * nb (snd q) s))).
    - rewrite rsum_scal.
      apply Rmult_le_reg_l with (INR (length s)); [assumption|].
      rewrite <- Rmult_assoc, Rinv_r, Rmult_1_l by lra.
      eapply Rle_trans. apply (rsum_incl (fun q => na (fst q) s * nb (snd q) s) _ (list_prod (ua s) (ub s))).
      + apply NoDup_nodup.
      + apply uab_incl.
      + intros. apply Rmult_le_pos; [apply na_nonneg|apply nb_nonneg].
      + rewrite (rsum_prod (fun a => na a s) (fun b => nb b s)), sum_na_total, sum_nb_total. lra.
    - intros q Hq. apply nodup_In in Hq. unfold ratio.
      assert (0 < nab (fst q) (snd q) s) by (apply nab_pos; assumption). field. lra.
  Qed.

  Lemma plugin_neg_ratio s :
    plugin_mi da db s = - rmean (map (fun q => ln (ratio s q)) s).
  Proof.
    unfold plugin_mi, rmean. rewrite !map_length.
    rewrite (rsum_map_ext _ (fun q => -1 * ln (ratio s q))); [rewrite rsum_scal; unfold Rdiv; lra|].
    intros q Hq. change (num (fun r => is_a da (fst q) r && is_b db (snd q) r) s) with (nab (fst q) (snd q) s).
    change (num (is_a da (fst q)) s) with (na (fst q) s). change (num (is_b db (snd q)) s) with (nb (snd q) s).
    assert (0 < INR (length s)) by (apply INR_length_pos; destruct s; [destruct Hq|discriminate]).
    pose proof (na_pos _ _ Hq). pose proof (nb_pos _ _ Hq). pose proof (nab_pos _ _ Hq).
    replace (INR (length s) * nab (fst q) (snd q) s / (na (fst q) s * nb (snd q) s)) with (/ ratio s q).
    - rewrite ln_Rinv by (apply ratio_pos; assumption). lra.
    - unfold ratio. field. repeat split; lra.
  Qed.

  Theorem plugin_nonneg s : s <> [] -> 0 <= plugin_mi da db s.
  Proof.
    intros Hs. rewrite plugin_neg_ratio. assert (Hn := INR_length_pos s Hs).
    assert (rmean (map (fun q => ln (ratio s q)) s) <= 0); [|lra].
    unfold rmean. rewrite map_length.
    assert (rsum (map (fun q => ln (ratio s q)) s) <= 0).
    { apply Rle_trans with (rsum (map (fun q => ratio s q - 1) s)).
      - apply rsum_le. intros q Hq. apply ln_le_minus1, ratio_pos, Hq.
      - rewrite rsum_minus, rsum_const. pose proof (ratio_sum s Hs). unfold ratio in *. lra. }
    unfold Rdiv. pose proof (Rinv_0_lt_compat _ Hn). nra.
  Qed.

  Lemma plugin_zero_ratio s : s <> [] -> plugin_mi da db s = 0 ->
    (forall q, In q s -> ratio s q = 1) /\ rsum (map (ratio s) s) = INR (length s).
  Proof.
    intros Hs H0. rewrite plugin_neg_ratio in H0. assert (Hn := INR_length_pos s Hs).
    assert (Hsum : rsum (map (fun q => ln (ratio s q)) s) = 0).
    { unfold rmean in H0. rewrite map_length in H0.
      apply Rmult_eq_reg_r with (/ INR (length s)); [|apply Rinv_neq_0_compat; lra].
      unfold Rdiv in H0. lra. }
    assert (Hz : rsum (map (fun q => (ratio s q - 1) - ln (ratio s q)) s) <= 0).
    { rewrite rsum_minus, rsum_minus, rsum_const, Hsum. pose proof (ratio_sum s Hs). unfold ratio in *. lra. }
    assert (Hnn : Forall (fun v => 0 <= v) (map (fun q => (ratio s q - 1) - ln (ratio s q)) s)).
    { apply Forall_forall. intros v Hv. apply in_map_iff in Hv. destruct Hv as (q & <- & Hq).
      pose proof (ln_le_minus1 _ (ratio_pos s q Hq)). lra. }
    pose proof (rsum_nonneg _ Hnn) as Hz2.
    assert (Hz3 := rsum_zero_all _ Hnn (Rle_antisym _ _ Hz Hz2)).
    assert (Hr : forall q, In q s -> ratio s q = 1).
    { intros q Hq. rewrite Forall_forall in Hz3. apply ln_eq_minus1; [apply ratio_pos, Hq|].
      assert (E := Hz3 _ (in_map (fun q => ratio s q - 1 - ln (ratio s q)) _ _ Hq)). cbn beta in E. lra. }
    split; [assumption|]. rewrite (rsum_map_ext _ (fun _ => 1) s Hr), rsum_const. lra.
  Qed.

  Lemma factorise_ratio s : s <> [] -> counts_factorise da db s -> forall q, In q s -> ratio s q = 1.
  Proof.
    intros Hs H q Hq. assert (Hn := INR_length_pos s Hs).
    specialize (H (fst q) (snd q) (in_map _ _ _ Hq) (in_map _ _ _ Hq)).
    pose proof (nab_pos _ _ Hq) as Hp. unfold ratio.
    change (num (is_a da (fst q)) s) with (na (fst q) s) in H.
    change (num (is_b db (snd q)) s) with (nb (snd q) s) in H.
    rewrite <- H. change (num (fun r => is_a da (fst q) r && is_b db (snd q) r) s) with (nab (fst q) (snd q) s).
    field. lra.
  Qed.

  Theorem plugin_zero_iff s : s <> [] -> (plugin_mi da db s = 0 <-> counts_factorise da db s).
  Proof.
    intros Hs. assert (Hn := INR_length_pos s Hs). split.
    - intros H0. destruct (plugin_zero_ratio s Hs H0) as [Hr Hsum].
      assert (Huab : rsum (map (fun q => na (fst q) s * nb (snd q) s) (uab s)) = INR (length s) * INR (length s)).
      { rewrite <- Hsum at 2. rewrite <- (sum_pairs (ratio s)), <- rsum_scal. apply rsum_map_ext.
        intros q Hq. apply nodup_In in Hq. pose proof (nab_pos _ _ Hq). unfold ratio. field. lra. }
      assert (Hall : forall a b, In a (map fst s) -> In b (map snd s) -> In (a, b) s).
      { intros a b Ha Hb. destruct (in_dec pair_dec (a, b) s) as [|Hno]; [assumption|exfalso].
        assert (Hle := rsum_incl (fun q => na (fst q) s * nb (snd q) s) ((a, b) :: uab s) (list_prod (ua s) (ub s))).
        rewrite (rsum_prod (fun a => na a s) (fun b => nb b s)), sum_na_total, sum_nb_total in Hle.
        cbn [map fst snd] in Hle. rewrite rsum_cons, Huab in Hle.
        assert (0 < na a s * nb b s).
        { apply in_map_iff in Ha. destruct Ha as (q & <- & Hq). apply in_map_iff in Hb. destruct Hb as (q' & <- & Hq').
          apply Rmult_lt_0_compat; [apply na_pos|apply nb_pos]; assumption. }
        cut (na a s * nb b s + INR (length s) * INR (length s) <= INR (length s) * INR (length s)); [lra|].
        apply Hle.
        - constructor; [|apply NoDup_nodup]. intros Hc. apply nodup_In in Hc. contradiction.
        - intros q [<-|Hq]; [|apply uab_incl, Hq]. apply in_prod; apply nodup_In; assumption.
        - intros. apply Rmult_le_pos; [apply na_nonneg|apply nb_nonneg]. }
      intros a b Ha Hb. specialize (Hr _ (Hall a b Ha Hb)). pose proof (nab_pos _ _ (Hall a b Ha Hb)) as Hp.
      unfold ratio in Hr. cbn [fst snd] in *.
      change (INR (length s) * nab a b s = na a s * nb b s).
      assert (E : na a s * nb b s = na a s * nb b s / (INR (length s) * nab a b s) * (INR (length s) * nab a b s))
        by (field; lra).
      rewrite Hr in E. lra.
    - intros H. rewrite plugin_neg_ratio.
      rewrite (map_ext_in _ (fun _ => 0)).
      + unfold rmean. rewrite rsum_const, map_length. unfold Rdiv. lra.
      + intros q Hq. rewrite (factorise_ratio s Hs H q Hq). apply ln_1.
  Qed.

  Lemma count_a_pairs s : INR (length (ua s)) = rsum (map (fun q => / na (fst q) s) s).
  Proof.
    rewrite <- (sum_na (fun a => / na a s)).
    rewrite (rsum_map_ext _ (fun _ => 1)); [rewrite rsum_const; lra|].
    intros a Ha. apply nodup_In in Ha. apply in_map_iff in Ha. destruct Ha as (q & <- & Hq).
    pose proof (na_pos _ _ Hq). field. lra.
  Qed.

  (** MI is at most the log of any bound on the number of labels. *)
  Theorem plugin_upper_a s (U : list A) :
    s <> [] -> incl (map fst s) U -> plugin_mi da db s <= ln (INR (length U)).
  Proof.
    intros Hs HU. assert (Hn := INR_length_pos s Hs).
    assert (HU0 : U <> []).
    { destruct s as [|q s']; [congruence|]. specialize (HU (fst q) (or_introl eq_refl)). destruct U; [destruct HU|discriminate]. }
    assert (HK := INR_length_pos U HU0). set (K := INR (length U)) in *.
    assert (Hk : INR (length (ua s)) <= K).
    { apply le_INR. apply NoDup_incl_length; [apply NoDup_nodup|]. intros a Ha. apply HU. apply nodup_In in Ha. assumption. }
    rewrite count_a_pairs in Hk.
    unfold plugin_mi, rmean. rewrite map_length.
    apply Rmult_le_reg_r with (INR (length s)); [assumption|].
    unfold Rdiv at 1. rewrite Rmult_assoc, Rinv_l, Rmult_1_r by lra.
    apply Rle_trans with (rsum (map (fun q => (ln K - 1) + (INR (length s) / K) * / na (fst q) s) s)).
    - apply rsum_le. intros q Hq.
      pose proof (na_pos _ _ Hq) as H1. pose proof (nb_pos _ _ Hq) as H2. pose proof (nab_pos _ _ Hq) as H3.
      change (num (is_a da (fst q)) s) with (na (fst q) s). change (num (is_b db (snd q)) s) with (nb (snd q) s).
      change (num (fun r => is_a da (fst q) r && is_b db (snd q) r) s) with (nab (fst q) (snd q) s).
      assert (H4 : nab (fst q) (snd q) s <= nb (snd q) s).
      { apply le_INR, filter_length_le. intros x _ E. apply andb_prop in E. apply E. }
      apply Rle_trans with (ln (INR (length s) / na (fst q) s)).
      + apply Rcomplements.ln_le.
        * apply Rdiv_lt_0_compat; apply Rmult_lt_0_compat; assumption.
        * apply Rmult_le_reg_r with (na (fst q) s * nb (snd q) s); [apply Rmult_lt_0_compat; assumption|].
          field_simplify; [|lra|lra]. apply Rmult_le_compat_l; lra.
      + replace (INR (length s) / na (fst q) s) with (K * (INR (length s) / K * / na (fst q) s)) by (field; lra).
        assert (0 < INR (length s) / K * / na (fst q) s).
        { apply Rmult_lt_0_compat; [apply Rdiv_lt_0_compat; assumption|apply Rinv_0_lt_compat; assumption]. }
        rewrite ln_mult by assumption. pose proof (ln_le_minus1 _ H). lra.
    - rewrite (rsum_plus (fun _ => ln K - 1) (fun q => INR (length s) / K * / na (fst q) s)), rsum_const, rsum_scal.
      assert (INR (length s) / K * rsum (map (fun q => / na (fst q) s) s) <= INR (length s) / K * K).
      { apply Rmult_le_compat_l; [|assumption]. apply Rlt_le, Rdiv_lt_0_compat; assumption. }
      replace (INR (length s) / K * K) with (INR (length s)) in H by (field; lra). lra.
  Qed.
End PluginThms.

Theorem plugin_swap {A B} da db (s : list (A * B)) :
  plugin_mi db da (map (fun q => (snd q, fst q)) s) = plugin_mi da db s.
Proof.
  unfold plugin_mi. rewrite map_map, map_length. cbn [fst snd]. f_equal. apply map_ext. intros q.
  assert (E : forall p, num p (map (fun q : A * B => (snd q, fst q)) s) = num (fun r => p (snd r, fst r)) s).
  { intros p. unfold num. f_equal. induction s as [|r s IH]; simpl; [reflexivity|].
    destruct (p (snd r, fst r)); simpl; congruence. }
  rewrite !E. unfold is_a, is_b. cbn [fst snd]. f_equal. f_equal.
  - f_equal. unfold num. f_equal. f_equal. apply filter_ext. intros r. apply andb_comm.
  - apply Rmult_comm.
Qed.

Theorem plugin_upper_b {A B} da db (s : list (A * B)) (V : list B) :
  s <> [] -> incl (map snd s) V -> plugin_mi da db s <= ln (INR (length V)).
Proof.
  intros Hs HV. rewrite <- plugin_swap. apply plugin_upper_a.
  - destruct s; [congruence|discriminate].
  - rewrite map_map. exact HV.
Qed.

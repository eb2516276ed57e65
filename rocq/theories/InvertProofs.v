(** Proofs about invert_mono. *)
From Coq Require Import Lia Lra.
From Verif Require Import Base BaseLemmas UtilsModel JaxModel SamplersModel GaussianModel MatrixUtilsModel TransformsModel TransformsSpec.
Open Scope R_scope.
Local Notation length := List.length.

Lemma while_inv {S} (cond : S -> bool) (step : S -> S) (P : S -> Prop) fuel : forall s s',
  P s -> (forall s, P s -> cond s = true -> P (step s)) -> while_loop cond step fuel s = Some s' -> P s' /\ cond s' = false.
Proof.
  induction fuel as [|fuel IH]; intros s s' Hs Hstep; cbn; destruct (cond s) eqn:E; try discriminate.
  - intros [= <-]. auto.
  - apply IH; auto.
  - intros [= <-]. auto.
Qed.

Lemma while_more {S} (cond : S -> bool) (step : S -> S) fuel : forall s s' fuel', (fuel <= fuel')%nat ->
  while_loop cond step fuel s = Some s' -> while_loop cond step fuel' s = Some s'.
Proof.
  induction fuel as [|fuel IH]; intros s s' [|fuel'] Hf; cbn; destruct (cond s) eqn:E; try discriminate; auto; try lia.
  apply IH. lia.
Qed.

Definition bracket (f : R -> R) (x_min x_max y : R) (xs : R * R) : Prop :=
  x_min <= fst xs <= snd xs /\ snd xs <= x_max /\ (fst xs = x_min \/ f (fst xs) < y) /\ (snd xs = x_max \/ y <= f (snd xs)).

Lemma cond_inside mid delta x0 x1 : g_cond mid delta (x0, x1) = true -> delta < Rabs (x1 - x0) /\ x0 < mid x0 x1 < x1.
Proof.
  cbn. rewrite !andb_true_iff, !Rltb_true. tauto.
Qed.

Lemma step_bracket mid f x_min x_max delta y s : bracket f x_min x_max y s -> g_cond mid delta s = true ->
  bracket f x_min x_max y (g_step mid f y s).
Proof.
  destruct s as [x0 x1]. unfold bracket. cbn [fst snd]. intros (H1 & H2 & H3 & H4) Hc.
  apply cond_inside in Hc as (_ & Hm). cbn. unfold Rltb. destruct (Rlt_dec (f (mid x0 x1)) y); cbn [fst snd];
    (split; [lra|]); (split; [lra|]); split; auto; right; lra.
Qed.

Lemma invert_bracket mid f x_min x_max delta fuel y x : x_min <= x_max ->
  invert_mono mid f x_min x_max delta fuel y = Some x ->
  exists x0 x1, x_min <= x0 <= x1 /\ x1 <= x_max /\ (x0 = x_min \/ f x0 < y) /\ (x1 = x_max \/ y <= f x1) /\
    x = mid x0 x1 /\ (x1 - x0 <= delta \/ x <= x0 \/ x1 <= x).
Proof.
  intros Hx. unfold invert_mono. destruct (while_loop _ _ _ _) as [[x0 x1]|] eqn:E; [|discriminate]. intros [= <-].
  apply (while_inv _ _ (bracket f x_min x_max y)) in E.
  - destruct E as ((H1 & H2 & H3 & H4) & Hc). cbn [fst snd] in *. exists x0, x1. do 4 (split; [assumption|]). split; [reflexivity|].
    cbn in Hc. apply andb_false_iff in Hc as [Hc|Hc]; [apply andb_false_iff in Hc as [Hc|Hc]|]; apply Rltb_false in Hc; auto.
    left. rewrite Rabs_pos_eq in Hc by lra. lra.
  - unfold bracket. cbn. split; [lra|]. split; [lra|]. auto.
  - intros s Hs Hc. eapply step_bracket; eauto.
Qed.

Lemma invert_fuel mid f x_min x_max delta fuel fuel' y x : (fuel <= fuel')%nat ->
  invert_mono mid f x_min x_max delta fuel y = Some x -> invert_mono mid f x_min x_max delta fuel' y = Some x.
Proof.
  intros Hf. unfold invert_mono. destruct (while_loop _ _ fuel _) as [s|] eqn:E; [|discriminate].
  rewrite (while_more _ _ _ _ _ _ Hf E). auto.
Qed.

(** *** Exact arithmetic *)

Lemma exact_terminates f delta y fuel : 0 < delta -> forall x0 x1,
  Rabs (x1 - x0) <= delta * 2 ^ fuel -> exists s, while_loop (g_cond exact_mid delta) (g_step exact_mid f y) fuel (x0, x1) = Some s.
Proof.
  intros Hd. induction fuel as [|fuel IH]; intros x0 x1 H.
  - cbn [while_loop]. destruct (g_cond exact_mid delta (x0, x1)) eqn:E; [|eauto]. apply cond_inside in E. cbn in H. lra.
  - cbn [while_loop]. destruct (g_cond exact_mid delta (x0, x1)) eqn:E; [|eauto]. apply cond_inside in E as [_ Hm].
    unfold exact_mid in Hm. cbn [pow] in H. rewrite Rabs_pos_eq in H by lra.
    cbn. unfold exact_mid. destruct (Rltb _ _); apply IH; rewrite Rabs_pos_eq by lra; lra.
Qed.

Lemma invert_terminates f x_min x_max delta y fuel : 0 < delta -> Rabs (x_max - x_min) <= delta * 2 ^ fuel ->
  exists x, invert_mono exact_mid f x_min x_max delta fuel y = Some x /\
    forall fuel', (fuel <= fuel')%nat -> invert_mono exact_mid f x_min x_max delta fuel' y = Some x.
Proof.
  intros Hd H. destruct (exact_terminates f delta y fuel Hd x_min x_max H) as [[x0 x1] E].
  assert (Ei : invert_mono exact_mid f x_min x_max delta fuel y = Some (exact_mid x0 x1)) by (unfold invert_mono; rewrite E; reflexivity).
  exists (exact_mid x0 x1). split; [exact Ei|]. intros fuel' Hf. eapply invert_fuel; eauto.
Qed.

Lemma invert_exact f x_min x_max delta fuel y x : 0 <= delta -> x_min <= x_max ->
  invert_mono exact_mid f x_min x_max delta fuel y = Some x ->
  exists x0 x1, x_min <= x0 <= x1 /\ x1 <= x_max /\ (x0 = x_min \/ f x0 < y) /\ (x1 = x_max \/ y <= f x1) /\
    Rabs (x - x0) <= delta / 2 /\ Rabs (x - x1) <= delta / 2 /\ x0 <= x <= x1.
Proof.
  intros Hd Hx E. destruct (invert_bracket _ _ _ _ _ _ _ _ Hx E) as (x0 & x1 & H1 & H2 & H3 & H4 & -> & H5).
  exists x0, x1. do 4 (split; [assumption|]). unfold exact_mid in *.
  assert (x1 - x0 <= delta) by (destruct H5 as [H5|[H5|H5]]; lra).
  repeat split; try lra; apply Rabs_le; lra.
Qed.

Lemma invert_close f x_min x_max delta fuel r x : 0 <= delta -> strictly_increasing_on x_min x_max f -> x_min <= r <= x_max ->
  invert_mono exact_mid f x_min x_max delta fuel (f r) = Some x -> Rabs (x - r) <= delta / 2.
Proof.
  intros Hd Hf Hr E. destruct (invert_bracket exact_mid f x_min x_max delta fuel (f r) x ltac:(lra) E) as (x0 & x1 & H1 & H2 & H3 & H4 & -> & H5).
  unfold exact_mid in *. assert (Hw : x1 - x0 <= delta) by (destruct H5 as [H5|[H5|H5]]; lra).
  assert (L : x0 <= r).
  { destruct (Rle_lt_dec x0 r) as [|Hlt]; [assumption|]. destruct H3 as [->|H3]; [lra|]. specialize (Hf r x0). lra. }
  assert (U : r <= x1).
  { destruct (Rle_lt_dec r x1) as [|Hlt]; [assumption|]. destruct H4 as [->|H4]; [lra|]. specialize (Hf x1 r). lra. }
  apply Rabs_le. lra.
Qed.

Lemma invert_below f x_min x_max delta fuel y x : 0 <= delta -> x_min <= x_max -> (forall u, x_min <= u <= x_max -> y <= f u) ->
  invert_mono exact_mid f x_min x_max delta fuel y = Some x -> Rabs (x - x_min) <= delta / 2.
Proof.
  intros Hd Hx Hf E. destruct (invert_exact _ _ _ _ _ _ _ Hd Hx E) as (x0 & x1 & H1 & H2 & [->|H3] & H4 & H5 & _); [exact H5|].
  specialize (Hf x0). lra.
Qed.

Lemma invert_above f x_min x_max delta fuel y x : 0 <= delta -> x_min <= x_max -> (forall u, x_min <= u <= x_max -> f u < y) ->
  invert_mono exact_mid f x_min x_max delta fuel y = Some x -> Rabs (x - x_max) <= delta / 2.
Proof.
  intros Hd Hx Hf E. destruct (invert_exact _ _ _ _ _ _ _ Hd Hx E) as (x0 & x1 & H1 & H2 & H3 & [->|H4] & _ & H6 & _); [exact H6|].
  specialize (Hf x1). lra.
Qed.

(** *** Monotonicity in the target, whatever the function *)

Lemma while_range mid f delta y fuel : midpoint_between mid -> forall x0 x1 a b, x0 <= x1 ->
  while_loop (g_cond mid delta) (g_step mid f y) fuel (x0, x1) = Some (a, b) -> x0 <= mid a b <= x1.
Proof.
  intros Hm x0 x1 a b Hx E.
  assert (H := while_inv (g_cond mid delta) (g_step mid f y) (fun s => x0 <= fst s <= snd s /\ snd s <= x1) fuel (x0, x1) (a, b)).
  cbn [fst snd] in H. destruct H as ((H1 & H2) & _).
  - lra.
  - intros [u v] Hs Hc. apply cond_inside in Hc as [_ Hc]. cbn [fst snd] in Hs. cbn. destruct (Rltb _ _); cbn; lra.
  - exact E.
  - specialize (Hm a b). lra.
Qed.

Lemma while_monotone mid f delta fuel y1 y2 : midpoint_between mid -> y1 <= y2 -> forall x0 x1 a1 b1 a2 b2, x0 <= x1 ->
  while_loop (g_cond mid delta) (g_step mid f y1) fuel (x0, x1) = Some (a1, b1) ->
  while_loop (g_cond mid delta) (g_step mid f y2) fuel (x0, x1) = Some (a2, b2) -> mid a1 b1 <= mid a2 b2.
Proof.
  intros Hm Hy. induction fuel as [|fuel IH]; intros x0 x1 a1 b1 a2 b2 Hx; cbn [while_loop];
    destruct (g_cond mid delta (x0, x1)) eqn:E; try discriminate; try (intros [= <- <-] [= <- <-]; lra).
  apply cond_inside in E as [_ Hc]. cbn. unfold Rltb.
  destruct (Rlt_dec (f (mid x0 x1)) y1), (Rlt_dec (f (mid x0 x1)) y2); try lra.
  - apply IH. lra.
  - intros E1 E2. apply while_range in E1; [|auto|lra]. apply while_range in E2; [|auto|lra]. lra.
  - apply IH. lra.
Qed.

Lemma invert_monotone mid f x_min x_max delta fuel y1 y2 a b : midpoint_between mid -> x_min <= x_max -> y1 <= y2 ->
  invert_mono mid f x_min x_max delta fuel y1 = Some a -> invert_mono mid f x_min x_max delta fuel y2 = Some b -> a <= b.
Proof.
  intros Hm Hx Hy. unfold invert_mono.
  destruct (while_loop _ (g_step mid f y1) _ _) as [[a1 b1]|] eqn:E1; [|discriminate].
  destruct (while_loop _ (g_step mid f y2) _ _) as [[a2 b2]|] eqn:E2; [|discriminate].
  intros [= <-] [= <-]. exact (while_monotone mid f delta fuel y1 y2 Hm Hy x_min x_max a1 b1 a2 b2 Hx E1 E2).
Qed.

(** *** Rounded arithmetic *)

Lemma filter_shrinks {A} (p q : A -> bool) (l : list A) a : (forall v, p v = true -> q v = true) -> In a l -> q a = true -> p a = false ->
  (length (filter p l) < length (filter q l))%nat.
Proof.
  intros Hpq Ha Hq Hp.
  assert (L : forall l', (length (filter p l') <= length (filter q l'))%nat).
  { induction l' as [|v l' IH]; cbn; [lia|]. destruct (p v) eqn:E; [rewrite (Hpq v E); cbn; lia|]. destruct (q v); cbn; lia. }
  induction l as [|v l IH]; [contradiction|]. cbn. destruct Ha as [->|Ha].
  - rewrite Hq, Hp. cbn. specialize (L l). lia.
  - specialize (IH Ha). destruct (p v) eqn:E; [rewrite (Hpq v E); cbn; lia|]. destruct (q v); cbn; lia.
Qed.

Lemma rounded_terminates mid f delta y (floats : list R) : (forall a b, In (mid a b) floats) -> forall fuel x0 x1,
  (length (filter (fun v => Rltb x0 v && Rltb v x1) floats) <= fuel)%nat ->
  exists s, while_loop (g_cond mid delta) (g_step mid f y) fuel (x0, x1) = Some s.
Proof.
  intros Hfl. induction fuel as [|fuel IH]; intros x0 x1 H; cbn [while_loop]; destruct (g_cond mid delta (x0, x1)) eqn:E; eauto;
    apply cond_inside in E as [_ Hm].
  - exfalso. assert (In (mid x0 x1) (filter (fun v => Rltb x0 v && Rltb v x1) floats)).
    { apply filter_In. split; [apply Hfl|]. rewrite andb_true_iff, !Rltb_true. lra. }
    destruct (filter _ _); [contradiction|cbn in H; lia].
  - cbn. assert (S : forall u v, (u = mid x0 x1 /\ v = x1) \/ (u = x0 /\ v = mid x0 x1) ->
      exists s, while_loop (g_cond mid delta) (g_step mid f y) fuel (u, v) = Some s).
    { intros u v Huv. apply IH.
      assert (Hlt : (length (filter (fun w => Rltb u w && Rltb w v) floats) < length (filter (fun v => Rltb x0 v && Rltb v x1) floats))%nat).
      { apply (filter_shrinks _ _ _ (mid x0 x1)); [|apply Hfl| |].
        - intros w. rewrite !andb_true_iff, !Rltb_true. destruct Huv as [[-> ->]|[-> ->]]; lra.
        - rewrite andb_true_iff, !Rltb_true. lra.
        - apply andb_false_iff. rewrite !Rltb_false. destruct Huv as [[-> ->]|[-> ->]]; lra. }
      lia. }
    destruct (Rltb _ _); apply S; auto.
Qed.

Lemma filter_length_le {A} (p : A -> bool) l : (length (filter p l) <= length l)%nat.
Proof. induction l as [|a l IH]; cbn; [lia|]. destruct (p a); cbn; lia. Qed.

Lemma invert_rounded mid f x_min x_max delta y (floats : list R) fuel : (forall a b, In (mid a b) floats) -> (length floats <= fuel)%nat ->
  exists x, invert_mono mid f x_min x_max delta fuel y = Some x.
Proof.
  intros Hfl Hf. destruct (rounded_terminates mid f delta y floats Hfl fuel x_min x_max) as [[x0 x1] E].
  - eapply Nat.le_trans; [apply filter_length_le|exact Hf].
  - unfold invert_mono. rewrite E. eauto.
Qed.

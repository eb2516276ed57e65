(** Lemmas about [binsearch] ([HighMiModel]). *)
From Verif Require Import Base BaseLemmas HighMiModel HighMiSpec.
Open Scope R_scope.

Lemma close_within v target delta : close v target delta = true <-> exists r, v = Fin r /\ within r target delta.
Proof.
  unfold close, within. destruct v as [r| | |]; try (split; [discriminate|intros (r & E & _); discriminate]).
  rewrite Rltb_true. split.
  - intros H. exists r. split; [reflexivity|]. apply Rabs_def2 in H. lra.
  - intros (r' & E & H). injection E as <-. apply Rabs_def1; lra.
Qed.
Lemma not_close v target delta : close v target delta = false <-> forall r, v = Fin r -> ~ within r target delta.
Proof.
  split.
  - intros H r -> W. assert (close (Fin r) target delta = true); [apply close_within; eauto|congruence].
  - intros H. destruct (close v target delta) eqn:E; [|reflexivity]. apply close_within in E as (r & -> & W). now destruct (H r eq_refl).
Qed.

Section Search.
  Variables (func : R -> result fl) (target delta : R) (uniform : nat -> R).
  Local Notation loop := (search_loop func target delta uniform).
  Local Notation find := (binsearch func target delta uniform).

  Lemma loop_sound n : forall s s', loop n s = Ok s' -> close (bs_value s) target delta = false ->
    close (bs_value s') target delta = true -> func (bs_mid s') = Ok (bs_value s').
  Proof.
    induction n as [|n IH]; intros s s' H N C; cbn [search_loop] in H.
    - injection H as <-. congruence.
    - destruct (func (bs_mid s)) as [v|[]] eqn:E; try discriminate.
      + destruct (close v target delta) eqn:Cv.
        * injection H as <-. exact E.
        * eapply IH; eauto.
      + eapply IH; eauto.
  Qed.
  Lemma search_sound lo hi n x : ~ within (-1000000000) target delta -> find lo hi n = Ok (Some x) ->
    exists v, func x = Ok (Fin v) /\ within v target delta.
  Proof.
    intros N H. unfold binsearch in H. destruct (loop _ _) as [s|e] eqn:E; [|discriminate]. cbn [bind] in H.
    destruct (close (bs_value s) target delta) eqn:C; [|discriminate]. injection H as <-.
    assert (D := C). apply close_within in D as (v & Ev & W). exists v. split; [|exact W].
    rewrite <- Ev. eapply loop_sound; eauto. cbn [bs_value]. apply not_close. intros r Er. now injection Er as <-.
  Qed.

  Lemma loop_range n : forall lo hi, (forall k, lo <= uniform k <= hi) -> forall s s', loop n s = Ok s' ->
    lo <= bs_min s <= hi -> lo <= bs_max s <= hi -> lo <= bs_mid s <= hi -> lo <= bs_mid s' <= hi.
  Proof.
    intros lo hi U. induction n as [|n IH]; intros s s' H A B C; cbn [search_loop] in H; [now injection H as <-|].
    destruct (func (bs_mid s)) as [v|[]] eqn:E; try discriminate.
    - destruct (close v target delta); [now injection H as <-|].
      apply IH in H; auto; cbn [bs_min bs_max bs_mid]; destruct (fl_ltb (Fin target) v); auto; lra.
    - apply IH in H; auto; cbn [bs_min bs_max bs_mid]; auto.
  Qed.
  Lemma search_range lo hi n x : lo <= hi -> (forall k, lo <= uniform k <= hi) -> find lo hi n = Ok (Some x) -> lo <= x <= hi.
  Proof.
    intros L U H. unfold binsearch in H. destruct (loop _ _) as [s|e] eqn:E; [|discriminate]. cbn [bind] in H.
    destruct (close (bs_value s) target delta); [|discriminate]. injection H as <-.
    eapply loop_range in E; eauto; cbn [bs_min bs_max bs_mid]; lra.
  Qed.

  Lemma loop_error n : forall s e, loop n s = Err e -> e <> ValueError /\ exists x, func x = Err e.
  Proof.
    induction n as [|n IH]; intros s e H; cbn [search_loop] in H; [discriminate|].
    destruct (func (bs_mid s)) as [v|e'] eqn:E.
    - destruct (close v target delta); [discriminate|eauto].
    - destruct e'; try (injection H as <-; split; [discriminate|eauto]). eauto.
  Qed.
  Lemma search_error lo hi n e : find lo hi n = Err e -> e <> ValueError /\ exists x, func x = Err e.
  Proof.
    unfold binsearch. destruct (loop _ _) as [s|e'] eqn:E; cbn [bind].
    - destruct (close _ _ _); discriminate.
    - intros H. injection H as <-. eauto using loop_error.
  Qed.

  (** Without exceptions: bisection *)
  Section Monotone.
    Variables (f : R -> R) (lo hi a b : R).
    Hypotheses (Hf : nondecreasing_on func f lo hi) (Hlo : lo <= a) (Hhi : b <= hi).
    Hypothesis Hw : forall x, a < x < b -> within (f x) target delta.

    Lemma loop_found n : a < b -> forall s, lo <= bs_min s <= a -> b <= bs_max s <= hi -> bs_mid s = 1 / 2 * (bs_min s + bs_max s) ->
      bs_max s - bs_min s < (b - a) * 2 ^ n -> exists s', loop n s = Ok s' /\ close (bs_value s') target delta = true.
    Proof.
      intros Hab. induction n as [|n IH]; intros s A B M W; cbn [search_loop].
      - exfalso. cbn [pow] in W. lra.
      - destruct Hf as [Hv Hm]. assert (R : lo < bs_mid s < hi) by (rewrite M; lra).
        rewrite (Hv _ R). destruct (close (Fin (f (bs_mid s))) target delta) eqn:C; [eexists; split; [reflexivity|exact C]|].
        assert (N : ~ within (f (bs_mid s)) target delta) by (rewrite not_close in C; now apply C).
        assert (Out : bs_mid s <= a \/ b <= bs_mid s).
        { destruct (Rle_lt_dec (bs_mid s) a); [now left|]. destruct (Rle_lt_dec b (bs_mid s)); [now right|]. exfalso. apply N, Hw. lra. }
        assert (Wm := Hw ((a + b) / 2) ltac:(lra)).
        cbn [pow] in W. apply IH; cbn [bs_min bs_max bs_mid fl_ltb]; unfold within in *.
        + destruct (Rlt_dec target (f (bs_mid s))) as [G|G]; [lra|]. destruct Out as [O|O]; [lra|].
          exfalso. assert (f ((a + b) / 2) <= f (bs_mid s)) by (apply Hm; lra). lra.
        + destruct (Rlt_dec target (f (bs_mid s))) as [G|G]; [|lra]. destruct Out as [O|O]; [|lra].
          exfalso. assert (f (bs_mid s) <= f ((a + b) / 2)) by (apply Hm; lra). lra.
        + destruct (Rlt_dec target (f (bs_mid s))); lra.
        + destruct (Rlt_dec target (f (bs_mid s))); rewrite M; lra.
    Qed.
    Lemma search_complete n : a < b -> hi - lo < (b - a) * 2 ^ Z.to_nat n -> exists x, find lo hi n = Ok (Some x).
    Proof.
      intros Hab W. unfold binsearch.
      destruct (loop_found (Z.to_nat n) Hab {| bs_min := lo; bs_max := hi; bs_mid := 1 / 2 * (lo + hi); bs_value := Fin (-1000000000); bs_draws := 0 |})
        as (s & E & C); cbn [bs_min bs_max bs_mid]; try lra.
      rewrite E. cbn [bind]. rewrite C. eauto.
    Qed.
  End Monotone.

  (** Nothing in reach *)
  Lemma search_none lo hi n : ~ within (-1000000000) target delta -> (forall x e, func x = Err e -> e = ValueError) ->
    (forall x v, func x = Ok (Fin v) -> ~ within v target delta) -> find lo hi n = Ok None.
  Proof.
    intros N E F. destruct (find lo hi n) as [[x|]|e] eqn:H; [|reflexivity|].
    - apply search_sound in H as (v & Hv & W); [|exact N]. now apply F in Hv.
    - apply search_error in H as [H (x & Hx)]. now apply E in Hx.
  Qed.
  (** As above, for the values in the range. *)
  Lemma loop_seen n : forall lo hi, (forall k, lo <= uniform k <= hi) -> forall s s', loop n s = Ok s' ->
    lo <= bs_min s <= hi -> lo <= bs_max s <= hi -> lo <= bs_mid s <= hi ->
    close (bs_value s) target delta = false -> (forall x v, lo <= x <= hi -> func x = Ok (Fin v) -> ~ within v target delta) ->
    close (bs_value s') target delta = false.
  Proof.
    intros lo hi U. induction n as [|n IH]; intros s s' H A B C N F; cbn [search_loop] in H; [now injection H as <-|].
    destruct (func (bs_mid s)) as [v|[]] eqn:E; try discriminate.
    - assert (Nv : close v target delta = false) by (apply not_close; intros r ->; eauto).
      rewrite Nv in H.
      apply IH in H; auto; cbn [bs_min bs_max bs_mid]; destruct (fl_ltb (Fin target) v); auto; lra.
    - apply IH in H; auto; cbn [bs_min bs_max bs_mid]; auto.
  Qed.
End Search.

(** The value with which the search starts *)
Lemma initial_value_refuted : exists func target delta uniform lo hi n x,
  0 < delta /\ lo < hi /\ (forall y, exists e, func y = Err e) /\ binsearch func target delta uniform lo hi n = Ok (Some x).
Proof.
  exists (fun _ => Err ValueError), (-1000000000), (1 / 10000), (fun _ => 0), 0, 1, 5000%Z.
  cut (exists x, binsearch (fun _ => Err ValueError) (-1000000000) (1 / 10000) (fun _ => 0) 0 1 5000 = Ok (Some x)).
  { intros [x H]. exists x. split; [lra|]. split; [lra|]. split; [eauto|exact H]. }
  unfold binsearch.
  assert (L : forall n s, bs_value s = Fin (-1000000000) -> exists s', search_loop (fun _ => Err ValueError) (-1000000000) (1 / 10000) (fun _ => 0) n s = Ok s' /\
            bs_value s' = Fin (-1000000000)).
  { induction n as [|n IH]; intros s H; cbn [search_loop]; [eauto|]. now apply IH. }
  destruct (L (Z.to_nat 5000) {| bs_min := 0; bs_max := 1; bs_mid := 1 / 2 * (0 + 1); bs_value := Fin (-1000000000); bs_draws := 0 |} eq_refl) as (s & E & V).
  rewrite E. cbn [bind]. rewrite V. unfold close. replace (-1000000000 - -1000000000) with 0 by ring. rewrite Rabs_R0.
  rewrite (proj2 (Rltb_true _ _)) by lra. eauto.
Qed.

(** One exception can keep the search from succeeding. *)
Definition holed (x : R) : result fl := if Reqb x (1 / 4) then Err ValueError else Ok (Fin x).
Lemma holed_stuck n : forall s, bs_min s = 0 -> (bs_mid s = 1 / 2 /\ 1 / 2 <= bs_max s \/ bs_mid s = 1 / 4 /\ bs_max s = 1 / 2) ->
  close (bs_value s) (1 / 10) (1 / 10000) = false ->
  exists s', search_loop holed (1 / 10) (1 / 10000) (fun _ => 1 / 2) n s = Ok s' /\ close (bs_value s') (1 / 10) (1 / 10000) = false.
Proof.
  induction n as [|n IH]; intros s A B C; cbn [search_loop]; [eauto|]. unfold holed at 1. destruct B as [[M X]|[M X]]; rewrite M.
  - unfold Reqb. destruct (Req_EM_T (1 / 2) (1 / 4)); [exfalso; lra|]. destruct (close (Fin (1 / 2)) (1 / 10) (1 / 10000)) eqn:K.
    + apply close_within in K as (r & E & W). injection E as <-. unfold within in W. exfalso. lra.
    + cbn [fl_ltb]. destruct (Rlt_dec (1 / 10) (1 / 2)); [|exfalso; lra]. apply IH; cbn [bs_min bs_mid bs_max bs_value]; auto.
      right. rewrite A. lra.
  - unfold Reqb. destruct (Req_EM_T (1 / 4) (1 / 4)); [|contradiction]. apply IH; cbn [bs_min bs_mid bs_max bs_value]; auto. left. lra.
Qed.
Lemma exception_refuted : exists func target delta uniform lo hi, 0 < delta /\ lo < target < hi /\
  (forall x, x <> 1 / 4 -> func x = Ok (Fin x)) /\ func (1 / 4) = Err ValueError /\ (forall k, lo <= uniform k <= hi) /\
  forall n, binsearch func target delta uniform lo hi n = Ok None.
Proof.
  exists holed, (1 / 10), (1 / 10000), (fun _ => 1 / 2), 0, 1. split; [lra|]. split; [lra|].
  split. { intros x Hx. unfold holed, Reqb. destruct (Req_EM_T x (1 / 4)); [contradiction|reflexivity]. }
  split. { unfold holed, Reqb. destruct (Req_EM_T (1 / 4) (1 / 4)); [reflexivity|contradiction]. }
  split; [intros; lra|]. intros n. unfold binsearch.
  destruct (holed_stuck (Z.to_nat n) {| bs_min := 0; bs_max := 1; bs_mid := 1 / 2 * (0 + 1); bs_value := Fin (-1000000000); bs_draws := 0 |})
    as (s & E & C); cbn [bs_min bs_mid bs_max bs_value]; [reflexivity|left; lra| |rewrite E; cbn [bind]; now rewrite C].
  apply not_close. intros r Er. injection Er as <-. unfold within. lra.
Qed.

(** ** Restarts *)
Lemma loop_restarts func target delta uniform x v : func x = Ok (Fin v) -> within v target delta ->
  forall k n s, (k <= n)%nat -> (forall i, (i < k)%nat -> func (if Nat.eqb i 0 then bs_mid s else uniform (bs_draws s + i - 1)%nat) = Err ValueError) ->
  x = (if Nat.eqb k 0 then bs_mid s else uniform (bs_draws s + k - 1)%nat) ->
  exists s', search_loop func target delta uniform (S n) s = Ok s' /\ bs_mid s' = x /\ bs_value s' = Fin v.
Proof.
  intros F W. assert (C : close (Fin v) target delta = true) by (apply close_within; eauto).
  induction k as [|k IH]; intros n s Hn Hf Hx.
  - cbn [Nat.eqb] in Hx. cbn [search_loop]. rewrite <- Hx, F, C. eexists. split; [reflexivity|]. split; reflexivity.
  - destruct n as [|n]; [lia|]. assert (Z := Hf 0%nat ltac:(lia)). cbn [Nat.eqb] in Z.
    remember (S n) as m. cbn [search_loop]. rewrite Z. subst m. apply IH; [lia| |]; cbn [bs_mid bs_draws].
    + intros i Hi. specialize (Hf (S i) ltac:(lia)). cbn [Nat.eqb] in Hf. destruct i as [|i]; cbn [Nat.eqb].
      * now replace (bs_draws s + 1 - 1)%nat with (bs_draws s) in Hf by lia.
      * now replace (S (bs_draws s) + S i - 1)%nat with (bs_draws s + S (S i) - 1)%nat by lia.
    + rewrite Hx. cbn [Nat.eqb]. destruct k as [|k]; cbn [Nat.eqb]; f_equal; lia.
Qed.
Lemma search_restarts func target delta uniform lo hi n k v :
  func (1 / 2 * (lo + hi)) = Err ValueError -> (forall i, (i < k)%nat -> func (uniform i) = Err ValueError) ->
  func (uniform k) = Ok (Fin v) -> within v target delta -> (Z.of_nat k + 2 <= n)%Z ->
  binsearch func target delta uniform lo hi n = Ok (Some (uniform k)).
Proof.
  intros F0 Fi Fk W Hn. unfold binsearch. set (s0 := Build_search _ _ _ _ _).
  destruct (Z.to_nat n) as [|m] eqn:E; [lia|].
  destruct (loop_restarts func target delta uniform (uniform k) v Fk W (S k) m s0) as (s' & L & M & V).
  - lia.
  - intros i Hi. destruct i as [|i]; cbn [Nat.eqb s0 bs_mid bs_draws]; [exact F0|]. replace (0 + S i - 1)%nat with i by lia. apply Fi. lia.
  - cbn [Nat.eqb s0 bs_draws]. f_equal. lia.
  - rewrite L. cbn [bind]. rewrite V, M. replace (close (Fin v) target delta) with true; [reflexivity|]. symmetry. apply close_within. eauto.
Qed.

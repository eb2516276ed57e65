(** Theorems about grids of axes ([SubplotsModel]). *)
From Verif Require Import Base BaseLemmas SubplotsModel SubplotsSpec SubplotsProofs.
Open Scope Z_scope.
Local Notation length := List.length.

Section S.
  Variables (ax ay : sizes_arg) (nrows ncols : option Z) (top bottom left right : R) (hspace wspace : sizes_arg) (squeeze : bool).
  Local Notation result := (subplots_from_axsize ax ay nrows ncols top bottom left right hspace wspace squeeze).
  Local Notation meaning axx ws axy hs := (length axx = S (length ws) /\ length axy = S (length hs) /\
      meant ax ncols axx /\ meant ay nrows axy /\
      meant wspace (Some (Z.of_nat (length ws))) ws /\ meant hspace (Some (Z.of_nat (length hs))) hs).

  Lemma accepts : (exists f r, result = Ok (f, r)) <-> exists axx ws axy hs, meaning axx ws axy hs.
  Proof.
    split.
    - intros (f & r & H). apply subplots_ok in H as (axx & ws & axy & hs & A & B & C & D & E & F & _). exists axx, ws, axy, hs. repeat (split; [assumption|]). assumption.
    - intros (axx & ws & axy & hs & A & B & C & D & E & F). do 2 eexists. now apply (subplots_complete _ _ _ _ _ _ _ _ _ _ _ axx ws axy hs).
  Qed.

  Lemma meant_same a c l l' : meant a c l -> meant a c l' -> l = l'.
  Proof.
    destruct a as [s|l0]; cbn.
    - intros (E & C & D) (E' & C' & D'). assert (length l = length l') as L.
      { destruct c as [c|]; [|rewrite D, D'; auto]. injection C as ->. injection C' as H. lia. }
      rewrite E, E', L. reflexivity.
    - intros [-> _] [-> _]. reflexivity.
  Qed.
  Lemma meant_nonempty a c l l' : meant a c l -> meant a c l' -> length l = length l'.
  Proof. intros A B. now rewrite (meant_same _ _ _ _ A B). Qed.

  (** Everything about the figure, for the sizes meant by the arguments. *)
  Lemma layout axx ws axy hs f r : result = Ok (f, r) -> meaning axx ws axy hs ->
    fg_w f = (left + rsum axx + rsum ws + right)%R /\ fg_h f = (top + rsum axy + rsum hs + bottom)%R /\
    length (fg_axes f) = length axy /\ Forall (fun row => length row = length axx) (fg_axes f) /\
    (fg_w f <> 0%R -> fg_h f <> 0%R -> forall i j d, (i < length axy)%nat -> (j < length axx)%nat ->
      let a := nth j (nth i (fg_axes f) []) d in
      left_edge f a = before left axx ws j /\ right_edge f a = (before left axx ws j + nth j axx 0)%R /\
      top_edge f a = before top axy hs i /\ bottom_edge f a = (before top axy hs i + nth i axy 0)%R).
  Proof.
    intros H (A & B & C & D & E & F).
    rewrite (subplots_complete _ _ _ _ _ _ _ _ _ _ _ axx ws axy hs A B C D E F) in H. injection H as <- _.
    cbn [fg_w fg_h fg_axes figure_of]. rewrite !lengths_sum by assumption.
    split; [reflexivity|]. split; [reflexivity|]. split; [unfold grid; now rewrite map_length, seq_length|].
    split; [unfold grid; apply Forall_map, Forall_forall; intros i _; now rewrite map_length, seq_length|].
    intros HW HH i j d Hi Hj. rewrite grid_nth by assumption.
    apply (cell_position left right top bottom axx ws axy hs i j); cbn [fg_w fg_h figure_of]; rewrite lengths_sum by assumption; assumption.
  Qed.

  Lemma nth_nonneg (l : list R) k : Forall (fun s => 0 <= s)%R l -> (0 <= nth k l 0)%R.
  Proof.
    intros F. destruct (Nat.lt_ge_cases k (length l)); [|rewrite nth_overflow by assumption; lra].
    rewrite Forall_forall in F. apply F. now apply nth_In.
  Qed.
  Lemma no_overlap axx ws axy hs f r : result = Ok (f, r) -> meaning axx ws axy hs ->
    Forall (fun s => 0 <= s)%R axx -> Forall (fun s => 0 <= s)%R ws -> Forall (fun s => 0 <= s)%R axy -> Forall (fun s => 0 <= s)%R hs ->
    fg_w f <> 0%R -> fg_h f <> 0%R ->
    forall i j i' j' d, (i < length axy)%nat -> (j < length axx)%nat -> (i' < length axy)%nat -> (j' < length axx)%nat ->
    (i, j) <> (i', j') -> apart f (nth j (nth i (fg_axes f) []) d) (nth j' (nth i' (fg_axes f) []) d).
  Proof.
    intros H M P1 P2 P3 P4 HW HH i j i' j' d Hi Hj Hi' Hj' N.
    destruct (layout _ _ _ _ _ _ H M) as (_ & _ & _ & _ & L).
    destruct (L HW HH i j d Hi Hj) as (a1 & a2 & a3 & a4). destruct (L HW HH i' j' d Hi' Hj') as (b1 & b2 & b3 & b4).
    unfold apart. rewrite a1, a2, a3, a4, b1, b2, b3, b4.
    destruct (Nat.lt_trichotomy j j') as [J|[J|J]].
    - left. now apply before_mono.
    - destruct (Nat.lt_trichotomy i i') as [I|[I|I]].
      + right. right. left. now apply before_mono.
      + subst. contradiction.
      + right. right. right. now apply before_mono.
    - right. left. now apply before_mono.
  Qed.

  Lemma before_total start axs sp e : length axs = S (length sp) -> forall i, (S i = length axs)%nat ->
    (before start axs sp i + nth i axs 0 + e = start + rsum axs + rsum sp + e)%R.
  Proof.
    intros H i Hi. rewrite <- (lengths_after start axs e sp H i) by lia. rewrite <- (lengths_sum start axs e sp H).
    pose proof (lengths_length start axs e sp H) as L.
    rewrite <- (firstn_all (lengths_of start axs e sp)) at 2. rewrite L.
    replace (2 * length axs + 1)%nat with (S (2 * i + 2)) by lia. rewrite firstn_S_sum by lia. f_equal.
    unfold lengths_of.
    assert (E : forall (l : list R) x n, length l = n -> nth n (l ++ [x]) 0%R = x).
    { intros l x n <-. rewrite app_nth2 by lia. now rewrite Nat.sub_diag. }
    rewrite app_comm_cons. change [last axs 0%R; e] with ([last axs 0%R] ++ [e]). rewrite app_assoc. symmetry. apply E.
    revert L. unfold lengths_of. cbn [length]. rewrite !app_length. cbn [length]. lia.
  Qed.
  Lemma before_le start axs sp i : (0 <= start)%R -> Forall (fun s => 0 <= s)%R axs -> Forall (fun s => 0 <= s)%R sp -> (0 <= before start axs sp i)%R.
  Proof.
    intros H A B. induction i as [|i IH]; cbn [before]; [assumption|]. pose proof (nth_nonneg axs i A). pose proof (nth_nonneg sp i B). lra.
  Qed.
  Lemma before_end start axs sp e : length axs = S (length sp) -> Forall (fun s => 0 <= s)%R axs -> Forall (fun s => 0 <= s)%R sp -> (0 <= e)%R ->
    forall i, (i < length axs)%nat -> (before start axs sp i + nth i axs 0 <= start + rsum axs + rsum sp + e)%R.
  Proof.
    intros H A B E i Hi. pose proof (before_total start axs sp e H (length sp) ltac:(lia)) as T.
    destruct (Nat.eq_dec i (length sp)) as [->|N]; [lra|].
    pose proof (before_mono start axs sp A B i (length sp) ltac:(lia)). pose proof (nth_nonneg axs (length sp) A). lra.
  Qed.
  Lemma inside axx ws axy hs f r : result = Ok (f, r) -> meaning axx ws axy hs ->
    Forall (fun s => 0 <= s)%R axx -> Forall (fun s => 0 <= s)%R ws -> Forall (fun s => 0 <= s)%R axy -> Forall (fun s => 0 <= s)%R hs ->
    (0 <= left)%R -> (0 <= right)%R -> (0 <= top)%R -> (0 <= bottom)%R -> fg_w f <> 0%R -> fg_h f <> 0%R ->
    forall i j d, (i < length axy)%nat -> (j < length axx)%nat -> let a := nth j (nth i (fg_axes f) []) d in
    (0 <= left_edge f a /\ right_edge f a <= fg_w f /\ 0 <= top_edge f a /\ bottom_edge f a <= fg_h f)%R.
  Proof.
    intros H M P1 P2 P3 P4 Q1 Q2 Q3 Q4 HW HH i j d Hi Hj a. unfold a.
    destruct (layout _ _ _ _ _ _ H M) as (EW & EH & _ & _ & L).
    destruct (L HW HH i j d Hi Hj) as (-> & -> & -> & ->). destruct M as (M1 & M2 & _). rewrite EW, EH.
    repeat split; try (now apply before_le); apply before_end; auto.
  Qed.

  (** What is returned beside the figure *)
  Lemma concat_singletons {A} (rows : list (list A)) : Forall (fun row => length row = 1%nat) rows -> length (concat rows) = length rows.
  Proof. induction 1 as [|r rows Hr _ IH]; [reflexivity|]. cbn. now rewrite app_length, Hr, IH. Qed.
  Lemma ravel_squeeze rows : ravel (np_squeeze rows) = concat rows.
  Proof.
    unfold np_squeeze. destruct rows as [|row [|row' rows]]; [reflexivity| |].
    - destruct row as [|a [|b row]]; cbn; rewrite ?app_nil_r; reflexivity.
    - destruct (forallb _ _); destruct row as [|a [|b row]]; reflexivity.
  Qed.
  Lemma all_returned f r : result = Ok (f, r) -> ravel r = concat (fg_axes f).
  Proof.
    intros H. apply subplots_ok in H as (axx & ws & axy & hs & A & B & C & D & E & F & -> & ->).
    unfold returned_of. set (g := fg_axes _). clearbody g.
    assert (K : ravel (if squeeze then np_squeeze g else Grid g) = concat g) by (destruct squeeze; [apply ravel_squeeze|reflexivity]).
    cbv zeta. set (q := if squeeze then np_squeeze g else Grid g) in *. clearbody q. rewrite <- K.
    destruct (ravel q) as [|a [|b l]] eqn:Er; rewrite ?Er; reflexivity.
  Qed.

  Lemma shape_returned axx ws axy hs f r : result = Ok (f, r) -> meaning axx ws axy hs ->
    match r with
    | Single _ => length axx = 1%nat /\ length axy = 1%nat
    | Line l => squeeze = true /\ (length axx = 1%nat /\ length l = length axy /\ (2 <= length axy)%nat \/
                                  length axy = 1%nat /\ length l = length axx /\ (2 <= length axx)%nat)
    | Grid rows => rows = fg_axes f /\ (squeeze = true -> (2 <= length axx)%nat /\ (2 <= length axy)%nat) /\
                   (2 <= length axx * length axy)%nat
    end.
  Proof.
    intros H M. destruct (layout _ _ _ _ _ _ H M) as (_ & _ & L1 & L2 & _). destruct M as (A & B & C & D & E & F).
    rewrite (subplots_complete _ _ _ _ _ _ _ _ _ _ _ axx ws axy hs A B C D E F) in H. injection H as Hf <-.
    assert (G : grid left right top bottom axx ws axy hs = fg_axes f) by (now rewrite <- Hf). rewrite G. clear G Hf.
    set (g := fg_axes f) in *. clearbody g.
    assert (X1 : (1 <= length axx)%nat) by lia. assert (Y1 : (1 <= length axy)%nat) by lia. clear A B C D E F.
    rewrite <- L1 in Y1 |- *. generalize dependent (length axx). intros m L2 X1. clear L1.
    unfold returned_of, np_squeeze. destruct g as [|row [|row' g]]; cbn [length] in Y1; [lia| |].
    - inversion L2 as [|? ? H1 _]; subst. destruct row as [|a [|b row]]; cbn [length] in X1; [lia| |].
      + destruct squeeze; cbn; auto.
      + destruct squeeze; cbn [ravel concat app length].
        * split; [reflexivity|]. right. lia.
        * rewrite ?app_nil_r. split; [reflexivity|]. split; [discriminate|lia].
    - inversion L2 as [|? ? H1 L3]; subst. inversion L3 as [|? ? H2 L4]; subst.
      destruct squeeze.
      + destruct (forallb (fun row0 => (length row0 =? 1)%nat) (row :: row' :: g)) eqn:Q.
        * assert (row = [hd {| ax_x := 0; ax_y := 0; ax_w := 0; ax_h := 0 |}%R row]) as K.
          { cbn in Q. apply andb_prop in Q as [Q _]. apply Nat.eqb_eq in Q. destruct row as [|a [|b row]]; try discriminate. reflexivity. }
          assert (Lc : length (concat (row :: row' :: g)) = length (row :: row' :: g)).
          { apply concat_singletons. apply Forall_forall. intros x Hx. rewrite forallb_forall in Q. apply Nat.eqb_eq. auto. }
          rewrite K in *. cbn [ravel].
          remember (concat ([hd {| ax_x := 0; ax_y := 0; ax_w := 0; ax_h := 0 |}%R row] :: row' :: g)) as c.
          destruct c as [|c1 [|c2 c]]; cbn [length] in Lc; try lia. split; [reflexivity|]. left. cbn [length]. lia.
        * assert (M2 : (2 <= length row)%nat).
          { destruct (Nat.eq_dec (length row) 1) as [O|]; [|lia]. exfalso.
            assert (forallb (fun row0 => (length row0 =? 1)%nat) (row :: row' :: g) = true); [|congruence].
            apply forallb_forall. intros x Hx. apply Nat.eqb_eq. rewrite Forall_forall in L2. rewrite (L2 x Hx). assumption. }
          assert (Q' : (match row with [] | _ => if forallb (fun row0 => (length row0 =? 1)%nat) (row :: row' :: g) then Line (concat (row :: row' :: g)) else Grid (row :: row' :: g) end) = Grid (row :: row' :: g)).
          { destruct row; [cbn in M2; lia|]. now rewrite Q. }
          destruct row as [|a [|b row]]; cbn [length] in M2; try lia. cbn [ravel concat app].
          split; [reflexivity|]. split; [cbn [length]; lia|cbn [length]; nia].
      + cbn [ravel]. assert (Lc : (2 <= length (concat (row :: row' :: g)))%nat).
        { cbn [concat]. rewrite !app_length, H2. lia. }
        destruct (concat (row :: row' :: g)) as [|c1 [|c2 c]]; cbn [length] in Lc; try lia.
        split; [reflexivity|]. split; [discriminate|cbn [length]; nia].
  Qed.
End S.

Lemma squeeze_false_refuted : ~ (forall ax ay nrows ncols top bottom left right hspace wspace f r,
  subplots_from_axsize ax ay nrows ncols top bottom left right hspace wspace false = Ok (f, r) -> r = Grid (fg_axes f)).
Proof.
  intros H.
  assert (E := subplots_complete (OneSize 3) (OneSize 2) None None 0 0 0 0 (OneSize 0) (OneSize 0) false [3%R] [] [2%R] []).
  assert (M1 : meant (OneSize 3) None [3%R]) by (repeat split).
  assert (M2 : meant (OneSize 2) None [2%R]) by (repeat split).
  assert (M3 : meant (OneSize 0) (Some 0) []) by (cbn; repeat split; discriminate).
  specialize (E eq_refl eq_refl M1 M2 M3 M3). apply H in E. discriminate.
Qed.

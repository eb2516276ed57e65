(** Lemmas about grids of axes ([SubplotsModel]). *)
From Verif Require Import Base BaseLemmas SubplotsModel SubplotsSpec.
Open Scope Z_scope.
Local Notation length := List.length.

Lemma py_range_length n : length (py_range 0 n 1) = Z.to_nat n.
Proof. unfold py_range. rewrite map_length, seq_length. f_equal. rewrite Z.div_1_r. lia. Qed.
Lemma py_range_seq n : py_range 0 n 1 = map Z.of_nat (seq 0 (Z.to_nat n)).
Proof.
  unfold py_range. replace (Z.to_nat ((n - 0 + 1 - 1) / 1)) with (Z.to_nat n) by (f_equal; rewrite Z.div_1_r; lia).
  apply map_ext. intros i. lia.
Qed.
Lemma map_const {A B} (b : B) (l : list A) : map (fun _ => b) l = repeat b (length l).
Proof. induction l; cbn; congruence. Qed.

Lemma normalize_ok axs c l n : normalize_sizes axs c = Ok (l, n) -> 1 <= n ->
  n = Z.of_nat (length l) /\ meant axs c l.
Proof.
  destruct axs as [s|l0]; cbn.
  - intros H Hn. injection H as <- Hc. rewrite map_const, py_range_length, repeat_length.
    destruct c as [c|]; cbn in *; subst; (split; [lia|]); (split; [reflexivity|]); (split; [|try discriminate; try reflexivity]); try reflexivity.
    f_equal. lia.
  - destruct c as [c|].
    + destruct (Z.eqb_spec c (zlen l0)) as [E|]; [|discriminate]. intros H _. injection H as <- <-. subst. unfold zlen. auto.
    + intros H _. injection H as <- <-. auto.
Qed.
Lemma normalize_spaces axs c l n : normalize_sizes axs (Some c) = Ok (l, n) -> 0 <= c -> n = c /\ Z.of_nat (length l) = c /\ meant axs (Some c) l.
Proof.
  destruct axs as [s|l0]; cbn.
  - intros H Hn. injection H as <- <-. rewrite map_const, py_range_length, repeat_length. split; [reflexivity|]. split; [lia|].
    split; [reflexivity|]. split; [f_equal; lia|discriminate].
  - destruct (Z.eqb_spec c (zlen l0)) as [E|]; [|discriminate]. intros H _. injection H as <- <-. subst. unfold zlen. auto.
Qed.
Lemma normalize_complete axs c l : meant axs c l -> normalize_sizes axs c = Ok (l, Z.of_nat (length l)).
Proof.
  destruct axs as [s|l0]; cbn.
  - intros (E & C & D). destruct c as [c|].
    + injection C as ->. now rewrite map_const, py_range_length, Nat2Z.id, <- E.
    + specialize (D eq_refl). rewrite map_const, py_range_length. rewrite D in *. cbn. now rewrite E.
  - intros [-> [->| ->]]; [reflexivity|]. unfold zlen. now rewrite Z.eqb_refl.
Qed.

(** The lengths *)
Definition lengths_of (start : R) (axs : list R) (end_ : R) (spaces : list R) : list R :=
  start :: flat_map (fun p => [fst p; snd p]) (combine axs spaces) ++ [last axs 0%R; end_].

Lemma py_index_last (l : list R) : l <> [] -> py_index l (-1) = Ok (last l 0%R).
Proof.
  intros H. unfold py_index, zlen. cbn [Z.ltb Z.compare]. destruct (exists_last H) as (l' & a & ->).
  rewrite app_length, last_last. cbn [length]. destruct (Z.ltb_spec (-1 + Z.of_nat (length l' + 1)) 0); [lia|].
  replace (Z.to_nat (-1 + Z.of_nat (length l' + 1))) with (length l') by lia.
  rewrite nth_error_app2 by lia. now rewrite Nat.sub_diag.
Qed.
Lemma make_sizes_ok start axs e spaces r : make_sizes start axs e spaces = Ok r ->
  axs <> [] /\ length axs = S (length spaces) /\ r = (lengths_of start axs e spaces, rsum (lengths_of start axs e spaces)).
Proof.
  unfold make_sizes, zlen. destruct (Z.eqb_spec (Z.of_nat (length spaces)) (Z.of_nat (length axs) - 1)); [|discriminate].
  assert (N : axs <> []) by (intros ->; cbn in *; lia). rewrite py_index_last by assumption. cbn [bind].
  intros H. injection H as <-. split; [exact N|]. split; [lia|reflexivity].
Qed.
Lemma make_sizes_complete start axs e spaces : length axs = S (length spaces) ->
  make_sizes start axs e spaces = Ok (lengths_of start axs e spaces, rsum (lengths_of start axs e spaces)).
Proof.
  intros H. unfold make_sizes, zlen. destruct (Z.eqb_spec (Z.of_nat (length spaces)) (Z.of_nat (length axs) - 1)); [|lia].
  rewrite py_index_last by (intros ->; discriminate). reflexivity.
Qed.

(** [lengths_of] by recursion. *)
Fixpoint tail_lengths (axs : list R) (e : R) (spaces : list R) : list R :=
  match axs with
  | [] => [e]
  | [a] => [a; e]
  | a :: axs' => match spaces with [] => [] | s :: spaces' => a :: s :: tail_lengths axs' e spaces' end
  end.
Lemma lengths_tail start axs e spaces : length axs = S (length spaces) -> lengths_of start axs e spaces = start :: tail_lengths axs e spaces.
Proof.
  unfold lengths_of. intros H. f_equal. revert spaces H. induction axs as [|a axs IH]; intros spaces H; [discriminate|].
  destruct spaces as [|s spaces].
  - destruct axs; [reflexivity|discriminate].
  - destruct axs as [|b axs]; [discriminate|]. cbn [length] in H.
    change (tail_lengths (a :: b :: axs) e (s :: spaces)) with (a :: s :: tail_lengths (b :: axs) e spaces).
    rewrite <- (IH spaces) by (cbn; lia). reflexivity.
Qed.
Lemma tail_length axs : forall e spaces, length axs = S (length spaces) -> length (tail_lengths axs e spaces) = (2 * length axs)%nat.
Proof.
  induction axs as [|a axs IH]; intros e spaces H; [discriminate|].
  destruct spaces as [|s spaces]; destruct axs as [|b axs]; try discriminate; [reflexivity|].
  cbn [length] in H. change (tail_lengths (a :: b :: axs) e (s :: spaces)) with (a :: s :: tail_lengths (b :: axs) e spaces).
  cbn [length]. rewrite IH by (cbn; lia). cbn [length]. lia.
Qed.
Lemma lengths_length start axs e spaces : length axs = S (length spaces) -> length (lengths_of start axs e spaces) = (2 * length axs + 1)%nat.
Proof. intros H. rewrite lengths_tail by assumption. cbn [length]. rewrite tail_length by assumption. lia. Qed.
Lemma tail_nth axs : forall e spaces i, length axs = S (length spaces) -> (i < length axs)%nat ->
  nth (2 * i) (tail_lengths axs e spaces) 0%R = nth i axs 0%R /\
  (i < length spaces -> nth (2 * i + 1) (tail_lengths axs e spaces) 0%R = nth i spaces 0%R)%nat.
Proof.
  induction axs as [|a axs IH]; intros e spaces i H Hi; [discriminate|].
  destruct spaces as [|s spaces]; destruct axs as [|b axs]; try discriminate.
  - cbn [length] in *. replace i with 0%nat by lia. split; [reflexivity|lia].
  - cbn [length] in H. change (tail_lengths (a :: b :: axs) e (s :: spaces)) with (a :: s :: tail_lengths (b :: axs) e spaces).
    destruct i as [|i]; [split; reflexivity|].
    replace (2 * S i)%nat with (S (S (2 * i))) by lia. replace (S (S (2 * i)) + 1)%nat with (S (S (2 * i + 1))) by lia.
    cbn [nth]. destruct (IH e spaces i) as [A B]; [cbn; lia|cbn in *; lia|]. split; [exact A|]. cbn [length]. intros. apply B. lia.
Qed.
Lemma lengths_sum start axs e spaces : length axs = S (length spaces) ->
  rsum (lengths_of start axs e spaces) = (start + rsum axs + rsum spaces + e)%R.
Proof.
  intros H. rewrite lengths_tail by assumption. rewrite rsum_cons.
  enough (rsum (tail_lengths axs e spaces) = rsum axs + rsum spaces + e)%R by lra.
  revert spaces H. induction axs as [|a axs IH]; intros spaces H; [discriminate|].
  destruct spaces as [|s spaces]; destruct axs as [|b axs]; try discriminate.
  - unfold rsum; cbn. lra.
  - cbn [length] in H. change (tail_lengths (a :: b :: axs) e (s :: spaces)) with (a :: s :: tail_lengths (b :: axs) e spaces).
    rewrite !(rsum_cons a), !(rsum_cons s), (IH spaces) by (cbn; lia). lra.
Qed.

(** Partial sums *)
Lemma offsets_nth l : forall a i, (i <= length l)%nat -> nth_error (offsets_from a l) i = Some (a + rsum (firstn i l))%R.
Proof.
  induction l as [|s l IH]; intros a i Hi; cbn [length] in Hi.
  - replace i with 0%nat by lia. cbn. f_equal. unfold rsum; cbn. lra.
  - destruct i as [|i]; cbn [offsets_from nth_error firstn]; [f_equal; unfold rsum; cbn; lra|].
    rewrite IH by lia. rewrite rsum_cons. f_equal. lra.
Qed.
Lemma offsets_index l i : 0 <= i <= Z.of_nat (length l) -> py_index (offsets_from 0 l) i = Ok (rsum (firstn (Z.to_nat i) l)).
Proof.
  intros H. unfold py_index. destruct (Z.ltb_spec i 0); [lia|]. destruct (Z.ltb_spec i 0); [lia|].
  rewrite offsets_nth by lia. f_equal. lra.
Qed.
Lemma firstn_S_sum (l : list R) i : (i < length l)%nat -> rsum (firstn (S i) l) = (rsum (firstn i l) + nth i l 0)%R.
Proof.
  revert i. induction l as [|a l IH]; intros i H; cbn [length] in H; [lia|].
  destruct i as [|i].
  - cbn [firstn nth]. rewrite rsum_cons. unfold rsum; cbn. lra.
  - cbn [firstn nth]. rewrite !rsum_cons. cbn [firstn] in IH. rewrite IH by lia. lra.
Qed.
Lemma lengths_before start axs e spaces : length axs = S (length spaces) -> forall i, (i < length axs)%nat ->
  rsum (firstn (2 * i + 1) (lengths_of start axs e spaces)) = before start axs spaces i.
Proof.
  intros H i. induction i as [|i IH]; intros Hi.
  - rewrite lengths_tail by assumption. cbn. unfold rsum; cbn. lra.
  - replace (2 * S i + 1)%nat with (S (S (2 * i + 1))) by lia.
    pose proof (lengths_length start axs e spaces H) as L.
    rewrite !firstn_S_sum by lia. rewrite IH by lia. rewrite lengths_tail by assumption. cbn [before].
    destruct (tail_nth axs e spaces i H) as [A B]; [lia|].
    replace (nth (2 * i + 1) (start :: tail_lengths axs e spaces) 0%R) with (nth i axs 0%R).
    2: { replace (2 * i + 1)%nat with (S (2 * i)) by lia. cbn [nth]. now rewrite A. }
    replace (nth (S (2 * i + 1)) (start :: tail_lengths axs e spaces) 0%R) with (nth i spaces 0%R); [reflexivity|].
    cbn [nth]. rewrite B by lia. reflexivity.
Qed.
Lemma lengths_after start axs e spaces : length axs = S (length spaces) -> forall i, (i < length axs)%nat ->
  rsum (firstn (2 * i + 2) (lengths_of start axs e spaces)) = (before start axs spaces i + nth i axs 0)%R.
Proof.
  intros H i Hi. replace (2 * i + 2)%nat with (S (2 * i + 1)) by lia.
  pose proof (lengths_length start axs e spaces H) as L. rewrite firstn_S_sum by lia.
  rewrite lengths_before by assumption. f_equal. rewrite lengths_tail by assumption.
  replace (2 * i + 1)%nat with (S (2 * i)) by lia. cbn [nth]. now destruct (tail_nth axs e spaces i H Hi) as [-> _].
Qed.
Lemma rsum_rev l : rsum (rev l) = rsum l.
Proof. induction l as [|a l IH]; [reflexivity|]. cbn [rev]. rewrite rsum_app, rsum_cons, IH. unfold rsum; cbn; lra. Qed.
Lemma firstn_rev_sum (l : list R) k : (k <= length l)%nat -> rsum (firstn k (rev l)) = (rsum l - rsum (firstn (length l - k) l))%R.
Proof.
  intros H. rewrite firstn_rev, rsum_rev.
  assert (E : rsum l = (rsum (firstn (length l - k) l) + rsum (skipn (length l - k) l))%R) by (now rewrite <- rsum_app, firstn_skipn). lra.
Qed.

(** One axes *)
Section Cell.
  Variables (left right top bottom : R) (axx ws axy hs : list R).
  Hypotheses (HX : length axx = S (length ws)) (HY : length axy = S (length hs)).
  Let W := rsum (lengths_of left axx right ws).
  Let H := rsum (lengths_of top axy bottom hs).
  Definition cell (i j : nat) : axes :=
    {| ax_x := before left axx ws j / W;
       ax_y := (H - (before top axy hs i + nth i axy 0)) / H;
       ax_w := nth j axx 0 / W;
       ax_h := nth i axy 0 / H |}%R.
  Lemma locate_cell i j : (i < length axy)%nat -> (j < length axx)%nat ->
    locate W H (lengths_of left axx right ws) (rev (lengths_of top axy bottom hs))
      (2 * Z.of_nat j + 1) (2 * Z.of_nat (length axy - 1 - i) + 1) = Ok (cell i j).
  Proof.
    intros Hi Hj. unfold locate. cbv zeta.
    pose proof (lengths_length left axx right ws HX) as LX. pose proof (lengths_length top axy bottom hs HY) as LY.
    rewrite !offsets_index by (rewrite ?rev_length; lia). cbn [bind]. unfold cell. f_equal.
    replace (Z.to_nat (2 * Z.of_nat j + 1)) with (2 * j + 1)%nat by lia.
    replace (Z.to_nat (2 * Z.of_nat j + 1 + 1)) with (2 * j + 2)%nat by lia.
    rewrite (lengths_before left axx right ws HX j Hj), (lengths_after left axx right ws HX j Hj).
    rewrite !firstn_rev_sum by lia. rewrite LY.
    replace (2 * length axy + 1 - Z.to_nat (2 * Z.of_nat (length axy - 1 - i) + 1))%nat with (2 * i + 2)%nat by lia.
    replace (2 * length axy + 1 - Z.to_nat (2 * Z.of_nat (length axy - 1 - i) + 1 + 1))%nat with (2 * i + 1)%nat by lia.
    rewrite (lengths_before top axy bottom hs HY i Hi), (lengths_after top axy bottom hs HY i Hi).
    f_equal; unfold Rdiv; ring.
  Qed.
End Cell.

Lemma results_map {A B} (f : A -> result B) (g : A -> B) l : (forall a, In a l -> f a = Ok (g a)) -> results (map f l) = Ok (map g l).
Proof.
  induction l as [|a l IH]; intros H; [reflexivity|]. cbn [map results]. rewrite (H a) by now left. cbn [bind].
  rewrite IH by (intros; apply H; now right). reflexivity.
Qed.
Lemma rev_seq_nat n : rev (seq 0 n) = map (fun i => (n - 1 - i)%nat) (seq 0 n).
Proof.
  apply nth_ext with (d := 0%nat) (d' := 0%nat).
  - now rewrite rev_length, map_length.
  - rewrite rev_length, seq_length. intros k Hk. rewrite rev_nth by (now rewrite seq_length). rewrite seq_length, seq_nth by lia.
    rewrite nth_indep with (d' := (fun i => (n - 1 - i)%nat) 0%nat) by (now rewrite map_length, seq_length).
    rewrite map_nth, seq_nth by lia. lia.
Qed.

Definition grid left right top bottom axx ws axy hs : list (list axes) :=
  map (fun i => map (cell left right top bottom axx ws axy hs i) (seq 0 (length axx))) (seq 0 (length axy)).

Section Subplots.
  Variables (ax ay : sizes_arg) (nrows ncols : option Z) (top bottom left right : R) (hspace wspace : sizes_arg) (squeeze : bool).
  Definition figure_of axx ws axy hs : figure :=
    {| fg_w := rsum (lengths_of left axx right ws); fg_h := rsum (lengths_of top axy bottom hs);
       fg_axes := grid left right top bottom axx ws axy hs |}.
  Definition returned_of (axs : list (list axes)) : returned :=
    let axs := if squeeze then np_squeeze axs else Grid axs in
    match ravel axs with [a] => Single a | _ => axs end.

  Lemma grid_built axx ws axy hs : length axx = S (length ws) -> length axy = S (length hs) ->
    results (map (fun row => results (map (fun col =>
      locate (rsum (lengths_of left axx right ws)) (rsum (lengths_of top axy bottom hs))
        (lengths_of left axx right ws) (rev (lengths_of top axy bottom hs)) (2 * col + 1) (2 * row + 1))
        (py_range 0 (Z.of_nat (length axx)) 1))) (rev (py_range 0 (Z.of_nat (length axy)) 1)))
    = Ok (grid left right top bottom axx ws axy hs).
  Proof.
    intros HX HY. rewrite !py_range_seq, !Nat2Z.id, <- map_rev, rev_seq_nat, map_map, map_map. unfold grid.
    apply results_map. intros i Hi. apply in_seq in Hi. rewrite map_map. apply results_map. intros j Hj. apply in_seq in Hj.
    apply locate_cell; auto; lia.
  Qed.

  Lemma subplots_ok f r : subplots_from_axsize ax ay nrows ncols top bottom left right hspace wspace squeeze = Ok (f, r) ->
    exists axx ws axy hs, length axx = S (length ws) /\ length axy = S (length hs) /\
      meant ax ncols axx /\ meant ay nrows axy /\
      meant wspace (Some (Z.of_nat (length ws))) ws /\ meant hspace (Some (Z.of_nat (length hs))) hs /\
      f = figure_of axx ws axy hs /\ r = returned_of (fg_axes f).
  Proof.
    unfold subplots_from_axsize.
    destruct (normalize_sizes ax ncols) as [[axx nc]|] eqn:EX; cbn [bind]; [|discriminate].
    destruct (normalize_sizes ay nrows) as [[axy nr]|] eqn:EY; cbn [bind]; [|discriminate].
    destruct (normalize_sizes hspace _) as [[hs nh]|] eqn:EH; cbn [bind]; [|discriminate].
    destruct (normalize_sizes wspace _) as [[ws nw]|] eqn:EW; cbn [bind]; [|discriminate].
    destruct (make_sizes left axx right ws) as [wr|] eqn:MW; cbn [bind]; [|discriminate].
    apply make_sizes_ok in MW as (NX & LX & ->).
    destruct (make_sizes top axy bottom hs) as [hr|] eqn:MH; cbn [bind]; [|discriminate].
    apply make_sizes_ok in MH as (NY & LY & ->).
    assert (C : forall a c l n, normalize_sizes a c = Ok (l, n) -> l <> [] -> 1 <= n).
    { intros a c l n E N. destruct a as [s|l0]; cbn in E.
      - injection E as <- <-. destruct c as [c|]; [|lia]. destruct (Z.leb_spec 1 c); [assumption|].
        exfalso. apply N. rewrite py_range_seq. replace (Z.to_nat c) with 0%nat by lia. reflexivity.
      - assert (L : l = l0 /\ n = zlen l0).
        { destruct c as [c|]; [destruct (Z.eqb_spec c (zlen l0)); [|discriminate]|]; injection E as <- <-; auto. }
        destruct L as [-> ->]. unfold zlen. destruct l0; [contradiction|cbn; lia]. }
    destruct (normalize_ok _ _ _ _ EX (C _ _ _ _ EX NX)) as [-> MX].
    destruct (normalize_ok _ _ _ _ EY (C _ _ _ _ EY NY)) as [-> MY].
    assert (VX : Z.of_nat (length axx) - 1 = Z.of_nat (length ws)) by lia.
    assert (VY : Z.of_nat (length axy) - 1 = Z.of_nat (length hs)) by lia.
    rewrite VX in EW. rewrite VY in EH.
    apply normalize_spaces in EH as (_ & _ & MHs); [|lia]. apply normalize_spaces in EW as (_ & _ & MWs); [|lia].
    rewrite grid_built by assumption. cbn [bind]. intros E. exists axx, ws, axy, hs.
    assert (K : f = figure_of axx ws axy hs /\ r = returned_of (grid left right top bottom axx ws axy hs)).
    { unfold returned_of. destruct (ravel _) as [|a [|b l]] eqn:Er; injection E as <- <-; split; try reflexivity. }
    destruct K as [-> ->]. repeat split; auto.
  Qed.

  Lemma subplots_complete axx ws axy hs : length axx = S (length ws) -> length axy = S (length hs) ->
      meant ax ncols axx -> meant ay nrows axy ->
      meant wspace (Some (Z.of_nat (length ws))) ws -> meant hspace (Some (Z.of_nat (length hs))) hs ->
    subplots_from_axsize ax ay nrows ncols top bottom left right hspace wspace squeeze =
      Ok (figure_of axx ws axy hs, returned_of (grid left right top bottom axx ws axy hs)).
  Proof.
    intros LX LY MX MY MW MH. unfold subplots_from_axsize.
    rewrite (normalize_complete _ _ _ MX), (normalize_complete _ _ _ MY). cbn [bind].
    assert (VX : Z.of_nat (length axx) - 1 = Z.of_nat (length ws)) by lia.
    assert (VY : Z.of_nat (length axy) - 1 = Z.of_nat (length hs)) by lia.
    rewrite VX, VY, (normalize_complete _ _ _ MW), (normalize_complete _ _ _ MH). cbn [bind].
    rewrite !make_sizes_complete by assumption. cbn [bind]. rewrite grid_built by assumption. cbn [bind].
    unfold returned_of. destruct (ravel _) as [|a [|b l]]; reflexivity.
  Qed.
  Lemma subplots_error e : subplots_from_axsize ax ay nrows ncols top bottom left right hspace wspace squeeze = Err e -> e = AssertionError.
  Proof.
    unfold subplots_from_axsize.
    assert (NE : forall a c e, normalize_sizes a c = Err e -> e = AssertionError).
    { intros [s|l] [c|] e'; cbn; try discriminate. destruct (c =? zlen l); congruence. }
    assert (ME : forall s a e' sp x, make_sizes s a e' sp = Err x -> x = AssertionError).
    { intros s a e' sp x. unfold make_sizes, zlen. destruct (Z.eqb_spec (Z.of_nat (length sp)) (Z.of_nat (length a) - 1)); [|congruence].
      rewrite py_index_last by (intros ->; cbn in *; lia). discriminate. }
    destruct (normalize_sizes ax ncols) as [[axx nc]|] eqn:EX; cbn [bind]; [|intros E; injection E as <-; eauto].
    destruct (normalize_sizes ay nrows) as [[axy nr]|] eqn:EY; cbn [bind]; [|intros E; injection E as <-; eauto].
    destruct (normalize_sizes hspace _) as [[hs nh]|] eqn:EH; cbn [bind]; [|intros E; injection E as <-; eauto].
    destruct (normalize_sizes wspace _) as [[ws nw]|] eqn:EW; cbn [bind]; [|intros E; injection E as <-; eauto].
    destruct (make_sizes left axx right ws) as [wr|] eqn:MW; cbn [bind]; [|intros E; injection E as <-; eauto].
    destruct (make_sizes top axy bottom hs) as [hr|] eqn:MH; [|destruct wr; cbn [bind]; intros E; injection E as <-; eauto].
    intros E. exfalso.
    apply make_sizes_ok in MW as (NX & LX & ->). apply make_sizes_ok in MH as (NY & LY & ->). cbn [bind] in E.
    assert (C : forall a c l n, normalize_sizes a c = Ok (l, n) -> l <> [] -> n = Z.of_nat (length l)).
    { intros a c l n E' N. apply (normalize_ok a c); [assumption|]. destruct a as [s|l0]; cbn in E'.
      - injection E' as <- <-. destruct c as [c|]; [|lia]. destruct (Z.leb_spec 1 c); [assumption|].
        exfalso. apply N. rewrite py_range_seq. replace (Z.to_nat c) with 0%nat by lia. reflexivity.
      - assert (L : l = l0 /\ n = zlen l0).
        { destruct c as [c|]; [destruct (Z.eqb_spec c (zlen l0)); [|discriminate]|]; injection E' as <- <-; auto. }
        destruct L as [-> ->]. unfold zlen. destruct l0; [contradiction|cbn; lia]. }
    rewrite (C _ _ _ _ EX NX), (C _ _ _ _ EY NY), grid_built in E by assumption. cbn [bind] in E.
    destruct (ravel _) as [|a [|b l]]; discriminate.
  Qed.
End Subplots.

(** Positions in inches *)
Lemma grid_nth left right top bottom axx ws axy hs i j d : (i < length axy)%nat -> (j < length axx)%nat ->
  nth j (nth i (grid left right top bottom axx ws axy hs) []) d = cell left right top bottom axx ws axy hs i j.
Proof.
  intros Hi Hj. unfold grid.
  rewrite nth_indep with (d' := (fun i => map (cell left right top bottom axx ws axy hs i) (seq 0 (length axx))) 0%nat) by (now rewrite map_length, seq_length).
  rewrite map_nth with (f := fun i => map (cell left right top bottom axx ws axy hs i) (seq 0 (length axx))), seq_nth by lia. cbn [Nat.add].
  rewrite nth_indep with (d' := cell left right top bottom axx ws axy hs i 0%nat) by (now rewrite map_length, seq_length).
  now rewrite map_nth, seq_nth by lia.
Qed.
Lemma cell_position left right top bottom axx ws axy hs i j (f := figure_of top bottom left right axx ws axy hs)
    (a := cell left right top bottom axx ws axy hs i j) : fg_w f <> 0%R -> fg_h f <> 0%R ->
  left_edge f a = before left axx ws j /\ right_edge f a = (before left axx ws j + nth j axx 0)%R /\
  top_edge f a = before top axy hs i /\ bottom_edge f a = (before top axy hs i + nth i axy 0)%R.
Proof.
  intros HW HH. unfold left_edge, right_edge, top_edge, bottom_edge, a, cell; cbn [ax_x ax_y ax_w ax_h].
  change (rsum (lengths_of left axx right ws)) with (fg_w f). change (rsum (lengths_of top axy bottom hs)) with (fg_h f).
  repeat split; field; assumption.
Qed.
Lemma before_mono start axs sp : Forall (fun s => 0 <= s)%R axs -> Forall (fun s => 0 <= s)%R sp -> forall i j, (i < j)%nat ->
  (before start axs sp i + nth i axs 0 <= before start axs sp j)%R.
Proof.
  intros HA HS i j H. assert (P : forall (l : list R) k, Forall (fun s => 0 <= s)%R l -> (0 <= nth k l 0)%R).
  { intros l k F. destruct (Nat.lt_ge_cases k (length l)); [|rewrite nth_overflow by assumption; lra].
    rewrite Forall_forall in F. apply F. now apply nth_In. }
  induction H as [|j H IH]; cbn [before].
  - pose proof (P sp i HS). lra.
  - pose proof (P sp j HS). pose proof (P axs j HA). lra.
Qed.

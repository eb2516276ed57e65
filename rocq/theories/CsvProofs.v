(** Lemmas about the CSV functions of [src/bmi/utils.py]. *)
From Coq Require Import Ascii String Permutation.
From Verif Require Import Base BaseLemmas UtilsModel UtilsSpec UtilsProofs.
Open Scope nat_scope.

(** ** split / join *)
Lemma split_no_sep sep p : contains_char sep p = false -> split_on sep p = [p].
Proof.
  induction p as [|c p IH]; simpl; intros H; [reflexivity|].
  apply orb_false_iff in H. destruct H as [H1 H2]. rewrite Ascii.eqb_sym in H1.
  rewrite H1, IH by assumption. reflexivity.
Qed.

Lemma split_app sep p s : contains_char sep p = false ->
  split_on sep (p ++ String sep s)%string = p :: split_on sep s.
Proof.
  induction p as [|c p IH]; simpl; intros H.
  - now rewrite Ascii.eqb_refl.
  - apply orb_false_iff in H. destruct H as [H1 H2]. rewrite Ascii.eqb_sym in H1.
    rewrite H1, IH by assumption. reflexivity.
Qed.

Lemma split_join sep parts : parts <> [] ->
  Forall (fun p => contains_char sep p = false) parts -> split_on sep (join sep parts) = parts.
Proof.
  intros Hne H. induction H as [|p parts Hp H IH]; [congruence|].
  destruct parts as [|q parts].
  - simpl. now apply split_no_sep.
  - change (join sep (p :: q :: parts)) with (p ++ String sep (join sep (q :: parts)))%string.
    rewrite split_app by assumption. f_equal. apply IH. discriminate.
Qed.

Lemma contains_app c s t : contains_char c (s ++ t)%string = contains_char c s || contains_char c t.
Proof. induction s as [|d s IH]; simpl; auto. now rewrite IH, orb_assoc. Qed.

Lemma contains_join c sep parts : Ascii.eqb c sep = false ->
  Forall (fun p => contains_char c p = false) parts -> contains_char c (join sep parts) = false.
Proof.
  intros Hc H. induction H as [|p parts Hp H IH]; [reflexivity|].
  destruct parts as [|q parts]; [assumption|].
  change (join sep (p :: q :: parts)) with (p ++ String sep (join sep (q :: parts)))%string.
  rewrite contains_app. simpl. now rewrite Hp, Hc.
Qed.

Lemma string_app_assoc (a b c : string) : (a ++ (b ++ c))%string = ((a ++ b) ++ c)%string.
Proof. induction a as [|x a IH]; simpl; auto. now rewrite IH. Qed.

Lemma concat_terminated_cons l ls :
  String.concat EmptyString (map terminate (l :: ls)) =
  (l ++ String newline (String.concat EmptyString (map terminate ls)))%string.
Proof.
  unfold terminate at 1. destruct ls as [|m ls]; cbn [map String.concat].
  - unfold terminate. reflexivity.
  - cbn [String.append]. unfold terminate at 1. rewrite <- string_app_assoc. reflexivity.
Qed.

Lemma csv_lines_terminated lines :
  Forall (fun l => contains_char newline l = false) lines ->
  csv_lines (String.concat EmptyString (map terminate lines)) = lines.
Proof.
  intros H. unfold csv_lines.
  assert (E : split_on newline (String.concat EmptyString (map terminate lines)) = lines ++ [EmptyString]).
  { induction H as [|l ls Hl H IH]; [reflexivity|].
    rewrite concat_terminated_cons, split_app, IH by assumption. reflexivity. }
  rewrite E. apply removelast_last.
Qed.

(** ** Column names *)
Lemma digit_code d : d < 10 -> nat_of_ascii (digit d) = 48 + d.
Proof. intros H. unfold digit. apply nat_ascii_embedding. lia. Qed.

Fixpoint digits_value (s : string) (a : nat) : nat :=
  match s with
  | EmptyString => a
  | String c s' => digits_value s' (a * 10 + (nat_of_ascii c - 48))
  end.

Lemma decimal_aux_value fuel n acc : n < fuel -> digits_value (decimal_aux fuel n acc) 0 = digits_value acc n.
Proof.
  revert n acc; induction fuel as [|f IH]; intros n acc Hn; [lia|].
  cbn [decimal_aux].
  assert (Hm : n mod 10 < 10) by (apply Nat.mod_upper_bound; lia).
  assert (Hdm : n = 10 * (n / 10) + n mod 10) by (apply Nat.div_mod; lia).
  destruct (Nat.eqb_spec (n / 10) 0) as [E|E].
  - cbn [digits_value]. rewrite digit_code by assumption. f_equal. lia.
  - rewrite IH by lia. cbn [digits_value]. rewrite digit_code by assumption. f_equal. lia.
Qed.

Lemma decimal_inj n m : decimal n = decimal m -> n = m.
Proof.
  intros H. assert (Hn : digits_value (decimal n) 0 = n) by (apply decimal_aux_value; lia).
  assert (Hm : digits_value (decimal m) 0 = m) by (apply decimal_aux_value; lia). congruence.
Qed.

Lemma decimal_aux_chars c fuel n acc :
  (forall d, d < 10 -> Ascii.eqb c (digit d) = false) -> contains_char c acc = false ->
  contains_char c (decimal_aux fuel n acc) = false.
Proof.
  intros Hc. revert n acc; induction fuel as [|f IH]; intros n acc Ha; [assumption|].
  cbn [decimal_aux].
  assert (Hx : contains_char c (String (digit (n mod 10)) acc) = false).
  { cbn [contains_char]. rewrite Ha, Hc by (apply Nat.mod_upper_bound; lia). reflexivity. }
  destruct (n / 10 =? 0); auto.
Qed.

Lemma decimal_chars c n : (nat_of_ascii c < 48 \/ 58 <= nat_of_ascii c) -> contains_char c (decimal n) = false.
Proof.
  intros Hc. apply decimal_aux_chars; [|reflexivity].
  intros d Hd. apply Ascii.eqb_neq. intros ->. rewrite digit_code in Hc by assumption. lia.
Qed.

Lemma name_chars c l n : Ascii.eqb c l = false -> (nat_of_ascii c < 48 \/ 58 <= nat_of_ascii c) ->
  contains_char c (String l (decimal n)) = false.
Proof. intros H1 H2. cbn [contains_char]. now rewrite H1, decimal_chars. Qed.

Lemma sample_columns_chars c dx dy :
  Ascii.eqb c "X" = false -> Ascii.eqb c "Y" = false -> (nat_of_ascii c < 48 \/ 58 <= nat_of_ascii c) ->
  Forall (fun p => contains_char c p = false) (sample_columns dx dy).
Proof.
  intros H1 H2 H3. unfold sample_columns. apply Forall_app; split;
    apply Forall_map, Forall_forall; intros i _; now apply name_chars.
Qed.

Lemma filter_all {A} (f : A -> bool) l : Forall (fun a => f a = true) l -> filter f l = l.
Proof. induction 1 as [|a l Ha H IH]; simpl; auto. now rewrite Ha, IH. Qed.
Lemma filter_none {A} (f : A -> bool) l : Forall (fun a => f a = false) l -> filter f l = [].
Proof. induction 1 as [|a l Ha H IH]; simpl; auto. now rewrite Ha. Qed.

Lemma filter_X dx dy : filter (contains_char "X") (sample_columns dx dy)
  = map (fun i => String "X" (decimal i)) (seq 0 dx).
Proof.
  unfold sample_columns. rewrite filter_app, filter_all, filter_none; [now rewrite app_nil_r| |].
  - apply Forall_map, Forall_forall. intros i _. apply name_chars; [reflexivity|]. vm_compute; lia.
  - apply Forall_map, Forall_forall. intros i _. reflexivity.
Qed.

Lemma filter_Y dx dy : filter (contains_char "Y") (sample_columns dx dy)
  = map (fun i => String "Y" (decimal i)) (seq 0 dy).
Proof.
  unfold sample_columns. rewrite filter_app, filter_none, filter_all; [reflexivity| |].
  - apply Forall_map, Forall_forall. intros i _. reflexivity.
  - apply Forall_map, Forall_forall. intros i _. apply name_chars; [reflexivity|]. vm_compute; lia.
Qed.

Lemma names_nodup l n : NoDup (map (fun i => String l (decimal i)) (seq 0 n)).
Proof.
  apply FinFun.Injective_map_NoDup; [|apply seq_NoDup].
  intros a b H. injection H as H. now apply decimal_inj.
Qed.

Lemma nodup_app {A} (l1 l2 : list A) :
  NoDup l1 -> NoDup l2 -> (forall a, In a l1 -> ~ In a l2) -> NoDup (l1 ++ l2).
Proof.
  induction 1 as [|a l1 Ha H1 IH]; intros H2 Hd; simpl; [assumption|].
  constructor.
  - rewrite in_app_iff. intros [H|H]; [contradiction|]. eapply Hd; eauto. now left.
  - apply IH; auto. intros b Hb. apply Hd. now right.
Qed.

Lemma sample_columns_nodup dx dy : NoDup (sample_columns dx dy).
Proof.
  apply nodup_app; try apply names_nodup.
  intros a Ha Hb. apply in_map_iff in Ha. apply in_map_iff in Hb.
  destruct Ha as (i & <- & _). destruct Hb as (j & Hj & _). discriminate.
Qed.

(** ** Selecting columns *)
Lemma combine_app {A B} (a1 a2 : list A) (b1 b2 : list B) :
  List.length a1 = List.length b1 -> combine (a1 ++ a2) (b1 ++ b2) = combine a1 b1 ++ combine a2 b2.
Proof.
  revert b1; induction a1 as [|x a1 IH]; intros [|y b1] H; simpl in *; try discriminate; auto.
  now rewrite IH by lia.
Qed.

Lemma cells_under_app c1 c2 name r1 r2 : List.length c1 = List.length r1 ->
  cells_under (c1 ++ c2) name (r1 ++ r2) = cells_under c1 name r1 ++ cells_under c2 name r2.
Proof. intros H. unfold cells_under. now rewrite combine_app, filter_app, map_app. Qed.

Lemma cells_under_absent c name r : ~ In name c -> cells_under c name r = [].
Proof.
  intros H. unfold cells_under. rewrite filter_none; [reflexivity|].
  apply Forall_forall. intros [n v] Hin. apply in_combine_l in Hin. simpl.
  apply String.eqb_neq. intros ->. contradiction.
Qed.

Lemma flat_map_ext_in {A B} (f g : A -> list B) l :
  (forall a, In a l -> f a = g a) -> flat_map f l = flat_map g l.
Proof. intros H. rewrite !flat_map_concat_map. f_equal. now apply map_ext_in. Qed.

Lemma select_all c r : NoDup c -> List.length c = List.length r ->
  flat_map (fun name => cells_under c name r) c = r.
Proof.
  intros Hnd. revert r. induction Hnd as [|a c Ha Hnd IH]; intros [|v r] Hl; simpl in *; try discriminate; auto.
  unfold cells_under at 1. cbn [combine filter fst]. rewrite String.eqb_refl. cbn [map snd].
  fold (cells_under c a r). rewrite cells_under_absent by assumption. simpl. f_equal.
  transitivity (flat_map (fun name => cells_under c name r) c).
  - apply flat_map_ext_in. intros name Hin. unfold cells_under. cbn [combine filter fst].
    destruct (String.eqb_spec a name) as [->|_]; [contradiction|reflexivity].
  - apply IH. lia.
Qed.

Lemma select_left c1 c2 r1 r2 : NoDup (c1 ++ c2) -> List.length c1 = List.length r1 ->
  flat_map (fun name => cells_under (c1 ++ c2) name (r1 ++ r2)) c1 = r1.
Proof.
  intros Hnd Hl. transitivity (flat_map (fun name => cells_under c1 name r1) c1).
  - apply flat_map_ext_in. intros name Hin. rewrite cells_under_app by assumption.
    rewrite (cells_under_absent c2); [apply app_nil_r|].
    intros H2. clear Hl. induction c1 as [|a c1 IH]; simpl in *; [contradiction|].
    inversion Hnd as [|? ? Hna Hnd']; subst. destruct Hin as [->|Hin]; [|auto].
    apply Hna, in_app_iff; auto.
  - apply select_all; auto. clear Hl. induction c1 as [|a c1 IH]; [constructor|].
    inversion Hnd as [|? ? Hna Hnd']; subst. constructor; auto.
    intros H. apply Hna, in_app_iff; auto.
Qed.

Lemma select_right c1 c2 r1 r2 : NoDup (c1 ++ c2) -> List.length c1 = List.length r1 ->
  List.length c2 = List.length r2 ->
  flat_map (fun name => cells_under (c1 ++ c2) name (r1 ++ r2)) c2 = r2.
Proof.
  intros Hnd Hl Hl2. transitivity (flat_map (fun name => cells_under c2 name r2) c2).
  - apply flat_map_ext_in. intros name Hin. rewrite cells_under_app by assumption.
    rewrite (cells_under_absent c1); [reflexivity|].
    intros H1. clear Hl. induction c1 as [|a c1 IH]; simpl in *; [contradiction|].
    inversion Hnd as [|? ? Hna Hnd']; subst. destruct H1 as [->|H1]; [|auto].
    apply Hna, in_app_iff; auto.
  - apply select_all; auto. clear Hl. induction c1 as [|a c1 IH]; simpl in *; auto.
    inversion Hnd; auto.
Qed.

Lemma select_columns_left c1 c2 xs ys :
  NoDup (c1 ++ c2) -> List.length xs = List.length ys ->
  rectangular (List.length c1) xs ->
  select_columns (c1 ++ c2) (hstack xs ys) c1 = xs.
Proof.
  intros Hnd Hl Hx. unfold select_columns, hstack. rewrite map_map.
  revert ys Hl; induction Hx as [|r xs Hr Hx IH]; intros [|s ys] Hl; simpl in *; try discriminate; auto.
  rewrite select_left by auto. f_equal. apply IH. lia.
Qed.

Lemma select_columns_right c1 c2 xs ys :
  NoDup (c1 ++ c2) -> List.length xs = List.length ys ->
  rectangular (List.length c1) xs -> rectangular (List.length c2) ys ->
  select_columns (c1 ++ c2) (hstack xs ys) c2 = ys.
Proof.
  intros Hnd Hl Hx. unfold select_columns, hstack. rewrite map_map.
  revert ys Hl; induction Hx as [|r xs Hr Hx IH]; intros [|s ys] Hl Hy; simpl in *; try discriminate; auto.
  inversion Hy; subst. rewrite select_right by auto. f_equal. apply IH; auto.
Qed.

(** ** The round trip *)
Section RoundTrip.
Variable show : R -> string.
Variable parse : string -> option R.
Variable good : R -> Prop.
Hypothesis parse_show : forall r, good r -> parse (show r) = Some r.
Hypothesis show_clean : forall r, good r ->
  contains_char comma (show r) = false /\ contains_char newline (show r) = false.

Definition good_rows (m : matrix) : Prop := Forall (Forall good) m.

Lemma parse_row_show row : Forall good row -> parse_row parse (map show row) = Some row.
Proof. induction 1 as [|v row Hv H IH]; simpl; auto. now rewrite parse_show, IH. Qed.

Lemma clean_cells c row : (c = comma \/ c = newline) -> Forall good row ->
  Forall (fun p => contains_char c p = false) (map show row).
Proof.
  intros Hc H. apply Forall_map. eapply Forall_impl; [|exact H]. cbv beta. intros v Hv.
  destruct (show_clean v Hv). destruct Hc; subst; assumption.
Qed.

Lemma parse_rows_show rows : Forall (fun row => row <> []) rows -> good_rows rows ->
  parse_rows parse (map (fun row => join comma (map show row)) rows) = Some rows.
Proof.
  intros H Hg. induction H as [|row rows Hr H IH]; [reflexivity|].
  inversion Hg; subst.
  cbn [map parse_rows]. rewrite split_join, parse_row_show, IH; auto.
  - destruct row; [congruence|discriminate].
  - apply clean_cells; auto.
Qed.

Lemma to_csv_lines columns rows :
  Forall (fun p => contains_char newline p = false) columns -> good_rows rows ->
  csv_lines (to_csv show columns rows) = join comma columns :: map (fun row => join comma (map show row)) rows.
Proof.
  intros H Hg. unfold to_csv.
  replace (terminate (join comma columns) :: map (fun row => terminate (join comma (map show row))) rows)
    with (map terminate (join comma columns :: map (fun row => join comma (map show row)) rows))
    by (cbn [map]; now rewrite map_map).
  apply csv_lines_terminated. constructor.
  - now apply contains_join.
  - apply Forall_map. eapply Forall_impl; [|exact Hg]. cbv beta. intros row Hrow.
    apply contains_join; [reflexivity|]. apply clean_cells; auto.
Qed.

Lemma hstack_good xs ys : good_rows xs -> good_rows ys -> good_rows (hstack xs ys).
Proof.
  intros Hx Hy. unfold hstack. apply Forall_map, Forall_forall. intros [r1 r2] Hin. simpl.
  unfold good_rows in *. rewrite Forall_forall in Hx, Hy.
  apply Forall_app; split; [eapply Hx, in_combine_l; eauto|eapply Hy, in_combine_r; eauto].
Qed.

Lemma columns_split dx dy : 0 < dx + dy ->
  split_on comma (join comma (sample_columns dx dy)) = sample_columns dx dy.
Proof.
  intros H. apply split_join.
  - intros E. apply (f_equal (@List.length _)) in E. unfold sample_columns in E.
    rewrite app_length, !map_length, !seq_length in E. simpl in E. lia.
  - apply sample_columns_chars; try reflexivity. vm_compute; lia.
Qed.

Lemma sample_round_trip dx dy xs ys text :
  0 < dx + dy -> rectangular dx xs -> rectangular dy ys -> good_rows xs -> good_rows ys ->
  save_sample show (Arr2 dx xs) (Arr2 dy ys) = Ok text ->
  read_sample parse text = Ok (xs, ys) /\ read_sample_dims text = (dx, dy).
Proof.
  intros Hd Hx Hy Gx Gy Hs. unfold save_sample in Hs.
  pose proof (hstack_good xs ys Gx Gy) as Gxy.
  destruct (Nat.eqb_spec (List.length xs) (List.length ys)) as [Hl|]; [|discriminate].
  injection Hs as <-.
  assert (Hnl : Forall (fun p => contains_char newline p = false) (sample_columns dx dy)).
  { apply sample_columns_chars; try reflexivity. vm_compute; lia. }
  split.
  - unfold read_sample, read_csv. rewrite to_csv_lines by assumption.
    rewrite parse_rows_show.
    + cbn [bind]. rewrite columns_split by assumption. rewrite filter_X, filter_Y.
      set (cx := map (fun i => String "X" (decimal i)) (seq 0 dx)).
      set (cy := map (fun i => String "Y" (decimal i)) (seq 0 dy)).
      change (sample_columns dx dy) with (cx ++ cy).
      assert (Lx : List.length cx = dx) by (unfold cx; now rewrite map_length, seq_length).
      assert (Ly : List.length cy = dy) by (unfold cy; now rewrite map_length, seq_length).
      rewrite app_length, Lx, Ly, Nat.eqb_refl.
      rewrite select_columns_left, select_columns_right; auto; rewrite ?Lx, ?Ly; auto;
        apply sample_columns_nodup.
    + pose proof (hstack_rect dx dy xs ys Hx Hy) as Hr.
      eapply Forall_impl; [|exact Hr]. cbv beta. intros row Hrow ->. simpl in Hrow. lia.
    + assumption.
  - unfold read_sample_dims, csv_header. rewrite to_csv_lines by assumption.
    rewrite columns_split by assumption. rewrite filter_X, filter_Y.
    now rewrite !map_length, !seq_length.
Qed.

Lemma save_sample_accepts a b :
  (exists text, save_sample show a b = Ok text) <->
  (exists dx xs dy ys, a = Arr2 dx xs /\ b = Arr2 dy ys /\ List.length xs = List.length ys).
Proof.
  split.
  - intros [text H]. destruct a as [dx xs|], b as [dy ys|]; simpl in H; try discriminate.
    destruct (Nat.eqb_spec (List.length xs) (List.length ys)); [|discriminate].
    now exists dx, xs, dy, ys.
  - intros (dx & xs & dy & ys & -> & -> & E). simpl. rewrite E, Nat.eqb_refl. eauto.
Qed.
End RoundTrip.

(** The assertion of read_sample is weaker than "the columns are split into X
    columns and Y columns". *)
Lemma read_sample_bad_header parse (v w : R) :
  parse "1"%string = Some v -> parse "2"%string = Some w ->
  read_sample parse (String.concat EmptyString [terminate "XY,Z"; terminate "1,2"])
  = Ok ([[v]], [[v]]).
Proof. intros H1 H2. unfold read_sample, read_csv. cbn. rewrite H1, H2. reflexivity. Qed.

Lemma read_check_refuted :
  exists (text : string), forall (parse : string -> option R) (v w : R),
  parse "1"%string = Some v -> parse "2"%string = Some w ->
  csv_header text = ["XY"; "Z"]%string /\ read_sample parse text = Ok ([[v]], [[v]]).
Proof.
  exists (String.concat EmptyString [terminate "XY,Z"; terminate "1,2"]).
  intros parse v w H1 H2. split; [reflexivity|]. now apply (read_sample_bad_header parse v w).
Qed.

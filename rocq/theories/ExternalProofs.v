(** Lemmas about the external estimators ([ExternalModel]). *)
From Coq Require Import Ascii String.
From Verif Require Import Base UtilsModel JaxModel SamplersModel BaseLemmas UtilsSpec UtilsProofs CsvProofs
  BenchmarkModel BenchmarkSpec BenchmarkProofs BenchmarkThms TasksModel ExternalModel ExternalSpec.
Open Scope Z_scope.
Local Notation length := List.length.

(** ** Stripping *)
Lemma is_space_white c : is_space c = true <-> white c.
Proof.
  unfold is_space, white. set (n := nat_of_ascii c). cbn [In].
  rewrite orb_true_iff, !andb_true_iff, !Nat.leb_le. lia.
Qed.
Lemma not_space c : ~ white c -> is_space c = false.
Proof. intros H. apply not_true_iff_false. now rewrite is_space_white. Qed.

Lemma lstrip_white l s : all_white l -> (forall c s', s = String c s' -> ~ white c) -> lstrip (l ++ s) = s.
Proof.
  induction l as [|c l IH]; cbn; intros W T.
  - destruct s as [|c s]; [reflexivity|]. cbn. now rewrite (not_space c (T c s eq_refl)).
  - destruct W as [Wc W]. apply is_space_white in Wc. rewrite Wc. auto.
Qed.
Lemma rstrip_white l : all_white l -> rstrip l = EmptyString.
Proof. induction l as [|c l IH]; cbn; [reflexivity|]. intros [Wc W]. rewrite IH by assumption. apply is_space_white in Wc. now rewrite Wc. Qed.
Lemma rstrip_tidy s r : all_white r -> (forall s' c, s = (s' ++ String c EmptyString)%string -> ~ white c) -> rstrip (s ++ r) = s.
Proof.
  intros W. induction s as [|c s IH]; cbn; intros T; [now apply rstrip_white|].
  rewrite IH by (intros s' d ->; apply (T (String c s')); reflexivity).
  destruct s as [|d s]; [|reflexivity]. now rewrite (not_space c (T EmptyString c eq_refl)).
Qed.
Lemma string_app_nil_r (s : string) : (s ++ EmptyString)%string = s.
Proof. induction s; cbn; congruence. Qed.
Lemma strip_spec l s r : all_white l -> all_white r -> tidy s -> strip (l ++ s ++ r) = s.
Proof.
  intros Wl Wr [T1 T2]. unfold strip. destruct s as [|c s].
  - cbn [append]. assert (E : forall l, all_white l -> lstrip l = EmptyString).
    { clear. induction l as [|c l IH]; cbn; [reflexivity|]. intros [Wc W]. apply is_space_white in Wc. rewrite Wc. auto. }
    rewrite E; [reflexivity|]. clear -Wl Wr. induction l; cbn in *; tauto.
  - rewrite lstrip_white; [now apply rstrip_tidy|assumption|]. cbn. intros d s' E. injection E as <- _. now apply (T1 c s).
Qed.
Lemma strip_line s : tidy s -> strip (s ++ String newline EmptyString) = s.
Proof. intros T. apply (strip_spec EmptyString s); [exact I|split; [|exact I]|exact T]. unfold white. cbn. tauto. Qed.

(** ** Integers on the command line *)
Lemma digit_value_digit d : (d < 10)%nat -> digit_value (digit d) = Some (Z.of_nat d).
Proof.
  intros H. unfold digit_value. rewrite digit_code by assumption.
  destruct (Z.leb_spec 48 (Z.of_nat (48 + d))); [|lia]. destruct (Z.leb_spec (Z.of_nat (48 + d)) 57); [|lia]. cbn [andb]. f_equal. lia.
Qed.
Lemma digits_from_decimal fuel : forall n acc, (n < fuel)%nat -> digits_from (decimal_aux fuel n acc) 0 = digits_from acc (Z.of_nat n).
Proof.
  induction fuel as [|f IH]; intros n acc Hn; [lia|]. cbn [decimal_aux].
  assert (Hm : (n mod 10 < 10)%nat) by (apply Nat.mod_upper_bound; lia).
  assert (Hdm : (n = 10 * (n / 10) + n mod 10)%nat) by (apply Nat.div_mod; lia).
  destruct (Nat.eqb_spec (n / 10) 0) as [E|E].
  - cbn [digits_from]. rewrite digit_value_digit by assumption. f_equal. lia.
  - rewrite IH by lia. cbn [digits_from]. rewrite digit_value_digit by assumption. f_equal. lia.
Qed.
Lemma decimal_starts n : exists c s, decimal n = String c s /\ c <> "-"%char.
Proof.
  assert (H := decimal_chars "-" n ltac:(vm_compute; lia)).
  destruct (decimal n) as [|c s] eqn:E.
  - unfold decimal in E. cbn [decimal_aux] in E. exfalso. revert E.
    assert (G : forall f m acc, acc <> EmptyString -> decimal_aux f m acc <> EmptyString).
    { induction f as [|f IH]; intros m acc Ha; cbn [decimal_aux]; [exact Ha|]. destruct (m / 10 =? 0)%nat; [discriminate|apply IH; discriminate]. }
    destruct (n / 10 =? 0)%nat; [discriminate|apply G; discriminate].
  - exists c, s. split; [reflexivity|]. cbn in H. intros ->. discriminate.
Qed.
Lemma parse_int_str z : parse_int (int_str z) = Some z.
Proof.
  unfold int_str. destruct (Z.ltb_spec z 0).
  - assert (E := digits_from_decimal (S (Z.to_nat (- z))) (Z.to_nat (- z)) EmptyString ltac:(lia)).
    destruct (decimal_starts (Z.to_nat (- z))) as (c & s & D & N). unfold decimal in D |- *. rewrite D in E |- *.
    cbn [append]. unfold parse_int. rewrite E. cbn [digits_from]. f_equal. lia.
  - assert (E := digits_from_decimal (S (Z.to_nat z)) (Z.to_nat z) EmptyString ltac:(lia)).
    destruct (decimal_starts (Z.to_nat z)) as (c & s & D & N). unfold decimal in D |- *. rewrite D in E |- *.
    assert (P : parse_int (String c s) = digits_from (String c s) 0).
    { unfold parse_int. destruct c as [[] [] [] [] [] [] [] []]; try reflexivity. now contradiction N. }
    rewrite P, E. cbn [digits_from]. f_equal. lia.
Qed.
Lemma int_str_plain z : starts_with "--" (int_str z) = false.
Proof.
  unfold int_str, starts_with. destruct (decimal_starts (Z.to_nat (- z))) as (c & s & D & N).
  destruct (decimal_starts (Z.to_nat z)) as (c' & s' & D' & N').
  destruct (z <? 0).
  - rewrite D. cbn [append String.prefix]. destruct (ascii_dec "-" "-") as [_|]; [|reflexivity].
    destruct (ascii_dec "-" c) as [E|]; [congruence|reflexivity].
  - rewrite D'. cbn [String.prefix]. destruct (ascii_dec "-" c') as [E|]; [congruence|reflexivity].
Qed.
Lemma absolute_plain cwd path : is_absolute cwd -> starts_with "--" (absolute cwd path) = false.
Proof.
  intros [r ->]. unfold absolute. destruct path as [|c p]; [reflexivity|].
  assert (H : starts_with "--" (String "/" r ++ "/" ++ String c p)%string = false) by reflexivity.
  destruct c as [[] [] [] [] [] [] [] []]; exact H || reflexivity.
Qed.
Lemma absolute_id cwd path : is_absolute path -> absolute cwd path = path.
Proof. intros [r ->]. reflexivity. Qed.

(** ** Reading the number *)
Section Read.
  Variables (V : conversions) (exec : list string -> files -> process).

  Lemma reads_number args fs v : run_command_and_read_mi V exec args fs = Done v <->
    exists chunks text, exec args fs = Exited 0 chunks /\
      decode V (String.concat EmptyString (map snd chunks)) = Some text /\ parse_float V (strip text) = Some v.
  Proof.
    unfold run_command_and_read_mi, check_output. split.
    - destruct (exec args fs) as [code chunks|]; [|discriminate].
      destruct (Z.eqb_spec code 0) as [->|]; [|discriminate]. destruct (decode V _) as [text|] eqn:D; [|discriminate].
      destruct (parse_float V (strip text)) eqn:P; [|discriminate]. intros H. injection H as <-. exists chunks, text. auto.
    - intros (chunks & text & -> & D & P). cbn. now rewrite D, P.
  Qed.
  Lemma failure_raised args fs code chunks : exec args fs = Exited code chunks -> code <> 0 ->
    run_command_and_read_mi V exec args fs =
      Failed (exit_message V args code) (Some (py_bytes V (String.concat EmptyString (map snd chunks)))).
  Proof. intros E N. unfold run_command_and_read_mi, check_output. rewrite E. destruct (Z.eqb_spec code 0); [contradiction|reflexivity]. Qed.
  Lemma not_a_number args fs chunks : exec args fs = Exited 0 chunks ->
    (forall text v, decode V (String.concat EmptyString (map snd chunks)) = Some text -> parse_float V (strip text) <> Some v) ->
    exists m, run_command_and_read_mi V exec args fs = Failed m None.
  Proof.
    intros E N. unfold run_command_and_read_mi, check_output. rewrite E. cbn. destruct (decode V _) as [text|]; [|eauto].
    specialize (N text). destruct (parse_float V (strip text)) as [v|] eqn:P; [|eauto]. now destruct (N v eq_refl).
  Qed.
  Lemma printed_follows args fs r : exec args fs = printed r -> follows V args r (run_command_and_read_mi V exec args fs).
  Proof.
    destruct r as [m|s]; cbn [printed follows]; intros E.
    - rewrite (failure_raised _ _ _ _ E) by discriminate. cbn. reflexivity.
    - intros v (T & P & D). apply reads_number. exists [(false, s); (false, String newline EmptyString)], (s ++ String newline EmptyString)%string.
      split; [exact E|]. split; [exact D|]. now rewrite strip_line.
  Qed.
End Read.

(** ** The scripts *)
Lemma r_colon_up a b : a <= b + 1 -> r_colon a b = map (fun i => a + Z.of_nat i) (seq 0 (Z.to_nat (b - a + 1))) \/ (b < a).
Proof. intros H. unfold r_colon. destruct (Z.leb_spec a b); [left; reflexivity|right; lia]. Qed.

Lemma map_nth_seq {A} (d : A) l k n : (k + n <= length l)%nat -> map (fun i => nth (k + i) l d) (seq 0 n) = firstn n (skipn k l).
Proof.
  intros H.
  assert (L : length (firstn k l) = k) by (rewrite firstn_length; lia).
  transitivity (map (fun i => nth i (skipn k l) d) (seq 0 n)).
  { apply map_ext. intros i. rewrite <- (firstn_skipn k l) at 1. rewrite app_nth2 by lia. rewrite L. f_equal. lia. }
  assert (L2 : (n <= length (skipn k l))%nat) by (rewrite skipn_length; lia). clear -L2.
  revert L2. generalize (skipn k l) as m. clear. intros m. revert n. induction m as [|a m IH]; cbn; intros n L.
  - assert (n = 0)%nat as -> by lia. reflexivity.
  - destruct n; [reflexivity|]. cbn [seq map nth firstn]. f_equal. rewrite <- seq_shift, map_map. apply IH. lia.
Qed.

Lemma r_columns_range n data a b : 1 <= a -> a <= b -> b <= Z.of_nat n -> rectangular n data ->
  r_columns n data (r_colon a b) = Some (map (fun row => firstn (Z.to_nat (b - a + 1)) (skipn (Z.to_nat (a - 1)) row)) data).
Proof.
  intros Ha Hab Hb R. unfold r_colon. destruct (Z.leb_spec a b); [|lia]. unfold r_columns.
  assert (F : filter (fun i => negb (i =? 0)) (map (fun i => a + Z.of_nat i) (seq 0 (Z.to_nat (b - a + 1))))
              = map (fun i => a + Z.of_nat i) (seq 0 (Z.to_nat (b - a + 1)))).
  { apply filter_all, Forall_map, Forall_forall. intros i _. destruct (Z.eqb_spec (a + Z.of_nat i) 0); [lia|reflexivity]. }
  rewrite F. clear F.
  assert (G : forallb (fun i => (1 <=? i) && (i <=? Z.of_nat n)) (map (fun i => a + Z.of_nat i) (seq 0 (Z.to_nat (b - a + 1)))) = true).
  { apply forallb_forall. intros i H'. apply in_map_iff in H' as (j & <- & J). apply in_seq in J.
    apply andb_true_iff. rewrite !Z.leb_le. lia. }
  rewrite G. f_equal. apply map_ext_in. intros row Hr. rewrite map_map.
  assert (L : length row = n) by (unfold rectangular in R; rewrite Forall_forall in R; auto).
  rewrite <- (map_nth_seq 0%R) by lia. apply map_ext. intros i. f_equal. lia.
Qed.
Lemma julia_columns_range n data a b : 1 <= a -> a <= b -> b <= Z.of_nat n -> rectangular n data ->
  julia_columns n data a b = Some (map (fun row => firstn (Z.to_nat (b - a + 1)) (skipn (Z.to_nat (a - 1)) row)) data).
Proof.
  intros Ha Hab Hb R. unfold julia_columns. destruct (Z.ltb_spec b a); [lia|].
  destruct (Z.leb_spec 1 a); [|lia]. destruct (Z.leb_spec b (Z.of_nat n)); [|lia]. cbn [andb]. f_equal.
  apply map_ext_in. intros row Hr. assert (L : length row = n) by (unfold rectangular in R; rewrite Forall_forall in R; auto).
  rewrite <- (map_nth_seq 0%R) by lia. apply map_ext. intros i. f_equal. lia.
Qed.

Lemma left_range n (data : matrix) dx dy : 0 <= dx -> 0 <= dy -> Z.of_nat n = dx + dy -> rectangular n data ->
  map (fun row => firstn (Z.to_nat (dx - 1 + 1)) (skipn (Z.to_nat (1 - 1)) row)) data = left_columns dx data.
Proof. intros Hx Hy E R. apply map_ext. intros row. cbn [Z.to_nat Z.sub skipn]. change (Z.to_nat (1 - 1)) with 0%nat. cbn [skipn]. f_equal. lia. Qed.
Lemma right_range n (data : matrix) dx dy a : 0 <= dx -> 0 <= dy -> Z.of_nat n = dx + dy -> a = dx + 1 -> rectangular n data ->
  map (fun row => firstn (Z.to_nat (dx + dy - a + 1)) (skipn (Z.to_nat (a - 1)) row)) data = right_columns dx data.
Proof.
  intros Hx Hy E -> R. apply map_ext_in. intros row Hr.
  assert (L : length row = n) by (unfold rectangular in R; rewrite Forall_forall in R; auto).
  replace (Z.to_nat (dx + 1 - 1)) with (Z.to_nat dx) by lia. apply firstn_all2. rewrite skipn_length. lia.
Qed.

Section Scripts.
  Variables (read_cell : string -> option R) (parse_double : string -> option R).
  Variables (r_library : r_call -> string + string) (julia_library : julia_call -> string + string).
  Variables (r_error julia_error cwd code_dir : string) (float_str : R -> string).
  Hypothesis Hcwd : is_absolute cwd.

  Local Notation sh := (shell read_cell parse_double r_library julia_library r_error julia_error
    (r_script cwd code_dir) (julia_script cwd code_dir)).

  Lemma method_plain v : starts_with "--" ("KSG" ++ int_str v) = false.
  Proof. reflexivity. Qed.

  Variables (path : string) (dx dy : Z) (fs : files) (text : string) (columns : list string) (data : matrix).
  Hypotheses (Hfs : fs (absolute cwd path) = Some text) (Hread : read_csv read_cell text = Ok (columns, data)).

  Ltac args := cbn [split_args]; rewrite ?(absolute_plain cwd path Hcwd), ?int_str_plain, ?method_plain.
  Ltac literal := change (starts_with "--" "--method") with true; change (starts_with "--" "--neighbors") with true;
    change (starts_with "--" "--truncation") with true; change (starts_with "--" "--proc") with true;
    change (starts_with "--" "--estimator") with true; change (starts_with "--" "--bins") with true;
    change (starts_with "--" "--bandwidth") with true;
    change (starts_with "--" "LNN") with false; change (starts_with "--" "BNSL") with false;
    change (starts_with "--" "Histogram") with false; change (starts_with "--" "Transfer") with false; change (starts_with "--" "Kernel") with false.
  Ltac opts := cbn [existsb String.eqb Ascii.eqb Bool.eqb orb andb option_value int_option rev app sdict_get fst snd negb].

  Ltac script cmd := unfold cmd, shell; rewrite ?String.eqb_refl; cbn [String.eqb Ascii.eqb Bool.eqb andb];
    rewrite ?String.eqb_refl; cbv iota.
  Ltac rmi cmd := script cmd; unfold rmi_script; args; literal; cbv iota; opts; rewrite !parse_int_str; cbv beta iota zeta.

  Lemma ksg_params_ok v n p : (do v <- literal_12 v; do n <- positive_int n; Ok {| kp_variant := v; kp_neighbors := n |}) = Ok p ->
    p = {| kp_variant := v; kp_neighbors := n |} /\ (v = 1 \/ v = 2) /\ 1 <= n.
  Proof.
    unfold literal_12, positive_int. destruct (Z.eqb_spec v 1); destruct (Z.eqb_spec v 2); cbn [orb bind]; try discriminate;
      destruct (Z.ltb_spec 0 n); cbn [bind]; try discriminate; intros H'; injection H' as <-; repeat split; auto; lia.
  Qed.

  Lemma r_ksg_called v n p : r_ksg v n = Ok p ->
    sh (r_ksg_command cwd code_dir p path dx dy) fs = printed (r_library (KnnMi data (dx, dy) ("KSG" ++ int_str v) n)).
  Proof.
    intros H. apply ksg_params_ok in H as (-> & [-> | ->] & Hn); rmi r_ksg_command; cbn [kp_variant kp_neighbors];
      rewrite Hfs, Hread; reflexivity.
  Qed.
  Lemma r_lnn_called k tr p : r_lnn k tr = Ok p ->
    sh (r_lnn_command cwd code_dir p path dx dy) fs = printed (r_library (LnnMi data (dx, dy) k tr)).
  Proof.
    unfold r_lnn, positive_int. destruct (0 <? k); cbn [bind]; [|discriminate]. destruct (0 <? tr); cbn [bind]; [|discriminate].
    intros H'. injection H' as <-. rmi r_lnn_command. cbn [lp_k lp_truncation]. rewrite Hfs, Hread. reflexivity.
  Qed.
  Lemma r_bnsl_called proc p : r_bnsl proc = Ok p -> 1 <= dx -> 1 <= dy -> length columns = Z.to_nat (dx + dy) ->
    rectangular (length columns) data ->
    sh (r_bnsl_command cwd code_dir p path dx dy) fs =
      printed (if r_proc_ok proc then r_library (BnslMi (left_columns dx data) (right_columns dx data) proc) else inl r_error).
  Proof.
    unfold r_bnsl, positive_int. destruct (0 <? proc); [|discriminate]. intros H' Hx Hy L R'. injection H' as <-.
    rmi r_bnsl_command. destruct (r_proc_ok proc); cbn [negb]; [|reflexivity].
    rewrite Hfs, Hread. cbn [String.eqb Ascii.eqb Bool.eqb orb].
    rewrite !r_columns_range by (try assumption; lia).
    rewrite (left_range (length columns) data dx dy), (right_range (length columns) data dx dy) by (try assumption; lia).
    reflexivity.
  Qed.

  Ltac julia cmd := script cmd; unfold julia_main; args; literal; cbv iota; opts; rewrite !parse_int_str; cbv beta iota zeta.
  Section Julia.
    Hypotheses (Hx : 1 <= dx) (Hy : 1 <= dy) (L : length columns = Z.to_nat (dx + dy)) (Hr : rectangular (length columns) data).
    Let the_call m := {| jc_x := left_columns dx data; jc_y := right_columns dx data; jc_method := m |}.

    Ltac julia_data := rewrite Hfs; destruct (Z.ltb_spec (Z.min dx dy) 1); [lia|]; cbn [get_estimator String.eqb Ascii.eqb Bool.eqb];
      rewrite Hread; rewrite !julia_columns_range by (try assumption; lia);
      rewrite (left_range (length columns) data dx dy), (right_range (length columns) data dx dy) by (try assumption; lia).

    Lemma julia_ksg_called v n p : julia_ksg v n = Ok p ->
      sh (julia_ksg_command cwd code_dir p path dx dy) fs =
        printed (julia_library (the_call (if v =? 1 then Kraskov1 n else Kraskov2 n))).
    Proof.
      intros H. apply ksg_params_ok in H as (-> & [-> | ->] & Hn); julia julia_ksg_command; cbn [kp_variant kp_neighbors];
        rewrite Hfs; destruct (Z.ltb_spec (Z.min dx dy) 1); try lia; destruct (Z.ltb_spec n 1); try lia;
        change (get_estimator _ n 10 1%R) with (get_estimator "KSG1" n 10 1%R) || change (get_estimator _ n 10 1%R) with (get_estimator "KSG2" n 10 1%R);
        cbn [get_estimator String.eqb Ascii.eqb Bool.eqb]; rewrite Hread; rewrite !julia_columns_range by (try assumption; lia);
        rewrite (left_range (length columns) data dx dy), (right_range (length columns) data dx dy) by (try assumption; lia); reflexivity.
    Qed.
    Lemma julia_histogram_called bins b : julia_bins bins = Ok b ->
      sh (julia_histogram_command cwd code_dir b path dx dy) fs = printed (julia_library (the_call (VisitationFrequency bins))).
    Proof.
      unfold julia_bins, positive_int. destruct (bins <? 2); [discriminate|]. destruct (0 <? bins); [|discriminate]. intros H'. injection H' as <-.
      julia julia_histogram_command. julia_data. reflexivity.
    Qed.
    Lemma julia_transfer_called bins b : julia_bins bins = Ok b ->
      sh (julia_transfer_command cwd code_dir b path dx dy) fs = printed (julia_library (the_call (TransferOperator bins))).
    Proof.
      unfold julia_bins, positive_int. destruct (bins <? 2); [discriminate|]. destruct (0 <? bins); [|discriminate]. intros H'. injection H' as <-.
      julia julia_transfer_command. julia_data. reflexivity.
    Qed.
    Lemma julia_kernel_called bw b : julia_kernel bw = Ok b ->
      starts_with "--" (float_str bw) = false -> parse_double (float_str bw) = Some bw ->
      sh (julia_kernel_command cwd code_dir float_str b path dx dy) fs = printed (julia_library (the_call (NaiveKernel bw))).
    Proof.
      unfold julia_kernel. destruct (Rleb bw 0); [discriminate|]. intros H' Fs Fp. injection H' as <-.
      script julia_kernel_command. unfold julia_main. args. literal. cbv iota. opts. rewrite Fs. opts. rewrite !parse_int_str. rewrite Fp. cbv beta iota zeta.
      julia_data. reflexivity.
    Qed.
  End Julia.
End Scripts.

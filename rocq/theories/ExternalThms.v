(** The external estimators from arrays to the number returned ([ExternalModel]). *)
From Coq Require Import Ascii String.
From Verif Require Import Base UtilsModel JaxModel SamplersModel BaseLemmas UtilsSpec UtilsProofs CsvProofs
  BenchmarkModel BenchmarkSpec BenchmarkProofs BenchmarkThms TasksModel ExternalModel ExternalSpec ExternalProofs.
Open Scope Z_scope.
Local Notation length := List.length.
Local Notation hstack := UtilsModel.hstack.

Lemma hstack_left dx : forall xs ys : matrix, rectangular dx xs -> length xs = length ys -> map (firstn dx) (hstack xs ys) = xs.
Proof.
  unfold hstack. intros xs ys H. revert ys. induction H as [|x xs Hx H IH]; intros [|y ys]; cbn; try discriminate; [reflexivity|].
  intros E. f_equal; [|apply IH; congruence]. rewrite firstn_app, <- Hx, firstn_all, Nat.sub_diag. cbn. apply app_nil_r.
Qed.
Lemma hstack_right dx : forall xs ys : matrix, rectangular dx xs -> length xs = length ys -> map (skipn dx) (hstack xs ys) = ys.
Proof.
  unfold hstack. intros xs ys H. revert ys. induction H as [|x xs Hx H IH]; intros [|y ys]; cbn; try discriminate; [reflexivity|].
  intros E. f_equal; [|apply IH; congruence]. rewrite skipn_app, <- Hx, skipn_all, Nat.sub_diag. reflexivity.
Qed.
Lemma left_hstack dx xs ys : rectangular dx xs -> length xs = length ys -> left_columns (Z.of_nat dx) (hstack xs ys) = xs.
Proof. intros. unfold left_columns. rewrite Nat2Z.id. now apply hstack_left. Qed.
Lemma right_hstack dx xs ys : rectangular dx xs -> length xs = length ys -> right_columns (Z.of_nat dx) (hstack xs ys) = ys.
Proof. intros. unfold right_columns. rewrite Nat2Z.id. now apply hstack_right. Qed.

Section Saved.
  Variables (show : R -> string) (read_cell : string -> option R) (good : R -> Prop).
  Hypothesis parse_show : forall r, good r -> read_cell (show r) = Some r.
  Hypothesis show_clean : forall r, good r -> contains_char comma (show r) = false /\ contains_char newline (show r) = false.
  Variables (dx dy : nat) (xs ys : matrix).
  Hypotheses (Hd : (0 < dx + dy)%nat) (Hx : rectangular dx xs) (Hy : rectangular dy ys)
    (Gx : all_entries good xs) (Gy : all_entries good ys) (Hl : length xs = length ys).

  Lemma saved_file : exists text, save_sample show (Arr2 dx xs) (Arr2 dy ys) = Ok text /\
    read_csv read_cell text = Ok (sample_columns dx dy, hstack xs ys) /\ read_sample_dims text = (dx, dy) /\ csv_lines text <> [].
  Proof.
    eexists. split; [unfold save_sample; rewrite Hl, Nat.eqb_refl; reflexivity|].
    pose proof (hstack_good good xs ys Gx Gy) as Gxy.
    assert (Hnl : Forall (fun p => contains_char newline p = false) (sample_columns dx dy)).
    { apply sample_columns_chars; try reflexivity. vm_compute; lia. }
    assert (Cl := to_csv_lines show good show_clean _ _ Hnl Gxy).
    split; [|split].
    - unfold read_csv. rewrite Cl. rewrite (parse_rows_show show read_cell good parse_show show_clean).
      + now rewrite columns_split.
      + pose proof (hstack_rect dx dy xs ys Hx Hy) as Hr.
        eapply Forall_impl; [|exact Hr]. cbv beta. intros row Hrow ->. cbn in Hrow. lia.
      + exact Gxy.
    - unfold read_sample_dims, csv_header. rewrite Cl, columns_split by assumption.
      rewrite filter_X, filter_Y. now rewrite !map_length, !seq_length.
    - rewrite Cl. discriminate.
  Qed.
  Lemma sample_columns_length : length (sample_columns dx dy) = (dx + dy)%nat.
  Proof. unfold sample_columns. now rewrite app_length, !map_length, !seq_length. Qed.
  Lemma hstack_columns : rectangular (length (sample_columns dx dy)) (hstack xs ys).
  Proof. rewrite sample_columns_length. now apply hstack_rect. Qed.

  Section World.
    Variables (V : conversions) (exec : list string -> files -> process) (missing empty tmp : string) (fs : files).

    Lemma external_from_arrays build : exists text, save_sample show (Arr2 dx xs) (Arr2 dy ys) = Ok text /\
      external_estimate V exec missing empty build show tmp fs (Arr2 dx xs) (Arr2 dy ys) =
      run_command_and_read_mi V exec (build tmp (Z.of_nat dx) (Z.of_nat dy)) (with_file fs tmp (Some text)).
    Proof.
      destruct saved_file as (text & E & _ & D & N). exists text. split; [exact E|].
      unfold external_estimate, external_with_info. rewrite E. cbn [snd]. unfold external_from_path, dims_of_file.
      assert (Hf : with_file fs tmp (Some text) tmp = Some text) by (unfold with_file; now rewrite String.eqb_refl).
      rewrite Hf. destruct (csv_lines text) eqn:C; [contradiction|]. rewrite D.
      destruct (run_command_and_read_mi _ _ _ _); reflexivity.
    Qed.
  End World.

  Section Estimators.
    Variables (V : conversions) (parse_double : string -> option R).
    Variables (r_library : r_call -> string + string) (julia_library : julia_call -> string + string).
    Variables (r_error julia_error cwd code_dir : string) (float_str : R -> string).
    Hypotheses (Hcwd : is_absolute cwd) (Dx : (1 <= dx)%nat) (Dy : (1 <= dy)%nat).
    Variables (missing empty tmp : string) (fs : files).
    Hypothesis Htmp : is_absolute tmp.

    Local Notation sh := (shell read_cell parse_double r_library julia_library r_error julia_error
      (r_script cwd code_dir) (julia_script cwd code_dir)).
    Local Notation estimate build := (external_estimate V sh missing empty build show tmp fs (Arr2 dx xs) (Arr2 dy ys)).
    Local Notation zx := (Z.of_nat dx).
    Local Notation zy := (Z.of_nat dy).

    Lemma file_there text : with_file fs tmp (Some text) (absolute cwd tmp) = Some text.
    Proof. rewrite absolute_id by assumption. unfold with_file. now rewrite String.eqb_refl. Qed.

    Lemma by_printing build r : (forall text, read_csv read_cell text = Ok (sample_columns dx dy, hstack xs ys) ->
        sh (build tmp zx zy) (with_file fs tmp (Some text)) = printed r) ->
      follows V (build tmp zx zy) r (estimate build).
    Proof.
      intros H. destruct (external_from_arrays V sh missing empty tmp fs build) as (text & E & ->).
      apply printed_follows, H. destruct saved_file as (text' & E' & R & _). congruence.
    Qed.

    Lemma columns_Z : length (sample_columns dx dy) = Z.to_nat (zx + zy).
    Proof. rewrite sample_columns_length. lia. Qed.
    Lemma lefts : left_columns zx (hstack xs ys) = xs. Proof. now apply left_hstack. Qed.
    Lemma rights : right_columns zx (hstack xs ys) = ys. Proof. now apply right_hstack. Qed.

    Lemma r_ksg_estimates v n p : r_ksg v n = Ok p ->
      let build := r_ksg_command cwd code_dir p in
      follows V (build tmp zx zy) (r_library (KnnMi (hstack xs ys) (zx, zy) ("KSG" ++ int_str v) n)) (estimate build).
    Proof. intros H build. apply by_printing. intros text R. eapply r_ksg_called; eauto. apply file_there. Qed.
    Lemma r_lnn_estimates k tr p : r_lnn k tr = Ok p ->
      let build := r_lnn_command cwd code_dir p in
      follows V (build tmp zx zy) (r_library (LnnMi (hstack xs ys) (zx, zy) k tr)) (estimate build).
    Proof. intros H build. apply by_printing. intros text R. eapply r_lnn_called; eauto. apply file_there. Qed.
    Lemma r_bnsl_estimates proc p : r_bnsl proc = Ok p ->
      let build := r_bnsl_command cwd code_dir p in
      follows V (build tmp zx zy) (if r_proc_ok proc then r_library (BnslMi xs ys proc) else inl r_error) (estimate build).
    Proof.
      intros H build. apply by_printing. intros text R. unfold build.
      rewrite (r_bnsl_called read_cell parse_double r_library julia_library r_error julia_error cwd code_dir Hcwd tmp zx zy _ text _ _
        (file_there text) R proc p H) by (try apply hstack_columns; try apply columns_Z; lia).
      now rewrite lefts, rights.
    Qed.
    Lemma julia_ksg_estimates v n p : julia_ksg v n = Ok p ->
      let build := julia_ksg_command cwd code_dir p in
      follows V (build tmp zx zy) (julia_library {| jc_x := xs; jc_y := ys; jc_method := if v =? 1 then Kraskov1 n else Kraskov2 n |})
        (estimate build).
    Proof.
      intros H build. apply by_printing. intros text R. unfold build.
      erewrite julia_ksg_called; [|exact Hcwd|apply file_there|exact R|lia|lia|apply columns_Z|apply hstack_columns|exact H].
      now rewrite lefts, rights.
    Qed.
    Lemma julia_histogram_estimates bins b : julia_bins bins = Ok b ->
      let build := julia_histogram_command cwd code_dir b in
      follows V (build tmp zx zy) (julia_library {| jc_x := xs; jc_y := ys; jc_method := VisitationFrequency bins |}) (estimate build).
    Proof.
      intros H build. apply by_printing. intros text R. unfold build.
      erewrite julia_histogram_called; [|exact Hcwd|apply file_there|exact R|lia|lia|apply columns_Z|apply hstack_columns|exact H].
      now rewrite lefts, rights.
    Qed.
    Lemma julia_transfer_estimates bins b : julia_bins bins = Ok b ->
      let build := julia_transfer_command cwd code_dir b in
      follows V (build tmp zx zy) (julia_library {| jc_x := xs; jc_y := ys; jc_method := TransferOperator bins |}) (estimate build).
    Proof.
      intros H build. apply by_printing. intros text R. unfold build.
      erewrite julia_transfer_called; [|exact Hcwd|apply file_there|exact R|lia|lia|apply columns_Z|apply hstack_columns|exact H].
      now rewrite lefts, rights.
    Qed.
    Lemma julia_kernel_estimates bw b : julia_kernel bw = Ok b ->
      starts_with "--" (float_str bw) = false -> parse_double (float_str bw) = Some bw ->
      let build := julia_kernel_command cwd code_dir float_str b in
      follows V (build tmp zx zy) (julia_library {| jc_x := xs; jc_y := ys; jc_method := NaiveKernel bw |}) (estimate build).
    Proof.
      intros H F1 F2 build. apply by_printing. intros text R. unfold build.
      erewrite julia_kernel_called; [|exact Hcwd|apply file_there|exact R|lia|lia|apply columns_Z|apply hstack_columns|exact H|exact F1|exact F2].
      now rewrite lefts, rights.
    Qed.
  End Estimators.
End Saved.

(** The temporary file is gone afterwards and no other file has changed. *)
Lemma temporary_file V exec missing empty build show tmp fs x y :
  let fs' := fst (external_with_info V exec missing empty build show tmp fs x y) in
  fs' tmp = None /\ forall p, p <> tmp -> fs' p = fs p.
Proof.
  cbn. unfold with_file. rewrite String.eqb_refl. split; [reflexivity|]. intros p N. now apply String.eqb_neq in N as ->.
Qed.

(** Which parameters are accepted. *)
Lemma r_ksg_accepts v n : (exists p, r_ksg v n = Ok p) <-> (v = 1 \/ v = 2) /\ 1 <= n.
Proof.
  split.
  - intros [p H]. revert H. unfold r_ksg, literal_12, positive_int. destruct (Z.eqb_spec v 1); destruct (Z.eqb_spec v 2); cbn [orb bind]; try discriminate;
      destruct (Z.ltb_spec 0 n); cbn [bind]; try discriminate; intros _; (split; [auto|lia]).
  - intros [[-> | ->] Hn]; unfold r_ksg, positive_int; cbn; (destruct (Z.ltb_spec 0 n); [|lia]); eexists; reflexivity.
Qed.
Lemma r_lnn_accepts k tr : (exists p, r_lnn k tr = Ok p) <-> 1 <= k /\ 1 <= tr.
Proof.
  unfold r_lnn, positive_int. destruct (Z.ltb_spec 0 k); cbn [bind]; [|split; [intros [p H']; discriminate|lia]].
  destruct (Z.ltb_spec 0 tr); cbn [bind]; [|split; [intros [p H']; discriminate|lia]]. split; [lia|eauto].
Qed.
Lemma r_bnsl_accepts proc : (exists p, r_bnsl proc = Ok p) <-> 1 <= proc.
Proof. unfold r_bnsl, positive_int. destruct (Z.ltb_spec 0 proc); split; [lia|eauto|intros [p H']; discriminate|lia]. Qed.
Lemma julia_ksg_accepts v n : (exists p, julia_ksg v n = Ok p) <-> (v = 1 \/ v = 2) /\ 1 <= n.
Proof. exact (r_ksg_accepts v n). Qed.
Lemma julia_bins_accepts bins : (exists p, julia_bins bins = Ok p) <-> 2 <= bins.
Proof.
  unfold julia_bins, positive_int. destruct (Z.ltb_spec bins 2); [split; [intros [p H']; discriminate|lia]|].
  destruct (Z.ltb_spec 0 bins); [|lia]. split; [lia|eauto].
Qed.
Lemma julia_kernel_accepts bw : (exists p, julia_kernel bw = Ok p) <-> (0 < bw)%R.
Proof. unfold julia_kernel, Rleb. destruct (Rle_dec bw 0); split; [intros [p H']; discriminate|lra|lra|eauto]. Qed.
Lemma r_proc_accepts proc : r_proc_ok proc = true <-> In proc [0; 1; 2; 10].
Proof.
  unfold r_proc_ok. cbn [In]. destruct (Z.ltb_spec 2 proc); destruct (Z.eqb_spec proc 10); destruct (Z.ltb_spec proc 0); cbn; split; try discriminate; try lia; auto.
Qed.

(** A failed command in a benchmark run: the output is recorded. *)
Lemma failure_recorded V exec missing empty build show tmp parse fs c tick eid path tid seed info h xs ys text code chunks :
  valid_ref h info -> fs path = Some text -> read_sample parse text = Ok (xs, ys) ->
  let (dx, dy) := read_sample_dims text in
  exec (build path (Z.of_nat dx) (Z.of_nat dy)) fs = Exited code chunks -> code <> 0 ->
  exists h' rr, run_estimator parse fs c tick (external_estimator V exec missing empty build show tmp fs) eid path tid seed info h = (h', Ok rr) /\
    rr_success rr = false /\ rr_mi rr = NaN /\ rr_n_samples rr = Z.of_nat (length xs) /\
    sdict_get (dread h' (rr_info rr)) "error" = Some (PStr (exit_message V (build path (Z.of_nat dx) (Z.of_nat dy)) code)) /\
    sdict_get (dread h' (rr_info rr)) "subprocess_output" = Some (PStr (py_bytes V (String.concat EmptyString (map snd chunks)))).
Proof.
  intros Hv Hf Hr. destruct (read_sample_dims text) as [dx dy] eqn:D. intros E N.
  set (e := external_estimator V exec missing empty build show tmp fs).
  assert (R : read_sample_file parse fs path = Ok (xs, ys)) by (unfold read_sample_file; now rewrite Hf).
  set (m := exit_message V (build path (Z.of_nat dx) (Z.of_nat dy)) code).
  set (o := py_bytes V (String.concat EmptyString (map snd chunks))).
  assert (C : estimator_call e path xs ys = Raised m (Some o)).
  { unfold estimator_call, e. cbn. unfold external_from_path, dims_of_file. rewrite Hf, D.
    assert (K : csv_lines text <> []).
    { intros K. unfold read_sample, read_csv in Hr. rewrite K in Hr. discriminate. }
    destruct (csv_lines text); [contradiction|]. rewrite (failure_raised V exec _ _ _ _ E N). reflexivity. }
  destruct (run_total parse fs c tick e eid path tid seed info h xs ys R) as (h' & rr & Hrun); [intros ex Hex; congruence|].
  exists h', rr. split; [exact Hrun|].
  destruct (run_reports _ _ _ _ _ _ _ _ _ _ _ _ _ Hv Hrun) as (xs' & ys' & R' & _ & _ & _ & Hn & Ho & _).
  rewrite R in R'. injection R' as <- <-. rewrite C in Ho. destruct Ho as (Hs & Hm & _).
  split; [exact Hs|]. split; [exact Hm|]. split; [exact Hn|].
  destruct (run_error_described _ _ _ _ _ _ _ _ _ _ _ _ _ _ _ _ _ Hv R C Hrun) as [A B]. split; [exact A|]. now apply B.
Qed.

(** The same with the vocabulary of the specification. *)
Section Settings.
  Variables (good : R -> Prop) (S : setting) (dx dy : nat) (xs ys : matrix).
  Hypotheses (HS : setting_ok good S) (Hs : sample_ok good dx dy xs ys).

  Lemma sample_facts : (0 < dx + dy)%nat /\ rectangular dx xs /\ rectangular dy ys /\ all_entries good xs /\ all_entries good ys /\ length xs = length ys.
  Proof.
    destruct Hs as (A & B & C & D & E). unfold rectangular, all_entries.
    repeat split; try lia; try assumption; (eapply Forall_impl; [|eassumption]); cbv beta; tauto.
  Qed.
  Ltac facts := destruct HS as (S1 & S2 & S3 & S4); destruct Hs as (A & B & _); destruct sample_facts as (F1 & F2 & F3 & F4 & F5 & F6).

  Lemma st_r_ksg v n p : r_ksg v n = Ok p ->
    estimates S (r_ksg_command (st_cwd S) (st_code S) p) dx dy xs ys
      (st_r S (KnnMi (joint xs ys) (Z.of_nat dx, Z.of_nat dy) ("KSG" ++ int_str v) n)).
  Proof. intros H fs. facts. eapply r_ksg_estimates; eauto. Qed.
  Lemma st_r_lnn k tr p : r_lnn k tr = Ok p ->
    estimates S (r_lnn_command (st_cwd S) (st_code S) p) dx dy xs ys (st_r S (LnnMi (joint xs ys) (Z.of_nat dx, Z.of_nat dy) k tr)).
  Proof. intros H fs. facts. eapply r_lnn_estimates; eauto. Qed.
  Lemma st_r_bnsl_ok proc p : r_bnsl proc = Ok p -> In proc [1; 2; 10] ->
    estimates S (r_bnsl_command (st_cwd S) (st_code S) p) dx dy xs ys (st_r S (BnslMi xs ys proc)).
  Proof.
    intros H I fs. facts. assert (K : r_proc_ok proc = true) by (apply r_proc_accepts; cbn in *; tauto).
    unfold run_in. generalize (r_bnsl_estimates (st_show S) (st_read S) good S1 S2 dx dy xs ys F1 F2 F3 F4 F5 F6 (st_conv S) (st_double S)
      (st_r S) (st_julia S) (st_r_error S) (st_julia_error S) (st_cwd S) (st_code S) S3 A B (st_missing S) (st_empty S) (st_tmp S) fs S4 proc p H).
    now rewrite K.
  Qed.
  Lemma st_r_bnsl_rejected proc p : r_bnsl proc = Ok p -> ~ In proc [1; 2; 10] ->
    estimates S (r_bnsl_command (st_cwd S) (st_code S) p) dx dy xs ys (inl (st_r_error S)).
  Proof.
    intros H I fs. facts. assert (K : r_proc_ok proc = false).
    { destruct (r_proc_ok proc) eqn:K; [|reflexivity]. apply r_proc_accepts in K.
      assert (1 <= proc) by (apply r_bnsl_accepts; eauto). cbn in *. exfalso. intuition lia. }
    unfold run_in. generalize (r_bnsl_estimates (st_show S) (st_read S) good S1 S2 dx dy xs ys F1 F2 F3 F4 F5 F6 (st_conv S) (st_double S)
      (st_r S) (st_julia S) (st_r_error S) (st_julia_error S) (st_cwd S) (st_code S) S3 A B (st_missing S) (st_empty S) (st_tmp S) fs S4 proc p H).
    now rewrite K.
  Qed.
  Lemma st_julia_ksg v n p : julia_ksg v n = Ok p ->
    estimates S (julia_ksg_command (st_cwd S) (st_code S) p) dx dy xs ys
      (st_julia S {| jc_x := xs; jc_y := ys; jc_method := if v =? 1 then Kraskov1 n else Kraskov2 n |}).
  Proof. intros H fs. facts. eapply julia_ksg_estimates; eauto. Qed.
  Lemma st_julia_histogram bins b : julia_bins bins = Ok b ->
    estimates S (julia_histogram_command (st_cwd S) (st_code S) b) dx dy xs ys
      (st_julia S {| jc_x := xs; jc_y := ys; jc_method := VisitationFrequency bins |}).
  Proof. intros H fs. facts. eapply julia_histogram_estimates; eauto. Qed.
  Lemma st_julia_transfer bins b : julia_bins bins = Ok b ->
    estimates S (julia_transfer_command (st_cwd S) (st_code S) b) dx dy xs ys
      (st_julia S {| jc_x := xs; jc_y := ys; jc_method := TransferOperator bins |}).
  Proof. intros H fs. facts. eapply julia_transfer_estimates; eauto. Qed.
  Lemma st_julia_kernel float_str bw b : julia_kernel bw = Ok b ->
    starts_with "--" (float_str bw) = false -> st_double S (float_str bw) = Some bw ->
    estimates S (julia_kernel_command (st_cwd S) (st_code S) float_str b) dx dy xs ys
      (st_julia S {| jc_x := xs; jc_y := ys; jc_method := NaiveKernel bw |}).
  Proof. intros H F G fs. facts. eapply julia_kernel_estimates; eauto. Qed.
End Settings.

(** Which exceptions the constructors raise. *)
Lemma julia_bins_error bins : bins < 2 -> julia_bins bins = Err ValueError.
Proof. intros H. unfold julia_bins. destruct (Z.ltb_spec bins 2); [reflexivity|lia]. Qed.

(** A command which prints a number leads to a successful run with this number and the time measured outside. *)
Lemma success_recorded V exec missing empty build show tmp parse fs c tick eid path tid seed info h xs ys text mi :
  valid_ref h info -> fs path = Some text -> read_sample parse text = Ok (xs, ys) ->
  let (dx, dy) := read_sample_dims text in
  run_command_and_read_mi V exec (build path (Z.of_nat dx) (Z.of_nat dy)) fs = Done mi ->
  exists h' rr, run_estimator parse fs c tick (external_estimator V exec missing empty build show tmp fs) eid path tid seed info h = (h', Ok rr) /\
    rr_success rr = true /\ rr_mi rr = mi /\ rr_time rr = Fin (c (S tick) - c tick)%R /\ rr_n_samples rr = Z.of_nat (length xs) /\
    forall k, sdict_get (dread h' (rr_info rr)) k = sdict_get (content h info) k.
Proof.
  intros Hv Hf Hr. destruct (read_sample_dims text) as [dx dy] eqn:D. intros E.
  set (e := external_estimator V exec missing empty build show tmp fs).
  assert (R : read_sample_file parse fs path = Ok (xs, ys)) by (unfold read_sample_file; now rewrite Hf).
  assert (C : estimator_call e path xs ys = Returned {| er_mi := mi; er_time := None; er_info := [] |}).
  { unfold estimator_call, e. cbn. unfold external_from_path, dims_of_file. rewrite Hf, D.
    assert (K : csv_lines text <> []).
    { intros K. unfold read_sample, read_csv in Hr. rewrite K in Hr. discriminate. }
    destruct (csv_lines text); [contradiction|]. rewrite E. reflexivity. }
  destruct (run_total parse fs c tick e eid path tid seed info h xs ys R) as (h' & rr & Hrun); [intros ex Hex; congruence|].
  exists h', rr. split; [exact Hrun|].
  destruct (run_reports _ _ _ _ _ _ _ _ _ _ _ _ _ Hv Hrun) as (xs' & ys' & R' & _ & _ & _ & Hn & Ho & U).
  rewrite R in R'. injection R' as <- <-. rewrite C in Ho, U. destruct Ho as (Hs & Hm & Ht).
  repeat split; try assumption.
Qed.

(** ** A call without columns *)
Lemma no_x_columns read_cell file text columns data fs : starts_with "--" file = false ->
  fs file = Some text -> read_csv read_cell text = Ok (columns, data) ->
  columns <> [] -> rectangular (length columns) data ->
  rmi_script read_cell [file; "0"; int_str (Z.of_nat (length columns)); "--method"; "BNSL"]%string fs = Some (BnslMi (left_columns 1 data) data 0).
Proof.
  intros Hp Hfs Hr Hn Rc.
  assert (L : (1 <= length columns)%nat) by (destruct columns; [contradiction|cbn; lia]).
  unfold rmi_script. cbn [split_args]. rewrite Hp, int_str_plain. change (starts_with "--" "0") with false.
  change (starts_with "--" "--method") with true. change (starts_with "--" "BNSL") with false. cbv iota.
  cbn [existsb String.eqb Ascii.eqb Bool.eqb orb andb option_value int_option rev app sdict_get fst snd negb].
  change (parse_int "0") with (Some 0). rewrite parse_int_str. cbv beta iota zeta. cbn [r_proc_ok negb].
  rewrite Hfs, Hr. cbn [String.eqb Ascii.eqb Bool.eqb orb].
  assert (X : r_columns (length columns) data (r_colon 1 0) = Some (left_columns 1 data)).
  { change (r_colon 1 0) with [1; 0]. unfold r_columns. cbn [filter negb Z.eqb Pos.eqb].
    cbn [forallb]. destruct (Z.leb_spec 1 (Z.of_nat (length columns))); [|lia]. cbn [andb Z.leb Z.compare Pos.compare Pos.compare_cont]. f_equal.
    apply map_ext_in. intros row I. unfold rectangular in Rc. rewrite Forall_forall in Rc. specialize (Rc row I).
    destruct row as [|a row]; [cbn in Rc; lia|]. reflexivity. }
  rewrite X, r_columns_range by (try assumption; lia). change (negb (r_proc_ok 0)) with false. cbv iota. do 2 f_equal.
  transitivity (map (fun row : list R => row) data); [|apply map_id]. apply map_ext_in. intros row I.
  unfold rectangular in Rc. rewrite Forall_forall in Rc. specialize (Rc row I).
  change (Z.to_nat (0 + 1 - 1)) with 0%nat. cbn [skipn]. apply firstn_all2. rewrite Rc. lia.
Qed.

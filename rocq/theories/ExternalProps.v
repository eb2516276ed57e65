(** The properties C62 and C63 (the estimators which run R and Julia scripts). *)
From Coq Require Import Ascii String.
From Verif Require Import Base UtilsModel JaxModel SamplersModel BaseLemmas UtilsSpec BenchmarkModel BenchmarkSpec
  BenchmarkProofs TasksModel ExternalModel ExternalSpec ExternalProofs ExternalThms ExternalExamples BenchmarkExamples.
Open Scope Z_scope.
Local Notation length := List.length.

(** ** C62: the number returned *)

(** A number is returned exactly when the command succeeded and everything it wrote, to
    either stream, is this number up to white space around it. *)
Theorem C62_reads_number :
  forall V exec args fs v,
  run_command_and_read_mi V exec args fs = Done v <->
  exists chunks text, exec args fs = Exited 0 chunks /\
    decode V (String.concat EmptyString (map snd chunks)) = Some text /\ parse_float V (strip text) = Some v.
Proof. exact reads_number. Qed.
Print Assumptions C62_reads_number.

Theorem C62_strip :
  forall l s r, all_white l -> all_white r -> tidy s -> strip (l ++ s ++ r) = s.
Proof. exact strip_spec. Qed.
Print Assumptions C62_strip.

Theorem C62_failure_raised :
  forall V exec args fs code chunks,
  exec args fs = Exited code chunks -> code <> 0 ->
  run_command_and_read_mi V exec args fs =
    Failed (exit_message V args code) (Some (py_bytes V (String.concat EmptyString (map snd chunks)))).
Proof. exact failure_raised. Qed.
Print Assumptions C62_failure_raised.

Theorem C62_not_a_number :
  forall V exec args fs chunks,
  exec args fs = Exited 0 chunks ->
  (forall text v, decode V (String.concat EmptyString (map snd chunks)) = Some text -> parse_float V (strip text) <> Some v) ->
  exists m, run_command_and_read_mi V exec args fs = Failed m None.
Proof. exact not_a_number. Qed.
Print Assumptions C62_not_a_number.

(** It is not enough that standard output alone is a number: the error stream is read too. *)
Theorem C62_stdout_alone_refuted :
  ~ (forall V args exec fs chunks v,
     exec args fs = Exited 0 chunks ->
     is_number V (String.concat EmptyString (map snd (filter (fun c => negb (fst c)) chunks))) v ->
     run_command_and_read_mi V exec args fs = Done v).
Proof. exact stdout_alone_refuted. Qed.
Print Assumptions C62_stdout_alone_refuted.

(** It can even make another number. *)
Theorem C62_noise_changes_number_refuted :
  exists V args exec fs chunks v,
    exec args fs = Exited 0 chunks /\
    is_number V (String.concat EmptyString (map snd (filter (fun c => negb (fst c)) chunks))) v /\
    exists w, run_command_and_read_mi V exec args fs = Done w /\ w <> v.
Proof. exact noise_changes_number. Qed.
Print Assumptions C62_noise_changes_number_refuted.

(** *** From the arrays to the library: each estimator asks for what it was constructed for,
    with exactly the arrays given, and returns the number printed. *)
Theorem C62_r_ksg :
  forall good S dx dy xs ys, setting_ok good S -> sample_ok good dx dy xs ys ->
  forall v n p, r_ksg v n = Ok p ->
  estimates S (r_ksg_command (st_cwd S) (st_code S) p) dx dy xs ys
    (st_r S (KnnMi (joint xs ys) (Z.of_nat dx, Z.of_nat dy) ("KSG" ++ int_str v) n)).
Proof. exact st_r_ksg. Qed.
Print Assumptions C62_r_ksg.

Theorem C62_r_lnn :
  forall good S dx dy xs ys, setting_ok good S -> sample_ok good dx dy xs ys ->
  forall k tr p, r_lnn k tr = Ok p ->
  estimates S (r_lnn_command (st_cwd S) (st_code S) p) dx dy xs ys
    (st_r S (LnnMi (joint xs ys) (Z.of_nat dx, Z.of_nat dy) k tr)).
Proof. exact st_r_lnn. Qed.
Print Assumptions C62_r_lnn.

Theorem C62_julia_ksg :
  forall good S dx dy xs ys, setting_ok good S -> sample_ok good dx dy xs ys ->
  forall v n p, julia_ksg v n = Ok p ->
  estimates S (julia_ksg_command (st_cwd S) (st_code S) p) dx dy xs ys
    (st_julia S {| jc_x := xs; jc_y := ys; jc_method := if v =? 1 then Kraskov1 n else Kraskov2 n |}).
Proof. exact st_julia_ksg. Qed.
Print Assumptions C62_julia_ksg.

Theorem C62_julia_histogram :
  forall good S dx dy xs ys, setting_ok good S -> sample_ok good dx dy xs ys ->
  forall bins b, julia_bins bins = Ok b ->
  estimates S (julia_histogram_command (st_cwd S) (st_code S) b) dx dy xs ys
    (st_julia S {| jc_x := xs; jc_y := ys; jc_method := VisitationFrequency bins |}).
Proof. exact st_julia_histogram. Qed.
Print Assumptions C62_julia_histogram.

Theorem C62_julia_transfer :
  forall good S dx dy xs ys, setting_ok good S -> sample_ok good dx dy xs ys ->
  forall bins b, julia_bins bins = Ok b ->
  estimates S (julia_transfer_command (st_cwd S) (st_code S) b) dx dy xs ys
    (st_julia S {| jc_x := xs; jc_y := ys; jc_method := TransferOperator bins |}).
Proof. exact st_julia_transfer. Qed.
Print Assumptions C62_julia_transfer.

(** The bandwidth has to survive printing by Python and reading by Julia. *)
Theorem C62_julia_kernel :
  forall good S dx dy xs ys, setting_ok good S -> sample_ok good dx dy xs ys ->
  forall float_str bw b, julia_kernel bw = Ok b ->
  starts_with "--" (float_str bw) = false -> st_double S (float_str bw) = Some bw ->
  estimates S (julia_kernel_command (st_cwd S) (st_code S) float_str b) dx dy xs ys
    (st_julia S {| jc_x := xs; jc_y := ys; jc_method := NaiveKernel bw |}).
Proof. exact st_julia_kernel. Qed.
Print Assumptions C62_julia_kernel.

(** *** The parameters accepted by the constructors *)
Theorem C62_r_ksg_accepts : forall v n, (exists p, r_ksg v n = Ok p) <-> (v = 1 \/ v = 2) /\ 1 <= n.
Proof. exact r_ksg_accepts. Qed.
Print Assumptions C62_r_ksg_accepts.

Theorem C62_r_lnn_accepts : forall k tr, (exists p, r_lnn k tr = Ok p) <-> 1 <= k /\ 1 <= tr.
Proof. exact r_lnn_accepts. Qed.
Print Assumptions C62_r_lnn_accepts.

Theorem C62_julia_ksg_accepts : forall v n, (exists p, julia_ksg v n = Ok p) <-> (v = 1 \/ v = 2) /\ 1 <= n.
Proof. exact julia_ksg_accepts. Qed.
Print Assumptions C62_julia_ksg_accepts.

Theorem C62_julia_bins_accepts : forall bins, (exists p, julia_bins bins = Ok p) <-> 2 <= bins.
Proof. exact julia_bins_accepts. Qed.
Print Assumptions C62_julia_bins_accepts.

Theorem C62_julia_kernel_accepts : forall bw, (exists p, julia_kernel bw = Ok p) <-> (0 < bw)%R.
Proof. exact julia_kernel_accepts. Qed.
Print Assumptions C62_julia_kernel_accepts.

(** *** Around the command *)

(** The temporary file is deleted, whatever happened, and no other file has changed. *)
Theorem C62_temporary_file :
  forall V exec missing empty build show tmp fs x y,
  let fs' := fst (external_with_info V exec missing empty build show tmp fs x y) in
  fs' tmp = None /\ forall p, p <> tmp -> fs' p = fs p.
Proof. exact temporary_file. Qed.
Print Assumptions C62_temporary_file.

(** In a benchmark run, a command which fails leads to a result without success which
    records the exit message and the output of the command. *)
Theorem C62_failure_recorded :
  forall V exec missing empty build show tmp parse fs c tick eid path tid seed info h xs ys text code chunks,
  valid_ref h info -> fs path = Some text -> read_sample parse text = Ok (xs, ys) ->
  let (dx, dy) := read_sample_dims text in
  exec (build path (Z.of_nat dx) (Z.of_nat dy)) fs = Exited code chunks -> code <> 0 ->
  exists h' rr,
    run_estimator parse fs c tick (external_estimator V exec missing empty build show tmp fs) eid path tid seed info h = (h', Ok rr) /\
    rr_success rr = false /\ rr_mi rr = NaN /\ rr_n_samples rr = Z.of_nat (length xs) /\
    sdict_get (dread h' (rr_info rr)) "error" = Some (PStr (exit_message V (build path (Z.of_nat dx) (Z.of_nat dy)) code)) /\
    sdict_get (dread h' (rr_info rr)) "subprocess_output" = Some (PStr (py_bytes V (String.concat EmptyString (map snd chunks)))).
Proof. exact failure_recorded. Qed.
Print Assumptions C62_failure_recorded.

(** ... and a success as one, with the time measured by the benchmark. *)
Theorem C62_success_recorded :
  forall V exec missing empty build show tmp parse fs c tick eid path tid seed info h xs ys text mi,
  valid_ref h info -> fs path = Some text -> read_sample parse text = Ok (xs, ys) ->
  let (dx, dy) := read_sample_dims text in
  run_command_and_read_mi V exec (build path (Z.of_nat dx) (Z.of_nat dy)) fs = Done mi ->
  exists h' rr, run_estimator parse fs c tick (external_estimator V exec missing empty build show tmp fs) eid path tid seed info h = (h', Ok rr) /\
    rr_success rr = true /\ rr_mi rr = mi /\ rr_time rr = Fin (c (S tick) - c tick)%R /\ rr_n_samples rr = Z.of_nat (length xs) /\
    forall k, sdict_get (dread h' (rr_info rr)) k = sdict_get (content h info) k.
Proof. exact success_recorded. Qed.
Print Assumptions C62_success_recorded.
Example C62_success_recorded_example :
  exists h' rr,
    run_estimator ex_parse ex_files ex_clock 0
      (external_estimator ex_conv (fun _ _ => Exited 0 [(false, "0.5")]%string) "" "" (fun p _ _ => [p]) ex_show "t" ex_files)
      "est" "a.csv" "task" None None [] = (h', Ok rr) /\ rr_success rr = true /\ rr_mi rr = Fin (1/2).
Proof.
  destruct (success_recorded ex_conv (fun _ _ => Exited 0 [(false, "0.5")]%string) "" "" (fun p _ _ => [p]) ex_show "t"
    ex_parse ex_files ex_clock 0 "est" "a.csv" "task" None None [] [[1%R]; [0%R]] [[0%R]; [0%R]] _ (Fin (1/2)) I eq_refl eq_refl eq_refl)
    as (h' & rr & A & B & C & _). exists h', rr. auto.
Qed.

(** A machine and a sample to which all this applies, with a number returned by R and by
    Julia, and a failure. *)
Example C62_example :
  setting_ok ex_good ex_setting /\ sample_ok ex_good 2 1 ex_xs ex_ys /\ is_number ex_conv "0.5" (Fin (1/2)) /\
  (let ask build := external_estimate ex_conv (run_in ex_setting) "missing" "empty" build ex_show "/tmp/sample" (fun _ => None)
                      (Arr2 2 ex_xs) (Arr2 1 ex_ys) in
   ask (r_ksg_command "/home" "external" {| kp_variant := 2; kp_neighbors := 3 |}) = Done (Fin (1/2)) /\
   r_ksg 2 3 = Ok {| kp_variant := 2; kp_neighbors := 3 |}) /\
  tidy "0.5" /\ strip (String newline " 0.5  ") = "0.5"%string.
Proof.
  split; [exact ex_setting_ok|]. split; [exact ex_sample_ok|]. split; [exact half_is_number|].
  split; [|split; [exact (proj1 half_is_number)|reflexivity]].
  split; [|reflexivity]. apply (C62_r_ksg ex_good ex_setting 2 1 ex_xs ex_ys ex_setting_ok ex_sample_ok 2 3 _ eq_refl).
  exact half_is_number.
Qed.

Example C62_example_failure :
  exists h' rr,
    run_estimator ex_parse ex_files ex_clock 0
      (external_estimator ex_conv (fun _ _ => Exited 2 [(false, "0.5"); (true, "boom")]%string) "" "" (fun p _ _ => [p]) ex_show "t" ex_files)
      "est" "a.csv" "task" None None [] = (h', Ok rr) /\
    sdict_get (dread h' (rr_info rr)) "subprocess_output" = Some (PStr "b'0.5boom'").
Proof.
  destruct (failure_recorded ex_conv (fun _ _ => Exited 2 [(false, "0.5"); (true, "boom")]%string) "" "" (fun p _ _ => [p]) ex_show "t"
    ex_parse ex_files ex_clock 0 "est" "a.csv" "task" None None [] [[1%R]; [0%R]] [[0%R]; [0%R]] _ 2 _ I eq_refl eq_refl eq_refl)
    as (h' & rr & A & _ & _ & _ & _ & B); [discriminate|]. exists h', rr. split; [exact A|exact B].
Qed.

(** ** C63: the parameter [proc] of RBNSLEstimator *)
Theorem C63_python_accepts : forall proc, (exists p, r_bnsl proc = Ok p) <-> 1 <= proc.
Proof. exact r_bnsl_accepts. Qed.
Print Assumptions C63_python_accepts.

Theorem C63_script_accepts : forall proc, r_proc_ok proc = true <-> In proc [0; 1; 2; 10].
Proof. exact r_proc_accepts. Qed.
Print Assumptions C63_script_accepts.

(** Both accept 1, 2 and 10: then the library gets this value and the two arrays ... *)
Theorem C63_accepted :
  forall good S dx dy xs ys, setting_ok good S -> sample_ok good dx dy xs ys ->
  forall proc p, r_bnsl proc = Ok p -> In proc [1; 2; 10] ->
  estimates S (r_bnsl_command (st_cwd S) (st_code S) p) dx dy xs ys (st_r S (BnslMi xs ys proc)).
Proof. exact st_r_bnsl_ok. Qed.
Print Assumptions C63_accepted.

(** ... and for every other value accepted by Python the script stops. *)
Theorem C63_rejected_late :
  forall good S dx dy xs ys, setting_ok good S -> sample_ok good dx dy xs ys ->
  forall proc p, r_bnsl proc = Ok p -> ~ In proc [1; 2; 10] ->
  estimates S (r_bnsl_command (st_cwd S) (st_code S) p) dx dy xs ys (inl (st_r_error S)).
Proof. exact st_r_bnsl_rejected. Qed.
Print Assumptions C63_rejected_late.

(** The documented value 0 (Jeffreys' prior) cannot be chosen, though the script takes it. *)
Theorem C63_documented_values_refuted :
  ~ (forall proc, In proc [0; 1; 2; 10] -> exists p, r_bnsl proc = Ok p).
Proof. exact documented_values_refuted. Qed.
Print Assumptions C63_documented_values_refuted.

Theorem C63_same_validation_refuted :
  (exists proc p, r_bnsl proc = Ok p /\ r_proc_ok proc = false) /\
  (exists proc e, r_bnsl proc = Err e /\ r_proc_ok proc = true).
Proof. exact same_validation_refuted. Qed.
Print Assumptions C63_same_validation_refuted.

(** Called with no column for X, the script does not stop: [1:0] counts down in R, so the first column
    is taken as X, and again as the first of Y. *)
Theorem C63_no_x_columns :
  forall read_cell file text columns data fs, starts_with "--" file = false ->
  fs file = Some text -> read_csv read_cell text = Ok (columns, data) -> columns <> [] -> rectangular (length columns) data ->
  rmi_script read_cell [file; "0"; int_str (Z.of_nat (length columns)); "--method"; "BNSL"]%string fs = Some (BnslMi (left_columns 1 data) data 0).
Proof. exact no_x_columns. Qed.
Print Assumptions C63_no_x_columns.
Example C63_no_x_columns_example :
  rmi_script ex_read ["s.csv"; "0"; "2"; "--method"; "BNSL"]%string
    (fun _ => Some ("Y0,Y1" ++ String newline "0,1" ++ String newline EmptyString)%string) = Some (BnslMi [[0%R]] [[0%R; 1%R]] 0).
Proof. exact no_x_instance. Qed.

Example C63_example :
  r_bnsl 10 = Ok 10 /\
  external_estimate ex_conv (run_in ex_setting) "missing" "empty" (r_bnsl_command "/home" "external" 10) ex_show "/tmp/sample"
    (fun _ => None) (Arr2 2 ex_xs) (Arr2 1 ex_ys) = Done (Fin (1/2)) /\
  external_estimate ex_conv (run_in ex_setting) "missing" "empty" (r_bnsl_command "/home" "external" 5) ex_show "/tmp/sample"
    (fun _ => None) (Arr2 2 ex_xs) (Arr2 1 ex_ys) = Failed "exit status 1" (Some "b'Error'"%string).
Proof.
  split; [reflexivity|]. split.
  - apply (C63_accepted ex_good ex_setting 2 1 ex_xs ex_ys ex_setting_ok ex_sample_ok 10 10 eq_refl); [cbn; tauto|exact half_is_number].
  - apply (C63_rejected_late ex_good ex_setting 2 1 ex_xs ex_ys ex_setting_ok ex_sample_ok 5 5 eq_refl). cbn. intuition discriminate.
Qed.

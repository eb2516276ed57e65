(** The properties C55-C57, C60 and C61 (benchmark runs, tasks, dumping, timer). *)
From Coq Require Import String.
From Verif Require Import Base UtilsModel JaxModel SamplersModel BaseLemmas UtilsSpec BenchmarkModel BenchmarkSpec
  BenchmarkProofs BenchmarkThms BenchmarkExamples TrainingExamples.
Open Scope Z_scope.
Local Notation length := List.length.

(** ** C55: a run returns whatever the estimator does, and reports it faithfully. *)
Theorem C55_run_returns :
  forall parse files c tick e eid path tid seed info h xs ys,
  read_sample_file parse files path = Ok (xs, ys) ->
  (forall ex, estimator_call e path xs ys <> Escaped ex) ->
  exists h' rr, run_estimator parse files c tick e eid path tid seed info h = (h', Ok rr).
Proof. exact run_total. Qed.
Print Assumptions C55_run_returns.

Theorem C55_run_reports :
  forall parse files c tick e eid path tid seed info h h' rr,
  valid_ref h info ->
  run_estimator parse files c tick e eid path tid seed info h = (h', Ok rr) ->
  exists xs ys, read_sample_file parse files path = Ok (xs, ys) /\
    rr_estimator_id rr = eid /\ rr_task_id rr = tid /\ rr_seed rr = seed /\
    rr_n_samples rr = Z.of_nat (length xs) /\
    match estimator_call e path xs ys with
    | Returned r => rr_success rr = true /\ rr_mi rr = er_mi r /\
        rr_time rr = match er_time r with Some v => v | None => Fin (c (S tick) - c tick)%R end
    | Raised _ _ => rr_success rr = false /\ rr_mi rr = NaN /\ rr_time rr = NaN
    | Escaped _ => False
    end /\
    updated (content h info) (recorded (estimator_call e path xs ys)) (dread h' (rr_info rr)).
Proof. exact run_reports. Qed.
Print Assumptions C55_run_reports.

Theorem C55_success_iff_returned :
  forall parse files c tick e eid path tid seed info h h' rr xs ys,
  valid_ref h info -> read_sample_file parse files path = Ok (xs, ys) ->
  run_estimator parse files c tick e eid path tid seed info h = (h', Ok rr) ->
  (rr_success rr = true <-> exists r, estimator_call e path xs ys = Returned r).
Proof. exact run_success_iff. Qed.
Print Assumptions C55_success_iff_returned.

(** The exception of a failed run is described. *)
Theorem C55_error_described :
  forall parse files c tick e eid path tid seed info h h' rr xs ys message output,
  valid_ref h info -> read_sample_file parse files path = Ok (xs, ys) ->
  estimator_call e path xs ys = Raised message output ->
  run_estimator parse files c tick e eid path tid seed info h = (h', Ok rr) ->
  sdict_get (dread h' (rr_info rr)) "error" = Some (PStr message) /\
  (forall o, output = Some o -> sdict_get (dread h' (rr_info rr)) "subprocess_output" = Some (PStr o)).
Proof. exact run_error_described. Qed.
Print Assumptions C55_error_described.

(** What does escape: an unreadable sample, and exceptions which are no [Exception]. *)
Theorem C55_run_raises :
  forall parse files c tick e eid path tid seed info h h' ex,
  valid_ref h info ->
  run_estimator parse files c tick e eid path tid seed info h = (h', Err ex) ->
  read_sample_file parse files path = Err ex \/
  exists xs ys, read_sample_file parse files path = Ok (xs, ys) /\ estimator_call e path xs ys = Escaped ex.
Proof. exact run_raises. Qed.
Print Assumptions C55_run_raises.

Example C55_example :
  exists h' rr,
    run_estimator ex_parse ex_files ex_clock 3 bad_estimator "est" "a.csv" "task" (Some 1) None [] = (h', Ok rr) /\
    rr_success rr = false /\ rr_n_samples rr = 2 /\
    sdict_get (dread h' (rr_info rr)) "error" = Some (PStr "a.csv failed").
Proof.
  unfold run_estimator, pbind, lift, pret. rewrite ex_files_read. cbn. do 2 eexists. repeat split.
Qed.

(** ** C56: the results of different runs *)

(** Runs which get pairwise different dictionaries, or none: at the end, the information
    of each result is the dictionary passed, updated by that run alone. *)
Theorem C56_independent_runs :
  forall parse files c qs h h' rs,
  Forall (fun q => valid_ref h (rc_info q)) qs -> NoDup (passed qs) ->
  run_all parse files c qs h = (h', rs) ->
  Forall2 (fun q res => match res with
    | Ok rr => exists xs ys, read_sample_file parse files (rc_path q) = Ok (xs, ys) /\
        updated (content h (rc_info q)) (recorded (estimator_call (rc_estimator q) (rc_path q) xs ys))
                (dread h' (rr_info rr))
    | Err _ => True end) qs rs.
Proof. exact run_all_independent. Qed.
Print Assumptions C56_independent_runs.

(** Runs leave alone every dictionary which they are not given. *)
Theorem C56_runs_leave_other_dictionaries :
  forall parse files c qs h h' rs,
  Forall (fun q => valid_ref h (rc_info q)) qs -> run_all parse files c qs h = (h', rs) ->
  forall r, (r < length h)%nat -> Forall (fun q => rc_info q <> Some r) qs -> dread h' r = dread h r.
Proof. exact run_all_leaves. Qed.
Print Assumptions C56_runs_leave_other_dictionaries.

(** When the same non-empty dictionary is passed to two runs, the second run changes the
    result of the first one, *)
Theorem C56_shared_dictionary_refuted :
  ~ (forall parse files c q1 q2 h h1 h2 r1 r2,
     run_one parse files c q1 h = (h1, Ok r1) -> run_one parse files c q2 h1 = (h2, Ok r2) ->
     dread h2 (rr_info r1) = dread h1 (rr_info r1)).
Proof. exact shared_dictionary_refuted. Qed.
Print Assumptions C56_shared_dictionary_refuted.

(** and the error of a failed run is still recorded in a later successful one. *)
Theorem C56_stale_error_refuted :
  exists parse files c q1 q2 h h1 h2 r1 r2,
    run_one parse files c q1 h = (h1, Ok r1) /\ run_one parse files c q2 h1 = (h2, Ok r2) /\
    rr_success r2 = true /\ sdict_get (dread h2 (rr_info r2)) "error" = Some (PStr "a.csv failed").
Proof. exact stale_error_exists. Qed.
Print Assumptions C56_stale_error_refuted.

Example C56_example :
  Forall (fun q => valid_ref [[("a", PInt 1)]]%string (rc_info q))
    [ex_call good_estimator (Some 0%nat); ex_call bad_estimator None] /\
  NoDup (passed [ex_call good_estimator (Some 0%nat); ex_call bad_estimator None]).
Proof. repeat constructor. cbn. tauto. Qed.

(** ** C57: tasks *)
Theorem C57_metadata :
  forall (J : prng) (t : task J) h dx dy mi,
  valid_ref h (t_params t) ->
  dim_x (t_sampler t) = Ok dx -> dim_y (t_sampler t) = Ok dy -> mutual_information (t_sampler t) = Ok mi ->
  fl_ltb mi (Fin 0) = false -> mi <> NaN ->
  exists h' m, metadata t h = (h', Ok m) /\
    md_id m = t_id t /\ md_name m = t_name t /\ md_dim_x m = dx /\ md_dim_y m = dy /\ md_mi m = mi /\
    dread h' (md_params m) = content h (t_params t) /\
    (content h (t_params t) <> [] -> t_params t = Some (md_params m)) /\
    (forall r, (r < length h)%nat -> dread h' r = dread h r) /\
    (md_params m < length h')%nat /\ (length h <= length h')%nat.
Proof. exact @metadata_ok. Qed.
Print Assumptions C57_metadata.

(** No metadata (hence no id, no name, no parameters) when the mutual information is
    negative or NaN, or the sampler fails to tell it. *)
Theorem C57_metadata_error :
  forall (J : prng) (t : task J) h,
  (exists e, dim_x (t_sampler t) = Err e) \/ (exists e, dim_y (t_sampler t) = Err e) \/
  (exists e, mutual_information (t_sampler t) = Err e) \/
  mutual_information (t_sampler t) = Ok NaN \/
  (exists mi, mutual_information (t_sampler t) = Ok mi /\ fl_ltb mi (Fin 0) = true) ->
  exists h' e, metadata t h = (h', Err e).
Proof. exact @metadata_error. Qed.
Print Assumptions C57_metadata_error.

Theorem C57_properties :
  forall (J : prng) (t : task J) h h' m, metadata t h = (h', Ok m) ->
  task_id t h = (h', Ok (md_id m)) /\ task_name t h = (h', Ok (md_name m)) /\
  task_params t h = (h', Ok (md_params m)) /\ task_dim_x t h = (h', Ok (md_dim_x m)) /\
  task_dim_y t h = (h', Ok (md_dim_y m)) /\ task_mi t h = (h', Ok (md_mi m)).
Proof. exact @task_properties. Qed.
Print Assumptions C57_properties.

(** The metadata written to a file. *)
Theorem C57_save_metadata :
  forall (J : prng) (t : task J) h h' m, metadata t h = (h', Ok m) ->
  forall doc, snd (save_metadata t h) = Ok doc ->
  exists params mi, depicts (PDict (dread h' (md_params m))) params /\ md_mi m = mi /\
    doc = YMap [("dim_x", YInt (md_dim_x m)); ("dim_y", YInt (md_dim_y m)); ("mi_true", YFloat mi);
                ("task_id", YStr (t_id t)); ("task_name", YStr (t_name t)); ("task_params", params)]%string.
Proof. exact @saved_metadata. Qed.
Print Assumptions C57_save_metadata.

(** Sampling through a task is sampling the sampler with the integer seed. *)
Theorem C57_sample :
  forall (J : prng) (t : task J) n seed, task_sample t n seed = sample (t_sampler t) n (SeedInt seed).
Proof. exact @task_sample_sampler. Qed.
Print Assumptions C57_sample.

(** A saved sample, read again, is the sample. *)
Theorem C57_saved_sample :
  forall (J : prng) (show : R -> string) (parse : string -> option R) (good : R -> Prop) (t : task J) n seed xs ys dx dy,
  (forall r, good r -> parse (show r) = Some r) ->
  (forall r, good r -> contains_char comma (show r) = false /\ contains_char newline (show r) = false) ->
  sample (t_sampler t) n (SeedInt seed) = Ok (xs, ys) -> (0 < n)%nat -> length xs = n -> length ys = n ->
  (0 < dx + dy)%nat -> rectangular dx xs -> rectangular dy ys -> all_entries good xs -> all_entries good ys ->
  exists text, task_save_sample show t n seed = Ok text /\ read_sample parse text = Ok (xs, ys) /\
    read_sample_dims text = (dx, dy).
Proof. exact @task_file_round_trip. Qed.
Print Assumptions C57_saved_sample.

(** The metadata does not contain a copy of the parameters but the same dictionary. *)
Theorem C57_params_copied_refuted :
  ~ (forall (J : prng) (t : task J) h h' m, metadata t h = (h', Ok m) -> forall d,
     content (dwrite h' (md_params m) d) (t_params t) = content h (t_params t)).
Proof. exact params_copied_refuted. Qed.
Print Assumptions C57_params_copied_refuted.

Example C57_example :
  valid_ref ex_heap (t_params (@ex_task demo)) /\
  mutual_information (t_sampler (@ex_task demo)) = Ok (Fin (1 / 2)) /\ fl_ltb (Fin (1 / 2)) (Fin 0) = false /\
  task_sample (@ex_task demo) 2 7 = Ok ([[7]; [7]], [[0]; [0]])%R.
Proof. cbn. destruct (Rlt_dec (1 / 2) 0); [lra|]. repeat split. lia. Qed.

(** ** C60: dumping *)

(** Values which are not wrapped twice are dumped as if they had been converted
    recursively and dumped by the stock dumper. *)
Theorem C60_dump_converts :
  forall p, unwrapped_once p = true -> dict_dump p = safe_dump (plain p).
Proof. exact dict_dump_plain. Qed.
Print Assumptions C60_dump_converts.

(** What is written shows the value, whatever it is. *)
Theorem C60_dump_sound : forall p n, dict_dump p = Ok n -> depicts p n.
Proof. exact dict_dump_sound. Qed.
Print Assumptions C60_dump_sound.

(** Dumping fails only on values of unknown types. *)
Theorem C60_dump_succeeds :
  forall p, unwrapped_once p = true -> (known p = true <-> exists n, dict_dump p = Ok n).
Proof. exact dict_dump_succeeds. Qed.
Print Assumptions C60_dump_succeeds.

(** The file of a run has all its fields, with the values of the run. *)
Theorem C60_result_file :
  forall h r, run_result_dump h r =
  match dict_dump (PDict (dread h (rr_info r))) with
  | Ok info => Ok (YMap [("additional_information", info); ("estimator_id", YStr (rr_estimator_id r)); ("mi_estimate", YFloat (rr_mi r));
                         ("n_samples", YInt (rr_n_samples r)); ("seed", match rr_seed r with Some s => YInt s | None => YNull end);
                         ("success", YBool (rr_success r)); ("task_id", YStr (rr_task_id r)); ("time_in_seconds", YFloat (rr_time r))]%string)
  | Err e => Err e
  end.
Proof. exact saved_run. Qed.
Print Assumptions C60_result_file.
Example C60_result_file_example :
  run_result_dump [[("note", PPath "/tmp")]]%string
    {| rr_mi := Fin 1; rr_time := Fin 2; rr_success := true; rr_estimator_id := "KSG"; rr_task_id := "t"; rr_n_samples := 5;
       rr_seed := Some 3; rr_info := 0%nat |} =
  Ok (YMap [("additional_information", YMap [("note", YStr "/tmp")]); ("estimator_id", YStr "KSG"); ("mi_estimate", YFloat (Fin 1));
            ("n_samples", YInt 5); ("seed", YInt 3); ("success", YBool true); ("task_id", YStr "t"); ("time_in_seconds", YFloat (Fin 2))]%string).
Proof. reflexivity. Qed.

(** The conversion yields plain data: converting again changes nothing. *)
Theorem C60_plain_idempotent : forall p, is_converted (plain p) = false /\ plain (plain p) = plain p.
Proof. exact plain_idempotent. Qed.
Print Assumptions C60_plain_idempotent.

(** An Enum member whose value is a path (or a NumPy value) is not dumped. *)
Theorem C60_enum_of_path_refuted :
  ~ (forall p, dict_dump p = safe_dump (plain p)) /\ ~ (forall p, known p = true -> exists n, dict_dump p = Ok n).
Proof. exact enum_of_path_refuted. Qed.
Print Assumptions C60_enum_of_path_refuted.

Example C60_example :
  unwrapped_once ex_value = true /\ known ex_value = true /\
  dict_dump ex_value = Ok (YMap [("array", YSeq [YSeq [YInt 1]; YSeq [YInt 2]]); ("colour", YSeq [YStr "red"]);
                                 ("path", YStr "/tmp"); ("tuple", YSeq [YInt 1; YFloat (Fin 2)])]%string).
Proof. exact ex_value_dump. Qed.

(** ** C61: the timer *)

(** The i-th method call returns the reading it takes minus the last reading stored by
    the constructor or a reset. *)
Theorem C61_measures_since_last_reset :
  forall c k os i o, nth_error os i = Some o ->
  nth_error (fst (timer_run c os (timer_new c k))) i =
  Some (match o with
        | TReset => None
        | _ => Some (c (S k + total_readings (firstn i os))%nat - c (last_stored k (S k) (firstn i os)))%R
        end).
Proof. exact timer_value_at. Qed.
Print Assumptions C61_measures_since_last_reset.

Theorem C61_never_negative :
  forall c k os i v, monotone c -> nth_error (fst (timer_run c os (timer_new c k))) i = Some (Some v) -> (0 <= v)%R.
Proof. exact timer_nonneg. Qed.
Print Assumptions C61_never_negative.

Theorem C61_checks_never_decrease :
  forall c k os i j v w, monotone c -> (i <= j)%nat ->
  (forall l o, (i <= l < j)%nat -> nth_error os l = Some o -> o = TCheck) ->
  nth_error (fst (timer_run c os (timer_new c k))) i = Some (Some v) ->
  nth_error (fst (timer_run c os (timer_new c k))) j = Some (Some w) -> (v <= w)%R.
Proof. exact timer_checks_increase. Qed.
Print Assumptions C61_checks_never_decrease.

(** check_and_reset is check followed by reset, as documented. *)
Theorem C61_check_and_reset :
  forall c t, exists v, timer_check_and_reset c t = (v, timer_reset c (snd (timer_check c t))) /\
    v = fst (timer_check c t).
Proof. exact check_then_reset. Qed.
Print Assumptions C61_check_and_reset.

(** The laps and the gaps between the two readings of each check_and_reset add up to
    the time from the construction to the last reset; *)
Theorem C61_laps_and_gaps :
  forall c k n, exists laps t,
  timer_run c (repeat TCheckAndReset (S n)) (timer_new c k) = (map Some laps, t) /\ length laps = S n /\
  (rsum laps + rsum (map (fun i => c (S k + 2 * i + 1)%nat - c (S k + 2 * i)%nat) (seq 0 (S n)))
   = c (S k + 2 * n + 1)%nat - c k)%R.
Proof. exact laps_and_gaps. Qed.
Print Assumptions C61_laps_and_gaps.

(** so the laps alone do not exceed that time, *)
Theorem C61_laps_at_most_total :
  forall c k n, monotone c -> exists laps t,
  timer_run c (repeat TCheckAndReset (S n)) (timer_new c k) = (map Some laps, t) /\
  (rsum laps <= tm_t0 t - c k)%R.
Proof. exact laps_at_most_total. Qed.
Print Assumptions C61_laps_at_most_total.

(** but need not reach it. *)
Theorem C61_laps_additive_refuted :
  exists c : clock, monotone c /\ exists l1 l2 t,
    timer_run c [TCheckAndReset; TCheckAndReset] (timer_new c 0) = ([Some l1; Some l2], t) /\
    (l1 + l2 < tm_t0 t - c 0%nat)%R.
Proof. exact laps_not_additive. Qed.
Print Assumptions C61_laps_additive_refuted.

Example C61_example :
  monotone ex_clock /\
  fst (timer_run ex_clock [TCheck; TReset; TCheckAndReset; TCheck] (timer_new ex_clock 0)) =
  [Some (INR 1 - INR 0)%R; None; Some (INR 3 - INR 2)%R; Some (INR 5 - INR 4)%R].
Proof. split; [exact ex_clock_monotone|reflexivity]. Qed.

(** C77: the workflow running the benchmark. *)
From Coq Require Import String Ascii Lia.
From Verif Require Import Base BaseLemmas UtilsModel JaxModel SamplersModel BenchmarkModel BenchmarkSpec BenchmarkExamples
  TrainingExamples RulesModel RulesSpec RulesProofs RulesThms RulesExamples.
Open Scope Z_scope.
Local Notation length := List.length.

(** Wildcards found in a path give that path back when put into the pattern; they are the
    wildcards of the pattern in that order, none of them empty. *)
Theorem C77_match_sound :
  forall ps path wc, NoDup (names ps) -> match_path ps path = Some wc ->
  fill ps wc = Ok path /\ map fst wc = names ps /\ Forall (fun kv => snd kv <> ""%string) wc.
Proof. exact match_path_sound. Qed.
Print Assumptions C77_match_sound.
Example C77_match_sound_example :
  match_path apply_output "results/KSG/normal-1-2/10-3.yaml"
  = Some [("estimator_id", "KSG"); ("task_id", "normal-1-2"); ("n_samples", "10"); ("seed", "3")]%string.
Proof. reflexivity. Qed.

(** A path is made from a pattern only if there is a value for each of its wildcards. *)
Theorem C77_fill :
  forall ps (wc : wildcards), (exists p, fill ps wc = Ok p) <-> forall n, In n (names ps) -> sdict_get wc n <> None.
Proof. exact fill_needs. Qed.
Print Assumptions C77_fill.
Example C77_fill_example :
  fill apply_input [("task_id", "normal"); ("n_samples", "10"); ("seed", "3")]%string = Ok "tasks/normal/10-3.csv"%string /\
  fill apply_input [("task_id", "normal"); ("n_samples", "10")]%string = Err OtherError.
Proof. split; reflexivity. Qed.

(** The path of a sample is understood as it was meant, whatever minus signs, slashes and
    dots the name of the task contains. *)
Theorem C77_sample_path :
  forall t n s, t <> ""%string -> ~ occurs newline_char t -> 0 <= s ->
  match_path sample_output (sample_path t n s) = Some [("task_id", t); ("n_samples", show_int n); ("seed", show_int s)]%string.
Proof. exact match_sample. Qed.
Print Assumptions C77_sample_path.
Example C77_sample_path_example : sample_path "a/b-1-2.csv" 10 3 = "tasks/a/b-1-2.csv/10-3.csv"%string.
Proof. reflexivity. Qed.

(** So is the path of a result, if the name of the task has no slash. *)
Theorem C77_result_path :
  forall e t n s, e <> ""%string -> ~ occurs newline_char e -> t <> ""%string -> ~ occurs newline_char t ->
  ~ occurs "/" t -> 0 <= s ->
  match_path apply_output (result_path e t n s)
  = Some [("estimator_id", e); ("task_id", t); ("n_samples", show_int n); ("seed", show_int s)]%string.
Proof. exact match_result. Qed.
Print Assumptions C77_result_path.
Example C77_result_path_example : result_path "KSG-5" "normal-1v1" 10 3 = "results/KSG-5/normal-1v1/10-3.yaml"%string /\
  ~ occurs "/" "normal-1v1".
Proof. split; [reflexivity|apply ex_usable]. Qed.

(** Different runs have different files, different samples too. *)
Theorem C77_result_paths_differ :
  forall e t n s e' t' n' s',
  usable_name e -> usable_name t -> ~ occurs "/" t -> 0 <= s -> usable_name e' -> usable_name t' -> ~ occurs "/" t' -> 0 <= s' ->
  result_path e t n s = result_path e' t' n' s' -> e = e' /\ t = t' /\ n = n' /\ s = s'.
Proof. exact result_path_inj. Qed.
Print Assumptions C77_result_paths_differ.
Example C77_result_paths_differ_example : usable_name "KSG-5" /\ usable_name "normal-1v1" /\ ~ occurs "/" "normal-1v1".
Proof. exact ex_usable. Qed.

Theorem C77_sample_paths_differ :
  forall t n s t' n' s', usable_name t -> 0 <= s -> usable_name t' -> 0 <= s' ->
  sample_path t n s = sample_path t' n' s' -> t = t' /\ n = n' /\ s = s'.
Proof. exact sample_path_inj. Qed.
Print Assumptions C77_sample_paths_differ.
Example C77_sample_paths_differ_example : usable_name "normal-1v1" /\ sample_path "normal-1v1" 1 10 <> sample_path "normal-1v1" 11 0.
Proof. split; [apply ex_usable|discriminate]. Qed.

(** Without the conditions on slashes and signs paths are misunderstood. *)
Theorem C77_paths_refuted :
  ~ (forall e t n s, usable_name e -> usable_name t -> 0 <= s ->
     match_path apply_output (result_path e t n s)
     = Some [("estimator_id", e); ("task_id", t); ("n_samples", show_int n); ("seed", show_int s)]%string) /\
  ~ (forall t n s, usable_name t ->
     match_path sample_output (sample_path t n s) = Some [("task_id", t); ("n_samples", show_int n); ("seed", show_int s)]%string).
Proof. exact wrong_split_refuted. Qed.
Print Assumptions C77_paths_refuted.

(** Numbers in paths are in decimal notation and are read back. *)
Theorem C77_numbers : forall z, numeral (show_int z) z /\ read_int (show_int z) = Ok z.
Proof. intros z. exact (conj (show_numeral z) (read_show z)). Qed.
Print Assumptions C77_numbers.
Example C77_numbers_example : show_int 12500 = "12500"%string /\ show_int (-7) = "-7"%string.
Proof. split; reflexivity. Qed.

(** Whatever jobs were run in whatever order, if the table is made then its rows are, one
    for each estimator, task, number of points and seed, what that estimator gave for the
    sample of that task with that many points and that seed, and the truth about that task. *)
Theorem C77_table :
  forall J (es : sdict estimator) (ts : sdict (task J)) ns ss h0 show parse clock_of sched w h' rows,
  config_ok show parse es ts ns ss h0 ->
  make_all es ts h0 show parse clock_of sched [] = Ok w -> results es ts ns ss w h0 = (h', Ok rows) ->
  Forall2 (fun q row => match q with (eid, tid, n, s) =>
     exists e t xs ys, sdict_get es eid = Some e /\ sdict_get ts tid = Some t /\ sample_ok show parse t n s xs ys /\
       row_of h0 (clock_of (result_path eid tid n s)) eid e tid t n s xs ys row end)
    (combinations (map fst es) (map fst ts) ns ss) rows.
Proof. exact run_rows. Qed.
Print Assumptions C77_table.
Example C77_table_example : exists w h' rows,
  make_all ex_estimators ex_tasks ex_heap ex_digit ex_parse ex_clocks
    (schedule (map fst ex_estimators) (map fst ex_tasks) [2; 3] [0; 1]) [] = Ok w /\
  results ex_estimators ex_tasks [2; 3] [0; 1] w ex_heap = (h', Ok rows) /\ length rows = 8%nat /\
  (exists row, nth_error rows 0 = Some row /\ sdict_get row "mi_estimate" = Some (PFloat (Fin 2)) /\
     sdict_get row "mi_true" = Some (PFloat (Fin (1 / 2)))) /\
  (exists row, nth_error rows 7 = Some row /\ sdict_get row "success" = Some (PBool false) /\
     sdict_get row "n_samples" = Some (PInt 3) /\ sdict_get row "seed" = Some (PInt 1)).
Proof. exact ex_run_rows. Qed.

(** The table can be made: run every estimator after drawing its sample. *)
Theorem C77_completes :
  forall J (es : sdict estimator) (ts : sdict (task J)) ns ss h0 show parse clock_of,
  config_ok show parse es ts ns ss h0 -> estimators_ok show parse es ts ns ss -> tasks_described ts ->
  exists w h' rows,
    make_all es ts h0 show parse clock_of (schedule (map fst es) (map fst ts) ns ss) [] = Ok w /\
    results es ts ns ss w h0 = (h', Ok rows).
Proof. exact @run_completes. Qed.
Print Assumptions C77_completes.
Example C77_completes_example :
  config_ok ex_digit ex_parse ex_estimators ex_tasks [2; 3] [0; 1] ex_heap /\
  estimators_ok ex_digit ex_parse ex_estimators ex_tasks [2; 3] [0; 1] /\ tasks_described ex_tasks.
Proof. exact (conj ex_config (conj ex_estimators_ok ex_described)). Qed.

(** With a negative seed among those asked for the table is never made: the sign is taken
    for a part of the number of points. *)
Theorem C77_negative_seed :
  forall J (es : sdict estimator) (ts : sdict (task J)) ns ss h0 show parse clock_of sched w eid tid n s,
  Forall (fun e => usable_name (fst e)) es -> Forall (fun t => usable_name (fst t) /\ ~ occurs "/" (fst t)) ts ->
  In eid (map fst es) -> In tid (map fst ts) -> In n ns -> In s ss -> s < 0 ->
  make_all es ts h0 show parse clock_of sched [] = Ok w ->
  exists h' ex, results es ts ns ss w h0 = (h', Err ex).
Proof. exact @negative_seed_never. Qed.
Print Assumptions C77_negative_seed.
Example C77_negative_seed_example :
  make_path ex_estimators ex_tasks ex_heap ex_digit ex_parse ex_clocks [] (sample_path "normal-1v1" 2 (-1)) = Err ValueError.
Proof. apply negative_seed_sample; [apply ex_usable|reflexivity]. Qed.

(** A task whose name has a slash is never evaluated: a part of the name is taken for a
    part of the name of the estimator, which is unknown. *)
Theorem C77_slash :
  forall J (es : sdict estimator) (ts : sdict (task J)) h0 show parse clock_of w eid a b n s,
  usable_name eid -> usable_name a -> usable_name b -> ~ occurs "/" b -> 0 <= s ->
  sdict_get es (eid ++ "/" ++ a)%string = None ->
  make_path es ts h0 show parse clock_of w (result_path eid (a ++ "/" ++ b) n s) = Err KeyError.
Proof. exact @slash_in_task. Qed.
Print Assumptions C77_slash.
Example C77_slash_example : sdict_get ex_estimators "KSG-5/normal-1v1" = None /\ ~ occurs "/" "normal-1v1".
Proof. split; [reflexivity|apply ex_usable]. Qed.

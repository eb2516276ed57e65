(** C83: the benchmark of Bayesian mixtures. *)
From Coq Require Import String Ascii Permutation Lia Lra.
From Verif Require Import Base BaseLemmas UtilsModel JaxModel SamplersModel BenchmarkModel BenchmarkSpec BenchmarkExamples
  TrainingExamples TablesModel RulesModel RulesSpec RulesProofs RulesThms GmmBenchModel GmmBenchSpec GmmBenchQuantiles GmmBenchRuns GmmBenchTable
  GmmBenchExamples.
Open Scope Z_scope.
Local Notation length := List.length.

(** The quantile is the value at position [q (n - 1)] of the arranged values, interpolated
    linearly; nothing else is. *)
Theorem C83_quantile :
  forall q l v, l <> [] -> (0 <= q <= 1)%R -> (is_quantile q l v <-> v = quantile q l).
Proof.
  exact (fun q l v Hl Hq => conj (fun H => quantile_unique l q v _ H (quantile_spec l Hl q Hq))
                              (fun E => eq_ind_r (is_quantile q l) (quantile_spec l Hl q Hq) E)).
Qed.
Print Assumptions C83_quantile.
Example C83_quantile_example : quantile (9 / 10) [3%R; 1%R; 2%R] = (28 / 10)%R.
Proof. exact ex_quantile. Qed.

(** Quantiles lie between the smallest and the greatest value, which are the quantiles for 0
    and 1, grow with [q], and do not depend on the order of the values. *)
Theorem C83_quantile_range :
  forall q l lo hi, l <> [] -> (0 <= q <= 1)%R -> Forall (fun x => (lo <= x <= hi)%R) l -> (lo <= quantile q l <= hi)%R.
Proof. exact (fun q l lo hi Hl => quantile_range l Hl q lo hi). Qed.
Print Assumptions C83_quantile_range.
Example C83_quantile_range_example : Forall (fun x => (1 <= x <= 3)%R) [3%R; 1%R; 2%R].
Proof. repeat constructor; lra. Qed.
Theorem C83_quantile_extremes :
  forall l, l <> [] -> In (quantile 0 l) l /\ Forall (Rle (quantile 0 l)) l /\ In (quantile 1 l) l /\ Forall (fun x => (x <= quantile 1 l)%R) l.
Proof. exact quantile_extremes. Qed.
Print Assumptions C83_quantile_extremes.
Theorem C83_quantile_monotone :
  forall q q' l, l <> [] -> (0 <= q)%R -> (q <= q')%R -> (q' <= 1)%R -> (quantile q l <= quantile q' l)%R.
Proof. exact (fun q q' l Hl => quantile_monotone l Hl q q'). Qed.
Print Assumptions C83_quantile_monotone.
Theorem C83_quantile_permutation : forall q l l', Permutation l l' -> quantile q l = quantile q l'.
Proof. exact quantile_permutation. Qed.
Print Assumptions C83_quantile_permutation.
Example C83_quantile_permutation_example : quantile (9 / 10) [2%R; 3%R; 1%R] = (28 / 10)%R.
Proof. rewrite <- ex_quantile. apply quantile_permutation. apply Permutation_cons_append. Qed.

(** More than the share [q] of the other values is not above the quantile, and more than the
    share [1 - q] is not below it. *)
Theorem C83_quantile_share :
  forall q l, l <> [] -> (0 <= q <= 1)%R ->
  (q * (INR (length l) - 1) < INR (at_most (quantile q l) l))%R /\ ((1 - q) * (INR (length l) - 1) < INR (at_least (quantile q l) l))%R.
Proof. exact quantile_share. Qed.
Print Assumptions C83_quantile_share.
Example C83_quantile_share_example : at_most (quantile (9 / 10) [3%R; 1%R; 2%R]) [3%R; 1%R; 2%R] = 2%nat.
Proof. rewrite ex_quantile. unfold at_most. cbn. repeat (destruct (Rle_dec _ _); try lra). reflexivity. Qed.

(** The summary of a posterior is that of its finite values; nothing else is a summary. *)
Theorem C83_summary :
  forall l low mean high filtered used,
  summarizes l low mean high filtered used <->
  low = s_low (summarize l) /\ mean = s_mean (summarize l) /\ high = s_high (summarize l) /\ filtered = s_filtered (summarize l) /\
  used = s_used (summarize l).
Proof.
  exact (fun l a b c f u => conj (summarizes_unique l a b c f u)
    (fun H => match H with conj E1 (conj E2 (conj E3 (conj E4 E5))) =>
      eq_ind_r (fun x => summarizes l x b c f u) (eq_ind_r (fun x => summarizes l _ x c f u) (eq_ind_r (fun x => summarizes l _ _ x f u)
        (eq_ind_r (fun x => summarizes l _ _ _ x u) (eq_ind_r (fun x => summarizes l _ _ _ _ x) (summarize_ok l) E5) E4) E3) E2) E1 end)).
Qed.
Print Assumptions C83_summary.
Example C83_summary_example : summarizes [Fin 3; NaN; Fin 1] (12 / 10) 2 (28 / 10) 1 2.
Proof. exact ex_summary. Qed.

(** Neither the order nor the infinite and undefined values matter for it, and the low
    quantile is not above the high one. *)
Theorem C83_summary_finite :
  forall l l', Permutation (finite_values l) (finite_values l') ->
  s_low (summarize l) = s_low (summarize l') /\ s_mean (summarize l) = s_mean (summarize l') /\
  s_high (summarize l) = s_high (summarize l') /\ s_used (summarize l) = s_used (summarize l').
Proof. exact summarizes_finite. Qed.
Print Assumptions C83_summary_finite.
Example C83_summary_finite_example : Permutation (finite_values [Fin 1; PInf; Fin 2]) (finite_values [NaN; Fin 2; Fin 1]).
Proof. cbn. apply perm_swap. Qed.
Theorem C83_summary_ordered : forall l, (s_low (summarize l) <= s_high (summarize l))%R.
Proof. exact summary_ordered. Qed.
Print Assumptions C83_summary_ordered.

(** The mean saved with the posterior is the one reported if all values are finite; with a NaN
    among them it is NaN. *)
Theorem C83_saved_mean :
  (forall l, l <> [] -> array_mean (map Fin l) = Fin (s_mean (summarize (map Fin l)))) /\ (forall l, In NaN l -> array_mean l = NaN).
Proof. exact (conj saved_mean nan_mean). Qed.
Print Assumptions C83_saved_mean.
Example C83_saved_mean_example : array_mean [Fin 3; Fin 1] = Fin ((3 + (1 + 0)) / 2) /\ s_mean (summarize [Fin 3; NaN; Fin 1]) = 2%R.
Proof. split; [reflexivity|]. destruct (summarizes_unique _ _ _ _ _ _ ex_summary) as (_ & E & _). symmetry. exact E. Qed.

(** Paths of results are understood as they were meant, and different runs have different ones. *)
Theorem C83_paths :
  forall e t n s, usable_name e -> usable_name t -> ~ occurs "/" t -> 0 <= s ->
  match_path gmm_output (joblib_path e t n s)
    = Some [("estimator_id", e); ("task_id", t); ("n_samples", show_int n); ("seed", show_int s)]%string /\
  forall e' t' n' s', usable_name e' -> usable_name t' -> ~ occurs "/" t' -> 0 <= s' ->
    joblib_path e t n s = joblib_path e' t' n' s' -> e = e' /\ t = t' /\ n = n' /\ s = s'.
Proof.
  exact (fun e t n s He Ht Hs H0 => conj
    (match_joblib e t n s (proj1 He) (proj1 (proj2 He)) (proj1 Ht) (proj1 (proj2 Ht)) Hs H0)
    (fun e' t' n' s' He' Ht' Hs' H0' => joblib_path_inj e t n s e' t' n' s' He Ht Hs H0 He' Ht' Hs' H0')).
Qed.
Print Assumptions C83_paths.
Example C83_paths_example : joblib_path "GMM" "5v1-concentric_gaussians-5" 5000 2 = "results/GMM/5v1-concentric_gaussians-5/5000-2.joblib"%string.
Proof. reflexivity. Qed.

(** Whatever jobs were run in whatever order, if the results are collected then there is one
    row for each estimator, task, number of points and seed: the truth about the task and the
    summary of the posterior which the estimator gave for the sample of that task. *)
Theorem C83_results :
  forall J (es : sdict (matrix -> matrix -> result (list fl))) (ts : sdict (task J)) ns ss h0 show parse sched w h' rows,
  gmm_config_ok show parse es ts ns ss h0 ->
  gmm_make_all es ts show parse sched [] = Ok w -> gmm_results es ts ns ss w h0 = (h', Ok rows) ->
  Forall2 (fun q row => match q with (eid, tid, n, s) =>
     exists e t xs ys, sdict_get es eid = Some e /\ sdict_get ts tid = Some t /\ sample_ok show parse t n s xs ys /\
       gmm_row_of h0 eid e t s xs ys row end)
    (combinations (map fst es) (map fst ts) ns ss) rows.
Proof. exact @gmm_rows_ok. Qed.
Print Assumptions C83_results.
Example C83_results_example : exists w h' rows,
  gmm_make_all ex_gmm ex_gmm_tasks digit3 parse3 (gmm_schedule (map fst ex_gmm) (map fst ex_gmm_tasks) [5] [0; 1; 2]) [] = Ok w /\
  gmm_results ex_gmm ex_gmm_tasks [5] [0; 1; 2] w ex_heap = (h', Ok rows) /\ length rows = 3%nat.
Proof. exact ex_gmm_run. Qed.

(** They can be collected. *)
Theorem C83_completes :
  forall J (es : sdict (matrix -> matrix -> result (list fl))) (ts : sdict (task J)) ns ss h0 show parse,
  gmm_config_ok show parse es ts ns ss h0 -> posteriors_ok show parse es ts ns ss -> tasks_described ts ->
  exists w h' rows,
    gmm_make_all es ts show parse (gmm_schedule (map fst es) (map fst ts) ns ss) [] = Ok w /\
    gmm_results es ts ns ss w h0 = (h', Ok rows).
Proof. exact @gmm_run_completes. Qed.
Print Assumptions C83_completes.
Example C83_completes_example :
  gmm_config_ok digit3 parse3 ex_gmm ex_gmm_tasks [5] [0; 1; 2] ex_heap /\
  posteriors_ok digit3 parse3 ex_gmm ex_gmm_tasks [5] [0; 1; 2] /\ tasks_described ex_gmm_tasks.
Proof. exact (conj ex_gmm_config (conj ex_posteriors_ok ex_gmm_described)). Qed.

(** The table has a row for each task, in the order in which they appear: the name, the
    mutual information, and for each run the text of its last record. *)
Theorem C83_table :
  forall two_digits names rows records table,
  map_rows read_record rows = Ok records -> create_table two_digits names rows = Ok table ->
  Forall2 (fun t row => table_row two_digits names records t row) (first_seen (map g_task records)) table.
Proof. exact table_ok. Qed.
Print Assumptions C83_table.
Example C83_table_example :
  map_rows read_record [ex_row "GMM" 1 0; ex_row "GMM" 0 1]%string = Ok [ex_record 1 0; ex_record 0 1] /\
  exists table, create_table (fun _ => "0.10"%string) [("a", "A")]%string [ex_row "GMM" 1 0; ex_row "GMM" 0 1]%string = Ok table /\
    table = [[("Task name", PStr "A"); ("True MI", PStr "0.10"); ("Run 1", PStr "0.10 (0.10–0.10)"); ("Run 2", PStr "0.10 (0.10–0.10)");
              ("Run 3", PStr "mean (qlow – qhigh)")]]%string.
Proof. split; [exact ex_records|]. eexists. split; reflexivity. Qed.

(** There is a table if and only if there are records, all of tasks with names. *)
Theorem C83_table_made :
  forall two_digits names rows records, map_rows read_record rows = Ok records ->
  (records <> [] /\ Forall (fun r => sdict_get names (g_task r) <> None) records -> exists table, create_table two_digits names rows = Ok table) /\
  (records = [] \/ ~ Forall (fun r => sdict_get names (g_task r) <> None) records -> create_table two_digits names rows = Err KeyError).
Proof. exact table_total. Qed.
Print Assumptions C83_table_made.
Example C83_table_made_example :
  create_table ex_format [] [ex_row "GMM" 1 0] = Err KeyError /\ create_table ex_format [("a", "A")]%string [] = Err KeyError.
Proof. split; reflexivity. Qed.

(** From the results of one estimator for the seeds 0, 1 and 2, as in the workflow: one row
    for each task in the order of the tasks, and in the column of each run the summary of its
    posterior. *)
Theorem C83_table_of_results :
  forall J (eid : string) (e : matrix -> matrix -> result (list fl)) (ts : sdict (task J)) n h0 show parse two_digits names sched w h' rows,
  gmm_config_ok show parse [(eid, e)] ts [n] [0; 1; 2] h0 -> NoDup (map fst ts) -> ts <> [] ->
  (forall tid t, In (tid, t) ts -> t_id t = tid /\ sdict_get names tid <> None) ->
  gmm_make_all [(eid, e)] ts show parse sched [] = Ok w -> gmm_results [(eid, e)] ts [n] [0; 1; 2] w h0 = (h', Ok rows) ->
  exists table, create_table two_digits names rows = Ok table /\
    Forall2 (fun kv row => exists name mi, sdict_get names (fst kv) = Some name /\ mutual_information (t_sampler (snd kv)) = Ok mi /\
      sdict_get row "Task name"%string = Some (PStr name) /\ sdict_get row "True MI"%string = Some (PStr (two_digits mi)) /\
      forall k, (k = 1 \/ k = 2 \/ k = 3)%Z -> exists xs ys posterior r f u,
        sample_ok show parse (snd kv) n (k - 1) xs ys /\ e xs ys = Ok posterior /\
        summarizes posterior (g_low r) (g_mean r) (g_high r) f u /\
        sdict_get row (run_column k) = Some (PStr (cell two_digits r))) ts table.
Proof. exact @whole_table. Qed.
Print Assumptions C83_table_of_results.
Example C83_table_of_results_example :
  NoDup (map fst ex_gmm_tasks) /\ ex_gmm_tasks <> [] /\
  (forall tid t, In (tid, t) ex_gmm_tasks -> t_id t = tid /\ sdict_get ex_names tid <> None) /\ run_column 2 = "Run 2"%string.
Proof.
  split; [repeat constructor; intros []|]. split; [discriminate|]. split; [|reflexivity].
  intros tid t [[= <- <-]|[]]. split; [reflexivity|discriminate].
Qed.

(** With a second estimator some results appear nowhere in the table. *)
Theorem C83_table_estimators_refuted : exists two_digits names rows table r,
  create_table two_digits names rows = Ok table /\ In r rows /\ (exists x, read_record r = Ok x /\
    forall row k, In row table -> sdict_get row k <> Some (PStr (cell two_digits x))).
Proof. exact estimators_refuted. Qed.
Print Assumptions C83_table_estimators_refuted.

(** Vocabulary of the statements about the benchmark of Bayesian mixtures and its figure. *)
From Coq Require Import String Ascii Permutation.
From Verif Require Import Base UtilsModel JaxModel SamplersModel BenchmarkModel BenchmarkSpec RulesModel RulesSpec GmmBenchModel.
Local Notation length := List.length.

(** ** Quantiles *)

(** [s] lists the values of [l] in increasing order. *)
Definition increasing (s : list R) : Prop := forall i j, (i <= j < length s)%nat -> (nth i s 0 <= nth j s 0)%R.
Definition arranged (l s : list R) : Prop := Permutation l s /\ increasing s.
(** [v] is the [q]-quantile: the value at position [q (n - 1)] of the arranged values,
    counted from zero and interpolated linearly between positions. *)
Definition is_quantile (q : R) (l : list R) (v : R) : Prop :=
  forall s, arranged l s ->
  exists (k : nat) (part : R), (0 <= part < 1)%R /\ (q * (INR (length l) - 1) = INR k + part)%R /\ (k < length l)%nat /\
    v = ((1 - part) * nth k s 0 + part * nth (Nat.min (k + 1) (length l - 1)) s 0)%R.
(** The number of values not above (not below) [v]. *)
Definition at_most (v : R) (l : list R) : nat := length (filter (fun x => if Rle_dec x v then true else false) l).
Definition at_least (v : R) (l : list R) : nat := length (filter (fun x => if Rle_dec v x then true else false) l).

(** The finite values among floats, in order. *)
Inductive finite_part : list fl -> list R -> Prop :=
| fp_nil : finite_part [] []
| fp_fin r l k : finite_part l k -> finite_part (Fin r :: l) (r :: k)
| fp_other v l k : (forall r, v <> Fin r) -> finite_part l k -> finite_part (v :: l) k.

(** [average l m]: [m] is the mean of the numbers. *)
Definition average (l : list R) (m : R) : Prop := (0 < length l)%nat /\ (m * INR (length l) = fold_right Rplus 0 l)%R.

(** What is kept of a posterior: the two quantiles and the mean of its finite values, [-1] if
    there are none, and how many were left out and used. *)
Definition summarizes (posterior : list fl) (low mean high : R) (filtered used : Z) : Prop :=
  exists finite, finite_part posterior finite /\ used = Z.of_nat (length finite) /\
    (filtered + used = Z.of_nat (length posterior))%Z /\ (0 <= filtered)%Z /\
    (finite <> [] -> is_quantile (1 / 10) finite low /\ average finite mean /\ is_quantile (9 / 10) finite high) /\
    (finite = [] -> low = (-1)%R /\ mean = (-1)%R /\ high = (-1)%R).

(** ** The run *)
Definition joblib_path (e t : string) (n s : Z) : string :=
  ("results/" ++ e ++ "/" ++ t ++ "/" ++ show_int n ++ "-" ++ show_int s ++ ".joblib")%string.
Notation posterior_estimator := (matrix -> matrix -> result (list fl)) (only parsing).

(** The row for a run: what is known about the task, and the summary of the posterior from
    the sample of that task with that seed. *)
Definition gmm_row_of {J} (h0 : dheap) (eid : string) (e : posterior_estimator) (t : task J) (s : Z) (xs ys : matrix) (row : sdict py) : Prop :=
  let entry := sdict_get row in
  (exists mi, mutual_information (t_sampler t) = Ok mi /\ entry "mi_true"%string = Some (PFloat mi)) /\
  entry "task_id"%string = Some (PStr (t_id t)) /\ entry "task_name"%string = Some (PStr (t_name t)) /\
  entry "task_params"%string = Some (PDict (content h0 (t_params t))) /\
  entry "estimator_id"%string = Some (PStr eid) /\ entry "seed"%string = Some (PInt s) /\
  exists posterior low mean high filtered used, e xs ys = Ok posterior /\ summarizes posterior low mean high filtered used /\
    entry "mi_q_low"%string = Some (PFloat (Fin low)) /\ entry "mi_mean"%string = Some (PFloat (Fin mean)) /\
    entry "mi_q_high"%string = Some (PFloat (Fin high)) /\
    entry "entries_filtered_out"%string = Some (PInt filtered) /\ entry "used_length"%string = Some (PInt used).

(** What is needed of the configuration. *)
Definition gmm_config_ok {J} (show : R -> string) (parse : string -> option R) (es : sdict posterior_estimator) (ts : sdict (task J))
    (ns ss : list Z) (h0 : dheap) : Prop :=
  Forall (fun e => usable_name (fst e)) es /\
  Forall (fun t => usable_name (fst t) /\ ~ occurs "/" (fst t) /\ valid_ref h0 (t_params (snd t))) ts /\
  Forall (Z.le 0) ss /\
  (forall tid t n s, In (tid, t) ts -> In n ns -> In s ss -> exists xs ys, sample_ok show parse t n s xs ys).
(** The estimators return. *)
Definition posteriors_ok {J} (show : R -> string) (parse : string -> option R) (es : sdict posterior_estimator) (ts : sdict (task J))
    (ns ss : list Z) : Prop :=
  forall eid e tid t n s xs ys, In (eid, e) es -> In (tid, t) ts -> In n ns -> In s ss ->
  sample_ok show parse t n s xs ys -> exists posterior, e xs ys = Ok posterior.
(** Every run after its sample. *)
Definition gmm_schedule (es ts : list string) (ns ss : list Z) : list string :=
  flat_map (fun q => match q with (eid, tid, n, s) => [sample_path tid n s; joblib_path eid tid n s] end)
    (combinations es ts ns ss).

(** ** The table *)

(** Without repetitions, in the order of first appearance. *)
Fixpoint first_seen (l : list string) : list string :=
  match l with [] => [] | x :: l => x :: filter (fun y => negb (String.eqb x y)) (first_seen l) end.
(** The last record with a property. *)
Definition last_with (P : record -> Prop) (l : list record) (r : record) : Prop :=
  exists before after, l = (before ++ r :: after)%list /\ P r /\ Forall (fun x => ~ P x) after.
(** The text of a run. *)
Definition cell (two_digits : fl -> string) (r : record) : string :=
  (two_digits (Fin (g_mean r)) ++ " (" ++ two_digits (Fin (g_low r)) ++ "–" ++ two_digits (Fin (g_high r)) ++ ")")%string.
Definition run_column (k : Z) : string := ("Run " ++ show_int k)%string.
(** The row of a task: its name, its mutual information, and for each run the last record
    of that run; without one, the words which explain the entries in the columns 1 to 3. *)
Definition table_row (two_digits : fl -> string) (names : sdict string) (records : list record) (t : string) (row : sdict py) : Prop :=
  (exists name, sdict_get names t = Some name /\ sdict_get row "Task name"%string = Some (PStr name)) /\
  (exists r, last_with (fun x => g_task x = t) records r /\ sdict_get row "True MI"%string = Some (PStr (two_digits (g_true r)))) /\
  (forall k r, last_with (fun x => g_task x = t /\ (g_seed x + 1)%Z = k) records r ->
     sdict_get row (run_column k) = Some (PStr (cell two_digits r))) /\
  (forall k, (forall r, In r records -> ~ (g_task r = t /\ (g_seed r + 1)%Z = k)) ->
     sdict_get row (run_column k) = if ((1 <=? k) && (k <=? 3))%Z then Some (PStr "mean (qlow – qhigh)") else None).

(** Concrete runs and tasks for the statements in [BenchmarkProps]. *)
From Coq Require Import String.
From Verif Require Import Base UtilsModel JaxModel SamplersModel BaseLemmas BenchmarkModel BenchmarkSpec BenchmarkProofs
  BenchmarkThms TrainingExamples.
Open Scope Z_scope.

Definition ex_parse (s : string) : option R := if String.eqb s "1" then Some 1%R else Some 0%R.
Definition ex_files (path : string) : option string :=
  if String.eqb path "a.csv" then Some (String.concat EmptyString [terminate "X0,Y0"; terminate "1,0"; terminate "0,0"])
  else None.
Lemma ex_files_read : read_sample_file ex_parse ex_files "a.csv" = Ok ([[1%R]; [0%R]], [[0%R]; [0%R]]).
Proof. reflexivity. Qed.

Definition ex_clock (n : nat) : R := INR n.
Lemma ex_clock_monotone : monotone ex_clock.
Proof. intros n m H. now apply le_INR. Qed.

Definition good_estimator : estimator :=
  {| external := false;
     estimate_with_info := fun xs _ => Returned {| er_mi := Fin (INR (List.length xs)); er_time := None;
                                                   er_info := [("k", PInt 3)]%string |};
     estimate_with_info_from_path := fun _ => Raised "internal" None |}.
Definition bad_estimator : estimator :=
  {| external := true;
     estimate_with_info := fun _ _ => Escaped OtherError;
     estimate_with_info_from_path := fun p => Raised (p ++ " failed") (Some "stack"%string) |}.

Definition ex_call (e : estimator) (info : option dref) : run_call :=
  {| rc_tick := 0; rc_estimator := e; rc_estimator_id := "est"; rc_path := "a.csv"; rc_task_id := "task";
     rc_seed := Some 1; rc_info := info |}.

Ltac ex_run :=
  unfold run_one, run_estimator, pbind, lift, pret; cbn [rc_path ex_call]; rewrite ex_files_read; cbn; reflexivity.

Lemma shared_dictionary :
  exists h h1 h2 r1 r2,
    run_one ex_parse ex_files ex_clock (ex_call good_estimator (Some 0%nat)) h = (h1, Ok r1) /\
    run_one ex_parse ex_files ex_clock (ex_call bad_estimator (Some 0%nat)) h1 = (h2, Ok r2) /\
    rr_success r1 = true /\
    sdict_get (dread h1 (rr_info r1)) "error" = None /\
    sdict_get (dread h2 (rr_info r1)) "error" = Some (PStr "a.csv failed").
Proof.
  exists [[("node", PStr "cluster")]%string].
  do 4 eexists.
  split; [ex_run|]. split; [ex_run|]. repeat split.
Qed.

Lemma stale_error :
  exists h h1 h2 r1 r2,
    run_one ex_parse ex_files ex_clock (ex_call bad_estimator (Some 0%nat)) h = (h1, Ok r1) /\
    run_one ex_parse ex_files ex_clock (ex_call good_estimator (Some 0%nat)) h1 = (h2, Ok r2) /\
    rr_success r2 = true /\
    sdict_get (dread h2 (rr_info r2)) "error" = Some (PStr "a.csv failed").
Proof.
  exists [[("node", PStr "cluster")]%string].
  do 4 eexists.
  split; [ex_run|]. split; [ex_run|]. repeat split.
Qed.

Lemma shared_dictionary_refuted :
  ~ (forall parse files c q1 q2 h h1 h2 r1 r2,
     run_one parse files c q1 h = (h1, Ok r1) -> run_one parse files c q2 h1 = (h2, Ok r2) ->
     dread h2 (rr_info r1) = dread h1 (rr_info r1)).
Proof.
  intros H. destruct shared_dictionary as (h & h1 & h2 & r1 & r2 & E1 & E2 & _ & A & B).
  rewrite (H _ _ _ _ _ _ _ _ _ _ E1 E2) in B. congruence.
Qed.

(** A task over a sampler with fixed samples. *)
Definition ex_sampler {J} (mi : fl) : sampler J :=
  {| dim_x := Ok 1; dim_y := Ok 1;
     sample := fun n rng => match rng with
       | SeedInt s => Ok (repeat [IZR s] n, repeat [0%R] n) | SeedKey _ => Err TypeError end;
     mutual_information := Ok mi |}.
Definition ex_task {J} : task J :=
  {| t_sampler := ex_sampler (Fin (1 / 2)); t_id := "demo"; t_name := "Demo"; t_params := Some 0%nat |}.
Definition ex_heap : dheap := [[("rho", PFloat (Fin (1 / 2)))]]%string.

Lemma ex_metadata {J} : exists m, metadata (@ex_task J) ex_heap = (ex_heap, Ok m) /\ md_params m = 0%nat /\
  md_mi m = Fin (1 / 2).
Proof.
  unfold metadata, pbind, lift, pret. cbn. unfold Rleb. destruct (Rle_dec 0 (1 / 2)); [|lra].
  eexists. repeat split.
Qed.

(** The dictionary in the metadata is the task's own. *)
Lemma params_not_copied {J} :
  ~ (forall (t : task J) h h' m, metadata t h = (h', Ok m) -> forall d,
     content (dwrite h' (md_params m) d) (t_params t) = content h (t_params t)).
Proof.
  intros H. destruct (@ex_metadata J) as (m & E & P & _). specialize (H _ _ _ _ E []). rewrite P in H. cbn in H.
  discriminate.
Qed.

Lemma ex_enum_path : dict_dump (PEnum (PPath "a")) = Err OtherError /\ safe_dump (plain (PEnum (PPath "a"))) = Ok (YStr "a").
Proof. split; reflexivity. Qed.

Definition ex_value : py :=
  PDict [("tuple", PTuple [PInt 1; PNpGeneric (PFloat (Fin 2))]); ("array", PNdarray (PList [PList [PInt 1]; PList [PInt 2]]));
         ("path", PPath "/tmp"); ("colour", PEnum (PTuple [PPath "red"]))]%string.
Lemma ex_value_dump : unwrapped_once ex_value = true /\ known ex_value = true /\
  dict_dump ex_value = Ok (YMap [("array", YSeq [YSeq [YInt 1]; YSeq [YInt 2]]); ("colour", YSeq [YStr "red"]);
                                 ("path", YStr "/tmp"); ("tuple", YSeq [YInt 1; YFloat (Fin 2)])]%string).
Proof. repeat split. Qed.

Lemma laps_not_additive :
  exists c : clock, monotone c /\ exists l1 l2 t,
    timer_run c [TCheckAndReset; TCheckAndReset] (timer_new c 0) = ([Some l1; Some l2], t) /\
    (l1 + l2 < tm_t0 t - c 0%nat)%R.
Proof.
  exists ex_clock. split; [apply ex_clock_monotone|]. do 3 eexists. split; [reflexivity|]. unfold ex_clock. cbn. lra.
Qed.

Lemma stale_error_exists :
  exists parse files c q1 q2 h h1 h2 r1 r2,
    run_one parse files c q1 h = (h1, Ok r1) /\ run_one parse files c q2 h1 = (h2, Ok r2) /\
    rr_success r2 = true /\ sdict_get (dread h2 (rr_info r2)) "error" = Some (PStr "a.csv failed").
Proof.
  destruct stale_error as (h & h1 & h2 & r1 & r2 & H).
  exists ex_parse, ex_files, ex_clock, (ex_call bad_estimator (Some 0%nat)), (ex_call good_estimator (Some 0%nat)).
  exists h, h1, h2, r1, r2. exact H.
Qed.

Lemma params_copied_refuted :
  ~ (forall (J : prng) (t : task J) h h' m, metadata t h = (h', Ok m) -> forall d,
     content (dwrite h' (md_params m) d) (t_params t) = content h (t_params t)).
Proof. intros H. exact (@params_not_copied TrainingExamples.demo (H _)). Qed.

Lemma enum_of_path_refuted :
  ~ (forall p, dict_dump p = safe_dump (plain p)) /\ ~ (forall p, known p = true -> exists n, dict_dump p = Ok n).
Proof.
  split; intros H; [specialize (H (PEnum (PPath "a")))|specialize (H (PEnum (PPath "a")) eq_refl) as [n H]]; discriminate.
Qed.

(** Properties of the training loops, the training log, the neural estimators and
    MINE (src/bmi/estimators/neural). *)
From Coq Require Import String Permutation Lia Lra.
From Verif Require Import Base BaseLemmas UtilsModel UtilsSpec JaxModel ObjectivesModel TrainingLogModel TrainingModel TrainingSpec
  TrainingLogProofs TrainingProofs TrainingThms MineThms TrainingExamples.
Open Scope Z_scope.
Local Notation length := List.length.

(** C18: choosing the "linear" or the "quadratic" training backend changes neither
    the result of an estimate nor the trained critic. *)
Theorem C18_backend_choice :
  forall (J : prng), prng_ok J -> forall {C G U O : Type} (gradient : (C -> fl) -> C -> G) (adam_init : R -> C -> O)
    (adam_update : R -> G -> O -> C -> U * O) (apply_updates : C -> U -> C) (np : Z -> nat -> list nat)
    (cv : C -> list R -> list R -> R) (factory : list nat -> key J -> nat -> nat -> result C) o hidden p e1 e2,
  let est := estimate_with_info J gradient adam_init adam_update apply_updates np in
  variational_init J cv factory o "quadratic" hidden p = Ok e1 ->
  variational_init J cv factory o "linear" hidden p = Ok e2 ->
  ne_params J e1 = ne_params J e2 /\
  forall x y, snd (est e1 x y) = snd (est e2 x y) /\
    ne_trained_critic J (fst (est e1 x y)) = ne_trained_critic J (fst (est e2 x y)).
Proof. exact backend_irrelevant. Qed.
Print Assumptions C18_backend_choice.

Example C18_backend_choice_example : exists e1 e2,
  variational_init demo demo_critic (fun _ _ _ _ => Ok 0) NWJ "quadratic" [16; 8]%nat (demo_params 2) = Ok e1 /\
  variational_init demo demo_critic (fun _ _ _ _ => Ok 0) NWJ "linear" [16; 8]%nat (demo_params 2) = Ok e2.
Proof.
  unfold variational_init, neural_init, neural_params_valid. cbn. rewrite (proj2 (Rltb_true 0 1)) by lra.
  eexists _, _. split; reflexivity.
Qed.

(** C25: the constructors of the three variational estimators: which arguments are
    accepted, and that every parameter, the seed included, is kept. *)
Theorem C25_constructor :
  forall (J : prng) {C : Type} (cv : C -> list R -> list R -> R)
    (factory : list nat -> key J -> nat -> nat -> result C) o backend hidden p,
  let known := backend = "quadratic"%string \/ backend = "linear"%string in
  let valid := 0 < np_batch_size p /\ 0 < np_max_n_steps p /\ (0 < np_learning_rate p)%R in
  ((exists e, variational_init J cv factory o backend hidden p = Ok e) <-> known /\ valid) /\
  (~ known -> variational_init J cv factory o backend hidden p = Err ValueError) /\
  (known -> ~ valid -> variational_init J cv factory o backend hidden p = Err ValidationError) /\
  forall e, variational_init J cv factory o backend hidden p = Ok e ->
    let q := ne_params J e in
    np_batch_size q = np_batch_size p /\ np_max_n_steps q = np_max_n_steps p /\ np_train_test_split q = np_train_test_split p /\
    np_test_every_n_steps q = np_test_every_n_steps p /\ np_learning_rate q = np_learning_rate p /\
    np_standardize q = np_standardize p /\ np_seed q = np_seed p /\
    ne_trained_critic J e = None /\ ne_factory J e = factory hidden /\ ne_formula_test J e = linear_formula cv o.
Proof. exact @variational_init_spec. Qed.
Print Assumptions C25_constructor.

Example C25_constructor_example :
  (exists e, variational_init demo demo_critic (fun _ _ _ _ => Ok 0) NWJ "linear" [16; 8]%nat (demo_params 2) = Ok e) /\
  variational_init demo demo_critic (fun _ _ _ _ => Ok 0) NWJ "cubic" [16; 8]%nat (demo_params 2) = Err ValueError /\
  variational_init demo demo_critic (fun _ _ _ _ => Ok 0) NWJ "linear" [16; 8]%nat (demo_params 0) = Err ValidationError.
Proof.
  split; [|split].
  - apply (proj1 (C25_constructor demo demo_critic (fun _ _ _ _ => Ok 0) NWJ "linear" [16; 8]%nat (demo_params 2))).
    split; [auto|]. cbn. repeat split; lia || lra.
  - apply (C25_constructor demo demo_critic (fun _ _ _ _ => Ok 0) NWJ). intros [H|H]; discriminate.
  - apply (C25_constructor demo demo_critic (fun _ _ _ _ => Ok 0) NWJ); [auto|]. cbn. lia.
Qed.

(** C20: the schedule of basic_training.  [critics] and [opts] are the states after
    each step, [values] the training values.  Steps are numbered from 1; each one
    ascends the objective on its own batch; test values are recorded exactly at the
    multiples of [every]; the loop only stops early when the test values have
    stalled, and then does so at once. *)
Theorem C20_schedule :
  forall (J : prng), prng_ok J -> forall {C G U O : Type} (gradient : (C -> fl) -> C -> G) (adam_init : R -> C -> O)
    (adam_update : R -> G -> O -> C -> U * O) (apply_updates : C -> U -> C)
    (rng : key J) (c : C) (f : C -> matrix -> matrix -> fl) (xs ys : matrix)
    (ft : option (C -> matrix -> matrix -> fl)) (xt yt : option matrix) (bs : option nat) (every : Z)
    (max_n : nat) (early : bool) (lr : R) log c',
  basic_training J gradient adam_init adam_update apply_updates rng c f xs ys ft xt yt bs every max_n early lr = Ok (log, c') ->
  let test_formula := match ft with Some g => g | None => f end in
  let x_test := match xt with Some a => a | None => xs end in
  let y_test := match yt with Some a => a | None => ys end in
  exists (critics : list C) (opts : list O) (values : list fl),
    let T := length critics in
    length opts = T /\ length values = T /\ (T <= max_n)%nat /\ (1 <= max_n -> 1 <= T)%nat /\
    c' = last critics c /\
    mi_train_history log = combine (step_numbers T) values /\
    (forall i, (i < T)%nat -> exists k bx by_ c0 o0, nth_error (split J rng max_n) i = Some k /\
       get_batch J xs ys k bs = Ok (bx, by_) /\
       nth_error (c :: critics) i = Some c0 /\ nth_error (adam_init lr c :: opts) i = Some o0 /\
       nth_error values i = Some (f c0 bx by_) /\
       (let '(u, o1) := adam_update lr (gradient (fun c => fl_opp (f c bx by_)) c0) o0 c0 in
        nth_error critics i = Some (apply_updates c0 u) /\ nth_error opts i = Some o1)) /\
    mi_test_history log = map (fun t => (t, test_formula (nth (Z.to_nat t) (c :: critics) c) x_test y_test))
                              (filter (fun t => t mod every =? 0) (step_numbers T)) /\
    (forall t, 0 <= t < Z.of_nat T -> early = true ->
       ~ stalled (map snd (filter (fun p => fst p <=? t) (mi_test_history log)))) /\
    ((T < max_n)%nat -> early = true /\ stalled (test_values log) /\ Z.of_nat T mod every = 0) /\
    log_reachable log.
Proof. intros J HJ C G U O gradient adam_init adam_update apply_updates rng c f xs ys ft xt yt bs every max_n early lr log c'.
  exact (basic_schedule J HJ gradient adam_init adam_update apply_updates rng c f xs ys ft xt yt bs every max_n early lr log c').
Qed.
Print Assumptions C20_schedule.

(** C20: it always succeeds on batches that fit, except for a zero interval. *)
Theorem C20_total :
  forall (J : prng) {C G U O : Type} (gradient : (C -> fl) -> C -> G) (adam_init : R -> C -> O)
    (adam_update : R -> G -> O -> C -> U * O) (apply_updates : C -> U -> C)
    (rng : key J) (c : C) (f : C -> matrix -> matrix -> fl) (xs ys : matrix)
    (ft : option (C -> matrix -> matrix -> fl)) (xt yt : option matrix) (bs : option nat) (every : Z)
    (max_n : nat) (early : bool) (lr : R),
  every <> 0 -> (forall b, bs = Some b -> (b <= length xs)%nat) ->
  exists log c', basic_training J gradient adam_init adam_update apply_updates rng c f xs ys ft xt yt bs every max_n early lr = Ok (log, c').
Proof. exact @basic_total. Qed.
Print Assumptions C20_total.

(** With a constant objective the loop stops after the third test evaluation. *)
Example C20_example : exists log c', demo_train (fun _ _ _ => Fin 1) 2 10 = Ok (log, c') /\
  map fst (mi_train_history log) = [1; 2; 3; 4; 5; 6] /\ map fst (mi_test_history log) = [2; 4; 6].
Proof.
  destruct (C20_total demo demo_grad demo_adam_init demo_adam_update Z.add 7 0 (fun _ _ _ => Fin 1) demo_x demo_y None None None
    (Some 2%nat) 2 10 true 1%R) as (log & c' & E); [discriminate|intros b [= <-]; cbn; lia|].
  exists log, c'. split; [exact E|].
  pose proof (C20_schedule demo demo_ok _ _ _ _ _ _ _ _ _ _ _ _ _ _ _ _ _ _ _ E) as (cs & os & vs & Ho & Hv & Hm & _ & _ & Htr & _ & Hte & Hst & Hearly & _).
  cbv zeta in *. set (T := length cs) in *.
  assert (Hfirst : map fst (mi_train_history log) = step_numbers T).
  { rewrite Htr. apply KsgThms.combine_fst. unfold step_numbers. now rewrite map_length, seq_length. }
  assert (HT : T = 6%nat); [|rewrite Hfirst, Hte, map_map, HT; split; reflexivity].
  assert (S1 : stalled [Fin 1; Fin 1; Fin 1]).
  { apply (stalled_finite [1; 1; 1]%R). exists [1%R], 1%R, 1%R, 1%R. repeat split; auto using Rle_refl. now left. }
  destruct (Nat.lt_trichotomy T 6) as [H|[H|H]]; [|exact H|].
  - exfalso. destruct Hearly as (_ & Hs & _); [lia|]. unfold test_values in Hs. rewrite Hte, map_map in Hs.
    destruct Hs as (pre & a & b & Eq & Na & Nb). apply (f_equal (@List.length _)) in Eq as El. rewrite app_length, map_length in El.
    assert (length pre <> 0%nat). { intros Hp. destruct pre; [|discriminate]. apply Na. exact I. }
    do 6 (destruct T as [|T]; [cbn in El; lia|]). lia.
  - exfalso. apply (Hst 6); [lia|reflexivity|]. rewrite Hte.
    do 7 (destruct T as [|T]; [lia|]).
    assert (T <= 3)%nat by lia. do 4 (destruct T as [|T]; [cbn; exact S1|]). lia.
Qed.

(** C20: NeuralEstimatorParams accepts test_every_n_steps = 0, but every estimate
    which reaches training then raises ZeroDivisionError. *)
Theorem C20_zero_interval :
  forall (J : prng) {C G U O : Type} (gradient : (C -> fl) -> C -> G) (adam_init : R -> C -> O)
    (adam_update : R -> G -> O -> C -> U * O) (apply_updates : C -> U -> C) (np : Z -> nat -> list nat)
    (e : neural J) x y k1 k2 k3 xs ys xtr xte ytr yte c0, prng_ok J ->
  neural_params_valid (ne_params J e) = true ->
  split J (prng_key J (np_seed (ne_params J e))) 3 = [k1; k2; k3] ->
  product_space_values (np_standardize (ne_params J e)) x y = Ok (xs, ys) ->
  train_test_split J np xs ys (np_train_test_split (ne_params J e)) k2 = Ok (xtr, xte, ytr, yte) ->
  np_batch_size (ne_params J e) <= zlen xtr ->
  ne_factory J e k1 (ncols xtr) (ncols ytr) = Ok c0 ->
  np_test_every_n_steps (ne_params J e) = 0 ->
  estimate_with_info J gradient adam_init adam_update apply_updates np e x y = (e, Err ZeroDivisionError).
Proof. exact @neural_zero_interval. Qed.
Print Assumptions C20_zero_interval.

Example C20_zero_interval_example :
  exists p, neural_params_valid p = true /\ np_test_every_n_steps p = 0 /\ np_batch_size p = 2.
Proof.
  exists {| np_formula_name := "demo"; np_batch_size := 2; np_max_n_steps := 10; np_train_test_split := None;
            np_test_every_n_steps := 0; np_learning_rate := 1; np_standardize := false; np_seed := 42 |}.
  unfold neural_params_valid. cbn. now rewrite (proj2 (Rltb_true 0 1)) by lra.
Qed.

(** C20, C27: the schedule of mine_training; every step follows [mine_step_spec]. *)
Theorem C20_mine_schedule :
  forall (J : prng) {C U O : Type} (cv : C -> list R -> list R -> R) (gradient : (C -> fl) -> C -> list fl) (adam_init : R -> C -> O)
    (adam_update : R -> list fl -> O -> C -> U * O) (apply_updates : C -> U -> C), prng_ok J ->
  forall rng c xs ys xt yt alpha bs every max_n early lr log c',
  mine_training J cv gradient adam_init adam_update apply_updates rng c xs ys xt yt alpha bs every max_n early lr = Ok (log, c') ->
  (0 < alpha < 1)%R -> length xs = length ys -> xs <> [] -> bs <> Some 0%nat ->
  let x_test := match xt with Some a => a | None => xs end in
  let y_test := match yt with Some a => a | None => ys end in
  exists (critics : list C) (opts : list O) (values : list fl) (denoms : list R),
    let T := length critics in
    length opts = T /\ length values = T /\ length denoms = T /\ (T <= max_n)%nat /\ (1 <= max_n -> 1 <= T)%nat /\
    c' = last critics c /\
    mi_train_history log = combine (step_numbers T) values /\
    (forall i, (i < T)%nat -> exists k D c0 o0 c1 o1 v,
       nth_error (split J rng max_n) i = Some k /\ nth_error denoms i = Some D /\ (0 < D)%R /\
       nth_error (c :: critics) i = Some c0 /\ nth_error (adam_init lr c :: opts) i = Some o0 /\
       nth_error critics i = Some c1 /\ nth_error opts i = Some o1 /\ nth_error values i = Some v /\
       mine_step_spec cv gradient adam_update apply_updates alpha lr xs ys bs k c0 o0 (firstn i denoms) c1 o1 v D) /\
    map fst (mi_test_history log) = filter (fun t => t mod every =? 0) (step_numbers T) /\
    (forall t v, In (t, v) (mi_test_history log) -> exists perm, Permutation perm (seq 0 (length y_test)) /\
       v = mine_value cv (nth (Z.to_nat t) (c :: critics) c) x_test y_test (take y_test perm)) /\
    (forall t, 0 <= t < Z.of_nat T -> early = true ->
       ~ stalled (map snd (filter (fun p => fst p <=? t) (mi_test_history log)))) /\
    ((T < max_n)%nat -> early = true /\ stalled (test_values log) /\ Z.of_nat T mod every = 0) /\
    log_reachable log.
Proof. exact @mine_schedule. Qed.
Print Assumptions C20_mine_schedule.

Theorem C20_mine_total :
  forall (J : prng) {C U O : Type} (cv : C -> list R -> list R -> R) (gradient : (C -> fl) -> C -> list fl) (adam_init : R -> C -> O)
    (adam_update : R -> list fl -> O -> C -> U * O) (apply_updates : C -> U -> C), prng_ok J ->
  forall rng c xs ys xt yt alpha bs every max_n early lr,
  every <> 0 -> length xs = length ys -> (forall b, bs = Some b -> (b <= length xs)%nat) ->
  exists log c', mine_training J cv gradient adam_init adam_update apply_updates rng c xs ys xt yt alpha bs every max_n early lr = Ok (log, c').
Proof. exact @mine_total. Qed.
Print Assumptions C20_mine_total.

Example C20_mine_example : exists log c',
  mine_training demo demo_critic demo_mine_grad demo_adam_init demo_mine_update Z.add 7 0 demo_x demo_y None None (9 / 10)
    (Some 2%nat) 1 5 true 1 = Ok (log, c') /\ (1 <= length (mi_test_history log))%nat.
Proof.
  destruct (C20_mine_total demo demo_critic demo_mine_grad demo_adam_init demo_mine_update Z.add demo_ok 7 0 demo_x demo_y None None
    (9 / 10) (Some 2%nat) 1 5 true 1%R) as (log & c' & E); [discriminate|reflexivity|intros b [= <-]; cbn; lia|].
  exists log, c'. split; [exact E|].
  destruct (C20_mine_schedule demo _ _ _ _ _ demo_ok _ _ _ _ _ _ _ _ _ _ _ _ _ _ E) as (cs & os & vs & ds & _ & _ & _ & _ & H1 & _ & _ & _ & H & _);
    [lra|reflexivity|discriminate|discriminate|].
  cbv zeta in *. rewrite <- (map_length fst), H. destruct (length cs); [lia|]. cbn. lia.
Qed.

(** C21: the reported value is the largest recorded test value. *)
Theorem C21_best_test_value :
  forall l vals, log_reachable l -> test_values l = map Fin vals -> vals <> [] ->
  exists m, final_mi l = Fin m /\ is_max m vals.
Proof. exact final_mi_max. Qed.
Print Assumptions C21_best_test_value.

Example C21_example : final_mi (demo_log (map Fin [1; 3; 2]%R)) = Fin 3.
Proof.
  destruct (demo_log_reachable (map Fin [1; 3; 2]%R)) as [A B].
  destruct (C21_best_test_value _ _ A B ltac:(discriminate)) as (m & -> & Hin & Hmax). f_equal.
  inversion_clear Hmax as [|? ? H1 Hm]. inversion_clear Hm as [|? ? H2 Hm']. inversion_clear Hm' as [|? ? H3 _].
  cbn in Hin. destruct Hin as [<-|[<-|[<-|[]]]]; lra.
Qed.

(** C22: early stopping. *)
Theorem C22_early_stop :
  forall l, log_reachable l -> early_stop l = true <-> early_stopping l = true /\ stalled (test_values l).
Proof. exact early_stop_iff. Qed.
Print Assumptions C22_early_stop.

(** C22: for finite values, "stalled" says that the last two are at most an earlier one. *)
Theorem C22_stalled_finite :
  forall vals, stalled (map Fin vals) <->
  exists pre a b m, vals = (pre ++ [a; b])%list /\ In m pre /\ (a <= m)%R /\ (b <= m)%R.
Proof. exact stalled_finite. Qed.
Print Assumptions C22_stalled_finite.

Example C22_example : early_stop (demo_log (map Fin [3; 1; 2]%R)) = true /\ early_stop (demo_log (map Fin [1; 3; 2]%R)) = false.
Proof.
  split.
  - destruct (demo_log_reachable (map Fin [3; 1; 2]%R)) as [A B]. apply (C22_early_stop _ A). split; [reflexivity|].
    rewrite B. apply C22_stalled_finite. exists [3%R], 1%R, 2%R, 3%R. repeat split; [now left|lra|lra].
  - destruct (demo_log_reachable (map Fin [1; 3; 2]%R)) as [A B]. apply not_true_is_false. intros H. apply (C22_early_stop _ A) in H as [_ H].
    rewrite B in H. apply C22_stalled_finite in H as (pre & a & b & m & E & Hm & Ha & Hb).
    destruct pre as [|p [|q r]]; [discriminate| |destruct r as [|? [|]]; discriminate]. injection E as <- <- <-.
    destruct Hm as [<-|[]]. lra.
Qed.

(** C23: NaN first, or no test: NaN. *)
Theorem C23_nan_first :
  forall l rest, log_reachable l -> test_values l = NaN :: rest -> final_mi l = NaN.
Proof. exact final_mi_nan_first. Qed.
Print Assumptions C23_nan_first.

Theorem C23_no_test :
  forall l, log_reachable l -> test_values l = [] -> final_mi l = NaN.
Proof. exact final_mi_no_test. Qed.
Print Assumptions C23_no_test.

(** C23: a number recorded first is never replaced by NaN. *)
Theorem C23_number_first :
  forall l v rest, log_reachable l -> test_values l = v :: rest -> v <> NaN ->
  final_mi l <> NaN /\ In (final_mi l) (v :: rest) /\ forall w, In w (v :: rest) -> w <> NaN -> fl_ltb (final_mi l) w = false.
Proof. exact final_mi_not_nan. Qed.
Print Assumptions C23_number_first.

Example C23_example : final_mi (demo_log [NaN; Fin 5; Fin 6]) = NaN /\ final_mi (demo_log []) = NaN /\
  final_mi (demo_log [Fin 5; NaN]) = Fin 5.
Proof.
  split; [|split].
  - destruct (demo_log_reachable [NaN; Fin 5; Fin 6]) as [A B]. exact (C23_nan_first _ _ A B).
  - destruct (demo_log_reachable []) as [A B]. exact (C23_no_test _ A B).
  - destruct (demo_log_reachable [Fin 5; NaN]) as [A B]. destruct (C23_number_first _ _ _ A B ltac:(discriminate)) as (N & [H|[H|[]]] & _); congruence.
Qed.

(** C24: the split is a partition of the paired rows, of the documented sizes. *)
Theorem C24_partition :
  forall {A B} J np (xs : list A) (ys : list B) t k,
  (forall s n, Permutation (np s n) (seq 0 n)) -> length xs = length ys ->
  (0 < t < 1)%R -> (1 <= t * INR (length xs))%R ->
  exists xtr xte ytr yte, train_test_split J np xs ys (Some t) k = Ok (xtr, xte, ytr, yte) /\
    Permutation (combine xtr ytr ++ combine xte yte) (combine xs ys) /\
    length xtr = length ytr /\ length xte = length yte /\
    (length xtr + length xte)%nat = length xs /\
    (INR (length xtr) <= t * INR (length xs) < INR (length xtr) + 1)%R /\ (1 <= length xte)%nat.
Proof. exact @split_is_partition. Qed.
Print Assumptions C24_partition.

Theorem C24_rejects :
  forall {A B} J np (xs : list A) (ys : list B) t k,
  length xs = length ys -> (t <= 0 \/ 1 <= t \/ t * INR (length xs) < 1)%R ->
  train_test_split J np xs ys (Some t) k = Err ValueError.
Proof. exact @split_rejects. Qed.
Print Assumptions C24_rejects.

(** C24: without a split both parts are the whole sample. *)
Theorem C24_none :
  forall {A B} J np (xs : list A) (ys : list B) k, train_test_split J np xs ys None k = Ok (xs, xs, ys, ys).
Proof. exact (fun A B J np xs ys k => eq_refl). Qed.
Print Assumptions C24_none.

Example C24_example : exists xtr xte ytr yte,
  train_test_split demo demo_np demo_x demo_y (Some (1 / 2)%R) 4201 = Ok (xtr, xte, ytr, yte) /\ length xtr = 2%nat /\ length ytr = 2%nat.
Proof. exact demo_split. Qed.

(** C25: the stored critic after any series of calls is the one of the last call
    which trained one; earlier calls do not influence the result of a later one. *)
Theorem C25_history :
  forall (J : prng) {C G U O : Type} (gradient : (C -> fl) -> C -> G) (adam_init : R -> C -> O)
    (adam_update : R -> G -> O -> C -> U * O) (apply_updates : C -> U -> C) (np : Z -> nat -> list nat)
    (e : neural J) calls x y,
  let est := estimate_with_info J gradient adam_init adam_update apply_updates np in
  let after := after_calls (fun e x y => fst (est e x y)) e calls in
  ne_trained_critic J e = None ->
  ne_trained_critic J after = last_some (map (fun p => ne_trained_critic J (fst (est e (fst p) (snd p)))) calls) /\
  snd (est after x y) = snd (est e x y).
Proof. exact @neural_history. Qed.
Print Assumptions C25_history.

Theorem C25_batch_too_large :
  forall (J : prng) {C G U O : Type} (gradient : (C -> fl) -> C -> G) (adam_init : R -> C -> O)
    (adam_update : R -> G -> O -> C -> U * O) (apply_updates : C -> U -> C) (np : Z -> nat -> list nat)
    (e : neural J) x y k1 k2 k3 xs ys xtr xte ytr yte,
  split J (prng_key J (np_seed (ne_params J e))) 3 = [k1; k2; k3] ->
  product_space_values (np_standardize (ne_params J e)) x y = Ok (xs, ys) ->
  train_test_split J np xs ys (np_train_test_split (ne_params J e)) k2 = Ok (xtr, xte, ytr, yte) ->
  zlen xtr < np_batch_size (ne_params J e) ->
  estimate_with_info J gradient adam_init adam_update apply_updates np e x y
    = (e, Ok {| mi_estimate := NaN; result_info := [("batch_size_larger_than_train"%string, InfoBool true)] |}).
Proof. exact @neural_batch_too_large. Qed.
Print Assumptions C25_batch_too_large.

Example C25_batch_example :
  estimate_with_info demo demo_grad demo_adam_init demo_adam_update Z.add demo_np (demo_estimator 3) demo_x demo_y
    = (demo_estimator 3, Ok {| mi_estimate := NaN; result_info := [("batch_size_larger_than_train"%string, InfoBool true)] |}).
Proof.
  destruct demo_split as (xtr & xte & ytr & yte & E & L1 & L2).
  apply (C25_batch_too_large demo _ _ _ _ _ (demo_estimator 3) demo_x demo_y 4200 4201 4202 demo_x demo_y xtr xte ytr yte);
    [reflexivity|reflexivity|exact E|unfold zlen; rewrite L1; reflexivity].
Qed.

(** C21, C25: an estimate which reaches training reports the log of the training on
    the train part, tested on the test part. *)
Theorem C25_trained :
  forall (J : prng) {C G U O : Type} (gradient : (C -> fl) -> C -> G) (adam_init : R -> C -> O)
    (adam_update : R -> G -> O -> C -> U * O) (apply_updates : C -> U -> C) (np : Z -> nat -> list nat)
    (e : neural J) x y k1 k2 k3 xs ys xtr xte ytr yte c0, prng_ok J ->
  neural_params_valid (ne_params J e) = true ->
  split J (prng_key J (np_seed (ne_params J e))) 3 = [k1; k2; k3] ->
  product_space_values (np_standardize (ne_params J e)) x y = Ok (xs, ys) ->
  train_test_split J np xs ys (np_train_test_split (ne_params J e)) k2 = Ok (xtr, xte, ytr, yte) ->
  np_batch_size (ne_params J e) <= zlen xtr ->
  ne_factory J e k1 (ncols xtr) (ncols ytr) = Ok c0 ->
  np_test_every_n_steps (ne_params J e) <> 0 ->
  exists log c,
    basic_training J gradient adam_init adam_update apply_updates k3 c0 (ne_formula J e) xtr ytr
      (Some (ne_formula_test J e)) (Some xte) (Some yte) (Some (Z.to_nat (np_batch_size (ne_params J e))))
      (np_test_every_n_steps (ne_params J e)) (Z.to_nat (np_max_n_steps (ne_params J e))) true
      (np_learning_rate (ne_params J e)) = Ok (log, c) /\
    estimate_with_info J gradient adam_init adam_update apply_updates np e x y
      = (with_critic e (Some c), Ok {| mi_estimate := final_mi log; result_info := additional_information log |}) /\
    sdict_get (additional_information log) "n_training_steps" = Some (InfoInt (zlen (mi_train_history log))) /\
    sdict_get (additional_information log) "test_history" = Some (InfoHistory (mi_test_history log)).
Proof. exact @neural_trained. Qed.
Print Assumptions C25_trained.

(** With the counting critic each step improves by one: all ten steps are run, the
    stored critic and the reported value are ten. *)
Example C25_trained_example : exists r,
  estimate_with_info demo demo_grad demo_adam_init demo_adam_update Z.add demo_np (demo_estimator 2) demo_x demo_y
    = (with_critic (demo_estimator 2) (Some 10), Ok r) /\ mi_estimate r = Fin 10 /\
  sdict_get (result_info r) "n_training_steps" = Some (InfoInt 10).
Proof.
  destruct demo_split as (xtr & xte & ytr & yte & E & L1 & L2).
  destruct (C25_trained demo demo_grad demo_adam_init demo_adam_update Z.add demo_np (demo_estimator 2) demo_x demo_y 4200 4201 4202
    demo_x demo_y xtr xte ytr yte 0 demo_ok (demo_params_ok 2 eq_refl)) as (log & c & Et & Ee & Hn & _);
    [reflexivity|reflexivity|exact E|unfold zlen; rewrite L1; cbn; lia|reflexivity|discriminate|].
  exists {| mi_estimate := final_mi log; result_info := additional_information log |}. rewrite Ee. cbn [mi_estimate result_info].
  destruct (C20_schedule demo demo_ok _ _ _ _ _ _ _ _ _ _ _ _ _ _ _ _ _ _ _ Et) as (cs & os & vs & Ho & Hv & Hm & _ & Hc & Htr & Hstep & Hte & Hst & Hearly & Hr).
  cbv zeta in *. set (T := length cs) in *.
  change (Z.to_nat (np_max_n_steps (ne_params demo (demo_estimator 2)))) with 10%nat in *.
  change (np_test_every_n_steps (ne_params demo (demo_estimator 2))) with 1 in *.
  assert (Hcs : forall i, (i <= T)%nat -> nth_error (0 :: cs) i = Some (Z.of_nat i)).
  { induction i as [|i IH]; intros Hi; [reflexivity|]. destruct (Hstep i ltac:(lia)) as (k & bx & by_ & ci & oi & _ & _ & Eci & _ & _ & Eu & _).
    rewrite IH in Eci by lia. injection Eci as <-. cbn [nth_error]. rewrite Eu. f_equal. lia. }
  assert (Hnth : forall i, (i <= T)%nat -> nth i (0 :: cs) 0 = Z.of_nat i) by (intros i Hi; apply nth_error_nth, Hcs, Hi).
  assert (Htests : test_values log = map Fin (map INR (seq 1 T))).
  { unfold test_values. rewrite Hte, map_map. cbn [snd]. unfold step_numbers.
    assert (Hfil : filter (fun t => t mod 1 =? 0) (map Z.of_nat (seq 1 T)) = map Z.of_nat (seq 1 T)).
    { clear. generalize (seq 1 T) as l. induction l as [|a l IH]; [reflexivity|]. cbn [map filter]. rewrite Z.mod_1_r. cbn. now rewrite IH. }
    rewrite Hfil, !map_map. apply map_ext_in. intros t Ht. rewrite in_seq in Ht. cbn [ne_formula_test demo_estimator].
    rewrite Nat2Z.id, Hnth by lia. now rewrite INR_IZR_INZ. }
  assert (HT : T = 10%nat).
  { destruct (Nat.eq_dec T 10); [assumption|]. exfalso. destruct Hearly as (_ & Hs & _); [lia|]. rewrite Htests in Hs.
    apply C22_stalled_finite in Hs as (pre & a & b & m & Eq & Hm' & Ha & Hb).
    assert (T <= 9)%nat by lia. clearbody T. clear - Eq Hm' Ha Hb H.
    assert (Hs : (length pre + 2)%nat = T) by (apply (f_equal (@List.length R)) in Eq; rewrite app_length, !map_length, seq_length in Eq; cbn in Eq; lia).
    assert (E1 : pre = map INR (seq 1 (length pre))).
    { rewrite <- Hs, seq_app, map_app in Eq. apply (f_equal (firstn (length pre))) in Eq.
      rewrite !firstn_app, map_length, seq_length, Nat.sub_diag in Eq. cbn [firstn] in Eq. rewrite !app_nil_r in Eq.
      rewrite firstn_all in Eq. rewrite firstn_all2 in Eq; [congruence|rewrite map_length, seq_length; lia]. }
    rewrite <- Hs, seq_app, map_app in Eq. rewrite <- E1 in Eq. apply app_inv_head in Eq. cbn [map seq] in Eq. injection Eq as Ea Eb.
    rewrite E1 in Hm'. apply in_map_iff in Hm' as (j & <- & Hj). rewrite in_seq in Hj. rewrite <- Ea in Ha.
    apply (INR_le (1 + length pre)) in Ha. lia. }
  assert (Hc10 : c = 10).
  { rewrite Hc. assert (Hl : nth_error (0 :: cs) 10 = Some 10) by (rewrite Hcs by lia; reflexivity).
    subst T. clear - Hl HT. do 11 (destruct cs as [|? cs]; cbn in *; try discriminate). congruence. }
  split; [now rewrite Hc10|]. split.
  - destruct (C21_best_test_value log _ Hr Htests) as (m & -> & Hin & Hmax); [rewrite HT; discriminate|]. f_equal.
    rewrite HT in Hin, Hmax. rewrite Forall_forall in Hmax. assert (H10 : (INR 10 <= m)%R) by (apply Hmax, in_map; rewrite in_seq; lia).
    apply in_map_iff in Hin as (j & <- & Hj). rewrite in_seq in Hj. apply INR_le in H10. replace j with 10%nat by lia. cbn. lra.
  - rewrite Hn, Htr. unfold zlen. rewrite combine_length. unfold step_numbers. rewrite map_length, seq_length, Hv, HT. reflexivity.
Qed.

(** C25: the same for MINE. *)
Theorem C25_mine_history :
  forall (J : prng) {C U O : Type} (cv : C -> list R -> list R -> R) (gradient : (C -> fl) -> C -> list fl) (adam_init : R -> C -> O)
    (adam_update : R -> list fl -> O -> C -> U * O) (apply_updates : C -> U -> C) (np : Z -> nat -> list nat)
    (e : mine J) calls x y,
  let est := mine_estimate_with_info J cv gradient adam_init adam_update apply_updates np in
  let after := after_calls (fun e x y => fst (est e x y)) e calls in
  mine_trained_critic J e = None ->
  mine_trained_critic J after = last_some (map (fun p => mine_trained_critic J (fst (est e (fst p) (snd p)))) calls) /\
  snd (est after x y) = snd (est e x y).
Proof. exact @mine_history. Qed.
Print Assumptions C25_mine_history.

Theorem C25_mine_batch_too_large :
  forall (J : prng) {C U O : Type} (cv : C -> list R -> list R -> R) (gradient : (C -> fl) -> C -> list fl) (adam_init : R -> C -> O)
    (adam_update : R -> list fl -> O -> C -> U * O) (apply_updates : C -> U -> C) (np : Z -> nat -> list nat)
    (e : mine J) x y k1 k2 k3 xs ys xtr xte ytr yte,
  split J (prng_key J (mp_seed (mine_ps J e))) 3 = [k1; k2; k3] ->
  product_space_values (mp_standardize (mine_ps J e)) x y = Ok (xs, ys) ->
  train_test_split J np xs ys (mp_train_test_split (mine_ps J e)) k2 = Ok (xtr, xte, ytr, yte) ->
  zlen xtr < mp_batch_size (mine_ps J e) ->
  mine_estimate_with_info J cv gradient adam_init adam_update apply_updates np e x y
    = (e, Ok {| mi_estimate := NaN; result_info := [("batch_size_larger_than_train"%string, InfoBool true)] |}).
Proof. exact @mine_batch_too_large. Qed.
Print Assumptions C25_mine_batch_too_large.

Theorem C25_mine_trained :
  forall (J : prng) {C U O : Type} (cv : C -> list R -> list R -> R) (gradient : (C -> fl) -> C -> list fl) (adam_init : R -> C -> O)
    (adam_update : R -> list fl -> O -> C -> U * O) (apply_updates : C -> U -> C) (np : Z -> nat -> list nat)
    (e : mine J) x y k1 k2 k3 xs ys xtr xte ytr yte c0, prng_ok J ->
  mine_params_valid (mine_ps J e) = true ->
  split J (prng_key J (mp_seed (mine_ps J e))) 3 = [k1; k2; k3] ->
  product_space_values (mp_standardize (mine_ps J e)) x y = Ok (xs, ys) ->
  train_test_split J np xs ys (mp_train_test_split (mine_ps J e)) k2 = Ok (xtr, xte, ytr, yte) ->
  length xtr = length ytr ->
  mp_batch_size (mine_ps J e) <= zlen xtr ->
  mine_create J e k1 (ncols xs) (ncols ys) = Ok c0 ->
  exists log c,
    mine_training J cv gradient adam_init adam_update apply_updates k3 c0 xtr ytr (Some xte) (Some yte)
      (mp_smoothing_alpha (mine_ps J e)) (Some (Z.to_nat (mp_batch_size (mine_ps J e)))) (mp_test_every_n_steps (mine_ps J e))
      (Z.to_nat (mp_max_n_steps (mine_ps J e))) true (mp_learning_rate (mine_ps J e)) = Ok (log, c) /\
    mine_estimate_with_info J cv gradient adam_init adam_update apply_updates np e x y
      = ({| mine_ps := mine_ps J e; mine_create := mine_create J e; mine_trained_critic := Some c |},
         Ok {| mi_estimate := final_mi log; result_info := additional_information log |}) /\
    sdict_get (additional_information log) "n_training_steps" = Some (InfoInt (zlen (mi_train_history log))) /\
    sdict_get (additional_information log) "test_history" = Some (InfoHistory (mi_test_history log)).
Proof. exact @mine_trained. Qed.
Print Assumptions C25_mine_trained.

Example C25_mine_example : exists c r,
  mine_estimate_with_info demo demo_critic demo_mine_grad demo_adam_init demo_mine_update Z.add demo_np (demo_mine 2) demo_x demo_y
    = ({| mine_ps := mine_ps demo (demo_mine 2); mine_create := mine_create demo (demo_mine 2); mine_trained_critic := Some c |}, Ok r).
Proof.
  destruct demo_split as (xtr & xte & ytr & yte & E & L1 & L2).
  destruct (C25_mine_trained demo demo_critic demo_mine_grad demo_adam_init demo_mine_update Z.add demo_np (demo_mine 2) demo_x demo_y 4200 4201 4202
    demo_x demo_y xtr xte ytr yte 0 demo_ok (demo_mine_ok 2 eq_refl)) as (log & c & _ & Ee & _);
    [reflexivity|reflexivity|exact E|congruence|unfold zlen; rewrite L1; cbn; lia|reflexivity|].
  exists c. eexists. exact Ee.
Qed.

(** C26: batches consist of pairs of the data set, at distinct positions. *)
Theorem C26_batches :
  forall {A B} J (xs : list A) (ys : list B) k b, prng_ok J -> length xs = length ys -> (b <= length xs)%nat ->
  exists bx by_, get_batch J xs ys k (Some b) = Ok (bx, by_) /\ length bx = b /\ length by_ = b /\
    sub_batch (combine bx by_) (combine xs ys).
Proof. exact @get_batch_spec. Qed.
Print Assumptions C26_batches.

Theorem C26_too_large :
  forall {A B} J (xs : list A) (ys : list B) k b, (length xs < b)%nat -> get_batch J xs ys k (Some b) = Err ValueError.
Proof. exact @get_batch_too_large. Qed.
Print Assumptions C26_too_large.

Theorem C26_none :
  forall {A B} J (xs : list A) (ys : list B) k, get_batch J xs ys k None = Ok (xs, ys).
Proof. exact (fun A B J xs ys k => eq_refl). Qed.
Print Assumptions C26_none.

Example C26_example : get_batch demo demo_x demo_y 5 (Some 2%nat) = Ok ([[3]; [2]], [[13]; [12]])%R.
Proof. reflexivity. Qed.

(** C27: one evaluation of MINE with earlier (smoothed) denominator [W]: the new
    denominator is the weighted mean, the gradient is that of the smoothed loss. *)
Theorem C27_one_batch :
  forall {C : Type} (cv : C -> list R -> list R -> R) (gradient : (C -> fl) -> C -> list fl) c xs yp yu W alpha,
  (0 < alpha < 1)%R -> (0 <= W)%R -> combine xs yu <> [] ->
  let D := mean_exp (vmap2 cv c xs yu) in
  exists grad,
    mine_value_neg_grad_log_denom cv gradient c xs yp yu (fl_log W) alpha =
      (fl_sub (T_mean cv c xs yp) (Fin (ln D)), grad, Fin (ln (alpha * W + (1 - alpha) * D))) /\
    (0 < alpha * W + (1 - alpha) * D)%R /\
    forall gp gu, gradient (fun c => T_mean cv c xs yp) c = map Fin gp -> gradient (fun c => T_lme cv c xs yu) c = map Fin gu ->
      grad = map (fun p => Fin (D / (alpha * W + (1 - alpha) * D) * snd p - fst p)) (combine gp gu).
Proof. exact @mine_one_batch. Qed.
Print Assumptions C27_one_batch.

(** C27: the weights: alpha is the weight of the past, the new batch has weight
    1 - alpha, and after n batches the weights add up to 1 - alpha^n only, so that the
    correction factor of the first step is 1 / (1 - alpha) (ten by default), contrary to
    the comment in mine_training (206-207). *)
Theorem C27_weights :
  forall alpha ds d n, weighted alpha (ds ++ [d]) = (alpha * weighted alpha ds + (1 - alpha) * d)%R /\
    weighted alpha (repeat 1%R n) = (1 - alpha ^ n)%R.
Proof. exact (fun alpha ds d n => conj (weighted_snoc alpha ds d) (weighted_total alpha n)). Qed.
Print Assumptions C27_weights.

Theorem C27_first_step :
  forall alpha D, (0 < alpha < 1)%R -> (0 < D)%R -> (D / weighted alpha ([] ++ [D]) = 1 / (1 - alpha))%R.
Proof. exact first_step_correction. Qed.
Print Assumptions C27_first_step.

Example C27_example : (2 / weighted (9 / 10) ([] ++ [2]) = 10)%R.
Proof. rewrite C27_first_step by lra. lra. Qed.

(** C28: paired and unpaired batches. *)
Theorem C28_batches :
  forall (J : prng), prng_ok J -> forall k (xs ys : matrix) b, length xs = length ys -> (b <= length xs)%nat ->
  exists bx bp bu, sample_paired_unpaired J k xs ys (Some b) = Ok (bx, bp, bu) /\
    length bx = b /\ length bp = b /\ length bu = b /\
    sub_batch (combine bx bp) (combine xs ys) /\ sub_batch bu ys.
Proof. exact sample_spec. Qed.
Print Assumptions C28_batches.

Theorem C28_whole_sample :
  forall (J : prng), prng_ok J -> forall k (xs ys : matrix), length xs = length ys ->
  exists bu, sample_paired_unpaired J k xs ys None = Ok (xs, ys, bu) /\ Permutation bu ys.
Proof. exact sample_all_spec. Qed.
Print Assumptions C28_whole_sample.

(** The paired batch is a function of the first subkey only, the unpaired batch of the
    second one only: they are drawn independently. *)
Theorem C28_independent_keys :
  forall (J : prng) k k' a b a' b' (xs ys : matrix) bs bx bp bu bx' bp' bu',
  split J k 2 = [a; b] -> split J k' 2 = [a'; b'] ->
  sample_paired_unpaired J k xs ys bs = Ok (bx, bp, bu) -> sample_paired_unpaired J k' xs ys bs = Ok (bx', bp', bu') ->
  (a = a' -> bx = bx' /\ bp = bp') /\ (b = b' -> bu = bu').
Proof. exact sample_keys. Qed.
Print Assumptions C28_independent_keys.

Example C28_example : sample_paired_unpaired demo 3 demo_x demo_y None = Ok (demo_x, demo_y, [[13]; [12]; [11]; [10]])%R.
Proof. reflexivity. Qed.

(** C29: when the warnings are raised.  [w] is the smoothing window, [window_mean w vals i]
    the mean of the [w] values up to the i-th. *)
Theorem C29_warnings :
  forall l (vals : list R),
  map snd (mi_train_history l) = map Fin vals -> log_info l = [] -> (train_smooth_factor l <= 1 / 2)%R ->
  let w := Z.to_nat (py_int (train_smooth_factor l * IZR (zlen vals))) in
  let n := length vals in
  exists l', finish l = Ok l' /\
    mi_train_history l' = mi_train_history l /\ mi_test_history l' = mi_test_history l /\ mi_test_best l' = mi_test_best l /\
    train_history_in_info l' = train_history_in_info l /\ test_history_in_info l' = test_history_in_info l /\
    (has_flag "early_stopping_not_triggered" l' <-> early_stopping l = true /\ early_stop l = false) /\
    (has_flag "training_too_short_for_diagnostics" l' <-> (train_smooth_factor l * INR n < 1)%R) /\
    (has_flag "max_training_mi_decreased" l' <-> (1 <= w)%nat /\
       exists i, (w <= i <= n)%nat /\ (105 / 100 * window_mean w vals n < window_mean w vals i)%R) /\
    (has_flag "training_mi_still_increasing" l' <-> (1 <= w)%nat /\
       (105 / 100 * window_mean w vals (n - (w - 1)) < window_mean w vals n)%R).
Proof. exact detect_cases. Qed.
Print Assumptions C29_warnings.

(** C29: with a negative final value "fell compared to highest value" is always raised. *)
Theorem C29_negative_final :
  forall l (vals : list R) l',
  map snd (mi_train_history l) = map Fin vals -> log_info l = [] -> (train_smooth_factor l <= 1 / 2)%R ->
  let w := Z.to_nat (py_int (train_smooth_factor l * IZR (zlen vals))) in
  (1 <= w)%nat -> (window_mean w vals (length vals) < 0)%R -> finish l = Ok l' ->
  has_flag "max_training_mi_decreased" l'.
Proof. exact negative_final_flagged. Qed.
Print Assumptions C29_negative_final.

(** C29: the warning says "w step(s) ago" but compares with w - 1 steps ago: in runs of 10
    to 19 steps (w = 1) the final value is compared with itself. *)
Theorem C29_short_runs :
  forall l (vals : list R) l',
  map snd (mi_train_history l) = map Fin vals -> log_info l = [] -> train_smooth_factor l = (1 / 10)%R ->
  (10 <= length vals < 20)%nat -> finish l = Ok l' ->
  (has_flag "training_mi_still_increasing" l' <-> (last vals 0 < 0)%R).
Proof. exact short_run_never_increasing. Qed.
Print Assumptions C29_short_runs.

(** The final value is ten times the one a step before, and nothing is reported. *)
Example C29_example : exists l', finish (demo_history [1; 1; 1; 1; 1; 1; 1; 1; 1; 10]%R) = Ok l' /\
  ~ has_flag "training_mi_still_increasing" l' /\ has_flag "early_stopping_not_triggered" l'.
Proof.
  destruct (C29_warnings _ _ (demo_history_values [1; 1; 1; 1; 1; 1; 1; 1; 1; 10]%R)) as (l' & E & _ & _ & _ & _ & _ & H & _);
    [reflexivity|cbn; lra|].
  exists l'. split; [exact E|]. split; [|apply H; split; reflexivity].
  rewrite (C29_short_runs _ _ _ (demo_history_values _) eq_refl eq_refl) with (2 := E) by (cbn; lia). cbn. lra.
Qed.

(** C30: the layers fit together and the critic computes the feed-forward network. *)
Theorem C30_network :
  forall (J : prng), prng_ok J -> forall linear_init : key J -> nat -> nat -> matrix * list R,
  (forall k i o, rectangular i (fst (linear_init k i o)) /\
    length (fst (linear_init k i o)) = o /\ length (snd (linear_init k i o)) = o) ->
  forall k dx dy hidden, (0 < dx + dy)%nat -> Forall (fun h => (0 < h)%nat) hidden ->
  exists layers, mlp_init J linear_init k dx dy hidden = Ok layers /\
    map (fun l => (lin_in l, lin_out l)) layers = combine ((dx + dy)%nat :: hidden) (hidden ++ [1%nat]) /\
    (forall x y, length x = dx -> length y = dy -> exists v,
       mlp_call layers x y = Ok v /\ network (map layer_params layers) (x ++ y) = [v]) /\
    (forall x y, (length x + length y <> dx + dy)%nat -> mlp_call layers x y = Err TypeError).
Proof. exact mlp_spec. Qed.
Print Assumptions C30_network.

Example C30_example : exists layers, mlp_init demo demo_init 1 2 1 [16; 8]%nat = Ok layers /\
  map (fun l => (lin_in l, lin_out l)) layers = [(3, 16); (16, 8); (8, 1)]%nat.
Proof.
  destruct (C30_network demo demo_ok demo_init demo_init_ok 1 2 1 [16; 8]%nat) as (layers & E & D & _); [lia|repeat constructor; lia|].
  exists layers. split; [exact E|exact D].
Qed.

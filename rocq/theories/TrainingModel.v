(** Model of the training loops and of the estimator classes around them:
    [_basic_training.py], [_mine_estimator.py], [_estimators.py] and [_critics.py]
    in [src/bmi/estimators/neural].

    [jax.jit] and [vmap] are transparent, arrays of points are lists of rows.
    Automatic differentiation, the optimiser and scikit-learn's random permutation
    are arbitrary functions. *)
From Coq Require Import String.
From Verif Require Import Base UtilsModel JaxModel ObjectivesModel TrainingLogModel.
Open Scope Z_scope.
Local Notation length := List.length.

(** get_batch: _basic_training.py 13-23.  [choice] without replacement raises
    ValueError when asked for more indices than there are. *)
Definition get_batch {A B} (J : prng) (xs : list A) (ys : list B) (k : key J) (batch_size : option nat)
  : result (list A * list B) :=
  match batch_size with
  | Some b =>                                                            (* 14 *)
      if (length xs <? b)%nat then Err ValueError
      else let batch_indices := choice J k (length xs) b in              (* 15-20 *)
           Ok (take xs batch_indices, take ys batch_indices)             (* 21 *)
  | None => Ok (xs, ys)                                                  (* 23 *)
  end.

(** The loop shared by basic_training (_basic_training.py 76-91) and mine_training
    (_mine_estimator.py 215-247): [s] is what a step changes, [one_step] performs
    lines 78-79 (216-232) and [test_value] lines 86 (239-242). *)
Fixpoint training_loop {K S} (one_step : S -> K -> result (S * fl)) (test_value : S -> K -> result fl)
    (test_every_n_steps : Z) (keys : list K) (n_step : Z) (s : S) (log : training_log)
  : result (training_log * S) :=
  match keys with
  | [] => Ok (log, s)
  | k :: rest =>                                                         (* 76; 215 *)
      do (s', mi_train) <- one_step s k;                                (* 78-79; 216-232 *)
      let log := log_train_mi log n_step mi_train in                     (* 82; 235 *)
      if test_every_n_steps =? 0 then Err ZeroDivisionError              (* 85; 238 *)
      else
        do log <- (if n_step mod test_every_n_steps =? 0                 (* 85; 238 *)
                   then do v <- test_value s' k;                         (* 86; 239-242 *)
                        Ok (log_test_mi log n_step v)                    (* 87; 243 *)
                   else Ok log);
        if early_stop log then Ok (log, s')                              (* 90-91; 246-247 *)
        else training_loop one_step test_value test_every_n_steps rest (n_step + 1) s' log
  end.

(** Defaults of TrainingLog used by both loops, _training_log.py 15-19. *)
Definition new_log (max_n_steps : Z) (early_stopping : bool) : result training_log :=
  log_init max_n_steps early_stopping (1 / 10) false true.

Section Basic.
  Context (J : prng) {C G U O : Type}.
  (** [jax.value_and_grad(loss)(critic, xs, ys)]'s gradient. *)
  Variable gradient : (C -> fl) -> C -> G.
  (** optax.adam's [init], [update] and [optax.apply_updates]. *)
  Variable adam_init : R -> C -> O.
  Variable adam_update : R -> G -> O -> C -> U * O.
  Variable apply_updates : C -> U -> C.

  (** step: _basic_training.py 60-69. *)
  Definition basic_step (mi_formula : C -> matrix -> matrix -> fl) (learning_rate : R)
      (c : C) (o : O) (xs ys : matrix) : C * O * fl :=
    let loss c := fl_opp (mi_formula c xs ys) in                         (* 63-64 *)
    let loss_step := loss c in                                           (* 66 *)
    let grads := gradient loss c in                                      (* 66 *)
    let '(updates, o) := adam_update learning_rate grads o c in          (* 67 *)
    (apply_updates c updates, o, fl_opp loss_step).                      (* 68-69 *)

  (** basic_training: _basic_training.py 26-95. *)
  Definition basic_training (rng : key J) (c : C) (mi_formula : C -> matrix -> matrix -> fl)
      (xs ys : matrix) (mi_formula_test : option (C -> matrix -> matrix -> fl))
      (xs_test ys_test : option matrix) (batch_size : option nat) (test_every_n_steps : Z)
      (max_n_steps : nat) (early_stopping : bool) (learning_rate : R) : result (training_log * C) :=
    let formula_test := match mi_formula_test with Some f => f | None => mi_formula end in   (* 50 *)
    let xt := match xs_test with Some a => a | None => xs end in         (* 51 *)
    let yt := match ys_test with Some a => a | None => ys end in         (* 52 *)
    let opt_state := adam_init learning_rate c in                        (* 55-56 *)
    do log <- new_log (Z.of_nat max_n_steps) early_stopping;             (* 72-74 *)
    let keys := split J rng max_n_steps in                               (* 75 *)
    do (log, (c, _)) <- training_loop                                   (* 76-91 *)
      (fun '(c, o) k =>
         do (bx, by_) <- get_batch J xs ys k batch_size;                (* 78 *)
         let '(c, o, mi_train) := basic_step mi_formula learning_rate c o bx by_ in   (* 79 *)
         Ok ((c, o), mi_train))
      (fun '(c, _) _ => Ok (formula_test c xt yt))                       (* 86 *)
      test_every_n_steps keys 1 (c, opt_state) log;
    do log <- finish log;                                                (* 93 *)
    Ok (log, c).                                                         (* 95 *)
End Basic.

(** * Train/test split *)
Section Split.
  Context (J : prng).
  (** NumPy's [RandomState(seed).permutation(n)]. *)
  Variable np_permutation : Z -> nat -> list nat.

  (** [sklearn.model_selection.train_test_split(xs, ys, train_size, random_state)]
      for a float [train_size]: ValueError unless 0 < train_size < 1; the train part
      has floor(train_size * n) rows (ValueError if none), the test part the others;
      rows are taken from a random permutation, the test rows first. *)
  Definition sk_train_test_split {A B} (xs : list A) (ys : list B) (train_size : R) (random_state : Z)
    : result (list A * list A * list B * list B) :=
    if negb (length xs =? length ys)%nat then Err ValueError
    else if negb (Rltb 0 train_size && Rltb train_size 1) then Err ValueError
    else
      let n := length xs in
      let n_train := Z.to_nat (Int_part (train_size * INR n)) in
      let n_test := (n - n_train)%nat in
      if (n_train =? 0)%nat then Err ValueError
      else
        let p := np_permutation random_state n in
        let test := firstn n_test p in
        let train := firstn n_train (skipn n_test p) in
        Ok (take xs train, take xs test, take ys train, take ys test).

  (** train_test_split: _estimators.py 43-63. *)
  Definition train_test_split {A B} (xs : list A) (ys : list B) (train_size : option R) (k : key J)
    : result (list A * list A * list B * list B) :=
    match train_size with
    | None => Ok (xs, xs, ys, ys)                                        (* 49-50 *)
    | Some t =>
        let random_state := randint J k 0 1000 in                        (* 54 *)
        sk_train_test_split xs ys t random_state                         (* 56-61 *)
    end.
End Split.

(** * NeuralEstimatorBase *)
Record neural_params := {                                                (* _estimators.py 31-40 *)
  np_formula_name : string;
  np_batch_size : Z;
  np_max_n_steps : Z;
  np_train_test_split : option R;
  np_test_every_n_steps : Z;
  np_learning_rate : R;
  np_standardize : bool;
  np_seed : Z
}.

(** pydantic's validation of NeuralEstimatorParams, _estimators.py 31-40. *)
Definition neural_params_valid (p : neural_params) : bool :=
  (0 <? np_batch_size p) && (0 <? np_max_n_steps p) && Rltb 0 (np_learning_rate p).

(** EstimateResult, interface.py 39-42. *)
Record estimate_result := { mi_estimate : fl; result_info : sdict info }.

Section Neural.
  Context (J : prng) {C G U O : Type}.
  Variable gradient : (C -> fl) -> C -> G.
  Variable adam_init : R -> C -> O.
  Variable adam_update : R -> G -> O -> C -> U * O.
  Variable apply_updates : C -> U -> C.
  Variable np_permutation : Z -> nat -> list nat.

  (** The attributes set by NeuralEstimatorBase.__init__, _estimators.py 91-111. *)
  Record neural := {
    ne_formula : C -> matrix -> matrix -> fl;                            (* 91 *)
    ne_formula_test : C -> matrix -> matrix -> fl;                       (* 92 *)
    ne_factory : key J -> nat -> nat -> result C;                        (* 95 *)
    ne_trained_critic : option C;                                        (* 99 *)
    ne_params : neural_params                                            (* 101-111 *)
  }.

  (** NeuralEstimatorBase.__init__, _estimators.py 67-111. *)
  Definition neural_init (formula : C -> matrix -> matrix -> fl) (factory : key J -> nat -> nat -> result C)
      (formula_test : option (C -> matrix -> matrix -> fl)) (p : neural_params) : result neural :=
    if neural_params_valid p
    then Ok {| ne_formula := formula;
               ne_formula_test := match formula_test with Some f => f | None => formula end;
               ne_factory := factory; ne_trained_critic := None; ne_params := p |}
    else Err ValidationError.

  (** [self._trained_critic = c], 168. *)
  Definition set_critic (e : neural) (c : C) : neural :=
    {| ne_formula := ne_formula e; ne_formula_test := ne_formula_test e; ne_factory := ne_factory e;
       ne_trained_critic := Some c; ne_params := ne_params e |}.

  (** NeuralEstimatorBase.estimate_with_info, _estimators.py 128-173: the new state
      and the result.  Early stopping is always on (basic_training's default). *)
  Definition estimate_with_info (e : neural) (x y : matrix) : neural * result estimate_result :=
    let p := ne_params e in
    let run : result (option C * estimate_result) :=
      let k := prng_key J (np_seed p) in                                 (* 129 *)
      do (key_init, key_split, key_fit) <- split3 J k;                  (* 130 *)
      do (xs, ys) <- product_space_values (np_standardize p) x y;       (* 133-134 *)
      do (xs_train, xs_test, ys_train, ys_test) <-
        train_test_split J np_permutation xs ys (np_train_test_split p) key_split;   (* 137-139 *)
      if zlen xs_train <? np_batch_size p then                           (* 141 *)
        Ok (None, {| mi_estimate := NaN;                                 (* 145-148 *)
                     result_info := [("batch_size_larger_than_train"%string, InfoBool true)] |})
      else
        do c <- ne_factory e key_init (ncols xs_train) (ncols ys_train); (* 151 *)
        do (log, new_critic) <- basic_training J gradient adam_init adam_update apply_updates
          key_fit c (ne_formula e) xs_train ys_train (Some (ne_formula_test e)) (Some xs_test) (Some ys_test)
          (Some (Z.to_nat (np_batch_size p))) (np_test_every_n_steps p) (Z.to_nat (np_max_n_steps p))
          true (np_learning_rate p);                                     (* 153-167 *)
        Ok (Some new_critic, {| mi_estimate := final_mi log;             (* 168-173 *)
                                result_info := additional_information log |}) in
    match run with
    | Ok (Some c, r) => (set_critic e c, Ok r)
    | Ok (None, r) => (e, Ok r)
    | Err ex => (e, Err ex)
    end.

  (** estimate, _estimators.py 175-176. *)
  Definition neural_estimate (e : neural) (x y : matrix) : neural * result fl :=
    let '(e, r) := estimate_with_info e x y in (e, rmap mi_estimate r).
End Neural.

(** * MINE *)
(** logmeanexp: _mine_estimator.py 30-31. *)
Definition mine_logmeanexp (vs : list R) : fl :=
  fl_sub (logsumexp (map Fin vs)) (fl_log (INR (length vs))).

(** [jnp.logaddexp]. *)
Definition logaddexp (a b : fl) : fl := logsumexp [a; b].

Section Mine.
  Context (J : prng) {C U O : Type}.
  (** The critic as a function of its parameters and two points. *)
  Variable critic_value : C -> list R -> list R -> R.
  (** Gradient of a function of the critic, one entry per parameter. *)
  Variable gradient : (C -> fl) -> C -> list fl.
  Variable adam_init : R -> C -> O.
  Variable adam_update : R -> list fl -> O -> C -> U * O.
  Variable apply_updates : C -> U -> C.

  Definition vmap2 (c : C) (xs ys : matrix) : list R :=
    map (fun p => critic_value c (fst p) (snd p)) (combine xs ys).

  (** _mine_value: _mine_estimator.py 34-44. *)
  Definition mine_value (c : C) (xs ys_paired ys_unpaired : matrix) : fl :=
    let p_T := vmap2 c xs ys_paired in                                   (* 41 *)
    let u_T := vmap2 c xs ys_unpaired in                                 (* 42 *)
    fl_sub (fl_mean (map Fin p_T)) (mine_logmeanexp u_T).                (* 44 *)

  (** T_mean and T_lme: _mine_estimator.py 54-56, 68-70. *)
  Definition T_mean (c : C) (xs ys : matrix) : fl := fl_mean (map Fin (vmap2 c xs ys)).
  Definition T_lme (c : C) (xs ys : matrix) : fl := mine_logmeanexp (vmap2 c xs ys).

  (** Product of floats with a finite factor of known sign is not needed: gradients
      only flow into the (arbitrary) optimiser. *)
  Definition fl_mult (a b : fl) : fl :=
    match a, b with Fin x, Fin y => Fin (x * y) | _, _ => NaN end.

  (** _mine_value_neg_grad_log_denom: _mine_estimator.py 75-100, for alpha in [0, 1]
      (outside, [jnp.log] would give NaN). *)
  Definition mine_value_neg_grad_log_denom (c : C) (xs ys_paired ys_unpaired : matrix)
      (log_denom_prev : fl) (alpha : R) : fl * list fl * fl :=
    let mean_T_p := T_mean c xs ys_paired in                             (* 83 *)
    let d_mean_T_p := gradient (fun c => T_mean c xs ys_paired) c in
    let lme_T_u := T_lme c xs ys_unpaired in                             (* 84 *)
    let d_lme_T_u := gradient (fun c => T_lme c xs ys_unpaired) c in
    let log_denom_batch := lme_T_u in                                    (* 87 *)
    let log_denom := logaddexp (fl_add (fl_log alpha) log_denom_prev)
                               (fl_add (fl_log (1 - alpha)) log_denom_batch) in   (* 88-91 *)
    let correction := fl_exp (fl_sub log_denom_batch log_denom) in       (* 92 *)
    let neg_grad := map (fun p => fl_sub (fl_mult correction (snd p)) (fst p))
                        (combine d_mean_T_p d_lme_T_u) in                (* 95 *)
    (fl_sub mean_T_p lme_T_u, neg_grad, log_denom).                      (* 98-100 *)

  (** _sample_paired_unpaired: _mine_estimator.py 103-132. *)
  Definition sample_paired_unpaired (k : key J) (xs ys : matrix) (batch_size : option nat)
    : result (matrix * matrix * matrix) :=
    if negb (length xs =? length ys)%nat then Err AssertionError         (* 109 *)
    else
      do (key_paired, key_unpaired) <- split2 J k;                      (* 110 *)
      match batch_size with
      | None => Ok (xs, ys, take ys (permutation J key_unpaired (length ys)))   (* 112-114 *)
      | Some b =>
          if (length xs <? b)%nat then Err ValueError
          else
            let paired_indices := choice J key_paired (length xs) b in   (* 116-121 *)
            let unpaired_indices := choice J key_unpaired (length xs) b in    (* 122-127 *)
            Ok (take xs paired_indices, take ys paired_indices, take ys unpaired_indices)  (* 128-132 *)
      end.

  (** step: _mine_estimator.py 183-204. *)
  Definition mine_step (alpha learning_rate : R) (c : C) (o : O) (log_denom_carry : fl)
      (xs ys_paired ys_unpaired : matrix) : C * O * fl * fl :=
    let '(value, neg_grad, log_denom_carry) :=
      mine_value_neg_grad_log_denom c xs ys_paired ys_unpaired log_denom_carry alpha in   (* 193-200 *)
    let '(updates, o) := adam_update learning_rate neg_grad o c in       (* 202 *)
    (apply_updates c updates, o, value, log_denom_carry).                (* 204-205 *)

  (** One iteration of the loop, _mine_estimator.py 216-232. *)
  Definition mine_one_step (alpha learning_rate : R) (xs ys : matrix) (batch_size : option nat)
      (s : C * O * fl) (k : key J) : result ((C * O * fl) * fl) :=
    let '(c, o, carry) := s in
    do (key_sample, _) <- split2 J k;                                   (* 216 *)
    do (bx, bp, bu) <- sample_paired_unpaired key_sample xs ys batch_size;   (* 219-221 *)
    let '(c, o, mi_train, carry) := mine_step alpha learning_rate c o carry bx bp bu in  (* 224-232 *)
    Ok ((c, o, carry), mi_train).

  (** The test value, _mine_estimator.py 239-242. *)
  Definition mine_test_value (xs_test ys_test : matrix) (s : C * O * fl) (k : key J) : result fl :=
    let '(c, _, _) := s in
    do (_, key_test) <- split2 J k;                                     (* 216 *)
    let ys_test_unpaired := take ys_test (permutation J key_test (length ys_test)) in   (* 239 *)
    Ok (mine_value c xs_test ys_test ys_test_unpaired).                  (* 240-242 *)

  (** mine_training: _mine_estimator.py 135-251. *)
  Definition mine_training (rng : key J) (c : C) (xs ys : matrix) (xs_test ys_test : option matrix)
      (alpha : R) (batch_size : option nat) (test_every_n_steps : Z) (max_n_steps : nat)
      (early_stopping : bool) (learning_rate : R) : result (training_log * C) :=
    let xt := match xs_test with Some a => a | None => xs end in         (* 174 *)
    let yt := match ys_test with Some a => a | None => ys end in         (* 175 *)
    let opt_state := adam_init learning_rate c in                        (* 178-179 *)
    let log_denom_carry := NInf in                                       (* 208 *)
    do log <- new_log (Z.of_nat max_n_steps) early_stopping;             (* 211-213 *)
    let keys := split J rng max_n_steps in                               (* 214 *)
    do (log, (c, _, _)) <- training_loop (mine_one_step alpha learning_rate xs ys batch_size)
      (mine_test_value xt yt) test_every_n_steps keys 1 (c, opt_state, log_denom_carry) log;   (* 215-247 *)
    do log <- finish log;                                                (* 249 *)
    Ok (log, c).                                                         (* 251 *)
End Mine.

(** * MINEEstimator *)
Record mine_params := {                                                  (* _mine_estimator.py 254-266 *)
  mp_batch_size : Z;
  mp_max_n_steps : Z;
  mp_train_test_split : option R;
  mp_test_every_n_steps : Z;
  mp_learning_rate : R;
  mp_smoothing_alpha : R;
  mp_standardize : bool;
  mp_seed : Z
}.

(** pydantic's validation of MINEParams, _mine_estimator.py 254-266. *)
Definition mine_params_valid (p : mine_params) : bool :=
  (0 <? mp_batch_size p) && (0 <? mp_max_n_steps p) &&
  match mp_train_test_split p with Some t => Rltb 0 t && Rltb t 1 | None => true end &&
  (0 <? mp_test_every_n_steps p) && Rltb 0 (mp_learning_rate p) &&
  (Rltb 0 (mp_smoothing_alpha p) && Rltb (mp_smoothing_alpha p) 1).

Section MineEstimator.
  Context (J : prng) {C U O : Type}.
  Variable critic_value : C -> list R -> list R -> R.
  Variable gradient : (C -> fl) -> C -> list fl.
  Variable adam_init : R -> C -> O.
  Variable adam_update : R -> list fl -> O -> C -> U * O.
  Variable apply_updates : C -> U -> C.
  Variable np_permutation : Z -> nat -> list nat.

  (** The attributes of MINEEstimator, _mine_estimator.py 283-299, and _create_critic
      (316-317) for its hidden layers. *)
  Record mine := {
    mine_ps : mine_params;                                               (* 283-293 *)
    mine_create : key J -> nat -> nat -> result C;                       (* 316-317 *)
    mine_trained_critic : option C                                       (* 299 *)
  }.

  (** MINEEstimator.__init__, _mine_estimator.py 270-299. *)
  Definition mine_init (p : mine_params) (create : key J -> nat -> nat -> result C) : result mine :=
    if mine_params_valid p
    then Ok {| mine_ps := p; mine_create := create; mine_trained_critic := None |}
    else Err ValidationError.

  (** MINEEstimator.estimate_with_info, _mine_estimator.py 319-363. *)
  Definition mine_estimate_with_info (e : mine) (x y : matrix) : mine * result estimate_result :=
    let p := mine_ps e in
    let run : result (option C * estimate_result) :=
      let k := prng_key J (mp_seed p) in                                 (* 320 *)
      do (key_init, key_split, key_fit) <- split3 J k;                  (* 321 *)
      do (xs, ys) <- product_space_values (mp_standardize p) x y;       (* 324-325 *)
      do (xs_train, xs_test, ys_train, ys_test) <-
        train_test_split J np_permutation xs ys (mp_train_test_split p) key_split;   (* 328-330 *)
      if zlen xs_train <? mp_batch_size p then                           (* 332 *)
        Ok (None, {| mi_estimate := NaN;                                 (* 336-339 *)
                     result_info := [("batch_size_larger_than_train"%string, InfoBool true)] |})
      else
        do c <- mine_create e key_init (ncols xs) (ncols ys);            (* 342 *)
        do (log, trained) <- mine_training J critic_value gradient adam_init adam_update apply_updates
          key_fit c xs_train ys_train (Some xs_test) (Some ys_test) (mp_smoothing_alpha p)
          (Some (Z.to_nat (mp_batch_size p))) (mp_test_every_n_steps p) (Z.to_nat (mp_max_n_steps p))
          true (mp_learning_rate p);                                     (* 344-357 *)
        Ok (Some trained, {| mi_estimate := final_mi log;                (* 358-363 *)
                             result_info := additional_information log |}) in
    match run with
    | Ok (Some c, r) => ({| mine_ps := p; mine_create := mine_create e; mine_trained_critic := Some c |}, Ok r)
    | Ok (None, r) => (e, Ok r)
    | Err ex => (e, Err ex)
    end.

  (** estimate, _mine_estimator.py 365-366. *)
  Definition mine_estimate (e : mine) (x y : matrix) : mine * result fl :=
    let '(e, r) := mine_estimate_with_info e x y in (e, rmap mi_estimate r).
End MineEstimator.

(** * Critics *)

(** [eqx.nn.Linear(in_features, out_features)]: weights (out x in) and bias. *)
Record linear := { lin_in : nat; lin_out : nat; weight : matrix; bias : list R }.

(** Applying it to a vector; a wrong length raises TypeError (jax's dot_general). *)
Definition linear_call (l : linear) (z : list R) : result (list R) :=
  if negb (length z =? lin_in l)%nat then Err TypeError
  else Ok (map (fun p => (rsum (map (fun q => fst q * snd q) (combine (fst p) z)) + snd p)%R)
               (combine (weight l) (bias l))).

Definition relu (v : R) : R := if Rltb v 0 then 0%R else v.

Section Critics.
  Context (J : prng).
  (** The random initialisation of weights and bias. *)
  Variable linear_init : key J -> nat -> nat -> matrix * list R.

  (** Equinox draws weights from a range ±1/sqrt(in_features), so in_features = 0
      raises ZeroDivisionError. *)
  Definition new_linear (k : key J) (din dout : nat) : result linear :=
    if (din =? 0)%nat then Err ZeroDivisionError
    else let '(w, b) := linear_init k din dout in
         Ok {| lin_in := din; lin_out := dout; weight := w; bias := b |}.

  (** The loop over zip(dims, dims[1:], keys_hidden), _critics.py 51-52. *)
  Fixpoint hidden_loop (dims_in dims_out : list nat) (ks : list (key J)) : result (list linear) :=
    match dims_in, dims_out, ks with
    | a :: dims_in, b :: dims_out, k :: ks =>
        do l <- new_linear k a b;
        do rest <- hidden_loop dims_in dims_out ks;
        Ok (l :: rest)
    | _, _, _ => Ok []
    end.

  (** MLP.__init__, _critics.py 17-54. *)
  Definition mlp_init (k : key J) (dim_x dim_y : nat) (hidden_layers : list nat) : result (list linear) :=
    do (key_final, key_hidden) <- split2 J k;                           (* 45 *)
    let keys_hidden := split J key_hidden (length hidden_layers) in      (* 46 *)
    let dims := ([(dim_x + dim_y)%nat] ++ hidden_layers)%list in         (* 48 *)
    do hidden <- hidden_loop dims (tl dims) keys_hidden;                 (* 50-52 *)
    do final <- new_linear key_final (last dims 0%nat) 1;                (* 54 *)
    Ok (hidden ++ [final])%list.
End Critics.

(** The loop of MLP.__call__ over all layers but the last, _critics.py 59-61. *)
Fixpoint relu_layers (ls : list linear) (z : list R) : result (list R) :=
  match ls with
  | [] => Ok z
  | l :: ls => do z <- linear_call l z; relu_layers ls (map relu z)
  end.

(** MLP.__call__, _critics.py 56-66. *)
Definition mlp_call (layers : list linear) (x y : list R) : result R :=
  let z := (x ++ y)%list in                                              (* 57 *)
  do z <- relu_layers (removelast layers) z;                             (* 59-61 *)
  do final <- py_index layers (-1);
  do z <- linear_call final z;                                           (* 64 *)
  match z with v :: _ => Ok v | [] => Err IndexError end.                (* 66 *)

(** * The three variational estimators *)
Inductive objective := InfoNCE | NWJ | DonskerVaradhan.

Section Variational.
  Context (J : prng) {C : Type}.
  (** The critic as a function of its parameters, and _mlp_init's factory
      (_estimators.py 183-187). *)
  Variable critic_value : C -> list R -> list R -> R.
  Variable factory : list nat -> key J -> nat -> nat -> result C.

  Definition linear_formula (o : objective) (c : C) (xs ys : matrix) : fl :=   (* _backend_linear_memory.py *)
    match o with
    | InfoNCE => lin_infonce (critic_value c) xs ys
    | NWJ => lin_nwj (critic_value c) xs ys
    | DonskerVaradhan => lin_donsker_varadhan (critic_value c) xs ys
    end.
  Definition quadratic_formula (o : objective) (c : C) (xs ys : matrix) : fl :=   (* _backend_quadratic_memory.py *)
    match o with
    | InfoNCE => quad_infonce (critic_value c) xs ys
    | NWJ => quad_nwj (critic_value c) xs ys
    | DonskerVaradhan => quad_donsker_varadhan (critic_value c) xs ys
    end.

  (** InfoNCEEstimator.__init__, NWJEstimator.__init__ and
      DonskerVaradhanEstimator.__init__, _estimators.py 191-227, 231-267, 271-307: the
      three bodies differ in the objective and its name only. *)
  Definition variational_init (o : objective) (train_backend : string) (hidden_layers : list nat)
      (p : neural_params) : result (neural J) :=
    do mi_formula <- (if String.eqb train_backend "quadratic" then Ok (quadratic_formula o)   (* 204-205 *)
                      else if String.eqb train_backend "linear" then Ok (linear_formula o)    (* 206-207 *)
                      else Err ValueError);                              (* 208-209 *)
    neural_init J mi_formula (factory hidden_layers) (Some (linear_formula o))   (* 213-227 *)
      {| np_formula_name := match o with InfoNCE => "InfoNCE" | NWJ => "NWJ" | DonskerVaradhan => "Donsker-Varadhan" end;
         np_batch_size := np_batch_size p; np_max_n_steps := np_max_n_steps p;
         np_train_test_split := np_train_test_split p; np_test_every_n_steps := np_test_every_n_steps p;
         np_learning_rate := np_learning_rate p; np_standardize := np_standardize p; np_seed := np_seed p |}.
End Variational.

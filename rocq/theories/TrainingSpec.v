(** Vocabulary of the statements about training. *)
From Coq Require Import String.
From Verif Require Import Base TrainingLogModel.
Open Scope R_scope.

(** [v] improves on the values recorded before it: there are none, or none of the
    comparable ones reaches it (a NaN recorded first can never be improved upon,
    and NaN never improves). *)
Definition improves (pre : list fl) (v : fl) : Prop :=
  match pre with
  | [] => True
  | u :: _ => u <> NaN /\ v <> NaN /\ forall w, In w pre -> w <> NaN -> fl_ltb w v = true
  end.

(** The last two values both failed to improve. *)
Definition stalled (vals : list fl) : Prop :=
  exists pre a b, vals = pre ++ [a; b] /\ ~ improves pre a /\ ~ improves (pre ++ [a]) b.

(** A log which has recorded the given test values (in this order) and possibly
    training values. *)
Inductive log_reachable : training_log -> Prop :=
| reach_init n e f a b l : log_init n e f a b = Ok l -> log_reachable l
| reach_train l n v : log_reachable l -> log_reachable (log_train_mi l n v)
| reach_test l n v : log_reachable l -> log_reachable (log_test_mi l n v)
| reach_finish l l' : log_reachable l -> finish l = Ok l' -> log_reachable l'.

Definition test_values (l : training_log) : list fl := map snd (mi_test_history l).

(** [m] is the largest of the values. *)
Definition is_max (m : R) (vals : list R) : Prop := In m vals /\ Forall (fun v => v <= m) vals.

(** The states and training values along a run of [one_step]. *)
Inductive run {K S} (one_step : S -> K -> result (S * fl)) : S -> list K -> list (S * fl) -> Prop :=
| run_nil s : run one_step s [] []
| run_cons s k ks s' v tr : one_step s k = Ok (s', v) -> run one_step s' ks tr ->
    run one_step s (k :: ks) ((s', v) :: tr).

(** Steps are numbered from 1. *)
Definition step_numbers (n : nat) : list Z := map Z.of_nat (seq 1 n).

(** Mean of the [w] training values which precede position [i]. *)
Definition window_mean (w : nat) (vals : list R) (i : nat) : R := rmean (firstn w (skipn (i - w) vals)).

(** The flag [k] is raised in the log. *)
Definition has_flag (k : string) (l : training_log) : Prop := sdict_get (log_info l) k = Some (InfoBool true).

(** ** Random numbers *)
From Coq Require Import Permutation.
From Verif Require Import JaxModel.

(** What is assumed of JAX's generator: it returns as many keys as asked for,
    [choice] without replacement gives distinct indices in range, [permutation] a
    permutation. *)
Record prng_ok (J : prng) : Prop := {
  ok_split : forall k n, length (split J k n) = n;
  ok_choice : forall k n m, (m <= n)%nat ->
    length (choice J k n m) = m /\ NoDup (choice J k n m) /\ Forall (fun i => (i < n)%nat) (choice J k n m);
  ok_permutation : forall k n, Permutation (permutation J k n) (seq 0 n)
}.

(** [batch] consists of the pairs of [data] at distinct positions. *)
Definition sub_batch {A} (batch data : list A) : Prop :=
  exists idx, NoDup idx /\ length idx = length batch /\
    forall j, (j < length batch)%nat -> exists i, nth_error idx j = Some i /\ (i < length data)%nat /\
      nth_error batch j = nth_error data i.

(** ** Exponential smoothing: weight [a] on the past, [1 - a] on the new value. *)
Fixpoint weighted (a : R) (ds : list R) : R :=
  match ds with
  | [] => 0
  | d :: ds' => (1 - a) * a ^ (length ds') * d + weighted a ds'
  end.

(** Mean of the exponentials. *)
Definition mean_exp (vs : list R) : R := rmean (map exp vs).

(** ** Networks *)
Fixpoint last_some {A} (l : list (option A)) : option A :=
  match l with
  | [] => None
  | o :: l' => match last_some l' with Some a => Some a | None => o end
  end.

(** [W z + b]. *)
Definition affine_map (W : list (list R)) (b z : list R) : list R :=
  map (fun i => rsum (map (fun j => nth j (nth i W []) 0 * nth j z 0) (seq 0 (length z))) + nth i b 0) (seq 0 (length b)).

(** A feed-forward network with a ReLU between consecutive layers only. *)
Fixpoint network (layers : list (list (list R) * list R)) (z : list R) : list R :=
  match layers with
  | [] => z
  | [(W, b)] => affine_map W b z
  | (W, b) :: rest => network rest (map (Rmax 0) (affine_map W b z))
  end.

From Verif Require Import UtilsModel UtilsSpec ObjectivesModel TrainingModel.

(** The parameters of a layer, and the shape they should have. *)
Definition layer_params (l : linear) : list (list R) * list R := (weight l, bias l).
Definition layer_ok (l : linear) : Prop :=
  rectangular (lin_in l) (weight l) /\ List.length (weight l) = lin_out l /\ List.length (bias l) = lin_out l.

(** ** Estimators and their history *)

(** The estimator [e] with the stored critic replaced. *)
Definition with_critic {J C} (e : neural J) (o : option C) : neural J :=
  {| ne_formula := ne_formula J e; ne_formula_test := ne_formula_test J e; ne_factory := ne_factory J e;
     ne_trained_critic := o; ne_params := ne_params J e |}.

(** The estimator after a series of calls. *)
Fixpoint after_calls {S A} (call : S -> A -> A -> S) (e : S) (calls : list (A * A)) : S :=
  match calls with
  | [] => e
  | (x, y) :: rest => after_calls call (call e x y) rest
  end.

(** One step of MINE as it should be: from critic [c] and optimiser state [o], with
    the denominators [ds] of the earlier batches, to [c'], [o'] with training value
    [v] and denominator [D].  The gradient of the smoothed loss
    [log (weighted denominators) - mean T] is [D / W * grad log D - grad mean T]. *)
Definition mine_step_spec {J : prng} {C U O} (cv : C -> list R -> list R -> R) (gradient : (C -> fl) -> C -> list fl)
    (adam_update : R -> list fl -> O -> C -> U * O) (apply_updates : C -> U -> C)
    alpha lr (xs ys : matrix) bs (k : key J) (c : C) (o : O) (ds : list R) (c' : C) (o' : O) (v : fl) (D : R) : Prop :=
  exists ks kt bx bp bu, split J k 2 = [ks; kt] /\ sample_paired_unpaired J ks xs ys bs = Ok (bx, bp, bu) /\
    let T c x y := map (fun p => cv c (fst p) (snd p)) (combine x y) in
    D = mean_exp (T c bx bu) /\
    v = fl_sub (fl_mean (map Fin (T c bx bp))) (Fin (ln D)) /\
    forall gp gu, gradient (fun c => fl_mean (map Fin (T c bx bp))) c = map Fin gp ->
      gradient (fun c => mine_logmeanexp (T c bx bu)) c = map Fin gu ->
      (c', o') = let '(u, o1) := adam_update lr
                     (map (fun p => Fin (D / weighted alpha (ds ++ [D]) * snd p - fst p)) (combine gp gu)) o c in
                 (apply_updates c u, o1).

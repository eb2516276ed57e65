(** Proofs about [BenchmarkModel]. *)
From Coq Require Import String Permutation Sorted.
From Verif Require Import Base UtilsModel JaxModel SamplersModel BaseLemmas BenchmarkModel BenchmarkSpec.
Open Scope Z_scope.
Local Notation length := List.length.

(** ** The timer *)
Lemma timer_step_state c o t :
  tm_ticks (snd (timer_step c o t)) = (tm_ticks t + readings o)%nat /\
  tm_t0 (snd (timer_step c o t)) = match stored o (tm_ticks t) with Some k => c k | None => tm_t0 t end.
Proof. destruct o; cbn; split; try reflexivity; lia. Qed.

Lemma timer_run_state c os : forall t r, tm_t0 t = c r ->
  tm_ticks (snd (timer_run c os t)) = (tm_ticks t + total_readings os)%nat /\
  tm_t0 (snd (timer_run c os t)) = c (last_stored r (tm_ticks t) os).
Proof.
  induction os as [|o os IH]; intros t r Hr; cbn [timer_run total_readings last_stored].
  - cbn. split; [lia|assumption].
  - pose proof (timer_step_state c o t) as [E1 E2].
    destruct (timer_step c o t) as [v t']. cbn [snd] in E1, E2.
    destruct (timer_run c os t') as [vs t''] eqn:E.
    assert (H : tm_t0 t' = c (match stored o (tm_ticks t) with Some r' => r' | None => r end)).
    { rewrite E2. destruct (stored o (tm_ticks t)); auto. }
    specialize (IH t' _ H). rewrite E in IH. cbn [snd] in IH |- *. rewrite E1 in IH. destruct IH as [I1 I2].
    split; [lia|assumption].
Qed.

Lemma timer_run_app c os1 : forall os2 t,
  timer_run c (os1 ++ os2) t =
  let (v1, t1) := timer_run c os1 t in let (v2, t2) := timer_run c os2 t1 in ((v1 ++ v2)%list, t2).
Proof.
  induction os1 as [|o os1 IH]; intros os2 t; cbn [app timer_run].
  - destruct (timer_run c os2 t); reflexivity.
  - destruct (timer_step c o t) as [v t']. rewrite IH.
    destruct (timer_run c os1 t') as [v1 t1]. destruct (timer_run c os2 t1). reflexivity.
Qed.

Lemma timer_measures c k os o : o <> TReset ->
  exists values t, timer_run c (os ++ [o]) (timer_new c k) =
  ((values ++ [Some (c (S k + total_readings os)%nat - c (last_stored k (S k) os))%R])%list, t).
Proof.
  intros Ho. rewrite timer_run_app.
  destruct (timer_run c os (timer_new c k)) as [v1 t1] eqn:E.
  destruct (timer_run_state c os (timer_new c k) k eq_refl) as [E1 E2].
  rewrite E in E1, E2. cbn [snd] in E1, E2. cbn [timer_new tm_ticks] in E1, E2.
  exists v1. destruct o; [congruence| |]; cbn; rewrite E1, E2; eexists; reflexivity.
Qed.

Lemma last_stored_le os : forall r k, (r < k)%nat -> (last_stored r k os < k + total_readings os)%nat.
Proof.
  induction os as [|o os IH]; intros r k H; cbn [last_stored total_readings]; [lia|].
  assert (H' : (match stored o k with Some r' => r' | None => r end < k + readings o)%nat)
    by (destruct o; cbn; lia).
  specialize (IH _ _ H'). lia.
Qed.


Lemma timer_run_length c os : forall t, length (fst (timer_run c os t)) = length os.
Proof.
  induction os as [|o os IH]; intros t; [reflexivity|]. cbn [timer_run].
  destruct (timer_step c o t) as [v t']. specialize (IH t'). destruct (timer_run c os t'). cbn in *. lia.
Qed.

Lemma timer_last_value c k os o : o <> TReset ->
  timer_step c o (snd (timer_run c os (timer_new c k))) =
  (Some (c (S k + total_readings os)%nat - c (last_stored k (S k) os))%R,
   snd (timer_step c o (snd (timer_run c os (timer_new c k))))).
Proof.
  intros Ho. destruct (timer_run_state c os (timer_new c k) k eq_refl) as [E1 E2].
  cbn [timer_new tm_ticks] in E1, E2. destruct o; [congruence| |]; cbn; rewrite E1, E2; reflexivity.
Qed.

Lemma timer_run_snoc c os o t :
  fst (timer_run c (os ++ [o]) t) = (fst (timer_run c os t) ++ [fst (timer_step c o (snd (timer_run c os t)))])%list.
Proof.
  rewrite timer_run_app. destruct (timer_run c os t) as [v1 t1]. cbn [timer_run fst snd].
  destruct (timer_step c o t1). reflexivity.
Qed.

Lemma timer_value_at c k os : forall i o, nth_error os i = Some o ->
  nth_error (fst (timer_run c os (timer_new c k))) i =
  Some (match o with
        | TReset => None
        | _ => Some (c (S k + total_readings (firstn i os))%nat - c (last_stored k (S k) (firstn i os)))%R
        end).
Proof.
  induction os as [|o' os IH] using rev_ind; intros i o Hi; [destruct i; discriminate|].
  rewrite timer_run_snoc.
  assert (L := timer_run_length c os (timer_new c k)).
  destruct (Nat.lt_ge_cases i (length os)) as [H|H].
  - rewrite nth_error_app1 in Hi by assumption. rewrite nth_error_app1 by lia.
    rewrite firstn_app. replace (i - length os)%nat with 0%nat by lia. cbn [firstn]. rewrite app_nil_r. auto.
  - assert (i = length os) as ->.
    { assert (Hlt : (i < length (os ++ [o']))%nat) by (apply nth_error_Some; congruence).
      rewrite app_length in Hlt. cbn in Hlt. lia. }
    rewrite nth_error_app2, Nat.sub_diag in Hi by lia. injection Hi as ->.
    rewrite nth_error_app2 by lia. rewrite L, Nat.sub_diag. cbn [nth_error].
    rewrite firstn_app, Nat.sub_diag, firstn_all. cbn [firstn]. rewrite app_nil_r.
    destruct o; [reflexivity| |]; rewrite timer_last_value by discriminate; reflexivity.
Qed.

Lemma timer_nonneg c k os i v : monotone c ->
  nth_error (fst (timer_run c os (timer_new c k))) i = Some (Some v) -> (0 <= v)%R.
Proof.
  intros Hc Hi.
  assert (Hl : (i < length os)%nat)
    by (rewrite <- (timer_run_length c os (timer_new c k)); apply nth_error_Some; congruence).
  destruct (nth_error os i) as [o|] eqn:E; [|apply nth_error_None in E; lia].
  rewrite (timer_value_at c k os i o E) in Hi.
  assert (H := last_stored_le (firstn i os) k (S k) (Nat.lt_succ_diag_r k)).
  assert (H' := Hc (last_stored k (S k) (firstn i os)) (S k + total_readings (firstn i os))%nat ltac:(lia)).
  set (x := (S k + total_readings (firstn i os))%nat) in *. set (y := last_stored k (S k) (firstn i os)) in *.
  clearbody x y. destruct o; [discriminate| |]; injection Hi as <-; lra.
Qed.

Lemma last_stored_checks n : forall r k, last_stored r k (repeat TCheck n) = r.
Proof. induction n as [|n IH]; intros r k; cbn; auto. Qed.
Lemma last_stored_app os1 : forall os2 r k,
  last_stored r k (os1 ++ os2) = last_stored (last_stored r k os1) (k + total_readings os1) os2.
Proof.
  induction os1 as [|o os1 IH]; intros os2 r k; cbn [app last_stored total_readings]; [now rewrite Nat.add_0_r|].
  rewrite IH. f_equal. lia.
Qed.
Lemma total_readings_app os1 os2 : total_readings (os1 ++ os2) = (total_readings os1 + total_readings os2)%nat.
Proof. induction os1 as [|o os1 IH]; [reflexivity|]. cbn [app total_readings]. lia. Qed.

Lemma firstn_S_nth_error {A} (l : list A) : forall i a, nth_error l i = Some a -> firstn (S i) l = (firstn i l ++ [a])%list.
Proof.
  induction l as [|b l IH]; intros i a H; [destruct i; discriminate|].
  destruct i as [|i]; [injection H as ->; reflexivity|]. cbn [nth_error] in H.
  change (b :: firstn (S i) l = b :: (firstn i l ++ [a]))%list. now rewrite (IH i a H).
Qed.

(** Between two resets the values of [check] do not decrease. *)
Lemma timer_checks_increase c k os i j v w : monotone c -> (i <= j)%nat ->
  (forall l o, (i <= l < j)%nat -> nth_error os l = Some o -> o = TCheck) ->
  nth_error (fst (timer_run c os (timer_new c k))) i = Some (Some v) ->
  nth_error (fst (timer_run c os (timer_new c k))) j = Some (Some w) -> (v <= w)%R.
Proof.
  intros Hc Hij Hos Hi Hj.
  assert (Lj : (j < length os)%nat)
    by (rewrite <- (timer_run_length c os (timer_new c k)); apply nth_error_Some; congruence).
  destruct (nth_error os i) as [oi|] eqn:Ei; [|apply nth_error_None in Ei; lia].
  destruct (nth_error os j) as [oj|] eqn:Ej; [|apply nth_error_None in Ej; lia].
  rewrite (timer_value_at c k os i oi Ei) in Hi. rewrite (timer_value_at c k os j oj Ej) in Hj.
  assert (Hf : exists m, firstn j os = (firstn i os ++ repeat TCheck m)%list).
  { exists (j - i)%nat. clear Hi Hj Ei Ej oi oj.
    induction j as [|j IH] in Hij, Hos, Lj |- *.
    - assert (i = 0%nat) as -> by lia. reflexivity.
    - destruct (Nat.eq_dec i (S j)) as [->|Hne].
      + rewrite Nat.sub_diag. cbn [repeat]. now rewrite app_nil_r.
      + destruct (nth_error os j) as [o|] eqn:Eo; [|apply nth_error_None in Eo; lia].
        rewrite (firstn_S_nth_error os j o Eo), IH by (try lia; intros; eapply Hos; eauto; lia).
        replace (S j - i)%nat with (S (j - i)) by lia.
        rewrite <- (Hos j o ltac:(lia) Eo).
        rewrite <- app_assoc. f_equal. clear. induction (j - i)%nat as [|m IHm]; [reflexivity|].
        cbn. now rewrite IHm. }
  destruct Hf as [m Hm]. rewrite Hm in Hj.
  rewrite last_stored_app, last_stored_checks, total_readings_app in Hj.
  assert (H := Hc (S k + total_readings (firstn i os))%nat
    (S k + (total_readings (firstn i os) + total_readings (repeat TCheck m)))%nat ltac:(lia)).
  set (x := (S k + total_readings (firstn i os))%nat) in *. set (y := last_stored k (S k) (firstn i os)) in *.
  set (z := (S k + (total_readings (firstn i os) + _))%nat) in *. clearbody x y z.
  destruct oi; [discriminate| |]; destruct oj; try discriminate; injection Hi as <-; injection Hj as <-; lra.
Qed.

(** Laps. *)
Definition lap_values (vs : list (option R)) : list R :=
  flat_map (fun v => match v with Some r => [r] | None => [] end) vs.

Lemma laps_from c n : forall t, exists laps t',
  timer_run c (repeat TCheckAndReset n) t = (map Some laps, t') /\ length laps = n /\
  (rsum laps + rsum (map (fun i => c (tm_ticks t + 2 * i + 1)%nat - c (tm_ticks t + 2 * i)%nat)%R (seq 0 n)) =
   match n with O => 0 | S m => c (tm_ticks t + 2 * m + 1)%nat - tm_t0 t end)%R.
Proof.
  induction n as [|n IH]; intros t.
  - exists [], t. cbn. repeat split. lra.
  - cbn [repeat timer_run].
    change (timer_step c TCheckAndReset t) with
      (Some (c (tm_ticks t) - tm_t0 t)%R, {| tm_t0 := c (S (tm_ticks t)); tm_ticks := S (S (tm_ticks t)) |}).
    destruct (IH {| tm_t0 := c (S (tm_ticks t)); tm_ticks := S (S (tm_ticks t)) |}) as (laps & t' & H1 & H2 & H3).
    rewrite H1. exists ((c (tm_ticks t) - tm_t0 t)%R :: laps), t'. split; [reflexivity|]. split; [cbn; lia|].
    cbn [tm_ticks tm_t0] in H3. cbn [seq map rsum fold_right].
    rewrite <- seq_shift, map_map.
    rewrite (map_ext _ (fun i => (c (S (S (tm_ticks t)) + 2 * i + 1)%nat - c (S (S (tm_ticks t)) + 2 * i)%nat)%R)).
    2:{ intros i. f_equal; f_equal; lia. }
    replace (tm_ticks t + 2 * 0 + 1)%nat with (S (tm_ticks t)) by lia.
    replace (tm_ticks t + 2 * 0)%nat with (tm_ticks t) by lia.
    fold (rsum laps). fold (rsum (map (fun i => (c (S (S (tm_ticks t)) + 2 * i + 1)%nat - c (S (S (tm_ticks t)) + 2 * i)%nat)%R) (seq 0 n))).
    destruct n as [|m].
    + destruct laps; [|discriminate]. cbn. replace (tm_ticks t + 0 + 1)%nat with (S (tm_ticks t)) by lia. lra.
    + replace (tm_ticks t + 2 * S m + 1)%nat with (S (S (tm_ticks t)) + 2 * m + 1)%nat by lia. lra.
Qed.

(** ** Dumping *)
Section PyInd.
  Variable P : py -> Prop.
  Hypothesis H_none : P PNone.
  Hypothesis H_bool : forall b, P (PBool b).
  Hypothesis H_int : forall n, P (PInt n).
  Hypothesis H_float : forall v, P (PFloat v).
  Hypothesis H_str : forall s, P (PStr s).
  Hypothesis H_list : forall l, Forall P l -> P (PList l).
  Hypothesis H_tuple : forall l, Forall P l -> P (PTuple l).
  Hypothesis H_dict : forall d, Forall (fun kv => P (snd kv)) d -> P (PDict d).
  Hypothesis H_path : forall s, P (PPath s).
  Hypothesis H_generic : forall v, P v -> P (PNpGeneric v).
  Hypothesis H_array : forall v, P v -> P (PNdarray v).
  Hypothesis H_enum : forall v, P v -> P (PEnum v).
  Hypothesis H_object : P PObject.
  Fixpoint py_ind_nested (p : py) : P p :=
    let go := fix go (l : list py) : Forall P l :=
      match l with [] => Forall_nil _ | p :: l => Forall_cons _ (py_ind_nested p) (go l) end in
    match p with
    | PNone => H_none | PBool b => H_bool b | PInt n => H_int n | PFloat v => H_float v | PStr s => H_str s
    | PList l => H_list l (go l)
    | PTuple l => H_tuple l (go l)
    | PDict d => H_dict d ((fix go (d : list (string * py)) : Forall (fun kv => P (snd kv)) d :=
        match d with [] => Forall_nil _ | kv :: d => Forall_cons _ (py_ind_nested (snd kv)) (go d) end) d)
    | PPath s => H_path s
    | PNpGeneric v => H_generic v (py_ind_nested v)
    | PNdarray v => H_array v (py_ind_nested v)
    | PEnum v => H_enum v (py_ind_nested v)
    | PObject => H_object
    end.
End PyInd.

(** The representation of lists and of the entries of a dictionary. *)
Definition represent_list (o : bool) : list py -> result (list node) :=
  fix go (l : list py) : result (list node) :=
    match l with [] => Ok [] | p :: l => do n <- represent o false p; do ns <- go l; Ok (n :: ns) end.
Definition represent_items (o : bool) : list (string * py) -> result (list (string * node)) :=
  fix go (d : list (string * py)) : result (list (string * node)) :=
    match d with
    | [] => Ok []
    | (k, p) :: d => do n <- represent o false p; do ns <- go d; Ok ((k, n) :: ns)
    end.
Lemma represent_PList o s l : represent o s (PList l) = do ns <- represent_list o l; Ok (YSeq ns).
Proof. reflexivity. Qed.
Lemma represent_PTuple o s l : represent o s (PTuple l) = do ns <- represent_list o l; Ok (YSeq ns).
Proof. reflexivity. Qed.
Lemma represent_PDict o s d : represent o s (PDict d) = do ns <- represent_items o d; Ok (YMap (sort_keys ns)).
Proof. reflexivity. Qed.

Lemma represent_super p : is_converted p = false -> forall o s, represent o s p = represent o false p.
Proof. intros H o s0. destruct p; try discriminate; reflexivity. Qed.

Lemma dict_dump_plain p : unwrapped_once p = true -> dict_dump p = safe_dump (plain p).
Proof.
  unfold dict_dump, safe_dump.
  induction p as [| | | | |l IH|l IH|d IH| |v IH|v IH|v IH|] using py_ind_nested; intros H; try reflexivity.
  - cbn [plain]. rewrite !represent_PList. cbn [unwrapped_once] in H.
    replace (represent_list false (map plain l)) with (represent_list true l); [reflexivity|].
    induction IH as [|p l Hp Hl IH']; [reflexivity|]. cbn [forallb] in H. apply andb_prop in H as [H1 H2].
    cbn [map represent_list]. fold (represent_list true l). rewrite (Hp H1), (IH' H2). reflexivity.
  - cbn [plain]. rewrite represent_PList, represent_PTuple. cbn [unwrapped_once] in H.
    replace (represent_list false (map plain l)) with (represent_list true l); [reflexivity|].
    induction IH as [|p l Hp Hl IH']; [reflexivity|]. cbn [forallb] in H. apply andb_prop in H as [H1 H2].
    cbn [map represent_list]. rewrite (Hp H1), (IH' H2). reflexivity.
  - cbn [plain]. rewrite !represent_PDict. cbn [unwrapped_once] in H.
    replace (represent_items false _) with (represent_items true d); [reflexivity|].
    induction IH as [|[k p] d Hp Hl IH']; [reflexivity|]. cbn [forallb snd] in H, Hp. apply andb_prop in H as [H1 H2].
    cbn [map represent_items]. rewrite (Hp H1), (IH' H2). reflexivity.
  - cbn [unwrapped_once] in H. apply andb_prop in H as [H1 H2]. cbn [plain represent andb negb].
    rewrite represent_super by (now destruct (is_converted v)). auto.
  - cbn [unwrapped_once] in H. apply andb_prop in H as [H1 H2]. cbn [plain represent andb negb].
    rewrite represent_super by (now destruct (is_converted v)). auto.
  - cbn [unwrapped_once] in H. apply andb_prop in H as [H1 H2]. cbn [plain represent andb negb].
    rewrite represent_super by (now destruct (is_converted v)). auto.
Qed.

Lemma insert_key_perm {V} k (v : V) d : Permutation ((k, v) :: d) (insert_key k v d).
Proof.
  induction d as [|[k' v'] d IH]; [reflexivity|]. cbn [insert_key]. destruct (String.ltb k' k); [|reflexivity].
  etransitivity; [apply perm_swap|]. now constructor.
Qed.
Lemma sort_keys_perm {V} (d : list (string * V)) : Permutation d (sort_keys d).
Proof.
  induction d as [|[k v] d IH]; [reflexivity|]. cbn [sort_keys]. etransitivity; [|apply insert_key_perm]. now constructor.
Qed.
Lemma ltb_false_leb a b : String.ltb a b = false -> String.leb b a = true.
Proof.
  unfold String.ltb, String.leb. rewrite (String.compare_antisym b a). destruct (String.compare a b); cbn; congruence.
Qed.
Lemma ltb_leb a b : String.ltb a b = true -> String.leb a b = true.
Proof. unfold String.ltb, String.leb. destruct (String.compare a b); congruence. Qed.
Lemma insert_key_sorted {V} k (v : V) d :
  Sorted (fun a b => String.leb (fst a) (fst b) = true) d ->
  Sorted (fun a b => String.leb (fst a) (fst b) = true) (insert_key k v d).
Proof.
  induction 1 as [|[k' v'] d Hd IH Hh]; [repeat constructor|]. cbn [insert_key].
  destruct (String.ltb k' k) eqn:E.
  - constructor; [assumption|]. destruct d as [|[k2 v2] d]; cbn [insert_key].
    + constructor. now apply ltb_leb.
    + destruct (String.ltb k2 k).
      * constructor. inversion Hh; assumption.
      * constructor. now apply ltb_leb.
  - constructor; [constructor; assumption|]. constructor. now apply ltb_false_leb.
Qed.
Lemma sort_keys_sorted {V} (d : list (string * V)) : Sorted (fun a b => String.leb (fst a) (fst b) = true) (sort_keys d).
Proof. induction d as [|[k v] d IH]; [constructor|]. cbn [sort_keys]. now apply insert_key_sorted. Qed.

Lemma represent_list_ok o l ns : Forall (fun p => forall n, represent o false p = Ok n -> depicts p n) l ->
  represent_list o l = Ok ns -> Forall2 depicts l ns.
Proof.
  intros H. revert ns. induction H as [|p l Hp Hl IH]; intros ns E.
  - injection E as <-. constructor.
  - cbn [represent_list] in E. destruct (represent o false p) as [n|] eqn:En; [|discriminate]. cbn [bind] in E.
    fold (represent_list o) in E.
    destruct (represent_list o l) as [ns'|] eqn:El; [|discriminate]. injection E as <-.
    constructor; auto.
Qed.
Lemma represent_items_ok o d ns : Forall (fun kv => forall n, represent o false (snd kv) = Ok n -> depicts (snd kv) n) d ->
  represent_items o d = Ok ns -> Forall2 (fun kv kn => fst kv = fst kn /\ depicts (snd kv) (snd kn)) d ns.
Proof.
  intros H. revert ns. induction H as [|[k p] d Hp Hl IH]; intros ns E.
  - injection E as <-. constructor.
  - cbn [represent_items] in E. destruct (represent o false p) as [n|] eqn:En; [|discriminate]. cbn [bind] in E.
    fold (represent_items o) in E.
    destruct (represent_items o d) as [ns'|] eqn:El; [|discriminate]. injection E as <-.
    constructor; auto.
Qed.

Lemma represent_sound p : forall o s n, represent o s p = Ok n -> depicts p n.
Proof.
  induction p as [| | | | |l IH|l IH|d IH| |v IH|v IH|v IH|] using py_ind_nested; intros o s0 n0 H;
    try (injection H as <-; constructor); try discriminate.
  - rewrite represent_PList in H. destruct (represent_list o l) as [ns|] eqn:E; [|discriminate].
    injection H as <-. constructor. eapply represent_list_ok; [|exact E].
    eapply Forall_impl; [|exact IH]. cbv beta. eauto.
  - rewrite represent_PTuple in H. destruct (represent_list o l) as [ns|] eqn:E; [|discriminate].
    injection H as <-. constructor. eapply represent_list_ok; [|exact E].
    eapply Forall_impl; [|exact IH]. cbv beta. eauto.
  - rewrite represent_PDict in H. destruct (represent_items o d) as [ns|] eqn:E; [|discriminate].
    injection H as <-. econstructor; [|apply sort_keys_perm|apply sort_keys_sorted].
    eapply represent_items_ok; [|exact E]. eapply Forall_impl; [|exact IH]. cbv beta. eauto.
  - cbn [represent] in H. destruct (o && negb s0); [|discriminate]. injection H as <-. constructor.
  - cbn [represent] in H. destruct (o && negb s0); [|discriminate]. constructor. eauto.
  - cbn [represent] in H. destruct (o && negb s0); [|discriminate]. constructor. eauto.
  - cbn [represent] in H. destruct (o && negb s0); [|discriminate]. constructor. eauto.
Qed.

Lemma dict_dump_succeeds p : unwrapped_once p = true -> (known p = true <-> exists n, dict_dump p = Ok n).
Proof.
  unfold dict_dump.
  assert (A : forall l, Forall (fun p => unwrapped_once p = true -> known p = true <-> exists n, represent true false p = Ok n) l ->
    forallb unwrapped_once l = true -> forallb known l = true <-> exists ns, represent_list true l = Ok ns).
  { induction 1 as [|q l Hp Hl IH]; intros H; [split; [exists []; reflexivity|reflexivity]|]. cbn [forallb] in H |- *. apply andb_prop in H as [H1 H2].
    specialize (Hp H1). specialize (IH H2). cbn [represent_list]. fold (represent_list true).
    rewrite andb_true_iff. rewrite Hp, IH. split.
    - intros [[n ->] [ns ->]]. cbn. eauto.
    - intros [ns E]. destruct (represent true false q) as [n|]; [|discriminate]. cbn [bind] in E.
      destruct (represent_list true l) as [ns'|]; [|discriminate]. split; eauto. }
  induction p as [| | | | |l IH|l IH|d IH| |v IH|v IH|v IH|] using py_ind_nested; intros H;
    try (split; [cbn; eauto|reflexivity]).
  - rewrite represent_PList. cbn [known unwrapped_once] in *. rewrite (A l IH H). split.
    + intros [ns ->]. cbn. eauto.
    + intros [n E]. destruct (represent_list true l); [eauto|discriminate].
  - rewrite represent_PTuple. cbn [known unwrapped_once] in *. rewrite (A l IH H). split.
    + intros [ns ->]. cbn. eauto.
    + intros [n E]. destruct (represent_list true l); [eauto|discriminate].
  - rewrite represent_PDict. cbn [known unwrapped_once] in *.
    assert (B : forallb (fun kv : string * py => let (_, v) := kv in known v) d = true <-> exists ns, represent_items true d = Ok ns).
    { induction IH as [|[k p] d Hp Hl IH']; [split; [exists []; reflexivity|reflexivity]|]. cbn [forallb snd] in H, Hp |- *. apply andb_prop in H as [H1 H2].
      specialize (Hp H1). specialize (IH' H2). cbn [represent_items]. fold (represent_items true).
      rewrite andb_true_iff, Hp, IH'. split.
      - intros [[n ->] [ns ->]]. cbn. eauto.
      - intros [ns E]. destruct (represent true false p) as [n|]; [|discriminate]. cbn [bind] in E.
        destruct (represent_items true d) as [ns'|]; [|discriminate]. split; eauto. }
    rewrite B. split.
    + intros [ns ->]. cbn. eauto.
    + intros [n E]. destruct (represent_items true d); [eauto|discriminate].
  - cbn [known unwrapped_once represent andb negb] in *. apply andb_prop in H as [H1 H2].
    rewrite (represent_super v) by (now destruct (is_converted v)). auto.
  - cbn [known unwrapped_once represent andb negb] in *. apply andb_prop in H as [H1 H2].
    rewrite (represent_super v) by (now destruct (is_converted v)). auto.
  - cbn [known unwrapped_once represent andb negb] in *. apply andb_prop in H as [H1 H2].
    rewrite (represent_super v) by (now destruct (is_converted v)). auto.
  - split; [discriminate|]. intros [n E]. discriminate.
Qed.

(** The converted value is made of plain data. *)
Lemma plain_idempotent p : is_converted (plain p) = false /\ plain (plain p) = plain p.
Proof.
  induction p as [| | | | |l IH|l IH|d IH| |v IH|v IH|v IH|] using py_ind_nested; try (split; reflexivity); try assumption.
  - split; [reflexivity|]. cbn [plain]. rewrite map_map. f_equal.
    apply map_ext_Forall. eapply Forall_impl; [|exact IH]. cbv beta. tauto.
  - split; [reflexivity|]. cbn [plain]. rewrite map_map. f_equal.
    apply map_ext_Forall. eapply Forall_impl; [|exact IH]. cbv beta. tauto.
  - split; [reflexivity|]. cbn [plain]. rewrite map_map. f_equal.
    apply map_ext_Forall. eapply Forall_impl; [|exact IH]. cbv beta. intros [k v] [_ E]. cbn in E |- *. now rewrite E.
Qed.

(** Proofs about the table of the benchmark of Bayesian mixtures. *)
From Coq Require Import String Ascii Lia.
From Verif Require Import Base BaseLemmas UtilsModel JaxModel SamplersModel BenchmarkModel BenchmarkSpec BenchmarkProofs TablesModel FiguresProofs
  RulesModel RulesSpec RulesProofs RulesThms GmmBenchModel GmmBenchSpec GmmBenchQuantiles GmmBenchRuns.
Open Scope Z_scope.
Local Notation length := List.length.

(** ** Orders of appearance *)
Lemma filter_all {A} (f : A -> bool) l : (forall x, In x l -> f x = true) -> filter f l = l.
Proof. induction l as [|x l IH]; intros H; [reflexivity|]. cbn. rewrite (H x) by (now left). f_equal. apply IH. intros y I. apply H. now right. Qed.
Lemma first_seen_in l x : In x (first_seen l) <-> In x l.
Proof.
  induction l as [|y l IH]; [reflexivity|]. cbn [first_seen In]. rewrite filter_In, IH.
  destruct (String.eqb_spec y x); intuition (subst; auto).
Qed.
Lemma first_seen_nodup l : NoDup (first_seen l).
Proof.
  induction l as [|y l IH]; [constructor|]. cbn. constructor; [|now apply NoDup_filter].
  rewrite filter_In. rewrite String.eqb_refl. intros [_ H]. discriminate.
Qed.
Lemma first_seen_snoc l x : first_seen (l ++ [x]) = if existsb (String.eqb x) l then first_seen l else (first_seen l ++ [x])%list.
Proof.
  induction l as [|y l IH]; [reflexivity|]. cbn [app first_seen existsb]. rewrite IH.
  destruct (String.eqb_spec x y) as [->|N]; cbn [orb].
  - f_equal. destruct (existsb (String.eqb y) l); [reflexivity|]. rewrite filter_app. cbn. rewrite String.eqb_refl. cbn. apply app_nil_r.
  - destruct (existsb (String.eqb x) l); [reflexivity|]. rewrite filter_app. cbn.
    destruct (String.eqb_spec y x); [congruence|]. reflexivity.
Qed.
Lemma first_seen_distinct l : NoDup l -> first_seen l = l.
Proof.
  induction 1 as [|x l N H IH]; [reflexivity|]. cbn. rewrite IH. f_equal.
  apply filter_all. intros y I. destruct (String.eqb_spec x y); [congruence|reflexivity].
Qed.

(** ** Last records *)
Lemma last_with_snoc (P : record -> Prop) l r : P r -> last_with P (l ++ [r]) r.
Proof. intros H. exists l, []. auto. Qed.
Lemma last_with_snoc_inv (P : record -> Prop) l r x : last_with P (l ++ [r]) x -> (P r /\ x = r) \/ (~ P r /\ last_with P l x).
Proof.
  intros (b & a & E & Hx & F). destruct a as [|y a] using rev_ind.
  - apply app_inj_tail in E as [-> <-]. auto.
  - clear IHa. rewrite app_comm_cons, app_assoc in E. apply app_inj_tail in E as [-> <-].
    apply Forall_app in F as [F1 F2]. inversion F2; subst. right. split; [assumption|]. exists b, a. auto.
Qed.
Lemma last_with_keep (P : record -> Prop) l r x : last_with P l x -> ~ P r -> last_with P (l ++ [r]) x.
Proof.
  intros (b & a & -> & Hx & F) H. exists b, (a ++ [r])%list. split; [now rewrite <- app_assoc|]. split; [exact Hx|].
  apply Forall_app. auto.
Qed.

(** ** Columns *)
Lemma run_column_inj a b : run_column a = run_column b -> a = b.
Proof. unfold run_column. cbn. intros H. injection H as H. now apply show_int_inj. Qed.
Lemma run_column_other k : run_column k <> "Task name"%string /\ run_column k <> "True MI"%string.
Proof. unfold run_column. cbn. split; discriminate. Qed.

Section Table.
  Variable two_digits : fl -> string.
  Variable names : sdict string.
  Let row_ok := table_row two_digits names.

  Lemma fresh_run k : sdict_get create_row (run_column k) = if ((1 <=? k) && (k <=? 3))%Z then Some (PStr "mean (qlow – qhigh)") else None.
  Proof.
    unfold create_row. destruct (run_column_other k) as [A B]. cbn [sdict_get].
    destruct (String.eqb_spec (run_column k) "Task name"); [congruence|]. destruct (String.eqb_spec (run_column k) "True MI"); [congruence|].
    assert (G : forall j, String.eqb (run_column k) (run_column j) = (k =? j)%Z).
    { intros j. destruct (String.eqb_spec (run_column k) (run_column j)) as [E|E].
      - apply run_column_inj in E. symmetry. now apply Z.eqb_eq.
      - symmetry. apply Z.eqb_neq. congruence. }
    change "Run 1"%string with (run_column 1). change "Run 2"%string with (run_column 2). change "Run 3"%string with (run_column 3).
    rewrite !G. destruct (k =? 1) eqn:E1; [apply Z.eqb_eq in E1; subst; reflexivity|]. destruct (k =? 2) eqn:E2; [apply Z.eqb_eq in E2; subst; reflexivity|].
    destruct (k =? 3) eqn:E3; [apply Z.eqb_eq in E3; subst; reflexivity|]. apply Z.eqb_neq in E1, E2, E3.
    replace ((1 <=? k) && (k <=? 3))%bool with false; [reflexivity|]. symmetry. apply andb_false_iff.
    destruct (Z.leb_spec 1 k); [right; apply Z.leb_gt; lia|now left].
  Qed.

  (** The rows after the records [pre]. *)
  Definition holds (tm : sdict (sdict py)) (pre : list record) : Prop :=
    map fst tm = first_seen (map g_task pre) /\ forall t row, sdict_get tm t = Some row -> row_ok pre t row.

  Lemma set_keys {V} (d : sdict V) k v : map fst (sdict_set d k v) = if existsb (String.eqb k) (map fst d) then map fst d else (map fst d ++ [k])%list.
  Proof.
    induction d as [|[k' v'] d IH]; [reflexivity|]. cbn [sdict_set map fst existsb app]. destruct (String.eqb_spec k k') as [->|N]; cbn [orb map fst]; [reflexivity|].
    rewrite IH. destruct (existsb (String.eqb k) (map fst d)); reflexivity.
  Qed.
  Lemma not_key {V} (d : sdict V) k : sdict_get d k = None <-> ~ In k (map fst d).
  Proof.
    induction d as [|[k' v'] d IH]; [cbn; tauto|]. cbn [sdict_get map fst In]. destruct (String.eqb_spec k k') as [->|N].
    - split; [discriminate|]. intros H. elim H. now left.
    - rewrite IH. split; [intros H [E|E]; [congruence|tauto]|tauto].
  Qed.
  Lemma existsb_eqb k l : existsb (String.eqb k) l = true <-> In k l.
  Proof.
    rewrite existsb_exists. split; [intros (y & I & E); apply String.eqb_eq in E; now subst|]. intros I. exists k. split; [exact I|apply String.eqb_refl].
  Qed.
  Lemma existsb_first_seen k l : existsb (String.eqb k) (first_seen l) = existsb (String.eqb k) l.
  Proof.
    destruct (existsb (String.eqb k) l) eqn:E.
    - apply existsb_eqb. apply first_seen_in. now apply existsb_eqb.
    - apply not_true_is_false. intros H. apply (proj1 (existsb_eqb _ _)) in H. apply (proj1 (first_seen_in _ _)) in H. apply (proj2 (existsb_eqb _ _)) in H. congruence.
  Qed.

  Lemma add_record_ok tm pre r tm' : holds tm pre -> add_record two_digits names tm r = Ok tm' -> holds tm' (pre ++ [r]).
  Proof.
    intros [Hk Hr]. unfold add_record, lookup. destruct (sdict_get names (g_task r)) as [name|] eqn:En; [|discriminate]. cbn [bind].
    set (old := match sdict_get tm (g_task r) with Some row => row | None => create_row end).
    set (new := sdict_set (sdict_set (sdict_set old "Task name" (PStr name)) "True MI" (PStr (two_digits (g_true r))))
                 ("Run " ++ show_int (g_seed r + 1)) (PStr (create_result_entry two_digits (g_mean r) (g_low r) (g_high r)))).
    intros [= <-]. split.
    - rewrite set_keys, Hk, existsb_first_seen, map_app. cbn [map]. rewrite first_seen_snoc. reflexivity.
    - intros t row. destruct (string_dec (g_task r) t) as [<-|N].
      + rewrite sdict_get_set_eq. intros [= <-]. fold (run_column (g_seed r + 1)) in new. destruct (run_column_other (g_seed r + 1)) as [A B].
        split; [|split; [|split]].
        * exists name. split; [exact En|]. unfold new. rewrite !sdict_get_set_neq by (try discriminate; auto). now rewrite sdict_get_set_eq.
        * exists r. split; [now apply last_with_snoc|]. unfold new. rewrite sdict_get_set_neq by auto. now rewrite sdict_get_set_eq.
        * intros k x Hx. apply last_with_snoc_inv in Hx as [[[_ E] ->]|[Nr Hx]].
          { subst k. unfold new. now rewrite sdict_get_set_eq. }
          destruct (run_column_other k) as [A' B'].
          assert (Nk : run_column (g_seed r + 1) <> run_column k) by (intros E; apply run_column_inj in E; tauto).
          unfold new. rewrite !sdict_get_set_neq by auto. unfold old.
          destruct (sdict_get tm (g_task r)) as [row|] eqn:Eo; [now apply (Hr _ _ Eo)|].
          apply not_key in Eo. elim Eo. rewrite Hk. apply first_seen_in. destruct Hx as (b & a & -> & [E _] & _). rewrite <- E.
          apply in_map, in_or_app. right. now left.
        * intros k Hno. destruct (run_column_other k) as [A' B'].
          assert (Nk : run_column (g_seed r + 1) <> run_column k).
          { intros E. apply run_column_inj in E. apply (Hno r); [apply in_or_app; right; now left|]. auto. }
          unfold new. rewrite !sdict_get_set_neq by auto. unfold old.
          destruct (sdict_get tm (g_task r)) as [row|] eqn:Eo; [|apply fresh_run].
          apply (Hr _ _ Eo). intros x I. apply Hno. apply in_or_app. now left.
      + rewrite sdict_get_set_neq by auto. intros G. destruct (Hr _ _ G) as (R1 & (x & X1 & X2) & R3 & R4).
        split; [exact R1|]. split; [|split].
        * exists x. split; [|exact X2]. apply last_with_keep; auto.
        * intros k y Hy. apply last_with_snoc_inv in Hy as [[[E _] _]|[_ Hy]]; [congruence|auto].
        * intros k Hno. apply R4. intros y I. apply Hno. apply in_or_app. now left.
  Qed.

  Lemma add_records_ok l : forall tm pre tm', holds tm pre -> add_records two_digits names tm l = Ok tm' -> holds tm' (pre ++ l).
  Proof.
    induction l as [|r l IH]; intros tm pre tm' H; cbn [add_records].
    - intros [= <-]. now rewrite app_nil_r.
    - destruct (add_record two_digits names tm r) as [tm1|] eqn:E; [|discriminate]. cbn [bind]. intros E2.
      replace (pre ++ r :: l)%list with ((pre ++ [r]) ++ l)%list by now rewrite <- app_assoc. eapply IH; [|exact E2]. eapply add_record_ok; eauto.
  Qed.

  Lemma add_records_total l : forall tm,
    (Forall (fun r => sdict_get names (g_task r) <> None) l -> exists tm', add_records two_digits names tm l = Ok tm') /\
    (~ Forall (fun r => sdict_get names (g_task r) <> None) l -> add_records two_digits names tm l = Err KeyError).
  Proof.
    induction l as [|r l IH]; intros tm; cbn [add_records].
    - split; [eauto|]. intros H. elim H. constructor.
    - unfold add_record, lookup. destruct (sdict_get names (g_task r)) as [name|] eqn:E; cbn [bind].
      + split; intros H.
        * apply IH. now inversion H.
        * apply IH. intros H2. apply H. constructor; [congruence|exact H2].
      + split; intros H; [inversion H; congruence|reflexivity].
  Qed.

  Lemma nodup_in_get {V} (d : sdict V) k v : NoDup (map fst d) -> In (k, v) d -> sdict_get d k = Some v.
  Proof.
    induction d as [|[k' v'] d IH]; intros N I; [destruct I|]. cbn [map fst] in N. inversion N; subst. cbn [sdict_get].
    destruct I as [[= -> ->]|I]; [now rewrite String.eqb_refl|]. destruct (String.eqb_spec k k') as [->|]; [|auto].
    elim H1. apply (in_map fst _ _ I).
  Qed.

  Lemma table_ok rows records table : map_rows read_record rows = Ok records -> create_table two_digits names rows = Ok table ->
    Forall2 (fun t row => table_row two_digits names records t row) (first_seen (map g_task records)) table.
  Proof.
    intros Hr. unfold create_table. rewrite Hr. cbn [bind]. destruct (add_records two_digits names [] records) as [tm|] eqn:E; [|discriminate]. cbn [bind].
    assert (H0 : holds [] []) by (split; [reflexivity|discriminate]).
    destruct (add_records_ok _ _ _ _ H0 E) as [Hk Hh]. cbn [app] in Hk, Hh.
    assert (G : Forall2 (fun t row => table_row two_digits names records t row) (map fst tm) (map snd tm)).
    { assert (N : NoDup (map fst tm)) by (rewrite Hk; apply first_seen_nodup).
      assert (F : Forall (fun kv => table_row two_digits names records (fst kv) (snd kv)) tm).
      { apply Forall_forall. intros [k v] I. apply Hh. now apply nodup_in_get. }
      clear -F. induction F; cbn; constructor; auto. }
    rewrite Hk in G. destruct tm; [discriminate|]. intros [= <-]. exact G.
  Qed.

  Lemma table_total rows records : map_rows read_record rows = Ok records ->
    (records <> [] /\ Forall (fun r => sdict_get names (g_task r) <> None) records -> exists table, create_table two_digits names rows = Ok table) /\
    (records = [] \/ ~ Forall (fun r => sdict_get names (g_task r) <> None) records -> create_table two_digits names rows = Err KeyError).
  Proof.
    intros Hr. unfold create_table. rewrite Hr. cbn [bind]. destruct (add_records_total records []) as [A B]. split.
    - intros [N F]. destruct (A F) as (tm & E). rewrite E. cbn [bind].
      assert (H0 : holds [] []) by (split; [reflexivity|discriminate]).
      destruct (add_records_ok _ _ _ _ H0 E) as [Hk _]. destruct tm; [|eauto]. destruct records; [easy|discriminate].
    - intros [->|F]; [reflexivity|]. now rewrite (B F).
  Qed.
End Table.

(** ** The table of a run *)
Definition record_of {J} (r : record) (tid : string) (t : task J) (e : posterior_estimator) (s : Z) (xs ys : matrix) : Prop :=
  g_task r = tid /\ g_seed r = s /\ mutual_information (t_sampler t) = Ok (g_true r) /\
  exists posterior filtered used, e xs ys = Ok posterior /\ summarizes posterior (g_low r) (g_mean r) (g_high r) filtered used.

Lemma read_row {J} h0 eid e (t : task J) s xs ys row : gmm_row_of h0 eid e t s xs ys row ->
  exists r, read_record row = Ok r /\ record_of r (t_id t) t e s xs ys.
Proof.
  intros ((mi & M1 & M2) & I & _ & _ & _ & S & post & low & mean & high & f & u & P & Sm & Lo & Me & Hi & _).
  unfold read_record, get_key. rewrite I, Me, Lo, Hi, M2, S. cbn [bind].
  eexists. split; [reflexivity|]. split; [reflexivity|]. split; [reflexivity|]. split; [exact M1|]. exists post, f, u. auto.
Qed.

Lemma in_pair_combinations (es ts : list string) ns ss e t n s : In (e, t, n, s) (combinations es ts ns ss) <-> In e es /\ In t ts /\ In n ns /\ In s ss.
Proof. unfold combinations. rewrite !in_prod_iff. tauto. Qed.

Lemma forall2_in_l {A B} (P : A -> B -> Prop) l k a : Forall2 P l k -> In a l -> exists b, In b k /\ P a b.
Proof.
  induction 1 as [|x y l k H F IH]; intros I; [destruct I|]. destruct I as [<-|I]; [exists y; split; [now left|exact H]|].
  destruct (IH I) as (b & J & Q). exists b. split; [now right|exact Q].
Qed.
Lemma forall2_in_r {A B} (P : A -> B -> Prop) l k b : Forall2 P l k -> In b k -> exists a, In a l /\ P a b.
Proof.
  induction 1 as [|x y l k H F IH]; intros I; [destruct I|]. destruct I as [<-|I]; [exists x; split; [now left|exact H]|].
  destruct (IH I) as (a & J & Q). exists a. split; [now right|exact Q].
Qed.
Lemma forall2_trans {A B C} (P : A -> B -> Prop) (Q : B -> C -> Prop) l k m : Forall2 P l k -> Forall2 Q k m -> Forall2 (fun a c => exists b, P a b /\ Q b c) l m.
Proof.
  intros H. revert m. induction H; intros m G; inversion G; subst; constructor; eauto.
Qed.
Lemma last_of_in (P : record -> Prop) (dec : forall x, {P x} + {~ P x}) l r : In r l -> P r -> exists x, last_with P l x.
Proof.
  intros I H. induction l as [|y l IH] using rev_ind; [destruct I|].
  destruct (dec y) as [D|D]; [exists y; now apply last_with_snoc|].
  apply in_app_or in I as [I|[->|[]]]; [|contradiction]. destruct (IH I) as (x & X). exists x. now apply last_with_keep.
Qed.
Lemma last_with_in (P : record -> Prop) l x : last_with P l x -> In x l /\ P x.
Proof. intros (b & a & -> & H & _). split; [apply in_or_app; right; now left|exact H]. Qed.

Section Whole.
  Context {J : prng}.
  Variables (eid : string) (e : posterior_estimator) (ts : sdict (task J)) (n : Z) (h0 : dheap) (show : R -> string) (parse : string -> option R).
  Variable two_digits : fl -> string.
  Variable names : sdict string.
  Let es := [(eid, e)].
  Let ns := [n].
  Let ss := [0; 1; 2].

  (** Rows of tasks one after the other. *)
  Lemma first_seen_blocks l : NoDup l -> first_seen (flat_map (fun t : string => [t; t; t]) l) = l.
  Proof.
    induction 1 as [|x l N H IH]; [reflexivity|]. cbn [flat_map app first_seen]. rewrite IH. repeat (cbn [filter negb]; rewrite ?String.eqb_refl). f_equal.
    assert (F : filter (fun y => negb (String.eqb x y)) l = l).
    { apply filter_all. intros y I. destruct (String.eqb_spec x y); [congruence|reflexivity]. }
    now rewrite !F.
  Qed.

  Lemma combinations_blocks l : map (fun q : string * string * Z * Z => snd (fst (fst q))) (combinations [eid] l [n] [0; 1; 2]) = flat_map (fun t => [t; t; t]) l.
  Proof.
    unfold combinations. cbn [list_prod]. rewrite app_nil_r. induction l as [|x l IH]; [reflexivity|]. cbn in *. now rewrite IH.
  Qed.

  Lemma whole_table sched w h' rows :
    gmm_config_ok show parse es ts ns ss h0 -> NoDup (map fst ts) -> ts <> [] ->
    (forall tid t, In (tid, t) ts -> t_id t = tid /\ sdict_get names tid <> None) ->
    gmm_make_all es ts show parse sched [] = Ok w -> gmm_results es ts ns ss w h0 = (h', Ok rows) ->
    exists table, create_table two_digits names rows = Ok table /\
      Forall2 (fun kv row => exists name mi, sdict_get names (fst kv) = Some name /\ mutual_information (t_sampler (snd kv)) = Ok mi /\
        sdict_get row "Task name"%string = Some (PStr name) /\ sdict_get row "True MI"%string = Some (PStr (two_digits mi)) /\
        forall k, (k = 1 \/ k = 2 \/ k = 3)%Z -> exists xs ys posterior r f u,
          sample_ok show parse (snd kv) n (k - 1) xs ys /\ e xs ys = Ok posterior /\
          summarizes posterior (g_low r) (g_mean r) (g_high r) f u /\
          sdict_get row (run_column k) = Some (PStr (cell two_digits r))) ts table.
  Proof.
    intros Hc Nd Hne Hts Hmk Hres. pose proof (gmm_rows_ok es ts ns ss h0 show parse sched w h' rows Hc Hmk Hres) as F.
    (* records *)
    assert (R : exists records, map_rows read_record rows = Ok records /\
      Forall2 (fun (q : string * string * Z * Z) r => exists t xs ys, sdict_get ts (snd (fst (fst q))) = Some t /\ sample_ok show parse t n (snd q) xs ys /\
         record_of r (snd (fst (fst q))) t e (snd q) xs ys) (combinations [eid] (map fst ts) [n] [0; 1; 2]) records).
    { change (map fst es) with [eid] in F. revert F. unfold ns, ss.
      assert (Q : Forall (fun q : string * string * Z * Z => fst (fst (fst q)) = eid /\ snd (fst q) = n) (combinations [eid] (map fst ts) [n] [0; 1; 2])).
      { apply Forall_forall. intros [[[a b] c] d] I. apply in_pair_combinations in I as (A & _ & C & _). cbn in *. intuition. }
      revert Q. generalize (combinations [eid] (map fst ts) [n] [0; 1; 2]). intros qs Q F. clear -F Q Hts. induction F as [|[[[a b] c] d] row qs rows H F IH].
      - exists []. split; [reflexivity|constructor].
      - pose proof (Forall_inv Q) as Q1. pose proof (Forall_inv_tail Q) as Q3. cbn [fst snd] in Q1. destruct Q1 as [-> ->]. destruct (IH Q3) as (records & E & G).
        destruct H as (e' & t & xs & ys & Ge & Gt & Hok & Hrow). cbn [sdict_get es] in Ge. unfold es in Ge. cbn [sdict_get] in Ge. rewrite String.eqb_refl in Ge. injection Ge as <-.
        destruct (read_row _ _ _ _ _ _ _ _ Hrow) as (r & Er & Hr). destruct (Hts _ _ (in_get _ _ _ Gt)) as [Hid _]. rewrite Hid in Hr.
        exists (r :: records). split; [cbn [map_rows]; rewrite Er; cbn [bind]; rewrite E; reflexivity|].
        constructor; [|exact G]. cbn [fst snd]. exists t, xs, ys. auto. }
    destruct R as (records & Er & Fr).
    assert (Ids : map g_task records = flat_map (fun t => [t; t; t]) (map fst ts)).
    { rewrite <- combinations_blocks. clear -Fr. induction Fr as [|q r qs records H F IH]; [reflexivity|]. cbn [map]. rewrite IH. f_equal.
      destruct H as (t & xs & ys & _ & _ & H & _). exact H. }
    destruct (table_total two_digits names rows records Er) as [T _].
    destruct T as (table & Et).
    { split.
      - intros ->. destruct ts as [|x l]; [easy|]. discriminate.
      - apply Forall_forall. intros r I. apply (in_map g_task) in I. rewrite Ids in I. apply in_flat_map in I as (x & I & Hx).
        assert (g_task r = x) by (cbn in Hx; intuition). rewrite H. apply in_map_iff in I as ((tid & t) & <- & I). now apply (Hts tid t). }
    exists table. split; [exact Et|]. pose proof (table_ok two_digits names rows records table Er Et) as G.
    rewrite Ids, first_seen_blocks in G by exact Nd.
    assert (K : forall tid t row, In (tid, t) ts -> table_row two_digits names records tid row ->
      exists name mi, sdict_get names tid = Some name /\ mutual_information (t_sampler t) = Ok mi /\
        sdict_get row "Task name"%string = Some (PStr name) /\ sdict_get row "True MI"%string = Some (PStr (two_digits mi)) /\
        forall k, (k = 1 \/ k = 2 \/ k = 3)%Z -> exists xs ys posterior r f u,
          sample_ok show parse t n (k - 1) xs ys /\ e xs ys = Ok posterior /\
          summarizes posterior (g_low r) (g_mean r) (g_high r) f u /\
          sdict_get row (run_column k) = Some (PStr (cell two_digits r))).
    { intros tid t row I ((name & N1 & N2) & (r & L & TM) & Cells & _). pose proof (nodup_in_get _ _ _ Nd I) as Gt.
      apply last_with_in in L as [Ir Tr]. destruct (forall2_in_r _ _ _ _ Fr Ir) as (q & _ & t' & xs & ys & Gt' & _ & (A1 & A2 & A3 & _)).
      assert (t' = t) by congruence. subst t'.
      exists name, (g_true r). split; [exact N1|]. split; [exact A3|]. split; [exact N2|]. split; [exact TM|].
      intros k Hk.
      assert (Iq : In (eid, tid, n, (k - 1)%Z) (combinations [eid] (map fst ts) [n] [0; 1; 2])).
      { apply in_pair_combinations. split; [now left|]. split; [apply (in_map fst _ _ I)|]. split; [now left|]. cbn. lia. }
      destruct (forall2_in_l _ _ _ _ Fr Iq) as (r0 & I0 & t0 & xs0 & ys0 & G0 & _ & (B1 & B2 & _)). cbn [fst snd] in *.
      destruct (last_of_in (fun x => g_task x = tid /\ g_seed x + 1 = k)) with (l := records) (r := r0) as (x & X); [|exact I0|split; [exact B1|lia]|].
      { intros x. destruct (string_dec (g_task x) tid), (Z.eq_dec (g_seed x + 1) k); intuition. }
      specialize (Cells k x X). apply last_with_in in X as [Ix [X1 X2]].
      destruct (forall2_in_r _ _ _ _ Fr Ix) as (q' & _ & t' & xs' & ys' & Gt'' & Ok' & (C1 & C2 & C3 & post & f & u & C4 & C5)).
      assert (t' = t) by congruence. subst t'. exists xs', ys', post, x, f, u. replace (k - 1) with (snd q') by lia. auto. }
    clear -G K. revert K. generalize dependent table. induction ts as [|[tid t] l IH]; intros table G K; inversion G; subst; constructor.
    - apply K; [now left|assumption].
    - apply IH; [assumption|]. intros; apply K; [now right|assumption].
  Qed.
End Whole.

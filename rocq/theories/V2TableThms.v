(** The printed table ([V2TableModel]). *)
From Coq Require Import String Permutation Sorted Lia Lra.
From Verif Require Import Base BaseLemmas UtilsModel GaussianModel BenchmarkModel BenchmarkSpec BenchmarkThms TablesModel TablesSpec TablesProofs
  TablesThms FiguresProofs ConfigModel ConfigSpec ConfigLoad V2TableModel V2TableSpec.
Open Scope R_scope.
Local Notation length := List.length.

(** ** Spread *)
Lemma numbers_same l : filter (fun v => negb (is_nan v)) l = numbers_of l.
Proof. apply numbers. Qed.
Lemma finite_all_ok l xs : finite_all l = Some xs -> l = map Fin xs.
Proof.
  revert xs. induction l as [|[x| | |] l IH]; intros xs; cbn; try discriminate; [intros [= <-]; reflexivity|].
  destruct (finite_all l) as [ys|]; [|discriminate]. intros [= <-]. cbn. f_equal. now apply IH.
Qed.
Lemma finite_all_none l : finite_all l = None -> In PInf l \/ In NInf l \/ In NaN l.
Proof.
  induction l as [|[x| | |] l IH]; cbn; try discriminate; try tauto.
  destruct (finite_all l); [discriminate|]. intros _. destruct (IH eq_refl) as [H|[H|H]]; tauto.
Qed.
Lemma in_numbers_of l x : In x (numbers_of l) <-> In x l /\ x <> NaN.
Proof.
  unfold numbers_of. rewrite filter_In. destruct x; split; intros [A B]; split; try exact A; try reflexivity; try discriminate; congruence.
Qed.
Lemma squares_nonneg (f : R -> R) xs : 0 <= rsum (map (fun x => f x * f x) xs).
Proof. induction xs as [|x xs IH]; cbn; [lra|]. assert (P := Rle_0_sqr (f x)). unfold Rsqr in P. change (0 <= f x * f x + rsum (map (fun x => f x * f x) xs)). lra. Qed.
Lemma std_spec l : deviation_of l (pd_std l).
Proof.
  unfold pd_std. rewrite numbers_same. destruct (finite_all (numbers_of l)) as [xs|] eqn:E.
  - apply finite_all_ok in E. destruct (Nat.ltb_spec (length xs) 2) as [H|H].
    + apply deviation_few. rewrite E, map_length. exact H.
    + apply (deviation_finite l xs); [exact H|exact E|]. fold (rmean xs).
      assert (N : 0 < INR (length xs) - 1). { apply le_INR in H. cbn in H. lra. }
      assert (S := squares_nonneg (fun x => x - rmean xs) xs).
      assert (Q : 0 <= rsum (map (fun x => (x - rmean xs) * (x - rmean xs)) xs) / (INR (length xs) - 1)).
      { apply Rmult_le_pos; [exact S|]. left. now apply Rinv_0_lt_compat. }
      split; [apply sqrt_pos|]. rewrite sqrt_def by exact Q. field. lra.
  - apply deviation_infinite. destruct (finite_all_none _ E) as [H|[H|H]]; apply in_numbers_of in H as [H N]; [now left|now right|congruence].
Qed.
Lemma map_Fin_inj (a b : list R) : map Fin a = map Fin b -> a = b.
Proof. revert b. induction a as [|x a IH]; intros [|y b]; cbn; try discriminate; [reflexivity|]. intros [= -> H]. f_equal. auto. Qed.
Lemma deviation_unique l v w : deviation_of l v -> deviation_of l w -> v = w.
Proof.
  assert (K : forall (l : list fl) xs, (2 <= length xs)%nat -> numbers_of l = map Fin xs -> deviation_of l NaN -> False).
  { intros k xs H E D. inversion D as [F|F|]; subst.
    - rewrite E, map_length in F. lia.
    - destruct F as [F|F]; apply (fun H => conj F H) in E; destruct E as [_ E]; assert (G : In _ (numbers_of k)) by (apply in_numbers_of; split; [exact F|discriminate]);
        rewrite E in G; apply in_map_iff in G as (? & ? & _); discriminate. }
  intros A B. inversion A as [HA|HA|xs s Hx Ex [Sx Dx]]; subst; inversion B as [HB|HB|ys r Hy Ey [Sy Dy]]; subst; try reflexivity.
  - exfalso. eapply K; eauto.
  - exfalso. eapply K; eauto.
  - exfalso. eapply K; eauto.
  - exfalso. eapply K; eauto.
  - rewrite Ex in Ey. apply map_Fin_inj in Ey. subst ys. f_equal.
    assert (N : 0 < INR (length xs) - 1). { apply le_INR in Hx. cbn in Hx. lra. }
    rewrite <- Dx in Dy. assert (E : r * r = s * s) by (apply (Rmult_eq_reg_r (INR (length xs) - 1)); lra).
    assert (E' : (r - s) * (r + s) = 0) by lra. apply Rmult_integral in E' as [E'|E']; nra.
Qed.

Lemma ceil_spec x : x <= np_ceil x < x + 1.
Proof.
  unfold np_ceil. destruct (base_Int_part (- x)) as [A B]. rewrite opp_IZR. lra.
Qed.
Lemma new_std_spec s v : 0 <= s -> (new_std (Fin s) = Fin v <-> hundredths_above s v).
Proof.
  intros P. unfold new_std. destruct (ceil_spec (100 * s)) as [A B]. unfold np_ceil in *. set (c := (- Int_part (- (100 * s)))%Z) in *.
  assert (M : Rmax (IZR c / 100) (1 / 100) = IZR (Z.max c 1) / 100).
  { destruct (Z.max_spec c 1) as [[L E]|[L E]]; rewrite E.
    - apply IZR_lt in L. rewrite Rmax_right; lra.
    - apply IZR_le in L. rewrite Rmax_left; lra. }
  assert (H : hundredths_above s (IZR (Z.max c 1) / 100)).
  { exists (Z.max c 1). split; [lia|]. split; [reflexivity|]. split.
    - assert (L : IZR c <= IZR (Z.max c 1)) by (apply IZR_le; lia). lra.
    - intros k' Hk Hs. apply Z.max_lub; [|exact Hk]. assert (IZR c < IZR k' + 1) by lra. rewrite <- plus_IZR in H. apply lt_IZR in H. lia. }
  rewrite M. split.
  - intros [= <-]. exact H.
  - intros (k & K1 & -> & K2 & K3). destruct H as (k' & L1 & L2 & L3 & L4). f_equal. rewrite L2.
    assert (k = k') by (apply Z.le_antisymm; [apply K3; [exact L1|lra]|apply L4; [exact K1|exact K2]]). now subst.
Qed.
Lemma hundredths_close s v : 0 <= s -> hundredths_above s v -> s <= v /\ 1 / 100 <= v /\ (v < s + 1 / 100 \/ v = 1 / 100).
Proof.
  intros P (k & K1 & -> & K2 & K3). split; [exact K2|]. assert (1 <= IZR k) by now apply IZR_le. split; [lra|].
  destruct (Z.eq_dec k 1) as [->|N]; [right; lra|left]. destruct (Rlt_dec (IZR k / 100) (s + 1 / 100)); [assumption|exfalso].
  assert (Q : (k <= k - 1)%Z). { apply K3; [lia|]. rewrite minus_IZR. lra. } lia.
Qed.
Lemma deviation_nonneg l s : deviation_of l (Fin s) -> 0 <= s.
Proof. intros H. inversion H as [| |xs s' H1 H2 [H3 H4]]. subst. exact H3. Qed.
Lemma shown_std l : exists s, deviation_of l s /\ rounded_up s (new_std (pd_std l)) /\ (s <> NaN -> exists r, s = Fin r /\ 0 <= r).
Proof.
  exists (pd_std l). assert (D := std_spec l). split; [exact D|]. destruct (pd_std l) as [r| | |].
  - assert (P := deviation_nonneg _ _ D). split; [|eauto]. destruct (new_std (Fin r)) as [v| | |] eqn:E; try discriminate.
    cbn. now apply new_std_spec.
  - inversion D.
  - inversion D.
  - split; [exact I|congruence].
Qed.

(** ** The table *)
Lemma some_in {A} (l : list A) : l <> [] -> exists x, In x l.
Proof. destruct l as [|x l]; [congruence|]. exists x. now left. Qed.
Section Table.
  Variables (two_digits : fl -> string) (results : list row).
  Let merged := map (fun g => (fst g, format_output two_digits (pd_mean (map r_estimate (snd g))) (new_std (pd_std (map r_estimate (snd g))))))
                   (group (fun r => (r_estimator r, r_task r)) results).
  Let truth := map (fun r => ("True MI"%string, r_task r, make_mi_true_nice two_digits (r_true r))) (first_of_each [] results).
  Let d := (merged ++ truth)%list.
  Let shown := {| tx_index := labels (map (fun x => snd (fst x)) d); tx_columns := labels (map (fun x => fst (fst x)) d);
     tx_values := map (fun t => map (fun e => find_text d e t) (labels (map (fun x => fst (fst x)) d))) (labels (map (fun x => snd (fst x)) d)) |}.

  Lemma table_unfold n : results <> [] -> create_benchmark_table two_digits results n = pivot_texts d.
  Proof.
    intros N. unfold create_benchmark_table. cbn zeta. fold truth.
    set (m0 := map _ (group _ _)). assert (E : map (fun x : string * string * fl * fl => match x with (k, m, s) => (k, format_output two_digits m (new_std s)) end) m0 = merged).
    { unfold m0, merged. rewrite map_map. reflexivity. }
    destruct m0 as [|x m0'] eqn:M.
    - exfalso. destruct (some_in _ N) as [r Hr]. assert (In (r_estimator r, r_task r) (map fst (group (fun r => (r_estimator r, r_task r)) results))).
      { apply (Permutation_in _ (Permutation_sym (group_keys _ _))), nodup_In, in_map_iff. eauto. }
      apply map_eq_nil in M. rewrite M in H. destruct H.
    - rewrite E. reflexivity.
  Qed.

  Lemma text_keys : map fst d = (map fst (group (fun r => (r_estimator r, r_task r)) results) ++ map (fun t => ("True MI"%string, t)) (map r_task (first_of_each [] results)))%list.
  Proof. unfold d, merged, truth. rewrite map_app, !map_map. reflexivity. Qed.
  Lemma group_in e t : In (e, t) (map fst (group (fun r => (r_estimator r, r_task r)) results)) <-> exists r, In r results /\ r_estimator r = e /\ r_task r = t.
  Proof.
    split.
    - intros H. apply (Permutation_in _ (group_keys _ _)) in H. apply nodup_In, in_map_iff in H as (r & E & H). injection E as <- <-. eauto.
    - intros (r & H & <- & <-). apply (Permutation_in _ (Permutation_sym (group_keys _ _))), nodup_In, in_map_iff. eauto.
  Qed.
  Lemma text_key_in e t : In (e, t) (map fst d) <-> (exists r, In r results /\ r_estimator r = e /\ r_task r = t) \/ (e = "True MI"%string /\ In t (map r_task results)).
  Proof.
    rewrite text_keys, in_app_iff, group_in, in_map_iff. split; (intros [H|H]; [now left|right]).
    - destruct H as (x & E & H). injection E as <- <-. split; [reflexivity|]. now apply first_in in H.
    - destruct H as [-> H]. exists t. split; [reflexivity|]. apply first_in. cbn. tauto.
  Qed.
  Lemma text_keys_distinct : NoDup (map fst d) <-> forall r, In r results -> r_estimator r <> "True MI"%string.
  Proof.
    rewrite text_keys. set (a := map fst (group _ _)). set (b := map _ (map r_task _)).
    assert (Na : NoDup a) by apply group_nodup.
    assert (Nb : NoDup b) by (apply FinFun.Injective_map_NoDup; [intros x y E; now injection E|apply first_nodup]).
    split.
    - intros N r H E. assert (Ia : In ("True MI"%string, r_task r) a) by (apply group_in; eauto).
      assert (Ib : In ("True MI"%string, r_task r) b). { apply in_map_iff. exists (r_task r). split; [reflexivity|]. apply first_in. split; [now apply in_map|intros []]. }
      clearbody a b. clear - N Ia Ib. induction a as [|x a IH]; [destruct Ia|]. cbn in N. inversion N as [|? ? A B]; subst. destruct Ia as [->|Ia]; [|auto].
      apply A, in_or_app. now right.
    - intros H. assert (Dj : forall x, In x a -> ~ In x b).
      { intros [e t] Ia Ib. apply group_in in Ia as (r & Hr & Er & _). apply in_map_iff in Ib as (? & [= <- _] & _). now apply (H r). }
      clearbody a b. clear -Na Nb Dj. induction a as [|x a' IH]; [exact Nb|]. apply NoDup_cons_iff in Na as [Nx Na]. cbn. constructor.
      + rewrite in_app_iff. intros [|]; [contradiction|]. eapply Dj; [now left|eassumption].
      + apply IH; [exact Na|]. intros y Hy. apply Dj. now right.
  Qed.

  Lemma table_made n : results <> [] ->
    ((forall r, In r results -> r_estimator r <> "True MI"%string) -> create_benchmark_table two_digits results n = Ok shown) /\
    (~ (forall r, In r results -> r_estimator r <> "True MI"%string) -> create_benchmark_table two_digits results n = Err ValueError).
  Proof.
    intros N. rewrite table_unfold by exact N. unfold pivot_texts. rewrite <- text_keys_distinct, <- (nodup_length pair_dec).
    destruct (Nat.eqb_spec (length (nodup pair_dec (map fst d))) (length (map fst d))); split; intros H; try reflexivity; contradiction.
  Qed.

  Lemma find_in e t v : NoDup (map fst d) -> In ((e, t), v) d -> find_text d e t = Some v.
  Proof.
    generalize d as k. induction k as [|[[e' t'] v'] k IH]; intros Nd I; [destruct I|]. cbn in Nd. apply NoDup_cons_iff in Nd as [N1 N2]. cbn.
    destruct I as [[= -> -> ->]|I]; [now rewrite !String.eqb_refl|]. destruct (String.eqb_spec e' e) as [->|]; [|now apply IH].
    destruct (String.eqb_spec t' t) as [->|]; [|now apply IH]. exfalso. apply N1. apply in_map_iff. now exists ((e, t), v).
  Qed.
  Lemma find_none e t : find_text d e t = None <-> ~ In (e, t) (map fst d).
  Proof.
    generalize d as k. induction k as [|[[e' t'] v'] k IH]; cbn; [tauto|].
    destruct (String.eqb_spec e' e) as [->|N]; cbn.
    - destruct (String.eqb_spec t' t) as [->|N]; cbn; [split; [discriminate|tauto]|]. rewrite IH. split; [intros H [[=]|K]; auto|tauto].
    - rewrite IH. split; [intros H [[=]|K]; auto|tauto].
  Qed.
  Lemma shown_cell task e v : text_cell shown task e v <->
    In task (tx_index shown) /\ In e (tx_columns shown) /\ v = find_text d e task.
  Proof.
    unfold text_cell. split.
    - intros (i & j & r & Hi & Hj & Hr & Hv). cbn in Hi, Hj, Hr.
      split; [apply (nth_error_In _ _ Hi)|]. split; [apply (nth_error_In _ _ Hj)|].
      rewrite nth_error_map, Hi in Hr. injection Hr as <-. rewrite nth_error_map, Hj in Hv. now injection Hv as <-.
    - intros (Hi & Hj & ->). apply In_nth_error in Hi as [i Hi], Hj as [j Hj]. exists i, j. eexists. split; [exact Hi|]. split; [exact Hj|].
      cbn in Hi, Hj |- *. rewrite nth_error_map, Hi. cbn. split; [reflexivity|]. now rewrite nth_error_map, Hj.
  Qed.

  Lemma shown_index : sorted_labels (tx_index shown) /\ sorted_labels (tx_columns shown) /\
    (forall task, In task (tx_index shown) <-> exists r, In r results /\ r_task r = task) /\
    (forall e, In e (tx_columns shown) <-> (exists r, In r results /\ r_estimator r = e) \/ (e = "True MI"%string /\ results <> [])).
  Proof.
    cbn. split; [split; [apply labels_nodup|apply labels_sorted]|]. split; [split; [apply labels_nodup|apply labels_sorted]|]. split.
    - intros task. rewrite labels_in. rewrite in_map_iff. split.
      + intros ([[e t] v] & <- & H). cbn. apply (in_map fst) in H. apply text_key_in in H as [(r & H & _ & E)|[_ H]]; [eauto|].
        apply in_map_iff in H as (r & E & H). eauto.
      + intros (r & H & <-). assert (K : In (r_estimator r, r_task r) (map fst d)) by (apply text_key_in; left; eauto).
        apply in_map_iff in K as (x & E & K). exists x. rewrite E. auto.
    - intros e. rewrite labels_in, in_map_iff. split.
      + intros ([[e' t] v] & <- & H). cbn. apply (in_map fst) in H. apply text_key_in in H as [(r & H & E & _)|[-> H]]; [left; eauto|].
        right. split; [reflexivity|]. intros ->. destruct H.
      + intros [(r & H & <-)|[-> N]].
        * assert (K : In (r_estimator r, r_task r) (map fst d)) by (apply text_key_in; left; eauto).
          apply in_map_iff in K as (x & E & K). exists x. rewrite E. auto.
        * destruct (some_in _ N) as [r Hr]. assert (K : In ("True MI"%string, r_task r) (map fst d)).
          { apply text_key_in. right. split; [reflexivity|]. now apply in_map. }
          apply in_map_iff in K as (x & E & K). exists x. rewrite E. auto.
  Qed.

  Lemma shown_runs task e v : (forall r, In r results -> r_estimator r <> "True MI"%string) -> e <> "True MI"%string -> text_cell shown task e v ->
    (runs results e task = [] /\ v = None) \/
    (runs results e task <> [] /\ exists m s s', mean_of (map r_estimate (runs results e task)) m /\ deviation_of (map r_estimate (runs results e task)) s /\
       rounded_up s s' /\ v = Some ("$" ++ two_digits m ++ " \pm " ++ two_digits s' ++ "$")%string).
  Proof.
    intros H He C. apply shown_cell in C as (_ & _ & ->). destruct (runs results e task) as [|r0 l0] eqn:E.
    - left. split; [reflexivity|]. apply find_none. rewrite text_key_in. intros [(r & Hr & E1 & E2)|[-> _]]; [|congruence].
      assert (K : In r (runs results e task)) by (apply in_runs; auto). rewrite E in K. destruct K.
    - right. split; [discriminate|]. rewrite <- E. set (l := map r_estimate (runs results e task)). destruct (shown_std l) as (s & D & U & _).
      exists (pd_mean l), s, (new_std (pd_std l)). split; [apply mean_spec|]. split; [exact D|]. split; [exact U|].
      apply find_in; [now apply text_keys_distinct|]. unfold d. apply in_or_app. left. unfold merged. apply in_map_iff.
      exists ((e, task), runs results e task). split; [reflexivity|]. unfold group. apply in_map_iff. exists (e, task). split.
      + now rewrite group_rows.
      + assert (K : In (e, task) (map fst (group (fun r => (r_estimator r, r_task r)) results))).
        { apply group_in. assert (K : In r0 (runs results e task)) by (rewrite E; now left). apply in_runs in K as (A & B & C). eauto. }
        unfold group in K. rewrite map_map, map_id in K. exact K.
  Qed.
  Lemma shown_truth task v : (forall r, In r results -> r_estimator r <> "True MI"%string) -> text_cell shown task "True MI" v ->
    exists before r after, results = (before ++ r :: after)%list /\ r_task r = task /\ ~ In task (map r_task before) /\
      v = Some ("\textbf{" ++ two_digits (r_true r) ++ "}")%string.
  Proof.
    intros H C. apply shown_cell in C as (It & _ & ->). apply shown_index in It as (r0 & I0 & E0).
    assert (K : In task (map r_task (first_of_each [] results))). { apply first_in. split; [|intros []]. rewrite <- E0. now apply in_map. }
    apply in_map_iff in K as (r & E & K). destruct (first_row _ _ _ K) as (b & a & F & N). exists b, r, a. split; [exact F|]. split; [exact E|].
    split; [now rewrite <- E|]. apply find_in; [now apply text_keys_distinct|]. unfold d. apply in_or_app. right. unfold truth. apply in_map_iff.
    exists r. now rewrite E.
  Qed.
End Table.

Lemma v2_total two_digits results n :
  (results = [] \/ (exists r, In r results /\ r_estimator r = "True MI"%string) -> create_benchmark_table two_digits results n = Err ValueError) /\
  (results <> [] -> (forall r, In r results -> r_estimator r <> "True MI"%string) -> exists t, create_benchmark_table two_digits results n = Ok t).
Proof.
  split.
  - intros [->|(r & Hr & E)]; [reflexivity|]. assert (N : results <> []) by (intros ->; destruct Hr).
    apply (proj2 (table_made two_digits results n N)). intros H. now apply (H r).
  - intros N H. eexists. now apply (proj1 (table_made two_digits results n N)).
Qed.
Lemma v2_made two_digits results n t : create_benchmark_table two_digits results n = Ok t ->
  results <> [] /\ (forall r, In r results -> r_estimator r <> "True MI"%string).
Proof.
  intros E. destruct results as [|r l]; [discriminate|]. split; [discriminate|]. intros r' H X.
  rewrite (proj1 (v2_total two_digits (r :: l) n)) in E; [discriminate|]. right. eauto.
Qed.
Lemma v2_index two_digits results n t : create_benchmark_table two_digits results n = Ok t ->
  sorted_labels (tx_index t) /\ sorted_labels (tx_columns t) /\
  (forall task, In task (tx_index t) <-> exists r, In r results /\ r_task r = task) /\
  (forall e, In e (tx_columns t) <-> (exists r, In r results /\ r_estimator r = e) \/ e = "True MI"%string) /\
  (forall task e, In task (tx_index t) -> In e (tx_columns t) -> exists v, text_cell t task e v).
Proof.
  intros E. destruct (v2_made _ _ _ _ E) as [N H]. rewrite (proj1 (table_made two_digits results n N) H) in E. injection E as <-.
  destruct (shown_index two_digits results) as (A & B & C & D). split; [exact A|]. split; [exact B|]. split; [exact C|]. split.
  - intros e. rewrite D. tauto.
  - intros task e It Ie. eexists. apply shown_cell. eauto.
Qed.
Lemma v2_cells two_digits results n t : create_benchmark_table two_digits results n = Ok t ->
  (forall task e v, e <> "True MI"%string -> text_cell t task e v ->
     (runs results e task = [] /\ v = None) \/
     (runs results e task <> [] /\ exists m s s', mean_of (map r_estimate (runs results e task)) m /\ deviation_of (map r_estimate (runs results e task)) s /\
        rounded_up s s' /\ v = Some ("$" ++ two_digits m ++ " \pm " ++ two_digits s' ++ "$")%string)) /\
  (forall task v, text_cell t task "True MI" v ->
     exists before r after, results = (before ++ r :: after)%list /\ r_task r = task /\ ~ In task (map r_task before) /\
       v = Some ("\textbf{" ++ two_digits (r_true r) ++ "}")%string).
Proof.
  intros E. destruct (v2_made _ _ _ _ E) as [N H]. rewrite (proj1 (table_made two_digits results n N) H) in E. injection E as <-. split.
  - intros task e v. now apply shown_runs.
  - intros task v. now apply shown_truth.
Qed.
Lemma v2_any_n two_digits results n m : create_benchmark_table two_digits results n = create_benchmark_table two_digits results m.
Proof. reflexivity. Qed.

(** ** Names *)
Lemma named_table two_digits names results t : create_benchmark_table two_digits results (Some 5000%Z) = Ok t ->
  ((forall r, In r results -> sdict_get names (r_task r) <> None) ->
     exists g, generate_table two_digits names results = Ok g /\ tx_columns g = tx_columns t /\ tx_values g = tx_values t /\
       Forall2 (fun task name => sdict_get names task = Some name) (tx_index t) (tx_index g)) /\
  (~ (forall r, In r results -> sdict_get names (r_task r) <> None) -> generate_table two_digits names results = Err KeyError).
Proof.
  intros E. unfold generate_table. rewrite E. cbn [bind]. destruct (v2_index _ _ _ _ E) as (_ & _ & C & _).
  assert (K : forall l out, map_rows (name_of names) l = Ok out -> Forall2 (fun task name => sdict_get names task = Some name) l out).
  { intros l out H. apply map_rows_ok in H. clear -H. induction H as [|a b l out H _ IH]; constructor; [|exact IH].
    unfold name_of in H. destruct (sdict_get names a); [now injection H as <-|discriminate]. }
  destruct (map_rows (name_of names) (tx_index t)) as [index|e] eqn:M; cbn [bind].
  - apply K in M. split.
    + intros _. eexists. split; [reflexivity|]. cbn. auto.
    + intros N. exfalso. apply N. intros r Hr. assert (I : In (r_task r) (tx_index t)) by (apply C; eauto).
      clear -M I. induction M; [destruct I|]. destruct I as [<-|I]; [congruence|auto].
  - destruct (map_rows_err _ _ _ M) as (a & I & X). unfold name_of in X. destruct (sdict_get names a) eqn:G; [discriminate|]. injection X as <-. split.
    + intros H. exfalso. apply C in I as (r & Hr & <-). now apply (H r).
    + reflexivity.
Qed.

Lemma get_in {A} (d : sdict A) k v : sdict_get d k = Some v -> In (k, v) d.
Proof.
  induction d as [|[k' v'] d IH]; cbn; [discriminate|]. destruct (String.eqb_spec k k') as [->|]; [intros [= ->]; now left|]. right. now apply IH.
Qed.
Lemma value_once {A} (d : sdict A) k k' v : NoDup (map snd d) -> In (k, v) d -> In (k', v) d -> k = k'.
Proof.
  induction d as [|[a b] d IH]; cbn; intros N I I'; [destruct I|]. apply NoDup_cons_iff in N as [Nb Nd].
  destruct I as [E|I], I' as [E'|I']; [congruence| | |auto].
  - exfalso. apply Nb. apply in_map_iff. exists (k', v). split; [cbn; congruence|exact I'].
  - exfalso. apply Nb. apply in_map_iff. exists (k, v). split; [cbn; congruence|exact I].
Qed.
(** With different names for different tasks every name has the row of its task. *)
Lemma named_cells (names : sdict string) t g : NoDup (map snd names) -> tx_columns g = tx_columns t -> tx_values g = tx_values t ->
  Forall2 (fun task name => sdict_get names task = Some name) (tx_index t) (tx_index g) ->
  forall name e v, text_cell g name e v <-> exists task, sdict_get names task = Some name /\ text_cell t task e v.
Proof.
  intros N Ec Ev F name e v. unfold text_cell. rewrite Ec, Ev. split.
  - intros (i & j & r & Hi & Hj & Hr & Hv). revert i Hi Hr. generalize (tx_values t) as vs. 
    induction F as [|a b l l' H F IH]; intros vs i Hi Hr; [destruct i; discriminate|]. destruct i as [|i].
    + cbn in Hi. injection Hi as ->. exists a. split; [exact H|]. exists 0%nat, j, r. auto.
    + destruct vs as [|x vs]; [discriminate|]. destruct (IH vs i Hi Hr) as (task & Ht & i' & j' & r' & A & B & C & D). exists task. split; [exact Ht|].
      exists (S i'), j', r'. auto.
  - intros (task & Ht & i & j & r & Hi & Hj & Hr & Hv). exists i, j, r. split; [|auto]. clear Hr Hv Hj. revert i Hi.
    induction F as [|a b l l' H F IH]; intros [|i] Hi; try discriminate; [|now apply IH]. cbn in Hi |- *. injection Hi as ->. congruence.
Qed.

Lemma names_known task : In task (map entry_id v2_catalogue) -> sdict_get v2_names task <> None.
Proof. cbn [v2_catalogue map entry_id In]. intros H. repeat (destruct H as [<-|H]; [cbn; discriminate|]). destruct H. Qed.
(** The results of the second version of the benchmark. *)
Lemma v2_printed two_digits results :
  (forall r, In r results -> In (r_estimator r) v2_estimators /\ r_n r = 5000%Z) ->
  (forall task, In task (map entry_id v2_catalogue) <-> In task (map r_task results)) ->
  exists g, generate_table two_digits v2_names results = Ok g /\ Permutation (tx_index g) (map snd v2_names) /\
    forall task name, sdict_get v2_names task = Some name -> forall e, In e v2_estimators -> (exists r, In r results /\ r_estimator r = e) ->
    exists v, text_cell g name e v /\
    ((runs results e task = [] /\ v = None) \/
     exists m s s', mean_of (map r_estimate (seeds results e task 5000)) m /\ deviation_of (map r_estimate (seeds results e task 5000)) s /\
        rounded_up s s' /\ v = Some ("$" ++ two_digits m ++ " \pm " ++ two_digits s' ++ "$")%string).
Proof.
  intros He Ht. assert (Nt : forall r, In r results -> r_estimator r <> "True MI"%string).
  { intros r Hr E. apply He in Hr as [Hr _]. rewrite E in Hr. cbn in Hr. intuition discriminate. }
  assert (Nr : results <> []). { intros ->. assert (K : In "1v1-AI"%string (map entry_id v2_catalogue)) by (cbn; tauto). apply Ht in K. destruct K. }
  destruct (proj2 (v2_total two_digits results (Some 5000%Z)) Nr Nt) as (t & E).
  destruct (proj1 (named_table _ v2_names _ _ E)) as (g & G & Gc & Gv & F).
  { intros r Hr. apply names_known, Ht. now apply in_map. }
  destruct (v2_index _ _ _ _ E) as ((A & _) & _ & C & D & X). destruct display_names as (P & Nn & _).
  assert (Sub : forall task, In task (tx_index t) <-> In task (map entry_id v2_catalogue)).
  { intros task. rewrite C, Ht, in_map_iff. split; intros (r & H1 & H2); eauto. }
  assert (Nk : NoDup (map fst v2_names)).
  { cbv [v2_names map fst]. repeat (constructor; [cbn; intuition discriminate|]). constructor. }
  exists g. split; [exact G|]. split.
  - apply NoDup_Permutation.
    + clear -F A Nn. induction F as [|a b l l' H F IH]; constructor.
      * intros I. apply NoDup_cons_iff in A as [Na A]. apply Na. clear IH. induction F as [|c d l l' Hc F IH]; [destruct I|]. destruct I as [->|I].
        -- left. apply get_in in H, Hc. now apply (value_once v2_names _ _ b).
        -- right. apply IH; [|now apply NoDup_cons_iff in A|exact I]. intros X. apply Na. now right.
      * apply IH. now apply NoDup_cons_iff in A.
    + exact Nn.
    + intros name. split.
      * intros I. clear -F I. induction F as [|a b l l' H F IH]; [destruct I|]. destruct I as [<-|I]; [|auto]. apply get_in in H. apply in_map_iff. now exists (a, b).
      * intros I. apply in_map_iff in I as ((task & n) & <- & I). cbn.
        assert (J : In task (tx_index t)). { apply Sub. apply (Permutation_in _ P), in_map_iff. now exists (task, n). }
        assert (V : sdict_get v2_names task = Some n).
        { clear -I Nk. revert Nk I. generalize v2_names as dd. induction dd as [|[k v] dd IH]; intros N I; [destruct I|]. cbn in N |- *. apply NoDup_cons_iff in N as [N1 N2].
          destruct I as [[= -> ->]|I]; [now rewrite String.eqb_refl|]. destruct (String.eqb_spec task k) as [->|]; [|auto]. exfalso. apply N1, in_map_iff. now exists (k, n). }
        clear -F J V. induction F as [|a b l l' H F IH]; [destruct J|]. destruct J as [->|J]; [left; congruence|right; auto].
  - intros task name Hn e Hee (r & Hr & Er).
    assert (It : In task (tx_index t)). { apply Sub. apply (Permutation_in _ P), in_map_iff. exists (task, name). split; [reflexivity|]. now apply get_in. }
    assert (Ie : In e (tx_columns t)) by (apply D; left; eauto).
    destruct (X task e It Ie) as (v & V). exists v. split.
    + apply (named_cells v2_names t g Nn Gc Gv F). eauto.
    + assert (Ne : e <> "True MI"%string) by (rewrite <- Er; auto).
      destruct (proj1 (v2_cells _ _ _ _ E) task e v Ne V) as [K|(_ & K)]; [left; exact K|right].
      assert (S : seeds results e task 5000 = runs results e task).
      { unfold seeds. assert (Q : forall x, In x (runs results e task) -> Z.eqb (r_n x) 5000 = true). { intros x Hx. apply in_runs in Hx as (Hx & _). apply He in Hx as [_ ->]. reflexivity. }
        revert Q. generalize (runs results e task) as l. induction l as [|a l IH]; intros Q; [reflexivity|]. cbn. rewrite Q by now left. f_equal. apply IH. intros x Hx. apply Q. now right. }
      rewrite S. exact K.
Qed.

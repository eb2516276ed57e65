(** Proofs about the figure comparing Bayesian mixtures with other estimators. *)
From Coq Require Import String Ascii Permutation Lia Lra.
From Verif Require Import Base BaseLemmas UtilsModel BenchmarkModel TablesModel TablesProofs FiguresProofs RulesModel CriticsModel ConfigModel
  GmmBenchModel GmmBenchSpec GmmBenchQuantiles BmmFigureModel.
Local Notation length := List.length.
Open Scope R_scope.

(** ** Heights *)
Lemma index_of_ok x l i : index_of x l = Ok i <-> (i < length l)%nat /\ nth i l ""%string = x /\ forall j, (j < i)%nat -> nth j l ""%string <> x.
Proof.
  revert i. induction l as [|y l IH]; intros i; cbn [index_of length].
  - split; [discriminate|intros (H & _); lia].
  - destruct (String.eqb_spec x y) as [->|N].
    + split.
      * intros [= <-]. split; [lia|]. split; [reflexivity|]. intros j H. lia.
      * intros (_ & _ & H). destruct i as [|i]; [reflexivity|]. exfalso. now apply (H 0%nat ltac:(lia)).
    + destruct (index_of x l) as [k|] eqn:E; cbn [bind].
      * specialize (IH k). destruct (proj1 IH eq_refl) as (A & B & C). split.
        -- intros [= <-]. split; [lia|]. split; [exact B|]. intros [|j] H; [cbn; congruence|]. apply C. lia.
        -- intros (D1 & D2 & D3). f_equal. destruct i as [|i]; [cbn in D2; congruence|]. f_equal.
           destruct (Nat.lt_trichotomy i k) as [L|[->|L]]; [|reflexivity|].
           ++ elim (C i L). exact D2.
           ++ elim (D3 (S k) ltac:(lia)). exact B.
      * split; [discriminate|]. intros (D1 & D2 & D3). destruct i as [|i]; [cbn in D2; congruence|].
        assert (X : @Err nat e = Ok i) by (apply IH; split; [lia|split; [exact D2|intros j Hj; apply (D3 (S j)); lia]]). discriminate X.
Qed.
Lemma index_of_err x l : ~ In x l -> index_of x l = Err ValueError.
Proof.
  induction l as [|y l IH]; intros H; [reflexivity|]. cbn [index_of]. destruct (String.eqb_spec x y) as [->|N]; [elim H; now left|].
  rewrite IH; [reflexivity|]. intros I. apply H. now right.
Qed.
Lemma index_of_in x l : In x l -> exists i, index_of x l = Ok i.
Proof.
  induction l as [|y l IH]; intros H; [destruct H|]. cbn [index_of]. destruct (String.eqb_spec x y) as [->|N]; [eauto|].
  destruct H as [H|H]; [congruence|]. destruct (IH H) as (i & ->). cbn. eauto.
Qed.

Definition strip (s : y_scaler) (i : nat) (y : R) : Prop := INR i / INR (ys_n s) < y < INR (i + 1) / INR (ys_n s).

Section Heights.
  Variables (s : y_scaler) (id : string) (i m : nat) (ys : list R).
  Hypothesis Hpos : 0 < ys_eps s.
  Hypothesis Hi : index_of id (ys_ids s) = Ok i.
  Hypothesis Hy : get_y s id m = Ok ys.
  Let n := INR (ys_n s).
  Let lo := INR i / n + ys_eps s.
  Let hi := INR (i + 1) / n - ys_eps s.

  Lemma n_positive : 0 < n.
  Proof. apply index_of_ok in Hi as (A & _). unfold n, ys_n. apply lt_0_INR. lia. Qed.
  Lemma ys_shape : length ys = m /\ forall j, (j < m)%nat -> nth j ys 0 = lo + INR j * ((hi - lo) / INR (m - 1)).
  Proof.
    unfold get_y in Hy. rewrite Hi in Hy. cbn [bind] in Hy. unfold linspace in Hy.
    destruct (Z.ltb_spec (Z.of_nat m) 0); [lia|]. rewrite Nat2Z.id in Hy. fold n lo hi in Hy. injection Hy as <-. split; [now rewrite map_length, seq_length|].
    intros j Hj. set (f := fun k => lo + INR k * ((hi - lo) / IZR (Z.of_nat m - 1))).
    assert (E : nth j (map f (seq 0 m)) 0 = f j).
    { rewrite (nth_indep _ 0 (f 0%nat)) by (now rewrite map_length, seq_length). rewrite map_nth, seq_nth by exact Hj. reflexivity. }
    rewrite E. unfold f. rewrite INR_IZR_INZ with (n := (m - 1)%nat). rewrite Nat2Z.inj_sub by lia. reflexivity.
  Qed.
  Lemma width : INR (i + 1) / n = INR i / n + 1 / n.
  Proof. rewrite plus_INR. cbn. field. pose proof n_positive. lra. Qed.

  Lemma ys_first : (0 < m)%nat -> nth 0 ys 0 = lo.
  Proof. intros H. rewrite (proj2 ys_shape 0%nat H). cbn [INR]. lra. Qed.
  Lemma ys_last : (1 < m)%nat -> nth (m - 1) ys 0 = hi.
  Proof. intros H. rewrite (proj2 ys_shape (m - 1)%nat ltac:(lia)). assert (0 < INR (m - 1)) by (apply lt_0_INR; lia). field. lra. Qed.

  Lemma ys_strip : (0 < m)%nat -> (Forall (strip s i) ys <-> ys_eps s < 1 / n).
  Proof.
    intros Hm. unfold strip. fold n. rewrite width. destruct ys_shape as [L G]. split.
    - intros F. rewrite Forall_forall in F. specialize (F (nth 0 ys 0) ltac:(apply nth_In; lia)). rewrite (ys_first Hm) in F. unfold lo in F. lra.
    - intros He. apply Forall_forall. intros y I. apply (In_nth _ _ 0) in I as (j & Lj & <-). rewrite L in Lj. rewrite (G j Lj).
      assert (Hhi : hi = INR i / n + 1 / n - ys_eps s) by (unfold hi; now rewrite width).
      destruct (Nat.eq_dec m 1) as [->|N].
      + replace j with 0%nat by lia. cbn [INR]. unfold lo. lra.
      + assert (P : 0 < INR (m - 1)) by (apply lt_0_INR; lia).
        assert (T : 0 <= INR j / INR (m - 1) <= 1).
        { split; [apply Rmult_le_pos; [apply pos_INR|left; now apply Rinv_0_lt_compat]|].
          apply (Rmult_le_reg_r (INR (m - 1))); [exact P|]. replace (INR j / INR (m - 1) * INR (m - 1)) with (INR j) by (field; lra).
          rewrite Rmult_1_l. apply le_INR. lia. }
        replace (INR j * ((hi - lo) / INR (m - 1))) with (INR j / INR (m - 1) * (hi - lo)) by (field; lra).
        set (t := INR j / INR (m - 1)) in *. rewrite Hhi. unfold lo. set (b := INR i / n). set (w := 1 / n) in *. set (ep := ys_eps s) in *.
        assert (X : forall u v, 0 < u -> 0 < v -> 0 < (1 - t) * u + t * v).
        { intros u v Hu Hv. destruct (Rle_lt_dec t (1 / 2)).
          - assert (0 <= t * v) by (apply Rmult_le_pos; lra). assert (0 < (1 - t) * u) by (apply Rmult_lt_0_compat; lra). lra.
          - assert (0 < t * v) by (apply Rmult_lt_0_compat; lra). assert (0 <= (1 - t) * u) by (apply Rmult_le_pos; lra). lra. }
        pose proof (X ep (w - ep) Hpos ltac:(lra)). pose proof (X (w - ep) ep ltac:(lra) Hpos). split; lra.
  Qed.

  Lemma ys_between : ys_eps s <= 1 / (2 * n) -> Forall (fun y => lo <= y <= hi) ys.
  Proof.
    intros He. destruct ys_shape as [L G]. pose proof n_positive as Np.
    assert (Hw : 1 / (2 * n) = / 2 * (1 / n)) by (field; lra).
    assert (Hlh : lo <= hi) by (unfold lo, hi; rewrite width; lra).
    apply Forall_forall. intros y I. apply (In_nth _ _ 0) in I as (j & Lj & <-). rewrite L in Lj. rewrite (G j Lj).
    destruct (Nat.eq_dec m 1) as [->|N].
    - replace j with 0%nat by lia. cbn [INR]. lra.
    - assert (P : 0 < INR (m - 1)) by (apply lt_0_INR; lia).
      assert (T : 0 <= INR j / INR (m - 1) <= 1).
      { split; [apply Rmult_le_pos; [apply pos_INR|left; now apply Rinv_0_lt_compat]|].
        apply (Rmult_le_reg_r (INR (m - 1))); [exact P|]. replace (INR j / INR (m - 1) * INR (m - 1)) with (INR j) by (field; lra).
        rewrite Rmult_1_l. apply le_INR. lia. }
      replace (INR j * ((hi - lo) / INR (m - 1))) with (INR j / INR (m - 1) * (hi - lo)) by (field; lra). nra.
  Qed.

  Lemma tick_middle : nth i (get_tick_locations s) 0 = (lo + hi) / 2 /\ strip s i (nth i (get_tick_locations s) 0).
  Proof.
    pose proof n_positive as Np. apply index_of_ok in Hi as (A & _).
    assert (E : nth i (get_tick_locations s) 0 = (INR i + 1 / 2) / n).
    { unfold get_tick_locations. fold n. set (f := fun k => (INR k + 1 / 2) / n).
      rewrite (nth_indep _ 0 (f 0%nat)) by (now rewrite map_length, seq_length). rewrite map_nth, seq_nth by exact A. reflexivity. }
    rewrite E. split; [unfold lo, hi; rewrite plus_INR; cbn; field; lra|]. unfold strip. fold n. rewrite plus_INR. cbn.
    split; apply Rmult_lt_compat_r; try (apply Rinv_0_lt_compat; exact Np); lra.
  Qed.
End Heights.

Lemma scaler_made ids eps : (0 < eps -> make_scaler ids eps = Ok {| ys_ids := ids; ys_eps := eps |}) /\
  (eps <= 0 -> make_scaler ids eps = Err AssertionError).
Proof.
  unfold make_scaler. destruct (Rltb 0 eps) eqn:E; [apply Rltb_true in E|apply Rltb_false in E]; split; intros H; auto; lra.
Qed.

Lemma get_y_total s id m : (In id (ys_ids s) -> exists ys, get_y s id m = Ok ys) /\ (~ In id (ys_ids s) -> get_y s id m = Err ValueError).
Proof.
  unfold get_y. split; intros H.
  - destruct (index_of_in _ _ H) as (i & ->). cbn [bind]. unfold linspace. destruct (Z.ltb_spec (Z.of_nat m) 0); [lia|eauto].
  - now rewrite index_of_err.
Qed.

(** Strips do not meet. *)
Lemma strips_apart s i j y z : (i < j)%nat -> (0 < ys_n s)%nat -> strip s i y -> strip s j z -> y < z.
Proof.
  intros H P [_ A] [B _]. apply lt_0_INR in P.
  assert (INR (i + 1) / INR (ys_n s) <= INR j / INR (ys_n s)).
  { apply Rmult_le_compat_r; [left; now apply Rinv_0_lt_compat|]. apply le_INR. lia. }
  lra.
Qed.

(** ** One panel *)
Lemma errorbar_total x lengths : (Forall (fun e => 0 <= fst e /\ 0 <= snd e) lengths -> exists bars, errorbar x lengths = Ok bars) /\
  (~ Forall (fun e => 0 <= fst e /\ 0 <= snd e) lengths -> errorbar x lengths = Err ValueError).
Proof.
  unfold errorbar. destruct (existsb _ lengths) eqn:E.
  - apply existsb_exists in E as (e & I & E). split; intros H; [|reflexivity]. exfalso. rewrite Forall_forall in H. specialize (H e I).
    apply orb_true_iff in E as [E|E]; apply Rltb_true in E; lra.
  - split; intros H; [eauto|]. exfalso. apply H. apply Forall_forall. intros e I.
    apply not_true_iff_false in E. assert (X : (Rltb (fst e) 0 || Rltb (snd e) 0)%bool = false).
    { apply not_true_iff_false. intros X. apply E. apply existsb_exists. eauto. }
    apply orb_false_iff in X as [X1 X2]. apply Rltb_false in X1, X2. lra.
Qed.

Section Panel.
  Variables (s : y_scaler) (data_v2 : list row) (data_bmm : list record) (n : Z) (ids : list string) (task : string).
  Let sub := filter (fun r => String.eqb (g_task r) task) data_bmm.
  Definition row_for (e : string) (r : row) : bool := (String.eqb (r_task r) task && String.eqb (r_estimator r) e && Z.eqb (r_n r) n)%bool.

  Lemma point_estimates_ok out : point_estimates s data_v2 n task ids = Ok out ->
    Forall2 (fun e o => fst o = e /\ exists ys, get_y s e (length (filter (row_for e) data_v2)) = Ok ys /\
     snd o = combine (map r_estimate (filter (row_for e) data_v2)) ys) ids out.
  Proof.
    revert out. induction ids as [|e l IH]; intros out; cbn [point_estimates].
    - intros [= <-]. constructor.
    - rewrite map_length. fold (row_for e). change (filter (fun r => (String.eqb (r_task r) task && String.eqb (r_estimator r) e && Z.eqb (r_n r) n)%bool) data_v2) with (filter (row_for e) data_v2).
      destruct (get_y s e _) as [ys|] eqn:E; [|discriminate]. cbn [bind]. destruct (point_estimates s data_v2 n task l) as [rest|]; [|discriminate].
      cbn [bind]. intros [= <-]. constructor; [|auto]. split; [reflexivity|]. exists ys. auto.
  Qed.
  Lemma point_estimates_total : (forall e, In e ids -> In e (ys_ids s)) -> exists out, point_estimates s data_v2 n task ids = Ok out.
  Proof.
    induction ids as [|e l IH]; intros H; cbn [point_estimates]; [eauto|].
    destruct (proj1 (get_y_total s e (length (map r_estimate (filter (fun r => (String.eqb (r_task r) task && String.eqb (r_estimator r) e && Z.eqb (r_n r) n)%bool) data_v2))))) as (ys & E); [apply H; now left|].
    rewrite E. cbn [bind]. destruct IH as (out & ->); [intros x I; apply H; now right|]. cbn. eauto.
  Qed.

  Lemma bars_exact (l : list record) bars : errorbar (map g_mean l) (map (fun r => (g_mean r - g_low r, g_high r - g_mean r)) l) = Ok bars ->
    bars = map (fun r => (g_low r, g_high r)) l.
  Proof.
    unfold errorbar. destruct (existsb _ _); [discriminate|]. intros [= <-]. clear. induction l as [|r l IH]; [reflexivity|].
    cbn [map combine fst snd]. rewrite IH. f_equal. f_equal; lra.
  Qed.

  Lemma panel_shows p : draw_panel s data_v2 data_bmm n ids task = Ok p ->
    exists ys, get_y s "BMM" (length sub) = Ok ys /\
     p_bars p = combine ys (map (fun r => (g_low r, g_high r)) sub) /\
     p_dots p = combine (map g_mean sub) ys /\
     Forall2 (fun e o => fst o = e /\ exists ys, get_y s e (length (filter (row_for e) data_v2)) = Ok ys /\
       snd o = combine (map r_estimate (filter (row_for e) data_v2)) ys) ids (p_estimates p) /\
     p_true p = pd_mean (map r_true (filter (fun r => String.eqb (r_task r) task) data_v2)).
  Proof.
    unfold draw_panel. fold sub. destruct (filter (fun r => String.eqb (r_task r) task) data_v2) as [|r0 rs] eqn:E; [discriminate|].
    destruct (get_y s "BMM" (length sub)) as [ys|] eqn:Ey; [|discriminate]. cbn [bind].
    destruct (errorbar _ _) as [bars|] eqn:Eb; [|discriminate]. cbn [bind].
    destruct (point_estimates _ _ _ _ _) as [est|] eqn:Ee; [|discriminate]. cbn [bind]. intros H. injection H as <-. cbn [p_bars p_dots p_estimates p_true].
    exists ys. apply bars_exact in Eb. subst bars. repeat split. now apply point_estimates_ok.
  Qed.

  Lemma panel_fails : In "BMM"%string (ys_ids s) -> (forall e, In e ids -> In e (ys_ids s)) ->
    (~ (exists r, In r data_v2 /\ r_task r = task) -> draw_panel s data_v2 data_bmm n ids task = Err KeyError) /\
   ((exists r, In r data_v2 /\ r_task r = task) ->
      ((forall r, In r data_bmm -> g_task r = task -> g_low r <= g_mean r <= g_high r) -> exists p, draw_panel s data_v2 data_bmm n ids task = Ok p) /\
     (~ (forall r, In r data_bmm -> g_task r = task -> g_low r <= g_mean r <= g_high r) -> draw_panel s data_v2 data_bmm n ids task = Err ValueError)).
  Proof.
    intros Hb Hids. unfold draw_panel. fold sub.
    assert (Hex : (exists r, In r data_v2 /\ r_task r = task) <-> filter (fun r => String.eqb (r_task r) task) data_v2 <> []).
    { split.
      - intros (r & I & E) N. assert (X : In r (filter (fun r => String.eqb (r_task r) task) data_v2)) by (apply filter_In; split; [exact I|now apply String.eqb_eq]).
        rewrite N in X. destruct X.
      - destruct (filter _ data_v2) as [|r l] eqn:E; [easy|]. intros _. exists r. assert (I : In r (r :: l)) by now left. rewrite <- E in I.
        apply filter_In in I as [I J]. apply String.eqb_eq in J. auto. }
    assert (Hbars : (forall r, In r data_bmm -> g_task r = task -> g_low r <= g_mean r <= g_high r) <->
                    Forall (fun e => 0 <= fst e /\ 0 <= snd e) (map (fun r => (g_mean r - g_low r, g_high r - g_mean r)) sub)).
    { rewrite Forall_map, Forall_forall. cbn [fst snd]. unfold sub. split; intros H r.
      - rewrite filter_In, String.eqb_eq. intros [I E]. specialize (H r I E). lra.
      - intros I E. assert (X : In r (filter (fun r => String.eqb (g_task r) task) data_bmm)) by (apply filter_In; split; [exact I|now apply String.eqb_eq]).
        specialize (H r X). lra. }
    destruct (proj1 (get_y_total s "BMM" (length sub)) Hb) as (ys & Ey). rewrite Ey.
    destruct (point_estimates_total Hids) as (est & Ee). rewrite Ee.
    destruct (errorbar_total (map g_mean sub) (map (fun r => (g_mean r - g_low r, g_high r - g_mean r)) sub)) as [T1 T2].
    split.
    - intros H. destruct (filter _ data_v2); [reflexivity|]. exfalso. apply H, Hex. discriminate.
    - intros H. apply Hex in H. destruct (filter _ data_v2); [easy|]. cbn [bind]. split; intros K.
      + apply Hbars in K. destruct (T1 K) as (bars & ->). cbn. eauto.
      + rewrite T2; [reflexivity|]. now rewrite <- Hbars.
  Qed.
End Panel.

(** The truth: the rows of a task have one value. *)
Lemma mean_same (v : R) l : l <> [] -> Forall (eq (Fin v)) l -> pd_mean l = Fin v.
Proof.
  intros N F. unfold pd_mean.
  assert (E : filter (fun v => negb (is_nan v)) l = l).
  { clear N. induction F as [|x l <- F IH]; [reflexivity|]. cbn. now rewrite IH. }
  rewrite E. destruct l as [|x l]; [easy|]. 
  assert (S : fl_sum (x :: l) = Fin (INR (length (x :: l)) * v)).
  { clear N E. unfold fl_sum. induction F as [|y k <- F IH]; [cbn; f_equal; lra|]. cbn [fold_right]. rewrite IH. cbn [fl_add length]. f_equal. rewrite S_INR. lra. }
  rewrite S. cbn [fl_divp]. f_equal. assert (0 < INR (length (x :: l))) by (apply lt_0_INR; cbn; lia). field. lra.
Qed.

(** ** When the mean is between the quantiles *)
Lemma summary_mean_inside l : (length (finite_values l) <= 10)%nat ->
  s_low (summarize l) <= s_mean (summarize l) <= s_high (summarize l).
Proof.
  intros H. unfold summarize. destruct (0 <? _)%Z eqn:E; cbn [s_low s_mean s_high]; [|lra]. apply Z.ltb_lt in E.
  assert (N : finite_values l <> []) by (intros N; rewrite N in E; cbn in E; lia).
  split; [now apply low_at_most_mean|now apply high_at_least_mean].
Qed.

Lemma finite_values_fin l : finite_values (map Fin l) = l.
Proof. induction l as [|r l IH]; cbn; [reflexivity|now rewrite IH at 1]. Qed.

Lemma summary_mean_outside m : (11 <= m)%nat -> exists l, length l = m /\ Forall (fun v => exists r, v = Fin r /\ 0 <= r) l /\
  s_high (summarize l) < s_mean (summarize l).
Proof.
  intros H. destruct (outlier_high (m - 1) ltac:(lia)) as [A B]. set (l := (repeat 0 (m - 1) ++ [100])%list) in *.
  assert (L : length l = m) by (unfold l; rewrite app_length, repeat_length; cbn; lia).
  exists (map Fin l). split; [now rewrite map_length|]. split.
  - apply Forall_map, Forall_forall. intros x I. exists x. split; [reflexivity|]. unfold l in I. apply in_app_or in I as [I|[<-|[]]]; [apply repeat_spec in I; lra|lra].
  - unfold summarize. rewrite finite_values_fin. replace (0 <? zlen l)%Z with true by (symmetry; apply Z.ltb_lt; unfold zlen; lia).
    cbn [s_high s_mean]. lra.
Qed.

(** ** The figure *)
Lemma figure_configuration : incl figure_tasks gmm_names /\ incl figure_tasks v2_names /\ incl point_estimators v2_estimators /\
  In figure_n_samples v2_n_samples /\ NoDup ("BMM"%string :: point_estimators).
Proof.
  split; [|split; [|split; [|split]]].
  1,2,3: intros x I; cbv [figure_tasks point_estimators In] in I; repeat (destruct I as [<-|I]; [cbn; tauto|]); contradiction.
  - now left.
  - repeat constructor; cbn; intuition discriminate.
Qed.

Lemma figure_draws data_v2 data_bmm out : figure data_v2 data_bmm = Ok out ->
  let s := {| ys_ids := "BMM"%string :: point_estimators; ys_eps := 12 / 100 |} in
  Forall2 (fun t p => fst p = snd t /\ draw_panel s data_v2 data_bmm 5000 point_estimators (fst t) = Ok (snd p)) figure_tasks (fst out) /\
  snd out = [1 / 6; 1 / 2; 5 / 6].
Proof.
  unfold figure. rewrite (proj1 (scaler_made _ _)) by lra. cbn [bind]. destruct (map_rows _ figure_tasks) as [panels|] eqn:E; [|discriminate]. cbn [bind].
  intros H. pose proof (f_equal (fun r => match r with Ok x => x | Err _ => out end) H) as H2. cbv beta iota in H2. subst out. cbn [fst snd]. cbn zeta. split.
  - apply map_rows_ok in E. revert E. clear. intros F. induction F as [|t p ts ps H F IH]; constructor; [|exact IH].
    destruct (draw_panel _ _ _ _ _ _) as [q|]; [|discriminate]. cbn [bind] in H. injection H as <-. auto.
  - unfold get_tick_locations, ys_n. cbn [ys_ids length point_estimators seq map INR]. repeat apply (f_equal2 cons); try reflexivity; lra.
Qed.

Lemma figure_total data_v2 data_bmm :
  (forall t, In t (map fst figure_tasks) -> exists r, In r data_v2 /\ r_task r = t) ->
  (forall r, In r data_bmm -> g_low r <= g_mean r <= g_high r) -> exists out, figure data_v2 data_bmm = Ok out.
Proof.
  intros A B. unfold figure. rewrite (proj1 (scaler_made _ _)) by lra. cbn [bind].
  match goal with |- context [map_rows ?f ?l] => destruct (map_rows_total f l) as (panels & ->) end; [|cbn; eauto].
  intros t I.
  destruct (panel_fails {| ys_ids := "BMM"%string :: point_estimators; ys_eps := 12 / 100 |} data_v2 data_bmm figure_n_samples point_estimators (fst t)) as [_ T].
  - now left.
  - intros e Ie. now right.
  - destruct (T (A _ (in_map fst _ _ I))) as [T1 _]. destruct T1 as (p & ->); [auto|]. cbn. eauto.
Qed.

Lemma offset_value : forall s, (ys_ids s = [] -> ys_offset s = Err ZeroDivisionError) /\
  (ys_ids s <> [] -> ys_offset s = Ok (ys_eps s / (2 * INR (ys_n s)))).
Proof.
  intros [ids eps]. unfold ys_offset, ys_n. cbn [ys_ids ys_eps]. split; intros H.
  - subst. reflexivity.
  - destruct ids as [|a l]; [congruence|]. cbn [List.length]. f_equal. field. apply not_0_INR. discriminate.
Qed.

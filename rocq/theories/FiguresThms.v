(** The tables behind the figures ([FiguresModel]). *)
From Coq Require Import String Permutation Sorted.
From Verif Require Import Base BaseLemmas UtilsModel GaussianModel BenchmarkModel BenchmarkSpec BenchmarkThms TablesModel TablesSpec TablesProofs TablesThms
  FiguresModel FiguresSpec FiguresProofs.
Open Scope R_scope.
Local Notation length := List.length.

(** ** Grouping by size *)
Definition has (e k : string) (n : Z) (p : prow) : bool :=
  (String.eqb (r_estimator (p_row p)) e && String.eqb (r_task (p_row p)) k && Z.eqb (r_n (p_row p)) n)%bool.
Lemma has_true e k n p : has e k n p = true <-> r_estimator (p_row p) = e /\ r_task (p_row p) = k /\ r_n (p_row p) = n.
Proof. unfold has. rewrite !andb_true_iff, !String.eqb_eq, Z.eqb_eq. tauto. Qed.
Lemma group_pairs (data : list prow) e k rows :
  In ((e, k), rows) (group (fun p => (r_estimator (p_row p), r_task (p_row p))) data) <->
  In (e, k) (map (fun p => (r_estimator (p_row p), r_task (p_row p))) data) /\
  rows = filter (fun p => String.eqb (r_estimator (p_row p)) e && String.eqb (r_task (p_row p)) k)%bool data.
Proof.
  rewrite group_in. assert (E : filter (fun r => if pair_dec (r_estimator (p_row r), r_task (p_row r)) (e, k) then true else false) data =
    filter (fun p => String.eqb (r_estimator (p_row p)) e && String.eqb (r_task (p_row p)) k)%bool data); [|rewrite E; tauto].
  apply filter_ext. intros p. apply key_filter.
Qed.
Lemma by_size_in data e k n rows : In ((e, k), n, rows) (by_size data) <-> rows <> [] /\ rows = filter (has e k n) data.
Proof.
  unfold by_size. rewrite in_flat_map.
  assert (F : forall n, filter (fun p => Z.eqb (r_n (p_row p)) n) (filter (fun p => String.eqb (r_estimator (p_row p)) e && String.eqb (r_task (p_row p)) k)%bool data) = filter (has e k n) data).
  { intros m. induction data as [|p l IH]; [reflexivity|]. cbn [filter]. unfold has at 1.
    destruct (String.eqb (r_estimator (p_row p)) e && String.eqb (r_task (p_row p)) k)%bool; cbn [filter andb]; rewrite IH; reflexivity. }
  split.
  - intros ([[e' k'] g] & G & H). apply in_map_iff in H as (m & E & H). cbn [fst snd] in E, H. injection E as -> -> -> <-.
    apply group_pairs in G as [G ->]. apply (Permutation_in _ (sort_perm _ _)), nodup_In, in_map_iff in H as (p & E & H).
    split; [|apply F]. intros X. assert (Y : In p []) by (rewrite <- X; apply filter_In; split; [exact H|now apply Z.eqb_eq]). destruct Y.
  - intros [N ->]. destruct (filter (has e k n) data) as [|p l] eqn:E; [contradiction|]. rewrite <- E.
    assert (X : In p (filter (has e k n) data)) by (rewrite E; now left). apply filter_In in X as [I X]. apply has_true in X as (X1 & X2 & X3).
    exists ((e, k), filter (fun p => String.eqb (r_estimator (p_row p)) e && String.eqb (r_task (p_row p)) k)%bool data). split.
    + apply group_pairs. split; [|reflexivity]. apply in_map_iff. exists p. split; [congruence|exact I].
    + apply in_map_iff. exists n. cbn [fst snd]. split; [now rewrite F|].
      apply (Permutation_in _ (Permutation_sym (sort_perm _ _))), nodup_In, in_map_iff. exists p. split; [exact X3|].
      apply filter_In. split; [exact I|]. rewrite X1, X2, !String.eqb_refl. reflexivity.
Qed.
Lemma nodup_app {A} (a b : list A) : NoDup a -> NoDup b -> (forall x, In x a -> ~ In x b) -> NoDup (a ++ b).
Proof.
  intros Na Nb D. induction Na as [|x a Nx Na IH]; cbn; [exact Nb|]. constructor.
  - rewrite in_app_iff. intros [H|H]; [auto|]. apply (D x); cbn; auto.
  - apply IH. intros y Hy. apply D. now right.
Qed.
Lemma by_size_nodup data : NoDup (map fst (by_size data)).
Proof.
  unfold by_size. set (key := fun p => (r_estimator (p_row p), r_task (p_row p))).
  assert (N := group_nodup key data). induction (group key data) as [|[k g] gs IH]; cbn [flat_map map]; [constructor|].
  cbn [map fst] in N. inversion N as [|? ? N1 N2]; subst. rewrite map_app, map_map. cbn [fst snd]. apply nodup_app; [|now apply IH|].
  - apply FinFun.Injective_map_NoDup; [intros x y E; now injection E|]. eapply Permutation_NoDup; [apply Permutation_sym, sort_perm|apply NoDup_nodup].
  - intros x H Y. apply in_map_iff in H as (n & <- & _). apply N1. apply in_map_iff in Y as ([[k' n'] rows] & E & Y). cbn in E. injection E as -> ->.
    apply in_flat_map in Y as ([k2 g2] & G & Y). apply in_map_iff in Y as (m & E & _). cbn in E. injection E as -> _ _. apply in_map_iff. exists (k, g2). auto.
Qed.

(** ** n_samples_needed *)
Lemma fold_min ns : forall n, In (fold_left Z.min ns n) (n :: ns) /\ forall m, In m (n :: ns) -> (fold_left Z.min ns n <= m)%Z.
Proof.
  induction ns as [|a ns IH]; intros n; cbn [fold_left].
  - split; [now left|]. intros m [<-|[]]. lia.
  - destruct (IH (Z.min n a)) as [A B]. split.
    + destruct A as [A|A]; [|right; now right]. rewrite <- A. destruct (Z.min_spec n a) as [[_ ->]|[_ ->]]; cbn; auto.
    + intros m [<-|[<-|H]]; [| |apply B; now right]; (transitivity (Z.min n a); [apply B; now left|lia]).
Qed.
Lemma fold_max ns : forall n, In (fold_left Z.max ns n) (n :: ns) /\ forall m, In m (n :: ns) -> (m <= fold_left Z.max ns n)%Z.
Proof.
  induction ns as [|a ns IH]; intros n; cbn [fold_left].
  - split; [now left|]. intros m [<-|[]]. lia.
  - destruct (IH (Z.max n a)) as [A B]. split.
    + destruct A as [A|A]; [|right; now right]. rewrite <- A. destruct (Z.max_spec n a) as [[_ ->]|[_ ->]]; cbn; auto.
    + intros m [<-|[<-|H]]; [| |apply B; now right]; (transitivity (Z.max n a); [lia|apply B; now left]).
Qed.
Lemma small_test v : fl_ltb (match v with Fin x => Fin (Rabs x) | NInf => PInf | w => w end) (Fin (ln (3 / 2))) = true <-> small v.
Proof.
  unfold small. destruct v as [x| | |]; cbn; split; try discriminate; try (intros (y & E & _); discriminate).
  - destruct (Rlt_dec _ _); [eauto|discriminate].
  - intros (y & E & L). injection E as <-. destruct (Rlt_dec _ _); [reflexivity|contradiction].
Qed.
Lemma needed_unique size solved v w : needed size solved v -> needed size solved w -> v = w.
Proof.
  intros [(n & -> & Sn & An & Bn)|[(-> & n & Sn & Fn & An)|(-> & Nn)]] [(m & -> & Sm & Am & Bm)|[(-> & m & Sm & Fm & Am)|(-> & Nm)]]; try reflexivity.
  - destruct (Z.lt_trichotomy n m) as [H|[->|H]]; [|reflexivity|].
    + destruct (Bm n Sn H) as (k & A & B & C). destruct C. now apply An.
    + destruct (Bn m Sm H) as (k & A & B & C). destruct C. now apply Am.
  - destruct Fm. apply An; auto.
  - now destruct (Nm n).
  - destruct Fn. apply Am; auto.
  - now destruct (Nm n).
  - now destruct (Nn m).
  - now destruct (Nn m).
Qed.
(** [rows] may be in any order; sizes need not be distinct (then all rows of a size count). *)
Lemma needed_ok rows : needed (fun n => exists v, In (n, v) rows) (fun n => forall v, In (n, v) rows -> small v) (n_samples_needed rows).
Proof.
  unfold n_samples_needed. set (f := fun nv : Z * fl => _). set (sol := sort_by _ (map f rows)).
  assert (P : Permutation sol (map f rows)) by apply sort_perm.
  assert (S : forall n b, In (n, b) sol <-> exists v, In (n, v) rows /\ (b = true <-> small v)).
  { intros n b. split.
    - intros H. apply (Permutation_in _ P), in_map_iff in H as ([m v] & E & H). unfold f in E. cbn [fst snd] in E. injection E as <- <-.
      exists v. split; [exact H|]. apply small_test.
    - intros (v & H & B). apply (Permutation_in _ (Permutation_sym P)), in_map_iff. exists (n, v). split; [|exact H]. unfold f. cbn [fst snd]. f_equal.
      apply Bool.eq_iff_eq_true. rewrite small_test. tauto. }
  assert (T : forall n v, In (n, v) rows -> exists b, In (n, b) sol /\ (b = true <-> small v)).
  { intros n v H. exists (fl_ltb (match v with Fin x => Fin (Rabs x) | NInf => PInf | w => w end) (Fin (ln (3 / 2)))). split; [apply S; exists v; split; [exact H|apply small_test]|apply small_test]. }
  assert (M : forall l, l <> [] -> exists n b, (match map fst l with [] => NaN | n :: ns => Fin (IZR (fold_left Z.min ns n)) end = Fin (IZR n)) /\ In (n, b) l /\ forall (m : Z) (c : bool), In (m, c) l -> (n <= m)%Z).
  { intros l Hl. destruct l as [|[a b] l]; [contradiction|]. cbn [map fst]. destruct (fold_min (map fst l) a) as [A B].
    assert (A' : In (fold_left Z.min (map fst l) a) (map fst ((a, b) :: l))) by exact A. apply in_map_iff in A' as ([n c] & E & I). cbn [fst] in E. rewrite <- E in *.
    exists n, c. split; [reflexivity|]. split; [exact I|]. intros m c' H. apply B. apply (in_map fst) in H. exact H. }
  destruct (map fst (filter (fun x : Z * bool => negb (snd x)) sol)) as [|n ns] eqn:F.
  - assert (A : forall n b, In (n, b) sol -> b = true).
    { intros n b H. destruct b; [reflexivity|]. assert (X : In n (map fst (filter (fun x : Z * bool => negb (snd x)) sol))) by (apply in_map_iff; exists (n, false); split; [reflexivity|]; apply filter_In; auto).
      rewrite F in X. destruct X. }
    destruct sol as [|s0 sol'] eqn:Es.
    + right. right. split; [reflexivity|]. intros n (v & H). destruct (T n v H) as (b & X & _). destruct X.
    + rewrite <- Es in *. destruct (M sol) as (n & b & -> & I & L); [now rewrite Es|]. left. exists n. split; [reflexivity|].
      apply S in I as (v & I & _). split; [eauto|]. split.
      * intros m _ _ w H. destruct (T m w H) as (c & X & Y). apply Y, (A _ _ X).
      * intros k (w & H) Hk. destruct (T k w H) as (c & X & _). apply L in X. lia.
  - destruct (fold_max ns n) as [A B]. set (last := fold_left Z.max ns n) in *. rewrite <- F in A, B.
    assert (A2 : exists v, In (last, v) rows /\ ~ small v).
    { apply in_map_iff in A as ([m b] & E & I). cbn [fst] in E. subst m. apply filter_In in I as [I Hb]. cbn [snd] in Hb. destruct b; [discriminate|].
      apply S in I as (v & I & X). exists v. split; [exact I|]. intros Y. apply X in Y. discriminate. }
    assert (B2 : forall m v, In (m, v) rows -> (last < m)%Z -> small v).
    { intros m v H Hm. destruct (T m v H) as ([] & X & Y); [now apply Y|]. exfalso. assert (m <= last)%Z; [|lia].
      apply B. apply in_map_iff. exists (m, false). split; [reflexivity|]. apply filter_In. auto. }
    set (suc := flat_map _ _).
    assert (U : forall m b, In (m, b) suc <-> In (m, b) sol /\ (last < m)%Z).
    { intros m b. unfold suc. rewrite in_flat_map. split.
      - intros (k & Hk & H). apply filter_In in Hk as [Hk L]. apply Z.ltb_lt in L. apply filter_In in H as [H E]. cbn [fst] in E. apply Z.eqb_eq in E. subst. auto.
      - intros [H L]. exists m. split; [apply filter_In; split; [now apply (in_map fst) in H|now apply Z.ltb_lt]|]. apply filter_In. split; [exact H|]. cbn. apply Z.eqb_refl. }
    destruct suc as [|s0 suc'] eqn:Es.
    + right. left. split; [reflexivity|]. destruct A2 as (v & I & N). exists last. split; [eauto|]. split; [intros X; now apply N, X|].
      intros m (w & H). destruct (Z_lt_le_dec last m) as [L|L]; [|exact L]. destruct (T m w H) as (b & X & _). exfalso. apply (proj2 (U m b)). auto.
    + rewrite <- Es in *. destruct (M suc) as (m & b & -> & I & L); [now rewrite Es|]. left. exists m. split; [reflexivity|].
      apply U in I as [I Hm]. apply S in I as (v & I & _). split; [eauto|]. split.
      * intros k _ Hk w H. apply (B2 k w H). lia.
      * intros k (w & H) Hk. destruct A2 as (v2 & I2 & N2). exists last. split; [eauto|]. split; [|intros X; now apply N2, X].
        destruct (Z_lt_le_dec last k) as [L'|L']; [|exact L']. destruct (T k w H) as (c & X & _). assert (m <= k)%Z; [|lia]. apply (L k c), U. auto.
Qed.

(** ** Means *)
Lemma numbers_pinf l xs : filter (fun v => match v with NaN => false | _ => true end) l = map Fin xs -> ~ In PInf l /\ ~ In NInf l.
Proof.
  intros E. split; intros H; [assert (X : In PInf (map Fin xs)) by (rewrite <- E; now apply filter_In)|assert (X : In NInf (map Fin xs)) by (rewrite <- E; now apply filter_In)];
    apply in_map_iff in X as (x & Y & _); discriminate.
Qed.
Lemma numbers_none (l : list fl) : (forall x, In x l -> x = NaN) -> filter (fun v => match v with NaN => false | _ => true end) l = [].
Proof. intros H. destruct (filter _ l) as [|x r] eqn:E; [reflexivity|]. assert (X : In x (x :: r)) by now left. rewrite <- E in X. apply filter_In in X as [X Y]. rewrite (H x X) in Y. discriminate. Qed.
Lemma mean_unique l v w : mean_of l v -> mean_of l w -> v = w.
Proof.
  intros [H|xs Hx E|A B|A B|A B] [H'|xs' Hx' E'|A' B'|A' B'|A' B']; try reflexivity; try contradiction;
    try (apply H in A'; discriminate); try (apply H' in A; discriminate); try (destruct (numbers_pinf _ _ E); contradiction); try (destruct (numbers_pinf _ _ E'); contradiction).
  - rewrite numbers_none in E' by exact H. destruct xs'; [contradiction|discriminate].
  - rewrite numbers_none in E by exact H'. destruct xs; [contradiction|discriminate].
  - rewrite E in E'. assert (xs = xs') as ->; [|reflexivity]. clear - E'. revert xs' E'. induction xs as [|x xs IH]; intros [|y ys] E; try discriminate; [reflexivity|]. cbn in E. injection E as -> E. f_equal. auto.
Qed.

Lemma filter_all {A} (f : A -> bool) l : (forall x, In x l -> f x = true) -> filter f l = l.
Proof. induction l as [|x l IH]; intros H; [reflexivity|]. cbn. rewrite (H x (or_introl eq_refl)). f_equal. apply IH. intros; apply H; now right. Qed.

(** ** The data of the figures *)
Section Data.
  Variables (estimators : sdict bool) (results : list row).
  Notation P := (prepared estimators results).
  Lemma filter_map {A B} (f : A -> B) g (l : list A) : filter g (map f l) = map f (filter (fun a => g (f a)) l).
  Proof. induction l as [|a l IH]; [reflexivity|]. cbn. destruct (g (f a)); cbn; now rewrite IH. Qed.
  Lemma filter_filter {A} (f g : A -> bool) l : filter f (filter g l) = filter (fun a => g a && f a)%bool l.
  Proof. induction l as [|a l IH]; [reflexivity|]. cbn. destruct (g a); cbn; [destruct (f a); now rewrite IH|exact IH]. Qed.
  Lemma group_size q e k n : filter (has e k n) (map P (filter q results)) = map P (filter q (seeds results e k n)).
  Proof.
    rewrite filter_map, filter_filter. unfold seeds, runs. rewrite !filter_filter. f_equal. apply filter_ext. intros r. unfold has. cbn [P prepared p_row].
    now destruct (q r), (String.eqb (r_estimator r) e), (String.eqb (r_task r) k), (Z.eqb (r_n r) n).
  Qed.
  Lemma top_largest n : largest_size results = Some n <-> top_size results n.
  Proof.
    unfold largest_size, top_size. destruct (map r_n results) as [|m ms] eqn:E.
    - split; [discriminate|]. intros [(r & H & _) _]. destruct results; [destruct H|discriminate].
    - destruct (fold_max ms m) as [A B]. rewrite <- E in A, B. split.
      + intros H. injection H as <-. split; [apply in_map_iff in A as (r & <- & A); eauto|]. intros r H. apply B, in_map, H.
      + intros [(r & H & <-) U]. f_equal. apply Z.le_antisymm; [apply in_map_iff in A as (r' & <- & A); now apply U|]. apply B, in_map, H.
  Qed.
  Lemma at_top_map : at_largest_size (map P results) = match largest_size results with Some m => map P (filter (fun r => Z.eqb (r_n r) m) results) | None => [] end.
  Proof. unfold at_largest_size. rewrite map_map. cbn [P prepared p_row]. rewrite map_id. destruct (largest_size results); [apply filter_map|reflexivity]. Qed.
  Lemma at_top q : exists q', filter q (at_largest_size (map P results)) = map P (filter q' results) /\
    forall r, q' r = true <-> top_size results (r_n r) /\ q (P r) = true.
  Proof.
    rewrite at_top_map. destruct (largest_size results) as [m|] eqn:E.
    - exists (fun r => Z.eqb (r_n r) m && q (P r))%bool. rewrite filter_map, filter_filter. split; [reflexivity|]. intros r. rewrite andb_true_iff, Z.eqb_eq, <- top_largest.
      rewrite E. split; [intros [-> ?]; auto|]. intros [H ?]. injection H as ->. auto.
    - exists (fun _ => false). split; [now induction results|]. intros r. rewrite <- top_largest, E. split; [discriminate|]. intros [? _]. discriminate.
  Qed.
  Lemma top_unique n m : top_size results n -> top_size results m -> n = m.
  Proof. intros A B. apply top_largest in A, B. congruence. Qed.

  (** At one sample size no pair occurs twice. *)
  Lemma top_nodup q : (forall r, q r = true -> top_size results (r_n r)) -> NoDup (map (fun g => fst (fst g)) (by_size (map P (filter q results)))).
  Proof.
    intros T. set (l := by_size _). assert (N : NoDup (map fst l)) by apply by_size_nodup.
    assert (S : forall e k n rows, In ((e, k), n, rows) l -> top_size results n).
    { intros e k n rows H. apply by_size_in in H as [Hn ->]. rewrite group_size in Hn. destruct (filter q (seeds results e k n)) as [|r rs] eqn:E; [contradiction|].
      assert (X : In r (filter q (seeds results e k n))) by (rewrite E; now left). apply filter_In in X as [X Y]. apply in_seeds in X as (_ & _ & _ & <-). now apply T. }
    clearbody l. induction l as [|[[[e k] n] rows] l IH]; cbn [map fst]; [constructor|]. cbn [map fst] in N. inversion N as [|? ? N1 N2]; subst. constructor.
    - intros H. apply in_map_iff in H as ([[[e' k'] n'] rows'] & E & H). cbn in E. injection E as -> ->. apply N1.
      assert (n = n') as -> by (eapply top_unique; [eapply S; now left|eapply S; right; exact H]). apply in_map_iff. exists ((e, k), n', rows'). auto.
    - apply IH; [exact N2|]. intros. eapply S. right. eassumption.
  Qed.

  Lemma keeping_in {A} (Q : A -> Prop) l s x : keeping Q l s -> In x s -> In x l /\ Q x.
  Proof. intros K. induction K; cbn; [tauto| |]; intros; intuition (subst; auto). Qed.
  Lemma keeping_bool {A} (Q : A -> Prop) (q : A -> bool) l s : (forall x, In x l -> (q x = true <-> Q x)) -> keeping Q l s -> s = filter q l.
  Proof.
    intros H K. induction K as [|x l s X K IH|x l s X K IH]; cbn; [reflexivity| |].
    - rewrite (proj2 (H x (or_introl eq_refl)) X). f_equal. apply IH. intros; apply H; now right.
    - destruct (q x) eqn:E; [exfalso; apply X, H; [now left|exact E]|]. apply IH. intros; apply H; now right.
  Qed.
  Lemma keeping_bool' {A} (Q : A -> Prop) (q : A -> bool) l : (forall x, In x l -> (q x = true <-> Q x)) -> keeping Q l (filter q l).
  Proof.
    induction l as [|x l IH]; intros H; cbn; [constructor|]. destruct (q x) eqn:E.
    - constructor; [apply H; [now left|exact E]|]. apply IH. intros; apply H; now right.
    - constructor; [intros X; apply H in X; [congruence|now left]|]. apply IH. intros; apply H; now right.
  Qed.

  (** Means over the groups. *)
  Lemma mean_groups (f : row -> fl) (g : prow -> fl) q Q e k n v : (forall r, g (P r) = f r) ->
    (forall r, q r = true <-> ~ failed_run estimators results r /\ Q (r_n r)) ->
    ((exists rows, In ((e, k), n, rows) (by_size (map P (filter q results))) /\ v = pd_mean (map g rows)) <-> Q n /\ mean_over estimators results n f e k v).
  Proof.
    intros G Hq. unfold mean_over. split.
    - intros (rows & H & ->). apply by_size_in in H as [Hn ->]. rewrite group_size in *.
      assert (HQ : Q n).
      { destruct (filter q (seeds results e k n)) as [|r rs] eqn:E; [contradiction|]. assert (X : In r (filter q (seeds results e k n))) by (rewrite E; now left).
        apply filter_In in X as [X Y]. apply in_seeds in X as (_ & _ & _ & <-). now apply Hq in Y. }
      split; [exact HQ|]. exists (filter q (seeds results e k n)). split; [|split].
      + apply keeping_bool'. intros r I. apply in_seeds in I as (_ & _ & _ & En). rewrite Hq, En. tauto.
      + intros X. rewrite X in Hn. now apply Hn.
      + rewrite map_map, (map_ext _ _ G). apply mean_spec.
    - intros (HQ & s & K & Hs & M). assert (s = filter q (seeds results e k n)) as ->.
      { eapply keeping_bool; [|exact K]. intros r I. apply in_seeds in I as (_ & _ & _ & En). rewrite Hq, En. tauto. }
      exists (map P (filter q (seeds results e k n))). split; [apply by_size_in; rewrite group_size; split; [|reflexivity]|].
      + intros X. apply Hs. now apply map_eq_nil in X.
      + rewrite map_map, (map_ext _ _ G). eapply mean_unique; [exact M|apply mean_spec].
  Qed.
  Lemma not_fail r : negb (p_fail (P r)) = true <-> ~ failed_run estimators results r.
  Proof. rewrite <- prepared_fail. now destruct (p_fail (P r)). Qed.

  (** The long frames of the figures. *)
  Definition top_data : list prow := filter (fun p => negb (p_fail p)) (at_largest_size (preprocess estimators results)).
  Lemma top_long (f : row -> fl) (g : prow -> fl) : (forall r, g (P r) = f r) ->
    let d := map (fun x => (fst (fst x), pd_mean (map g (snd x)))) (by_size top_data) in
    NoDup (map fst d) /\ forall e k v, In ((e, k), v) d <-> mean_at_top estimators results f e k v.
  Proof.
    intros G d. destruct (at_top (fun p => negb (p_fail p))) as (q & E & Hq). unfold d, top_data. rewrite preprocess_map, E. split.
    - rewrite map_map. apply top_nodup. intros r H. now apply Hq in H.
    - assert (Hq' : forall r, q r = true <-> ~ failed_run estimators results r /\ top_size results (r_n r)) by (intros r; rewrite Hq, not_fail; tauto).
      intros e k v. rewrite in_map_iff. unfold mean_at_top. split.
      + intros ([[[e' k'] n] rows] & X & H). cbn [fst snd] in X. injection X as -> -> <-. exists n.
        apply (mean_groups f g q (top_size results) e k n _ G Hq'). eauto.
      + intros (n & H). apply (mean_groups f g q (top_size results) e k n _ G Hq') in H as (rows & H & ->). exists ((e, k), n, rows). auto.
  Qed.
  Lemma all_long e k n v :
    In ((e, k), n, v) (map (fun g => (fst g, pd_mean (map p_error (snd g)))) (by_size (filter (fun p => negb (p_fail p)) (preprocess estimators results)))) <->
    mean_over estimators results n error e k v.
  Proof.
    rewrite preprocess_map, filter_map.
    assert (Hq : forall r, negb (p_fail (P r)) = true <-> ~ failed_run estimators results r /\ (fun _ : Z => True) (r_n r)) by (intros r; rewrite not_fail; tauto).
    assert (M := fun v => mean_groups error p_error (fun r => negb (p_fail (P r))) (fun _ => True) e k n v (fun r => eq_refl) Hq).
    rewrite in_map_iff. split.
    - intros ([[[e' k'] n'] rows] & X & H). cbn [fst snd] in X. injection X as -> -> -> <-. apply M. eauto.
    - intros H. destruct (proj2 (M v) (conj I H)) as (rows & X & ->). exists ((e, k), n, rows). auto.
  Qed.
  Lemma mean_over_unique n f e k v w : mean_over estimators results n f e k v -> mean_over estimators results n f e k w -> v = w.
  Proof. intros (s & K & _ & M) (s' & K' & _ & M'). rewrite (keeping_unique _ _ _ _ K K') in M. eapply mean_unique; eauto. Qed.

  Lemma needed_ext (size size' solved solved' : Z -> Prop) v : (forall n, size n <-> size' n) -> (forall n, size n -> (solved n <-> solved' n)) ->
    needed size solved v -> needed size' solved' v.
  Proof.
    intros A B [(n & -> & S & U & L)|[(-> & n & S & N & U)|(-> & N)]].
    - left. exists n. split; [reflexivity|]. split; [now apply A|]. split.
      + intros m Hm Hn. apply A in Hm. apply (B m Hm). auto.
      + intros m Hm Hn. apply A in Hm. destruct (L m Hm Hn) as (j & J1 & J2 & J3). exists j. rewrite <- A, <- (B j J1). auto.
    - right. left. split; [reflexivity|]. exists n. rewrite <- A, <- (B n S). split; [exact S|]. split; [exact N|]. intros m Hm. apply U. now apply A.
    - right. right. split; [reflexivity|]. intros n H. apply (N n). now apply A.
  Qed.
  Definition samples_data : long :=
    map (fun g => (fst g, n_samples_needed (map (fun x => (snd (fst x), snd x)) (snd g))))
      (group (fun x => fst (fst x)) (map (fun g => (fst g, pd_mean (map p_error (snd g)))) (by_size (filter (fun p => negb (p_fail p)) (preprocess estimators results))))).
  Lemma samples_long : NoDup (map fst samples_data) /\ forall e k v, In ((e, k), v) samples_data <-> samples_needed estimators results e k v.
  Proof.
    unfold samples_data. set (data := map _ (by_size _)). split; [rewrite map_map; apply group_nodup|].
    assert (D : forall e k n v, In ((e, k), n, v) data <-> mean_over estimators results n error e k v) by (intros; apply all_long).
    clearbody data.
    assert (R : forall e k n v, In (n, v) (map (fun x : (string * string) * Z * fl => (snd (fst x), snd x)) (filter (fun x => if pair_dec (fst (fst x)) (e, k) then true else false) data)) <->
       mean_over estimators results n error e k v).
    { intros e k n v. rewrite in_map_iff, <- D. split.
      - intros ([[[e' k'] n'] v'] & E & H). apply filter_In in H as [H T]. cbn [fst snd] in *. destruct (pair_dec (e', k') (e, k)) as [X|]; [|discriminate]. injection E as <- <-. now rewrite X in H.
      - intros H. exists ((e, k), n, v). split; [reflexivity|]. apply filter_In. split; [exact H|]. cbn [fst]. destruct (pair_dec (e, k) (e, k)); [reflexivity|contradiction]. }
    assert (W : forall e k, needed (fun n => exists w, mean_over estimators results n error e k w) (fun n => exists w, mean_over estimators results n error e k w /\ small w)
       (n_samples_needed (map (fun x : (string * string) * Z * fl => (snd (fst x), snd x)) (filter (fun x => if pair_dec (fst (fst x)) (e, k) then true else false) data)))).
    { intros e k. eapply needed_ext; [| |apply needed_ok]; intros n.
      - split; intros (v & H); exists v; now apply R.
      - intros (v & H). apply R in H. split.
        + intros A. exists v. split; [exact H|]. apply A. now apply R.
        + intros (w & A & B) u Hu. apply R in Hu. now rewrite (mean_over_unique _ _ _ _ _ _ Hu A). }
    intros e k v. rewrite in_map_iff. unfold samples_needed. split.
    - intros ([[e' k'] rows] & E & H). cbn [fst snd] in E. injection E as -> -> <-. apply group_in in H as [I ->]. split; [|apply W].
      apply in_map_iff in I as ([[[e' k'] n] w] & E & I). cbn [fst] in E. injection E as -> ->. exists n, w. now apply D.
    - intros [(n & w & H) N]. exists ((e, k), filter (fun x => if pair_dec (fst (fst x)) (e, k) then true else false) data). cbn [fst snd]. split.
      + f_equal. eapply needed_unique; [apply W|exact N].
      + apply group_in. split; [|reflexivity]. apply in_map_iff. exists ((e, k), n, w). split; [reflexivity|]. now apply D.
  Qed.
  Definition fails_data : long :=
    map (fun g => (fst (fst g), Fin (INR (length (filter p_fail (snd g)))))) (by_size (filter p_neural (at_largest_size (preprocess estimators results)))).
  Lemma fails_long : NoDup (map fst fails_data) /\ forall e k v, In ((e, k), v) fails_data <-> fails estimators results e k v.
  Proof.
    unfold fails_data. destruct (at_top p_neural) as (q & E & Hq). rewrite preprocess_map, E. split.
    - rewrite map_map. apply top_nodup. intros r H. now apply Hq in H.
    - intros e k v. rewrite in_map_iff. unfold fails. split.
      + intros ([[[e' k'] n] rows] & X & H). cbn [fst snd] in X. injection X as -> -> <-. apply by_size_in in H as [Hn ->]. rewrite group_size in *.
        assert (S : forall r, In r (filter q (seeds results e k n)) -> top_size results n /\ neural estimators e /\ In r (seeds results e k n)).
        { intros r H. apply filter_In in H as [H Y]. apply Hq in Y as [Y1 Y2]. apply prepared_neural in Y2. assert (Z := H). apply in_seeds in Z as (_ & <- & _ & <-). auto. }
        destruct (filter q (seeds results e k n)) as [|r rs] eqn:Er; [contradiction|]. destruct (S r) as (S1 & S2 & S3); [now left|].
        exists n, (filter (fun r => p_fail (P r)) (seeds results e k n)). split; [exact S1|]. split; [exact S2|]. split; [intros Z; now rewrite Z in S3|].
        split; [apply keeping_filter; intros r'; apply prepared_fail|]. rewrite <- Er, filter_map, map_length. do 3 f_equal.
        assert (F : filter q (seeds results e k n) = seeds results e k n); [|now rewrite F].
        apply filter_all. intros r' I. apply Hq. apply in_seeds in I as (_ & <- & _ & ->). split; [exact S1|now apply prepared_neural].
      + intros (n & f & T & Ne & Hs & K & ->). exists ((e, k), n, map P (seeds results e k n)). cbn [fst snd]. split.
        * do 3 f_equal. rewrite filter_map, map_length. f_equal. eapply keeping_unique; [apply keeping_filter|exact K]. intros r; apply prepared_fail.
        * apply by_size_in. split; [intros X; apply map_eq_nil in X; contradiction|]. rewrite group_size. f_equal. symmetry. apply filter_all. intros r' I. apply Hq.
          apply in_seeds in I as (_ & <- & _ & ->). split; [exact T|now apply prepared_neural].
  Qed.
End Data.

(** ** The figures *)
Lemma set_column_ok t name values u : length (tb_values t) = length (tb_index t) -> ~ In name (tb_columns t) ->
  set_column t name values = Ok u -> with_column t name values u.
Proof.
  intros L N. unfold set_column. destruct (Nat.eqb_spec (length values) (length (tb_index t))) as [E|]; [|discriminate].
  destruct (existsb _ _) eqn:X; [apply existsb_label in X; contradiction|]. intros H. injection H as <-. unfold with_column. cbn [tb_index tb_columns tb_values].
  split; [reflexivity|]. split; [reflexivity|]. split; [|congruence]. induction (combine _ _); cbn; constructor; auto.
Qed.
Lemma set_column_total t name values : (length values = length (tb_index t) /\ exists u, set_column t name values = Ok u) \/
  (length values <> length (tb_index t) /\ set_column t name values = Err ValueError).
Proof. unfold set_column. destruct (Nat.eqb_spec (length values) (length (tb_index t))); [left|right; auto]. split; [assumption|]. destruct (existsb _ _); eauto. Qed.
Lemma shows_lengths value estimators tasks names t : shows value estimators tasks names t -> length (tb_values t) = length (tb_index t).
Proof. intros (es & ts & _ & _ & _ & A & B). assert (length (tb_index t) = length ts) by (clear - A; induction A; cbn; congruence). assert (length (tb_values t) = length ts) by (clear - B; induction B; cbn; congruence). congruence. Qed.

Section Figures.
  Variables (default_names : sdict string) (estimators : sdict bool) (tasks : sdict (string * fl)) (names : sdict string) (results : list row).
  Let known := sdict_merge default_names names.

  Lemma estimate_figure_shows err est : mi_estimate_figure default_names estimators tasks names results = Ok (err, est) ->
    exists err' est', shows (mean_at_top estimators results error) estimators tasks known err' /\
      shows (mean_at_top estimators results r_estimate) estimators tasks known est' /\
      (~ In "True MI"%string (tb_columns est') -> with_column est' "True MI" (map (fun x => snd (snd x)) tasks) est) /\
      (~ In "True MI"%string (tb_columns err') -> with_column err' "True MI" (map (fun _ => Fin 0) tasks) err).
  Proof.
    unfold mi_estimate_figure. fold (top_data estimators results). fold known.
    set (d1 := map _ (by_size _)). set (d2 := map (fun g => (fst (fst g), pd_mean (map p_error (snd g)))) (by_size _)).
    destruct (top_long estimators results r_estimate (fun p => r_estimate (p_row p)) (fun _ => eq_refl)) as [N1 I1]. fold d1 in N1, I1.
    destruct (top_long estimators results error p_error (fun _ => eq_refl)) as [N2 I2]. fold d2 in N2, I2.
    destruct (make_benchmark_table d1 estimators tasks known) as [t1|] eqn:E1; [|discriminate]. cbn [bind].
    destruct (set_column t1 _ _) as [u1|] eqn:S1; [|discriminate]. cbn [bind].
    destruct (make_benchmark_table d2 estimators tasks known) as [t2|] eqn:E2; [|discriminate]. cbn [bind].
    destruct (set_column t2 _ _) as [u2|] eqn:S2; [|discriminate]. cbn [bind]. intros H. injection H as <- <-.
    assert (L1 := make_index_length d1 _ I1 _ _ _ _ E1). assert (L2 := make_index_length d2 _ I2 _ _ _ _ E2).
    assert (K : length (tb_index t2) = length tasks).
    { apply L2. destruct (set_column_total t1 "True MI" (map (fun x => snd (snd x)) tasks)) as [[X _]|[_ X]]; [|congruence]. rewrite map_length in X. symmetry in X.
      intros k Hk. destruct (proj1 L1 X k Hk) as (e & v & n & T & s & A & B & C). exists e, (pd_mean (map error s)), n. split; [exact T|]. exists s. split; [exact A|]. split; [exact B|]. apply mean_spec. }
    apply (make_shows d1 _ I1) in E1. apply (make_shows d2 _ I2) in E2. exists t2, t1. split; [exact E2|]. split; [exact E1|]. split.
    - intros N. eapply set_column_ok; [eapply shows_lengths; eauto|exact N|exact S1].
    - intros N. assert (W := set_column_ok _ _ _ _ (shows_lengths _ _ _ _ _ E2) N S2).
      assert (Z : forall (A B : Type) (a : list A) (b : list B), length a = length b -> map (fun _ => Fin 0) a = map (fun _ => Fin 0) b).
      { clear. intros A B a. induction a as [|x a IH]; intros [|y b] H; try discriminate; [reflexivity|]. cbn. f_equal. apply IH. now injection H. }
      now rewrite (Z _ _ _ _ K) in W.
  Qed.
  Lemma estimate_figure_total :
    let complete := forall k, In k (map fst tasks) -> exists e v, mean_at_top estimators results r_estimate e k v in
    let nameless := unnamed (mean_at_top estimators results r_estimate) estimators known in
    (nameless /\ mi_estimate_figure default_names estimators tasks names results = Err KeyError) \/
    (~ nameless /\ ~ complete /\ mi_estimate_figure default_names estimators tasks names results = Err ValueError) \/
    (~ nameless /\ complete /\ exists r, mi_estimate_figure default_names estimators tasks names results = Ok r).
  Proof.
    intros complete nameless. unfold mi_estimate_figure. fold (top_data estimators results). fold known.
    set (d1 := map _ (by_size _)). set (d2 := map (fun g => (fst (fst g), pd_mean (map p_error (snd g)))) (by_size _)).
    destruct (top_long estimators results r_estimate (fun p => r_estimate (p_row p)) (fun _ => eq_refl)) as [N1 I1]. fold d1 in N1, I1.
    destruct (top_long estimators results error p_error (fun _ => eq_refl)) as [N2 I2]. fold d2 in N2, I2.
    destruct (make_total d1 _ I1 estimators tasks known N1) as [(t1 & E1)|[E1 U]]; [|left; rewrite E1; auto]. right. rewrite E1. cbn [bind].
    assert (U1 := make_named d1 _ I1 _ _ _ _ E1). assert (L1 := make_index_length d1 _ I1 _ _ _ _ E1).
    destruct (set_column_total t1 "True MI" (map (fun x => snd (snd x)) tasks)) as [[X (u1 & S1)]|[X S1]]; rewrite S1; cbn [bind]; rewrite map_length in X.
    - right. split; [exact U1|]. split; [exact (proj1 L1 (eq_sym X))|].
      destruct (make_total d2 _ I2 estimators tasks known N2) as [(t2 & E2)|[_ U2]].
      + rewrite E2. cbn [bind]. destruct (set_column_total t2 "True MI" (map (fun _ => Fin 0) (tb_index t2))) as [[_ (u2 & S2)]|[Y _]].
        * rewrite S2. cbn [bind]. eauto.
        * rewrite map_length in Y. contradiction.
      + exfalso. apply U1. destruct U2 as (e & b & k & v & A & (n & T & s & B & C & D) & F). exists e, b, k, (pd_mean (map r_estimate s)). split; [exact A|]. split; [|exact F].
        exists n. split; [exact T|]. exists s. split; [exact B|]. split; [exact C|apply mean_spec].
    - left. split; [exact U1|]. split; [|reflexivity]. intros C. apply X. symmetry. now apply L1.
  Qed.

  Lemma samples_table_shows t : n_samples_table default_names estimators tasks names results = Ok t ->
    shows (samples_needed estimators results) estimators tasks known t.
  Proof. unfold n_samples_table. apply (make_shows (samples_data estimators results) _ (proj2 (samples_long estimators results))). Qed.
  Lemma samples_table_total :
    (exists t, n_samples_table default_names estimators tasks names results = Ok t) \/
    (n_samples_table default_names estimators tasks names results = Err KeyError /\ unnamed (samples_needed estimators results) estimators known).
  Proof. unfold n_samples_table. apply (make_total (samples_data estimators results) _ (proj2 (samples_long estimators results))), samples_long. Qed.
  Lemma fails_figure_shows t : neural_fails_figure default_names estimators tasks names results = Ok t ->
    shows (fails estimators results) estimators tasks known t.
  Proof. unfold neural_fails_figure. apply (make_shows (fails_data estimators results) _ (proj2 (fails_long estimators results))). Qed.
  Lemma fails_figure_total :
    (exists t, neural_fails_figure default_names estimators tasks names results = Ok t) \/
    (neural_fails_figure default_names estimators tasks names results = Err KeyError /\ unnamed (fails estimators results) estimators known).
  Proof. unfold neural_fails_figure. apply (make_total (fails_data estimators results) _ (proj2 (fails_long estimators results))), fails_long. Qed.
  Lemma samples_figure_eq r : n_samples_figure default_names estimators tasks names results = Ok r ->
    exists t, n_samples_table default_names estimators tasks names results = Ok t /\ fst (fst r) = t.
  Proof. unfold n_samples_figure. destruct (n_samples_table _ _ _ _ _) as [t|]; [|discriminate]. cbn [bind]. intros H. injection H as <-. eauto. Qed.
End Figures.

(** ** Annotations *)
Lemma Int_part_spec r z : r - 1 < IZR z <= r -> z = Int_part r.
Proof. intros H. unfold Int_part. rewrite <- (up_tech r z); [lia|lra|rewrite plus_IZR; lra]. Qed.
Lemma py_int_of_Z n d : (0 < d)%Z -> (0 <= n)%Z -> py_int (IZR n / IZR d) = (n / d)%Z.
Proof.
  intros Hd Hn. unfold py_int. assert (D : 0 < IZR d) by now apply IZR_lt. assert (N : 0 <= IZR n) by now apply IZR_le.
  destruct (Rltb (IZR n / IZR d) 0) eqn:E; [apply Rltb_true in E; exfalso; apply (Rlt_not_le _ _ E), Rmult_le_pos; [exact N|left; now apply Rinv_0_lt_compat]|].
  symmetry. apply Int_part_spec. assert (Q := Z.div_mod n d ltac:(lia)). assert (B := Z.mod_pos_bound n d Hd).
  assert (F : IZR n = IZR d * IZR (n / d) + IZR (n mod d)) by (rewrite <- mult_IZR, <- plus_IZR; now apply f_equal).
  assert (B1 : 0 <= IZR (n mod d)) by (apply IZR_le; lia). assert (B2 : IZR (n mod d) < IZR d) by (apply IZR_lt; lia).
  replace (IZR n / IZR d) with (IZR (n / d) + IZR (n mod d) / IZR d) by (rewrite F; field; lra).
  assert (0 <= IZR (n mod d) / IZR d) by (apply Rmult_le_pos; [exact B1|left; now apply Rinv_0_lt_compat]).
  assert (IZR (n mod d) / IZR d < 1) by (apply Rmult_lt_reg_r with (IZR d); [exact D|]; unfold Rdiv; rewrite Rmult_assoc, Rinv_l by lra; lra). lra.
Qed.
Lemma annotations m : (0 <= m)%Z ->
  n_samples_annotator m NaN = ""%string /\ n_samples_annotator m PInf = (">" ++ TasksModel.int_str (m / 1000) ++ "k")%string /\
  (forall n, (0 <= n < 1000)%Z -> n_samples_annotator m (Fin (IZR n)) = TasksModel.int_str n) /\
  (forall n, (1000 <= n)%Z -> n_samples_annotator m (Fin (IZR n)) = (TasksModel.int_str (n / 1000) ++ "k")%string).
Proof.
  intros Hm. split; [reflexivity|]. split; [cbn [n_samples_annotator]; now rewrite (py_int_of_Z m 1000) by lia|]. split; intros n H; cbn [n_samples_annotator].
  - destruct (Rltb (IZR n) 1000) eqn:E; [|apply Rltb_false in E; apply (le_IZR 1000) in E; lia]. f_equal.
    assert (X := py_int_of_Z n 1 ltac:(lia) ltac:(lia)). rewrite Z.div_1_r in X. rewrite <- X at 2. f_equal. field.
  - destruct (Rltb (IZR n) 1000) eqn:E; [apply Rltb_true in E; apply (lt_IZR n 1000) in E; lia|]. now rewrite (py_int_of_Z n 1000) by lia.
Qed.

Lemma error_log r : log_error r (error r).
Proof. exact (prepared_error [] [] r). Qed.
Lemma preprocess_rows estimators results : Forall2 (fun r p => p_row p = r /\ p_error p = error r /\ (p_neural p = true <-> neural estimators (r_estimator r)) /\
  (p_fail p = true <-> failed_run estimators results r)) results (preprocess estimators results).
Proof.
  rewrite preprocess_map. assert (X : forall l, Forall2 (fun r p => p_row p = r /\ p_error p = error r /\ (p_neural p = true <-> neural estimators (r_estimator r)) /\
    (p_fail p = true <-> failed_run estimators results r)) l (map (prepared estimators results) l)); [|apply X].
  induction l; constructor; auto. split; [reflexivity|]. split; [reflexivity|]. split; [apply prepared_neural|apply prepared_fail].
Qed.
Lemma make_table_ok (d : long) (value : string -> string -> fl -> Prop) estimators tasks names t :
  (forall e k v, In ((e, k), v) d <-> value e k v) -> make_benchmark_table d estimators tasks names = Ok t -> shows value estimators tasks names t.
Proof. intros H. now apply make_shows. Qed.
Lemma make_table_total (d : long) (value : string -> string -> fl -> Prop) estimators tasks names :
  (forall e k v, In ((e, k), v) d <-> value e k v) ->
  (~ NoDup (map fst d) /\ make_benchmark_table d estimators tasks names = Err ValueError) \/
  (NoDup (map fst d) /\ unnamed value estimators names /\ make_benchmark_table d estimators tasks names = Err KeyError) \/
  (NoDup (map fst d) /\ ~ unnamed value estimators names /\ exists t, make_benchmark_table d estimators tasks names = Ok t).
Proof.
  intros H. destruct (pivot d) as [p|x] eqn:P.
  - apply pivot_ok in P as [N _]. right. destruct (make_total d value H estimators tasks names N) as [(t & E)|[E U]]; [right|left; auto].
    split; [exact N|]. split; [eapply make_named; eauto|eauto].
  - left. assert (N : ~ NoDup (map fst d)) by (intros N; rewrite (proj2 (pivot_ok d _) (conj N eq_refl)) in P; discriminate).
    split; [exact N|]. unfold make_benchmark_table. now rewrite (proj2 (pivot_err d) N).
Qed.
Lemma limited m results : (forall r, In r (limit_estimates (Some m) results) <-> In r results /\ fl_ltb (r_estimate r) m = true) /\
  keeping (fun r => fl_ltb (r_estimate r) m = true) results (limit_estimates (Some m) results) /\ limit_estimates None results = results.
Proof. split; [intros r; apply filter_In|]. split; [|reflexivity]. cbn. apply keeping_filter. tauto. Qed.
Lemma clip_drawn top v : 0 <= top -> drawn top v (np_clip 0 top v).
Proof.
  intros H. unfold drawn. destruct v as [x| | |]; cbn [np_clip].
  - split; [discriminate|]. split; [discriminate|]. split; [discriminate|]. intros y E. injection E as <-.
    split; [|split]; intros L; apply f_equal; unfold Rmax; destruct (Rle_dec x 0); unfold Rmin; destruct (Rle_dec _ top); lra.
  - split; [discriminate|]. split; [|split; [discriminate|intros; discriminate]]. intros _. apply f_equal. unfold Rmax.
    destruct (Rle_dec top 0); unfold Rmin; destruct (Rle_dec _ top); lra.
  - split; [discriminate|]. split; [discriminate|]. split; [|intros; discriminate]. intros _. apply f_equal. unfold Rmin. destruct (Rle_dec 0 top); lra.
  - split; [reflexivity|]. split; [discriminate|]. split; [discriminate|intros; discriminate].
Qed.
Lemma map_forall2 {A B} (R : A -> B -> Prop) (f : A -> B) l : (forall a, R a (f a)) -> Forall2 R l (map f l).
Proof. intros H. induction l; constructor; auto. Qed.
Lemma samples_figure_ok default_names estimators tasks names results m t colours texts : top_size results m -> (0 <= m)%Z ->
  n_samples_figure default_names estimators tasks names results = Ok (t, colours, texts) ->
  n_samples_table default_names estimators tasks names results = Ok t /\
  Forall2 (Forall2 (drawn (100 * IZR m))) (tb_values t) colours /\
  Forall2 (Forall2 (fun v s => s = n_samples_annotator m v)) (tb_values t) texts.
Proof.
  intros T P. unfold n_samples_figure. rewrite (proj2 (top_largest results m) T). destruct (n_samples_table _ _ _ _ _) as [u|]; [|discriminate]. cbn [bind].
  intros H. injection H as <- <- <-. split; [reflexivity|]. assert (0 <= 100 * IZR m) by (apply IZR_le in P; lra).
  split; apply map_forall2; intros l; apply map_forall2; [now intros v; apply clip_drawn|reflexivity].
Qed.

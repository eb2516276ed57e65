(** Lemmas about [TablesModel]. *)
From Coq Require Import String Permutation Sorted.
From Verif Require Import Base BaseLemmas UtilsModel GaussianModel BenchmarkModel TablesModel TablesSpec.
Open Scope R_scope.
Local Notation length := List.length.

(** ** Sorting and groups *)
Lemma insert_perm {A} leb (a : A) l : Permutation (insert_by leb a l) (a :: l).
Proof.
  induction l as [|b l IH]; cbn; [auto|]. destruct (leb a b); [auto|]. rewrite IH. constructor.
Qed.
Lemma sort_perm {A} leb (l : list A) : Permutation (sort_by leb l) l.
Proof. induction l as [|a l IH]; cbn; [auto|]. rewrite insert_perm. now constructor. Qed.
Lemma insert_sorted {A} (leb : A -> A -> bool) a l : (forall x y, leb x y = false -> leb y x = true) ->
  Sorted (fun x y => leb x y = true) l -> Sorted (fun x y => leb x y = true) (insert_by leb a l).
Proof.
  intros T S. induction S as [|b l S IH H]; cbn; [auto|].
  destruct (leb a b) eqn:E; [auto|]. constructor; [exact IH|].
  destruct l as [|c l]; cbn; [constructor; auto|]. destruct (leb a c); constructor; auto. now inversion H.
Qed.
Lemma sort_sorted {A} (leb : A -> A -> bool) l : (forall x y, leb x y = false -> leb y x = true) -> Sorted (fun x y => leb x y = true) (sort_by leb l).
Proof. intros T. induction l as [|a l IH]; cbn; [constructor|]. now apply insert_sorted. Qed.
Lemma leb_total x y : String.leb x y = false -> String.leb y x = true.
Proof. intros H. destruct (String.leb_total x y); congruence. Qed.

Lemma labels_in l x : In x (labels l) <-> In x l.
Proof.
  unfold labels. rewrite <- (nodup_In string_dec l x). split; apply Permutation_in; [apply sort_perm|apply Permutation_sym, sort_perm].
Qed.
Lemma labels_nodup l : NoDup (labels l).
Proof. eapply Permutation_NoDup; [apply Permutation_sym, sort_perm|apply NoDup_nodup]. Qed.
Lemma labels_sorted l : Sorted (fun x y => String.leb x y = true) (labels l).
Proof. apply sort_sorted. exact leb_total. Qed.

Lemma nodup_short {A} (dec : forall x y : A, {x = y} + {x <> y}) l : (length (nodup dec l) <= length l)%nat.
Proof. induction l as [|a l IH]; cbn; [auto|]. destruct (in_dec dec a l); cbn; lia. Qed.
Lemma nodup_length {A} (dec : forall x y : A, {x = y} + {x <> y}) l : length (nodup dec l) = length l <-> NoDup l.
Proof.
  split.
  - induction l as [|a l IH]; cbn; [constructor|]. destruct (in_dec dec a l) as [H|H]; intros E.
    + assert (K := nodup_short dec l). lia.
    + constructor; [exact H|]. apply IH. cbn in E. lia.
  - intros H. now rewrite nodup_fixed_point.
Qed.

Section Group.
  Context {A : Type} (key : A -> string * string) (data : list A).
  Lemma group_keys : Permutation (map fst (group key data)) (nodup pair_dec (map key data)).
  Proof. unfold group. rewrite map_map. cbn [fst]. rewrite map_id. apply sort_perm. Qed.
  Lemma group_nodup : NoDup (map fst (group key data)).
  Proof. eapply Permutation_NoDup; [apply Permutation_sym, group_keys|apply NoDup_nodup]. Qed.
  Lemma group_in k rows : In (k, rows) (group key data) <->
    In k (map key data) /\ rows = filter (fun r => if pair_dec (key r) k then true else false) data.
  Proof.
    unfold group. rewrite in_map_iff. split.
    - intros (k' & E & H). injection E as -> <-. split; [|reflexivity].
      apply (nodup_In pair_dec). eapply Permutation_in; [apply sort_perm|exact H].
    - intros [H ->]. exists k. split; [reflexivity|]. eapply Permutation_in; [apply Permutation_sym, sort_perm|]. now apply nodup_In.
  Qed.
End Group.

Lemma key_filter e t (r : row) : (if pair_dec (r_estimator r, r_task r) (e, t) then true else false) = (String.eqb (r_estimator r) e && String.eqb (r_task r) t)%bool.
Proof.
  destruct (pair_dec _ _) as [E|E].
  - injection E as -> ->. now rewrite !String.eqb_refl.
  - destruct (String.eqb_spec (r_estimator r) e); [|reflexivity]. destruct (String.eqb_spec (r_task r) t); [|reflexivity]. subst. now destruct E.
Qed.
Lemma group_rows data e t : filter (fun r => if pair_dec (r_estimator r, r_task r) (e, t) then true else false) data = runs data e t.
Proof. unfold runs. apply filter_ext. intros r. apply key_filter. Qed.

(** ** Pivots *)
Lemma lookup_in d e t v : NoDup (map fst d) -> In ((e, t), v) d -> lookup d e t = v.
Proof.
  induction d as [|[[e' t'] v'] d IH]; cbn; [tauto|]. intros N. inversion N as [|? ? N1 N2]; subst. intros [E|H].
  - injection E as -> -> ->. now rewrite !String.eqb_refl.
  - destruct (String.eqb_spec e' e) as [->|]; cbn; [|auto]. destruct (String.eqb_spec t' t) as [->|]; cbn; [|auto].
    destruct N1. apply in_map_iff. exists ((e, t), v). auto.
Qed.
Lemma lookup_out d e t : ~ In (e, t) (map fst d) -> lookup d e t = NaN.
Proof.
  induction d as [|[[e' t'] v'] d IH]; cbn; [auto|]. intros N.
  destruct (String.eqb_spec e' e) as [->|]; cbn; [|auto]. destruct (String.eqb_spec t' t) as [->|]; cbn; [|auto]. destruct N. auto.
Qed.
Definition pivoted (d : long) : table :=
  {| tb_index := labels (map (fun x => snd (fst x)) d); tb_columns := labels (map (fun x => fst (fst x)) d);
     tb_values := map (fun t => map (fun e => lookup d e t) (labels (map (fun x => fst (fst x)) d))) (labels (map (fun x => snd (fst x)) d)) |}.
Lemma pivot_ok d t : pivot d = Ok t <-> NoDup (map fst d) /\ t = pivoted d.
Proof.
  unfold pivot. destruct (Nat.eqb_spec (length (nodup pair_dec (map fst d))) (length (map fst d))) as [E|E].
  - apply nodup_length in E. split; [intros H; injection H as <-; auto|intros [_ ->]; reflexivity].
  - split; [discriminate|]. intros [H _]. now apply (nodup_length pair_dec) in H.
Qed.
Lemma pivot_err d : pivot d = Err ValueError <-> ~ NoDup (map fst d).
Proof.
  unfold pivot. destruct (Nat.eqb_spec (length (nodup pair_dec (map fst d))) (length (map fst d))) as [E|E].
  - apply nodup_length in E. split; [discriminate|contradiction].
  - split; [|reflexivity]. intros _ H. now apply (nodup_length pair_dec) in H.
Qed.
Lemma pivot_cell d task e v : cell (pivoted d) task e v <->
  In task (map (fun x => snd (fst x)) d) /\ In e (map (fun x => fst (fst x)) d) /\ v = lookup d e task.
Proof.
  rewrite <- (labels_in (map (fun x => snd (fst x)) d)), <- (labels_in (map (fun x => fst (fst x)) d)).
  unfold cell, pivoted. cbn [tb_index tb_columns tb_values]. split.
  - intros (i & j & r & Hi & Hj & Hr & Hv). split; [eapply nth_error_In; eauto|]. split; [eapply nth_error_In; eauto|].
    rewrite nth_error_map, Hi in Hr. injection Hr as <-. rewrite nth_error_map, Hj in Hv. now injection Hv as <-.
  - intros (Ht & He & ->). apply In_nth_error in Ht as [i Hi]. apply In_nth_error in He as [j Hj]. exists i, j.
    eexists. split; [exact Hi|]. split; [exact Hj|]. rewrite nth_error_map, Hi. split; [reflexivity|]. now rewrite nth_error_map, Hj.
Qed.

(** ** Means and maxima *)
Lemma numbers l : filter (fun v => negb (is_nan v)) l = filter (fun v => match v with NaN => false | _ => true end) l.
Proof. apply filter_ext. now intros []. Qed.
Lemma fl_sum_fin xs : fl_sum (map Fin xs) = Fin (rsum xs).
Proof. induction xs as [|x xs IH]; [reflexivity|]. unfold fl_sum, rsum in *. cbn [map fold_right]. rewrite IH. reflexivity. Qed.
Lemma fl_sum_cases l : ~ In NaN l ->
  (exists xs, l = map Fin xs) \/ (In PInf l /\ ~ In NInf l /\ fl_sum l = PInf) \/ (In NInf l /\ ~ In PInf l /\ fl_sum l = NInf) \/
  (In PInf l /\ In NInf l /\ fl_sum l = NaN).
Proof.
  induction l as [|a l IH]; intros N; [left; exists []; reflexivity|].
  destruct IH as [(xs & ->)|[(A & B & E)|[(A & B & E)|(A & B & E)]]]; [intros H; apply N; now right| | | |].
  - assert (Np : ~ In PInf (map Fin xs)) by (intros H; apply in_map_iff in H as (? & ? & _); discriminate).
    assert (Nn : ~ In NInf (map Fin xs)) by (intros H; apply in_map_iff in H as (? & ? & _); discriminate).
    destruct a as [x| | |].
    + left. exists (x :: xs). reflexivity.
    + right; left. split; [now left|]. split; [intros [H|H]; [discriminate|auto]|]. unfold fl_sum. cbn [fold_right]. fold (fl_sum (map Fin xs)). now rewrite fl_sum_fin.
    + right; right; left. split; [now left|]. split; [intros [H|H]; [discriminate|auto]|]. unfold fl_sum. cbn [fold_right]. fold (fl_sum (map Fin xs)). now rewrite fl_sum_fin.
    + destruct N. now left.
  - unfold fl_sum in *. cbn [fold_right]. rewrite E. destruct a as [x| | |].
    + right; left. split; [now right|]. split; [intros [H|H]; [discriminate|auto]|reflexivity].
    + right; left. split; [now right|]. split; [intros [H|H]; [discriminate|auto]|reflexivity].
    + right; right; right. split; [now right|]. split; [now left|reflexivity].
    + destruct N. now left.
  - unfold fl_sum in *. cbn [fold_right]. rewrite E. destruct a as [x| | |].
    + right; right; left. split; [now right|]. split; [intros [H|H]; [discriminate|auto]|reflexivity].
    + right; right; right. split; [now left|]. split; [now right|reflexivity].
    + right; right; left. split; [now right|]. split; [intros [H|H]; [discriminate|auto]|reflexivity].
    + destruct N. now left.
  - unfold fl_sum in *. cbn [fold_right]. rewrite E. destruct a as [x| | |].
    1-3: right; right; right; split; [now right|]; split; [now right|reflexivity].
    destruct N. now left.
Qed.
Lemma in_numbers l x : x <> NaN -> In x (filter (fun v => negb (is_nan v)) l) <-> In x l.
Proof. intros N. rewrite filter_In. split; [tauto|]. intros H. split; [exact H|]. now destruct x. Qed.
Lemma mean_spec l : mean_of l (pd_mean l).
Proof.
  unfold pd_mean. destruct (filter _ l) as [|v vs] eqn:E.
  - apply mean_nothing. intros x H. destruct x as [x| | |]; try reflexivity; exfalso; apply in_numbers in H; try discriminate; rewrite E in H; destruct H.
  - rewrite <- E. assert (N : ~ In NaN (filter (fun v => negb (is_nan v)) l)) by (intros H; apply filter_In in H as [_ H]; discriminate).
    destruct (fl_sum_cases _ N) as [(xs & Ex)|[(A & B & Es)|[(A & B & Es)|(A & B & Es)]]].
    + rewrite Ex, fl_sum_fin, map_length. cbn [fl_divp]. apply mean_finite; [|now rewrite <- numbers].
      intros ->. rewrite Ex in E. discriminate.
    + rewrite Es. apply mean_up; rewrite <- (in_numbers l); auto; discriminate.
    + rewrite Es. apply mean_down; rewrite <- (in_numbers l); auto; discriminate.
    + rewrite Es. apply mean_both; rewrite <- (in_numbers l); auto; discriminate.
Qed.

Lemma fl_ltb_trans a b c : a <> NaN -> b <> NaN -> fl_ltb a b = false -> fl_ltb b c = false -> fl_ltb a c = false.
Proof.
  destruct a, b, c; cbn; try congruence; repeat match goal with |- context [Rlt_dec ?x ?y] => destruct (Rlt_dec x y) end; try congruence; intros; exfalso; lra.
Qed.
Lemma fl_ltb_irrefl a : fl_ltb a a = false.
Proof. destruct a; cbn; try reflexivity. destruct (Rlt_dec r r); [exfalso; lra|reflexivity]. Qed.
Lemma fl_ltb_asym a b : fl_ltb a b = true -> fl_ltb b a = false.
Proof. destruct a, b; cbn; try congruence. destruct (Rlt_dec r r0), (Rlt_dec r0 r); try congruence. exfalso. lra. Qed.
Lemma max_fold vs : forall v, v <> NaN -> ~ In NaN vs -> let m := fold_left py_max vs v in
  m <> NaN /\ In m (v :: vs) /\ forall x, In x (v :: vs) -> fl_ltb m x = false.
Proof.
  induction vs as [|a vs IH]; intros v Nv N; cbn [fold_left].
  - cbn. split; [exact Nv|]. split; [now left|]. intros x [<-|[]]. apply fl_ltb_irrefl.
  - assert (Na : a <> NaN) by (intros ->; apply N; now left).
    assert (Np : py_max v a <> NaN) by (unfold py_max; destruct (fl_ltb v a); auto).
    destruct (IH (py_max v a) Np) as (A & B & C); [intros H; apply N; now right|]. cbv zeta.
    split; [exact A|]. split.
    + destruct B as [B|B]; [rewrite <- B; unfold py_max; destruct (fl_ltb v a); cbn; auto|]. cbn; auto.
    + assert (K := C (py_max v a) (or_introl eq_refl)).
      intros x [<-|[<-|H]]; [| |apply C; now right]; (apply (fl_ltb_trans _ (py_max v a)); [exact A|exact Np|exact K|]);
        unfold py_max; destruct (fl_ltb v a) eqn:E; auto using fl_ltb_irrefl. now apply fl_ltb_asym.
Qed.
Lemma max_spec l : largest l (pd_max l).
Proof.
  unfold pd_max. destruct (filter _ l) as [|v vs] eqn:E.
  - left. split; [reflexivity|]. intros x H. destruct x as [x| | |]; try reflexivity; exfalso; apply in_numbers in H; try discriminate; rewrite E in H; destruct H.
  - right. assert (N : ~ In NaN (v :: vs)) by (rewrite <- E; intros H; apply filter_In in H as [_ H]; discriminate).
    destruct (max_fold vs v) as (A & B & C); [intros ->; apply N; now left|intros H; apply N; now right|].
    cbv zeta in *. split; [exact A|]. split.
    + rewrite <- E in B. apply filter_In in B as [B _]. exact B.
    + intros x H. destruct (is_nan x) eqn:Nx; [destruct x; try discriminate; destruct (fold_left _ _ _); reflexivity|].
      apply C. rewrite <- E. apply filter_In. now rewrite Nx.
Qed.
Lemma largest_unique l m m' : largest l m -> largest l m' -> m = m'.
Proof.
  intros [[-> A]|(N & I & A)] [[-> B]|(N' & I' & B)].
  - reflexivity.
  - destruct N'. now apply A.
  - destruct N. now apply B.
  - assert (K := A _ I'). assert (K' := B _ I). destruct m, m'; cbn in K, K'; try congruence.
    destruct (Rlt_dec r r0); [congruence|]. destruct (Rlt_dec r0 r); [congruence|]. f_equal. lra.
Qed.

(** Statements about the histogram estimator. *)
From Coq Require Import Permutation.
From Verif Require Import Base BaseLemmas UtilsModel UtilsSpec UtilsProofs KsgFitProofs KsgThms KsgHistory
  HistogramModel HistogramSpec PluginProofs HistogramProofs.
Open Scope R_scope.

Lemma column_hstack_l dx sx sy j :
  rectangular dx sx -> length sx = length sy -> (j < dx)%nat -> column (hstack sx sy) j = column sx j.
Proof.
  intros Hr Hl Hj. unfold column, hstack. rewrite map_map.
  rewrite <- (combine_fst sx sy Hl) at 2. rewrite map_map. apply map_ext_in. intros [a b] Hin. cbn [fst snd].
  unfold rectangular in Hr. rewrite Forall_forall in Hr. apply in_combine_l in Hin. apply Hr in Hin.
  apply app_nth1. lia.
Qed.

Lemma column_hstack_r dx sx sy j :
  rectangular dx sx -> length sx = length sy -> column (hstack sx sy) (dx + j) = column sy j.
Proof.
  intros Hr Hl. unfold column, hstack. rewrite map_map.
  rewrite <- (combine_snd sx sy Hl) at 2. rewrite map_map. apply map_ext_in. intros [a b] Hin. cbn [fst snd].
  unfold rectangular in Hr. rewrite Forall_forall in Hr. apply in_combine_l in Hin. apply Hr in Hin.
  rewrite app_nth2 by lia. f_equal. lia.
Qed.

Lemma nth_repeat_in {A} (a d : A) n i : (i < n)%nat -> nth i (repeat a n) d = a.
Proof. revert i. induction n as [|n IH]; intros [|i] H; simpl; try lia; auto. apply IH. lia. Qed.

Lemma Forall2_combine {A B C D} (P : A -> C -> Prop) (Q : B -> D -> Prop) la lc lb ld :
  Forall2 P la lc -> Forall2 Q lb ld ->
  Forall2 (fun p q => P (fst p) (fst q) /\ Q (snd p) (snd q)) (combine la lb) (combine lc ld).
Proof.
  intros H. revert lb ld. induction H as [|a c la lc Hac H IH]; intros lb ld H2; [constructor|].
  inversion H2; subst; cbn [combine]; constructor; auto.
Qed.

Lemma Forall2_filter_length {A B} (p : A -> bool) (q : B -> bool) (P : A -> B -> Prop) la lb :
  Forall2 P la lb -> (forall a b, In a la -> P a b -> p a = q b) -> length (filter p la) = length (filter q lb).
Proof.
  induction 1 as [|a b la lb Hab H IH]; intros Hpq; cbn [filter]; [reflexivity|].
  rewrite (Hpq a b (or_introl eq_refl) Hab).
  assert (E : length (filter p la) = length (filter q lb)) by (apply IH; intros; apply Hpq; [now right|assumption]).
  destruct (q b); cbn [length]; congruence.
Qed.

Lemma map_S_inj (a b : list nat) : map S a = map S b -> a = b.
Proof.
  revert b. induction a as [|x a IH]; intros [|y b] H; simpl in H; try discriminate; [reflexivity|].
  injection H as -> H. f_equal. auto.
Qed.

Lemma app_inj_length {A} (a b c d : list A) : length a = length c -> (a ++ b)%list = (c ++ d)%list -> a = c /\ b = d.
Proof.
  revert c. induction a as [|x a IH]; intros [|y c] Hl H; simpl in *; try discriminate; [auto|].
  injection H as -> H. destruct (IH c) as [-> ->]; auto.
Qed.

Lemma row_indices_labels dx dy nx ny sx sy rx ry a b :
  rectangular dx sx -> rectangular dy sy -> length sx = length sy ->
  In (rx, ry) (combine sx sy) ->
  length a = length rx -> (forall j, (j < length rx)%nat -> in_cell (coords sx j) nx (nth j rx 0) (nth j a O)) ->
  length b = length ry -> (forall j, (j < length ry)%nat -> in_cell (coords sy j) ny (nth j ry 0) (nth j b O)) ->
  row_indices (hstack sx sy) (repeat nx dx ++ repeat ny dy) (rx ++ ry) = map S (a ++ b).
Proof.
  intros Hx Hy Hl Hin Ha Hca Hb Hcb.
  destruct (in_combine_rect dx dy sx sy _ Hx Hy Hin) as [Hdx Hdy]. cbn [fst snd] in *.
  unfold row_indices. rewrite app_length, !repeat_length.
  apply nth_ext with (d := O) (d' := S O).
  - rewrite !map_length, seq_length, app_length. lia.
  - intros j Hj. rewrite map_length, seq_length in Hj.
    rewrite nth_map_seq by assumption. rewrite (map_nth S).
    unfold edges_of. destruct (Nat.lt_ge_cases j dx) as [H|H].
    + rewrite (column_hstack_l dx) by assumption.
      rewrite (app_nth1 (repeat nx dx)) by now rewrite repeat_length. rewrite nth_repeat_in by assumption.
      rewrite !app_nth1 by lia. apply in_cell_raw; [|apply Hca; lia].
      apply in_map_iff. exists rx. split; [reflexivity|]. eapply in_combine_l, Hin.
    + replace j with (dx + (j - dx))%nat at 1 by lia. rewrite (column_hstack_r dx) by assumption.
      rewrite (app_nth2 (repeat nx dx)), repeat_length by (rewrite repeat_length; lia).
      rewrite nth_repeat_in by lia.
      rewrite !app_nth2 by lia. rewrite Ha, Hdx. apply in_cell_raw; [|apply Hcb; lia].
      apply in_map_iff. exists ry. split; [reflexivity|]. eapply in_combine_r, Hin.
Qed.

Lemma hist_counts dx dy nx ny sx sy lx ly ix iy :
  rectangular dx sx -> rectangular dy sy -> length sx = length sy ->
  cells_of nx sx lx -> cells_of ny sy ly -> length ix = dx -> length iy = dy ->
  histogramdd (hstack sx sy) (repeat nx dx ++ repeat ny dy) (ix ++ iy)
  = num (fun r => is_a label_dec ix r && is_b label_dec iy r) (combine lx ly).
Proof.
  intros Hx Hy Hl Hcx Hcy Hix Hiy. unfold histogramdd, num. f_equal.
  match goal with |- length (filter ?p _) = _ => set (P := p) end.
  unfold hstack. rewrite filter_map_length. unfold P. clear P.
  eapply Forall2_filter_length; [apply Forall2_combine; [exact Hcx|exact Hcy]|].
  intros [rx ry] [a b] Hin [[Ha Hca] [Hb Hcb]]. cbn [fst snd] in *.
  rewrite (row_indices_labels dx dy nx ny sx sy rx ry a b) by assumption.
  destruct (in_combine_rect dx dy sx sy _ Hx Hy Hin) as [Hdx Hdy]. cbn [fst snd] in *.
  unfold is_a, is_b. cbn [fst snd].
  destruct (list_eq_dec Nat.eq_dec _ _) as [E|E]; destruct (label_dec a ix) as [E1|E1]; destruct (label_dec b iy) as [E2|E2];
    cbn [andb]; try reflexivity; exfalso;
    try (apply map_S_inj, app_inj_length in E; [|lia]; destruct E; contradiction).
  apply E. congruence.
Qed.

(** ** The estimator returns the plug-in MI of the cells, for either setting of the flag. *)
Lemma product_space_cells std dx dy nx ny x y sx sy lx ly :
  rectangular dx x -> rectangular dy y -> (0 < dx)%nat -> (0 < dy)%nat -> x <> [] ->
  cells_of nx x lx -> cells_of ny y ly ->
  product_space_values std x y = Ok (sx, sy) ->
  length x = length y /\ length sx = length sy /\ sx <> [] /\ sy <> [] /\ rectangular dx sx /\ rectangular dy sy /\
  cells_of nx sx lx /\ cells_of ny sy ly.
Proof.
  intros Hx Hy Hdx Hdy Hne Hcx Hcy H. unfold product_space_values in H.
  destruct (Nat.eqb_spec (length x) (length y)) as [Hl|Hl]; cbn [negb] in H; [|discriminate].
  assert (Hney : y <> []) by (intros ->; destruct x; simpl in Hl; congruence).
  destruct std.
  - rewrite (standard_scaler_ok dx x), (standard_scaler_ok dy y) in H by assumption. cbn [bind] in H.
    injection H as <- <-.
    destruct (scaler_shape dx x Hx Hne) as [H1 H2]. destruct (scaler_shape dy y Hy Hney) as [H3 H4].
    repeat split; auto; try congruence.
    + intros E. rewrite E in H1. destruct x; [congruence|discriminate].
    + intros E. rewrite E in H3. destruct y; [congruence|discriminate].
    + apply cells_scaler with dx; assumption.
    + apply cells_scaler with dy; assumption.
  - injection H as <- <-. repeat split; auto.
Qed.

Lemma Forall2_length_eq {A B} (P : A -> B -> Prop) l l' : Forall2 P l l' -> length l = length l'.
Proof. induction 1; simpl; congruence. Qed.

Theorem hist_plugin par dx dy x y lx ly :
  (0 < hp_bins_x par)%nat -> (0 < hp_bins_y par)%nat ->
  rectangular dx x -> rectangular dy y -> (0 < dx)%nat -> (0 < dy)%nat -> x <> [] -> length x = length y ->
  cells_of (hp_bins_x par) x lx -> cells_of (hp_bins_y par) y ly ->
  hist_estimate par x y = Ok (plugin_mi label_dec label_dec (combine lx ly)).
Proof.
  intros Hbx Hby Hx Hy Hdx Hdy Hne Hl Hcx Hcy. unfold hist_estimate.
  destruct (product_space_values_spec (hp_standardize par) dx dy x y Hx Hy Hdx Hdy Hne) as [_ Hps].
  destruct (Hps Hl) as (sx & sy & E & _). rewrite E. cbn [bind].
  destruct (product_space_cells _ _ _ _ _ _ _ _ _ _ _ Hx Hy Hdx Hdy Hne Hcx Hcy E)
    as (_ & Hls & Hsx & Hsy & Hrx & Hry & Hcsx & Hcsy).
  rewrite (ncols_rect dx sx), (ncols_rect dy sy) by assumption.
  set (nx := hp_bins_x par) in *. set (ny := hp_bins_y par) in *.
  set (U := product_range nx dx). set (V := product_range ny dy). set (s := combine lx ly).
  assert (Hlx : length sx = length lx) by (eapply Forall2_length_eq, Hcsx).
  assert (Hly : length sy = length ly) by (eapply Forall2_length_eq, Hcsy).
  assert (Hs : s <> []).
  { unfold s. destruct lx; [destruct sx; [congruence|discriminate]|].
    destruct ly; [destruct sy; [congruence|discriminate]|discriminate]. }
  assert (HinU : forall q, In q s -> In (fst q) U).
  { intros [a b] Hq. apply in_combine_l in Hq. apply (cells_labels dx nx sx lx); assumption. }
  assert (HinV : forall q, In q s -> In (snd q) V).
  { intros [a b] Hq. apply in_combine_r in Hq. apply (cells_labels dy ny sy ly); assumption. }
  assert (HU : NoDup U) by apply product_range_NoDup. assert (HV : NoDup V) by apply product_range_NoDup.
  set (cab := fun a b => num (fun r => is_a label_dec a r && is_b label_dec b r) s).
  assert (Hflat : map (fun ix => map (fun iy => histogramdd (hstack sx sy) (repeat nx dx ++ repeat ny dy) (ix ++ iy)) V) U
                  = map (fun a => map (fun b => cab a b) V) U).
  { apply map_ext_in. intros a Ha. apply map_ext_in. intros b Hb.
    apply product_range_spec in Ha, Hb. apply hist_counts; auto; apply Ha || apply Hb. }
  rewrite Hflat. unfold cab. rewrite (table_total U V s HU HV HinU HinV).
  set (n := INR (length s)).
  assert (Hpxy : map (map (fun c => c / n)) (map (fun a => map (fun b => cab a b) V) U)
                 = map (fun a => map (fun b => cab a b / n) V) U).
  { rewrite map_map. apply map_ext. intros a. now rewrite map_map. }
  unfold cab in Hpxy. rewrite Hpxy. fold cab.
  assert (Hpx : map rsum (map (fun a => map (fun b => cab a b / n) V) U)
                = map (fun a => num (is_a label_dec a) s / n) U).
  { rewrite map_map. apply map_ext. intros a.
    rewrite <- (cab_sum_b V s HV HinV a). fold cab.
    rewrite (rsum_map_ext _ (fun b => / n * cab a b)) by (intros; unfold Rdiv; apply Rmult_comm).
    rewrite rsum_scal. unfold Rdiv. apply Rmult_comm. }
  unfold cab in Hpx. rewrite Hpx.
  assert (HlV : length V = (ny ^ dy)%nat) by apply product_range_length.
  assert (HlU : length U = (nx ^ dx)%nat) by apply product_range_length.
  rewrite <- HlV, <- HlU.
  assert (Hpy : map (fun j => rsum (map (fun row => nth j row 0) (map (fun a => map (fun b => cab a b / n) V) U))) (seq 0 (length V))
                = map (fun b => num (is_b label_dec b) s / n) V).
  { rewrite <- (map_nth_seq (fun b => num (is_b label_dec b) s / n) V []).
    apply map_ext_in. intros j Hj. apply in_seq in Hj. rewrite map_map.
    rewrite (rsum_map_ext _ (fun a => / n * cab a (nth j V []))).
    - rewrite rsum_scal. rewrite <- (cab_sum_a U s HU HinU). fold cab. unfold Rdiv. apply Rmult_comm.
    - intros a _. rewrite (nth_map_in _ V j []) by apply Hj. unfold Rdiv. apply Rmult_comm. }
  unfold cab in Hpy. rewrite Hpy.
  rewrite !map_length, !Nat.eqb_refl. cbn [andb]. f_equal.
  rewrite (hist_loop_sum U V (fun a b => cab a b / n)).
  apply table_mi; assumption.
Qed.

(** ** Consequences *)
Definition hist_ok (par : hist_params) (dx dy : nat) (x y : matrix) : Prop :=
  (0 < hp_bins_x par)%nat /\ (0 < hp_bins_y par)%nat /\
  rectangular dx x /\ rectangular dy y /\ (0 < dx)%nat /\ (0 < dy)%nat /\ x <> [] /\ length x = length y.

Lemma hist_labels par dx dy x y : hist_ok par dx dy x y ->
  exists lx ly, cells_of (hp_bins_x par) x lx /\ cells_of (hp_bins_y par) y ly.
Proof.
  intros (H1 & H2 & H3 & H4 & _).
  destruct (cells_of_exists dx (hp_bins_x par) x H3 H1) as (lx & Hlx).
  destruct (cells_of_exists dy (hp_bins_y par) y H4 H2) as (ly & Hly). eauto.
Qed.

Theorem hist_is_plugin par dx dy x y : hist_ok par dx dy x y ->
  exists lx ly, cells_of (hp_bins_x par) x lx /\ cells_of (hp_bins_y par) y ly /\
    forall lx' ly', cells_of (hp_bins_x par) x lx' -> cells_of (hp_bins_y par) y ly' ->
    hist_estimate par x y = Ok (plugin_mi label_dec label_dec (combine lx' ly')).
Proof.
  intros H. destruct (hist_labels _ _ _ _ _ H) as (lx & ly & H1 & H2). exists lx, ly. repeat split; auto.
  intros. destruct H as (A & B & C & D & E & F & G & I). now apply (hist_plugin par dx dy).
Qed.

Lemma labels_nonnil n m labs : cells_of n m labs -> m <> [] -> labs <> [].
Proof. intros H Hm E. subst. inversion H. congruence. Qed.

Theorem hist_bounds par dx dy x y m :
  hist_ok par dx dy x y -> hist_estimate par x y = Ok m ->
  0 <= m /\ m <= INR dx * ln (INR (hp_bins_x par)) /\ m <= INR dy * ln (INR (hp_bins_y par)) /\
  m <= ln (INR (length x)).
Proof.
  intros H Hm. destruct (hist_labels _ _ _ _ _ H) as (lx & ly & H1 & H2).
  destruct H as (A & B & C & D & E & F & G & I).
  rewrite (hist_plugin par dx dy x y lx ly) in Hm by assumption. injection Hm as <-.
  assert (Lx : length x = length lx) by (eapply Forall2_length_eq, H1).
  assert (Ly : length y = length ly) by (eapply Forall2_length_eq, H2).
  assert (Gy : y <> []) by (intros ->; destruct x; simpl in I; congruence).
  pose proof (labels_nonnil _ _ _ H1 G) as Nx. pose proof (labels_nonnil _ _ _ H2 Gy) as Ny.
  assert (Hs : combine lx ly <> []) by (destruct lx; [congruence|]; destruct ly; [congruence|discriminate]).
  assert (Hpow : forall n d, (0 < n)%nat -> ln (INR (n ^ d)) = INR d * ln (INR n)).
  { intros n d Hn. rewrite pow_INR. rewrite <- Rpower_pow by (apply lt_0_INR; lia).
    unfold Rpower. now rewrite ln_exp. }
  split; [apply plugin_nonneg, Hs|]. split; [|split].
  - rewrite <- Hpow, <- product_range_length by assumption. apply plugin_upper_a; [assumption|].
    rewrite combine_fst by congruence. intros a Ha. apply (cells_labels dx _ x lx); assumption.
  - rewrite <- Hpow, <- product_range_length by assumption. apply plugin_upper_b; [assumption|].
    rewrite combine_snd by congruence. intros a Ha. apply (cells_labels dy _ y ly); assumption.
  - rewrite Lx. apply plugin_upper_a; [assumption|]. rewrite combine_fst by congruence. apply incl_refl.
Qed.

Theorem hist_zero_iff par dx dy x y lx ly :
  hist_ok par dx dy x y -> cells_of (hp_bins_x par) x lx -> cells_of (hp_bins_y par) y ly ->
  (hist_estimate par x y = Ok 0 <-> counts_factorise label_dec label_dec (combine lx ly)).
Proof.
  intros (A & B & C & D & E & F & G & I) H1 H2.
  rewrite (hist_plugin par dx dy x y lx ly) by assumption.
  assert (Gy : y <> []) by (intros ->; destruct x; simpl in I; congruence).
  pose proof (labels_nonnil _ _ _ H1 G) as Nx. pose proof (labels_nonnil _ _ _ H2 Gy) as Ny.
  assert (Hs : combine lx ly <> []) by (destruct lx; [congruence|]; destruct ly; [congruence|discriminate]).
  rewrite <- plugin_zero_iff by assumption. split; [intros [=]; assumption|congruence].
Qed.

Definition swap_params (par : hist_params) : hist_params :=
  {| hp_bins_x := hp_bins_y par; hp_bins_y := hp_bins_x par; hp_standardize := hp_standardize par |}.

Theorem hist_symmetric par dx dy x y :
  hist_ok par dx dy x y -> hist_estimate (swap_params par) y x = hist_estimate par x y.
Proof.
  intros H. destruct (hist_labels _ _ _ _ _ H) as (lx & ly & H1 & H2).
  destruct H as (A & B & C & D & E & F & G & I).
  assert (Gy : y <> []) by (intros ->; destruct x; simpl in I; congruence).
  rewrite (hist_plugin par dx dy x y lx ly), (hist_plugin (swap_params par) dy dx y x ly lx) by (try assumption; auto).
  rewrite combine_swap, plugin_swap. reflexivity.
Qed.

Lemma all_equal_incl l l' : incl l' l -> all_equal l -> all_equal l'.
Proof. intros Hi H v w Hv Hw. auto. Qed.

Lemma in_cell_same col col' n v k : (forall u, In u col <-> In u col') -> in_cell col n v k -> in_cell col' n v k.
Proof.
  intros H (lo & hi & Hr & Hk). exists lo, hi. split; [|assumption].
  destruct Hr as [[He (w & Hw & E)]|(H1 & H2 & H3 & H4)].
  - left. split; [|exists w; split; [apply H, Hw|exact E]]. eapply all_equal_incl; [|exact He]. intros u Hu. now apply H.
  - right. repeat split; auto; try (apply H; assumption); apply H4, H; assumption.
Qed.

(** Reordering the samples: the cells move along. *)
Lemma Forall2_in {A B} (P : A -> B -> Prop) l l' : Forall2 P l l' <-> length l = length l' /\ forall p, In p (combine l l') -> P (fst p) (snd p).
Proof.
  split.
  - intros H. split; [eapply Forall2_length_eq, H|]. induction H; cbn [combine]; [intros p []|]. intros p [<-|Hp]; auto.
  - intros [Hl H]. revert l' Hl H. induction l as [|a l IH]; intros [|b l'] Hl H; simpl in Hl; try discriminate; constructor.
    + apply (H (a, b)). now left.
    + apply IH; [lia|]. intros p Hp. apply H. now right.
Qed.

Lemma cells_perm n (m m' : matrix) labs labs' :
  length m = length labs -> length m' = length labs' ->
  Permutation (combine m labs) (combine m' labs') -> cells_of n m labs -> cells_of n m' labs'.
Proof.
  intros Hl Hl' HP H. unfold cells_of in *. rewrite Forall2_in in *. destruct H as [_ H].
  split; [assumption|]. intros p Hp.
  apply (Permutation_in _ (Permutation_sym HP)) in Hp.
  destruct (H p Hp) as [H1 H2]. split; [assumption|]. intros j Hj.
  eapply in_cell_same; [|apply H2; assumption].
  assert (HPm : Permutation m m') by exact (proj1 (combine_perm_parts m m' labs labs' Hl Hl' HP)).
  intros u. unfold coords. split; apply Permutation_in; [|apply Permutation_sym]; apply Permutation_map, HPm.
Qed.

Theorem hist_permutation par dx dy x y x' y' :
  hist_ok par dx dy x y -> length x' = length y' ->
  Permutation (combine x y) (combine x' y') -> hist_estimate par x' y' = hist_estimate par x y.
Proof.
  intros H Hl' HP. destruct (hist_labels _ _ _ _ _ H) as (lx & ly & H1 & H2).
  destruct H as (A & B & C & D & E & F & G & I).
  destruct (combine_perm_parts x x' y y' I Hl' HP) as [HPx HPy].
  assert (Lx : length x = length lx) by (eapply Forall2_length_eq, H1).
  assert (Ly : length y = length ly) by (eapply Forall2_length_eq, H2).
  (* reorder samples together with their labels *)
  assert (Hex : exists ls, Permutation (combine (combine x y) (combine lx ly)) (combine (combine x' y') ls)
                        /\ length ls = length (combine x' y')).
  { assert (Lz : length (combine x y) = length (combine lx ly)) by (rewrite !combine_length; lia).
    revert HP Lz. generalize (combine x y) as z, (combine x' y') as z', (combine lx ly) as l. clear.
    intros z z' l HP. revert l. induction HP as [|q z z' HP IH|q r z|z z' z'' HP1 IH1 HP2 IH2]; intros l Hl.
    - destruct l; [|discriminate]. exists []. split; constructor.
    - destruct l as [|c l]; [discriminate|]. destruct (IH l) as (ls & H1 & H2); [simpl in Hl; lia|].
      exists (c :: ls). cbn [combine length]. split; [now constructor|lia].
    - destruct l as [|c [|c' l]]; try discriminate. exists (c' :: c :: l). cbn [combine length].
      split; [constructor|]. simpl in *. lia.
    - destruct (IH1 l Hl) as (l1 & H1 & H2). destruct (IH2 l1 (eq_sym H2)) as (l2 & H3 & H4).
      exists l2. split; [etransitivity; eauto|assumption]. }
  destruct Hex as (ls & HPl & Hlen).
  set (lx' := map fst ls). set (ly' := map snd ls).
  assert (Els : combine lx' ly' = ls).
  { unfold lx', ly'. clear. induction ls as [|[a b] ls IH]; simpl; congruence. }
  assert (Hlx' : length x' = length lx') by (unfold lx'; rewrite map_length, Hlen, combine_length; lia).
  assert (Hly' : length y' = length ly') by (unfold ly'; rewrite map_length, Hlen, combine_length; lia).
  assert (Px : Permutation (combine x lx) (combine x' lx')).
  { apply (Permutation_map (fun q => (fst (fst q), fst (snd q)))) in HPl.
    rewrite <- !combine_map in HPl. rewrite !combine_fst in HPl by congruence. exact HPl. }
  assert (Py : Permutation (combine y ly) (combine y' ly')).
  { apply (Permutation_map (fun q => (snd (fst q), snd (snd q)))) in HPl.
    rewrite <- !combine_map in HPl. rewrite !combine_snd in HPl by congruence. exact HPl. }
  assert (HC' : rectangular dx x') by (eapply Permutation_Forall; [exact HPx|exact C]).
  assert (HD' : rectangular dy y') by (eapply Permutation_Forall; [exact HPy|exact D]).
  assert (G' : x' <> []) by (intros ->; apply Permutation_sym, Permutation_nil in HPx; congruence).
  rewrite (hist_plugin par dx dy x y lx ly) by assumption.
  rewrite (hist_plugin par dx dy x' y' lx' ly'); try assumption.
  - rewrite Els. f_equal. apply plugin_perm. apply Permutation_sym.
    apply (Permutation_map snd) in HPl. rewrite !combine_snd in HPl; [exact HPl|congruence|].
    rewrite !combine_length. lia.
  - apply (cells_perm _ x x' lx lx'); auto.
  - apply (cells_perm _ y y' ly ly'); auto.
Qed.

Theorem hist_units par dx dy x y a b a' b' :
  hist_ok par dx dy x y -> (forall j, (j < dx)%nat -> 0 < a j) -> (forall j, (j < dy)%nat -> 0 < a' j) ->
  hist_estimate par (affine_rows a b x) (affine_rows a' b' y) = hist_estimate par x y.
Proof.
  intros H Ha Ha'. destruct (hist_labels _ _ _ _ _ H) as (lx & ly & H1 & H2).
  destruct H as (A & B & C & D & E & F & G & I).
  rewrite (hist_plugin par dx dy x y lx ly) by assumption.
  apply (hist_plugin par dx dy); auto using affine_rows_rect, affine_rows_nonnil.
  - unfold affine_rows. now rewrite !map_length.
  - apply cells_affine with dx; assumption.
  - apply cells_affine with dy; assumption.
Qed.

Theorem hist_flag nx ny dx dy x y :
  hist_ok {| hp_bins_x := nx; hp_bins_y := ny; hp_standardize := true |} dx dy x y ->
  hist_estimate {| hp_bins_x := nx; hp_bins_y := ny; hp_standardize := true |} x y
  = hist_estimate {| hp_bins_x := nx; hp_bins_y := ny; hp_standardize := false |} x y.
Proof.
  intros H. destruct (hist_labels _ _ _ _ _ H) as (lx & ly & H1 & H2).
  destruct H as (A & B & C & D & E & F & G & I).
  rewrite (hist_plugin _ dx dy x y lx ly) by assumption.
  symmetry. now apply (hist_plugin _ dx dy).
Qed.

(** The constructor. *)
Theorem hist_init_spec bx by_ std :
  (forall p, hist_init bx by_ std = Ok p ->
     (0 < hp_bins_x p)%nat /\ (0 < hp_bins_y p)%nat /\ Z.of_nat (hp_bins_x p) = bx /\ hp_standardize p = std /\
     Z.of_nat (hp_bins_y p) = match by_ with Some b => if Z.eqb b 0 then bx else b | None => bx end) /\
  ((exists p, hist_init bx by_ std = Ok p) <-> (0 < bx)%Z /\ match by_ with Some b => (0 <= b)%Z | None => True end).
Proof.
  unfold hist_init. set (c := match by_ with Some b => if Z.eqb b 0 then bx else b | None => bx end).
  assert (Hc : match by_ with Some b => (0 <= b)%Z | None => True end /\ (0 < bx)%Z <-> (0 < bx)%Z /\ (0 < c)%Z).
  { unfold c. destruct by_ as [b|]; [destruct (Z.eqb_spec b 0)|]; split; intros; lia. }
  destruct (Z.leb_spec bx 0) as [H1|H1]; [|destruct (Z.leb_spec c 0) as [H2|H2]]; cbn [orb]; split; intros.
  - discriminate.
  - split; [intros (p & [=])|]. intros; lia.
  - discriminate.
  - split; [intros (p & [=])|]. intros. assert (0 < c)%Z by tauto. lia.
  - injection H as <-. cbn. repeat split; lia.
  - split; [intros _; tauto|]. intros _. eauto.
Qed.

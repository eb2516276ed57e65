(** The lemmas behind the KSG property theorems. *)
From Coq Require Import Permutation.
From Verif Require Import Base BaseLemmas UtilsModel UtilsSpec UtilsProofs KsgModel KsgSpec KsgProofs KsgFitProofs.
Open Scope Z_scope.

(** ** Fast and slow fits are the same function *)
Lemma fits_agree psi argsort s x y :
  valid_argsort argsort -> valid_params (params s) -> NoDup (neighborhoods (params s)) -> 0 < chunk_size s ->
  fast_fit psi argsort s x y = slow_fit psi s x y.
Proof.
  intros Ha Hv Hnd Hc.
  destruct (fit_errors_fast psi argsort s x y Hv) as [(xs & ys & Hps & Hm & _)|Ef].
  - rewrite (fast_fit_spec_nodup psi argsort s x y xs ys), (slow_fit_spec psi s x y xs ys) by assumption.
    reflexivity.
  - rewrite Ef. destruct (fit_errors_slow psi s x y) as [(xs & ys & Hps & Hm)|Es]; [|congruence].
    rewrite (fast_fit_spec psi argsort s x y xs ys) in Ef by assumption. congruence.
Qed.

(** The slow version does not look at chunk_size. *)
Definition same_but_chunk (s t : ksg_state) : Prop :=
  params s = params t /\ fitted s = fitted t /\ mi_dict s = mi_dict t.

Lemma slow_same psi s t x y : same_but_chunk s t ->
  snd (slow_fit psi s x y) = snd (slow_fit psi t x y) /\
  same_but_chunk (fst (slow_fit psi s x y)) (fst (slow_fit psi t x y)).
Proof.
  intros (Hp & Hf & Hm). unfold slow_fit. rewrite <- Hp.
  destruct (product_space_values _ x y) as [[xs ys]|e]; [|simpl; repeat split; auto].
  destruct (_ <=? _); simpl; repeat split; auto. rewrite Hm. reflexivity.
Qed.

Lemma slow_params psi s x y : params (fst (slow_fit psi s x y)) = params s /\
  chunk_size (fst (slow_fit psi s x y)) = chunk_size s.
Proof.
  unfold slow_fit. destruct (product_space_values _ x y) as [[xs ys]|e]; [|auto].
  destruct (_ <=? _); auto.
Qed.

Lemma fast_params psi argsort s x y : params (fst (fast_fit psi argsort s x y)) = params s /\
  chunk_size (fst (fast_fit psi argsort s x y)) = chunk_size s.
Proof.
  unfold fast_fit. destruct (product_space_values _ x y) as [[xs ys]|e]; [|auto].
  destruct (_ <=? _); auto. destruct (chunker _ _); auto.
Qed.

Lemma estimate_unfold fit s x y :
  estimate_with fit s x y =
  (fst (fit s x y), match snd (fit s x y) with
                    | Err e => Err e
                    | Ok _ => do d <- get_predictions (fst (fit s x y));
                              Ok (fl_divp (fl_sum (dict_values d)) (INR (length d)))
                    end).
Proof. unfold estimate_with. destruct (fit s x y) as [s' [[]|e]]; reflexivity. Qed.

Lemma outputs_agree psi argsort s t calls :
  valid_argsort argsort -> valid_params (params s) -> NoDup (neighborhoods (params s)) -> 0 < chunk_size s ->
  same_but_chunk s t ->
  ksg_outputs (fast_fit psi argsort) s calls = ksg_outputs (slow_fit psi) t calls.
Proof.
  intros Ha. revert s t. induction calls as [|c calls IH]; intros s t Hv Hnd Hc Hst; [reflexivity|].
  assert (Hstep : forall x y, snd (fast_fit psi argsort s x y) = snd (slow_fit psi t x y) /\
     same_but_chunk (fst (fast_fit psi argsort s x y)) (fst (slow_fit psi t x y)) /\
     params (fst (fast_fit psi argsort s x y)) = params s /\
     chunk_size (fst (fast_fit psi argsort s x y)) = chunk_size s).
  { intros x y. rewrite (fits_agree psi argsort s x y) by assumption.
    destruct (slow_same psi s t x y Hst) as [H1 H2]. destruct (slow_params psi s x y). auto. }
  assert (Hget : forall s t, same_but_chunk s t -> get_predictions s = get_predictions t).
  { clear. intros s t (Hp & Hf & Hm). unfold get_predictions. now rewrite Hf, Hm. }
  destruct c as [x y|x y|]; cbn [ksg_outputs ksg_step fst snd].
  - destruct (Hstep x y) as (H1 & H2 & H3 & H4). f_equal; [now rewrite H1|].
    apply IH; auto; rewrite ?H3, ?H4; assumption.
  - destruct (Hstep x y) as (H1 & H2 & H3 & H4). rewrite !estimate_unfold. cbn [fst snd].
    f_equal; [rewrite H1, (Hget _ _ H2); reflexivity|].
    apply IH; auto; rewrite ?H3, ?H4; assumption.
  - f_equal; [f_equal; apply Hget; assumption|]. apply IH; auto.
Qed.

(** ** Constructor *)
Lemma make_params_spec ns std mx my :
  ((ns <> [] /\ forall k, In k ns -> 1 <= k) ->
     exists p, make_params ns std mx my = Ok p /\ neighborhoods p = ns /\ standardize p = std /\
       metric_x p = mx /\ metric_y p = match my with Some m => m | None => mx end) /\
  (~ (ns <> [] /\ forall k, In k ns -> 1 <= k) -> make_params ns std mx my = Err ValueError).
Proof.
  unfold make_params, validate_neighborhoods. destruct ns as [|n ns].
  - split; [intros [H _]; congruence|reflexivity].
  - assert (E : (zlen (n :: ns) =? 0) = false) by (apply Z.eqb_neq; unfold zlen; simpl; lia).
    rewrite E. split.
    + intros [Hne H]. pose proof (H _ (zmin_list_in _ Hne)) as Hmin.
      destruct (Z.ltb_spec (zmin_list (n :: ns)) 1); [lia|]. cbn [bind]. eexists; repeat split.
    + intros H. destruct (Z.ltb_spec (zmin_list (n :: ns)) 1) as [Hlt|Hge]; [reflexivity|].
      exfalso. apply H. split; [discriminate|]. intros k Hk. pose proof (zmin_list_le _ _ Hk). lia.
Qed.

Lemma make_params_valid ns std mx my p : make_params ns std mx my = Ok p ->
  valid_params p /\ neighborhoods p = ns /\ standardize p = std /\ metric_x p = mx.
Proof.
  intros H. destruct (make_params_spec ns std mx my) as [H1 H2].
  assert (D : (ns <> [] /\ (forall k, In k ns -> 1 <= k)) \/ ~ (ns <> [] /\ (forall k, In k ns -> 1 <= k))).
  { destruct ns as [|n ns]; [right; intros [Hn _]; congruence|].
    destruct (Z_lt_le_dec (zmin_list (n :: ns)) 1).
    - right. intros [Hn Hk]. specialize (Hk _ (zmin_list_in _ Hn)). lia.
    - left. split; [discriminate|]. intros k Hk. pose proof (zmin_list_le _ _ Hk). lia. }
  destruct D as [D|D].
  - destruct (H1 D) as (p' & Hp' & Hn & Hs & Hx & _). rewrite H in Hp'. injection Hp' as <-.
    unfold valid_params. rewrite Hn. tauto.
  - rewrite (H2 D) in H. discriminate.
Qed.

(** ** Rows as functions of pairs of points *)
Definition pair_dist (p : ksg_params) (z w : list R * list R) : R * R :=
  (dist (metric_x p) (fst z) (fst w), dist (metric_y p) (snd z) (snd w)).

Lemma pairs_from_map p xs ys z : pairs_from p xs ys z = map (pair_dist p z) (combine xs ys).
Proof. unfold pairs_from, distances_from. now rewrite combine_map. Qed.

Lemma terms_map psi p xs ys k :
  terms psi p xs ys k = map (fun z => term psi (map (pair_dist p z) (combine xs ys)) k) (combine xs ys).
Proof.
  unfold terms, rows. rewrite map_map. apply map_ext. intros z. now rewrite pairs_from_map.
Qed.

Lemma combine_length_eq {A B} (a : list A) (b : list B) : length a = length b -> length (combine a b) = length a.
Proof. intros H. rewrite combine_length. lia. Qed.

Lemma mean_term_perm psi p xs ys xs' ys' k :
  length xs = length ys -> length xs' = length ys' ->
  Permutation (combine xs ys) (combine xs' ys') -> (Z.to_nat k < length xs)%nat ->
  mean_term psi p xs ys k = mean_term psi p xs' ys' k.
Proof.
  intros Hl Hl' HP Hk. unfold mean_term.
  pose proof (Permutation_length HP) as HL. rewrite !combine_length_eq in HL by assumption.
  rewrite HL. f_equal. rewrite !terms_map.
  transitivity (fl_sum (map (fun z => term psi (map (pair_dist p z) (combine xs' ys')) k) (combine xs ys))).
  - f_equal. apply map_ext. intros z. apply term_perm.
    + now apply Permutation_map.
    + rewrite map_length, combine_length_eq; assumption.
  - apply fl_sum_perm. now apply Permutation_map.
Qed.

(** Two inputs with equal mean terms give equal fits. *)
Lemma fast_fit_congr psi argsort s x y x' y' :
  valid_argsort argsort -> valid_params (params s) ->
  (product_space_values (standardize (params s)) x y = Err ValueError ->
   product_space_values (standardize (params s)) x' y' = Err ValueError) ->
  (forall xs ys, product_space_values (standardize (params s)) x y = Ok (xs, ys) ->
     exists xs' ys', product_space_values (standardize (params s)) x' y' = Ok (xs', ys') /\
       length xs = length xs' /\
       forall k, 1 <= k < zlen xs -> mean_term psi (params s) xs ys k = mean_term psi (params s) xs' ys' k) ->
  fast_fit psi argsort s x y = fast_fit psi argsort s x' y'.
Proof.
  intros Ha Hv Herr Hok.
  destruct (fit_errors_fast psi argsort s x y Hv) as [(xs & ys & Hps & Hm & Hc)|Ef].
  - destruct (Hok _ _ Hps) as (xs' & ys' & Hps' & Hl & Hk).
    rewrite (fast_fit_spec psi argsort s x y xs ys), (fast_fit_spec psi argsort s x' y' xs' ys')
      by (try assumption; unfold zlen in *; lia).
    f_equal. apply fit_update_ext. intros k Hin. unfold prediction_times, zlen. rewrite Hl.
    rewrite Hk; [reflexivity|]. destruct Hv as [_ Hv]. specialize (Hv k Hin).
    pose proof (zmax_list_ge _ _ Hin). lia.
  - destruct (fit_errors_fast psi argsort s x' y' Hv) as [(xs' & ys' & Hps' & Hm & Hc)|Ef']; [|congruence].
    exfalso.
    destruct (product_space_values (standardize (params s)) x y) as [[xs ys]|e] eqn:E.
    + destruct (Hok _ _ eq_refl) as (xs'' & ys'' & Hps'' & Hl & _). rewrite Hps' in Hps''.
      injection Hps'' as <- <-.
      rewrite (fast_fit_spec psi argsort s x y xs ys) in Ef; try assumption; [discriminate|].
      unfold zlen in *; lia.
    + assert (e = ValueError).
      { unfold fast_fit in Ef. rewrite E in Ef. congruence. }
      subst e. rewrite (Herr eq_refl) in Hps'. discriminate.
Qed.

Lemma slow_fit_congr psi s x y x' y' :
  valid_params (params s) ->
  (product_space_values (standardize (params s)) x y = Err ValueError ->
   product_space_values (standardize (params s)) x' y' = Err ValueError) ->
  (forall xs ys, product_space_values (standardize (params s)) x y = Ok (xs, ys) ->
     exists xs' ys', product_space_values (standardize (params s)) x' y' = Ok (xs', ys') /\
       length xs = length xs' /\
       forall k, 1 <= k < zlen xs -> mean_term psi (params s) xs ys k = mean_term psi (params s) xs' ys' k) ->
  slow_fit psi s x y = slow_fit psi s x' y'.
Proof.
  intros Hv Herr Hok.
  destruct (fit_errors_slow psi s x y) as [(xs & ys & Hps & Hm)|Ef].
  - destruct (Hok _ _ Hps) as (xs' & ys' & Hps' & Hl & Hk).
    rewrite (slow_fit_spec psi s x y xs ys), (slow_fit_spec psi s x' y' xs' ys')
      by (try assumption; unfold zlen in *; lia).
    f_equal. apply fit_update_ext. intros k Hin. unfold prediction, zlen. rewrite Hl.
    rewrite Hk; [reflexivity|]. destruct Hv as [_ Hv]. specialize (Hv k Hin).
    pose proof (zmax_list_ge _ _ Hin). lia.
  - destruct (fit_errors_slow psi s x' y') as [(xs' & ys' & Hps' & Hm)|Ef']; [|congruence].
    exfalso.
    destruct (product_space_values (standardize (params s)) x y) as [[xs ys]|e] eqn:E.
    + destruct (Hok _ _ eq_refl) as (xs'' & ys'' & Hps'' & Hl & _). rewrite Hps' in Hps''.
      injection Hps'' as <- <-.
      rewrite (slow_fit_spec psi s x y xs ys) in Ef; try assumption; [discriminate|].
      unfold zlen in *; lia.
    + assert (e = ValueError).
      { unfold slow_fit in Ef. rewrite E in Ef. congruence. }
      subst e. rewrite (Herr eq_refl) in Hps'. discriminate.
Qed.

(** ** C08: order of the samples *)
Definition scale_row (m : matrix) (n : nat) (row : list R) : list R :=
  map (fun j => ((nth j row 0 - rmean (column m j)) / column_scale (column m j))%R) (seq 0 n).

Lemma variance_perm l l' : Permutation l l' -> variance l = variance l'.
Proof.
  intros HP. unfold variance. rewrite (rmean_perm _ _ HP). apply rmean_perm. now apply Permutation_map.
Qed.

Lemma scale_row_perm m m' n row : Permutation m m' -> scale_row m n row = scale_row m' n row.
Proof.
  intros HP. unfold scale_row. apply map_ext. intros j.
  assert (HPc : Permutation (column m j) (column m' j)) by (unfold column; now apply Permutation_map).
  rewrite (rmean_perm _ _ HPc). unfold column_scale. now rewrite (variance_perm _ _ HPc).
Qed.

Lemma combine_fst {A B} (a : list A) (b : list B) : length a = length b -> map fst (combine a b) = a.
Proof. revert b; induction a as [|x a IH]; intros [|y b] H; simpl in *; try discriminate; auto. f_equal; auto. Qed.
Lemma combine_snd {A B} (a : list A) (b : list B) : length a = length b -> map snd (combine a b) = b.
Proof. revert b; induction a as [|x a IH]; intros [|y b] H; simpl in *; try discriminate; auto. f_equal; auto. Qed.

Lemma combine_perm_parts {A B} (x x' : list A) (y y' : list B) :
  length x = length y -> length x' = length y' -> Permutation (combine x y) (combine x' y') ->
  Permutation x x' /\ Permutation y y'.
Proof.
  intros Hl Hl' HP. split.
  - rewrite <- (combine_fst x y), <- (combine_fst x' y') by assumption. now apply Permutation_map.
  - rewrite <- (combine_snd x y), <- (combine_snd x' y') by assumption. now apply Permutation_map.
Qed.

Lemma standard_scaler_cases d m : rectangular d m ->
  (standard_scaler m = Err ValueError /\ (m = [] \/ d = 0%nat)) \/
  (m <> [] /\ (0 < d)%nat /\ standard_scaler m = Ok (map (scale_row m d) m)).
Proof.
  intros Hr. destruct m as [|row m]; [left; simpl; auto|].
  destruct row as [|v row].
  - left. inversion Hr; subst. simpl. auto.
  - right. split; [discriminate|]. inversion Hr; subst. simpl. split; [lia|].
    unfold scaler_transform, ncols. reflexivity.
Qed.

Lemma space_perm std dx dy x y x' y' :
  rectangular dx x -> rectangular dy y -> length x = length y -> length x' = length y' ->
  Permutation (combine x y) (combine x' y') ->
  (product_space_values std x y = Err ValueError -> product_space_values std x' y' = Err ValueError) /\
  (forall xs ys, product_space_values std x y = Ok (xs, ys) ->
     exists xs' ys', product_space_values std x' y' = Ok (xs', ys') /\ length xs = length xs' /\
       length xs' = length ys' /\ length xs = length ys /\
       Permutation (combine xs ys) (combine xs' ys')).
Proof.
  intros Hrx Hry Hl Hl' HP. destruct (combine_perm_parts _ _ _ _ Hl Hl' HP) as [HPx HPy].
  assert (Hrx' : rectangular dx x') by (unfold rectangular in *; rewrite <- HPx; assumption).
  assert (Hry' : rectangular dy y') by (unfold rectangular in *; rewrite <- HPy; assumption).
  unfold product_space_values. rewrite Hl, Hl', !Nat.eqb_refl. cbn [negb].
  destruct std.
  - assert (Hnil : forall m m' : matrix, Permutation m m' -> m = [] -> m' = []).
    { intros m m' Hmm ->. now apply Permutation_nil. }
    destruct (standard_scaler_cases dx x Hrx) as [[-> Hc]|(Hne & Hd & ->)]; cbn [bind].
    + destruct (standard_scaler_cases dx x' Hrx') as [[-> Hc']|(Hne' & Hd' & ->)]; cbn [bind].
      * split; [auto|discriminate].
      * exfalso. destruct Hc as [->|Hc]; [apply Hne'; eauto|lia].
    + destruct (standard_scaler_cases dx x' Hrx') as [[-> [->|Hc]]|(Hne' & Hd' & ->)]; [|lia|]; cbn [bind].
      { exfalso. apply Hne. apply Permutation_sym in HPx. eauto. }
      destruct (standard_scaler_cases dy y Hry) as [[-> Hc]|(Hney & Hdy & ->)]; cbn [bind].
      * destruct (standard_scaler_cases dy y' Hry') as [[-> Hc']|(Hney' & Hdy' & ->)]; cbn [bind].
        -- split; [auto|discriminate].
        -- exfalso. destruct Hc as [->|Hc]; [apply Hney'; eauto|lia].
      * destruct (standard_scaler_cases dy y' Hry') as [[-> [->|Hc]]|(Hney' & Hdy' & ->)]; [|lia|]; cbn [bind].
        { exfalso. apply Hney. apply Permutation_sym in HPy. eauto. }
        split; [discriminate|]. intros xs ys H. injection H as <- <-.
        do 2 eexists. split; [reflexivity|]. rewrite !map_length.
        split; [apply Permutation_length; assumption|]. split; [assumption|]. split; [assumption|].
        rewrite (map_ext _ _ (fun r => scale_row_perm x x' dx r HPx)).
        rewrite (map_ext _ _ (fun r => scale_row_perm y y' dy r HPy)).
        rewrite !combine_map. now apply Permutation_map.
  - split; [discriminate|]. intros xs ys H. injection H as <- <-.
    do 2 eexists. split; [reflexivity|]. split; [apply Permutation_length; assumption|]. auto.
Qed.

Lemma ksg_perm psi argsort s dx dy x y x' y' :
  valid_argsort argsort -> valid_params (params s) ->
  rectangular dx x -> rectangular dy y -> length x = length y -> length x' = length y' ->
  Permutation (combine x y) (combine x' y') ->
  fast_fit psi argsort s x y = fast_fit psi argsort s x' y' /\
  slow_fit psi s x y = slow_fit psi s x' y'.
Proof.
  intros Ha Hv Hrx Hry Hl Hl' HP.
  destruct (space_perm (standardize (params s)) dx dy x y x' y' Hrx Hry Hl Hl' HP) as [H1 H2].
  assert (H3 : forall xs ys, product_space_values (standardize (params s)) x y = Ok (xs, ys) ->
     exists xs' ys', product_space_values (standardize (params s)) x' y' = Ok (xs', ys') /\
       length xs = length xs' /\
       forall k, 1 <= k < zlen xs -> mean_term psi (params s) xs ys k = mean_term psi (params s) xs' ys' k).
  { intros xs ys Hps. destruct (H2 xs ys Hps) as (xs' & ys' & Hps' & HL & HL' & HL2 & HPc).
    exists xs', ys'. split; [assumption|]. split; [assumption|]. intros k Hk.
    apply mean_term_perm; auto. unfold zlen in Hk; lia. }
  split; [apply fast_fit_congr|apply slow_fit_congr]; assumption.
Qed.

(** ** C09: symmetry *)
Lemma combine_swap {A B} (a : list A) (b : list B) :
  combine b a = map (fun z => (snd z, fst z)) (combine a b).
Proof. revert b; induction a as [|x a IH]; intros [|y b]; simpl; auto. now rewrite IH. Qed.

Lemma mean_term_swap psi s xs ys k :
  length xs = length ys -> (Z.to_nat k < length xs)%nat ->
  mean_term psi (params (swap_metrics s)) ys xs k = mean_term psi (params s) xs ys k.
Proof.
  intros Hl Hk. unfold mean_term. rewrite Hl. f_equal. f_equal. rewrite !terms_map.
  rewrite (combine_swap xs ys), map_map. apply map_ext. intros z.
  rewrite map_map. cbn [params swap_metrics fst snd].
  rewrite <- (term_swap psi (map (pair_dist (params s) z) (combine xs ys))).
  - rewrite map_map. reflexivity.
  - rewrite map_length, combine_length_eq; assumption.
Qed.

Lemma product_space_swap std x y :
  product_space_values std y x
  = match product_space_values std x y with Ok (xs, ys) => Ok (ys, xs) | Err e => Err e end.
Proof.
  unfold product_space_values. rewrite Nat.eqb_sym. destruct (negb _); [reflexivity|].
  destruct std; [|reflexivity]. unfold standard_scaler.
  destruct x as [|[|] x], y as [|[|] y]; reflexivity.
Qed.

Lemma swap_update s g : swap_metrics (fit_update s g) = fit_update (swap_metrics s) g.
Proof. reflexivity. Qed.

Lemma ksg_swap psi argsort s x y :
  valid_argsort argsort -> valid_params (params s) ->
  fast_fit psi argsort (swap_metrics s) y x
  = (swap_metrics (fst (fast_fit psi argsort s x y)), snd (fast_fit psi argsort s x y)) /\
  slow_fit psi (swap_metrics s) y x
  = (swap_metrics (fst (slow_fit psi s x y)), snd (slow_fit psi s x y)).
Proof.
  intros Ha Hv.
  assert (Hv' : valid_params (params (swap_metrics s))) by exact Hv.
  split.
  - destruct (fit_errors_fast psi argsort s x y Hv) as [(xs & ys & Hps & Hm & Hc)|Ef].
    + destruct (product_space_values_length _ _ _ _ _ Hps) as [Hl _].
      rewrite (fast_fit_spec psi argsort s x y xs ys) by assumption.
      assert (Hps' : product_space_values (standardize (params (swap_metrics s))) y x = Ok (ys, xs))
        by (cbn [swap_metrics params standardize]; rewrite product_space_swap, Hps; reflexivity).
      rewrite (fast_fit_spec psi argsort (swap_metrics s) y x ys xs);
        [|assumption|assumption|exact Hc|assumption|cbn [swap_metrics params neighborhoods]; unfold zlen in *; lia].
      cbn [fst snd]. rewrite swap_update. f_equal. apply fit_update_ext. intros k Hin.
      unfold prediction_times. rewrite (mean_term_swap psi s xs ys k Hl).
      * unfold zlen. rewrite Hl. reflexivity.
      * apply (valid_params_facts _ _ Hv Hm). exact Hin.
    + rewrite Ef. cbn [fst snd].
      destruct (fit_errors_fast psi argsort (swap_metrics s) y x Hv') as [(ys & xs & Hps & Hm & Hc)|Ef']; [|exact Ef'].
      exfalso. cbn [swap_metrics params standardize] in Hps. rewrite product_space_swap in Hps.
      destruct (product_space_values (standardize (params s)) x y) as [[xs0 ys0]|] eqn:E; [|discriminate].
      injection Hps as -> ->. destruct (product_space_values_length _ _ _ _ _ E) as [Hl _].
      rewrite (fast_fit_spec psi argsort s x y xs ys) in Ef;
        [discriminate|assumption|assumption|exact Hc|assumption|].
      cbn [swap_metrics params neighborhoods] in Hm. unfold zlen in *; lia.
  - destruct (fit_errors_slow psi s x y) as [(xs & ys & Hps & Hm)|Ef].
    + destruct (product_space_values_length _ _ _ _ _ Hps) as [Hl _].
      rewrite (slow_fit_spec psi s x y xs ys) by assumption.
      assert (Hps' : product_space_values (standardize (params (swap_metrics s))) y x = Ok (ys, xs))
        by (cbn [swap_metrics params standardize]; rewrite product_space_swap, Hps; reflexivity).
      rewrite (slow_fit_spec psi (swap_metrics s) y x ys xs);
        [|assumption|assumption|cbn [swap_metrics params neighborhoods]; unfold zlen in *; lia].
      cbn [fst snd]. rewrite swap_update. f_equal. apply fit_update_ext. intros k Hin.
      unfold prediction. rewrite (mean_term_swap psi s xs ys k Hl).
      * unfold zlen. rewrite Hl. reflexivity.
      * apply (valid_params_facts _ _ Hv Hm). exact Hin.
    + rewrite Ef. cbn [fst snd].
      destruct (fit_errors_slow psi (swap_metrics s) y x) as [(ys & xs & Hps & Hm)|Ef']; [|exact Ef'].
      exfalso. cbn [swap_metrics params standardize] in Hps. rewrite product_space_swap in Hps.
      destruct (product_space_values (standardize (params s)) x y) as [[xs0 ys0]|] eqn:E; [|discriminate].
      injection Hps as -> ->. destruct (product_space_values_length _ _ _ _ _ E) as [Hl _].
      rewrite (slow_fit_spec psi s x y xs ys) in Ef;
        [discriminate|assumption|assumption|].
      cbn [swap_metrics params neighborhoods] in Hm. unfold zlen in *; lia.
Qed.

(** ** C69: translations and a common factor *)
Definition affine_row (c : R) (b : nat -> R) (row : list R) : list R :=
  map (fun j => (c * nth j row 0 + b j)%R) (seq 0 (length row)).

Lemma coord_diffs_nth a b : length a = length b ->
  coord_diffs a b = map (fun j => Rabs (nth j a 0%R - nth j b 0%R)) (seq 0 (length a)).
Proof.
  revert b; induction a as [|x a IH]; intros [|y b] H; simpl in *; try discriminate; auto.
  unfold coord_diffs in *. simpl. f_equal. rewrite <- seq_shift, map_map. apply IH. lia.
Qed.

Lemma coord_diffs_affine c f a b : length a = length b ->
  coord_diffs (affine_row c f a) (affine_row c f b) = map (fun d => (Rabs c * d)%R) (coord_diffs a b).
Proof.
  intros H. unfold affine_row. rewrite coord_diffs_nth by (now rewrite !map_length, !seq_length).
  rewrite (coord_diffs_nth a b H), map_length, seq_length, map_map. apply map_ext_in.
  intros j Hj. apply in_seq in Hj.
  rewrite !nth_map_seq by lia. rewrite <- Rabs_mult. f_equal. ring.
Qed.

Lemma fold_max_scale c l : (0 <= c)%R -> fold_right Rmax 0%R (map (fun d => (c * d)%R) l) = (c * fold_right Rmax 0%R l)%R.
Proof.
  intros Hc. induction l as [|a l IH]; simpl; [ring|]. rewrite IH. symmetry. now rewrite RmaxRmult.
Qed.

Lemma dist_affine m c f a b : length a = length b ->
  dist m (affine_row c f a) (affine_row c f b) = (Rabs c * dist m a b)%R.
Proof.
  intros H. unfold dist. rewrite (coord_diffs_affine c f a b H). destruct m.
  - rewrite map_map. rewrite (map_ext _ (fun d => (Rsqr c * (d * d))%R)).
    + rewrite rsum_scal. rewrite sqrt_mult_alt by apply Rle_0_sqr. now rewrite sqrt_Rsqr_abs.
    + intros d. rewrite (Rsqr_abs c). unfold Rsqr. ring.
  - rewrite (rsum_scal (fun d => d)). now rewrite map_id.
  - apply fold_max_scale, Rabs_pos.
Qed.

Lemma affine_rows_map c b m : affine_rows (fun _ => c) b m = map (affine_row c b) m.
Proof. reflexivity. Qed.

Lemma in_combine_rect dx dy x y z : rectangular dx x -> rectangular dy y -> In z (combine x y) ->
  length (fst z) = dx /\ length (snd z) = dy.
Proof.
  intros Hx Hy Hz. destruct z as [a b]. unfold rectangular in *. rewrite Forall_forall in Hx, Hy.
  split; simpl; [apply Hx; eapply in_combine_l|apply Hy; eapply in_combine_r]; exact Hz.
Qed.

Lemma mean_term_affine psi p dx dy c b b' x y k :
  rectangular dx x -> rectangular dy y -> length x = length y -> c <> 0%R -> (Z.to_nat k < length x)%nat ->
  mean_term psi p x y k = mean_term psi p (map (affine_row c b) x) (map (affine_row c b') y) k.
Proof.
  intros Hx Hy Hl Hc Hk. unfold mean_term. rewrite map_length. f_equal. f_equal.
  rewrite !terms_map, combine_map, map_map. apply map_ext_in. intros z Hz.
  rewrite map_map.
  rewrite <- (term_scale psi (Rabs c) (map (pair_dist p z) (combine x y)) k).
  - f_equal. rewrite map_map. apply map_ext_in. intros w Hw. unfold pair_dist, scale_pair. cbn [fst snd].
    destruct (in_combine_rect _ _ _ _ _ Hx Hy Hz), (in_combine_rect _ _ _ _ _ Hx Hy Hw).
    rewrite !dist_affine by congruence. reflexivity.
  - now apply Rabs_pos_lt.
  - rewrite map_length, combine_length_eq; assumption.
Qed.

Lemma ksg_affine psi argsort s dx dy c b b' x y :
  valid_argsort argsort -> valid_params (params s) -> standardize (params s) = false ->
  rectangular dx x -> rectangular dy y -> c <> 0%R ->
  fast_fit psi argsort s (affine_rows (fun _ => c) b x) (affine_rows (fun _ => c) b' y)
    = fast_fit psi argsort s x y /\
  slow_fit psi s (affine_rows (fun _ => c) b x) (affine_rows (fun _ => c) b' y) = slow_fit psi s x y.
Proof.
  intros Ha Hv Hstd Hx Hy Hc. rewrite !affine_rows_map.
  assert (H1 : product_space_values (standardize (params s)) x y = Err ValueError ->
               product_space_values (standardize (params s)) (map (affine_row c b) x) (map (affine_row c b') y)
               = Err ValueError).
  { rewrite Hstd. unfold product_space_values. rewrite !map_length. destruct (negb _); auto. discriminate. }
  assert (H2 : forall xs ys, product_space_values (standardize (params s)) x y = Ok (xs, ys) ->
     exists xs' ys', product_space_values (standardize (params s)) (map (affine_row c b) x) (map (affine_row c b') y) = Ok (xs', ys') /\
       length xs = length xs' /\
       forall k, 1 <= k < zlen xs -> mean_term psi (params s) xs ys k = mean_term psi (params s) xs' ys' k).
  { intros xs ys Hps. destruct (product_space_values_length _ _ _ _ _ Hps) as [Hl _].
    rewrite Hstd in *. unfold product_space_values in *. rewrite !map_length.
    destruct (negb _); [discriminate|]. injection Hps as <- <-.
    do 2 eexists. split; [reflexivity|]. rewrite map_length. split; [reflexivity|].
    intros k Hk. apply (mean_term_affine psi (params s) dx dy); auto. unfold zlen in Hk; lia. }
  split; symmetry; [apply fast_fit_congr|apply slow_fit_congr]; assumption.
Qed.

(** With standardization, units of individual coordinates do not matter either. *)
Lemma ksg_units psi argsort s dx dy a b a' b' x y :
  standardize (params s) = true ->
  rectangular dx x -> rectangular dy y -> x <> [] -> y <> [] -> (0 < dx)%nat -> (0 < dy)%nat ->
  (forall j, (j < dx)%nat -> (0 < a j)%R) -> (forall j, (j < dy)%nat -> (0 < a' j)%R) ->
  fast_fit psi argsort s (affine_rows a b x) (affine_rows a' b' y) = fast_fit psi argsort s x y /\
  slow_fit psi s (affine_rows a b x) (affine_rows a' b' y) = slow_fit psi s x y.
Proof.
  intros Hstd Hx Hy Hnx Hny Hdx Hdy Ha Ha'.
  pose proof (product_space_units dx dy a b a' b' x y Hx Hy Hnx Hny Hdx Hdy Ha Ha') as E.
  unfold fast_fit, slow_fit. rewrite Hstd, E. split; reflexivity.
Qed.

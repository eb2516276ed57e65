(** Proofs about the composite samplers. *)
From Verif Require Import Base BaseLemmas UtilsModel JaxModel SamplersModel SamplersSpec TrainingSpec KsgFitProofs KsgThms.
Open Scope Z_scope.
Local Notation length := List.length.

Lemma base_sampler_init_spec a b r : base_sampler_init a b = r ->
  (1 <= a /\ 1 <= b /\ r = Ok (a, b)) \/ ((a < 1 \/ b < 1) /\ r = Err ValueError).
Proof.
  unfold base_sampler_init, validate_dimensions. destruct (Z.ltb_spec a 1); cbn [bind].
  - intros <-. right. split; [now left|reflexivity].
  - destruct (Z.ltb_spec b 1); cbn [bind]; intros <-; [right; split; [now right|reflexivity]|left; auto].
Qed.

Lemma base_sampler_init_ok a b r : base_sampler_init a b = Ok r -> 1 <= a /\ 1 <= b /\ r = (a, b).
Proof.
  intros H. destruct (base_sampler_init_spec _ _ _ H) as [(A & B & E)|(_ & E)]; [|discriminate]. injection E as ->. auto.
Qed.

Lemma nth_error_combine_inv {A B} (a : list A) (b : list B) i u v : nth_error (combine a b) i = Some (u, v) -> nth_error a i = Some u /\ nth_error b i = Some v.
Proof.
  revert b i. induction a as [|x a IH]; intros b i H; [destruct i; discriminate|]. destruct b as [|y b]; [destruct i; discriminate|].
  destruct i as [|i]; cbn in *; [injection H as <- <-; auto|auto].
Qed.

(** ** TransformedSampler *)

Definition the (t : option transform) : transform := match t with Some f => f | None => identity end.
Definition apply_transform (vectorise : bool) (t : option transform) (m : matrix) : matrix :=
  if vectorise then map (on_point (the t)) m else on_batch (the t) m.

Lemma transformed_inv {J} (base : sampler J) tx ty ax ay v s : transformed_sampler base tx ty ax ay v = Ok s ->
  exists bx by_, dim_x base = Ok bx /\ dim_y base = Ok by_ /\ 0 <= ax /\ 0 <= ay /\ 1 <= bx + ax /\ 1 <= by_ + ay /\
    dim_x s = Ok (bx + ax) /\ dim_y s = Ok (by_ + ay) /\ mutual_information s = mutual_information base /\
    forall n rng, sample s n rng = do (x, y) <- sample base n rng; Ok (apply_transform v tx x, apply_transform v ty y).
Proof.
  unfold transformed_sampler. destruct (Z.ltb_spec ax 0); [discriminate|]. destruct (Z.ltb_spec ay 0); [discriminate|]. cbn [orb].
  destruct (dim_x base) as [bx|] eqn:Ex; [|discriminate]. destruct (dim_y base) as [by_|] eqn:Ey; [|discriminate]. cbn [bind].
  destruct (base_sampler_init (bx + ax) (by_ + ay)) as [[dx dy]|] eqn:E; [|discriminate]. cbn [bind].
  apply base_sampler_init_ok in E as (A & B & [= -> ->]). intros [= <-].
  exists bx, by_. cbn. repeat split; try assumption. intros n rng. unfold apply_transform, the, vmap. destruct v, tx, ty; reflexivity.
Qed.

Lemma transformed_ok {J} (base : sampler J) tx ty ax ay v bx by_ : dim_x base = Ok bx -> dim_y base = Ok by_ ->
  0 <= ax -> 0 <= ay -> 1 <= bx + ax -> 1 <= by_ + ay -> exists s, transformed_sampler base tx ty ax ay v = Ok s.
Proof.
  intros Ex Ey Ha Hb Hx Hy. unfold transformed_sampler. destruct (Z.ltb_spec ax 0); [lia|]. destruct (Z.ltb_spec ay 0); [lia|]. cbn [orb].
  rewrite Ex, Ey. cbn [bind].
  destruct (base_sampler_init (bx + ax) (by_ + ay)) as [[dx dy]|] eqn:E; [cbn [bind]; eauto|].
  destruct (base_sampler_init_spec _ _ _ E) as [(_ & _ & F)|(F & _)]; [discriminate|lia].
Qed.

Lemma transformed_negative {J} (base : sampler J) tx ty ax ay v : ax < 0 \/ ay < 0 -> transformed_sampler base tx ty ax ay v = Err ValueError.
Proof.
  intros H. unfold transformed_sampler. destruct (Z.ltb_spec ax 0); [reflexivity|]. destruct (Z.ltb_spec ay 0); [reflexivity|]. lia.
Qed.

Lemma transformed_rows {J} (base : sampler J) tx ty ax ay s : transformed_sampler base tx ty ax ay true = Ok s ->
  forall n rng x y, sample base n rng = Ok (x, y) ->
  exists x' y', sample s n rng = Ok (x', y') /\ length x' = length x /\ length y' = length y /\
    (forall i r, nth_error x i = Some r -> nth_error x' i = Some (match tx with Some f => on_point f r | None => r end)) /\
    (forall i r, nth_error y i = Some r -> nth_error y' i = Some (match ty with Some f => on_point f r | None => r end)).
Proof.
  intros H n rng x y Hs. apply transformed_inv in H as (bx & by_ & _ & _ & _ & _ & _ & _ & _ & _ & _ & E).
  rewrite E, Hs. cbn [bind]. do 2 eexists. split; [reflexivity|]. unfold apply_transform. rewrite !map_length. do 2 (split; [reflexivity|]).
  split; intros i r Hi; rewrite nth_error_map, Hi; cbn [option_map the]; [destruct tx|destruct ty]; reflexivity.
Qed.

Lemma transformed_well_dimensioned {J} (base : sampler J) tx ty ax ay s : well_dimensioned base ->
  transformed_sampler base tx ty ax ay true = Ok s ->
  (forall dx r, dim_x base = Ok dx -> zlen r = dx -> zlen (match tx with Some f => on_point f r | None => r end) = dx + ax) ->
  (forall dy r, dim_y base = Ok dy -> zlen r = dy -> zlen (match ty with Some f => on_point f r | None => r end) = dy + ay) ->
  well_dimensioned s.
Proof.
  intros (dx & dy & Ex & Ey & Hx & Hy & Hs) H Tx Ty. apply transformed_inv in H as (bx & by_ & Ex' & Ey' & Ha & Hb & Hxa & Hyb & Dx & Dy & _ & E).
  rewrite Ex in Ex'. injection Ex' as <-. rewrite Ey in Ey'. injection Ey' as <-.
  exists (dx + ax), (dy + ay). do 4 (split; [assumption|]). intros n rng xy. rewrite E.
  destruct (sample base n rng) as [[x y]|] eqn:S; [|discriminate]. cbn [bind]. intros [= <-].
  destruct (Hs _ _ _ S) as (L1 & L2 & F1 & F2). cbn [fst snd] in *. unfold paired_sample, apply_transform. cbn [fst snd]. rewrite !map_length.
  do 2 (split; [assumption|]). split; apply Forall_forall; intros r Hr; apply in_map_iff in Hr as (r0 & <- & Hr0).
  - rewrite Forall_forall in F1. specialize (F1 _ Hr0). specialize (Tx dx r0 Ex F1). destruct tx; exact Tx.
  - rewrite Forall_forall in F2. specialize (F2 _ Hr0). specialize (Ty dy r0 Ey F2). destruct ty; exact Ty.
Qed.

Definition compose (f g : transform) : transform :=
  {| on_point := fun r => on_point g (on_point f r); on_batch := fun m => on_batch g (on_batch f m) |}.

Lemma transformed_compose {J} (base : sampler J) f1 f2 g1 g2 ax ay bx by_ v s1 s2 s :
  transformed_sampler base (Some f1) (Some f2) ax ay v = Ok s1 ->
  transformed_sampler s1 (Some g1) (Some g2) bx by_ v = Ok s2 ->
  transformed_sampler base (Some (compose f1 g1)) (Some (compose f2 g2)) (ax + bx) (ay + by_) v = Ok s ->
  dim_x s2 = dim_x s /\ dim_y s2 = dim_y s /\ mutual_information s2 = mutual_information s /\
  forall n rng, sample s2 n rng = sample s n rng.
Proof.
  intros H1 H2 H3.
  apply transformed_inv in H1 as (a & b & A & B & _ & _ & _ & _ & Dx1 & Dy1 & M1 & S1).
  apply transformed_inv in H2 as (c & d & A2 & B2 & _ & _ & _ & _ & Dx2 & Dy2 & M2 & S2).
  apply transformed_inv in H3 as (e & f & A3 & B3 & _ & _ & _ & _ & Dx3 & Dy3 & M3 & S3).
  rewrite A in A3. injection A3 as <-. rewrite B in B3. injection B3 as <-. rewrite Dx1 in A2. injection A2 as <-. rewrite Dy1 in B2. injection B2 as <-.
  split; [rewrite Dx2, Dx3; f_equal; lia|]. split; [rewrite Dy2, Dy3; f_equal; lia|]. split; [congruence|].
  intros n rng. rewrite S2, S1, S3. destruct (sample base n rng) as [[x y]|]; cbn [bind]; [|reflexivity].
  unfold apply_transform. destruct v; cbn [the compose on_point on_batch]; [rewrite !map_map|]; reflexivity.
Qed.

Lemma transformed_compose_exists {J} (base : sampler J) f1 f2 g1 g2 ax ay bx by_ v s1 s2 :
  transformed_sampler base (Some f1) (Some f2) ax ay v = Ok s1 ->
  transformed_sampler s1 (Some g1) (Some g2) bx by_ v = Ok s2 ->
  exists s, transformed_sampler base (Some (compose f1 g1)) (Some (compose f2 g2)) (ax + bx) (ay + by_) v = Ok s.
Proof.
  intros H1 H2.
  apply transformed_inv in H1 as (a & b & A & B & ? & ? & ? & ? & Dx1 & Dy1 & M1 & S1).
  apply transformed_inv in H2 as (c & d & A2 & B2 & ? & ? & ? & ? & Dx2 & Dy2 & M2 & S2).
  rewrite Dx1 in A2. injection A2 as <-. rewrite Dy1 in B2. injection B2 as <-.
  apply (transformed_ok _ _ _ _ _ _ a b); try assumption; lia.
Qed.

(** ** IndependentConcatenationSampler *)

Lemma sum_results_ok {A} (f : A -> result Z) l ds : Forall2 (fun a d => f a = Ok d) l ds -> sum_results f l = Ok (zsum ds).
Proof. intros H. induction H as [|a d l ds E _ IH]; [reflexivity|]. cbn [sum_results]. rewrite E, IH. reflexivity. Qed.

Lemma sum_results_inv {A} (f : A -> result Z) l s : sum_results f l = Ok s -> exists ds, Forall2 (fun a d => f a = Ok d) l ds /\ s = zsum ds.
Proof.
  revert s. induction l as [|a l IH]; intros s; cbn [sum_results].
  - intros [= <-]. exists []. split; [constructor|reflexivity].
  - destruct (f a) as [d|] eqn:E; [|discriminate]. cbn [bind]. destruct (sum_results f l) as [r|]; [|discriminate]. cbn [bind].
    intros [= <-]. destruct (IH r eq_refl) as (ds & F & ->). exists (d :: ds). split; [now constructor|reflexivity].
Qed.

Lemma map_results_inv {A B} (f : A -> result B) l r : map_results f l = Ok r -> Forall2 (fun a b => f a = Ok b) l r.
Proof.
  revert r. induction l as [|a l IH]; intros r; cbn [map_results]; [intros [= <-]; constructor|].
  destruct (f a) as [b|] eqn:E; [|discriminate]. cbn [bind]. destruct (map_results f l) as [r'|]; [|discriminate]. cbn [bind].
  intros [= <-]. constructor; [assumption|now apply IH].
Qed.

Lemma map_results_ok {A B} (f : A -> result B) l r : Forall2 (fun a b => f a = Ok b) l r -> map_results f l = Ok r.
Proof. intros H. induction H as [|a b l r E _ IH]; [reflexivity|]. cbn [map_results]. rewrite E, IH. reflexivity. Qed.

(** Matrices with [n] rows of the given widths. *)
Definition shaped (n : nat) (d : Z) (m : matrix) : Prop := length m = n /\ Forall (fun r => zlen r = d) m.

Lemma hcat_shape n d e a b : shaped n d a -> shaped n e b ->
  shaped n (d + e) (map (fun p => fst p ++ snd p) (combine a b)).
Proof.
  intros (La & Fa) (Lb & Fb). split; [rewrite map_length, combine_length; lia|].
  apply Forall_forall. intros r Hr. apply in_map_iff in Hr as ((u, v) & <- & Hin). cbn [fst snd].
  pose proof (in_combine_l _ _ _ _ Hin) as Hu. pose proof (in_combine_r _ _ _ _ Hin) as Hv.
  rewrite Forall_forall in Fa, Fb. specialize (Fa _ Hu). specialize (Fb _ Hv). unfold zlen in *. rewrite app_length. lia.
Qed.

Lemma hstack_cons2 a b ms : hstack (a :: b :: ms) = do r <- hstack (b :: ms);
                if (length a =? length r)%nat then Ok (map (fun p => fst p ++ snd p) (combine a r)) else Err ValueError.
Proof. reflexivity. Qed.

Lemma hstack_shape n ms ds : ms <> [] -> Forall2 (fun m d => shaped n d m) ms ds -> exists m, hstack ms = Ok m /\ shaped n (zsum ds) m.
Proof.
  intros Hne H. revert Hne. induction H as [|a d ms ds Ha H IH]; [congruence|]. intros _.
  destruct ms as [|b ms].
  - inversion H; subst. cbn [hstack]. exists a. split; [reflexivity|]. cbn. now rewrite Z.add_0_r.
  - destruct IH as (r & Er & Hr); [discriminate|]. rewrite hstack_cons2, Er. cbn [bind].
    assert (E : length a = length r) by (destruct Ha, Hr; congruence). apply Nat.eqb_eq in E. rewrite E. eexists. split; [reflexivity|].
    cbn [zsum fold_right]. now apply hcat_shape.
Qed.

Lemma columns_left n d a b : shaped n d a -> length b = n -> columns 0 d (map (fun p => fst p ++ snd p) (combine a b)) = a.
Proof.
  intros (La & Fa) Lb. unfold columns. rewrite map_map. rewrite <- (KsgThms.combine_fst a b) at 2 by congruence. apply map_ext_in. intros (u, v) Hin. cbn [fst snd].
  apply in_combine_l in Hin. rewrite Forall_forall in Fa. specialize (Fa _ Hin). cbn [Z.to_nat skipn].
  replace (Z.to_nat d) with (length u + 0)%nat by (unfold zlen in Fa; lia). rewrite firstn_app_2. cbn. now rewrite app_nil_r.
Qed.

Lemma columns_right n d a b o w : shaped n d a -> length b = n -> 0 <= o -> 0 <= d ->
  columns (d + o) w (map (fun p => fst p ++ snd p) (combine a b)) = columns o w b.
Proof.
  intros (La & Fa) Lb Ho Hd. unfold columns. rewrite map_map. rewrite <- (KsgThms.combine_snd a b) at 2 by congruence. rewrite map_map. apply map_ext_in. intros (u, v) Hin. cbn [fst snd].
  apply in_combine_l in Hin. rewrite Forall_forall in Fa. specialize (Fa _ Hin). f_equal.
  replace (Z.to_nat (d + o)) with (length u + Z.to_nat o)%nat by (unfold zlen in Fa; lia).
  rewrite skipn_app. rewrite skipn_all2 by lia. cbn. f_equal. lia.
Qed.

Lemma zsum_nonneg ds : Forall (fun d => 0 <= d) ds -> 0 <= zsum ds.
Proof. intros H. induction H; cbn; [lia|]. fold (zsum l). lia. Qed.

Lemma hstack_block n ms ds m i b d : Forall2 (fun m d => shaped n d m) ms ds -> Forall (fun d => 0 <= d) ds -> hstack ms = Ok m ->
  nth_error ms i = Some b -> nth_error ds i = Some d -> columns (zsum (firstn i ds)) d m = b.
Proof.
  intros H Hp. revert m i. induction H as [|a e ms ds Ha H IH]; intros m i Hm Hb Hd; [destruct i; discriminate|].
  inversion Hp as [|? ? He Hp']; subst.
  destruct ms as [|a2 ms].
  - inversion H; subst. cbn [hstack] in Hm. injection Hm as <-. destruct i as [|[|i]]; try discriminate. cbn in Hb, Hd. injection Hb as <-. injection Hd as <-.
    cbn [firstn zsum fold_right]. unfold columns. destruct Ha as (_ & Fa). rewrite <- (map_id a) at 2. apply map_ext_in. intros r Hr. rewrite Forall_forall in Fa. specialize (Fa _ Hr).
    cbn [Z.to_nat skipn]. rewrite firstn_all2; [reflexivity|]. unfold zlen in Fa. lia.
  - destruct (hstack_shape n (a2 :: ms) ds) as (r & Er & Hr); [discriminate|assumption|]. rewrite hstack_cons2, Er in Hm. cbn [bind] in Hm.
    destruct (length a =? length r)%nat; [|discriminate]. injection Hm as <-. destruct i as [|i].
    + cbn in Hb, Hd. injection Hb as <-. injection Hd as <-. cbn [firstn zsum fold_right]. destruct Hr as (Lr & _). now apply (columns_left n).
    + cbn [nth_error] in Hb, Hd. cbn [firstn zsum fold_right]. fold (zsum (firstn i ds)). destruct Hr as (Lr & _).
      rewrite (columns_right n); try assumption.
      * apply IH; assumption.
      * apply zsum_nonneg. apply Forall_forall. intros z Hz. rewrite Forall_forall in Hp'. apply Hp'. rewrite <- (firstn_skipn i ds). apply in_or_app. now left.
Qed.

Lemma concatenation_inv {J} (ss : list (sampler J)) s : concatenation_sampler ss = Ok s ->
  exists dxs dys, Forall2 (fun s d => dim_x s = Ok d) ss dxs /\ Forall2 (fun s d => dim_y s = Ok d) ss dys /\
    1 <= zsum dxs /\ 1 <= zsum dys /\ dim_x s = Ok (zsum dxs) /\ dim_y s = Ok (zsum dys) /\
    mutual_information s = (do mis <- map_results mutual_information ss; Ok (fl_sum mis)) /\
    forall n rng, sample s n rng =
          do xys <- map_results (fun ks => sample (snd ks) n (SeedKey (fst ks))) (combine (split J (cast_to_rng J rng) (length ss)) ss);
          do x <- hstack (map fst xys); do y <- hstack (map snd xys); Ok (x, y).
Proof.
  unfold concatenation_sampler. destruct (sum_results dim_x ss) as [sx|] eqn:Ex; [|discriminate]. cbn [bind].
  destruct (sum_results dim_y ss) as [sy|] eqn:Ey; [|discriminate]. cbn [bind].
  destruct (base_sampler_init sx sy) as [[dx dy]|] eqn:E; [|discriminate]. cbn [bind].
  apply base_sampler_init_ok in E as (A & B & [= -> ->]). intros [= <-].
  apply sum_results_inv in Ex as (dxs & Fx & ->). apply sum_results_inv in Ey as (dys & Fy & ->).
  exists dxs, dys. cbn. repeat split; assumption.
Qed.

Lemma concatenation_empty {J} : concatenation_sampler (J := J) [] = Err ValueError.
Proof. reflexivity. Qed.

Lemma well_dimensioned_dims {J} (ss : list (sampler J)) : Forall well_dimensioned ss ->
  exists dxs dys, Forall2 (fun s d => dim_x s = Ok d) ss dxs /\ Forall2 (fun s d => dim_y s = Ok d) ss dys /\
    Forall (fun d => 1 <= d) dxs /\ Forall (fun d => 1 <= d) dys.
Proof.
  intros H. induction H as [|s ss (dx & dy & Ex & Ey & Hx & Hy & _) _ (dxs & dys & Fx & Fy & Px & Py)].
  - exists [], []. repeat split; constructor.
  - exists (dx :: dxs), (dy :: dys). repeat split; constructor; assumption.
Qed.

Lemma zsum_pos ds : ds <> [] -> Forall (fun d => 1 <= d) ds -> 1 <= zsum ds.
Proof.
  intros Hn H. destruct H as [|d ds Hd H]; [congruence|]. cbn. fold (zsum ds).
  assert (0 <= zsum ds) by (apply zsum_nonneg; eapply Forall_impl; [|exact H]; cbn; lia). lia.
Qed.

Lemma concatenation_ok {J} (ss : list (sampler J)) : ss <> [] -> Forall well_dimensioned ss -> exists s, concatenation_sampler ss = Ok s.
Proof.
  intros Hn H. destruct (well_dimensioned_dims ss H) as (dxs & dys & Fx & Fy & Px & Py).
  unfold concatenation_sampler. rewrite (sum_results_ok _ _ _ Fx), (sum_results_ok _ _ _ Fy). cbn [bind].
  assert (dxs <> []) by (intros ->; inversion Fx; subst; congruence). assert (dys <> []) by (intros ->; inversion Fy; subst; congruence).
  destruct (base_sampler_init (zsum dxs) (zsum dys)) as [[dx dy]|] eqn:E; [cbn [bind]; eauto|].
  destruct (base_sampler_init_spec _ _ _ E) as [(_ & _ & F)|(F & _)]; [discriminate|].
  pose proof (zsum_pos dxs ltac:(assumption) Px). pose proof (zsum_pos dys ltac:(assumption) Py). lia.
Qed.

Lemma Forall2_nth {A B} (P : A -> B -> Prop) l r i a : Forall2 P l r -> nth_error l i = Some a -> exists b, nth_error r i = Some b /\ P a b.
Proof.
  intros H. revert i. induction H as [|x y l r Hp H IH]; intros i E; [destruct i; discriminate|].
  destruct i as [|i]; cbn in *; [injection E as <-; eauto|auto].
Qed.

Lemma Forall2_fun {A B} (f : A -> result B) l a b : Forall2 (fun s d => f s = Ok d) l a -> Forall2 (fun s d => f s = Ok d) l b -> a = b.
Proof.
  intros Ha. revert b. induction Ha as [|? ? ? ? E1 _ IH]; intros b Hb; inversion Hb as [|? ? ? ? E2 Hb']; subst; [reflexivity|].
  rewrite E1 in E2. injection E2 as <-. f_equal. now apply IH.
Qed.

(** What each component contributes to one sample. *)
Lemma component_samples {J} (Hj : prng_ok J) (ss : list (sampler J)) dxs dys n xys :
  Forall well_dimensioned ss -> Forall2 (fun s d => dim_x s = Ok d) ss dxs -> Forall2 (fun s d => dim_y s = Ok d) ss dys ->
  forall ks, length ks = length ss ->
  map_results (fun ks => sample (snd ks) n (SeedKey (fst ks))) (combine ks ss) = Ok xys ->
  Forall2 (fun m d => shaped n d m) (map fst xys) dxs /\ Forall2 (fun m d => shaped n d m) (map snd xys) dys /\
  length xys = length ss /\
  forall i s, nth_error ss i = Some s -> exists key x y, nth_error ks i = Some key /\ nth_error xys i = Some (x, y) /\ sample s n (SeedKey key) = Ok (x, y).
Proof.
  revert dxs dys xys. induction ss as [|s ss IH]; intros dxs dys xys Hw Fx Fy ks Hk.
  - destruct ks; [|discriminate]. cbn. intros [= <-]. inversion Fx; inversion Fy; subst. repeat split; try constructor. intros [|i] s; discriminate.
  - destruct ks as [|k ks]; [discriminate|]. cbn [combine map_results fst snd].
    inversion Hw as [|? ? Hs Hw']; subst. inversion Fx as [|? dx ? dxs' Ex Fx']; subst. inversion Fy as [|? dy ? dys' Ey Fy']; subst.
    destruct (sample s n (SeedKey k)) as [[x y]|] eqn:S; [|discriminate]. cbn [bind].
    destruct (map_results _ (combine ks ss)) as [r|] eqn:E; [|discriminate]. cbn [bind]. intros [= <-].
    destruct (IH dxs' dys' r Hw' Fx' Fy' ks ltac:(cbn in Hk; lia) E) as (A & B & L & D).
    destruct Hs as (dx' & dy' & Ex' & Ey' & _ & _ & Hsam). rewrite Ex in Ex'. injection Ex' as <-. rewrite Ey in Ey'. injection Ey' as <-.
    destruct (Hsam _ _ _ S) as (L1 & L2 & F1 & F2). cbn [fst snd] in *.
    cbn [map fst snd length]. split; [constructor; [split; assumption|assumption]|]. split; [constructor; [split; assumption|assumption]|]. split; [lia|].
    intros [|i] s0 Hi; cbn [nth_error] in *; [injection Hi as <-; exists k, x, y; auto|apply D, Hi].
Qed.

Lemma concatenation_blocks {J} (Hj : prng_ok J) (ss : list (sampler J)) s : Forall well_dimensioned ss -> concatenation_sampler ss = Ok s ->
  exists dxs dys, Forall2 (fun s d => dim_x s = Ok d) ss dxs /\ Forall2 (fun s d => dim_y s = Ok d) ss dys /\
    dim_x s = Ok (zsum dxs) /\ dim_y s = Ok (zsum dys) /\
    forall n rng x y, sample s n rng = Ok (x, y) -> paired_sample n (zsum dxs) (zsum dys) (x, y) /\
      forall i c, nth_error ss i = Some c -> exists key xi yi dx dy,
        nth_error (split J (cast_to_rng J rng) (length ss)) i = Some key /\ sample c n (SeedKey key) = Ok (xi, yi) /\
        nth_error dxs i = Some dx /\ nth_error dys i = Some dy /\
        columns (zsum (firstn i dxs)) dx x = xi /\ columns (zsum (firstn i dys)) dy y = yi.
Proof.
  intros Hw H. apply concatenation_inv in H as (dxs & dys & Fx & Fy & Px & Py & Dx & Dy & _ & S).
  exists dxs, dys. do 4 (split; [assumption|]). intros n rng x y Hs. rewrite S in Hs.
  destruct (map_results _ _) as [xys|] eqn:E; [|discriminate]. cbn [bind] in Hs.
  assert (Hne : ss <> []) by (intros ->; inversion Fx; subst; cbn in Px; lia).
  destruct (component_samples Hj ss dxs dys n xys Hw Fx Fy _ (ok_split J Hj _ _) E) as (A & B & L & D).
  assert (Hnx : map fst xys <> []) by (destruct xys, ss; cbn in *; congruence).
  assert (Hny : map snd xys <> []) by (destruct xys, ss; cbn in *; congruence).
  destruct (hstack_shape n _ _ Hnx A) as (mx & Ex & Sx). destruct (hstack_shape n _ _ Hny B) as (my & Ey & Sy).
  rewrite Ex, Ey in Hs. cbn [bind] in Hs. injection Hs as <- <-. split.
  { destruct Sx, Sy. repeat split; assumption. }
  assert (Qx : Forall (fun d => 0 <= d) dxs /\ Forall (fun d => 0 <= d) dys).
  { destruct (well_dimensioned_dims ss Hw) as (dxs' & dys' & Fx' & Fy' & Px' & Py').
    rewrite (Forall2_fun _ _ _ _ Fx Fx'), (Forall2_fun _ _ _ _ Fy Fy'). split; (eapply Forall_impl; [|eassumption]); cbn; lia. }
  intros i c Hi. destruct (D i c Hi) as (key & xi & yi & Hk & Hxy & Sc).
  destruct (Forall2_nth _ _ _ _ _ Fx Hi) as (dx & Hdx & _). destruct (Forall2_nth _ _ _ _ _ Fy Hi) as (dy & Hdy & _).
  exists key, xi, yi, dx, dy. do 4 (split; [assumption|]). destruct Qx as (Qx & Qy). split.
  - apply (hstack_block n (map fst xys) dxs mx i xi dx); try assumption. now rewrite nth_error_map, Hxy.
  - apply (hstack_block n (map snd xys) dys my i yi dy); try assumption. now rewrite nth_error_map, Hxy.
Qed.

(** The concatenation can sample whenever every component can. *)
Lemma concatenation_samples {J} (Hj : prng_ok J) (ss : list (sampler J)) s : Forall well_dimensioned ss -> concatenation_sampler ss = Ok s ->
  (forall c n rng, In c ss -> exists xy, sample c n rng = Ok xy) -> forall n rng, exists xy, sample s n rng = Ok xy.
Proof.
  intros Hw H Ht n rng. apply concatenation_inv in H as (dxs & dys & Fx & Fy & Px & Py & Dx & Dy & _ & S). rewrite S.
  assert (E : forall ks, exists xys, map_results (fun ks => sample (snd ks) n (SeedKey (fst ks))) (combine ks ss) = Ok xys).
  { clear - Ht. induction ss as [|c ss IH]; intros ks; [destruct ks; cbn; eauto|]. destruct ks as [|k ks]; [cbn; eauto|].
    cbn [combine map_results fst snd]. destruct (Ht c n (SeedKey k) (or_introl eq_refl)) as (xy & ->). cbn [bind].
    destruct (IH ltac:(intros; apply Ht; now right) ks) as (r & ->). cbn. eauto. }
  destruct (E (split J (cast_to_rng J rng) (length ss))) as (xys & Exys). rewrite Exys. cbn [bind].
  assert (Hne : ss <> []) by (intros ->; inversion Fx; subst; cbn in Px; lia).
  destruct (component_samples Hj ss dxs dys n xys Hw Fx Fy _ (ok_split J Hj _ _) Exys) as (A & B & L & D).
  assert (Hnx : map fst xys <> []) by (destruct xys, ss; cbn in *; congruence).
  assert (Hny : map snd xys <> []) by (destruct xys, ss; cbn in *; congruence).
  destruct (hstack_shape n _ _ Hnx A) as (mx & Ex & Sx). destruct (hstack_shape n _ _ Hny B) as (my & Ey & Sy).
  rewrite Ex, Ey. cbn. eauto.
Qed.

Lemma concatenation_well_dimensioned {J} (Hj : prng_ok J) (ss : list (sampler J)) s : Forall well_dimensioned ss -> concatenation_sampler ss = Ok s -> well_dimensioned s.
Proof.
  intros Hw H. destruct (concatenation_blocks Hj ss s Hw H) as (dxs & dys & Fx & Fy & Dx & Dy & S).
  apply concatenation_inv in H as (dxs' & dys' & _ & _ & Px & Py & Dx' & Dy' & _). rewrite Dx in Dx'. rewrite Dy in Dy'. injection Dx' as Ex. injection Dy' as Ey.
  exists (zsum dxs), (zsum dys). do 2 (split; [assumption|]). split; [lia|]. split; [lia|]. intros n rng [x y] Hs. now apply (S n rng).
Qed.

Lemma concatenation_mi {J} (ss : list (sampler J)) s mis : concatenation_sampler ss = Ok s ->
  Forall2 (fun c v => mutual_information c = Ok (Fin v)) ss mis -> mutual_information s = Ok (Fin (rsum mis)).
Proof.
  intros H F. apply concatenation_inv in H as (dxs & dys & _ & _ & _ & _ & _ & _ & M & _). rewrite M.
  rewrite (map_results_ok mutual_information ss (map Fin mis)).
  - cbn [bind]. f_equal. apply fl_sum_Fin.
  - clear M. induction F as [|? ? ? ? E _ IH]; cbn [map]; [constructor|]. constructor; [exact E|exact IH].
Qed.

(** ** Seeds *)
Lemma transformed_seeds {J} (base : sampler J) tx ty ax ay v s : respects_seeds base -> transformed_sampler base tx ty ax ay v = Ok s -> respects_seeds s.
Proof.
  intros Hb H n k. apply transformed_inv in H as (bx & by_ & _ & _ & _ & _ & _ & _ & _ & _ & _ & E). rewrite !E, Hb. reflexivity.
Qed.

Lemma concatenation_seeds {J} (ss : list (sampler J)) s : concatenation_sampler ss = Ok s -> respects_seeds s.
Proof.
  intros H n k. apply concatenation_inv in H as (dxs & dys & _ & _ & _ & _ & _ & _ & _ & S). now rewrite !S.
Qed.

(** ** The one-dimensional samplers *)
Section Draws.
  Context (J : prng) (D : draws J) (Hj : prng_ok J) (Hd : draws_ok J D).

  Lemma split2_ok k : exists a b, split2 J k = Ok (a, b) /\ split J k 2 = [a; b].
  Proof. unfold split2. pose proof (ok_split J Hj k 2) as L. destruct (split J k 2) as [|a [|b [|c r]]]; try discriminate. eauto. Qed.

  Lemma split3_ok k : exists a b c, split3 J k = Ok (a, b, c) /\ split J k 3 = [a; b; c].
  Proof. unfold split3. pose proof (ok_split J Hj k 3) as L. destruct (split J k 3) as [|a [|b [|c [|d r]]]]; try discriminate. eauto 6. Qed.

  Lemma column_shape l : shaped (length l) 1 (column l).
  Proof. unfold column. split; [apply map_length|]. apply Forall_forall. intros r Hr. apply in_map_iff in Hr as (a & <- & _). reflexivity. Qed.

  Lemma nth_column l i v : nth_error (column l) i = Some v -> exists a, nth_error l i = Some a /\ v = [a].
  Proof. unfold column. rewrite nth_error_map. destruct (nth_error l i); [intros [= <-]; eauto|discriminate]. Qed.

  Lemma additive_spec eps s : additive_uniform_sampler J D eps = Ok s ->
    (0 < eps)%R /\ dim_x s = Ok 1 /\ dim_y s = Ok 1 /\ mutual_information s = Ok (additive_uniform_mi eps) /\ respects_seeds s /\
    forall n rng, exists x y kx kn, sample s n rng = Ok (x, y) /\ paired_sample n 1 1 (x, y) /\
      split J (cast_to_rng J rng) 2 = [kx; kn] /\
      forall i rx ry, nth_error x i = Some rx -> nth_error y i = Some ry ->
        exists a e, rx = [a] /\ ry = [(a + e)%R] /\ nth_error (uniform J D kx n 0 1) i = Some a /\
          nth_error (uniform J D kn n (- eps) eps) i = Some e /\ (0 <= a <= 1 /\ Rabs (a + e - a) <= eps)%R.
  Proof.
    unfold additive_uniform_sampler. cbn [base_sampler_init validate_dimensions bind Z.ltb Z.compare]. destruct (Rleb eps 0) eqn:E; [discriminate|].
    assert (He : (0 < eps)%R) by (apply Rnot_le_lt; intros H; apply Rleb_true in H; congruence). intros [= <-].
    split; [assumption|]. do 3 (split; [reflexivity|]). split; [intros n k; reflexivity|]. intros n rng. cbn [sample].
    destruct (split2_ok (cast_to_rng J rng)) as (kx & kn & -> & Hs). cbn [bind].
    pose proof (ok_uniform_length J D Hd kx n 0 1) as L1. pose proof (ok_uniform_length J D Hd kn n (- eps) eps) as L2.
    pose proof (ok_uniform_range J D Hd kx n 0 1) as R1. pose proof (ok_uniform_range J D Hd kn n (- eps) eps) as R2.
    set (x := uniform J D kx n 0 1) in *. set (e := uniform J D kn n (- eps)%R eps) in *.
    do 4 eexists. split; [reflexivity|]. split; [|split; [exact Hs|]].
    - destruct (column_shape x) as (A & B). destruct (column_shape (map (fun p => (fst p + snd p)%R) (combine x e))) as (C & F).
      rewrite map_length, combine_length, L1, L2, Nat.min_id in C. repeat split; cbn [fst snd]; congruence || assumption.
    - intros i rx ry Hx Hy. apply nth_column in Hx as (a & Ha & ->). apply nth_column in Hy as (b & Hb & ->).
      rewrite nth_error_map in Hb. destruct (nth_error (combine x e) i) as [(u, v)|] eqn:En; [|discriminate].
      injection Hb as <-. cbn [fst snd]. apply nth_error_combine_inv in En as (Hu & Hv). rewrite Ha in Hu. injection Hu as <-.
      specialize (R1 a ltac:(lra) (nth_error_In _ _ Ha)). specialize (R2 v ltac:(lra) (nth_error_In _ _ Hv)).
      exists a, v. do 2 (split; [reflexivity|]). do 3 (split; [assumption|]). apply Rabs_le. lra.
  Qed.

  Lemma additive_rejects eps : (eps <= 0)%R -> additive_uniform_sampler J D eps = Err ValueError.
  Proof. intros H. unfold additive_uniform_sampler. cbn. apply Rleb_true in H. now rewrite H. Qed.

  Lemma discrete_spec m s : discrete_uniform_sampler J D m = Ok s ->
    1 <= m /\ dim_x s = Ok 1 /\ dim_y s = Ok 1 /\ mutual_information s = Ok (Fin (ln (IZR m) - (IZR m - 1) * ln 2 / IZR m)) /\ respects_seeds s /\
    forall n rng, exists x y kx ky, sample s n rng = Ok (x, y) /\ paired_sample n 1 1 (x, y) /\
      split J (cast_to_rng J rng) 2 = [kx; ky] /\
      forall i rx ry, nth_error x i = Some rx -> nth_error y i = Some ry ->
        exists k e, rx = [IZR k] /\ ry = [(IZR k + e)%R] /\ nth_error (randints J D kx n 0 m) i = Some k /\
          nth_error (uniform J D ky n 0 2) i = Some e /\ 0 <= k < m /\ (0 <= e <= 2)%R.
  Proof.
    unfold discrete_uniform_sampler. cbn [base_sampler_init validate_dimensions bind Z.ltb Z.compare]. destruct (Z.leb_spec m 0); [discriminate|]. intros [= <-].
    split; [lia|]. do 3 (split; [reflexivity|]). split; [intros n k; reflexivity|]. intros n rng. cbn [sample].
    destruct (split2_ok (cast_to_rng J rng)) as (kx & kn & -> & Hs). cbn [bind].
    pose proof (ok_randints_length J D Hd kx n 0 m) as L1. pose proof (ok_uniform_length J D Hd kn n 0 2) as L2.
    pose proof (ok_randints_range J D Hd kx n 0 m) as R1. pose proof (ok_uniform_range J D Hd kn n 0 2) as R2.
    set (x := randints J D kx n 0 m) in *. set (e := uniform J D kn n 0 2) in *.
    do 4 eexists. split; [reflexivity|]. split; [|split; [exact Hs|]].
    - destruct (column_shape (map IZR x)) as (A & B). destruct (column_shape (map (fun p => (fst p + snd p)%R) (combine (map IZR x) e))) as (C & F).
      rewrite map_length in A. rewrite map_length, combine_length, map_length, L1, L2, Nat.min_id in C. repeat split; cbn [fst snd]; congruence || assumption.
    - intros i rx ry Hx Hy. apply nth_column in Hx as (a & Ha & ->). apply nth_column in Hy as (b & Hb & ->).
      rewrite nth_error_map in Hb. destruct (nth_error (combine (map IZR x) e) i) as [(u, v)|] eqn:En; [|discriminate].
      injection Hb as <-. cbn [fst snd]. apply nth_error_combine_inv in En as (Hu & Hv). rewrite Ha in Hu. injection Hu as <-.
      rewrite nth_error_map in Ha. destruct (nth_error x i) as [k|] eqn:Hk; [|discriminate]. injection Ha as <-.
      specialize (R1 k ltac:(lia) (nth_error_In _ _ Hk)). specialize (R2 v ltac:(lra) (nth_error_In _ _ Hv)).
      exists k, v. do 2 (split; [reflexivity|]). do 3 (split; [assumption|]). assumption.
  Qed.

  Lemma discrete_rejects m : m <= 0 -> discrete_uniform_sampler J D m = Err ValueError.
  Proof. intros H. unfold discrete_uniform_sampler. cbn. destruct (Z.leb_spec m 0); [reflexivity|lia]. Qed.

  Lemma zip_spec p s : zip_sampler J D p = Ok s ->
    (0 <= p < 1)%R /\ dim_x s = Err AttributeError /\ dim_y s = Err AttributeError /\ dim_total s = Err AttributeError /\
    mutual_information s = Ok (Fin ((1 - p) * (3012 / 10000))) /\ respects_seeds s /\
    forall n rng, exists x y kx kz kp, sample s n rng = Ok (x, y) /\ paired_sample n 1 1 (x, y) /\
      split J (cast_to_rng J rng) 3 = [kx; kz; kp] /\
      forall i rx ry, nth_error x i = Some rx -> nth_error y i = Some ry ->
        exists a k, rx = [a] /\ ry = [IZR k] /\ (0 <= a)%R /\ 0 <= k /\
          (nth_error (bernoulli J D kz (1 - p) n) i = Some false -> k = 0) /\
          (nth_error (bernoulli J D kz (1 - p) n) i = Some true -> nth_error (poisson J D kp (exponential J D kx n)) i = Some k).
  Proof.
    unfold zip_sampler. destruct (Rltb p 0) eqn:E1; [discriminate|]. destruct (Rleb 1 p) eqn:E2; [discriminate|]. cbn [orb]. intros [= <-].
    apply Rltb_false in E1. assert (p < 1)%R by (apply Rnot_le_lt; intros H; apply Rleb_true in H; congruence).
    split; [lra|]. do 4 (split; [reflexivity|]). split; [intros n k; reflexivity|]. intros n rng. cbn [sample].
    destruct (split3_ok (cast_to_rng J rng)) as (kx & kz & kp & -> & Hs). cbn [bind].
    pose proof (ok_exponential_length J D Hd kx n) as L1. pose proof (ok_bernoulli_length J D Hd kz (1 - p)%R n) as L2.
    pose proof (ok_exponential_range J D Hd kx n) as R1. set (x := exponential J D kx n) in *.
    pose proof (ok_poisson_length J D Hd kp x) as L3. pose proof (ok_poisson_range J D Hd kp x) as R3.
    set (z := bernoulli J D kz (1 - p)%R n) in *. set (q := poisson J D kp x) in *.
    do 5 eexists. split; [reflexivity|]. split; [|split; [exact Hs|]].
    - destruct (column_shape x) as (A & B).
      destruct (column_shape (map (fun q : bool * Z => if fst q then IZR (snd q) else 0%R) (combine z q))) as (C & F).
      rewrite map_length, combine_length, L2, L3, L1, Nat.min_id in C. repeat split; cbn [fst snd]; congruence || assumption.
    - intros i rx ry Hx Hy. apply nth_column in Hx as (a & Ha & ->). apply nth_column in Hy as (b & Hb & ->).
      rewrite nth_error_map in Hb. destruct (nth_error (combine z q) i) as [(u, v)|] eqn:En; [|discriminate].
      injection Hb as <-. cbn [fst snd]. apply nth_error_combine_inv in En as (Hu & Hv).
      specialize (R1 a (nth_error_In _ _ Ha)). specialize (R3 v (nth_error_In _ _ Hv)).
      exists a, (if u then v else 0). split; [reflexivity|]. split; [destruct u; reflexivity|]. split; [assumption|]. split; [destruct u; lia|].
      fold z. rewrite Hu. split; intros [= ->]; [reflexivity|assumption].
  Qed.

  Lemma zip_rejects p : (p < 0 \/ 1 <= p)%R -> zip_sampler J D p = Err ValueError.
  Proof.
    intros H. unfold zip_sampler. destruct (Rltb p 0) eqn:E1; [reflexivity|]. destruct (Rleb 1 p) eqn:E2; [reflexivity|].
    apply Rltb_false in E1. destruct H as [H|H]; [lra|]. apply Rleb_true in H. congruence.
  Qed.
End Draws.

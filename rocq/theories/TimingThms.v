(** The script which times the estimators. *)
From Coq Require Import String Lia Lra.
From Verif Require Import Base BaseLemmas UtilsModel JaxModel SamplersModel GaussianModel MatrixUtilsModel MatrixUtilsSpec TasksModel TasksGaussian BasicSpec BasicGaussian TimingModel TimingSpec.
Open Scope Z_scope.
Local Notation length := List.length.

Lemma args_ok a dy : get_args a = Ok (a, dy) <-> accepted a /\ (arg_dim_y a = None /\ dy = arg_dim_x a \/ arg_dim_y a = Some 0 /\ dy = arg_dim_x a \/ (arg_dim_y a = Some dy /\ dy <> 0)).
Proof.
  unfold get_args, accepted.
  destruct (Z.leb_spec 1 (arg_neighborhood a)); cbn [negb]; [|split; [discriminate|lia]]. destruct (Z.leb_spec 1 (arg_n_samples a)); cbn [negb]; [|split; [discriminate|lia]].
  destruct (Z.leb_spec 1 (arg_chunk_size a)); cbn [negb]; [|split; [discriminate|lia]]. destruct (Z.leb_spec 1 (arg_dim_x a)); cbn [negb]; [|split; [discriminate|lia]].
  destruct (arg_dim_y a) as [d|].
  - destruct (Z.eqb_spec d 0) as [->|N]; split; intros X.
    + injection X as <-. auto.
    + f_equal. f_equal. destruct X as [_ [[X _]|[[_ X]|[X Y]]]]; congruence.
    + injection X as <-. split; [auto|]. right. right. auto.
    + f_equal. f_equal. destruct X as [_ [[X _]|[[X _]|[X Y]]]]; congruence.
  - split; intros X; [injection X as <-; auto|]. f_equal. f_equal. destruct X as [_ [[_ X]|[[X _]|[X Y]]]]; congruence.
Qed.
Lemma args_bad a : ~ accepted a -> get_args a = Err AssertionError.
Proof.
  unfold get_args, accepted. intros H.
  destruct (Z.leb_spec 1 (arg_neighborhood a)); [|reflexivity]. destruct (Z.leb_spec 1 (arg_n_samples a)); [|reflexivity].
  destruct (Z.leb_spec 1 (arg_chunk_size a)); [|reflexivity]. destruct (Z.leb_spec 1 (arg_dim_x a)); [|reflexivity]. exfalso. apply H. auto.
Qed.
Lemma args_any a r : get_args a = Ok r -> fst r = a.
Proof. unfold get_args. repeat (destruct (negb _); [discriminate|]). intros X. injection X as <-. reflexivity. Qed.

Lemma eye_constant n : constant_correlation n 0 = np_eye (Z.to_nat n).
Proof.
  unfold constant_correlation. rewrite <- (map_id (np_eye (Z.to_nat n))) at 2. apply map_ext. intros row. rewrite <- (map_id row) at 2. apply map_ext. intros v. lra.
Qed.
Lemma zero_dense a b : dense_mi a b 0 = 0%R.
Proof. unfold dense_mi. rewrite !Rmult_0_r, Rplus_0_r, Rminus_0_r, !Rmult_1_r. replace (1 / 1)%R with 1%R by lra. rewrite ln_1. lra. Qed.

Lemma timing_ok (J : prng) eigvals (mvn : key J -> list R -> matrix -> nat -> matrix) estimate : eigvals_positive eigvals ->
  forall a dy e, accepted a -> 1 <= dy -> arg_dim_y a = Some dy \/ (arg_dim_y a = None \/ arg_dim_y a = Some 0) /\ dy = arg_dim_x a ->
  get_estimator a = Ok e ->
  let dx := Z.to_nat (arg_dim_x a) in
  exists C, has_entries (dx + Z.to_nat dy) C (constant_off 0) /\
    let xy := cut dx (mvn (prng_key J 10) (repeat 0%R (dx + Z.to_nat dy)) C (Z.to_nat (arg_n_samples a))) in
    timing_main eigvals mvn estimate a = do mi <- estimate e (fst xy) (snd xy); Ok (mi, Fin 0).
Proof.
  intros He a dy e A D Y E dx. unfold timing_main. assert (G : get_args a = Ok (a, dy)).
  { apply args_ok. split; [exact A|]. destruct Y as [Y|[[Y|Y] Z0]]; [right; right|left|right; left]; auto. split; [exact Y|lia]. }
  rewrite G. cbn [bind]. destruct A as [_ [_ [_ A]]].
  destruct (dense_normal He (J := J) mvn (dx := arg_dim_x a) (dy := dy) (r := 0%R) A D) as [s [S1 [_ [S2 [S3 [S4 [C [HC S5]]]]]]]]; [lra|lra|].
  rewrite zero_dense in S4.
  rewrite (proj2 (Z.ltb_ge _ _)) by lia.
  replace (split_multinormal_init eigvals (arg_dim_x a) dy (np_eye (Z.to_nat (arg_dim_x a + dy))) (Some (repeat 0%R (Z.to_nat (arg_dim_x a + dy)))))
    with (split_multinormal_init eigvals (arg_dim_x a) dy (constant_correlation (arg_dim_x a + dy) 0) None).
  2: { rewrite eye_constant. unfold split_multinormal_init. destruct (base_sampler_init (arg_dim_x a) dy) as [[p q]|] eqn:B; [|reflexivity]. cbn [bind].
       unfold base_sampler_init in B. destruct (validate_dimensions _ _); [|discriminate]. injection B as <- <-. now replace (Z.to_nat (arg_dim_x a + dy)) with (Z.to_nat (arg_dim_x a) + Z.to_nat dy)%nat by lia. }
  unfold multinormal_sampler in S1. destruct (split_multinormal_init eigvals (arg_dim_x a) dy (constant_correlation (arg_dim_x a + dy) 0) None) as [m|]; [|discriminate].
  cbn [bind] in S1 |- *. injection S1 as <-. exists C. split; [exact HC|]. rewrite S5. cbn [bind cast_to_rng]. fold dx. unfold cut. cbn [bind fst snd]. rewrite E. cbn [bind]. rewrite S4. reflexivity.
Qed.
Lemma timing_negative (J : prng) eigvals (mvn : key J -> list R -> matrix -> nat -> matrix) estimate a dy : accepted a -> arg_dim_y a = Some dy -> dy < 0 ->
  get_args a = Ok (a, dy) /\ timing_main eigvals mvn estimate a = Err ValueError.
Proof.
  intros A Y N. assert (G : get_args a = Ok (a, dy)) by (apply args_ok; split; [exact A|]; right; right; split; [exact Y|lia]). split; [exact G|].
  unfold timing_main. rewrite G. cbn [bind]. destruct (Z.ltb_spec (arg_dim_x a + dy) 0); [reflexivity|].
  unfold split_multinormal_init, base_sampler_init, validate_dimensions. destruct (arg_dim_x a <? 1); [reflexivity|]. rewrite (proj2 (Z.ltb_lt dy 1)) by lia. reflexivity.
Qed.
Lemma choice_ok a e : get_estimator a = Ok e <->
  (arg_type a = "SLOW"%string /\ e = Slow [arg_neighborhood a] (arg_n_jobs a)) \/ (arg_type a = "NUMPY"%string /\ e = Numpy [arg_neighborhood a] (arg_n_jobs a) (arg_chunk_size a)).
Proof.
  unfold get_estimator. destruct (String.eqb_spec (arg_type a) "SLOW") as [E|E].
  - split; [intros X; injection X as <-; auto|]. intros [[_ ->]|[X _]]; [reflexivity|rewrite E in X; discriminate].
  - destruct (String.eqb_spec (arg_type a) "NUMPY") as [E2|E2].
    + split; [intros X; injection X as <-; auto|]. intros [[X _]|[_ ->]]; [contradiction|reflexivity].
    + split; [discriminate|]. intros [[X _]|[X _]]; contradiction.
Qed.
Lemma timing_rejects (J : prng) eigvals (mvn : key J -> list R -> matrix -> nat -> matrix) estimate a : ~ accepted a -> timing_main eigvals mvn estimate a = Err AssertionError.
Proof. intros H. unfold timing_main. now rewrite (args_bad a H). Qed.
Lemma args_meant a dy : get_args a = Ok (a, dy) <-> accepted a /\ meant a dy.
Proof. rewrite args_ok. unfold meant. intuition. Qed.
Lemma args_total a : accepted a -> exists dy, get_args a = Ok (a, dy).
Proof.
  intros A. destruct (arg_dim_y a) as [d|] eqn:Y.
  - destruct (Z.eq_dec d 0) as [->|N]; [exists (arg_dim_x a)|exists d]; apply args_ok; split; auto.
  - exists (arg_dim_x a). apply args_ok. auto.
Qed.
Lemma choice_bad a : arg_type a <> "SLOW"%string -> arg_type a <> "NUMPY"%string -> get_estimator a = Err ValueError.
Proof. intros A B. unfold get_estimator. destruct (String.eqb_spec (arg_type a) "SLOW"); [contradiction|]. destruct (String.eqb_spec (arg_type a) "NUMPY"); [contradiction|]. reflexivity. Qed.
Lemma timing_prints (J : prng) eigvals (mvn : key J -> list R -> matrix -> nat -> matrix) estimate : eigvals_positive eigvals ->
  forall a dy e, accepted a -> meant a dy -> 1 <= dy -> get_estimator a = Ok e ->
  let dx := Z.to_nat (arg_dim_x a) in
  exists C, has_entries (dx + Z.to_nat dy) C (fun i j => if (i =? j)%nat then 1%R else 0%R) /\
    let rows := mvn (prng_key J 10) (repeat 0%R (dx + Z.to_nat dy)) C (Z.to_nat (arg_n_samples a)) in
    (forall mi, estimate e (map (firstn dx) rows) (map (skipn dx) rows) = Ok mi -> timing_main eigvals mvn estimate a = Ok (mi, Fin 0)) /\
    (forall err, estimate e (map (firstn dx) rows) (map (skipn dx) rows) = Err err -> timing_main eigvals mvn estimate a = Err err).
Proof.
  intros He a dy e A M D E dx. destruct (timing_ok J eigvals mvn estimate He a dy e A D) as [C [HC T]]; [destruct M as [M|[M _]]; auto|exact E|].
  exists C. split; [exact HC|]. cbv zeta in T |- *. fold dx in T. unfold cut in T. cbn [fst snd] in T. rewrite T. split; intros v ->; reflexivity.
Qed.

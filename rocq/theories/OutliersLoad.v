(** The dictionary of the tasks with noise, and their ground truth. *)
From Coq Require Import String Lia Lra Classical.
From Verif Require Import Base BaseLemmas UtilsModel JaxModel SamplersModel GaussianModel MatrixUtilsModel BmmModel MultivariateModel BenchmarkModel BenchmarkSpec
  BenchmarkProofs BenchmarkThms TasksModel TasksSpec TasksProofs TasksThms MixturesModel PaperModel RulesModel OutliersModel DiscreteSpec OutliersSpec BmmSpec SamplersProofs BmmProofs
  OutliersThms FiguresScale RulesProofs ConfigModel ConfigSpec ConfigThms OutliersTasksSpec.
From mathcomp Require Import ssreflect.
From Verif Require Import MixturesSpec MixturesProofs OutliersFactor OutliersMade OutliersTasks.
Open Scope R_scope.
Local Notation length := List.length.

Lemma alphas_levels : ALPHAS = levels.
Proof. unfold ALPHAS, levels. repeat apply (f_equal2 cons); try reflexivity; lra. Qed.
Lemma variances_exponents : VARIANCES = map (Rpower 2) exponents.
Proof.
  unfold VARIANCES, arange, exponents. cbn [seq map app INR]. repeat apply (f_equal2 cons); try reflexivity; apply f_equal; lra.
Qed.
Lemma levels_range : Forall (fun a => 0 <= a <= 1) levels.
Proof. unfold levels. repeat (apply Forall_cons; [lra|]). apply Forall_nil. Qed.

Lemma merge_disjoint {V} (b : sdict V) : forall a, NoDup (map fst a ++ map fst b) -> sdict_merge a b = (a ++ b)%list.
Proof.
  unfold sdict_merge. induction b as [|[k v] b IH]; intros a N; cbn [fold_left fst snd]; [now rewrite app_nil_r|].
  cbn [map fst] in N. rewrite sdict_set_fresh; [|intros I; apply NoDup_remove_2 in N; apply N, in_or_app; auto].
  rewrite IH; [now rewrite <- app_assoc|]. rewrite map_app. cbn. rewrite <- app_assoc. exact N.
Qed.

(** The identifiers are different. *)
Lemma append_inj p a b : (p ++ a = p ++ b)%string -> a = b.
Proof. induction p as [|c p IH]; cbn; [auto|]. intros E. injection E as E. auto. Qed.
Lemma ids_mixing F setup v l : NoDup (map (float_repr F) l) -> NoDup (map n_id (map (mixing_entry F setup v) l)).
Proof.
  intros N. induction l as [|a l IH]; cbn in *; [constructor|]. inversion N as [|? ? N1 N2]; subst. constructor; [|auto].
  intros I. apply N1. apply in_map_iff in I as (e & E & I). apply in_map_iff in I as (b & <- & I). cbn in E.
  injection E as E. apply append_inj in E. injection E as E. rewrite <- E. now apply in_map.
Qed.
Lemma ids_variance F l : NoDup (map (fun e => float_repr F (Rpower 2 e)) l) -> NoDup (map n_id (map (fun e => variance_entry F (Rpower 2 e)) l)).
Proof.
  intros N. induction l as [|a l IH]; cbn in *; [constructor|]. inversion N as [|? ? N1 N2]; subst. constructor; [|auto].
  intros I. apply N1. apply in_map_iff in I as (e & E & I). apply in_map_iff in I as (b & <- & I). cbn in E.
  injection E as E. rewrite <- E. now apply (in_map (fun e => float_repr F (Rpower 2 e))).
Qed.
Lemma NoDup_glue {A} (a b : list A) : NoDup a -> NoDup b -> (forall x, In x a -> ~ In x b) -> NoDup (a ++ b).
Proof.
  induction a as [|x a IH]; cbn; [auto|]. intros N M D. inversion N; subst. constructor.
  - rewrite in_app_iff. intros [I|I]; [auto|]. eapply D; eauto.
  - apply IH; auto.
Qed.
Lemma NoDup_left {A} (a b : list A) : NoDup (a ++ b) -> NoDup a.
Proof. induction a as [|x a IH]; cbn; [constructor|]. intros N. inversion N; subst. constructor; [|auto]. intros I. apply H1, in_or_app. auto. Qed.
Lemma NoDup_right {A} (a b : list A) : NoDup (a ++ b) -> NoDup b.
Proof. induction a as [|x a IH]; cbn; [auto|]. intros N. inversion N; auto. Qed.
Lemma ids_distinct F : told_apart F -> NoDup (map n_id (noisy_catalogue F)).
Proof.
  intros [L V]. unfold noisy_catalogue. rewrite !map_app.
  apply NoDup_glue; [now apply ids_mixing|apply NoDup_glue; [now apply ids_mixing|now apply ids_variance|]|].
  - intros x I K. apply in_map_iff in I as (e & <- & I). apply in_map_iff in I as (a & <- & _).
    apply in_map_iff in K as (e & E & K). apply in_map_iff in K as (b & <- & _). discriminate.
  - intros x I K. apply in_map_iff in I as (e & <- & I). apply in_map_iff in I as (a & <- & _).
    apply in_app_iff in K as [K|K]; apply in_map_iff in K as (e & E & K); apply in_map_iff in K as (b & <- & _); discriminate.
Qed.

Section Load.
  Context {J : prng}.
  Variable F : formats.
  Variable T : tfp_draws J.
  Variable eigvals : matrix -> list (R * R).
  Variable cholesky : matrix -> option matrix.
  Variable normal_draw : list R -> option matrix -> key J -> nat -> matrix.
  Hypothesis eig : eigvals_symmetric eigvals.
  Hypothesis cho : factorises cholesky.
  Hypothesis apart : told_apart F.

  (** A distribution with its sampler. *)
  Definition built_of (d : joint_distribution J) (e : noisy) (b : built) : Prop :=
    b_entry b = e /\ samples_from (fun x => x) d 100000 (b_sampler b) /\ b_mi b = average_pmi d 0 (Z.to_nat 100000).
  Lemma build d a v e : contaminated_signal d a v -> exists b, default_bmm d 100000 = Ok (b_sampler b) /\ built_of d e b /\ reads (b_sampler b) (b_mi b).
  Proof.
    intros (X & Y & _). destruct (@sampler_ok J d 100000) as (s & E & S); [now rewrite X|now rewrite Y|lia|].
    exists {| b_sampler := s; b_entry := e; b_mi := average_pmi d 0 (Z.to_nat 100000) |}. split; [exact E|]. split.
    - split; [reflexivity|]. split; [exact S|reflexivity].
    - split; [|split]; cbn.
      + rewrite (sf_dim_x S) X. reflexivity.
      + rewrite (sf_dim_y S) Y. reflexivity.
      + exact (sf_mi S).
  Qed.

  Lemma mixing_good setup s v l : (forall a, 0 <= a <= 1 -> exists d, setup_mixture T s a = Ok d /\ contaminated_signal d a v /\ mixed_draws T d a v) -> Forall (fun a => 0 <= a <= 1) l ->
    exists ds bs, Forall2 (fun a d => setup_mixture T s a = Ok d) l ds /\
      Forall2 (fun e d => contaminated_signal d (n_level e) (n_variance e) /\ mixed_draws T d (n_level e) (n_variance e)) (map (mixing_entry F setup v) l) ds /\
      Forall2 good (map (mixing_task F T setup s) l) bs /\ Forall2 (fun ed b => built_of (snd ed) (fst ed) b) (combine (map (mixing_entry F setup v) l) ds) bs.
  Proof.
    intros M. induction 1 as [|a l A _ (ds & bs & I0 & I1 & I2 & I3)].
    - exists [], []. repeat split; constructor.
    - destruct (M a A) as (d & E & C). destruct (build d a v (mixing_entry F setup v a) (proj1 C)) as (b & B & D & Rd).
      exists (d :: ds), (b :: bs). split; [now constructor|]. split; [constructor; [exact C|exact I1]|]. split.
      + constructor; [|exact I2]. destruct D as (De & _). split; [|split; [exact Rd|rewrite De; discriminate]].
        intros h. rewrite De. unfold mixing_task, pbind, lift. rewrite E B. reflexivity.
      + cbn. constructor; [exact D|exact I3].
  Qed.
  Lemma variance_good signal l : dist_signal_gauss eigvals cholesky normal_draw = Ok signal ->
    exists ds bs, Forall2 (fun x d => variance_mixture T cholesky normal_draw signal (Rpower 2 x) = Ok d) l ds /\
      Forall2 (fun e d => contaminated_signal d (n_level e) (n_variance e) /\ mixed_draws T d (n_level e) (n_variance e)) (map (fun x => variance_entry F (Rpower 2 x)) l) ds /\
      Forall2 good (map (variance_task F T cholesky normal_draw signal) (map (Rpower 2) l)) bs /\
      Forall2 (fun ed b => built_of (snd ed) (fst ed) b) (combine (map (fun x => variance_entry F (Rpower 2 x)) l) ds) bs.
  Proof.
    intros S. induction l as [|x l (ds & bs & I0 & I1 & I2 & I3)].
    - exists [], []. repeat split; constructor.
    - destruct (variances_made T eigvals cholesky normal_draw eig cho signal (Rpower 2 x) S) as (d & E & C); [apply exp_pos|].
      destruct (build d (2 / 10) (Rpower 2 x) (variance_entry F (Rpower 2 x)) (proj1 C)) as (b & B & D & Rd).
      exists (d :: ds), (b :: bs). split; [now constructor|]. split; [|split].
      + cbn. constructor; [|exact I1]. replace (n_level (variance_entry F (Rpower 2 x))) with (2 / 10); [exact C|]. cbn. lra.
      + cbn. constructor; [|exact I2]. destruct D as (De & _). split; [|split; [exact Rd|rewrite De; discriminate]].
        intros h. rewrite De. unfold variance_task, pbind, lift. rewrite E B. reflexivity.
      + cbn. constructor; [exact D|exact I3].
  Qed.

  Lemma store_app (a b : list (prog (task J))) : forall acc h,
    store_tasks (a ++ b) acc h = (let (h', r) := store_tasks a acc h in match r with Ok acc' => store_tasks b acc' h' | Err e => (h', Err e) end).
  Proof.
    induction a as [|m a IH]; intros acc h; [reflexivity|]. cbn [app store_tasks]. unfold pbind at 1 3.
    destruct (m h) as [h1 [t|e]]; [|reflexivity]. unfold pbind. destruct (task_id t h1) as [h2 [i|e]]; [|reflexivity]. apply IH.
  Qed.

  (** All the tasks, as one list of makers. *)
  Lemma all_built : exists signal inlier outlier ds bs1 bs2,
    change_mixing_setups T eigvals cholesky normal_draw =
      Ok [("Gauss-Inlier", {| dist_true := signal; dist_noise := inlier |}); ("Gauss-Outlier", {| dist_true := signal; dist_noise := outlier |})]%string /\
    dist_signal_gauss eigvals cholesky normal_draw = Ok signal /\
    Forall2 good (map (mixing_task F T "Gauss-Inlier" {| dist_true := signal; dist_noise := inlier |}) ALPHAS
                  ++ map (mixing_task F T "Gauss-Outlier" {| dist_true := signal; dist_noise := outlier |}) ALPHAS) bs1 /\
    Forall2 good (map (variance_task F T cholesky normal_draw signal) VARIANCES) bs2 /\
    Forall2 (fun e d => contaminated_signal d (n_level e) (n_variance e) /\ mixed_draws T d (n_level e) (n_variance e)) (noisy_catalogue F) ds /\
    Forall2 (fun ed b => built_of (snd ed) (fst ed) b) (combine (noisy_catalogue F) ds) (bs1 ++ bs2) /\
    Forall2 (fun e d => match n_params e with
       | [("mixing", PFloat (Fin a))]%string => forall setup, n_id e = ("mixing-" ++ setup ++ "-" ++ float_repr F a)%string ->
           In setup ["Gauss-Inlier"; "Gauss-Outlier"]%string -> mixed_distribution T eigvals cholesky normal_draw setup a = Ok d
       | _ => True end) (noisy_catalogue F) ds.
  Proof.
    destruct (setups_made T eigvals cholesky normal_draw eig cho) as (signal & inlier & outlier & S & E & M1 & M2).
    destruct (mixing_good "Gauss-Inlier" _ 1 levels M1 levels_range) as (ds1 & b1 & A0 & A1 & A2 & A3).
    destruct (mixing_good "Gauss-Outlier" _ 25 levels M2 levels_range) as (ds2 & b2 & B0 & B1 & B2 & B3).
    destruct (variance_good signal exponents S) as (ds3 & b3 & C0 & C1 & C2 & C3).
    exists signal, inlier, outlier, (ds1 ++ ds2 ++ ds3)%list, (b1 ++ b2)%list, b3.
    split; [exact E|]. split; [exact S|]. rewrite alphas_levels variances_exponents.
    split; [now apply Forall2_app|]. split; [exact C2|]. split; [unfold noisy_catalogue; repeat apply Forall2_app; auto|].
    assert (L : forall (X Y : Type) (P : X -> Y -> Prop) l l', Forall2 P l l' -> length l = length l') by (intros X Y P l l'; induction 1; cbn; auto).
    assert (K : forall (X Y : Type) (a b : list X) (c d : list Y), length a = length c -> combine (a ++ b) (c ++ d) = (combine a c ++ combine b d)%list).
    { intros X Y a. induction a as [|x a IH]; intros b [|y c] d H; try discriminate; cbn; [reflexivity|]. injection H as H. now rewrite IH. }
    split.
    - unfold noisy_catalogue. rewrite K; [|eapply L; exact A1]. rewrite K; [|eapply L; exact B1]. rewrite <- app_assoc. repeat apply Forall2_app; auto.
    - unfold noisy_catalogue. apply Forall2_app; [|apply Forall2_app].
      + clear - A0 E. induction A0 as [|a d l ds H _ IH]; constructor; [|exact IH]. cbn. intros setup I [<-|[<-|[]]]; [|discriminate].
        unfold mixed_distribution, setup_of. now rewrite E.
      + clear - B0 E. induction B0 as [|a d l ds H _ IH]; constructor; [|exact IH]. cbn. intros setup I [<-|[<-|[]]]; [discriminate|].
        unfold mixed_distribution, setup_of. now rewrite E.
      + clear - C0. induction C0 as [|a d l ds H _ IH]; constructor; [|exact IH]. exact I.
  Qed.

  Lemma made_tasks h bs : forall eds kts, Forall2 (fun ed b => built_of (snd ed) (fst ed) b) eds bs ->
    Forall2 (fun b kt => fst kt = n_id (b_entry b) /\ t_sampler (snd kt) = b_sampler b /\
      described (snd kt) h (n_id (b_entry b)) (n_id (b_entry b)) (n_params (b_entry b))) bs kts -> Forall2 (task_made h) eds kts.
  Proof.
    induction bs as [|b bs IH]; intros eds kts A B.
    - inversion A; inversion B; subst. constructor.
    - inversion A as [|[e d] ? eds' ? (A1 & A2 & A3) A4]; inversion B as [|? kt ? kts' (B1 & B2 & B3) B4]; subst. cbn in A1, A2. subst e.
      constructor; [|now apply IH]. cbn. rewrite B2. auto.
  Qed.

  Theorem unscaled_loaded h : exists ds,
    Forall2 (fun e d => contaminated_signal d (n_level e) (n_variance e) /\ mixed_draws T d (n_level e) (n_variance e)) (noisy_catalogue F) ds /\
    (Forall (fun d => acceptable (average_pmi d 0 (Z.to_nat 100000))) ds -> exists h' tasks,
       unscaled_tasks F T eigvals cholesky normal_draw h = (h', Ok tasks) /\ preserved h h' /\ Forall2 (task_made h') (combine (noisy_catalogue F) ds) tasks /\
       Forall (fun kt => usable (snd kt) h') tasks) /\
    (~ Forall (fun d => acceptable (average_pmi d 0 (Z.to_nat 100000))) ds -> exists h',
       unscaled_tasks F T eigvals cholesky normal_draw h = (h', Err ValidationError)) /\
    (forall setup v a, noise_variance setup v -> In a levels -> exists d,
       In (mixing_entry F setup v a, d) (combine (noisy_catalogue F) ds) /\ mixed_distribution T eigvals cholesky normal_draw setup a = Ok d).
  Proof.
    destruct all_built as (signal & inlier & outlier & ds & bs1 & bs2 & E & S & G1 & G2 & C & B & Mx).
    exists ds. split; [exact C|].
    cut ((Forall (fun d => acceptable (average_pmi d 0 (Z.to_nat 100000))) ds -> exists h' tasks,
       unscaled_tasks F T eigvals cholesky normal_draw h = (h', Ok tasks) /\ preserved h h' /\ Forall2 (task_made h') (combine (noisy_catalogue F) ds) tasks /\
       Forall (fun kt => usable (snd kt) h') tasks) /\
      (~ Forall (fun d => acceptable (average_pmi d 0 (Z.to_nat 100000))) ds -> exists h',
       unscaled_tasks F T eigvals cholesky normal_draw h = (h', Err ValidationError))).
    { intros [Q1 Q2]. split; [exact Q1|]. split; [exact Q2|]. intros setup v a V I. clear - Mx V I.
      assert (K : In (mixing_entry F setup v a) (noisy_catalogue F)).
      { unfold noisy_catalogue. rewrite !in_app_iff. destruct V as [[-> ->]|[-> ->]]; [left|right; left]; now apply in_map. }
      revert K Mx. generalize (noisy_catalogue F). intros es K Mx. induction Mx as [|e d es ds H _ IH]; [destruct K|].
      destruct K as [->|K].
      - exists d. split; [left; reflexivity|]. cbn in H. apply H; [reflexivity|]. destruct V as [[-> _]|[-> _]]; cbn; auto.
      - destruct (IH K) as (d' & I1 & I2). exists d'. split; [right; exact I1|exact I2]. }
    assert (Acc : Forall (fun d => acceptable (average_pmi d 0 (Z.to_nat 100000))) ds <-> Forall (fun b => acceptable (b_mi b)) (bs1 ++ bs2)).
    { clear - B C. revert B. generalize (bs1 ++ bs2)%list. induction C as [|e d es ds _ _ IH]; intros bs B; inversion B as [|? b ? bs' (_ & _ & Bm) B']; subst.
      - split; constructor.
      - cbn in Bm. rewrite !Forall_cons_iff. rewrite Bm. rewrite IH; [reflexivity|exact B']. }
    assert (Ids : map (fun b => n_id (b_entry b)) (bs1 ++ bs2) = map n_id (noisy_catalogue F)).
    { clear - B C. revert B. generalize (bs1 ++ bs2)%list. induction C as [|e d es ds _ _ IH]; intros bs B; inversion B as [|? b ? bs' (Be & _) B']; subst; [reflexivity|].
      cbn in Be |- *. now rewrite Be (IH bs' B'). }
    assert (N := ids_distinct F apart). rewrite <- Ids in N. rewrite map_app in N.
    assert (U : forall h, unscaled_tasks F T eigvals cholesky normal_draw h =
      (run mixing <- store_tasks (map (mixing_task F T "Gauss-Inlier" {| dist_true := signal; dist_noise := inlier |}) ALPHAS
                  ++ map (mixing_task F T "Gauss-Outlier" {| dist_true := signal; dist_noise := outlier |}) ALPHAS) [];
       run variance <- store_tasks (map (variance_task F T cholesky normal_draw signal) VARIANCES) []; pret (sdict_merge mixing variance)) h).
    { intros h0. unfold unscaled_tasks. unfold pbind at 1, lift. rewrite E. cbn [map concat fst snd]. rewrite app_nil_r S. reflexivity. }
    rewrite U. split; intros A.
    - apply Acc in A. apply Forall_app in A as [A1 A2].
      exists ((h ++ map (fun b => n_params (b_entry b)) bs1) ++ map (fun b => n_params (b_entry b)) bs2)%list,
        (tasks_at bs1 (length h) ++ tasks_at bs2 (length (h ++ map (fun b => n_params (b_entry b)) bs1)))%list.
      assert (N1 : NoDup (map (fun b : built (J := J) => n_id (b_entry b)) bs1)) by (eapply NoDup_left; exact N).
      assert (N2 : NoDup (map (fun b : built (J := J) => n_id (b_entry b)) bs2)) by (eapply NoDup_right; exact N).
      assert (TA : (tasks_at bs1 (length h) ++ tasks_at bs2 (length (h ++ map (fun b => n_params (b_entry b)) bs1)))%list = tasks_at (bs1 ++ bs2)%list (length h)).
      { rewrite app_length map_length. generalize (length h). clear. induction bs1 as [|b bs IH]; intros n; cbn; [now rewrite PeanoNat.Nat.add_0_r|].
        f_equal. rewrite <- IH. now rewrite PeanoNat.Nat.add_succ_r. }
      assert (D := tasks_described (bs1 ++ bs2) (length h) h [] (Logic.eq_refl)). rewrite app_nil_r in D.
      rewrite TA. rewrite <- app_assoc. rewrite <- map_app.
      split; [|split; [|split]].
      + unfold pbind at 1. rewrite (store_ok _ _ G1 A1 [] h N1). cbn [app].  unfold pbind. rewrite (store_ok _ _ G2 A2 [] _ N2). cbn [app]. unfold pret.
        rewrite merge_disjoint; [|now rewrite !tasks_at_keys]. rewrite TA. now rewrite map_app app_assoc.
      + split; [rewrite app_length; lia|]. intros r Hr. unfold dread. now rewrite app_nth1.
      + exact (made_tasks _ _ _ _ B D).
      + apply Forall_forall. intros kt I. 
        assert (A : Forall (fun b => acceptable (b_mi b)) (bs1 ++ bs2)) by (apply Forall_app; auto).
        assert (G : Forall2 good ((map (mixing_task F T "Gauss-Inlier" {| dist_true := signal; dist_noise := inlier |}) ALPHAS
                  ++ map (mixing_task F T "Gauss-Outlier" {| dist_true := signal; dist_noise := outlier |}) ALPHAS)
                  ++ map (variance_task F T cholesky normal_draw signal) VARIANCES) (bs1 ++ bs2)) by (now apply Forall2_app).
        assert (Q : exists b p, In b (bs1 ++ bs2) /\ snd kt = task_of (b_sampler b) (b_entry b) p /\ (p < length h + length (bs1 ++ bs2))%nat).
        { revert I. generalize (length h) as n. generalize (bs1 ++ bs2)%list. clear. intros bs. induction bs as [|b bs IH]; intros n; cbn; [tauto|].
          intros [<-|I]; [exists b, n; cbn; split; [auto|split; [reflexivity|lia]]|]. destruct (IH (S n) I) as (b' & p & H1 & H2 & H3). exists b', p. split; [auto|]. split; [exact H2|lia]. }
        destruct Q as (b & p & Ib & -> & Lp). rewrite Forall_forall in A. specialize (A b Ib).
        assert (Rd : exists m, good m b). { clear - G Ib. revert Ib. induction G as [|m b' ms bs H _ IH]; cbn; [tauto|]. intros [<-|I]; eauto. }
        destruct Rd as (m & _ & (Dx & Dy & Mi) & _).
        apply (listed_usable _ (n_id (b_entry b), n_id (b_entry b), 2%Z, 2%Z)); cbn; [|lia|lia|exists (b_mi b); auto].
        split; [reflexivity|]. split; [reflexivity|]. split; [exact Dx|]. split; [exact Dy|]. split; [|eauto].
        cbn. rewrite app_length map_length. exact Lp.
    - rewrite Acc in A. rewrite Forall_app in A. destruct (classic (Forall (fun b => acceptable (b_mi b)) bs1)) as [A1|A1].
      + assert (A2 : ~ Forall (fun b => acceptable (b_mi b)) bs2) by tauto.
        assert (N1 : NoDup (map (fun b : built (J := J) => n_id (b_entry b)) bs1)) by (eapply NoDup_left; exact N).
        destruct (store_fails _ _ G2 A2 [] (h ++ map (fun b => n_params (b_entry b)) bs1)%list) as (h' & Hf). exists h'.
        unfold pbind at 1. rewrite (store_ok _ _ G1 A1 [] h N1). unfold pbind at 1. now rewrite Hf.
      + destruct (store_fails _ _ G1 A1 [] h) as (h' & Hf). exists h'. unfold pbind at 1. now rewrite Hf.
  Qed.

  (** ** Ground truth *)
  Variable float_of : string -> result R.

  Lemma named_setup setup v : noise_variance setup v -> exists s, setup_of T eigvals cholesky normal_draw setup = Ok s /\
    dist_signal_gauss eigvals cholesky normal_draw = Ok (dist_true s) /\
    forall a, 0 <= a <= 1 -> exists d, setup_mixture T s a = Ok d /\ contaminated_signal d a v /\ mixed_draws T d a v.
  Proof.
    intros H. destruct (setups_made T eigvals cholesky normal_draw eig cho) as (signal & inlier & outlier & S & E & M1 & M2).
    unfold setup_of. rewrite E. destruct H as [[-> ->]|[-> ->]]; cbn; eexists; (split; [reflexivity|]); auto.
  Qed.
  Lemma estimate_values (d : joint_distribution J) seed l : pmi_values d seed l ->
    monte_carlo_mi_estimate (prng_key J seed) d 100000 = Ok (Fin (fst (estimated l)), Fin (snd (estimated l))).
  Proof.
    intros V. destruct (proj2 (profile_spec d 100000 (prng_key J seed))) as (p & P & E); [lia|].
    unfold monte_carlo_mi_estimate. rewrite P. cbn [bind]. replace p with (map Fin l).
    - rewrite fl_mean_fin fl_std_fin. reflexivity.
    - rewrite E. unfold pmi_values, points in V. revert V. generalize (draw (dist_joint d) (prng_key J seed) (Z.to_nat 100000)). intros zs. clear.
      induction 1 as [|z v zs l V _ IH]; cbn; [reflexivity|]. now rewrite V IH.
  Qed.
  Lemma std1_fin (l : list R) : (2 <= length l)%nat -> np_std1 (map Fin l) = Fin (sqrt (unbiased_variance l)).
  Proof.
    intros L. unfold np_std1. rewrite fl_mean_fin map_map.
    replace (map (fun x => fl_square (fl_sub (Fin x) (Fin (rmean l)))) l) with (map Fin (map (fun v => (v - rmean l) ^ 2) l)).
    - rewrite fl_sum_fin map_length. cbn [fl_divp fl_sqrt]. fold (unbiased_variance l).
      assert (Q : 0 <= unbiased_variance l).
      { apply le_INR in L. cbn in L. apply Rmult_le_pos; [|left; apply Rinv_0_lt_compat; lra].
        apply rsum_nonneg. apply Forall_forall. intros v I. apply in_map_iff in I as (w & <- & _). apply pow2_ge_0. }
      unfold Rltb. destruct (Rlt_dec (unbiased_variance l) 0); [lra|reflexivity].
    - rewrite map_map. apply map_ext. intros v. cbn. f_equal. ring.
  Qed.
  Lemma summary_fin (ls : list (list R)) : (2 <= length ls)%nat -> OutliersModel.summary (map (fun l => (Fin (fst (estimated l)), Fin (snd (estimated l)))) ls) = summarized ls.
  Proof.
    intros L. unfold OutliersModel.summary, summarized. rewrite !map_map. cbn [fst snd estimated].
    rewrite -(map_map rmean Fin) -(map_map (fun l => deviation l / sqrt 100000) Fin). rewrite !fl_mean_fin. rewrite std1_fin; [reflexivity|]. now rewrite map_length.
  Qed.

  Lemma each_values {A B C} (f : A -> result B) (P : A -> C -> Prop) (g : C -> B) l cs : (forall a c, P a c -> f a = Ok (g c)) ->
    Forall2 P l cs -> OutliersModel.each f l = Ok (map g cs).
  Proof. intros H. induction 1 as [|a c l cs p _ IH]; cbn; [reflexivity|]. now rewrite (H _ _ p) IH. Qed.

  Theorem mixed_truth setup v mixing a : noise_variance setup v -> float_of mixing = Ok a -> 0 <= a <= 1 -> exists d,
    contaminated_signal d a v /\ mixed_draws T d a v /\ mixed_distribution T eigvals cholesky normal_draw setup a = Ok d /\
    (forall seed l, pmi_values d seed l ->
       mixed_one_seed T eigvals cholesky normal_draw float_of setup mixing (show_int seed) = Ok (Fin (fst (estimated l)), Fin (snd (estimated l)), a)) /\
    (forall ls, Forall2 (pmi_values d) [0; 1; 2; 3; 4; 5; 6; 7; 8; 9]%Z ls ->
       mixed_all_seeds T eigvals cholesky normal_draw float_of setup mixing = Ok (summarized ls, a)).
  Proof.
    intros V Fa A. destruct (named_setup setup v V) as (s & S & _ & M). destruct (M a A) as (d & E & C).
    assert (One : forall seed l, pmi_values d seed l ->
       mixed_one_seed T eigvals cholesky normal_draw float_of setup mixing (show_int seed) = Ok (Fin (fst (estimated l)), Fin (snd (estimated l)), a)).
    { intros seed l P. unfold mixed_one_seed. rewrite S. cbn [bind]. rewrite Fa. cbn [bind]. rewrite E. cbn [bind]. rewrite read_show. cbn [bind].
      now rewrite (estimate_values _ _ _ P). }
    exists d. split; [apply C|]. split; [apply C|]. split; [|split; [exact One|]].
    - unfold mixed_distribution. now rewrite S.
    - intros ls P. unfold mixed_all_seeds.
      rewrite (each_values _ (pmi_values d) (fun l => (Fin (fst (estimated l)), Fin (snd (estimated l)), a)) SEEDS ls One P).
      cbn [bind]. rewrite Fa. cbn [bind]. rewrite map_map. cbn [fst]. rewrite summary_fin; [reflexivity|].
      repeat (destruct ls as [|? ls]; [inversion P; subst; repeat match goal with H : Forall2 _ _ [] |- _ => inversion H end|]; inversion P as [|? ? ? ? _ P']; subst; clear P; rename P' into P; try (cbn; lia)).
  Qed.
  Theorem signal_truth setup v : noise_variance setup v -> exists signal,
    dist_signal_gauss eigvals cholesky normal_draw = Ok signal /\
    (forall seed l, pmi_values signal seed l ->
       signal_one_seed T eigvals cholesky normal_draw setup (show_int seed) = Ok (Fin (fst (estimated l)), Fin (snd (estimated l)))) /\
    (forall l0 l1, pmi_values signal 0 l0 -> pmi_values signal 1 l1 ->
       signal_all_seeds T eigvals cholesky normal_draw setup = Ok (Fin signal_information, summarized [l0; l1])).
  Proof.
    intros V. destruct (named_setup setup v V) as (s & S & G & _).
    destruct (signal_made (J := J) normal_draw eig cho) as (d0 & S0 & _ & _ & _ & An & _). rewrite G in S0. injection S0 as <-.
    assert (One : forall seed l, pmi_values (dist_true s) seed l ->
       signal_one_seed T eigvals cholesky normal_draw setup (show_int seed) = Ok (Fin (fst (estimated l)), Fin (snd (estimated l)))).
    { intros seed l P. unfold signal_one_seed. rewrite S. cbn [bind]. rewrite read_show. cbn [bind]. exact (estimate_values _ _ _ P). }
    exists (dist_true s). split; [exact G|]. split; [exact One|]. intros l0 l1 P0 P1. unfold signal_all_seeds, signal_seeds. cbn [seq map OutliersModel.each].
    rewrite (One _ _ P0). cbn [bind]. rewrite (One _ _ P1). cbn [bind]. rewrite S. cbn [bind]. rewrite An.
    now rewrite <- (summary_fin [l0; l1]).
  Qed.
  Theorem unknown_setup setup mixing seed : ~ In setup ["Gauss-Inlier"; "Gauss-Outlier"]%string ->
    mixed_one_seed T eigvals cholesky normal_draw float_of setup mixing seed = Err KeyError /\
    signal_one_seed T eigvals cholesky normal_draw setup seed = Err KeyError.
  Proof.
    intros N. destruct (setups_made T eigvals cholesky normal_draw eig cho) as (signal & inlier & outlier & S & E & _).
    assert (Q : setup_of T eigvals cholesky normal_draw setup = Err KeyError).
    { unfold setup_of. rewrite E. cbn [bind sdict_get fst snd]. destruct (String.eqb_spec setup "Gauss-Inlier"); [destruct N; cbn; auto|].
      destruct (String.eqb_spec setup "Gauss-Outlier"); [destruct N; cbn; auto|reflexivity]. }
    unfold mixed_one_seed, signal_one_seed. now rewrite Q.
  Qed.

  Lemma get_only {V} (d : sdict V) k v : NoDup (map fst d) -> In (k, v) d -> sdict_get d k = Some v.
  Proof.
    induction d as [|[k' v'] d IH]; [intros _ []|]. cbn [map fst sdict_get]. intros N [E|I]; inversion N as [|? ? N1 N2]; subst.
    - injection E as -> ->. now rewrite String.eqb_refl.
    - destruct (String.eqb_spec k k') as [->|]; [|now apply IH]. destruct N1. apply (in_map fst) in I. exact I.
  Qed.
  (** The mutual information of a task is the estimate with the seed 0. *)
  Theorem task_truth h h' tasks setup v mixing a : noise_variance setup v -> In a levels -> float_of mixing = Ok a ->
    unscaled_tasks F T eigvals cholesky normal_draw h = (h', Ok tasks) -> exists t mi stderr,
    sdict_get tasks (n_id (mixing_entry F setup v a)) = Some t /\ mutual_information (t_sampler t) = Ok mi /\
    mixed_one_seed T eigvals cholesky normal_draw float_of setup mixing "0" = Ok (mi, stderr, a).
  Proof.
    intros V I Fa E. destruct (unscaled_loaded h) as (ds & C & Q1 & Q2 & Q3).
    destruct (classic (Forall (fun d => acceptable (average_pmi d 0 (Z.to_nat 100000))) ds)) as [A|A];
      [|destruct (Q2 A) as (h2 & E2); rewrite E in E2; discriminate].
    destruct (Q1 A) as (h2 & ts & E2 & _ & M & _). rewrite E in E2. injection E2 as <- <-.
    destruct (Q3 setup v a V I) as (d & K & D).
    assert (P : exists t, In (n_id (mixing_entry F setup v a), t) tasks /\ samples_from (fun x => x) d 100000 (t_sampler t)).
    { clear - M K. induction M as [|[e0 d0] [k t] eds kts H _ IH]; [destruct K|]. destruct K as [[= -> ->]|K].
      - exists t. destruct H as (H1 & _ & H3). cbn in H1, H3. subst k. split; [left; reflexivity|exact H3].
      - destruct (IH K) as (t' & H1 & H2). exists t'. split; [right; exact H1|exact H2]. }
    destruct P as (t & It & St).
    assert (N : NoDup (map fst tasks)).
    { replace (map fst tasks) with (map n_id (noisy_catalogue F)); [now apply ids_distinct|].
      clear - M C. revert tasks M. induction C as [|e d es ds _ _ IH]; intros ts M; inversion M as [|? kt ? kts H M']; subst; [reflexivity|].
      destruct H as (H & _). cbn. rewrite H. f_equal. now apply IH. }
    destruct (proj2 (profile_spec d 100000 (prng_key J 0))) as (p & Pp & Ep); [lia|].
    exists t, (fl_mean p), (fl_divp (fl_std p) (sqrt (IZR 100000))). split; [now apply get_only|]. split.
    - rewrite (sf_mi St) Ep. reflexivity.
    - unfold mixed_one_seed. unfold mixed_distribution in D. destruct (setup_of T eigvals cholesky normal_draw setup) as [s|]; [|discriminate].
      cbn [bind] in D |- *. rewrite Fa. cbn [bind]. rewrite D. cbn [bind]. change (read_int "0") with (Ok 0%Z : result Z). cbn [bind].
      unfold monte_carlo_mi_estimate. rewrite Pp. reflexivity.
  Qed.
End Load.

(** Points of four coordinates have finite values. *)
Lemma contaminated_values {J} (d : joint_distribution J) a v seed : contaminated_signal d a v -> 0 <= a <= 1 -> 0 < v ->
  Forall (fun z => length z = 4%nat) (points d seed) -> exists l, pmi_values d seed l /\ length l = length (points d seed).
Proof.
  intros C A V. unfold pmi_values. generalize (points d seed). induction 1 as [|z zs Lz _ (l & IH & IL)]; [exists []; split; [constructor|reflexivity]|].
  assert (X : jd_dim_x d = 2%nat) by apply C.
  destruct (signal_noise_pmi d a v (firstn 2 z) (skipn 2 z) A V C) as (w & W & _); [rewrite firstn_length; lia|rewrite skipn_length; lia|].
  exists (w :: l). split; [constructor; [now rewrite X|exact IH]|cbn; now rewrite IL].
Qed.

(** The mean of the means is the mean of all the points. *)
Lemma rsum_glue a b : rsum (a ++ b) = rsum a + rsum b.
Proof. unfold rsum. induction a as [|x a IH]; cbn; [lra|]. rewrite IH. lra. Qed.
Lemma rsum_concat ls : rsum (concat ls) = rsum (map rsum ls).
Proof. induction ls as [|l ls IH]; [reflexivity|]. cbn [concat map]. rewrite rsum_glue IH. reflexivity. Qed.
Theorem pooled n ls : (0 < n)%nat -> Forall (fun l => length l = n) ls -> ls <> [] ->
  rmean (map rmean ls) = rmean (concat ls).
Proof.
  intros N L E. assert (N' : 0 < INR n) by now apply lt_0_INR.
  assert (K : (0 < length ls)%nat) by (destruct ls; [tauto|cbn; lia]). apply lt_0_INR in K.
  unfold rmean at 1 3. rewrite rsum_concat map_length.
  assert (S : rsum (map rmean ls) = rsum (map rsum ls) / INR n /\ length (concat ls) = (length ls * n)%nat).
  { clear E K. induction L as [|l ls Ll _ [IH1 IH2]]; cbn [map rsum fold_right concat length]; [split; [unfold Rdiv; now rewrite Rmult_0_l|reflexivity]|].
    fold (rsum (map rmean ls)). fold (rsum (map rsum ls)). rewrite IH1 app_length IH2 Ll. split; [|lia]. unfold rmean. rewrite Ll. field. lra. }
  destruct S as [-> ->]. rewrite mult_INR. field. lra.
Qed.

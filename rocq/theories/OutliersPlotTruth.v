(** The ground truth in the figure of the tasks with noise. *)
From Coq Require Import String Sorted Lia Lra.
From Verif Require Import Base BaseLemmas UtilsModel JaxModel SamplersModel GaussianModel MatrixUtilsModel BmmModel MultivariateModel BenchmarkModel
  TasksModel TasksSpec MixturesModel PaperModel RulesModel OutliersModel DiscreteSpec OutliersSpec BmmSpec ConfigSpec OutliersTasksSpec
  TablesSpec OutliersPlotModel OutliersPlotSpec OutliersPlotThms.
From mathcomp Require Import ssreflect.
From Verif Require Import MixturesSpec OutliersMade OutliersTasks OutliersLoad.
Open Scope R_scope.
Local Notation length := List.length.

Lemma levels_increase : StronglySorted Rlt levels.
Proof. unfold levels. repeat (apply SSorted_cons; [|repeat (apply Forall_cons; [lra|]); apply Forall_nil]). apply SSorted_nil. Qed.

Section Truth.
  Context {J : prng}.
  Variable F : formats.
  Variable T : tfp_draws J.
  Variable eigvals : matrix -> list (R * R).
  Variable cholesky : matrix -> option matrix.
  Variable normal_draw : list R -> option matrix -> key J -> nat -> matrix.
  Hypothesis eig : eigvals_symmetric eigvals.
  Hypothesis cho : factorises cholesky.

  Section Mixing.
    Variable parameter : string -> string -> result R.
    Variable float_of : string -> result R.
    Definition ten : list Z := [0; 1; 2; 3; 4; 5; 6; 7; 8; 9]%Z.
    Lemma documents setup v l : noise_variance setup v -> Forall (fun a => 0 <= a <= 1 /\ float_of (float_repr F a) = Ok a) l ->
      exists ds, Forall2 (fun a d => contaminated_signal d a v /\ mixed_draws T d a v) l ds /\
        forall lss, Forall2 (fun d ls => Forall2 (pmi_values d) ten ls) ds lss -> exists docs,
          each (fun a => do d <- mixed_all_seeds T eigvals cholesky normal_draw float_of setup (float_repr F a);
                   let '(mean, std, _, mixing) := d in Ok (mixing, mean, std)) l = Ok docs /\
          map level docs = l /\
          map (fun d => (level d, snd (fst d))) docs = combine l (map (fun ls => Fin (rmean (map rmean ls))) lss) /\
          map (fun d => (fl_sub (snd (fst d)) (snd d), fl_add (snd (fst d)) (snd d))) docs =
            map (fun ls => let m := rmean (map rmean ls) in let s := sqrt (unbiased_variance (map rmean ls)) in (Fin (m - s), Fin (m + s))) lss.
    Proof.
      intros V. induction 1 as [|a l [A Ea] _ (ds & C & IH)].
      - exists []. split; [constructor|]. intros lss H. inversion H; subst. exists []. repeat split.
      - destruct (mixed_truth T eigvals cholesky normal_draw eig cho float_of setup v (float_repr F a) a V Ea A) as (d & D1 & D2 & _ & _ & All).
        exists (d :: ds). split; [constructor; auto|]. intros lss H. inversion H as [|? ls ? lss' H1 H2]; subst.
        destruct (IH lss' H2) as (docs & E & M1 & M2 & M3).
        exists ((a, Fin (rmean (map rmean ls)), Fin (sqrt (unbiased_variance (map rmean ls)))) :: docs). split.
        + cbn [each]. rewrite (All ls H1). cbn [bind summarized]. rewrite E. reflexivity.
        + cbn [map level fst snd combine]. rewrite M1 M2 M3. split; [reflexivity|]. split; reflexivity.
    Qed.
    Theorem panel_truth setup v : noise_variance setup v -> Forall (fun a => float_of (float_repr F a) = Ok a) levels ->
      exists ds, Forall2 (fun a d => contaminated_signal d a v /\ mixed_draws T d a v) levels ds /\
        forall lss, Forall2 (fun d ls => Forall2 (pmi_values d) ten ls) ds lss -> forall df,
          mixing_panel parameter F T eigvals cholesky normal_draw float_of df setup =
          do curves <- plot_data parameter (select ("mixing-" ++ setup) df) "mixing";
          Ok (curves, (combine levels (map (fun ls => Fin (rmean (map rmean ls))) lss),
            map (fun ls => let m := rmean (map rmean ls) in let s := sqrt (unbiased_variance (map rmean ls)) in (Fin (m - s), Fin (m + s))) lss)).
    Proof.
      intros V Ea. destruct (documents setup v levels V) as (ds & C & Q).
      { assert (L := levels_range). rewrite -> Forall_forall in *. intros a I. auto. }
      exists ds. split; [exact C|]. intros lss H df. destruct (Q lss H) as (docs & E & M1 & M2 & M3).
      unfold mixing_panel, ground_truths. rewrite alphas_levels. rewrite E. cbn [bind].
      rewrite truth_increasing; [|rewrite M1; exact levels_increase]. rewrite M2 M3. reflexivity.
    Qed.
  End Mixing.

  (** ** The line of the variances *)
  Lemma read_mi s e mi h p : reads s mi -> acceptable mi -> dread h p = n_params e -> n_params e <> [] -> task_mi (task_of (J := J) s e p) h = (h, Ok mi).
  Proof.
    intros (Dx & Dy & M) A E N. unfold task_mi, metadata, pbind, lift. cbn [task_of t_sampler]. rewrite Dx Dy M.
    unfold or_dict. cbn [task_of t_params]. rewrite E. destruct (n_params e); [tauto|].
    unfold non_negative_float. destruct mi as [r| | |]; cbn in A; try tauto; try reflexivity. now rewrite (proj2 (Rleb_true _ _) A).
  Qed.
  Lemma tasks_at_in (bs : list (built (J := J))) b : forall n, In b bs -> exists p, In (n_id (b_entry b), task_of (b_sampler b) (b_entry b) p) (tasks_at bs n) /\
    (n <= p < n + length bs)%nat /\ nth (p - n) (map (fun b => n_params (b_entry b)) bs) [] = n_params (b_entry b).
  Proof.
    induction bs as [|b' bs IH]; intros n I; [destruct I|]. destruct I as [->|I].
    - exists n. split; [left; reflexivity|]. split; [cbn; lia|]. now rewrite PeanoNat.Nat.sub_diag.
    - destruct (IH (S n) I) as (p & K & L & E). exists p. split; [right; exact K|]. split; [cbn; lia|].
      replace (p - n)%nat with (S (p - S n)) by lia. exact E.
  Qed.
  Theorem variance_line h : told_apart F -> exists ds,
    Forall2 (fun e d => contaminated_signal d (1 / 5) (Rpower 2 e) /\ mixed_draws T d (1 / 5) (Rpower 2 e)) exponents ds /\
    (Forall (fun d => acceptable (average_pmi d 0 (Z.to_nat 100000))) ds -> exists h' tasks,
       variance_tasks F T eigvals cholesky normal_draw h = (h', Ok tasks) /\ preserved h h' /\
       forall h1 parameter df, preserved h' h1 -> variance_panel parameter F df tasks h1 =
         (h1, do curves <- plot_data parameter (select "variance" df) "variance";
              Ok (curves, combine (map (Rpower 2) exponents) (map (fun d => average_pmi d 0 (Z.to_nat 100000)) ds)))).
  Proof.
    intros apart. destruct (setups_made T eigvals cholesky normal_draw eig cho) as (signal & _ & _ & S & _).
    destruct (variance_good F T eigvals cholesky normal_draw eig cho signal exponents S) as (ds & bs & _ & C & G & B).
    exists ds. split.
    { clear - C. remember (map (fun x => variance_entry F (Rpower 2 x)) exponents) as es eqn:Ee. revert Ee. generalize exponents. induction C as [|e d es' ds H _ IH]; intros [|x l] Ee; try discriminate; constructor.
      - injection Ee as -> _. exact H.
      - apply IH. now injection Ee. }
    intros A. set (vars := map (Rpower 2) exponents).
    assert (Ab : Forall (fun b => acceptable (b_mi b)) bs).
    { clear - A B C. revert bs B. induction C as [|e d es ds _ _ IH]; intros bs B; inversion B as [|? b ? bs' (_ & _ & Bm) B']; subst; constructor; inversion A; subst.
      - cbn in Bm. now rewrite Bm.
      - now apply IH. }
    assert (Ids : map (fun b => n_id (b_entry b)) bs = map n_id (map (fun x => variance_entry F (Rpower 2 x)) exponents)).
    { clear - B C. revert bs B. induction C as [|e d es ds _ _ IH]; intros bs B; inversion B as [|? b ? bs' (Be & _) B']; subst; [reflexivity|].
      cbn in Be |- *. now rewrite Be (IH bs' B'). }
    assert (N : NoDup (map (fun b => n_id (b_entry b)) bs)) by (rewrite Ids; apply ids_variance, apart).
    exists (h ++ map (fun b => n_params (b_entry b)) bs)%list, (tasks_at bs (length h)). split; [|split].
    - unfold variance_tasks, pbind, lift. rewrite S variances_exponents. now rewrite (store_ok _ bs G Ab [] h N).
    - split; [rewrite app_length; lia|]. intros r L. unfold dread. now rewrite app_nth1.
    - intros h1 parameter df [L P].
      assert (Rd : forall b, In b bs -> exists t, sdict_get (tasks_at bs (length h)) (n_id (b_entry b)) = Some t /\ task_mi t h1 = (h1, Ok (b_mi b))).
      { intros b I. destruct (tasks_at_in bs b (length h) I) as (p & K & Lp & E).
        exists (task_of (b_sampler b) (b_entry b) p). split; [apply get_only; [now rewrite tasks_at_keys|exact K]|].
        assert (Gb : reads (b_sampler b) (b_mi b) /\ n_params (b_entry b) <> []).
        { clear - G I. induction G as [|m b' ms bs Hg _ IH]; [destruct I|]. destruct I as [->|I]; [|now apply IH]. destruct Hg as (_ & Hg). exact Hg. }
        rewrite -> Forall_forall in Ab. apply read_mi; [apply Gb|now apply Ab| |apply Gb].
        rewrite P; [|rewrite app_length map_length; lia]. unfold dread. rewrite app_nth2; [|lia]. exact E. }
      assert (V : variance_truth F (tasks_at bs (length h)) vars h1 = (h1, Ok (map (fun b => b_mi b) bs))).
      { generalize (tasks_at bs (length h)) Rd. intros tasks Rd'. subst vars. clear - Ids Rd'. revert Ids Rd'. revert bs. generalize exponents.
        induction l as [|x l IH]; intros [|b bs] Ids Rd; try discriminate; [reflexivity|]. cbn [map] in Ids |- *. injection Ids as I1 I2.
        cbn [variance_truth]. destruct (Rd b (or_introl Logic.eq_refl)) as (t & Et & Em). rewrite I1 in Et. cbn [n_id variance_entry] in Et.
        unfold pbind at 1, lift, lookup. rewrite Et. unfold pbind at 1. rewrite Em. unfold pbind at 1. rewrite (IH bs I2); [reflexivity|].
        intros b' I. apply Rd. now right. }
      unfold variance_panel. rewrite variances_exponents. fold vars. unfold pbind at 1, lift.
      destruct (plot_data parameter (select "variance" df) "variance") as [curves|]; [|reflexivity]. cbn [bind]. unfold pbind. rewrite V.
      replace (map (fun b => b_mi b) bs) with (map (fun d => average_pmi d 0 (Z.to_nat 100000)) ds); [reflexivity|].
      clear - B C. revert bs B. induction C as [|e d es ds _ _ IH]; intros bs B; inversion B as [|? b ? bs' (_ & _ & Bm) B']; subst; [reflexivity|].
      cbn in Bm |- *. now rewrite Bm (IH bs' B').
  Qed.
End Truth.

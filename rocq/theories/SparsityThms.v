(** Tasks of prescribed mutual information and sparsity ([SparsityModel]). *)
From Coq Require Import String Ranalysis5.
From Verif Require Import Base BaseLemmas UtilsModel JaxModel SamplersModel GaussianModel MatrixUtilsModel MatrixUtilsSpec BenchmarkModel BenchmarkSpec
  BenchmarkThms TasksModel TasksSpec TasksGaussian TasksBuild GaussianSpec BasicSpec BasicGaussian BasicThms HighMiModel HighMiSpec HighMiProofs
  SparsityModel SparsitySpec SparsityGaussian.
Open Scope R_scope.
Local Notation length := List.length.

(** ** The curve *)
Lemma coupling_0 : coupling 0 = 0.
Proof. unfold coupling. replace ((1 + 0) ^ 2 / (1 + 2 * 0)) with 1 by field. rewrite ln_1. ring. Qed.

Lemma coupling_split v : 0 <= v -> coupling v = ln (1 + v) - / 2 * ln (1 + 2 * v).
Proof.
  intros H. unfold coupling, Rdiv. rewrite ln_mult; [|apply pow_lt; lra|apply Rinv_0_lt_compat; lra].
  rewrite ln_Rinv by lra. replace ((1 + v) ^ 2) with ((1 + v) * (1 + v)) by ring. rewrite ln_mult by lra. field.
Qed.

Lemma coupling_monotone v w : 0 <= v <= w -> coupling v <= coupling w.
Proof.
  intros [A B]. unfold coupling. apply Rmult_le_compat_l; [lra|].
  assert (P : forall x, 0 <= x -> 0 < (1 + x) ^ 2 / (1 + 2 * x)).
  { intros x Hx. apply Rdiv_lt_0_compat; [apply pow_lt|]; lra. }
  destruct (Rle_lt_or_eq_dec v w B) as [L|<-]; [|lra]. left. apply ln_increasing; [apply P; lra|].
  apply Rminus_gt_0_lt. replace ((1 + w) ^ 2 / (1 + 2 * w) - (1 + v) ^ 2 / (1 + 2 * v))
    with ((w - v) * (w + v + 2 * (v * w)) / ((1 + 2 * w) * (1 + 2 * v))) by (field; lra).
  apply Rdiv_lt_0_compat; [apply Rmult_lt_0_compat; nra|nra].
Qed.

Lemma ln_gap v w : 0 <= v <= w -> ln (1 + w) - ln (1 + v) <= w - v.
Proof.
  intros [A B]. destruct (Rle_lt_or_eq_dec v w B) as [L|<-]; [|lra].
  assert (E : ln (1 + w) - ln (1 + v) = ln (1 + (w - v) / (1 + v))).
  { replace (1 + (w - v) / (1 + v)) with ((1 + w) * / (1 + v)) by (field; lra). rewrite ln_mult by (try apply Rinv_0_lt_compat; lra).
    rewrite ln_Rinv by lra. ring. }
  rewrite E. assert (H : 0 < (w - v) / (1 + v)) by (apply Rdiv_lt_0_compat; lra).
  assert (I := exp_ineq1 ((w - v) / (1 + v)) ltac:(lra)). assert (ln (1 + (w - v) / (1 + v)) <= (w - v) / (1 + v)).
  { left. rewrite <- (ln_exp ((w - v) / (1 + v))) at 2. apply ln_increasing; lra. }
  assert ((w - v) / (1 + v) <= w - v); [|lra]. apply (Rmult_le_reg_r (1 + v)); [lra|].
  replace ((w - v) / (1 + v) * (1 + v)) with (w - v) by (field; lra). nra.
Qed.

Lemma coupling_lipschitz v w : 0 <= v <= w -> 0 <= coupling w - coupling v <= w - v.
Proof.
  intros H. assert (M := coupling_monotone v w H). split; [lra|]. rewrite !coupling_split by lra.
  assert (G := ln_gap v w H). assert (ln (1 + 2 * v) <= ln (1 + 2 * w)); [|lra].
  destruct (Rle_lt_or_eq_dec v w ltac:(lra)) as [L|<-]; [|lra]. left. apply ln_increasing; lra.
Qed.

Lemma coupling_abs v w : 0 <= v -> 0 <= w -> Rabs (coupling v - coupling w) <= Rabs (v - w).
Proof.
  intros A B. destruct (Rle_dec v w) as [L|L].
  - assert (H := coupling_lipschitz v w ltac:(lra)). rewrite (Rabs_left1 (v - w)), Rabs_left1 by lra. lra.
  - assert (H := coupling_lipschitz w v ltac:(lra)). rewrite (Rabs_right (v - w)), Rabs_right by lra. lra.
Qed.

(** ** Searching a function of the square *)
Definition gentle (f : R -> R) (d : R) : Prop :=
  (forall x y, 0 <= x <= y -> f x <= f y) /\ forall x y, Rabs (f x - f y) <= d * Rabs (x ^ 2 - y ^ 2).

Lemma gentle_continuous f d : 0 <= d -> gentle f d -> forall x, continuity_pt f x.
Proof.
  intros Hd [_ L] x eps He. set (K := d * (2 * Rabs x + 1) + 1).
  assert (K1 : 1 <= K). { unfold K. assert (0 <= Rabs x) by apply Rabs_pos. nra. }
  exists (Rmin 1 (eps / K)). split.
  { apply Rmin_glb_lt; [lra|]. apply Rdiv_lt_0_compat; lra. }
  intros y [_ Hy]. cbn in Hy |- *. unfold R_dist in *.
  assert (Y1 : Rabs (y - x) < 1) by (eapply Rlt_le_trans; [exact Hy|apply Rmin_l]).
  assert (Y2 : Rabs (y - x) < eps / K) by (eapply Rlt_le_trans; [exact Hy|apply Rmin_r]).
  eapply Rle_lt_trans; [apply L|]. replace (y ^ 2 - x ^ 2) with ((y - x) * (y + x)) by ring. rewrite Rabs_mult.
  assert (S : Rabs (y + x) <= 2 * Rabs x + 1).
  { replace (y + x) with ((y - x) + (x + x)) by ring. eapply Rle_trans; [apply Rabs_triang|].
    assert (Rabs (x + x) <= Rabs x + Rabs x) by apply Rabs_triang. lra. }
  assert (P0 := Rabs_pos (y - x)). assert (P1 := Rabs_pos (y + x)). assert (P2 := Rabs_pos x).
  apply Rle_lt_trans with (Rabs (y - x) * K).
  - unfold K. assert (d * (Rabs (y - x) * Rabs (y + x)) <= d * (Rabs (y - x) * (2 * Rabs x + 1))); [|nra].
    apply Rmult_le_compat_l; [exact Hd|]. apply Rmult_le_compat_l; assumption.
  - apply (Rmult_lt_reg_r (/ K)); [apply Rinv_0_lt_compat; lra|]. rewrite Rmult_assoc, Rinv_r, Rmult_1_r by lra. exact Y2.
Qed.

Lemma steps_limit : IZR (4000000 * 10 ^ 1000) < IZR (2 ^ 5000).
Proof. apply IZR_lt. reflexivity. Qed.
Lemma steps_power n : n = 5000%Z -> 2 ^ Z.to_nat n = IZR (2 ^ n).
Proof. intros H. rewrite (pow_IZR 2), Z2Nat.id; [reflexivity|]. rewrite H. discriminate. Qed.
Lemma steps_enough n d L : L = IZR (10 ^ 1000) -> n = 5000%Z -> 1 <= d <= L -> 10 < 1 / (400000 * d) * 2 ^ Z.to_nat n.
Proof.
  intros HL Hn Hd. rewrite (steps_power n Hn). assert (S := steps_limit). rewrite <- Hn, mult_IZR, <- HL in S. clear HL Hn.
  revert S. generalize (IZR (2 ^ n)). intros P S. apply (Rmult_lt_reg_r (400000 * d)); [lra|].
  replace (1 / (400000 * d) * P * (400000 * d)) with P by (field; lra). lra.
Qed.

Section Search.
  Variable uniform : nat -> R.
  Lemma open_loop func f target delta lo hi n : nondecreasing_on func f lo hi -> forall s s', search_loop func target delta uniform n s = Ok s' ->
    lo <= bs_min s < bs_mid s -> bs_mid s < bs_max s <= hi -> lo < bs_mid s' < hi.
  Proof.
    intros Hf. induction n as [|n IH]; intros s s' H A B; cbn [search_loop] in H; [injection H as <-; lra|].
    rewrite (proj1 Hf) in H by lra. destruct (close _ _ _); [injection H as <-; cbn; lra|].
    apply IH in H; [exact H| |]; cbn [bs_min bs_mid bs_max]; destruct (fl_ltb _ _); lra.
  Qed.
  Lemma open_search func f target delta lo hi n x : lo < hi -> nondecreasing_on func f lo hi ->
    binsearch func target delta uniform lo hi n = Ok (Some x) -> lo < x < hi.
  Proof.
    intros Hl Hf Hc. unfold binsearch in Hc. destruct (search_loop _ _ _ _ _ _) as [s|e] eqn:E; [|discriminate]. cbn [bind] in Hc.
    destruct (close _ _ _); [|discriminate]. injection Hc as <-. eapply open_loop in E; eauto; cbn [bs_min bs_mid bs_max]; lra.
  Qed.
  Lemma away_loop func f target delta lo hi n : nondecreasing_on func f lo hi -> (forall x, lo < x < hi -> ~ within (f x) target delta) ->
    forall s, lo <= bs_min s < bs_mid s -> bs_mid s < bs_max s <= hi -> close (bs_value s) target delta = false ->
    exists s', search_loop func target delta uniform n s = Ok s' /\ close (bs_value s') target delta = false.
  Proof.
    intros Hf N. induction n as [|n IH]; intros s A B C; cbn [search_loop]; [eauto|].
    rewrite (proj1 Hf) by lra. assert (K : close (Fin (f (bs_mid s))) target delta = false).
    { apply not_close. intros r Er. injection Er as <-. apply N. lra. }
    rewrite K. apply IH; cbn [bs_min bs_mid bs_max bs_value]; [| |exact K]; destruct (fl_ltb _ _); lra.
  Qed.
  Lemma away_search func f target delta lo hi n : lo < hi -> nondecreasing_on func f lo hi -> (forall x, lo < x < hi -> ~ within (f x) target delta) ->
    ~ within (-1000000000) target delta -> binsearch func target delta uniform lo hi n = Ok None.
  Proof.
    intros Hl Hf N I. unfold binsearch.
    destruct (away_loop func f target delta lo hi (Z.to_nat n) Hf N
      {| bs_min := lo; bs_max := hi; bs_mid := 1 / 2 * (lo + hi); bs_value := Fin (-1000000000); bs_draws := 0 |})
      as (s & E & C); cbn [bs_min bs_mid bs_max bs_value]; [lra|lra| |rewrite E; cbn [bind]; now rewrite C].
    apply not_close. intros r Er. now injection Er as <-.
  Qed.

  (** Conversion shall not run the search. *)
  Opaque search_loop binsearch.

  Lemma gentle_found func f d t n : 1 <= d -> 10 < 1 / (400000 * d) * 2 ^ Z.to_nat n -> (forall x, 0 < x < 10 -> func x = Ok (Fin (f x))) -> gentle f d ->
    f 0 - 1 / 20000 <= t <= f 10 + 1 / 20000 -> -1000 <= f 0 ->
    exists x, binsearch func t (1 / 10000) uniform 0 10 n = Ok (Some x) /\ 0 < x < 10 /\ within (f x) t (1 / 10000).
  Proof.
    intros Hd S Hv Hg Ht H0. assert (Hf : nondecreasing_on func f 0 10).
    { split; [exact Hv|]. intros x y A B C. apply (proj1 Hg). lra. }
    remember (2 ^ Z.to_nat n) as P eqn:EP in S.
    set (t' := Rmax (f 0) (Rmin t (f 10))).
    assert (M := proj1 Hg 0 10 ltac:(lra)).
    assert (T1 : f 0 <= t' <= f 10).
    { unfold t'. split; [apply Rmax_l|]. apply Rmax_lub; [exact M|apply Rmin_r]. }
    assert (T2 : Rabs (t' - t) <= 1 / 20000).
    { unfold t', Rmax, Rmin. destruct (Rle_dec t (f 10)); destruct (Rle_dec (f 0) _); apply Rabs_le; lra. }
    destruct (f_interv_is_interv f 0 10 t' ltac:(lra) T1 (fun x _ => gentle_continuous f d ltac:(lra) Hg x)) as (x0 & X0 & Ex).
    set (w := 1 / (400000 * d)) in *. assert (W : 0 < w <= 1).
    { unfold w. split; [apply Rdiv_lt_0_compat; lra|]. apply (Rmult_le_reg_r (400000 * d)); [lra|].
      replace (1 / (400000 * d) * (400000 * d)) with 1 by (field; lra). lra. }
    assert (Wd : 20 * d * w = 1 / 20000) by (unfold w; field; lra).
    set (a := if Rle_dec x0 5 then x0 else x0 - w). set (b := if Rle_dec x0 5 then x0 + w else x0).
    assert (AB : b - a = w /\ 0 <= a /\ b <= 10 /\ a <= x0 <= b).
    { unfold a, b. destruct (Rle_dec x0 5); repeat split; lra. }
    destruct (search_complete func t (1 / 10000) uniform f 0 10 a b Hf ltac:(lra) ltac:(lra)) with (n := n) as [x Hx].
    - intros x Hx. assert (L := proj2 Hg x x0). replace (x ^ 2 - x0 ^ 2) with ((x - x0) * (x + x0)) in L by ring.
      rewrite Rabs_mult in L. rewrite (Rabs_right (x + x0)) in L by lra.
      assert (D : Rabs (x - x0) < w) by (apply Rabs_def1; lra).
      assert (Q : d * (Rabs (x - x0) * (x + x0)) < 1 / 20000).
      { rewrite <- Wd. assert (0 <= Rabs (x - x0)) by apply Rabs_pos.
        assert (Rabs (x - x0) * (x + x0) <= Rabs (x - x0) * 20) by (apply Rmult_le_compat_l; lra).
        apply Rle_lt_trans with (d * (Rabs (x - x0) * 20)); [apply Rmult_le_compat_l; lra|]. nra. }
      rewrite Ex in L. assert (Z : Rabs (f x - t') < 1 / 20000) by lra. apply Rabs_def2 in Z.
      unfold within. unfold Rabs in T2. destruct (Rcase_abs (t' - t)); lra.
    - lra.
    - rewrite <- EP. replace (b - a) with w by lra. lra.
    - exists x. split; [exact Hx|]. assert (Rx := open_search func f t (1 / 10000) 0 10 n x ltac:(lra) Hf Hx). split; [exact Rx|].
      apply search_sound in Hx as (v & Ev & Wi); [|unfold within; lra].
      rewrite Hv in Ev by exact Rx. now injection Ev as <-.
  Qed.

  Lemma gentle_away func f d t n : (forall x, 0 < x < 10 -> func x = Ok (Fin (f x))) -> gentle f d ->
    t <= f 0 - 1 / 10000 \/ f 10 + 1 / 10000 <= t -> -999999999 <= t -> binsearch func t (1 / 10000) uniform 0 10 n = Ok None.
  Proof.
    intros Hv Hg Ht Hl. apply away_search with (f := f); [lra| | |unfold within; lra].
    - split; [exact Hv|]. intros x y A B C. apply (proj1 Hg). lra.
    - intros x Hx. unfold within. assert (A := proj1 Hg 0 x ltac:(lra)). assert (B := proj1 Hg x 10 ltac:(lra)). lra.
  Qed.
End Search.

Lemma closed_form d alpha lambd C : has_entries (d + d) C (latent_cov d d alpha lambd 0 lambd) ->
  gaussian_mi (sigma d d C) = pairs_mi d alpha lambd.
Proof. exact (@full_value d alpha lambd C). Qed.

(** ** The tasks *)
Section Tasks.
  Context {J : prng}.
  Variable F : formats.
  Variable eigvals : matrix -> list (R * R).
  Variable mvn : key J -> list R -> matrix -> nat -> matrix.
  Variable uniform : nat -> R.
  Hypothesis He : eigvals_positive eigvals.
  Opaque search_loop binsearch.

  Lemma paired_coupling k s : paired_mi k (strength_correlation s) = INR k * coupling (s ^ 2).
  Proof.
    unfold paired_mi, coupling, strength_correlation. assert (0 <= s ^ 2) by (cbn [pow]; nra). generalize dependent (s ^ 2). intros u Hu.
    replace (1 - (u / (1 + u)) ^ 2) with (/ ((1 + u) ^ 2 / (1 + 2 * u))) by (field; lra).
    rewrite ln_Rinv; [field|]. apply Rdiv_lt_0_compat; [apply pow_lt|]; lra.
  Qed.

  Local Notation made := (latent_task F mvn).

  Lemma all_pairs dim alpha lambd h : (1 <= dim)%Z ->
    made (lvm_task F eigvals mvn dim dim alpha (Some lambd)) h dim dim alpha lambd (pairs_mi (Z.to_nat dim) alpha lambd).
  Proof.
    intros Hd. destruct (latent_build F eigvals mvn He dim dim dim alpha lambd 0 None None h) as (C & HC & B); try lia.
    unfold latent_task, lvm_task. cbn beta iota zeta in *. unfold pairs_mi, coupling. rewrite <- (full_value (d := Z.to_nat dim) HC). exact B.
  Qed.

  Lemma no_pairs dim alpha h : (1 <= dim)%Z ->
    made (lvm_task F eigvals mvn dim 0 alpha (Some 0)) h dim 0 alpha 0 (coupling (INR (Z.to_nat dim) * alpha ^ 2)).
  Proof.
    intros Hd. destruct (latent_build F eigvals mvn He dim dim 0 alpha 0 0 None None h) as (C & HC & B); try lia.
    unfold latent_task, lvm_task. cbn beta iota zeta in *.
    assert (HC' := entries_ext HC (fun i j => @latent_none (Z.to_nat dim) alpha i j)).
    assert (V := full_value (d := Z.to_nat dim) HC'). replace (coupling _) with (gaussian_mi (sigma (Z.to_nat dim) (Z.to_nat dim) C)); [exact B|].
    rewrite V. replace (0 ^ 2) with 0 by ring. fold (coupling 0). fold (coupling (0 + INR (Z.to_nat dim) * alpha ^ 2)).
    rewrite coupling_0, Rplus_0_l. ring.
  Qed.

  Lemma some_pairs dim k lambd h : (1 <= dim)%Z -> (0 <= k <= dim)%Z ->
    made (lvm_task F eigvals mvn dim k 0 (Some lambd)) h dim k 0 lambd (INR (Z.to_nat k) * coupling (lambd ^ 2)).
  Proof.
    intros Hd Hk. destruct (latent_build F eigvals mvn He dim dim k 0 lambd 0 None None h) as (C & HC & B); try lia.
    unfold latent_task, lvm_task. cbn beta iota zeta in *. rewrite <- paired_coupling.
    rewrite <- (few_value (m := Z.to_nat dim) (n := Z.to_nat dim) (k := Z.to_nat k) (C := C)); [exact B|lia|lia|exact HC].
  Qed.

  Lemma made_mi dim k alpha lambd mi h : made (lvm_task F eigvals mvn dim k alpha (Some lambd)) h dim k alpha lambd mi ->
    lvm_mi F eigvals mvn h dim k alpha lambd = Ok (Fin mi).
  Proof.
    intros (h' & t & h2 & m & E & _ & M & _ & _ & _ & _ & Mi & _). unfold lvm_mi, pbind. rewrite E. unfold task_mi, pbind, pret. rewrite M. cbn. now rewrite Mi.
  Qed.

  (** *** Slopes *)
  Lemma square_pos x : 0 <= x ^ 2. Proof. cbn [pow]. nra. Qed.
  Lemma pairs_gentle d alpha : 1 <= INR d -> gentle (fun l => pairs_mi d alpha l) (INR d).
  Proof.
    intros Hd. unfold pairs_mi. assert (A := square_pos alpha). assert (C : 0 <= INR d * alpha ^ 2) by (apply Rmult_le_pos; lra). split.
    - intros x y [H0 H]. assert (S : 0 <= x ^ 2 <= y ^ 2) by (cbn [pow]; nra).
      assert (M1 := coupling_monotone _ _ S). assert (M2 := coupling_monotone (x ^ 2 + INR d * alpha ^ 2) (y ^ 2 + INR d * alpha ^ 2) ltac:(lra)).
      assert ((INR d - 1) * coupling (x ^ 2) <= (INR d - 1) * coupling (y ^ 2)) by (apply Rmult_le_compat_l; lra). lra.
    - intros x y. assert (Sx := square_pos x). assert (Sy := square_pos y).
      assert (M1 := coupling_abs _ _ Sx Sy). assert (M2 := coupling_abs (x ^ 2 + INR d * alpha ^ 2) (y ^ 2 + INR d * alpha ^ 2) ltac:(lra) ltac:(lra)).
      replace (x ^ 2 + INR d * alpha ^ 2 - (y ^ 2 + INR d * alpha ^ 2)) with (x ^ 2 - y ^ 2) in M2 by ring.
      match goal with |- Rabs ?e <= _ =>
        replace e with ((INR d - 1) * (coupling (x ^ 2) - coupling (y ^ 2)) + (coupling (x ^ 2 + INR d * alpha ^ 2) - coupling (y ^ 2 + INR d * alpha ^ 2))) by ring end.
      eapply Rle_trans; [apply Rabs_triang|]. rewrite Rabs_mult, (Rabs_right (INR d - 1)) by lra.
      assert ((INR d - 1) * Rabs (coupling (x ^ 2) - coupling (y ^ 2)) <= (INR d - 1) * Rabs (x ^ 2 - y ^ 2)) by (apply Rmult_le_compat_l; lra). lra.
  Qed.
  Lemma single_gentle d : 0 <= d -> gentle (fun a => coupling (d * a ^ 2)) d.
  Proof.
    intros Hd. split.
    - intros x y [H0 H]. assert (S : 0 <= x ^ 2 <= y ^ 2) by (cbn [pow]; nra). apply coupling_monotone. split.
      + apply Rmult_le_pos; lra.
      + apply Rmult_le_compat_l; lra.
    - intros x y. eapply Rle_trans; [apply coupling_abs; apply Rmult_le_pos; auto using square_pos|].
      rewrite <- Rmult_minus_distr_l, Rabs_mult, (Rabs_right d) by lra. lra.
  Qed.
  Lemma scaled_gentle k d : 0 <= k <= d -> gentle (fun l => k * coupling (l ^ 2)) d.
  Proof.
    intros Hk. split.
    - intros x y [H0 H]. assert (S : 0 <= x ^ 2 <= y ^ 2) by (cbn [pow]; nra). apply Rmult_le_compat_l; [lra|]. now apply coupling_monotone.
    - intros x y. rewrite <- Rmult_minus_distr_l, Rabs_mult, (Rabs_right k) by lra.
      assert (M := coupling_abs _ _ (square_pos x) (square_pos y)). assert (P := Rabs_pos (x ^ 2 - y ^ 2)). assert (P' := Rabs_pos (coupling (x ^ 2) - coupling (y ^ 2))).
      apply Rle_trans with (k * Rabs (x ^ 2 - y ^ 2)); [apply Rmult_le_compat_l; lra|apply Rmult_le_compat_r; lra].
  Qed.
  Lemma coupling_nonneg v : 0 <= v -> 0 <= coupling v.
  Proof. intros H. rewrite <- coupling_0. apply coupling_monotone. lra. Qed.

  Lemma dim_steps dim : (1 <= dim <= 10 ^ 1000)%Z -> 1 <= INR (Z.to_nat dim) /\ 10 < 1 / (400000 * INR (Z.to_nat dim)) * 2 ^ Z.to_nat 5000.
  Proof.
    intros [H1 H2]. assert (E : INR (Z.to_nat dim) = IZR dim) by (rewrite INR_IZR_INZ, Z2Nat.id by lia; reflexivity).
    assert (A : 1 <= IZR dim) by (apply IZR_le; exact H1). assert (B : IZR dim <= IZR (10 ^ 1000)) by (apply IZR_le; exact H2).
    rewrite E. split; [exact A|]. exact (steps_enough _ _ _ eq_refl eq_refl (conj A B)).
  Qed.

  (** *** The three functions *)
  Lemma initial_alpha_found mi dim h : (1 <= dim <= 10 ^ 1000)%Z -> - (1 / 20000) <= mi <= coupling (100 * INR (Z.to_nat dim)) + 1 / 20000 ->
    exists a, get_initial_alpha F eigvals mvn uniform mi dim h = (h, Ok a) /\ 0 < a < 10 /\
      within (coupling (INR (Z.to_nat dim) * a ^ 2)) mi (1 / 10000).
  Proof.
    intros Hdim Hmi. destruct (dim_steps dim Hdim) as [D1 D2]. destruct Hdim as [Hd _].
    destruct (gentle_found uniform (fun a => lvm_mi F eigvals mvn h dim 0 a 0) (fun a => coupling (INR (Z.to_nat dim) * a ^ 2)) (INR (Z.to_nat dim)) mi 5000 D1 D2)
      as (a & E & Ra & W).
    - intros a _. apply made_mi, no_pairs, Hd.
    - apply single_gentle. lra.
    - replace (INR (Z.to_nat dim) * 0 ^ 2) with 0 by ring. replace (INR (Z.to_nat dim) * 10 ^ 2) with (100 * INR (Z.to_nat dim)) by ring.
      rewrite coupling_0. lra.
    - replace (INR (Z.to_nat dim) * 0 ^ 2) with 0 by ring. rewrite coupling_0. lra.
    - exists a. split; [|split; [exact Ra|exact W]]. unfold get_initial_alpha, pbind, lift, pret. rewrite E.
      destruct (Req_EM_T a 0); [lra|reflexivity].
  Qed.
  Lemma initial_alpha_none mi dim h : (1 <= dim)%Z -> -999999999 <= mi <= - (1 / 10000) \/ coupling (100 * INR (Z.to_nat dim)) + 1 / 10000 <= mi ->
    get_initial_alpha F eigvals mvn uniform mi dim h = (h, Err AssertionError).
  Proof.
    intros Hd Hmi. assert (P := pos_INR (Z.to_nat dim)). assert (Q := coupling_nonneg (100 * INR (Z.to_nat dim)) ltac:(lra)).
    unfold get_initial_alpha, pbind, lift, pret.
    rewrite (gentle_away uniform (fun a => lvm_mi F eigvals mvn h dim 0 a 0) (fun a => coupling (INR (Z.to_nat dim) * a ^ 2)) (INR (Z.to_nat dim)) mi 5000); [reflexivity|..].
    - intros a _. apply made_mi, no_pairs, Hd.
    - now apply single_gentle.
    - replace (INR (Z.to_nat dim) * 0 ^ 2) with 0 by ring. replace (INR (Z.to_nat dim) * 10 ^ 2) with (100 * INR (Z.to_nat dim)) by ring.
      rewrite coupling_0. lra.
    - lra.
  Qed.

  Lemma pairs_at_0 d alpha : pairs_mi d alpha 0 = coupling (INR d * alpha ^ 2).
  Proof. unfold pairs_mi. replace (0 ^ 2) with 0 by ring. rewrite coupling_0, Rplus_0_l. ring. Qed.

  Lemma lambda_found mi dim alpha h : (1 <= dim <= 10 ^ 1000)%Z ->
    pairs_mi (Z.to_nat dim) alpha 0 - 1 / 20000 <= mi <= pairs_mi (Z.to_nat dim) alpha 10 + 1 / 20000 ->
    exists l, 0 < l < 10 /\ within (pairs_mi (Z.to_nat dim) alpha l) mi (1 / 10000) /\
      made (get_lambda_task F eigvals mvn uniform mi dim alpha) h dim dim alpha l (pairs_mi (Z.to_nat dim) alpha l).
  Proof.
    intros Hdim Hmi. destruct (dim_steps dim Hdim) as [D1 D2]. destruct Hdim as [Hd _].
    destruct (gentle_found uniform (fun l => lvm_mi F eigvals mvn h dim dim alpha l) (fun l => pairs_mi (Z.to_nat dim) alpha l) (INR (Z.to_nat dim)) mi 5000 D1 D2)
      as (l & E & Rl & W).
    - intros l _. apply made_mi, all_pairs, Hd.
    - now apply pairs_gentle.
    - exact Hmi.
    - rewrite pairs_at_0. assert (0 <= coupling (INR (Z.to_nat dim) * alpha ^ 2)); [|lra].
      apply coupling_nonneg, Rmult_le_pos; [lra|apply square_pos].
    - exists l. split; [exact Rl|]. split; [exact W|]. assert (M := all_pairs dim alpha l h Hd).
      unfold latent_task, builds in M |- *. unfold get_lambda_task, pbind at 1, lift. rewrite E. exact M.
  Qed.
  Lemma lambda_none mi dim alpha h : (1 <= dim)%Z ->
    -999999999 <= mi <= pairs_mi (Z.to_nat dim) alpha 0 - 1 / 10000 \/ pairs_mi (Z.to_nat dim) alpha 10 + 1 / 10000 <= mi ->
    get_lambda_task F eigvals mvn uniform mi dim alpha h = (h, Err AssertionError).
  Proof.
    intros Hd Hmi. assert (P := pos_INR (Z.to_nat dim)). unfold get_lambda_task, pbind, lift, pret.
    assert (D1 : 1 <= INR (Z.to_nat dim)) by (change 1 with (INR 1); apply le_INR; lia).
    assert (G := pairs_gentle (Z.to_nat dim) alpha D1).
    assert (Z0 : 0 <= pairs_mi (Z.to_nat dim) alpha 0).
    { rewrite pairs_at_0. apply coupling_nonneg, Rmult_le_pos; [lra|apply square_pos]. }
    assert (Z1 := proj1 G 0 10 ltac:(lra)). cbv beta in Z1.
    rewrite (gentle_away uniform (fun l => lvm_mi F eigvals mvn h dim dim alpha l) (fun l => pairs_mi (Z.to_nat dim) alpha l) (INR (Z.to_nat dim)) mi 5000).
    - unfold lvm_task, pbind, lift. rewrite lvm_parameters_ok by lia. reflexivity.
    - intros l _. apply made_mi, all_pairs, Hd.
    - exact G.
    - lra.
    - lra.
  Qed.

  Lemma interacting_found mi dim k h : (1 <= dim <= 10 ^ 1000)%Z -> (0 <= k <= dim)%Z ->
    - (1 / 20000) <= mi <= INR (Z.to_nat k) * coupling 100 + 1 / 20000 ->
    exists l, 0 < l < 10 /\ within (INR (Z.to_nat k) * coupling (l ^ 2)) mi (1 / 10000) /\
      made (get_n_interacting_task F eigvals mvn uniform mi dim k) h dim k 0 l (INR (Z.to_nat k) * coupling (l ^ 2)).
  Proof.
    intros Hdim Hk Hmi. destruct (dim_steps dim Hdim) as [D1 D2]. destruct Hdim as [Hd _].
    destruct (gentle_found uniform (fun l => lvm_mi F eigvals mvn h dim k 0 l) (fun l => INR (Z.to_nat k) * coupling (l ^ 2)) (INR (Z.to_nat dim)) mi 5000 D1 D2)
      as (l & E & Rl & W).
    - intros l _. now apply made_mi, some_pairs.
    - apply scaled_gentle. split; [apply pos_INR|]. apply le_INR. lia.
    - replace (0 ^ 2) with 0 by ring. replace (10 ^ 2) with 100 by ring. rewrite coupling_0. lra.
    - replace (0 ^ 2) with 0 by ring. rewrite coupling_0. lra.
    - exists l. split; [exact Rl|]. split; [exact W|]. assert (M := some_pairs dim k l h Hd Hk).
      unfold latent_task, builds in M |- *. unfold get_n_interacting_task, pbind at 1, lift. rewrite E. exact M.
  Qed.
  Lemma interacting_none mi dim k h : (1 <= dim)%Z -> (0 <= k <= dim)%Z ->
    -999999999 <= mi <= - (1 / 10000) \/ INR (Z.to_nat k) * coupling 100 + 1 / 10000 <= mi ->
    get_n_interacting_task F eigvals mvn uniform mi dim k h = (h, Err AssertionError).
  Proof.
    intros Hd Hk Hmi. unfold get_n_interacting_task, pbind, lift, pret.
    assert (C0 : 0 <= INR (Z.to_nat k) * coupling 100) by (apply Rmult_le_pos; [apply pos_INR|apply coupling_nonneg; lra]).
    rewrite (gentle_away uniform (fun l => lvm_mi F eigvals mvn h dim k 0 l) (fun l => INR (Z.to_nat k) * coupling (l ^ 2)) (INR (Z.to_nat dim)) mi 5000).
    - unfold lvm_task, pbind, lift. rewrite lvm_parameters_ok by lia. reflexivity.
    - intros l _. now apply made_mi, some_pairs.
    - apply scaled_gentle. split; [apply pos_INR|]. apply le_INR. lia.
    - replace (0 ^ 2) with 0 by ring. replace (10 ^ 2) with 100 by ring. rewrite coupling_0. lra.
    - lra.
  Qed.
  Lemma interacting_reject mi dim k h : (k < 0 \/ dim < k)%Z -> ~ within (-1000000000) mi (1 / 10000) ->
    get_n_interacting_task F eigvals mvn uniform mi dim k h = (h, Err ValueError).
  Proof.
    intros Hk Hw. unfold get_n_interacting_task, pbind, lift, pret.
    assert (E : forall l, lvm_mi F eigvals mvn h dim k 0 l = Err ValueError).
    { intros l. unfold lvm_mi, lvm_task, pbind, task_multinormal_lvm, lift. rewrite parameters_reject by lia. reflexivity. }
    rewrite search_none; [|exact Hw|intros x e; rewrite E; congruence|].
    - unfold lvm_task, pbind, lift. rewrite parameters_reject by lia. reflexivity.
    - intros x v. rewrite E. discriminate.
  Qed.
End Tasks.

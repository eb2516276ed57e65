(** The path of the search for the first alpha of the figure of sparsity. *)
From Coq Require Import Lia Lra.
From Verif Require Import Base BaseLemmas UtilsModel UtilsSpec JaxModel SamplersModel GaussianModel MatrixUtilsModel BenchmarkModel BenchmarkSpec TasksModel TasksSpec HighMiModel HighMiSpec HighMiThms BasicSpec
  TasksGaussian SparsityModel SparsitySpec SparsityThms.
Open Scope R_scope.

(** ** Bounds of the exponential *)
Lemma sign_of_slope f f' : (forall x, derivable_pt_lim f x (f' x)) -> (forall x, 0 <= f' x) -> f 0 = 0 -> (forall x, 0 <= x -> 0 <= f x) /\ (forall x, x <= 0 -> f x <= 0).
Proof.
  intros D P Z. split; intros x H.
  - destruct (Req_dec x 0) as [->|N]; [lra|]. destruct (MVT_cor2 f f' 0 x) as (c & E & _); [lra|intros; apply D|]. specialize (P c). nra.
  - destruct (Req_dec x 0) as [->|N]; [lra|]. destruct (MVT_cor2 f f' x 0) as (c & E & _); [lra|intros; apply D|]. specialize (P c). nra.
Qed.
Lemma valley_of_slope f f' : (forall x, derivable_pt_lim f x (f' x)) -> (forall x, 0 <= x -> 0 <= f' x) -> (forall x, x <= 0 -> f' x <= 0) -> f 0 = 0 -> forall x, 0 <= f x.
Proof.
  intros D P N Z x. destruct (Rtotal_order x 0) as [H|[->|H]]; [|lra|].
  - destruct (MVT_cor2 f f' x 0) as (c & E & Hc); [lra|intros; apply D|]. specialize (N c). nra.
  - destruct (MVT_cor2 f f' 0 x) as (c & E & Hc); [lra|intros; apply D|]. specialize (P c). nra.
Qed.
Lemma exp_above_1 x : 1 + x <= exp x.
Proof. destruct (Req_dec x 0) as [->|N]; [rewrite exp_0; lra|]. left. now apply exp_ineq1. Qed.
Lemma power_slope x : derivable_pt_lim (fun x => x ^ 2) x (2 * x) /\ derivable_pt_lim (fun x => x ^ 3) x (3 * x ^ 2).
Proof. split; [replace (2 * x) with (INR 2 * x ^ 1) by (cbn; ring)|replace (3 * x ^ 2) with (INR 3 * x ^ 2) by (cbn; ring)]; [apply (derivable_pt_lim_pow x 2)|apply (derivable_pt_lim_pow x 3)]. Qed.
Lemma exp_above_3 x : 1 + x + x ^ 2 / 2 + x ^ 3 / 6 <= exp x.
Proof.
  assert (S := sign_of_slope (fun x => exp x - (1 + x + / 2 * x ^ 2)) (fun x => exp x - (1 + x))). destruct S as [S1 S2].
  - intros y. apply derivable_pt_lim_minus; [apply derivable_pt_lim_exp|]. replace (1 + y) with (0 + 1 + / 2 * (2 * y)) by field.
    apply derivable_pt_lim_plus; [apply derivable_pt_lim_plus; [apply derivable_pt_lim_const|apply derivable_pt_lim_id]|].
    apply (derivable_pt_lim_scal (fun x => x ^ 2)). apply power_slope.
  - intros y. assert (H := exp_above_1 y). lra.
  - rewrite exp_0. lra.
  - assert (V := valley_of_slope (fun x => exp x - (1 + x + / 2 * x ^ 2 + / 6 * x ^ 3)) (fun x => exp x - (1 + x + / 2 * x ^ 2))). cbv beta in *.
    assert (0 <= exp x - (1 + x + / 2 * x ^ 2 + / 6 * x ^ 3)); [|lra]. apply V; [|exact S1|exact S2|rewrite exp_0; lra].
    intros y. apply derivable_pt_lim_minus; [apply derivable_pt_lim_exp|]. replace (1 + y + / 2 * y ^ 2) with (0 + 1 + / 2 * (2 * y) + / 6 * (3 * y ^ 2)) by field.
    apply derivable_pt_lim_plus; [apply derivable_pt_lim_plus; [apply derivable_pt_lim_plus; [apply derivable_pt_lim_const|apply derivable_pt_lim_id]|]|].
    + apply (derivable_pt_lim_scal (fun x => x ^ 2)). apply power_slope.
    + apply (derivable_pt_lim_scal (fun x => x ^ 3)). apply power_slope.
Qed.
Lemma square_above x a b : 0 <= a -> a <= exp x -> b <= a * a -> b <= exp (2 * x).
Proof. intros P A B. replace (2 * x) with (x + x) by ring. rewrite exp_plus. nra. Qed.
Lemma exp_2_above : 7389037367 / 1000000000 <= exp 2.
Proof.
  assert (H := exp_above_3 (1 / 32)). assert (H0 : 1031743367 / 1000000000 <= exp (1 / 32)) by lra. clear H.
  assert (H1 : 1703191 / 1600000 <= exp (2 * (1 / 32))) by (eapply square_above; [|exact H0|]; lra).
  assert (H2 : 566574137 / 500000000 <= exp (2 * (2 * (1 / 32)))) by (eapply square_above; [|exact H1|]; lra).
  assert (H3 : 128402501 / 100000000 <= exp (2 * (2 * (2 * (1 / 32))))) by (eapply square_above; [|exact H2|]; lra).
  assert (H4 : 824360113 / 500000000 <= exp (2 * (2 * (2 * (2 * (1 / 32)))))) by (eapply square_above; [|exact H3|]; lra).
  assert (H5 : 2718278383 / 1000000000 <= exp (2 * (2 * (2 * (2 * (2 * (1 / 32))))))) by (eapply square_above; [|exact H4|]; lra).
  replace 2 with (2 * (2 * (2 * (2 * (2 * (2 * (1 / 32))))))) by lra. eapply square_above; [|exact H5|]; lra.
Qed.
Lemma exp_minus_2_above : 27066983 / 200000000 <= exp (- 2).
Proof.
  assert (H := exp_above_3 (- (1 / 32))). assert (H0 : 484616597 / 500000000 <= exp (- (1 / 32))) by lra. clear H.
  assert (H1 : 117426623 / 125000000 <= exp (2 * (- (1 / 32)))) by (eapply square_above; [|exact H0|]; lra).
  assert (H2 : 441248377 / 500000000 <= exp (2 * (2 * (- (1 / 32))))) by (eapply square_above; [|exact H1|]; lra).
  assert (H3 : 19470013 / 25000000 <= exp (2 * (2 * (2 * (- (1 / 32)))))) by (eapply square_above; [|exact H2|]; lra).
  assert (H4 : 606530249 / 1000000000 <= exp (2 * (2 * (2 * (2 * (- (1 / 32))))))) by (eapply square_above; [|exact H3|]; lra).
  assert (H5 : 183939471 / 500000000 <= exp (2 * (2 * (2 * (2 * (2 * (- (1 / 32)))))))) by (eapply square_above; [|exact H4|]; lra).
  replace (- 2) with (2 * (2 * (2 * (2 * (2 * (2 * (- (1 / 32)))))))) by lra. eapply square_above; [|exact H5|]; lra.
Qed.
Lemma exp_near_2_above e : -1 <= e -> 7389037367 / 1000000000 * (1 + e) <= exp (2 + e).
Proof. intros H. rewrite exp_plus. assert (A := exp_2_above). assert (B := exp_above_1 e). apply Rmult_le_compat; lra. Qed.
Lemma exp_near_2_below e : e < 1 -> exp (2 + e) <= / (27066983 / 200000000 * (1 - e)).
Proof.
  intros H. replace (2 + e) with (- (- 2 + - e)) by ring. rewrite exp_Ropp, exp_plus. assert (A := exp_minus_2_above). assert (B := exp_above_1 (- e)).
  apply Rinv_le_contravar; [lra|]. apply Rmult_le_compat; lra.
Qed.

(** ** Values of the coupling around 1 *)
Lemma quotient_pos v : 0 <= v -> 0 < (1 + v) ^ 2 / (1 + 2 * v).
Proof. intros H. apply Rdiv_lt_0_compat; [|lra]. cbn [pow]. nra. Qed.
Lemma quotient_le v q : 0 <= v -> q * (1 + 2 * v) <= (1 + v) ^ 2 -> q <= (1 + v) ^ 2 / (1 + 2 * v).
Proof. intros H E. apply Rmult_le_reg_r with (1 + 2 * v); [lra|]. unfold Rdiv. rewrite Rmult_assoc, Rinv_l by lra. lra. Qed.
Lemma quotient_ge v q : 0 <= v -> (1 + v) ^ 2 <= q * (1 + 2 * v) -> (1 + v) ^ 2 / (1 + 2 * v) <= q.
Proof. intros H E. apply Rmult_le_reg_r with (1 + 2 * v); [lra|]. unfold Rdiv. rewrite Rmult_assoc, Rinv_l by lra. lra. Qed.
Lemma coupling_above v t : 0 <= v -> exp (2 * t) <= (1 + v) ^ 2 / (1 + 2 * v) -> t <= coupling v.
Proof.
  intros H E. unfold coupling. assert (2 * t <= ln ((1 + v) ^ 2 / (1 + 2 * v))); [|lra]. rewrite <- (ln_exp (2 * t)).
  destruct E as [E|E]; [left; apply ln_increasing; [apply exp_pos|exact E]|rewrite E; lra].
Qed.
Lemma coupling_below v t : 0 <= v -> (1 + v) ^ 2 / (1 + 2 * v) <= exp (2 * t) -> coupling v <= t.
Proof.
  intros H E. unfold coupling. assert (ln ((1 + v) ^ 2 / (1 + 2 * v)) <= 2 * t); [|lra]. rewrite <- (ln_exp (2 * t)).
  destruct E as [E|E]; [left; apply ln_increasing; [now apply quotient_pos|exact E]|rewrite E; lra].
Qed.
Lemma coupling_high v : 0 <= v -> 73906 / 10000 * (1 + 2 * v) <= (1 + v) ^ 2 -> 1 + 1 / 10000 <= coupling v.
Proof.
  intros H E. apply coupling_above; [exact H|]. apply Rle_trans with (73906 / 10000); [|now apply quotient_le].
  replace (2 * (1 + 1 / 10000)) with (2 + 1 / 5000) by lra. eapply Rle_trans; [apply exp_near_2_below; lra|lra].
Qed.
Lemma coupling_low v : 0 <= v -> (1 + v) ^ 2 <= 73875 / 10000 * (1 + 2 * v) -> coupling v <= 1 - 1 / 10000.
Proof.
  intros H E. apply coupling_below; [exact H|]. apply Rle_trans with (73875 / 10000); [now apply quotient_ge|].
  replace (2 * (1 - 1 / 10000)) with (2 + - (1 / 5000)) by lra. eapply Rle_trans; [|apply exp_near_2_above; lra]. lra.
Qed.
Lemma coupling_there : let v := 10 * (18865 / 16384) ^ 2 in 1 - 99 / 1000000 <= coupling v <= 1.
Proof.
  cbv zeta. split.
  - apply coupling_above; [lra|]. apply Rle_trans with (73877 / 10000); [|apply quotient_le; lra].
    replace (2 * (1 - 99 / 1000000)) with (2 + - (99 / 500000)) by lra. eapply Rle_trans; [apply exp_near_2_below; lra|]. replace (27066983 / 200000000 * (1 - - (99 / 500000))) with (27066983 * 500099 / 100000000000000) by lra. lra.
  - apply coupling_below; [lra|]. apply Rle_trans with (7389 / 1000); [apply quotient_ge; lra|].
    assert (A := exp_2_above). rewrite Rmult_1_r. lra.
Qed.

(** ** The steps *)
Section Path.
  Variables (func : R -> result fl) (uniform : nat -> R) (f : R -> R).
  Hypothesis Hv : forall x, 0 < x < 10 -> func x = Ok (Fin (f x)).
  Lemma step_down n a b m v i m' : 0 < m < 10 -> 1 + 1 / 10000 <= f m -> m' = 1 / 2 * (m + a) ->
    exists v', search_loop func 1 (1 / 10000) uniform (S n) {| bs_min := a; bs_max := b; bs_mid := m; bs_value := v; bs_draws := i |} =
      search_loop func 1 (1 / 10000) uniform n {| bs_min := a; bs_max := m; bs_mid := m'; bs_value := v'; bs_draws := i |}.
  Proof.
    intros H Hf ->. exists (Fin (f m)). cbn [search_loop bs_mid bs_min bs_max bs_draws]. rewrite Hv by exact H. unfold close, fl_ltb, Rltb.
    destruct (Rlt_dec (Rabs (f m - 1)) (1 / 10000)) as [L|_]; [apply Rabs_def2 in L; lra|]. destruct (Rlt_dec 1 (f m)); [reflexivity|lra].
  Qed.
  Lemma step_up n a b m v i m' : 0 < m < 10 -> f m <= 1 - 1 / 10000 -> m' = 1 / 2 * (b + m) ->
    exists v', search_loop func 1 (1 / 10000) uniform (S n) {| bs_min := a; bs_max := b; bs_mid := m; bs_value := v; bs_draws := i |} =
      search_loop func 1 (1 / 10000) uniform n {| bs_min := m; bs_max := b; bs_mid := m'; bs_value := v'; bs_draws := i |}.
  Proof.
    intros H Hf ->. exists (Fin (f m)). cbn [search_loop bs_mid bs_min bs_max bs_draws]. rewrite Hv by exact H. unfold close, fl_ltb, Rltb.
    destruct (Rlt_dec (Rabs (f m - 1)) (1 / 10000)) as [L|_]; [apply Rabs_def2 in L; lra|]. destruct (Rlt_dec 1 (f m)); [lra|reflexivity].
  Qed.
  Lemma step_stop n a b m v i : 0 < m < 10 -> 1 - 1 / 10000 < f m < 1 + 1 / 10000 ->
    search_loop func 1 (1 / 10000) uniform (S n) {| bs_min := a; bs_max := b; bs_mid := m; bs_value := v; bs_draws := i |} =
      Ok {| bs_min := a; bs_max := b; bs_mid := m; bs_value := Fin (f m); bs_draws := i |} /\ close (Fin (f m)) 1 (1 / 10000) = true.
  Proof.
    intros H Hf. cbn [search_loop bs_mid bs_min bs_max bs_draws]. rewrite Hv by exact H. unfold close, Rltb.
    destruct (Rlt_dec (Rabs (f m - 1)) (1 / 10000)) as [_|L]; [split; reflexivity|]. exfalso. apply L, Rabs_def1; lra.
  Qed.
  Hypothesis Hc : forall x, f x = coupling (10 * x ^ 2).
  Ltac down m := edestruct (step_down) with (m' := m) as [? ->]; [| |lra|]; [lra|rewrite Hc; apply coupling_high; lra|].
  Ltac up m := edestruct (step_up) with (m' := m) as [? ->]; [| |lra|]; [lra|rewrite Hc; apply coupling_low; lra|].
  Lemma path : binsearch func 1 (1 / 10000) uniform 0 10 5000 = Ok (Some (18865 / 16384)).
  Proof.
    unfold binsearch. replace (Z.to_nat 5000) with (S (S (S (S (S (S (S (S (S (S (S (S (S (S (S (Z.to_nat 4985)))))))))))))))) by lia.
    remember (Z.to_nat 4985) as N eqn:EN. clear EN.
    replace (1 / 2 * (0 + 10)) with 5 by lra.
    down (5 / 2). down (5 / 4). down (5 / 8). up (15 / 16). up (35 / 32). up (75 / 64). down (145 / 128). up (295 / 256). down (585 / 512). up (1175 / 1024). up (2355 / 2048).
    up (4715 / 4096). up (9435 / 8192). down (18865 / 16384).
    edestruct step_stop as [-> C]; [| |cbn [bind bs_value bs_mid]; rewrite C; reflexivity]; [lra|].
    rewrite Hc. assert (T := coupling_there). cbv zeta in T. lra.
  Qed.
End Path.

Section Initial.
  Context {J : prng}.
  Variables (F : formats) (eigvals : matrix -> list (R * R)) (mvn : key J -> list R -> matrix -> nat -> matrix) (uniform : nat -> R).
  Hypothesis He : eigvals_positive eigvals.
  Theorem initial_alpha_is h : get_initial_alpha F eigvals mvn uniform 1 10 h = (h, Ok (18865 / 16384)).
  Proof.
    unfold get_initial_alpha, pbind, lift, pret. rewrite (path _ uniform (fun a => coupling (INR (Z.to_nat 10) * a ^ 2))).
    - destruct (Req_EM_T (18865 / 16384) 0); [lra|reflexivity].
    - intros a _. apply (made_mi F eigvals mvn), no_pairs; [exact He|lia].
    - intros x. cbv beta. replace (INR (Z.to_nat 10)) with 10; [reflexivity|]. rewrite INR_IZR_INZ, Z2Nat.id by lia. reflexivity.
  Qed.
End Initial.

(** The correlations behind the sparse tasks, entry by entry. *)
From Verif Require Import Base BaseLemmas UtilsModel JaxModel SamplersModel GaussianModel MatrixUtilsModel TasksModel MatrixUtilsSpec
  MatrixUtilsProofs LvmProofs.
Open Scope R_scope.
Local Notation length := List.length.

Lemma all_finite_inv row : forall r, all_finite row = Some r -> row = map Fin r.
Proof.
  induction row as [|[v| | |] row IH]; cbn [all_finite]; intros r E; try discriminate.
  - now injection E as <-.
  - destruct (all_finite row) as [r'|]; [|discriminate]. injection E as <-. cbn [map]. f_equal. auto.
Qed.

Lemma finite_matrix_inv c : forall m, finite_matrix c = Ok m -> c = map (map Fin) m.
Proof.
  induction c as [|row c IH]; cbn [finite_matrix]; intros m E.
  - now injection E as <-.
  - destruct (all_finite row) as [r|] eqn:Er; [|discriminate]. destruct (finite_matrix c) as [rs|]; [|discriminate].
    injection E as <-. cbn [map]. f_equal; [now apply all_finite_inv | auto].
Qed.

Lemma sparse_lvm_entries dx dy k s p c : lvm_parameters dx dy k 0 s 0 s = Ok p -> lvm_correlation_matrix p = Ok c ->
  has_entries (Z.to_nat dx + Z.to_nat dy) c
    (block_correlation (Z.to_nat dx) (Z.to_nat k) (s ^ 2 / (1 + s ^ 2)) 0 0).
Proof.
  intros Hp Hc. unfold lvm_parameters in Hp.
  destruct (lvm_init_spec dx dy k 0 s 1 None 0 None s None) as (_ & _ & Hspec). cbv zeta in Hspec.
  destruct (Hspec p Hp) as (Hv & F1 & F2 & F3 & F4 & F5 & F6 & F7 & F8 & [F9|[_ F9]] & [F10|[_ F10]] & [F11|[_ F11]]);
    try discriminate.

  unfold lvm_correlation_matrix in Hc. destruct (correlation p) as [c'|] eqn:Ec; [|discriminate]. cbn [bind] in Hc.
  apply finite_matrix_inv in Hc. destruct (correlation_entries p c' Hv Ec) as [Hl He]. subst c'.
  replace (Z.to_nat dx) with (lv_dim_x p) by lia. replace (Z.to_nat dy) with (lv_dim_y p) by lia.
  replace (Z.to_nat k) with (lv_n_interacting p) by lia. destruct Hv as [Hx Hy].
  rewrite map_length in Hl. assert (S2 := pow2_ge_0 s).
  assert (Hd : forall i, cov_entry p i i = 1 + s ^ 2).
  { intros i. unfold cov_entry. rewrite F4, F5, F6, F7, F8, F9, F10, F11. cases; ring. }
  assert (Hr : forall i, (i < lv_dim_x p + lv_dim_y p)%nat -> length (nth i c []) = (lv_dim_x p + lv_dim_y p)%nat).
  { intros i Hi. destruct (He i i Hi Hi) as [E _]. change (@nil fl) with (map Fin []) in E. rewrite map_nth in E.
    now rewrite map_length in E. }
  split.
  - apply shape_rows. auto.
  - intros i j Hi Hj. destruct (He i j Hi Hj) as [_ E]. rewrite !Hd, sqrt_same in E by lra. rewrite np_div_value in E by lra.
    change (@nil fl) with (map Fin []) in E. rewrite map_nth in E.
    rewrite (nth_indep _ NaN (Fin 0)) in E by (rewrite map_length, Hr; auto). rewrite map_nth in E. injection E as E.
    unfold entry. rewrite E. unfold cov_entry, block_correlation. rewrite F4, F5, F6, F7, F8, F9, F10, F11.
    cases; try subst; field; lra.
Qed.

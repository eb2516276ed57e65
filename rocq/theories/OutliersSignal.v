(** The correlation matrix of the signal. *)
From Coq Require Import String Lia Lra.
From Verif Require Import Base BaseLemmas UtilsModel JaxModel SamplersModel GaussianModel MatrixUtilsModel BmmModel MultivariateModel BenchmarkModel
  TasksModel MixturesModel PaperModel OutliersModel OutliersSpec MatrixUtilsSpec MatrixUtilsProofs LvmProofs MixturesLvm.
Open Scope R_scope.
Local Notation length := List.length.

Lemma four_by_four (c : matrix) : has_entries 4 c (fun i j => entry c i j) ->
  c = map (fun i => map (fun j => entry c i j) (seq 0 4)) (seq 0 4).
Proof.
  intros [S _]. unfold has_shape in S. destruct c as [|r1 [|r2 [|r3 [|r4 [|r5 c]]]]]; try discriminate.
  destruct r1 as [|a1 [|a2 [|a3 [|a4 [|]]]]]; try discriminate.
  destruct r2 as [|b1 [|b2 [|b3 [|b4 [|]]]]]; try discriminate.
  destruct r3 as [|c1 [|c2 [|c3 [|c4 [|]]]]]; try discriminate.
  destruct r4 as [|d1 [|d2 [|d3 [|d4 [|]]]]]; try discriminate. reflexivity.
Qed.

Lemma signal_value c : signal_cov_matrix = Ok c -> c = signal_correlation.
Proof.
  unfold signal_cov_matrix. destruct (sparse_init 2 2 2 (1 / 10) 2 1 None) as [p|] eqn:Ep; [|discriminate]. cbn [bind]. intros Hc.
  unfold sparse_init in Ep. cbn [default] in Ep.
  destruct (lvm_init_spec 2 2 2 0 2 1 (Some 1) (1 / 10) (Some (1 / 10)) 2 (Some 2)) as (_ & _ & Hspec). cbv zeta in Hspec.
  destruct (Hspec p Ep) as (Hv & _). clear Hspec.
  unfold lvm_correlation_matrix in Hc. destruct (correlation p) as [c'|] eqn:Ec; [|discriminate]. cbn [bind] in Hc.
  apply finite_matrix_inv in Hc. destruct (correlation_entries p c' Hv Ec) as [Hl He]. subst c'.
  assert (P : p = {| lv_dim_x := 2; lv_dim_y := 2; lv_n_interacting := 2; lv_alpha := 0; lv_lambd := 2; lv_epsilon_x := 1; lv_epsilon_y := 1;
    lv_beta_x := 1 / 10; lv_beta_y := 1 / 10; lv_eta_x := 2; lv_eta_y := 2 |}) by (cbn in Ep; injection Ep as <-; reflexivity).
  clear Ep. assert (Hd : forall i, (i < 4)%nat -> cov_entry p i i = 501 / 100).
  { intros i Hi. rewrite P. unfold cov_entry. cbn. do 4 (destruct i as [|i]; [cbn; field|]). lia. }
  rewrite map_length, P in Hl. cbn in Hl.
  assert (D1 : lv_dim_x p = 2%nat) by now rewrite P. assert (D2 : lv_dim_y p = 2%nat) by now rewrite P. rewrite D1, D2 in He. cbn [Nat.add] in He.
  assert (Hr : forall i, (i < 4)%nat -> length (nth i c []) = 4%nat).
  { intros i Hi. destruct (He i i Hi Hi) as [E _]. change (@nil fl) with (map Fin []) in E. rewrite map_nth in E.
    now rewrite map_length in E. }
  assert (V : forall i j, (i < 4)%nat -> (j < 4)%nat -> entry c i j = cov_entry p i j / (501 / 100)).
  { intros i j Hi Hj. destruct (He i j Hi Hj) as [_ E]. rewrite !Hd, sqrt_same in E by (auto; lra). rewrite np_div_value in E by lra.
    change (@nil fl) with (map Fin []) in E. rewrite map_nth in E.
    rewrite (nth_indep _ NaN (Fin 0)) in E by (rewrite map_length, Hr; auto). rewrite map_nth in E. injection E as E. exact E. }
  rewrite (four_by_four c); [|split; [apply shape_rows; auto|reflexivity]].
  cbn [map seq]. rewrite !V by lia. rewrite P. unfold signal_correlation, cov_entry. cbn.
  repeat apply (f_equal2 cons); try reflexivity; field.
Qed.

(** Proofs about the variational objectives. *)
From Verif Require Import Base BaseLemmas KsgThms PluginProofs ObjectivesModel ObjectivesSpec.
Open Scope R_scope.

Lemma fl_log_pos s : 0 < s -> fl_log s = Fin (ln s).
Proof. intros H. unfold fl_log. now rewrite (proj2 (Rltb_true 0 s) H). Qed.

Lemma rsum_pos l : l <> [] -> Forall (fun v => 0 < v) l -> 0 < rsum l.
Proof.
  intros Hl H. destruct l as [|a l]; [congruence|]. inversion H; subst. rewrite rsum_cons.
  assert (0 <= rsum l); [|lra]. apply rsum_nonneg. eapply Forall_impl; [|eassumption]. simpl; intros; lra.
Qed.

Lemma rsum_exp_pos {A} (g : A -> R) l : l <> [] -> 0 < rsum (map (fun a => exp (g a)) l).
Proof.
  intros H. apply rsum_pos; [destruct l; [congruence|discriminate]|].
  apply Forall_map, Forall_forall. intros. apply exp_pos.
Qed.

Lemma fl_mean_Fin l : l <> [] -> fl_mean (map Fin l) = Fin (rmean l).
Proof. intros H. unfold fl_mean, rmean. rewrite fl_sum_Fin, map_length. reflexivity. Qed.

Lemma rsum_concat ls : rsum (concat ls) = rsum (map rsum ls).
Proof. induction ls as [|l ls IH]; cbn [concat map]; [reflexivity|]. rewrite rsum_app, rsum_cons, IH. reflexivity. Qed.

Section Obj.
  Context {P Q : Type} (f : P -> Q -> R).

  (** Sum over the row of [x] at position [i], leaving out position [i]. *)
  Definition row_sum (c : R) (i : nat) (x : P) (ys : list Q) (start : nat) : R :=
    rsum (map (fun q => if Nat.eqb i (fst q) then 0 else exp (f x (snd q) + c)) (combine (seq start (length ys)) ys)).

  Lemma masked_row c i x ys start :
    rsum (map exp_part (set_at (map (fun v => Fin (v + c)) (map (f x) ys)) i NInf))
    = row_sum c (start + i) x ys start.
  Proof.
    revert i start. unfold row_sum. induction ys as [|y ys IH]; intros i start; cbn [map set_at length seq combine]; [destruct i; reflexivity|].
    destruct i as [|i]; cbn [set_at map fst snd].
    - rewrite Nat.add_0_r, Nat.eqb_refl, !rsum_cons. cbn [exp_part]. f_equal.
      clear IH. assert (G : forall s, (start < s)%nat ->
        rsum (map exp_part (map (fun v => Fin (v + c)) (map (f x) ys))) =
        rsum (map (fun q => if Nat.eqb start (fst q) then 0 else exp (f x (snd q) + c)) (combine (seq s (length ys)) ys))).
      { induction ys as [|y' ys IH]; intros s Hs; cbn [map length seq combine fst snd exp_part]; [reflexivity|].
        destruct (Nat.eqb_spec start s) as [E|E]; [lia|]. rewrite !rsum_cons. f_equal. apply IH. lia. }
      apply G. lia.
    - destruct (Nat.eqb_spec (start + S i) start) as [E|E]; [lia|]. rewrite !rsum_cons. cbn [exp_part]. f_equal.
      rewrite (IH i (S start)). f_equal. apply map_ext. intros q.
      replace (start + S i)%nat with (S start + i)%nat by lia. reflexivity.
  Qed.

  Lemma row_sum_nonneg c i x ys s : 0 <= row_sum c i x ys s.
  Proof.
    apply rsum_nonneg, Forall_map, Forall_forall. intros q _. destruct (Nat.eqb _ _); [lra|apply Rlt_le, exp_pos].
  Qed.

  Lemma row_sum_pos c i x ys : (2 <= length ys)%nat -> 0 < row_sum c i x ys 0.
  Proof.
    intros H. destruct ys as [|y0 [|y1 ys]]; simpl in H; try lia.
    unfold row_sum. cbn [length seq combine map fst snd]. rewrite !rsum_cons.
    pose proof (row_sum_nonneg c i x ys 2) as H2. unfold row_sum in H2.
    pose proof (exp_pos (f x y0 + c)). pose proof (exp_pos (f x y1 + c)).
    destruct (Nat.eqb_spec i 0), (Nat.eqb_spec i 1); subst; try lia; lra.
  Qed.

  Lemma scan_rows c xs ys start :
    scan (fun i x => (S i, logsumexp (set_at (map (fun v => Fin (v + c)) (vmap_right f x ys)) i NInf))) start xs
    = ((start + length xs)%nat,
       map (fun p => fl_log (row_sum c (fst p) (snd p) ys 0)) (combine (seq start (length xs)) xs)).
  Proof.
    revert start. induction xs as [|x xs IH]; intros start; cbn [scan length seq combine map].
    - rewrite Nat.add_0_r. reflexivity.
    - rewrite IH. cbn [fst snd]. unfold logsumexp at 1, vmap_right. rewrite (masked_row c start x ys 0).
      cbn [Nat.add]. f_equal. lia.
  Qed.

  Definition total (c : R) (xs : list P) (ys : list Q) : R :=
    rsum (map (fun p => row_sum c (fst p) (snd p) ys 0) (combine (seq 0 (length xs)) xs)).

  Lemma exp_part_log s : 0 <= s -> exp_part (fl_log s) = s.
  Proof.
    intros H. unfold fl_log. destruct (Rltb 0 s) eqn:E; cbn [exp_part].
    - apply Rltb_true in E. now apply exp_ln.
    - apply Rltb_false in E. lra.
  Qed.

  Lemma lin_lme c xs ys :
    lin_logmeanexp_nodiag f xs ys c
    = fl_sub (fl_log (total c xs ys)) (fl_log (INR (length xs * (length xs - 1)))).
  Proof.
    unfold lin_logmeanexp_nodiag. rewrite scan_rows. cbn [Nat.add]. f_equal.
    unfold logsumexp, total. rewrite map_map. f_equal. apply rsum_map_ext. intros p _.
    apply exp_part_log, row_sum_nonneg.
  Qed.

  (** The quadratic version. *)
  Lemma diagonal_length (a : list (list fl)) : length (diagonal a) = length a.
  Proof. unfold diagonal. now rewrite map_length, seq_length. Qed.

  Definition qrow (c : R) (x : P) (ys : list Q) : list fl := map (fun y => Fin (f x y + c)) ys.

  Lemma combine_seq_indexed {A B} (g : nat * A -> B) (l : list A) s : length (map g (combine (seq s (length l)) l)) = length l.
  Proof. rewrite map_length, combine_length, seq_length. lia. Qed.

  Lemma masked_qrow c i x ys n s :
    n = length ys ->
    rsum (map exp_part (map (fun q => fl_add (fst q) (snd q))
       (combine (qrow c x ys) (map (fun j => if Nat.eqb i j then NInf else Fin 0) (seq s n)))))
    = row_sum c i x ys s.
  Proof.
    intros ->. revert s. unfold qrow, row_sum. induction ys as [|y ys IH]; intros s; cbn [map length seq combine]; [reflexivity|].
    rewrite !rsum_cons, IH. cbn [fst snd]. f_equal. destruct (Nat.eqb i s); cbn; [reflexivity|].
    now rewrite Rplus_0_r.
  Qed.

  Lemma qrows_sum c xs ys n s m :
    n = length ys -> m = length xs ->
    rsum (map rsum (map (map exp_part) (mat_add (map (fun x => qrow c x ys) xs)
      (map (fun i => map (fun j => if Nat.eqb i j then NInf else Fin 0) (seq 0 n)) (seq s m)))))
    = rsum (map (fun p => row_sum c (fst p) (snd p) ys 0) (combine (seq s m) xs)).
  Proof.
    intros Hn ->. revert s. induction xs as [|x xs IH]; intros s; [reflexivity|].
    unfold mat_add in *. cbn [map length seq combine fst snd]. rewrite !rsum_cons, IH.
    f_equal. now apply masked_qrow.
  Qed.

  Lemma quad_lme c xs ys :
    length xs = length ys ->
    quad_logmeanexp_nodiag (map (fun x => qrow c x ys) xs)
    = fl_sub (fl_log (total c xs ys)) (fl_log (INR (length xs * (length xs - 1)))).
  Proof.
    intros Hl. unfold quad_logmeanexp_nodiag. rewrite map_length. f_equal.
    unfold logsumexp. f_equal. rewrite concat_map, rsum_concat.
    unfold diag. rewrite map_length, diagonal_length, map_length.
    unfold total. rewrite <- (qrows_sum c xs ys (length xs) 0 (length xs)) by auto.
    do 4 f_equal. apply map_ext_in. intros i Hi. apply in_seq in Hi. apply map_ext_in. intros j Hj.
    destruct (Nat.eqb i j); [|reflexivity].
    rewrite nth_indep with (d' := (fun _ : fl => NInf) NaN) by (rewrite map_length, diagonal_length, map_length; lia).
    rewrite (map_nth (fun _ => NInf) _ NaN). reflexivity.
  Qed.

  Lemma diagonal_qrows c xs ys : length xs = length ys ->
    diagonal (map (fun x => qrow c x ys) xs) = map Fin (map (fun p => f (fst p) (snd p) + c) (combine xs ys)).
  Proof.
    intros Hl. unfold diagonal. rewrite map_length.
    apply nth_ext with (d := NaN) (d' := Fin (0)).
    - rewrite !map_length, seq_length, combine_length. lia.
    - intros i Hi. rewrite map_length, seq_length in Hi.
      rewrite UtilsProofs.nth_map_seq by assumption.
      destruct xs as [|x0 xs']; [simpl in Hi; lia|]. destruct ys as [|y0 ys']; [discriminate|].
      set (xs := x0 :: xs') in *. set (ys := y0 :: ys') in *.
      rewrite nth_indep with (d' := qrow c x0 ys) by now rewrite map_length.
      rewrite (map_nth (fun x => qrow c x ys)). unfold qrow.
      rewrite nth_indep with (d' := Fin (f (nth i xs x0) y0 + c)) by (rewrite map_length; lia).
      rewrite (map_nth (fun y => Fin (f (nth i xs x0) y + c))).
      rewrite map_map. rewrite nth_indep with (d' := (fun p => Fin (f (fst p) (snd p) + c)) (x0, y0))
        by (rewrite map_length, combine_length; lia).
      rewrite (map_nth (fun p => Fin (f (fst p) (snd p) + c))).
      rewrite combine_nth by assumption. reflexivity.
  Qed.

  Lemma full_scores_qrow xs ys : get_full_scores f xs ys = map (fun x => qrow 0 x ys) xs.
  Proof.
    unfold get_full_scores, qrow. apply map_ext. intros x. apply map_ext. intros y. now rewrite Rplus_0_r.
  Qed.

  (** ** Agreement of the two backends *)
  Lemma dv_agree xs ys : length xs = length ys ->
    lin_donsker_varadhan f xs ys = quad_donsker_varadhan f xs ys.
  Proof.
    intros Hl. unfold lin_donsker_varadhan, quad_donsker_varadhan. cbv zeta. rewrite full_scores_qrow.
    rewrite lin_lme, quad_lme, diagonal_qrows by assumption. f_equal.
    unfold vmap_pairs. do 2 f_equal. apply map_ext. intros p. now rewrite Rplus_0_r.
  Qed.

  Lemma fl_mean_shift l c : l <> [] ->
    fl_mean (map Fin (map (fun v => v + c) l)) = Fin (rmean l + c).
  Proof.
    intros H. rewrite fl_mean_Fin by (destruct l; [congruence|discriminate]). f_equal.
    unfold rmean. rewrite map_length, rsum_plus, rsum_const, map_id. pose proof (INR_length_pos l H). field. lra.
  Qed.

  Lemma nwj_agree xs ys : length xs = length ys -> xs <> [] ->
    lin_nwj f xs ys = quad_nwj f xs ys.
  Proof.
    intros Hl Hx. unfold lin_nwj, quad_nwj. cbv zeta.
    assert (E : map (map (fun v => fl_sub v (Fin 1))) (get_full_scores f xs ys) = map (fun x => qrow (-1) x ys) xs).
    { unfold get_full_scores, qrow. rewrite map_map. apply map_ext. intros x. rewrite map_map. apply map_ext.
      intros y. cbn. f_equal. }
    rewrite E, lin_lme, quad_lme, diagonal_qrows by assumption. f_equal.
    assert (Hc : combine xs ys <> []) by (destruct xs, ys; try discriminate; congruence).
    assert (Hv : vmap_pairs f xs ys <> []) by (unfold vmap_pairs; destruct (combine xs ys); [congruence|discriminate]).
    rewrite fl_mean_Fin by assumption.
    replace (map (fun p => f (fst p) (snd p) + -1) (combine xs ys)) with (map (fun v => v + -1) (vmap_pairs f xs ys))
      by (unfold vmap_pairs; now rewrite map_map).
    rewrite fl_mean_shift by assumption. cbn. f_equal. lra.
  Qed.

  Lemma scan_const {X Y} (g : X -> Y) xs : scan (fun (_ : unit) x => (tt, g x)) tt xs = (tt, map g xs).
  Proof. induction xs as [|x xs IH]; cbn [scan map]; [reflexivity|]. now rewrite IH. Qed.

  Definition lse_row (ys : list Q) (x : P) : R := ln (rsum (map (fun y => exp (f x y)) ys)).

  Lemma logsumexp_row ys x : ys <> [] -> logsumexp (map Fin (map (f x) ys)) = Fin (lse_row ys x).
  Proof.
    intros H. unfold logsumexp. rewrite !map_map. cbn [exp_part]. apply fl_log_pos. now apply rsum_exp_pos.
  Qed.

  Lemma lin_infonce_value xs ys : length xs = length ys -> xs <> [] ->
    lin_infonce f xs ys = Fin (rmean (vmap_pairs f xs ys) - rmean (map (lse_row ys) xs) + ln (INR (length xs))).
  Proof.
    intros Hl Hx. assert (Hy : ys <> []) by (destruct xs, ys; try discriminate; congruence).
    unfold lin_infonce. rewrite scan_const.
    assert (E : map (fun x => logsumexp (map Fin (vmap_right f x ys))) xs = map Fin (map (lse_row ys) xs)).
    { rewrite map_map. apply map_ext. intros x. now apply logsumexp_row. }
    rewrite E, !fl_mean_Fin.
    - rewrite fl_log_pos by now apply INR_length_pos. reflexivity.
    - unfold vmap_pairs. destruct xs, ys; try congruence; discriminate.
    - unfold vmap_pairs. destruct xs, ys; try congruence; discriminate.
  Qed.

  Lemma infonce_agree xs ys : length xs = length ys -> xs <> [] ->
    lin_infonce f xs ys = quad_infonce f xs ys.
  Proof.
    intros Hl Hx. assert (Hy : ys <> []) by (destruct xs, ys; try discriminate; congruence).
    rewrite lin_infonce_value by assumption. unfold quad_infonce. cbv zeta.
    rewrite full_scores_qrow, diagonal_qrows, !map_map, map_length by assumption.
    assert (Hc : combine xs ys <> []) by (destruct xs, ys; try discriminate; congruence).
    assert (E0 : map (fun p => Fin (f (fst p) (snd p) + 0)) (combine xs ys) = map Fin (vmap_pairs f xs ys)).
    { unfold vmap_pairs. rewrite map_map. apply map_ext. intros p. now rewrite Rplus_0_r. }
    rewrite E0, fl_mean_Fin by (unfold vmap_pairs; destruct (combine xs ys); [congruence|discriminate]).
    rewrite fl_log_pos by now apply INR_length_pos.
    set (m := rmean (vmap_pairs f xs ys)).
    assert (E : map (fun x => fl_add (Fin (ln (INR (length xs)))) (fl_sub (Fin m) (logsumexp (qrow 0 x ys)))) xs
               = map Fin (map (fun x => (ln (INR (length xs)) + m) - lse_row ys x) xs)).
    { rewrite map_map. apply map_ext. intros x.
      replace (qrow 0 x ys) with (map Fin (map (f x) ys)).
      - rewrite logsumexp_row by assumption. cbn. f_equal. lra.
      - unfold qrow. rewrite map_map. apply map_ext. intros y. now rewrite Rplus_0_r. }
    rewrite E, fl_mean_Fin by (destruct xs; [congruence|discriminate]). f_equal.
    unfold rmean. rewrite !map_length, rsum_minus, rsum_const.
    fold (rmean (map (lse_row ys) xs)). pose proof (INR_length_pos xs Hx). field. lra.
  Qed.

  (** ** The textbook expressions *)
  Lemma total_spec xs ys : total 0 xs ys =
    rsum (map (fun p => rsum (map (fun q => if Nat.eqb (fst p) (fst q) then 0 else exp (f (snd p) (snd q))) (indexed ys)))
          (indexed xs)).
  Proof.
    unfold total, row_sum, indexed. apply rsum_map_ext. intros p _. apply rsum_map_ext. intros q _.
    now rewrite Rplus_0_r.
  Qed.

  Lemma total_shift c xs ys : total c xs ys = exp c * total 0 xs ys.
  Proof.
    unfold total. rewrite <- rsum_scal. apply rsum_map_ext. intros p _. unfold row_sum.
    rewrite <- rsum_scal. apply rsum_map_ext. intros q _. destruct (Nat.eqb _ _); [lra|].
    rewrite Rplus_0_r, exp_plus. lra.
  Qed.

  Lemma total_pos c xs ys : (2 <= length xs)%nat -> length xs = length ys -> 0 < total c xs ys.
  Proof.
    intros H Hl. unfold total. apply rsum_pos.
    - destruct xs; [simpl in H; lia|discriminate].
    - apply Forall_map, Forall_forall. intros p _. apply row_sum_pos. lia.
  Qed.

  Lemma n_elements_pos (xs : list P) : (2 <= length xs)%nat ->
    INR (length xs * (length xs - 1)) = INR (length xs) * (INR (length xs) - 1) /\
    0 < INR (length xs) * (INR (length xs) - 1).
  Proof.
    intros H. rewrite mult_INR, minus_INR by lia. split; [reflexivity|].
    apply le_INR in H. replace (INR 2) with 2 in H by (simpl; lra).
    apply Rmult_lt_0_compat; lra.
  Qed.

  Lemma mean_exp_total xs ys : mean_exp_unpaired f xs ys = total 0 xs ys / (INR (length xs) * (INR (length xs) - 1)).
  Proof. unfold mean_exp_unpaired. now rewrite total_spec. Qed.

  Lemma mean_exp_pos xs ys : (2 <= length xs)%nat -> length xs = length ys -> 0 < mean_exp_unpaired f xs ys.
  Proof.
    intros H Hl. rewrite mean_exp_total. apply Rdiv_lt_0_compat; [now apply total_pos|now apply n_elements_pos].
  Qed.

  Lemma lin_lme_value c xs ys : (2 <= length xs)%nat -> length xs = length ys ->
    lin_logmeanexp_nodiag f xs ys c = Fin (c + ln (mean_exp_unpaired f xs ys)).
  Proof.
    intros H Hl. rewrite lin_lme. destruct (n_elements_pos xs H) as [E Hp].
    rewrite E, !fl_log_pos by (try assumption; apply total_pos; assumption).
    cbn. f_equal. rewrite mean_exp_total, total_shift.
    pose proof (total_pos 0 xs ys H Hl). pose proof (exp_pos c).
    set (N := INR (length xs) * (INR (length xs) - 1)) in *. clearbody N.
    unfold Rdiv. rewrite !ln_mult, ln_exp, ln_Rinv; try lra. now apply Rinv_0_lt_compat.
  Qed.

  Lemma vmap_pairs_nonnil xs ys : xs <> [] -> length xs = length ys -> vmap_pairs f xs ys <> [].
  Proof. intros H Hl. unfold vmap_pairs. destruct xs, ys; try congruence; discriminate. Qed.

  Lemma dv_textbook xs ys : (2 <= length xs)%nat -> length xs = length ys ->
    lin_donsker_varadhan f xs ys = Fin (textbook_dv f xs ys).
  Proof.
    intros H Hl. unfold lin_donsker_varadhan. rewrite lin_lme_value by assumption.
    rewrite fl_mean_Fin by (apply vmap_pairs_nonnil; [destruct xs; [simpl in H; lia|discriminate]|assumption]).
    cbn. f_equal. unfold textbook_dv, mean_paired, vmap_pairs. lra.
  Qed.

  Lemma nwj_textbook xs ys : (2 <= length xs)%nat -> length xs = length ys ->
    lin_nwj f xs ys = Fin (textbook_nwj f xs ys).
  Proof.
    intros H Hl. unfold lin_nwj. rewrite lin_lme_value by assumption.
    rewrite fl_mean_Fin by (apply vmap_pairs_nonnil; [destruct xs; [simpl in H; lia|discriminate]|assumption]).
    cbn [fl_exp fl_sub fl_opp fl_add]. f_equal. unfold textbook_nwj, mean_paired, vmap_pairs.
    rewrite exp_plus, exp_ln by now apply mean_exp_pos. lra.
  Qed.

  Lemma infonce_textbook xs ys : xs <> [] -> length xs = length ys ->
    lin_infonce f xs ys = Fin (textbook_infonce f xs ys).
  Proof.
    intros H Hl. rewrite lin_infonce_value by assumption. f_equal.
    assert (Hy : ys <> []) by (destruct xs, ys; try discriminate; congruence).
    pose proof (INR_length_pos xs H) as Hn.
    unfold textbook_infonce.
    rewrite (map_ext_in _ (fun p => f (fst p) (snd p) - lse_row ys (fst p) + ln (INR (length xs)))).
    - unfold rmean. rewrite !map_length, combine_length, <- Hl, Nat.min_id.
      rewrite (rsum_plus (fun p => f (fst p) (snd p) - lse_row ys (fst p)) (fun _ => ln (INR (length xs)))), rsum_minus, rsum_const, combine_length, <- Hl, Nat.min_id.
      unfold vmap_pairs. rewrite map_length, combine_length, <- Hl, Nat.min_id.
      rewrite <- (combine_fst xs ys Hl) at 3. rewrite map_map. field. lra.
    - intros p _. unfold rmean, lse_row. rewrite map_length, <- Hl.
      pose proof (rsum_exp_pos (f (fst p)) ys Hy). pose proof (exp_pos (f (fst p) (snd p))).
      assert (0 < / INR (length xs)) by now apply Rinv_0_lt_compat.
      unfold Rdiv. rewrite ln_mult, ln_exp, ln_Rinv, ln_mult, ln_Rinv; try assumption; try lra;
        [apply Rmult_lt_0_compat; assumption|apply Rinv_0_lt_compat, Rmult_lt_0_compat; assumption].
  Qed.

  (** Batches with a single pair: no unpaired combination exists. *)
  Lemma dv_single x y : lin_donsker_varadhan f [x] [y] = NaN /\ lin_nwj f [x] [y] = NaN /\ lin_infonce f [x] [y] = Fin 0.
  Proof.
    split; [|split].
    - unfold lin_donsker_varadhan. rewrite lin_lme. cbn. unfold total, row_sum. cbn.
      unfold fl_log. rewrite (proj2 (Rltb_false 0 0)) by lra.
      replace (0 + 0 + 0) with 0 by lra. replace (0 + 0) with 0 by lra.
      rewrite (proj2 (Rltb_false 0 0)) by lra. reflexivity.
    - unfold lin_nwj. rewrite lin_lme. cbn. unfold total, row_sum. cbn.
      unfold fl_log. rewrite (proj2 (Rltb_false 0 0)) by lra.
      replace (0 + 0 + 0) with 0 by lra. replace (0 + 0) with 0 by lra.
      rewrite (proj2 (Rltb_false 0 0)) by lra. reflexivity.
    - rewrite infonce_textbook by (try discriminate; reflexivity). f_equal. unfold textbook_infonce, rmean.
      cbn [combine map fst snd length]. unfold rsum. cbn [fold_right]. cbn [INR].
      replace (exp (f x y) / ((exp (f x y) + 0) / 1)) with 1 by (pose proof (exp_pos (f x y)); field; lra).
      rewrite ln_1. lra.
  Qed.
End Obj.

(** ** Order and invariance *)
Section Order.
  Context {P Q : Type}.
  Implicit Types (f : P -> Q -> R) (xs : list P) (ys : list Q).

  Lemma nwj_le_dv f xs ys : (2 <= length xs)%nat -> length xs = length ys -> textbook_nwj f xs ys <= textbook_dv f xs ys.
  Proof.
    intros H Hl. unfold textbook_nwj, textbook_dv. pose proof (mean_exp_pos f xs ys H Hl) as Hp.
    set (m := mean_exp_unpaired f xs ys) in *.
    assert (H1 : 0 < exp (-1) * m) by (apply Rmult_lt_0_compat; [apply exp_pos|assumption]).
    pose proof (ln_le_minus1 _ H1) as H2. rewrite ln_mult, ln_exp in H2 by (try apply exp_pos; assumption). lra.
  Qed.

  Lemma nwj_eq_dv_iff f xs ys : (2 <= length xs)%nat -> length xs = length ys ->
    (textbook_nwj f xs ys = textbook_dv f xs ys <-> ln (mean_exp_unpaired f xs ys) = 1).
  Proof.
    intros H Hl. unfold textbook_nwj, textbook_dv. pose proof (mean_exp_pos f xs ys H Hl) as Hp.
    set (m := mean_exp_unpaired f xs ys) in *.
    assert (H1 : 0 < exp (-1) * m) by (apply Rmult_lt_0_compat; [apply exp_pos|assumption]).
    assert (Hln : ln (exp (-1) * m) = -1 + ln m) by (rewrite ln_mult, ln_exp by (try apply exp_pos; assumption); lra).
    split; intros E.
    - assert (E2 : exp (-1) * m = 1) by (apply ln_eq_minus1; lra). rewrite E2, ln_1 in Hln. lra.
    - assert (exp (-1) * m = 1); [|lra]. rewrite <- (exp_ln _ H1), Hln, E. replace (-1 + 1) with 0 by lra. apply exp_0.
  Qed.

  Lemma mean_exp_shift f c xs ys :
    mean_exp_unpaired (fun x y => f x y + c) xs ys = exp c * mean_exp_unpaired f xs ys.
  Proof.
    unfold mean_exp_unpaired, Rdiv. rewrite <- Rmult_assoc. f_equal. rewrite <- rsum_scal.
    apply rsum_map_ext. intros p _. rewrite <- rsum_scal. apply rsum_map_ext. intros q _.
    destruct (Nat.eqb _ _); [lra|]. rewrite exp_plus. lra.
  Qed.

  Lemma mean_paired_shift f c xs ys : xs <> [] -> length xs = length ys ->
    mean_paired (fun x y => f x y + c) xs ys = mean_paired f xs ys + c.
  Proof.
    intros H Hl. unfold mean_paired, rmean. rewrite !map_length, rsum_plus, rsum_const.
    assert (0 < INR (length (combine xs ys))).
    { apply INR_length_pos. destruct xs, ys; try congruence; discriminate. }
    field. lra.
  Qed.

  Lemma dv_shift f c xs ys : (2 <= length xs)%nat -> length xs = length ys ->
    textbook_dv (fun x y => f x y + c) xs ys = textbook_dv f xs ys.
  Proof.
    intros H Hl. unfold textbook_dv. rewrite mean_exp_shift, mean_paired_shift; try assumption.
    - rewrite ln_mult, ln_exp; [lra|apply exp_pos|now apply mean_exp_pos].
    - destruct xs; [simpl in H; lia|discriminate].
  Qed.

  (** [sup over constants of NWJ] is DV, attained. *)
  Lemma nwj_shift_attains f xs ys : (2 <= length xs)%nat -> length xs = length ys ->
    (forall c, textbook_nwj (fun x y => f x y + c) xs ys <= textbook_dv f xs ys) /\
    textbook_nwj (fun x y => f x y + (1 - ln (mean_exp_unpaired f xs ys))) xs ys = textbook_dv f xs ys.
  Proof.
    intros H Hl. split.
    - intros c. rewrite <- (dv_shift f c) by assumption. now apply nwj_le_dv.
    - rewrite <- (dv_shift f (1 - ln (mean_exp_unpaired f xs ys)) xs ys) by assumption.
      apply nwj_eq_dv_iff; [assumption|assumption|]. rewrite mean_exp_shift, ln_mult, ln_exp; [lra|apply exp_pos|].
      now apply mean_exp_pos.
  Qed.

  Lemma infonce_x_offset f (g : P -> R) xs ys :
    textbook_infonce (fun x y => f x y + g x) xs ys = textbook_infonce f xs ys.
  Proof.
    unfold textbook_infonce. f_equal. apply map_ext_in. intros p Hp. f_equal.
    assert (E : rmean (map (fun y => exp (f (fst p) y + g (fst p))) ys) = exp (g (fst p)) * rmean (map (fun y => exp (f (fst p) y)) ys)).
    { unfold rmean, Rdiv. rewrite !map_length, <- Rmult_assoc. f_equal. rewrite <- rsum_scal. apply rsum_map_ext.
      intros y _. rewrite exp_plus. lra. }
    rewrite E, exp_plus. pose proof (exp_pos (g (fst p))).
    assert (Hy : ys <> []). { destruct p as [a b]. apply in_combine_r in Hp. destruct ys; [destruct Hp|discriminate]. }
    assert (0 < rmean (map (fun y => exp (f (fst p) y)) ys)).
    { unfold rmean. rewrite map_length. apply Rdiv_lt_0_compat; [now apply rsum_exp_pos|now apply INR_length_pos]. }
    field. split; lra.
  Qed.

  Lemma infonce_upper f xs ys : xs <> [] -> length xs = length ys ->
    textbook_infonce f xs ys <= ln (INR (length xs)) /\ ((2 <= length xs)%nat -> textbook_infonce f xs ys < ln (INR (length xs))).
  Proof.
    intros H Hl. unfold textbook_infonce.
    assert (Hy : ys <> []) by (destruct xs, ys; try discriminate; congruence).
    assert (Hc : combine xs ys <> []) by (destruct xs, ys; try discriminate; congruence).
    pose proof (INR_length_pos xs H) as Hn.
    assert (G : forall p, In p (combine xs ys) ->
      ln (exp (f (fst p) (snd p)) / rmean (map (fun y => exp (f (fst p) y)) ys)) <= ln (INR (length xs)) /\
      ((2 <= length xs)%nat -> ln (exp (f (fst p) (snd p)) / rmean (map (fun y => exp (f (fst p) y)) ys)) < ln (INR (length xs)))).
    { intros [x y] Hp. cbn [fst snd]. apply in_combine_r in Hp.
      apply in_split in Hp. destruct Hp as (l1 & l2 & E).
      pose proof (rsum_exp_pos (f x) ys Hy) as Hs. pose proof (exp_pos (f x y)) as He.
      unfold rmean. rewrite map_length, <- Hl.
      assert (Hs' : rsum (map (fun y => exp (f x y)) ys) = exp (f x y) + rsum (map (fun y => exp (f x y)) (l1 ++ l2))).
      { rewrite E, !map_app, !rsum_app. cbn [map]. rewrite rsum_cons. lra. }
      assert (Hle : 0 <= rsum (map (fun y => exp (f x y)) (l1 ++ l2))).
      { apply rsum_nonneg, Forall_map, Forall_forall. intros. apply Rlt_le, exp_pos. }
      set (s := rsum (map (fun y => exp (f x y)) ys)) in *.
      replace (exp (f x y) / (s / INR (length xs))) with (INR (length xs) * (exp (f x y) / s)) by (field; lra).
      assert (Hr : 0 < exp (f x y) / s) by (apply Rdiv_lt_0_compat; assumption).
      rewrite ln_mult by assumption. split.
      - assert (ln (exp (f x y) / s) <= 0); [|lra]. rewrite <- ln_1. apply Rcomplements.ln_le; [assumption|].
        apply Rmult_le_reg_r with s; [assumption|]. unfold Rdiv. rewrite Rmult_assoc, Rinv_l by lra. lra.
      - intros H2. assert (ln (exp (f x y) / s) < 0); [|lra]. rewrite <- ln_1. apply ln_increasing; [assumption|].
        apply Rmult_lt_reg_r with s; [assumption|]. unfold Rdiv. rewrite Rmult_assoc, Rinv_l by lra.
        assert (0 < rsum (map (fun y => exp (f x y)) (l1 ++ l2))); [|lra]. apply rsum_exp_pos.
        intros E0. apply app_eq_nil in E0. destruct E0 as [-> ->]. subst ys. simpl in Hl. lia. }
    split.
    - apply rmean_upper; [destruct (combine xs ys); [congruence|discriminate]|].
      apply Forall_map, Forall_forall. intros p Hp. now apply G.
    - intros H2. unfold rmean at 1. rewrite map_length. pose proof (INR_length_pos _ Hc) as Hcl.
      apply Rmult_lt_reg_r with (INR (length (combine xs ys))); [assumption|].
      unfold Rdiv at 1. rewrite Rmult_assoc, Rinv_l, Rmult_1_r by lra.
      assert (Hall : Forall (fun v => 0 < v) (map (fun p => ln (INR (length xs)) - ln (exp (f (fst p) (snd p)) / rmean (map (fun y => exp (f (fst p) y)) ys))) (combine xs ys))).
      { apply Forall_map, Forall_forall. intros p Hp. pose proof (proj2 (G p Hp) H2). lra. }
      apply rsum_pos in Hall; [|destruct (combine xs ys); [congruence|discriminate]].
      rewrite rsum_minus, rsum_const in Hall. lra.
  Qed.
End Order.

(** ** The statements in the form used by ObjectivesProps.v *)
Lemma backends_agree {P Q} (f : P -> Q -> R) xs ys : xs <> [] -> length xs = length ys ->
  lin_infonce f xs ys = quad_infonce f xs ys /\
  lin_donsker_varadhan f xs ys = quad_donsker_varadhan f xs ys /\
  lin_nwj f xs ys = quad_nwj f xs ys.
Proof. intros H Hl. split; [now apply infonce_agree|]. split; [now apply dv_agree|now apply nwj_agree]. Qed.

Lemma backends_textbook {P Q} (f : P -> Q -> R) xs ys : (2 <= length xs)%nat -> length xs = length ys ->
  lin_infonce f xs ys = Fin (textbook_infonce f xs ys) /\
  lin_donsker_varadhan f xs ys = Fin (textbook_dv f xs ys) /\
  lin_nwj f xs ys = Fin (textbook_nwj f xs ys).
Proof.
  intros H Hl. split; [|split].
  - apply infonce_textbook; [|assumption]. intros ->. simpl in H. lia.
  - now apply dv_textbook.
  - now apply nwj_textbook.
Qed.

(** Objectives as implemented: order and invariances. *)
Lemma impl_order {P Q} (f : P -> Q -> R) xs ys : (2 <= length xs)%nat -> length xs = length ys ->
  exists i d w, quad_infonce f xs ys = Fin i /\ quad_donsker_varadhan f xs ys = Fin d /\ quad_nwj f xs ys = Fin w /\
    i < ln (INR (length xs)) /\ w <= d.
Proof.
  intros H Hl. assert (Hx : xs <> []) by (intros ->; simpl in H; lia).
  destruct (backends_agree f xs ys Hx Hl) as (E1 & E2 & E3).
  destruct (backends_textbook f xs ys H Hl) as (T1 & T2 & T3).
  do 3 eexists. rewrite <- E1, <- E2, <- E3, T1, T2, T3. repeat split.
  - now apply infonce_upper.
  - now apply nwj_le_dv.
Qed.

Lemma impl_shift {P Q} (f : P -> Q -> R) (c : R) (g : P -> R) xs ys : (2 <= length xs)%nat -> length xs = length ys ->
  quad_donsker_varadhan (fun x y => f x y + c) xs ys = quad_donsker_varadhan f xs ys /\
  quad_infonce (fun x y => f x y + g x) xs ys = quad_infonce f xs ys.
Proof.
  intros H Hl. assert (Hx : xs <> []) by (intros ->; simpl in H; lia). split.
  - rewrite <- !dv_agree, !dv_textbook, dv_shift by assumption. reflexivity.
  - rewrite <- !infonce_agree, !infonce_textbook, infonce_x_offset by assumption. reflexivity.
Qed.

Lemma impl_nwj_attains {P Q} (f : P -> Q -> R) xs ys : (2 <= length xs)%nat -> length xs = length ys ->
  exists d c0, quad_donsker_varadhan f xs ys = Fin d /\
    quad_nwj (fun x y => f x y + c0) xs ys = Fin d /\
    forall c w, quad_nwj (fun x y => f x y + c) xs ys = Fin w -> w <= d.
Proof.
  intros H Hl. assert (Hx : xs <> []) by (intros ->; simpl in H; lia).
  exists (textbook_dv f xs ys), (1 - ln (mean_exp_unpaired f xs ys)).
  destruct (nwj_shift_attains f xs ys H Hl) as [H1 H2].
  rewrite <- dv_agree, <- nwj_agree, dv_textbook, nwj_textbook, H2 by assumption.
  split; [reflexivity|]. split; [reflexivity|]. intros c w E.
  rewrite <- nwj_agree, nwj_textbook in E by assumption. injection E as <-. apply H1.
Qed.

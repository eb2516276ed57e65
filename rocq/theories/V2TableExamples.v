(** Concrete inputs for the statements in [V2TableProps]. *)
From Coq Require Import String Lia Lra.
From Verif Require Import Base BaseLemmas UtilsModel GaussianModel BenchmarkModel TablesModel TablesSpec TablesExamples TablesThms ConfigModel ConfigSpec
  V2TableModel V2TableSpec V2TableThms.
Open Scope R_scope.

(** A stand-in for formatting. *)
Definition ex_digits (v : fl) : string := match v with Fin r => if Rlt_dec r 3 then "2.00" else "5.00" | _ => "nan" end.
Definition ex_runs : list row := [ex_row "KSG" "normal" 5000 1 2; ex_row "KSG" "normal" 5000 3 2; ex_row "CCA" "student" 5000 1 1].
Lemma ex_deviation : deviation_of [Fin 1; NaN; Fin 3] (Fin (sqrt 2)).
Proof.
  apply (deviation_finite _ [1; 3]); [cbn; lia|reflexivity|]. split; [apply sqrt_pos|]. rewrite sqrt_def by lra. unfold rmean. cbn. lra.
Qed.
Lemma ex_hundredths : hundredths_above (1 / 1000) (1 / 100) /\ hundredths_above (201 / 1000) (21 / 100).
Proof.
  split.
  - exists 1%Z. split; [lia|]. split; [lra|]. split; [lra|]. intros; assumption.
  - exists 21%Z. split; [lia|]. split; [lra|]. split; [lra|]. intros k _ H. assert (K : 20 < IZR k) by lra. apply lt_IZR in K. lia.
Qed.
Lemma ex_table : exists t, create_benchmark_table ex_digits ex_runs (Some 5000%Z) = Ok t /\
  tx_index t = ["normal"; "student"]%string /\ tx_columns t = ["CCA"; "KSG"; "True MI"]%string /\
  text_cell t "normal" "CCA" None /\ text_cell t "student" "CCA" (Some "$2.00 \pm nan$"%string) /\ text_cell t "normal" "True MI" (Some "\textbf{2.00}"%string).
Proof.
  destruct (proj2 (v2_total ex_digits ex_runs (Some 5000%Z))) as (t & E).
  - discriminate.
  - intros r [<-|[<-|[<-|[]]]]; discriminate.
  - exists t. split; [exact E|]. destruct (v2_index _ _ _ _ E) as (_ & _ & _ & _ & X). destruct (v2_cells _ _ _ _ E) as (C & D).
    assert (Ix : tx_index t = ["normal"; "student"]%string /\ tx_columns t = ["CCA"; "KSG"; "True MI"]%string).
    { unfold create_benchmark_table in E. cbn in E. injection E as <-. split; reflexivity. }
    destruct Ix as [Ix Ic]. split; [exact Ix|]. split; [exact Ic|]. split; [|split].
    + destruct (X "normal" "CCA")%string as (v & V); [rewrite Ix; cbn; tauto|rewrite Ic; cbn; tauto|].
      destruct (C "normal" "CCA" v ltac:(discriminate) V)%string as [(_ & ->)|(N & _)]; [exact V|now contradict N].
    + destruct (X "student" "CCA")%string as (v & V); [rewrite Ix; cbn; tauto|rewrite Ic; cbn; tauto|].
      destruct (C "student" "CCA" v ltac:(discriminate) V)%string as [(N & _)|(_ & m & s & s' & M & S & U & ->)]; [discriminate N|]. cbn in M, S.
      assert (s = NaN) by (apply (deviation_unique _ _ _ S); apply deviation_few; cbn; lia). subst s. destruct s'; try contradiction.
      assert (m = Fin 1).
      { inversion M as [A|xs A B|A|A|A]; subst.
        - specialize (A _ (or_introl eq_refl)). discriminate.
        - cbn in B. destruct xs as [|x [|y xs]]; try discriminate. injection B as <-. unfold rmean. cbn. f_equal. lra.
        - destruct A as [A|[]]; discriminate.
        - destruct A as [A|[]]; discriminate.
        - destruct A as [A|[]]; discriminate. }
      subst m. cbn in V. destruct (Rlt_dec 1 3); [exact V|lra].
    + destruct (X "normal" "True MI")%string as (v & V); [rewrite Ix; cbn; tauto|rewrite Ic; cbn; tauto|].
      destruct (D _ _ V) as (b & r & a & E1 & E2 & E3 & ->). destruct b as [|b0 b].
      * injection E1 as <- _. cbn in V. destruct (Rlt_dec 2 3); [exact V|lra].
      * exfalso. injection E1 as <- _. apply E3. now left.
Qed.
Definition ex_printed : list row := map (fun t => ex_row "KSG-10" t 5000 1 2) (map entry_id v2_catalogue).
Lemma ex_printed_ok : (forall r, In r ex_printed -> In (r_estimator r) v2_estimators /\ r_n r = 5000%Z) /\
  (forall task, In task (map entry_id v2_catalogue) <-> In task (map r_task ex_printed)).
Proof.
  unfold ex_printed. split.
  - intros r H. apply in_map_iff in H as (t & <- & _). split; [cbn; tauto|reflexivity].
  - intros task. rewrite map_map. cbn [r_task ex_row]. rewrite map_id. reflexivity.
Qed.
(** Rows of 1000 samples count in the table for 5000. *)
Lemma sizes_mixed : exists two_digits results t v, create_benchmark_table two_digits results (Some 5000%Z) = Ok t /\
  text_cell t "normal" "KSG" (Some v) /\
  (forall m s s', mean_of (map r_estimate (seeds results "KSG" "normal" 5000)) m -> deviation_of (map r_estimate (seeds results "KSG" "normal" 5000)) s ->
     rounded_up s s' -> v <> ("$" ++ two_digits m ++ " \pm " ++ two_digits s' ++ "$")%string).
Proof.
  set (rs := [ex_row "KSG" "normal" 5000 1 2; ex_row "KSG" "normal" 5000 1 2; ex_row "KSG" "normal" 1000 10 2]).
  destruct (proj2 (v2_total ex_digits rs (Some 5000%Z))) as (t & E).
  { discriminate. } { intros r [<-|[<-|[<-|[]]]]; discriminate. }
  destruct (v2_index _ _ _ _ E) as (_ & _ & C1 & C2 & X). destruct (v2_cells _ _ _ _ E) as (C & _).
  destruct (X "normal" "KSG")%string as (v & V).
  { apply C1. exists (ex_row "KSG" "normal" 5000 1 2). split; [now left|reflexivity]. }
  { apply C2. left. exists (ex_row "KSG" "normal" 5000 1 2). split; [now left|reflexivity]. }
  destruct (C "normal" "KSG" v ltac:(discriminate) V)%string as [(N & _)|(_ & m & s & s' & M & S & U & ->)]; [discriminate N|].
  exists ex_digits, rs, t. eexists. split; [exact E|]. split; [exact V|]. intros m' s0 s1 M' S' U' H. cbn in M, M'.
  assert (Mf : forall l xs m, mean_of l m -> ~ In PInf l -> ~ In NInf l -> xs <> [] -> filter (fun v => match v with NaN => false | _ => true end) l = map Fin xs -> m = Fin (rmean xs)).
  { intros l xs q Q Np Ni Nx F. inversion Q as [A|ys A B|A|A|A]; subst; try contradiction.
    - exfalso. destruct xs as [|x xs]; [congruence|]. assert (I : In (Fin x) (filter (fun v => match v with NaN => false | _ => true end) l)) by (rewrite F; now left).
      apply filter_In in I as [I _]. apply A in I. discriminate.
    - rewrite F in B. apply map_Fin_inj in B. now subst. }
  apply (fun Q => Mf [Fin 1; Fin 1; Fin 10] [1; 1; 10] m Q ltac:(cbn; intuition discriminate) ltac:(cbn; intuition discriminate) ltac:(discriminate) eq_refl) in M.
  apply (fun Q => Mf [Fin 1; Fin 1] [1; 1] m' Q ltac:(cbn; intuition discriminate) ltac:(cbn; intuition discriminate) ltac:(discriminate) eq_refl) in M'.
  subst m m'. unfold rmean in H. cbn in H. repeat destruct (Rlt_dec _ _) in H; try lra; discriminate.
Qed.

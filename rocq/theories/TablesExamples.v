(** Concrete tables, and the claims which are false. *)
From Coq Require Import String Permutation Sorted.
From Verif Require Import Base BaseLemmas UtilsModel GaussianModel BenchmarkModel BenchmarkSpec BenchmarkThms TablesModel TablesSpec TablesProofs TablesThms.
Open Scope R_scope.
Local Notation length := List.length.
Local Open Scope string_scope.

Definition ex_row e t n v m := {| r_estimator := e; r_task := t; r_n := n; r_estimate := Fin v; r_true := Fin m |}.
(** Two estimators, two tasks, two sample sizes; CCA was not run on the second task. *)
Definition ex_results : list row :=
  [ex_row "KSG" "normal" 1000 3 2; ex_row "KSG" "normal" 5000 5 2; ex_row "KSG" "student" 1000 1 1; ex_row "CCA" "normal" 1000 2 2].
Definition ex_log2 (x : R) : fl := np_log2 (Fin x).

Lemma ex_table n : create_benchmark_table ex_results n false =
  Ok ({| tb_index := ["normal"; "student"]; tb_columns := ["CCA"; "KSG"; "True MI"];
         tb_values := [[Fin (rsum [2] / INR 1); Fin (rsum [3; 5] / INR 2); Fin 2]; [NaN; Fin (rsum [1] / INR 1); Fin 1]] |},
      {| tb_index := ["normal"; "student"]; tb_columns := ["CCA"; "KSG"; "True MI"];
         tb_values := [[pd_mean [np_log2 (np_divide (Fin 2) (Fin 2))]; pd_mean [np_log2 (np_divide (Fin 3) (Fin 2)); np_log2 (np_divide (Fin 5) (Fin 2))]; Fin 0];
                       [NaN; pd_mean [np_log2 (np_divide (Fin 1) (Fin 1))]; Fin 0]] |}).
Proof. reflexivity. Qed.

Lemma ex_cell t task e v i j r : nth_error (tb_index t) i = Some task -> nth_error (tb_columns t) j = Some e -> nth_error (tb_values t) i = Some r -> nth_error r j = Some v ->
  cell t task e v.
Proof. intros. exists i, j, r. auto. Qed.

Lemma ex_ksg : exists t u, create_benchmark_table ex_results (Some 1000%Z) false = Ok (t, u) /\ cell t "normal" "KSG" (Fin 4) /\ cell t "student" "CCA" NaN /\
  cell t "normal" "True MI" (Fin 2) /\ cell u "normal" "True MI" (Fin 0).
Proof.
  do 2 eexists. split; [apply ex_table|]. split; [|split; [|split]].
  - replace (Fin 4) with (Fin (rsum [3; 5] / INR 2)) by (apply f_equal; cbn [rsum fold_right]; change (INR 2) with (1 + 1); lra).
    now apply (ex_cell _ _ _ _ 0 1 [Fin (rsum [2] / INR 1); Fin (rsum [3; 5] / INR 2); Fin 2]).
  - now apply (ex_cell _ _ _ _ 1 0 [NaN; Fin (rsum [1] / INR 1); Fin 1]).
  - now apply (ex_cell _ _ _ _ 0 2 [Fin (rsum [2] / INR 1); Fin (rsum [3; 5] / INR 2); Fin 2]).
  - eapply (ex_cell _ _ _ _ 0 2); reflexivity.
Qed.

(** The table is not restricted to the sample size asked for. *)
Lemma not_restricted : ~ (forall results n t u task e v, e <> "True MI" -> create_benchmark_table results (Some n) false = Ok (t, u) -> cell t task e v ->
  mean_of (map r_estimate (seeds results e task n)) v).
Proof.
  intros H. destruct ex_ksg as (t & u & E & C & _). assert (Ne : "KSG" <> "True MI") by discriminate. assert (M := H _ _ _ _ _ _ _ Ne E C). cbn in M.
  inversion M as [|xs Hx Ex Em| | |]; subst. destruct xs as [|x [|y xs]]; try discriminate. cbn in Ex, Em. injection Ex as <-.
  unfold rmean in Em. cbn in Em. lra.
Qed.
Lemma not_default_restricted : ~ (forall results t u task e v, e <> "True MI" -> create_benchmark_table results None false = Ok (t, u) -> cell t task e v ->
  mean_of (map r_estimate (seeds results e task (fold_right Z.max 0%Z (map r_n results)))) v).
Proof.
  intros H. destruct ex_ksg as (t & u & E & C & _). rewrite (benchmark_any_n _ _ None) in E. assert (Ne : "KSG" <> "True MI") by discriminate. assert (M := H _ _ _ _ _ _ Ne E C). cbn in M.
  inversion M as [|xs Hx Ex Em| | |]; subst. destruct xs as [|x [|y xs]]; try discriminate. cbn in Ex, Em. injection Ex as <-.
  unfold rmean in Em. cbn in Em. lra.
Qed.

(** An estimator with this name makes the pivot fail. *)
Lemma ex_clash : create_benchmark_table [ex_row "True MI" "normal" 1000 1 1] None false = Err ValueError.
Proof. reflexivity. Qed.

(** Convergence: a seed with a tenth of the best is dropped. *)
Definition ex_seeds := [ex_row "MINE" "normal" 1000 1 1; ex_row "MINE" "normal" 1000 (1/20) 1].
Lemma ex_good : good ex_seeds (ex_row "MINE" "normal" 1000 1 1) /\ ~ good ex_seeds (ex_row "MINE" "normal" 1000 (1/20) 1).
Proof.
  split.
  - eapply best_converges; [reflexivity|lra| |now left]. intros r [<-|[<-|[]]] _ _ _; cbn; destruct (Rlt_dec _ _); try reflexivity; exfalso; lra.
  - intros (m & L & H). assert (L' : largest (map r_estimate (seeds ex_seeds "MINE" "normal" 1000)) (Fin 1)).
    { right. split; [discriminate|]. split; [now left|]. intros x [<-|[<-|[]]]; cbn; destruct (Rlt_dec _ _); try reflexivity; exfalso; lra. }
    rewrite (largest_unique _ _ _ L L') in H. cbn in H. destruct (Rlt_dec _ _); [lra|discriminate].
Qed.
Lemma ex_dropped : keeping (counted true ex_seeds) (runs ex_seeds "MINE" "normal") [ex_row "MINE" "normal" 1000 1 1].
Proof.
  destruct ex_good as [G B]. cbn. constructor; [now intros _|]. constructor; [|constructor]. intros K. now apply B, K.
Qed.
Lemma ex_fraction : exists t, create_convergence_table ex_seeds None = Ok t /\ cell t "normal" "MINE" (Fin (1 / 2)).
Proof.
  destruct (convergence_table ex_seeds None) as (t & E & _ & _ & I & J & T & C). exists t. split; [exact E|].
  destruct (T "normal" "MINE") as (v & Hv).
  - apply I. eexists. split; [now left|reflexivity].
  - apply J. eexists. split; [now left|reflexivity].
  - destruct (C _ _ _ Hv) as [[K _]|(s & K & _ & ->)]; [discriminate|]. assert (S := ex_dropped).
    assert (s = [ex_row "MINE" "normal" 1000 1 1]) as ->.
    { eapply keeping_unique; [exact K|]. clear - S. destruct ex_good as [G B]. cbn. constructor; [exact G|]. constructor; [exact B|constructor]. }
    cbn in Hv. replace (1 / 2) with (1 / (1 + 1)) by lra. exact Hv.
Qed.

(** The best seed need not converge. *)
Lemma best_not_converged : ~ (forall data r, In r data -> largest (map r_estimate (seeds data (r_estimator r) (r_task r) (r_n r))) (r_estimate r) ->
  r_estimate r <> NaN -> good data r).
Proof.
  intros H. refine (none_converges [ex_row "MINE" "normal" 1000 (-1) 1] (ex_row "MINE" "normal" 1000 (-1) 1) _ _ (H _ _ _ _ _)).
  - now left.
  - intros r [<-|[]] _ _ _. cbn. destruct (Rlt_dec _ _); [exfalso; lra|reflexivity].
  - now left.
  - right. split; [discriminate|]. split; [now left|]. intros x [<-|[]]. cbn. destruct (Rlt_dec _ _); [exfalso; lra|reflexivity].
  - discriminate.
Qed.

(** ** Reading *)
Definition ex_yaml (v : py) : result py :=
  match v with
  | PStr "{dim_x: 1, mi_true: 7}" => Ok (PDict [("dim_x", PInt 1); ("mi_true", PInt 7)])
  | PStr "{}" => Ok (PDict [])
  | _ => Err OtherError
  end.
Definition ex_line : sdict py :=
  [("task_id", PStr "normal"); ("mi_true", PInt 2); ("task_params", PStr "{dim_x: 1, mi_true: 7}"); ("additional_information", PStr "{}")].
Lemma ex_read : read_results ex_yaml true false [ex_line] =
  Ok [[("task_id", PStr "normal"); ("mi_true", PInt 7); ("additional_information", PDict []); ("dim_x", PInt 1)]].
Proof. reflexivity. Qed.
(** A parameter of the task replaces a column of the same name. *)
Lemma column_lost : ~ (forall yaml row out k, k <> "task_params" -> k <> "additional_information" -> sdict_get row k <> None ->
  read_row yaml true false row = Ok out -> sdict_get out k = sdict_get row k).
Proof.
  intros H. specialize (H ex_yaml ex_line _ "mi_true" ltac:(discriminate) ltac:(discriminate) ltac:(discriminate) eq_refl). discriminate.
Qed.

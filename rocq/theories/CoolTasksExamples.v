(** Concrete instances for the statements in [CoolTasksProps]. *)
From Coq Require Import String Lra.
From Verif Require Import Base UtilsModel TablesModel CoolTasksModel CoolTasksSpec CoolTasksThms.
Open Scope R_scope.
Local Notation length := List.length.

Definition cool_row (e t : string) (n : Z) (v : R) : row := {| r_estimator := e; r_task := t; r_n := n; r_estimate := Fin v; r_true := Fin 1 |}.
Definition cool_data : list row := [cool_row "CCA" "Fence" 5000 2; cool_row "KSG-10" "X" 5000 3; cool_row "other" "Y" 1000 0; cool_row "CCA" "AI" 5000 4].
Definition no_shift (_ : string) (n : nat) : list R := repeat 0 n.
Lemma no_shift_ok e n : length (no_shift e n) = n.
Proof. apply repeat_length. Qed.
Lemma cool_known : forall r, In r cool_data -> r_n r = 5000%Z -> In (r_task r) cool_tasks /\ In (r_estimator r) cool_estimators.
Proof. intros r I N. cbn [cool_data In] in I. destruct I as [<-|[<-|[<-|[<-|[]]]]]; try discriminate N; cbn; auto 9. Qed.
Lemma cool_instance : (forall e n, length (no_shift e n) = n) /\ (forall r, In r cool_data -> r_n r = 5000%Z -> In (r_task r) cool_tasks /\ In (r_estimator r) cool_estimators).
Proof. exact (conj no_shift_ok cool_known). Qed.
Lemma cool_line : exists p, plot_results no_shift cool_data = Ok p /\ exists l, In l (rp_truth p) /\ fst (fst l) = 2 - 1 / 5 /\ snd l = Fin 1.
Proof.
  destruct (results_drawn no_shift cool_data no_shift_ok cool_known) as [p [ids [tasks [E [_ [_ [[_ D] [F _]]]]]]]]. exists p. split; [exact E|].
  assert (I : In "Fence"%string tasks) by (apply D; eexists; split; [left; reflexivity|]; split; reflexivity).
  assert (X : exists l, In l (rp_truth p) /\ line_of cool_data "Fence" l).
  { clear -F I. induction F as [|t l ts ls H F IH]; [destruct I|]. destruct I as [->|I]; [exists l; split; [now left|exact H]|]. destruct (IH I) as [l' [A B]]. exists l'. split; [now right|exact B]. }
  destruct X as [l [A B]]. exists l. split; [exact A|]. split.
  - destruct B as [k [name [P ->]]]. unfold placed in P. cbn [In] in P. destruct P as [P|[P|[P|[P|[]]]]]; try discriminate P. injection P as <- <-. cbn [fst]. change (INR 2) with (1 + 1). lra.
  - apply (line_at_truth cool_data "Fence" 1 l); [eexists; split; [left; reflexivity|]; split; reflexivity| |exact B].
    intros r Ir _ _. cbn [cool_data In] in Ir. now destruct Ir as [<-|[<-|[<-|[<-|[]]]]].
Qed.

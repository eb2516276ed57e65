(** The real numbers of the standard library as a field in the sense of
    mathcomp, so that its determinants and block matrices can be used.  The
    structure needs a choice operator on R, taken from the standard library's
    [ClassicalEpsilon]. *)
From Coq Require Import Reals ClassicalEpsilon.
From mathcomp Require Import all_ssreflect ssralg matrix mxalgebra.
Set Implicit Arguments.
Unset Strict Implicit.
Unset Printing Implicit Defensive.
Local Open Scope R_scope.

Definition Req_b (x y : R) : bool := if Req_EM_T x y then true else false.

Lemma Req_bP : Equality.axiom Req_b.
Proof. move=> x y; rewrite /Req_b; case: (Req_EM_T x y) => h; constructor; exact h. Qed.

Canonical R_eqMixin := EqMixin Req_bP.
Canonical R_eqType := Eval hnf in EqType R R_eqMixin.

(** A choice operator: an element satisfying [P], whenever there is one. *)
Definition R_find (P : pred R) (n : nat) : option R :=
  let x := epsilon (inhabits 0) (fun x => P x) in if P x then Some x else None.

Lemma R_find_ok (P : pred R) n x : R_find P n = Some x -> P x.
Proof. by rewrite /R_find; case h: (P _) => //; case=> <-. Qed.

Lemma R_find_complete (P : pred R) : (exists x, P x) -> exists n, R_find P n.
Proof.
  move=> h; exists 0%N; rewrite /R_find.
  have p := epsilon_spec (inhabits 0) (fun x => P x) h.
  by rewrite p.
Qed.

Lemma R_find_ext (P Q : pred R) : P =1 Q -> R_find P =1 R_find Q.
Proof.
  move=> h n; rewrite /R_find.
  have e : (fun x => is_true (P x)) = (fun x => is_true (Q x)).
  { apply: FunctionalExtensionality.functional_extensionality => x; by rewrite h. }
  by rewrite e h.
Qed.

Definition R_choiceMixin : choiceMixin R :=
  Choice.Mixin R_find_ok R_find_complete R_find_ext.
Canonical R_choiceType := Eval hnf in ChoiceType R R_choiceMixin.

Lemma RplusA : associative Rplus. Proof. by move=> x y z; rewrite Rplus_assoc. Qed.
Lemma RmultA : associative Rmult. Proof. by move=> x y z; rewrite Rmult_assoc. Qed.
Lemma Rmult_addl : left_distributive Rmult Rplus.
Proof. by move=> x y z; rewrite Rmult_plus_distr_r. Qed.
Lemma R_one_neq0 : 1 != 0 :> R.
Proof. by apply/eqP; exact: R1_neq_R0. Qed.

Definition R_zmodMixin := ZmodMixin RplusA Rplus_comm Rplus_0_l Rplus_opp_l.
Canonical R_zmodType := Eval hnf in ZmodType R R_zmodMixin.
Definition R_ringMixin := ComRingMixin RmultA Rmult_comm Rmult_1_l Rmult_addl R_one_neq0.
Canonical R_ringType := Eval hnf in RingType R R_ringMixin.
Canonical R_comRingType := Eval hnf in ComRingType R Rmult_comm.

Definition Rinv_total (x : R) : R := if x == 0 then 0 else / x.
Lemma Rinv_total_l (x : R) : x != 0 -> (Rinv_total x * x)%R = 1.
Proof.
  move=> h; rewrite /Rinv_total; case e: (x == 0); first by rewrite e in h.
  apply: Rinv_l; by apply/eqP.
Qed.
Lemma Rinv_total_0 : Rinv_total 0 = 0.
Proof. by rewrite /Rinv_total eqxx. Qed.
Definition R_fieldUnitMixin := FieldUnitMixin Rinv_total_l Rinv_total_0.
Canonical R_unitRingType := Eval hnf in UnitRingType R R_fieldUnitMixin.
Canonical R_comUnitRingType := Eval hnf in [comUnitRingType of R].
Lemma R_field_axiom : GRing.Field.mixin_of R_unitRingType.
Proof. by move=> x h. Qed.
Definition R_idomainMixin := FieldIdomainMixin R_field_axiom.
Canonical R_idomainType := Eval hnf in IdomainType R R_idomainMixin.
Canonical R_fieldType := Eval hnf in FieldType R R_field_axiom.

(** mathcomp's operations are the usual ones. *)
Lemma RstructE :
  (forall x y : R, GRing.add x y = x + y) * (forall x : R, GRing.opp x = - x)
  * (forall x y : R, GRing.mul x y = x * y) * ((GRing.zero _ : R) = 0) * ((GRing.one _ : R) = 1).
Proof. by []. Qed.


(** What the script which times the estimators should accept. *)
From Verif Require Import Base TimingModel.
Open Scope Z_scope.

(** Sizes which make sense. *)
Definition accepted (a : timing_args) : Prop := 1 <= arg_neighborhood a /\ 1 <= arg_n_samples a /\ 1 <= arg_chunk_size a /\ 1 <= arg_dim_x a.
(** The dimension of Y which was meant: that of X when none (or zero) is given. *)
Definition meant (a : timing_args) (dy : Z) : Prop :=
  (arg_dim_y a = None \/ arg_dim_y a = Some 0) /\ dy = arg_dim_x a \/ arg_dim_y a = Some dy /\ dy <> 0.

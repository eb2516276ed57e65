(** Vocabulary of the statements about the KDE and CCA estimators. *)
From Verif Require Import Base UtilsModel UtilsSpec SimpleEstimatorsModel.
Open Scope R_scope.

(** Average of minus a function over points. *)
Definition mean_minus (f : list R -> R) (m : matrix) : R := rmean (map (fun p => - f p) m).

(** Pearson's correlation coefficient of two paired lists. *)
Definition centred (l : list R) : list R := map (fun v => v - rmean l) l.
Definition dot (u v : list R) : R := rsum (map (fun p => fst p * snd p) (combine u v)).
Definition pearson (u v : list R) : R :=
  dot (centred u) (centred v) / sqrt (dot (centred u) (centred u) * dot (centred v) (centred v)).

(** The second list is an affine image of the first one. *)
Definition affinely_related (u v : list R) : Prop :=
  exists a b, a <> 0 /\ v = map (fun t => a * t + b) u.

(** Two KDE estimators with the same settings (possibly fitted to different data). *)
Definition same_settings (a b : kernel_density) : Prop :=
  kd_kernel a = kd_kernel b /\ kd_bandwidth a = kd_bandwidth b.
Definition kde_same (a b : kde) : Prop :=
  same_settings (kde_x a) (kde_x b) /\ same_settings (kde_y a) (kde_y b) /\ same_settings (kde_xy a) (kde_xy b) /\
  kde_standardize a = kde_standardize b.

(** Running earlier estimates. *)
Fixpoint kde_run ld (e : kde) (calls : list (matrix * matrix)) : kde :=
  match calls with
  | [] => e
  | (x, y) :: rest => kde_run ld (fst (estimate_entropies ld e x y)) rest
  end.

(** Exchanging the roles of x and y. *)
Definition kde_swap (e : kde) : kde :=
  {| kde_x := kde_y e; kde_y := kde_x e; kde_xy := kde_xy e; kde_standardize := kde_standardize e |}.

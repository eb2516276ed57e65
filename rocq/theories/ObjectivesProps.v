(** Properties of the variational objectives
    (src/bmi/estimators/neural/_backend_linear_memory.py, _backend_quadratic_memory.py). *)
From Verif Require Import Base BaseLemmas ObjectivesModel ObjectivesSpec ObjectivesProofs.
Open Scope R_scope.

(** C18: the two backends agree for every critic and every non-empty paired batch
    (also for batches of one, where DV and NWJ are NaN in both). *)
Theorem C18_backends_agree :
  forall {P Q} (f : P -> Q -> R) xs ys, xs <> [] -> length xs = length ys ->
  lin_infonce f xs ys = quad_infonce f xs ys /\
  lin_donsker_varadhan f xs ys = quad_donsker_varadhan f xs ys /\
  lin_nwj f xs ys = quad_nwj f xs ys.
Proof. exact @backends_agree. Qed.
Print Assumptions C18_backends_agree.

(** C18: the values are the textbook ones. *)
Theorem C18_textbook :
  forall {P Q} (f : P -> Q -> R) xs ys, (2 <= length xs)%nat -> length xs = length ys ->
  lin_infonce f xs ys = Fin (textbook_infonce f xs ys) /\
  lin_donsker_varadhan f xs ys = Fin (textbook_dv f xs ys) /\
  lin_nwj f xs ys = Fin (textbook_nwj f xs ys).
Proof. exact @backends_textbook. Qed.
Print Assumptions C18_textbook.

(** C18: a batch of one pair has no unpaired combination. *)
Theorem C18_single_pair :
  forall {P Q} (f : P -> Q -> R) x y,
  lin_donsker_varadhan f [x] [y] = NaN /\ lin_nwj f [x] [y] = NaN /\ lin_infonce f [x] [y] = Fin 0.
Proof. exact @dv_single. Qed.
Print Assumptions C18_single_pair.

(** A batch of two with the critic x * y: only x = 2, y = 3 scores non-zero. *)
Example C18_example :
  lin_donsker_varadhan Rmult [0; 2] [1; 3] = Fin (6 / 2 - ln ((1 + exp 2) / 2)).
Proof.
  destruct (C18_textbook Rmult [0; 2] [1; 3]) as (_ & E & _); [simpl; lia|reflexivity|].
  rewrite E. f_equal. unfold textbook_dv, mean_paired, mean_exp_unpaired, rmean, indexed. cbn.
  rewrite !Rmult_0_l, exp_0, !Rmult_1_r. f_equal; [lra|]. f_equal. lra.
Qed.

(** C19: InfoNCE stays below log n, NWJ below DV. *)
Theorem C19_order :
  forall {P Q} (f : P -> Q -> R) xs ys, (2 <= length xs)%nat -> length xs = length ys ->
  exists i d w, quad_infonce f xs ys = Fin i /\ quad_donsker_varadhan f xs ys = Fin d /\ quad_nwj f xs ys = Fin w /\
    i < ln (INR (length xs)) /\ w <= d.
Proof. exact @impl_order. Qed.
Print Assumptions C19_order.

(** C19: adding a constant to the critic does not change DV; adding any function
    of x (in particular a constant) does not change InfoNCE. *)
Theorem C19_offsets :
  forall {P Q} (f : P -> Q -> R) (c : R) (g : P -> R) xs ys, (2 <= length xs)%nat -> length xs = length ys ->
  quad_donsker_varadhan (fun x y => f x y + c) xs ys = quad_donsker_varadhan f xs ys /\
  quad_infonce (fun x y => f x y + g x) xs ys = quad_infonce f xs ys.
Proof. exact @impl_shift. Qed.
Print Assumptions C19_offsets.

(** C19: DV is the maximum of NWJ over additive constants. *)
Theorem C19_nwj_attains_dv :
  forall {P Q} (f : P -> Q -> R) xs ys, (2 <= length xs)%nat -> length xs = length ys ->
  exists d c0, quad_donsker_varadhan f xs ys = Fin d /\
    quad_nwj (fun x y => f x y + c0) xs ys = Fin d /\
    forall c w, quad_nwj (fun x y => f x y + c) xs ys = Fin w -> w <= d.
Proof. exact @impl_nwj_attains. Qed.
Print Assumptions C19_nwj_attains_dv.

Example C19_example : (2 <= length [0; 2])%nat /\ length [0; 2] = length [1; 3].
Proof. simpl. split; lia. Qed.

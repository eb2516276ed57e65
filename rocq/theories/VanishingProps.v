(** C92: mutual information appears and vanishes when distributions are mixed
    ([scripts/Mixtures/plot_appearing_and_vanishing_mi.py]). *)
From Coq Require Import String Reals.
From Verif Require Import Base UtilsModel CriticsModel VanishingModel VanishingSpec VanishingThms.
Open Scope R_scope.

(** C92: the mutual information of the five densities: the mixture of two distributions with independent variables has
    information log 2, and the mixture of two distributions with information log 2 has none. *)
Theorem C92_informations : mutual_information bottom_left 0 /\ mutual_information top_right 0 /\ mutual_information diagonal_mixture (ln 2) /\
  mutual_information other_mixture (ln 2) /\ mutual_information all_mixture 0.
Proof. exact informations. Qed.
Print Assumptions C92_informations.

(** C92: a density has at most one mutual information. *)
Theorem C92_unique : forall p v w, mutual_information p v -> mutual_information p w -> v = w.
Proof. exact information_unique. Qed.
Print Assumptions C92_unique.
Example C92_unique_example : mutual_information diagonal_mixture (ln 2).
Proof. exact (proj1 (proj2 (proj2 informations))). Qed.

(** C92: the five pictures show these densities, and their titles hold their mutual information. *)
Theorem C92_pictures : exists c1 c2 c3 c4 c5, main = Ok [c1; c2; c3; c4; c5] /\
  (forall c, In c [c1; c2; c3; c4; c5] -> pc_lower c = true /\ pc_extent c = (0, 2, 0, 2) /\ pc_vmin c = 0 /\ pc_vmax c = 1) /\
  shows (pc_array c1) bottom_left /\ title_value (pc_title c1) 0 /\
  shows (pc_array c2) top_right /\ title_value (pc_title c2) 0 /\
  shows (pc_array c3) diagonal_mixture /\ title_value (pc_title c3) (ln 2) /\
  shows (pc_array c4) other_mixture /\ title_value (pc_title c4) (ln 2) /\
  shows (pc_array c5) all_mixture /\ title_value (pc_title c5) 0.
Proof. exact pictures_show. Qed.
Print Assumptions C92_pictures.

(** C92: no position of the grid is on the line between the squares, and the colours stay within their limits. *)
Theorem C92_positions : forall i, INR i * (2 / 49) <> 1.
Proof. exact positions_inside. Qed.
Print Assumptions C92_positions.
Theorem C92_limits : forall x y, 0 <= bottom_left x y <= 1 /\ 0 <= top_right x y <= 1 /\ 0 <= diagonal_mixture x y <= 1 / 2 /\
  0 <= other_mixture x y <= 1 / 2 /\ 0 <= all_mixture x y <= 1 / 4.
Proof. exact within_limits. Qed.
Print Assumptions C92_limits.
Example C92_limits_example : diagonal_mixture (1 / 2) (1 / 2) = 1 / 2 /\ diagonal_mixture (1 / 2) (3 / 2) = 0.
Proof.
  unfold diagonal_mixture, bottom_left, top_right, half_half, unit_square.
  repeat match goal with |- context [Rlt_dec ?a ?b] => destruct (Rlt_dec a b); try lra end.
Qed.

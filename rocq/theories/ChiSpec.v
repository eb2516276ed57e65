(** Vocabulary of the statements about the combination of chi-squared variables. *)
From Verif Require Import Base UtilsModel GaussianModel ChiModel.
Open Scope R_scope.
Local Notation length := List.length.

(** Mutual information of a normal distribution with canonical correlations [rho]. *)
Definition canonical_information (rho : list R) : R := rsum (map (fun r => - (1 / 2) * ln (1 - r ^ 2)) rho).
(** Sums and differences of the paired coordinates, divided by their standard deviations. *)
Definition plus_part (rho : list R) (i : nat) (x y : list R) : R := (nth i x 0 + nth i y 0) / sqrt (2 * (1 + nth i rho 0)).
Definition minus_part (rho : list R) (i : nat) (x y : list R) : R := (nth i x 0 - nth i y 0) / sqrt (2 * (1 - nth i rho 0)).
(** Sum of differences of squares with the correlations as weights. *)
Definition chi2_terms (rho : list R) (a b : nat -> R) : R :=
  rsum (map (fun i => nth i rho 0 / 2 * (a i ^ 2 - b i ^ 2)) (seq 0 (length rho))).

(** An expectation is linear. *)
Definition linear {A} (E : (A -> R) -> R) : Prop :=
  (forall f g, (forall z, f z = g z) -> E f = E g) /\ forall c d f g, E (fun z => c * f z + d * g z) = c * E f + d * E g.
(** Canonical correlations as second moments of the coordinates of X and Y. *)
Record canonical_moments (rho : list R) (E : (list R * list R -> R) -> R) : Prop := {
  cm_xx : forall i j, (i < length rho)%nat -> (j < length rho)%nat -> E (fun z => nth i (fst z) 0 * nth j (fst z) 0) = if Nat.eqb i j then 1 else 0;
  cm_yy : forall i j, (i < length rho)%nat -> (j < length rho)%nat -> E (fun z => nth i (snd z) 0 * nth j (snd z) 0) = if Nat.eqb i j then 1 else 0;
  cm_xy : forall i j, (i < length rho)%nat -> (j < length rho)%nat -> E (fun z => nth i (fst z) 0 * nth j (snd z) 0) = if Nat.eqb i j then nth i rho 0 else 0
}.
(** Moments of squares of independent standard normal variables. *)
Record standard_squares {A} (m : nat) (a b : nat -> A -> R) (E : (A -> R) -> R) : Prop := {
  ss_one : E (fun _ => 1) = 1;
  ss_a : forall i, (i < m)%nat -> E (fun z => a i z ^ 2) = 1;
  ss_b : forall i, (i < m)%nat -> E (fun z => b i z ^ 2) = 1;
  ss_aa : forall i j, (i < m)%nat -> (j < m)%nat -> E (fun z => a i z ^ 2 * a j z ^ 2) = if Nat.eqb i j then 3 else 1;
  ss_bb : forall i j, (i < m)%nat -> (j < m)%nat -> E (fun z => b i z ^ 2 * b j z ^ 2) = if Nat.eqb i j then 3 else 1;
  ss_ab : forall i j, (i < m)%nat -> (j < m)%nat -> E (fun z => a i z ^ 2 * b j z ^ 2) = 1
}.

(** Variance of a sample. *)
Definition sample_variance (l : list R) : R :=
  let mean := rsum l / INR (length l) in rsum (map (fun v => (v - mean) ^ 2) l) / INR (length l).
(** What a panel shows for points drawn from the distribution and standard normal [noise]. *)
Definition drawn (rho : list R) (points noise : matrix) (c : comparison) : Prop :=
  let m := length rho in
  let mi := canonical_information rho in
  let values := map (fun z => mi + chi2_terms rho (fun i => plus_part rho i (firstn m z) (skipn m z)) (fun i => minus_part rho i (firstn m z) (skipn m z))) points in
  let sd := sqrt (rsum (map (fun r => r ^ 2) rho)) in
  cp_profile c = map Fin values /\ cp_empirical c = Fin (sample_variance values) /\
  cp_chi2 c = map (fun k => Fin (mi + chi2_terms rho (fun i => entry noise i k) (fun i => entry noise (i + m) k))) (seq 0 (Z.to_nat 20000)) /\
  cp_bins c = map (fun k => -2 + INR k * (3 / 10)) (seq 0 21) /\
  cp_analytic c = rsum (map (fun r => r ^ 2) rho) /\ cp_line c = Fin mi /\ cp_span c = (Fin (mi - sd), Fin (mi + sd)).
(** A draw of [n] points has [n] points with as many coordinates as the mean. *)
Definition draws_points {J} (normal_draw : list R -> option matrix -> JaxModel.key J -> nat -> matrix) : Prop :=
  forall mean scale k n, length (normal_draw mean scale k n) = n /\ Forall (fun z => length z = length mean) (normal_draw mean scale k n).

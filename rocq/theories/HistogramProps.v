(** Properties of the histogram estimator (src/bmi/estimators/_histogram.py).
    [hist_ok par dx dy x y]: positive numbers of bins, [x] and [y] are non-empty
    arrays of the same length with [dx], [dy] >= 1 columns. *)
From Coq Require Import Permutation.
From Verif Require Import Base BaseLemmas UtilsModel UtilsSpec HistogramModel HistogramSpec PluginProofs HistogramThms.
Open Scope R_scope.

(** A sample used in the examples: two bins per axis. *)
Definition ex_par := {| hp_bins_x := 2; hp_bins_y := 2; hp_standardize := true |}.
Definition ex_x : matrix := [[0]; [1]; [2]; [3]].
Definition ex_y : matrix := [[0]; [5]; [0]; [5]].

Example ex_ok : hist_ok ex_par 1 1 ex_x ex_y.
Proof. repeat split; try (simpl; lia); try (repeat constructor); discriminate. Qed.

Example ex_cells_x : cells_of 2 ex_x [[0]; [0]; [1]; [1]]%nat.
Proof.
  assert (R : value_range [0; 1; 2; 3] 0 3).
  { right. simpl. repeat split; auto; try lra; intuition lra. }
  repeat constructor; cbn [length]; intros j Hj; assert (j = 0)%nat by lia; subst j; exists 0, 3;
    (split; [exact R|]); (split; [cbn [nth]; lia|]); cbn -[INR]; simpl INR; (left; lra) || (right; split; [lia|lra]).
Qed.

Example ex_cells_y : cells_of 2 ex_y [[0]; [1]; [0]; [1]]%nat.
Proof.
  assert (R : value_range [0; 5; 0; 5] 0 5).
  { right. simpl. repeat split; auto; try lra; intuition lra. }
  repeat constructor; cbn [length]; intros j Hj; assert (j = 0)%nat by lia; subst j; exists 0, 5;
    (split; [exact R|]); (split; [cbn [nth]; lia|]); cbn -[INR]; simpl INR; (left; lra) || (right; split; [lia|lra]).
Qed.

(** C14: the estimate is the plug-in mutual information of the cells the points
    fall into (cells exist and the value is the same for any way to name them). *)
Theorem C14_plugin :
  forall par dx dy x y, hist_ok par dx dy x y ->
  exists lx ly, cells_of (hp_bins_x par) x lx /\ cells_of (hp_bins_y par) y ly /\
    forall lx' ly', cells_of (hp_bins_x par) x lx' -> cells_of (hp_bins_y par) y ly' ->
    hist_estimate par x y = Ok (plugin_mi label_dec label_dec (combine lx' ly')).
Proof. exact hist_is_plugin. Qed.
Print Assumptions C14_plugin.

(** C14: bounds.  [dx * log bins] is the log of the number of cells. *)
Theorem C14_bounds :
  forall par dx dy x y m, hist_ok par dx dy x y -> hist_estimate par x y = Ok m ->
  0 <= m /\ m <= INR dx * ln (INR (hp_bins_x par)) /\ m <= INR dy * ln (INR (hp_bins_y par)) /\
  m <= ln (INR (length x)).
Proof. exact hist_bounds. Qed.
Print Assumptions C14_bounds.

(** C14: zero exactly when the counts factorise. *)
Theorem C14_zero_iff :
  forall par dx dy x y lx ly,
  hist_ok par dx dy x y -> cells_of (hp_bins_x par) x lx -> cells_of (hp_bins_y par) y ly ->
  (hist_estimate par x y = Ok 0 <-> counts_factorise label_dec label_dec (combine lx ly)).
Proof. exact hist_zero_iff. Qed.
Print Assumptions C14_zero_iff.

Example C14_zero_example : hist_estimate ex_par ex_x ex_y = Ok 0.
Proof.
  apply (C14_zero_iff ex_par 1 1 ex_x ex_y _ _ ex_ok ex_cells_x ex_cells_y).
  intros a b Ha Hb. simpl in Ha, Hb.
  destruct Ha as [<-|[<-|[<-|[<-|[]]]]], Hb as [<-|[<-|[<-|[<-|[]]]]]; vm_compute; lra.
Qed.

(** ... and a sample with positive MI: y = x has MI log 2. *)
Example C14_positive_example : hist_estimate ex_par ex_x ex_x = Ok (ln 2).
Proof.
  rewrite (hist_plugin ex_par 1 1 ex_x ex_x [[0]; [0]; [1]; [1]]%nat [[0]; [0]; [1]; [1]]%nat);
    try exact ex_cells_x; try (simpl; lia); try (repeat constructor); try discriminate.
  f_equal. unfold plugin_mi, rmean. cbn [length map combine fst snd].
  unfold num, is_a, is_b. cbn.
  replace ((1 + 1 + 1 + 1) * (1 + 1) / ((1 + 1) * (1 + 1))) with 2 by lra. lra.
Qed.

(** C14: exchanging x and y (and their numbers of bins). *)
Theorem C14_symmetric :
  forall par dx dy x y, hist_ok par dx dy x y ->
  hist_estimate {| hp_bins_x := hp_bins_y par; hp_bins_y := hp_bins_x par; hp_standardize := hp_standardize par |} y x
  = hist_estimate par x y.
Proof. exact hist_symmetric. Qed.
Print Assumptions C14_symmetric.

(** C14: reordering the (paired) samples. *)
Theorem C14_permutation :
  forall par dx dy x y x' y', hist_ok par dx dy x y -> length x' = length y' ->
  Permutation (combine x y) (combine x' y') -> hist_estimate par x' y' = hist_estimate par x y.
Proof. exact hist_permutation. Qed.
Print Assumptions C14_permutation.

Example C14_permutation_example :
  Permutation (combine ex_x ex_y) (combine [[1]; [0]; [2]; [3]] [[5]; [0]; [0]; [5]]).
Proof. constructor. Qed.

(** C14: the constructor accepts exactly positive [n_bins_x] with [n_bins_y]
    absent or non-negative; 0 is silently replaced by [n_bins_x]. *)
Theorem C14_constructor :
  forall bx by_ std,
  (forall p, hist_init bx by_ std = Ok p ->
     (0 < hp_bins_x p)%nat /\ (0 < hp_bins_y p)%nat /\ Z.of_nat (hp_bins_x p) = bx /\ hp_standardize p = std /\
     Z.of_nat (hp_bins_y p) = match by_ with Some b => if Z.eqb b 0 then bx else b | None => bx end) /\
  ((exists p, hist_init bx by_ std = Ok p) <-> (0 < bx)%Z /\ match by_ with Some b => (0 <= b)%Z | None => True end).
Proof. exact hist_init_spec. Qed.
Print Assumptions C14_constructor.

Example C14_constructor_example :
  hist_init 2 (Some 0%Z) true = Ok ex_par /\ hist_init 2 (Some (-1)%Z) true = Err ValidationError.
Proof. split; reflexivity. Qed.

(** C15: units. *)
Theorem C15_units :
  forall par dx dy x y a b a' b',
  hist_ok par dx dy x y -> (forall j, (j < dx)%nat -> 0 < a j) -> (forall j, (j < dy)%nat -> 0 < a' j) ->
  hist_estimate par (affine_rows a b x) (affine_rows a' b' y) = hist_estimate par x y.
Proof. exact hist_units. Qed.
Print Assumptions C15_units.

(** C15: the standardize flag never changes the (exact) result, constant
    coordinates included. *)
Theorem C15_flag :
  forall nx ny dx dy x y,
  hist_ok {| hp_bins_x := nx; hp_bins_y := ny; hp_standardize := true |} dx dy x y ->
  hist_estimate {| hp_bins_x := nx; hp_bins_y := ny; hp_standardize := true |} x y
  = hist_estimate {| hp_bins_x := nx; hp_bins_y := ny; hp_standardize := false |} x y.
Proof. exact hist_flag. Qed.
Print Assumptions C15_flag.

Example C15_example : hist_ok ex_par 1 1 ex_x ex_y /\ affine_rows (fun _ => 2) (fun _ => 1) ex_x = [[2 * 0 + 1]; [2 * 1 + 1]; [2 * 2 + 1]; [2 * 3 + 1]].
Proof. split; [exact ex_ok|reflexivity]. Qed.

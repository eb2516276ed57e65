(** Model of [scripts/Beyond_Normal/figures/student/correction.py]: the correction added for a Student distribution against the
    degrees of freedom.  Line numbers are of this file.
    Simplifications: exact reals; of the figure the curves; the axes, the legend's font and the file are left out.  [MARKER_LIST]
    (24-34) is not used by the script. *)
From Coq Require Import String Ascii.
From Verif Require Import Base UtilsModel GaussianModel TasksModel.
Open Scope Z_scope.

(** One call of [ax.plot], 47. *)
Record curve := {
  cv_x : list Z;
  cv_y : list fl;
  cv_colour : string;
  cv_label : string
}.

Section Correction.
  (** [scipy.special.digamma] and the logarithm of [scipy.special.gamma]. *)
  Variables psi log_gamma : R -> R.

  (** correction, 20-21; the dimensions are natural numbers. *)
  Definition correction (df : Z) (m n : nat) : fl := mi_correction_function psi log_gamma (Fin (IZR df)) m n.

  (** nus, 41. *)
  Definition nus : list Z := map Z.of_nat (seq 1 29).
  (** mns, 42. *)
  Definition mns : list (nat * nat) := [(1, 1); (1, 2); (1, 10); (2, 2); (3, 3); (5, 5)]%nat.

  (** The label of a curve, 47; the character 9 is the tabulator. *)
  Definition curve_label (m n : nat) : string :=
    ("$m=" ++ int_str (Z.of_nat m) ++ "$," ++ String "009" ("$n=" ++ int_str (Z.of_nat n) ++ "$"))%string.
  (** The body of the loop, 45-47. *)
  Definition plot_curve (i : nat) (mn : nat * nat) : curve :=
    {| cv_x := nus; cv_y := map (fun df => correction df (fst mn) (snd mn)) nus;
       cv_colour := ("C" ++ int_str (Z.of_nat i + 1))%string; cv_label := curve_label (fst mn) (snd mn) |}.
  (** main, 37-57: the loop over [enumerate(mns)], 44. *)
  Definition main : list curve := map (fun p => plot_curve (fst p) (snd p)) (combine (seq 0 (length mns)) mns).
End Correction.

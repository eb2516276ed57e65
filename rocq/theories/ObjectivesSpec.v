(** The textbook expressions, independent of the implementations. *)
From Verif Require Import Base.
Open Scope R_scope.

Section Textbook.
  Context {P Q : Type} (f : P -> Q -> R) (xs : list P) (ys : list Q).

  Let n := INR (length xs).

  (** Average score of the paired points. *)
  Definition mean_paired : R := rmean (map (fun p => f (fst p) (snd p)) (combine xs ys)).

  (** Points with their positions in the batch. *)
  Definition indexed {A} (l : list A) : list (nat * A) := combine (seq 0 (length l)) l.

  (** Average over the n (n - 1) unpaired combinations of [exp (f x_i y_j)], i <> j. *)
  Definition mean_exp_unpaired : R :=
    rsum (map (fun p => rsum (map (fun q =>
            if Nat.eqb (fst p) (fst q) then 0 else exp (f (snd p) (snd q))) (indexed ys)))
          (indexed xs)) / (n * (n - 1)).

  Definition textbook_dv : R := mean_paired - ln mean_exp_unpaired.
  Definition textbook_nwj : R := mean_paired - exp (-1) * mean_exp_unpaired.
  (** Average over i of [log (exp f(x_i, y_i) / ((1/n) sum_j exp f(x_i, y_j)))]. *)
  Definition textbook_infonce : R :=
    rmean (map (fun p => ln (exp (f (fst p) (snd p)) / rmean (map (fun y => exp (f (fst p) y)) ys)))
               (combine xs ys)).
End Textbook.

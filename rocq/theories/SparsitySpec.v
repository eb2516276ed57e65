(** Vocabulary of the statements about the tasks of prescribed sparsity. *)
From Coq Require Import String.
From Verif Require Import Base UtilsModel JaxModel SamplersModel GaussianModel BenchmarkModel BenchmarkSpec TasksModel TasksSpec BasicSpec.
Open Scope R_scope.

(** Mutual information of Z + E and Z + F with independent normal Z, E and F, the first with
    variance [v], the others with variance 1. *)
Definition coupling (v : R) : R := / 2 * ln ((1 + v) ^ 2 / (1 + 2 * v)).

(** [d] pairs X_i = alpha U + lambda Z_i + E_i, Y_i = alpha U + lambda Z_i + F_i: the sum of the
    variables carries all that comes from U. *)
Definition pairs_mi (d : nat) (alpha lambd : R) : R :=
  (INR d - 1) * coupling (lambd ^ 2) + coupling (lambd ^ 2 + INR d * alpha ^ 2).

(** [p] makes the task with [dim] variables on either side, [k] interacting pairs and these
    strengths, and with mutual information [mi]. *)
Definition latent_task {J} (F : formats) (mvn : key J -> list R -> matrix -> nat -> matrix) (p : prog (task J)) (h : dheap)
    (dim k : Z) (alpha lambd mi : R) : Prop :=
  let a := Z.to_nat dim in
  builds p h (dashed (["multinormal"; "lvm"; int_str dim; int_str dim; int_str k]%string ++ map (float_fixed F 5) [alpha; lambd; 0; lambd]))
    ("Multinormal " ++ int_str dim ++ " × " ++ int_str dim ++ " (LVM)") dim dim mi
    (latent_parameters dim dim k alpha lambd 0 lambd) (normal_pairs mvn a a (normalised (latent_cov a (Z.to_nat k) alpha lambd 0 lambd))).

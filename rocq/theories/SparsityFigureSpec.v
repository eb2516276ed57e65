(** Vocabulary of the statements about the figure of sparsity. *)
From Coq Require Import String Ascii.
From Verif Require Import Base UtilsModel JaxModel SamplersModel GaussianModel BenchmarkModel TasksModel TasksSpec HighMiSpec SparsitySpec BasicSpec MatrixUtilsSpec PlotMiModel PlotMiSpec.
Open Scope R_scope.

(** Where the search for the largest alpha ends. *)
Definition first_alpha : R := 18865 / 16384.
(** The tasks: number of interacting pairs and alpha. *)
Definition alphas : list R := map (fun i => first_alpha * i / 9) [0; 1; 2; 3; 4; 5; 6; 7; 8; 9].
Definition sparsity_cases : list (Z * R) := (map (fun a => (10, a)) alphas ++ map (fun k => (k, 0%R)) [1; 2; 3; 4; 5; 6; 7; 8; 9])%Z.

(** Mutual information with ten pairs and any alpha, or with fewer pairs and no alpha. *)
Definition case_mi (k : Z) (alpha lambd : R) : R := if (k =? 10)%Z then pairs_mi 10 alpha lambd else IZR k * coupling (lambd ^ 2).
(** A strength with which the mutual information is 1, up to 1/10000. *)
Definition tuned (c : Z * R) (lambd : R) : Prop := 0 < lambd < 10 /\ within (case_mi (fst c) (snd c) lambd) 1 (1 / 10000).
(** The description of such a task. *)
Definition tuned_sheet (F : formats) (c : Z * R) (e : sheet) : Prop := exists lambd, tuned c lambd /\
  e = (dashed (["multinormal"; "lvm"; "10"; "10"; int_str (fst c)]%string ++ map (float_fixed F 5) [snd c; lambd; 0; lambd]),
       "Multinormal 10 × 10 (LVM)"%string, case_mi (fst c) (snd c) lambd, latent_parameters 10 10 (fst c) (snd c) lambd 0 lambd).
(** A text without dash. *)
Definition dashless (s : string) : Prop := ~ In "-"%char (list_ascii_of_string s).

(** The correlation matrix of such a task. *)
Definition tuned_matrix (c : Z * R) (m : matrix) : Prop := exists lambd, tuned c lambd /\
  has_entries 20 m (normalised (latent_cov 10 (Z.to_nat (fst c)) (snd c) lambd 0 lambd)).
Definition matrix_cases : list (Z * R) :=
  [(10%Z, first_alpha); (10%Z, 4 / 5 * first_alpha); (10%Z, 2 / 5 * first_alpha); (10%Z, 0); (5%Z, 0); (1%Z, 0)].

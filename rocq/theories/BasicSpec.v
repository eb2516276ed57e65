(** Vocabulary of the statements about the basic tasks ([task_*] in [TasksModel]). *)
From Coq Require Import String.
From Verif Require Import Base UtilsModel JaxModel SamplersModel GaussianModel MatrixUtilsSpec BenchmarkModel BenchmarkSpec
  TasksModel TasksSpec.
Open Scope Z_scope.
Local Notation length := List.length.

(** Running [p] in the heap [h] makes a usable task whose metadata has exactly this id, name,
    dimensions, mutual information and parameters; the parameters are a new dictionary and the old
    ones are as before; the sampler [behaves] as stated. *)
Definition builds {J} (p : prog (task J)) (h : dheap) (id name : string) (dx dy : Z) (mi : R)
    (params : list (string * py)) (behaves : sampler J -> Prop) : Prop :=
  exists h' t h2 m, p h = (h', Ok t) /\ usable t h' /\ metadata t h' = (h2, Ok m) /\
    md_id m = id /\ md_name m = name /\ md_dim_x m = dx /\ md_dim_y m = dy /\ md_mi m = Fin mi /\
    dread h2 (md_params m) = params /\ (length h <= md_params m)%nat /\
    (length h <= length h')%nat /\ (forall r, (r < length h)%nat -> dread h' r = dread h r) /\ behaves (t_sampler t).

(** [a] columns of X and the others of Y. *)
Definition cut (a : nat) (rows : matrix) : matrix * matrix := (map (firstn a) rows, map (skipn a) rows).

(** Samples of X and Y are the columns of draws from the normal distribution with mean 0 and
    the covariance with these entries, *)
Definition normal_pairs {J} (mvn : key J -> list R -> matrix -> nat -> matrix) (a b : nat) (cov : nat -> nat -> R)
    (s : sampler J) : Prop :=
  exists C, has_entries (a + b) C cov /\
    forall n rng, sample s n rng = Ok (cut a (mvn (cast_to_rng J rng) (repeat 0%R (a + b)) C n)).

(** or from the Student distribution with [df] degrees of freedom (for integer seeds and
    any number of points but one). *)
Definition student_pairs {J} (mvt : Z -> list R -> matrix -> fl -> nat -> matrix) (a b : nat) (df : Z)
    (disp : nat -> nat -> R) (s : sampler J) : Prop :=
  exists C, has_entries (a + b) C disp /\
    forall n seed, n <> 1%nat -> sample s n (SeedInt seed) = Ok (cut a (mvt seed (repeat 0%R (a + b)) C (Fin (IZR df)) n)).

(** X uniform on [0, 1] and Y = X + E with E uniform on [-eps, eps], drawn independently. *)
Definition noisy_pairs {J} (D : draws J) (eps : R) (s : sampler J) : Prop :=
  forall n rng, exists kx kn, split J (cast_to_rng J rng) 2 = [kx; kn] /\
    let x := uniform J D kx n 0 1 in let e := uniform J D kn n (- eps) eps in
    sample s n rng = Ok (map (fun a => [a]) x, map (fun p => [(fst p + snd p)%R]) (combine x e)).

(** All pairs of variables equally correlated. *)
Definition constant_off (r : R) (i j : nat) : R := if (i =? j)%nat then 1%R else r.

(** X_i = alpha U + beta U_X + lambda Z_i + E_i for the first [k] variables, and eta V_i in the
    place of lambda Z_i for the others; Y_i likewise, with the same U and Z_i. *)
Definition latent_cov (a k : nat) (alpha lambd beta eta : R) (i j : nat) : R :=
  let is_x i := (i <? a)%nat in
  let index i := if is_x i then i else (i - a)%nat in
  (alpha ^ 2 + (if Bool.eqb (is_x i) (is_x j) then beta ^ 2 else 0) + (if (i =? j)%nat then 1 else 0)
   + (if (index i =? index j)%nat && (index i <? k)%nat then lambd ^ 2 else 0)
   + (if (i =? j)%nat && negb (index i <? k)%nat then eta ^ 2 else 0))%R.
Definition normalised (cov : nat -> nat -> R) (i j : nat) : R := (cov i j / sqrt (cov i i * cov j j))%R.

(** X_i and Y_i correlated for the first [k] pairs. *)
Definition paired_off (a k : nat) (r : R) (i j : nat) : R :=
  if (i =? j)%nat then 1%R
  else if ((j =? a + i)%nat && (i <? k)%nat) || ((i =? a + j)%nat && (j <? k)%nat) then r else 0%R.

(** Mutual information of these normal distributions. *)
Definition dense_mi (a b : nat) (r : R) : R :=
  (/ 2 * ln ((1 + (INR a - 1) * r) * (1 + (INR b - 1) * r) / ((1 - r) * (1 + (INR (a + b) - 1) * r))))%R.
Definition paired_mi (k : nat) (r : R) : R := (- (INR k / 2) * ln (1 - r ^ 2))%R.
Definition strength_correlation (s : R) : R := (s ^ 2 / (1 + s ^ 2))%R.

(** A sampler with the values of X and Y of [s] replaced one by one. *)
Definition entries_related {J} (on_x on_y : R -> R -> Prop) (s s' : sampler J) : Prop :=
  forall n rng, match sample s n rng with
    | Ok (x, y) => exists x' y', sample s' n rng = Ok (x', y') /\
        Forall2 (Forall2 on_x) x x' /\ Forall2 (Forall2 on_y) y y'
    | Err e => sample s' n rng = Err e
    end.

(** [x'] is, up to rounding, where the distribution function [F'] has the value of [F] at [x],
    as long as that is between -10 and 10. *)
Definition quantile_matched (F F' : R -> R) (x x' : R) : Prop :=
  forall r, (-10 <= r <= 10)%R -> F' r = F x -> (Rabs (x' - r) <= 1 / 10 ^ 12 / 2)%R.

(** The standard normal distribution function. *)
Definition phi_of (erf : R -> R) (x : R) : R := ((1 + erf (x / sqrt 2)) / 2)%R.

(** The n x n table of a function, as nested Python lists. *)
Definition listed (n : nat) (f : nat -> nat -> R) : py :=
  PList (map (fun i => PList (map (fun j => PFloat (Fin (f i j))) (seq 0 n))) (seq 0 n)).

(** The parameters of a latent variable model whose X and Y sides are alike. *)
Definition latent_parameters (dx dy k : Z) (alpha lambd beta eta : R) : list (string * py) :=
  [("dim_x", PInt dx); ("dim_y", PInt dy); ("n_interacting", PInt k);
   ("alpha", PFloat (Fin alpha)); ("lambd", PFloat (Fin lambd));
   ("epsilon_x", PFloat (Fin 1)); ("epsilon_y", PFloat (Fin 1));
   ("beta_x", PFloat (Fin beta)); ("beta_y", PFloat (Fin beta));
   ("eta_x", PFloat (Fin eta)); ("eta_y", PFloat (Fin eta))]%string.

(** Strings separated by "-". *)
Fixpoint dashed (l : list string) : string :=
  match l with [] => "" | [s] => s | s :: l => s ++ "-" ++ dashed l end.

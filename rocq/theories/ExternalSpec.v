(** Vocabulary of the statements about the external estimators. *)
From Coq Require Import Ascii String.
From Verif Require Import Base UtilsModel JaxModel SamplersModel BenchmarkModel TasksModel ExternalModel.
Open Scope Z_scope.

(** White space of ASCII. *)
Definition white (c : ascii) : Prop :=
  In (nat_of_ascii c) [9; 10; 11; 12; 13; 28; 29; 30; 31; 32]%nat.
Fixpoint all_white (s : string) : Prop :=
  match s with EmptyString => True | String c s' => white c /\ all_white s' end.
(** No white space at either end. *)
Definition tidy (s : string) : Prop :=
  (forall c s', s = String c s' -> ~ white c) /\ (forall s' c, s = (s' ++ String c EmptyString)%string -> ~ white c).

Definition is_absolute (path : string) : Prop := exists rest, path = String "/" rest.

(** The text [s] is the number [v] for Python, also with a line end after it. *)
Definition is_number (V : conversions) (s : string) (v : fl) : Prop :=
  tidy s /\ parse_float V s = Some v /\
  decode V (s ++ String newline EmptyString) = Some (s ++ String newline EmptyString)%string.

(** What an estimator does when its script printed [inr number], or failed with [inl message]. *)
Definition follows (V : conversions) (args : list string) (answer : string + string) (r : attempt fl) : Prop :=
  match answer with
  | inr s => forall v, is_number V s v -> r = Done v
  | inl m => r = Failed (exit_message V args 1) (Some (py_bytes V m))
  end.

(** The first [d] columns and the others. *)
Definition left_columns (d : Z) (m : matrix) : matrix := map (firstn (Z.to_nat d)) m.
Definition right_columns (d : Z) (m : matrix) : matrix := map (skipn (Z.to_nat d)) m.

(** The machine on which the estimators run: its conversions and libraries, the current
    directory, the directory of the scripts, the name of the temporary file. *)
Record setting := {
  st_conv : conversions;
  st_show : R -> string;
  st_read : string -> option R;
  st_double : string -> option R;
  st_r : r_call -> string + string;
  st_julia : julia_call -> string + string;
  st_r_error : string;
  st_julia_error : string;
  st_cwd : string;
  st_code : string;
  st_missing : string;
  st_empty : string;
  st_tmp : string
}.
(** The numbers satisfying [good] survive a CSV file; the paths are absolute. *)
Definition setting_ok (good : R -> Prop) (S : setting) : Prop :=
  (forall r, good r -> st_read S (st_show S r) = Some r) /\
  (forall r, good r -> contains_char comma (st_show S r) = false /\ contains_char newline (st_show S r) = false) /\
  is_absolute (st_cwd S) /\ is_absolute (st_tmp S).
(** A sample: [xs] has [dx] columns, [ys] has [dy], and they have equally many rows. *)
Definition sample_ok (good : R -> Prop) (dx dy : nat) (xs ys : matrix) : Prop :=
  (1 <= dx)%nat /\ (1 <= dy)%nat /\ Forall (fun r => List.length r = dx /\ Forall good r) xs /\
  Forall (fun r => List.length r = dy /\ Forall good r) ys /\ List.length xs = List.length ys.

Definition run_in (S : setting) : list string -> files -> process :=
  shell (st_read S) (st_double S) (st_r S) (st_julia S) (st_r_error S) (st_julia_error S)
    (r_script (st_cwd S) (st_code S)) (julia_script (st_cwd S) (st_code S)).

(** [estimate(xs, ys)] of the estimator with this command does what [answer] says. *)
Definition estimates (S : setting) (build : command) (dx dy : nat) (xs ys : matrix) (answer : string + string) : Prop :=
  forall fs, follows (st_conv S) (build (st_tmp S) (Z.of_nat dx) (Z.of_nat dy)) answer
    (external_estimate (st_conv S) (run_in S) (st_missing S) (st_empty S) build (st_show S) (st_tmp S) fs
       (Arr2 dx xs) (Arr2 dy ys)).
(** Rows side by side. *)
Definition joint (xs ys : matrix) : matrix := map (fun p => fst p ++ snd p)%list (combine xs ys).

(** Vocabulary of the statements about the benchmark tasks. *)
From Coq Require Import String.
From Verif Require Import Base UtilsModel JaxModel SamplersModel BenchmarkModel BenchmarkSpec TasksModel.
Open Scope Z_scope.
Local Notation length := List.length.

(** A task whose metadata can be read and whose sampler has positive dimensions. *)
Definition usable {J} (t : task J) (h : dheap) : Prop :=
  valid_ref h (t_params t) /\
  exists h1 m, metadata t h = (h1, Ok m) /\ 1 <= md_dim_x m /\ 1 <= md_dim_y m.

(** The name passed by the caller, unless it is missing or empty. *)
Definition given (name : option string) (otherwise : string) : string :=
  match name with
  | Some s => if String.eqb s "" then otherwise else s
  | None => otherwise
  end.

(** How arrays are mapped: every entry by [f], every row by [f] (whenever [f] succeeds on
    it), or left alone. *)
Definition each_entry (f : R -> R) (a b : matrix) : Prop := b = map (map f) a.
Definition each_row (f : list R -> result (list R)) (a b : matrix) : Prop :=
  Forall2 (fun r r' => forall v, f r = Ok v -> r' = v) a b.
Definition whole (f : matrix -> matrix) (a b : matrix) : Prop := b = f a.
Definition unchanged (a b : matrix) : Prop := b = a.

(** [t], usable in the heap [h'], comes from the task [base] in the heap [h]: its metadata
    has the given id and name, the mutual information of [base], [added] more coordinates
    of X, and the parameters of [base] updated with [new]; [t] is usable in turn; no
    dictionary which existed before has changed; a sample is the mapped sample of [base]. *)
Definition derived {J} (base t : task J) (h h' : dheap) (id name : string -> string) (added : Z)
    (new : list (string * py)) (on_x on_y : matrix -> matrix -> Prop) : Prop :=
  usable t h' /\ (length h <= length h')%nat /\
  exists h1 m h2 m',
    metadata base h = (h1, Ok m) /\ metadata t h' = (h2, Ok m') /\
    md_id m' = id (md_id m) /\ md_name m' = name (md_name m) /\ md_mi m' = md_mi m /\
    md_dim_x m' = md_dim_x m + added /\ md_dim_y m' = md_dim_y m /\
    updated (dread h1 (md_params m)) new (dread h2 (md_params m')) /\
    (forall r, (r < length h)%nat -> dread h' r = dread h r) /\
    forall n rng, match sample (t_sampler base) n rng with
      | Ok (x, y) => exists x' y', sample (t_sampler t) n rng = Ok (x', y') /\ on_x x x' /\ on_y y y'
      | Err e => sample (t_sampler t) n rng = Err e
      end.

(** A sampler with these dimensions and a finite, non-negative mutual information. *)
Definition sound_sampler {J} (s : sampler J) (dx dy : Z) : Prop :=
  dim_x s = Ok dx /\ dim_y s = Ok dy /\ exists v, mutual_information s = Ok (Fin v) /\ (0 <= v)%R.

(** How the floats of the list are printed. *)
Definition python_floats (F : formats) : Prop :=
  float_repr F (75 / 100) = "0.75"%string /\ float_repr F (10 / 100) = "0.1"%string /\
  float_repr F (5 / 10) = "0.5"%string /\ float_repr F 2 = "2.0"%string.

(** The ids written out. *)
Definition published_ids : list string :=
  ["1v1-normal-0.75"; "normal_cdf-1v1-normal-0.75"; "1v1-additive-0.1"; "1v1-additive-0.75"; "1v1-bimodal-0.75";
   "wiggly-1v1-normal-0.75"; "half_cube-1v1-normal-0.75"; "student-identity-1-1-1"; "asinh-student-identity-1-1-1";
   "swissroll_x-normal_cdf-1v1-normal-0.75";
   "multinormal-dense-2-2-0.5"; "multinormal-dense-3-3-0.5"; "multinormal-dense-5-5-0.5"; "multinormal-dense-25-25-0.5";
   "multinormal-dense-50-50-0.5";
   "multinormal-sparse-2-2-2-2.0"; "multinormal-sparse-3-3-2-2.0"; "multinormal-sparse-5-5-2-2.0";
   "multinormal-sparse-25-25-2-2.0";
   "student-identity-2-2-1"; "student-identity-2-2-2"; "student-identity-3-3-2"; "student-identity-3-3-3";
   "student-identity-5-5-2"; "student-identity-5-5-3";
   "normal_cdf-multinormal-sparse-3-3-2-2.0"; "normal_cdf-multinormal-sparse-5-5-2-2.0";
   "normal_cdf-multinormal-sparse-25-25-2-2.0";
   "half_cube-multinormal-sparse-3-3-2-2.0"; "half_cube-multinormal-sparse-5-5-2-2.0";
   "half_cube-multinormal-sparse-25-25-2-2.0";
   "spiral-multinormal-sparse-3-3-2-2.0"; "spiral-multinormal-sparse-5-5-2-2.0"; "spiral-multinormal-sparse-25-25-2-2.0";
   "spiral-normal_cdf-multinormal-sparse-3-3-2-2.0"; "spiral-normal_cdf-multinormal-sparse-5-5-2-2.0";
   "spiral-normal_cdf-multinormal-sparse-25-25-2-2.0";
   "asinh-student-identity-2-2-1"; "asinh-student-identity-3-3-2"; "asinh-student-identity-5-5-2"]%string.

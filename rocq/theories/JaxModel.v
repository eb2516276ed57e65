(** The random number generator of JAX, seen as an arbitrary collection of
    functions of a key.  Used by the models of the neural estimators and samplers. *)
From Verif Require Import Base.

Record prng := {
  key : Type;
  (** [jax.random.PRNGKey(seed)] *)
  prng_key : Z -> key;
  (** [jax.random.split(key, n)] *)
  split : key -> nat -> list key;
  (** [jax.random.choice(key, n, shape=(m,), replace=False)] *)
  choice : key -> nat -> nat -> list nat;
  (** [jax.random.permutation(key, ·)] of an array with n rows: the row indices. *)
  permutation : key -> nat -> list nat;
  (** [jax.random.randint(key, shape=(), minval, maxval)] *)
  randint : key -> Z -> Z -> Z
}.

(** [a[indices]]: the rows with the given indices (all indices in range). *)
Fixpoint take {A} (l : list A) (idx : list nat) : list A :=
  match idx with
  | [] => []
  | i :: idx' => match nth_error l i with Some a => a :: take l idx' | None => take l idx' end
  end.

(** [a, b = jax.random.split(key)] and [a, b, c = jax.random.split(key, 3)]. *)
Definition split2 (J : prng) (k : key J) : result (key J * key J) :=
  match split J k 2 with [a; b] => Ok (a, b) | _ => Err ValueError end.
Definition split3 (J : prng) (k : key J) : result (key J * key J * key J) :=
  match split J k 3 with [a; b; c] => Ok (a, b, c) | _ => Err ValueError end.

(** Model of the variational objectives of the neural estimators:
    [src/bmi/estimators/neural/_backend_linear_memory.py] and
    [src/bmi/estimators/neural/_backend_quadratic_memory.py].

    A critic is an arbitrary function of two points with finite real values.
    [fl] provides the -inf and NaN which occur; [jax.jit]/[vmap] are transparent. *)
From Verif Require Import Base.
Open Scope R_scope.

(** [jnp.log] of a non-negative number. *)
Definition fl_log (s : R) : fl := if Rltb 0 s then Fin (ln s) else NInf.
(** [jnp.exp]. *)
Definition fl_exp (a : fl) : fl :=
  match a with Fin r => Fin (exp r) | PInf => PInf | NInf => Fin 0 | NaN => NaN end.

(** [jax.scipy.special.logsumexp]: log of the sum of the exponentials.  NaN and
    +inf entries do not occur; [exp(-inf) = 0].  (The shift by the maximum JAX
    applies for numerical stability is the identity on exact numbers.) *)
Definition exp_part (a : fl) : R := match a with Fin r => exp r | _ => 0 end.
Definition logsumexp (l : list fl) : fl := fl_log (rsum (map exp_part l)).

(** [jnp.mean] of finite numbers. *)
Definition fl_mean (l : list fl) : fl := fl_divp (fl_sum l) (INR (length l)).

(** [fs.at[i].set(v)]. *)
Fixpoint set_at {A} (l : list A) (i : nat) (v : A) : list A :=
  match l, i with
  | [], _ => []
  | _ :: t, O => v :: t
  | a :: t, S i' => a :: set_at t i' v
  end.

(** [jax.lax.scan(body, init, xs)]. *)
Fixpoint scan {C X Y} (body : C -> X -> C * Y) (c : C) (xs : list X) : C * list Y :=
  match xs with
  | [] => (c, [])
  | x :: xs' => let '(c1, y) := body c x in
                let '(c2, ys) := scan body c1 xs' in (c2, y :: ys)
  end.

Section Objectives.
  Context {P Q : Type}.
  Definition critic := P -> Q -> R.

  (** [jax.vmap(f, in_axes=(None, 0))(x, ys)] *)
  Definition vmap_right (f : critic) (x : P) (ys : list Q) : list R := map (f x) ys.
  (** [jax.vmap(f, in_axes=(0, 0))(xs, ys)] *)
  Definition vmap_pairs (f : critic) (xs : list P) (ys : list Q) : list R :=
    map (fun p => f (fst p) (snd p)) (combine xs ys).

  (** *** _backend_linear_memory.py *)

  (** logmeanexp_nodiag: _backend_linear_memory.py 14-48. *)
  Definition lin_logmeanexp_nodiag (f : critic) (xs : list P) (ys : list Q) (offset : R) : fl :=
    let body i x :=                                                      (* 30-37 *)
      let fs := map (fun v => Fin (v + offset)) (vmap_right f x ys) in   (* 32 *)
      let fs := set_at fs i NInf in                                      (* 35 *)
      (S i, logsumexp fs) in                                             (* 37 *)
    let '(size, vals) := scan body O xs in                               (* 40 *)
    let lse := logsumexp vals in                                         (* 43 *)
    let n_elements := INR (size * (size - 1)) in                         (* 46 *)
    fl_sub lse (fl_log n_elements).                                      (* 48 *)

  (** infonce: _backend_linear_memory.py 51-67. *)
  Definition lin_infonce (f : critic) (xs : list P) (ys : list Q) : fl :=
    let body (_ : unit) x := (tt, logsumexp (map Fin (vmap_right f x ys))) in  (* 55-57 *)
    let '(_, vals) := scan body tt xs in                                 (* 59 *)
    let mean_negative := fl_mean vals in                                 (* 62 *)
    let mean_positive := fl_mean (map Fin (vmap_pairs f xs ys)) in       (* 65 *)
    let nll := fl_sub mean_positive mean_negative in                     (* 66 *)
    fl_add nll (fl_log (INR (length xs))).                               (* 67 *)

  (** donsker_varadhan: _backend_linear_memory.py 70-72. *)
  Definition lin_donsker_varadhan (f : critic) (xs : list P) (ys : list Q) : fl :=
    fl_sub (fl_mean (map Fin (vmap_pairs f xs ys))) (lin_logmeanexp_nodiag f xs ys 0).

  (** nwj: _backend_linear_memory.py 75-80. *)
  Definition lin_nwj (f : critic) (xs : list P) (ys : list Q) : fl :=
    let positive := fl_mean (map Fin (vmap_pairs f xs ys)) in            (* 78 *)
    let negative := fl_exp (lin_logmeanexp_nodiag f xs ys (-1)) in       (* 79 *)
    fl_sub positive negative.                                            (* 80 *)

  (** *** _backend_quadratic_memory.py *)

  (** get_full_scores: _backend_quadratic_memory.py 16-18. *)
  Definition get_full_scores (f : critic) (xs : list P) (ys : list Q) : list (list fl) :=
    map (fun x => map (fun y => Fin (f x y)) ys) xs.

  (** [array.diagonal()] of a square array. *)
  Definition diagonal (a : list (list fl)) : list fl :=
    map (fun i => nth i (nth i a []) NaN) (seq 0 (length a)).

  (** [jnp.diag(v)]: the square matrix with diagonal [v]. *)
  Definition diag (v : list fl) : list (list fl) :=
    map (fun i => map (fun j => if Nat.eqb i j then nth i v NaN else Fin 0) (seq 0 (length v)))
        (seq 0 (length v)).

  Definition mat_add (a b : list (list fl)) : list (list fl) :=
    map (fun p => map (fun q => fl_add (fst q) (snd q)) (combine (fst p) (snd p))) (combine a b).

  (** logmeanexp_nodiag: _backend_quadratic_memory.py 21-42. *)
  Definition quad_logmeanexp_nodiag (array : list (list fl)) : fl :=
    let size := length array in                                          (* 33 *)
    let neg_inf_vector := map (fun _ => NInf) (diagonal array) in        (* 35 *)
    let sum_offdiagonal := logsumexp (concat (mat_add array (diag neg_inf_vector))) in (* 36-39 *)
    let n_elements := INR (size * (size - 1)) in                         (* 40 *)
    fl_sub sum_offdiagonal (fl_log n_elements).                          (* 42 *)

  (** infonce: _backend_quadratic_memory.py 45-51. *)
  Definition quad_infonce (f : critic) (xs : list P) (ys : list Q) : fl :=
    let full_scores := get_full_scores f xs ys in                        (* 46 *)
    let nll := map (fun row => fl_sub (fl_mean (diagonal full_scores)) (logsumexp row)) full_scores in (* 48 *)
    let mi := map (fun v => fl_add (fl_log (INR (length full_scores))) v) nll in (* 49 *)
    fl_mean mi.                                                          (* 51 *)

  (** donsker_varadhan: _backend_quadratic_memory.py 54-56. *)
  Definition quad_donsker_varadhan (f : critic) (xs : list P) (ys : list Q) : fl :=
    let full_scores := get_full_scores f xs ys in
    fl_sub (fl_mean (diagonal full_scores)) (quad_logmeanexp_nodiag full_scores).

  (** nwj: _backend_quadratic_memory.py 59-63. *)
  Definition quad_nwj (f : critic) (xs : list P) (ys : list Q) : fl :=
    let full_scores := get_full_scores f xs ys in                        (* 60 *)
    let full_scores_m1 := map (map (fun v => fl_sub v (Fin 1))) full_scores in (* 61 *)
    fl_sub (fl_add (Fin 1) (fl_mean (diagonal full_scores_m1)))
           (fl_exp (quad_logmeanexp_nodiag full_scores_m1)).             (* 63 *)
End Objectives.

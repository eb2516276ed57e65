(** Model of [workflows/projects/Beyond_Normal/_sparsity_utils.py].

    Numbers are exact reals; [uniform] are the draws of the generator in [binsearch]. *)
From Verif Require Import Base UtilsModel JaxModel SamplersModel GaussianModel MatrixUtilsModel BenchmarkModel TasksModel HighMiModel.
Open Scope R_scope.

Section Sparsity.
  Context {J : prng}.
  Variable F : formats.
  Variable eigvals : matrix -> list (R * R).
  Variable mvn : key J -> list R -> matrix -> nat -> matrix.
  Variable uniform : nat -> R.

  (** alpha_to_task (9-16) and lambd_to_task (27-34, 44-51).  Without a number for [lambd] also
      [eta] is None, and the covariance is refused by an assertion (_matrix_utils.py 282-283),
      after the check of [n_interacting] (_matrix_utils.py 170). *)
  Definition lvm_task (dim n_interacting : Z) (alpha : R) (lambd : option R) : prog (task J) :=
    match lambd with
    | Some lambd => task_multinormal_lvm F eigvals mvn dim dim n_interacting alpha lambd 0 None None
    | None => run _ <- lift (lvm_parameters dim dim n_interacting alpha 0 0 0); lift (Err AssertionError)
    end.

  (** [lambda a: alpha_to_task(a).mutual_information] (19) and [lambda lambd: ...] (37, 54).
      The dictionaries made on the way are garbage: the heap is used but not changed. *)
  Definition lvm_mi (h : dheap) (dim n_interacting : Z) (alpha lambd : R) : result fl :=
    snd ((run t <- lvm_task dim n_interacting alpha (Some lambd); task_mi t) h).

  (** get_initial_alpha, 8-23. *)
  Definition get_initial_alpha (mi : R) (dim : Z) : prog R := fun h =>
    (run best <- lift (binsearch (fun a => lvm_mi h dim 0 a 0) mi (1 / 10000) uniform 0 10 5000);   (* 18-20 *)
     match best with
     | Some a => if Req_EM_T a 0 then lift (Err AssertionError) else pret a   (* 21, 23 *)
     | None => lift (Err AssertionError)                                 (* 21 *)
     end) h.

  (** get_lambda_task, 26-40. *)
  Definition get_lambda_task (mi : R) (dim : Z) (alpha : R) : prog (task J) := fun h =>
    (run best <- lift (binsearch (fun l => lvm_mi h dim dim alpha l) mi (1 / 10000) uniform 0 10 5000);   (* 36-38 *)
     lvm_task dim dim alpha best) h.                                     (* 40 *)

  (** get_n_interacting_task, 43-57. *)
  Definition get_n_interacting_task (mi : R) (dim n_interacting : Z) : prog (task J) := fun h =>
    (run best <- lift (binsearch (fun l => lvm_mi h dim n_interacting 0 l) mi (1 / 10000) uniform 0 10 5000);   (* 53-55 *)
     lvm_task dim n_interacting 0 best) h.                               (* 57 *)
End Sparsity.

(** Model of the tasks and of the matrices of [workflows/projects/Beyond_Normal/figure_sparsity.smk].
    The panels of the estimates are in [PlotMiModel.figure_sparsity].  The labels of the matrices,
    colours and ticks are left out. *)
From Coq Require Import String.
From Verif Require Import Base UtilsModel JaxModel SamplersModel GaussianModel MatrixUtilsModel BenchmarkModel TasksModel RulesModel FiguresModel SparsityModel.
Open Scope R_scope.

(** [np.linspace(0.0, b, 10)], figure_sparsity.smk 21. *)
Definition ten_steps (b : R) : list R := map (fun i => b / 9 * INR i) (seq 0 10).

(** The entries of the parameters; entries which are no numbers are refused (simplification). *)
Definition int_entry (params : sdict py) (k : string) : result Z :=
  do v <- lookup params k; match v with PInt n => Ok n | _ => Err TypeError end.
Definition float_entry (params : sdict py) (k : string) : result R :=
  do v <- lookup params k; match v with PFloat (Fin x) => Ok x | _ => Err TypeError end.
(** params_to_lvm, 69-78; [DIM] is 10 (14). *)
Definition params_to_lvm (params : sdict py) : result lvm :=
  do n_interacting <- int_entry params "n_interacting";                  (* 73 *)
  do alpha <- float_entry params "alpha";                                (* 74 *)
  do lambd <- float_entry params "lambd";                                (* 75 *)
  do beta_x <- float_entry params "beta_x";                              (* 76 *)
  do eta_x <- float_entry params "eta_x";                                (* 77 *)
  lvm_init 10 10 n_interacting alpha lambd 1 None beta_x None eta_x None.   (* 70-72 *)

Section SparsityFigure.
  Context {J : prng}.
  Variable F : formats.
  Variable eigvals : matrix -> list (R * R).
  Variable mvn : key J -> list R -> matrix -> nat -> matrix.
  Variable uniform : nat -> R.

  (** INITIAL_ALPHA (15) and TASK_LIST, 19-25. *)
  Definition sparsity_list : prog (list (task J)) :=
    run alpha <- get_initial_alpha F eigvals mvn uniform 1 10;           (* 15 *)
    run dense <- sequence (map (get_lambda_task F eigvals mvn uniform 1 10) (ten_steps alpha));   (* 20-21 *)
    run sparse <- sequence (map (fun k => get_n_interacting_task F eigvals mvn uniform 1 10 (Z.of_nat k)) (seq 1 9));   (* 23-24 *)
    pret (dense ++ sparse)%list.
  (** TASKS, 26. *)
  Definition sparsity_tasks : prog (sdict (task J)) :=
    run l <- sparsity_list; run d <- tasks_by_id l []; scale_tasks d.

  (** [params_to_lvm(task.params).correlation], 107. *)
  Definition task_matrix (t : task J) : prog matrix :=
    run r <- task_params t; run params <- read_dict r;
    run p <- lift (params_to_lvm params); lift (lvm_correlation_matrix p).
  (** The matrices of the rule figure_matrices, 89-107. *)
  Definition sparsity_matrices : prog (list matrix) :=
    run alpha <- get_initial_alpha F eigvals mvn uniform 1 10;           (* 15 *)
    run tasks <- sequence
      [get_lambda_task F eigvals mvn uniform 1 10 alpha;                 (* 90 *)
       get_lambda_task F eigvals mvn uniform 1 10 (4 / 5 * alpha);       (* 91 *)
       get_lambda_task F eigvals mvn uniform 1 10 (2 / 5 * alpha);       (* 92 *)
       get_n_interacting_task F eigvals mvn uniform 1 10 10;             (* 93 *)
       get_n_interacting_task F eigvals mvn uniform 1 10 (10 / 2);       (* 94 *)
       get_n_interacting_task F eigvals mvn uniform 1 10 1];             (* 95 *)
    sequence (map task_matrix tasks).                                    (* 107 *)
End SparsityFigure.

(** Model of [workflows/projects/Beyond_Normal/figure_high_mi.smk]: the tasks and the panels.  Limits
    of the axes and the legend are left out.  Simplifications: exact reals; the family of a task is a
    text. *)
From Coq Require Import String.
From Verif Require Import Base UtilsModel JaxModel SamplersModel GaussianModel MatrixUtilsModel TransformsModel BenchmarkModel TasksModel HighMiModel TablesModel RulesModel
  OutliersModel FiguresModel PlotMiModel.
Open Scope R_scope.

(** DESIRED_MUTUAL_INFORMATION, 14. *)
Definition DESIRED : list R := [0; 1 / 2; 1; 3 / 2; 2; 3; 4; 5].

Section HighMiFigure.
  Context {J : prng}.
  Variable F : formats.
  Variable eigvals : matrix -> list (R * R).
  Variable mvn : key J -> list R -> matrix -> nat -> matrix.
  Variable expm : expm_function.
  Variable uniform : nat -> R.

  (** DISTRIBUTION_FAMILIES, 26-30. *)
  Definition FAMILIES : list (string * (R -> string -> prog (option (task J)))) :=
    [("Sparse Gaussian", fun mi family_name => generate_sparse_gaussian_task F eigvals mvn uniform mi family_name 3);   (* 27 *)
     ("Spiral", fun mi family_name => generate_spiral_task F eigvals mvn expm uniform mi family_name 3 (1 / 3));        (* 28 *)
     ("Half-cube", fun mi family_name => generate_half_cube_task F eigvals mvn uniform mi family_name 3)]%string.       (* 29 *)
  (** RAW_TASK_LIST, 32-36, and TASK_LIST, 37. *)
  Definition high_mi_list : prog (list (task J)) :=
    run raw <- sequence (flat_map (fun family => map (fun mi => snd family mi (fst family)) DESIRED) FAMILIES);
    pret (flat_map (fun item => match item with Some t => [t] | None => [] end) raw).
  (** TASKS, 40. *)
  Definition high_mi_tasks : prog (sdict (task J)) :=
    run l <- high_mi_list; run d <- tasks_by_id l []; scale_tasks d.
End HighMiFigure.

(** [yaml.safe_load(x)['family_name']], 62. *)
Definition family_of (r : mrow) : result string :=
  do v <- lookup (mr_params r) "family_name"; match v with PStr s => Ok s | _ => Err TypeError end.
(** The rows of a family, 70. *)
Definition of_family (family : string) (rows : list mrow) : list mrow :=
  filter (fun r => match family_of r with Ok s => String.eqb s family | Err _ => false end) rows.
(** The rule plot, 54-75: titles and panels.  A frame without rows has no parameters. *)
Definition figure_high_mi (rows : list mrow) : result (list (string * panel)) :=
  match rows with
  | [] => Err KeyError
  | _ =>
      do _ <- each (fun r => lookup (mr_params r) "desired_mi") rows;    (* 61 *)
      do families <- each family_of rows;                                (* 62 *)
      each (fun family =>
        do p <- plot_mi {| f_columns := ["desired_mi"]%string; f_rows := of_family family rows |} "desired_mi" COLORS NAMES (Some "True MI [nats]"%string) true;   (* 72 *)
        Ok (family, p)) (firstn 3 (labels families))                     (* 70-71; three axes, 65 *)
  end.

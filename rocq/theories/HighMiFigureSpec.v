(** Vocabulary of the statements about the figure of growing mutual information. *)
From Coq Require Import String.
From Verif Require Import Base BenchmarkModel TasksModel HighMiSpec PlotMiModel PlotMiSpec.
Open Scope R_scope.

Definition desired : list R := [0; 5 / 10; 1; 15 / 10; 2; 3; 4; 5].
(** The families: title, prefix of identifiers, name of tasks, further parameters. *)
Definition high_families : list (string * string * string * list (string * py)) :=
  [("Sparse Gaussian", "", "Gaussian", []);
   ("Spiral", "spiral-", "Spiral", [("speed", PFloat (Fin (1 / 3))); ("normalize_speed", PBool true)]);
   ("Half-cube", "half_cube-", "Half-cube", [])]%string.
Definition family_title (f : string * string * string * list (string * py)) : string := fst (fst (fst f)).
(** A task of a family, with correlation [c]. *)
Definition high_sheet (F : formats) (fm : (string * string * string * list (string * py)) * R) (e : sheet) : Prop :=
  let '((title, prefix, name, more), mi) := fm in
  exists c, 0 < c < 1 /\ within (- ln (1 - c ^ 2)) mi (1 / 10000) /\
    e = ((prefix ++ "sparse-gaussian-" ++ float_fixed F 3 mi)%string, (name ++ " with " ++ float_fixed F 2 mi ++ " MI")%string, - ln (1 - c ^ 2),
         ([("correlation", PFloat (Fin c)); ("desired_mi", PFloat (Fin mi)); ("true_mi", PFloat (Fin (- ln (1 - c ^ 2))));
           ("dim", PInt 3); ("family_name", PStr title)]%string ++ more)%list).
Definition high_cases : list ((string * string * string * list (string * py)) * R) :=
  flat_map (fun f => map (fun mi => (f, mi)) desired) high_families.
(** The family of the task of a row. *)
Definition has_family (f : string) (r : mrow) : Prop := sdict_get (mr_params r) "family_name" = Some (PStr f).

(** Model of the [parameters] methods in [src/bmi/estimators], of
    [src/bmi/estimators/function_wrapper.py] and of the default of
    [IMutualInformationPointEstimator.estimate_with_info] in [src/bmi/interface.py]. *)
From Coq Require Import String.
From Verif Require Import Base UtilsModel JaxModel KsgModel SimpleEstimatorsModel TrainingLogModel TrainingModel BenchmarkModel ExternalModel.
Local Notation length := List.length.

(** A [BaseModel] without fields, function_wrapper.py 9-10, or with some. *)
Inductive base_model := EmptyParams | Params (fields : sdict py).

(** ** FunctionalEstimator, function_wrapper.py 13-39 *)
(** The attributes, 29-30.  The function gets arrays and returns a number or raises. *)
Record functional := { fe_function : matrix -> matrix -> attempt fl; fe_params : base_model }.

(** __init__, 16-30. *)
Definition functional_init (func : matrix -> matrix -> attempt fl) (params : option base_model) : functional :=
  {| fe_function := func; fe_params := match params with Some p => p | None => EmptyParams end |}.
(** estimate, 32-36; [np.asarray] leaves arrays as they are. *)
Definition functional_estimate (e : functional) (x y : matrix) : attempt fl := fe_function e x y.
(** parameters, 38-39. *)
Definition functional_parameters (e : functional) : base_model := fe_params e.

(** estimate_with_info, interface.py 57-59: no time, no additional information. *)
Definition default_estimate_with_info (estimate : matrix -> matrix -> attempt fl) (x y : matrix) : outcome :=
  match estimate x y with
  | Done v => Returned {| er_mi := v; er_time := None; er_info := [] |}
  | Failed m o => Raised m o
  end.

(** The estimator as run_estimator (benchmark/result.py 46-49) sees it. *)
Definition functional_estimator (e : functional) : estimator :=
  {| external := false; estimate_with_info := default_estimate_with_info (functional_estimate e);
     estimate_with_info_from_path := fun _ => Raised "" None |}.   (* no such method; never called *)

(** ** CCAMutualInformationEstimator, correlation.py 16-31 *)
(** __init__, 17-18, and parameters, 30-31. *)
Record cca_estimator := { cca_scale : bool }.
Definition cca_parameters (e : cca_estimator) : base_model := EmptyParams.

(** ** KSG estimators: parameters, ksg.py 146-147 and 244-245 *)
Definition ksg_parameters (s : ksg_state) : KsgModel.ksg_params := params s.

(** ** KDEMutualInformationEstimator *)
(** KDEParams, _kde.py 26-33. *)
Record kde_params := { kdp_kernel_xy : string; kdp_kernel_x : string; kdp_kernel_y : string;
                       kdp_bandwidth_xy : bandwidth; kdp_bandwidth_x : bandwidth; kdp_bandwidth_y : bandwidth;
                       kdp_standardize : bool }.
(** The estimators and [_params], 92-106. *)
Record kde_object := { ko_estimators : kde; ko_params : kde_params }.
(** __init__, 59-106. *)
Definition kde_create (kernel_xy : string) (kernel_x kernel_y : option string)
    (bandwidth_xy : bandwidth) (bandwidth_x bandwidth_y : option bandwidth) (standardize : bool) : result kde_object :=
  do e <- kde_init kernel_xy kernel_x kernel_y bandwidth_xy bandwidth_x bandwidth_y standardize;   (* 92-94, 106 *)
  Ok {| ko_estimators := e;
        ko_params := {| kdp_kernel_xy := kernel_xy;                              (* 100 *)
                        kdp_kernel_x := str_or kernel_x kernel_xy;               (* 89, 101 *)
                        kdp_kernel_y := str_or kernel_y kernel_xy;               (* 90, 102 *)
                        kdp_bandwidth_xy := bandwidth_xy;                        (* 97 *)
                        kdp_bandwidth_x := match bandwidth_x with None => bandwidth_xy | Some b => b end;   (* 86, 98 *)
                        kdp_bandwidth_y := match bandwidth_y with None => bandwidth_xy | Some b => b end;   (* 87, 99 *)
                        kdp_standardize := standardize |} |}.                    (* 103 *)
(** parameters, 116-117. *)
Definition kde_parameters (o : kde_object) : kde_params := ko_params o.

(** ** Neural estimators *)
(** NeuralEstimatorParams with [critic_params], neural/_estimators.py 31-40 and 179-180. *)
Record variational_params := { vp_params : neural_params; vp_hidden_layers : list nat }.
Section Neural.
  Context (J : prng) {C : Type}.
  Variable critic_value : C -> list R -> list R -> R.
  (** [_mlp_init], _estimators.py 183-187. *)
  Variable factory : list nat -> key J -> nat -> nat -> result C.

  (** A variational estimator with the critic parameters it stores, 101-111. *)
  Record variational_object := { vo_estimator : neural J (C := C); vo_hidden_layers : list nat }.
  (** __init__, 191-227, 231-267, 271-307; [list(hidden_layers)] both for the factory and for
      MLPParams, 211-217. *)
  Definition variational_create (o : objective) (train_backend : string) (hidden_layers : list nat) (p : neural_params)
    : result variational_object :=
    do e <- variational_init J critic_value factory o train_backend hidden_layers p;
    Ok {| vo_estimator := e; vo_hidden_layers := hidden_layers |}.
  (** parameters, 113-114. *)
  Definition variational_parameters (o : variational_object) : variational_params :=
    {| vp_params := ne_params J (vo_estimator o); vp_hidden_layers := vo_hidden_layers o |}.

  (** MINEEstimator and its [hidden_layers], _mine_estimator.py 283-293 and 316-317. *)
  Record mine_object := { mo_estimator : mine J (C := C); mo_hidden_layers : list nat }.
  Definition mine_create_object (p : mine_params) (hidden_layers : list nat) : result mine_object :=
    do e <- mine_init J p (factory hidden_layers); Ok {| mo_estimator := e; mo_hidden_layers := hidden_layers |}.
  (** parameters, 313-314. *)
  Definition mine_parameters (o : mine_object) : mine_params * list nat := (mine_ps J (mo_estimator o), mo_hidden_layers o).
End Neural.

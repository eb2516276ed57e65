(** Model of [src/bmi/estimators/_kde.py] and [src/bmi/estimators/correlation.py]. *)
From Coq Require Import String.
From Verif Require Import Base UtilsModel.
Open Scope R_scope.

(** * Kernel density estimator *)

(** A bandwidth argument, _kde.py 22: a number or the name of a rule. *)
Inductive bandwidth := BNumber (r : R) | BRule (name : string).

(** Validation of KDEParams, _kde.py 22-33 (pydantic). *)
Definition allowed_kernel (k : string) : bool :=
  existsb (String.eqb k)
    ["gaussian"; "tophat"; "epanechnikov"; "exponential"; "linear"; "cosine"]%string.
(** Simplification: pydantic would also accept a string spelling a number. *)
Definition allowed_bandwidth (b : bandwidth) : bool :=
  match b with BNumber _ => true | BRule n => String.eqb n "scott" || String.eqb n "silverman" end.

(** A [KernelDensity] object: its settings and the points it was last fitted to. *)
Record kernel_density := { kd_kernel : string; kd_bandwidth : bandwidth; kd_data : option matrix }.

(** KDEMutualInformationEstimator's attributes, _kde.py 92-106. *)
Record kde := { kde_x : kernel_density; kde_y : kernel_density; kde_xy : kernel_density;
                kde_standardize : bool }.

(** Python's [a or b] for an optional string: None and "" are replaced. *)
Definition str_or (a : option string) (b : string) : string :=
  match a with Some s => if String.eqb s "" then b else s | None => b end.

(** __init__, _kde.py 59-106. *)
Definition kde_init (kernel_xy : string) (kernel_x kernel_y : option string)
    (bandwidth_xy : bandwidth) (bandwidth_x bandwidth_y : option bandwidth)
    (standardize : bool) : result kde :=
  let bw_x := match bandwidth_x with None => bandwidth_xy | Some b => b end in   (* 86 *)
  let bw_y := match bandwidth_y with None => bandwidth_xy | Some b => b end in   (* 87 *)
  let k_x := str_or kernel_x kernel_xy in                                       (* 89 *)
  let k_y := str_or kernel_y kernel_xy in                                       (* 90 *)
  if forallb allowed_kernel [kernel_xy; k_x; k_y]
     && forallb allowed_bandwidth [bandwidth_xy; bw_x; bw_y]                    (* 96-104 *)
  then Ok {| kde_x := {| kd_kernel := k_x; kd_bandwidth := bw_x; kd_data := None |};   (* 92 *)
             kde_y := {| kd_kernel := k_y; kd_bandwidth := bw_y; kd_data := None |};   (* 93 *)
             kde_xy := {| kd_kernel := kernel_xy; kd_bandwidth := bandwidth_xy; kd_data := None |}; (* 94 *)
             kde_standardize := standardize |}
  else Err ValidationError.

Section Kde.
  (** The library: log density at a point of the estimator with the given kernel
      and bandwidth fitted to the given points. *)
  Variable log_density : string -> bandwidth -> matrix -> list R -> R.

  (** [KernelDensity.fit]: forget the previous points. *)
  Definition kd_fit (k : kernel_density) (m : matrix) : kernel_density :=
    {| kd_kernel := kd_kernel k; kd_bandwidth := kd_bandwidth k; kd_data := Some m |}.

  (** [KernelDensity.score_samples]; sklearn raises when not fitted. *)
  Definition score_samples (k : kernel_density) (m : matrix) : result (list R) :=
    match kd_data k with
    | None => Err NotFitted
    | Some d => Ok (map (log_density (kd_kernel k) (kd_bandwidth k) d) m)
    end.

  (** _differential_entropy, _kde.py 14-19. *)
  Definition differential_entropy (k : kernel_density) (m : matrix) : result R :=
    do log_probs <- score_samples k m; Ok (- rmean log_probs).

  Record entropies := { h_x : R; h_y : R; h_xy : R; h_mi : R }.

  (** _fit, _kde.py 108-111. *)
  Definition kde_fit (e : kde) (sx sy : matrix) : kde :=
    {| kde_x := kd_fit (kde_x e) sx; kde_y := kd_fit (kde_y e) sy;
       kde_xy := kd_fit (kde_xy e) (hstack sx sy); kde_standardize := kde_standardize e |}.

  (** estimate_entropies, _kde.py 119-141: new state and result. *)
  Definition estimate_entropies (e : kde) (x y : matrix) : kde * result entropies :=
    match product_space_values (kde_standardize e) x y with              (* 127 *)
    | Err ex => (e, Err ex)
    | Ok (sx, sy) =>
        let e := kde_fit e sx sy in                                      (* 128 *)
        (e, do hx <- differential_entropy (kde_x e) sx;                  (* 130 *)
            do hy <- differential_entropy (kde_y e) sy;                  (* 131 *)
            do hxy <- differential_entropy (kde_xy e) (hstack sx sy);    (* 132 *)
            Ok {| h_x := hx; h_y := hy; h_xy := hxy; h_mi := hx + hy - hxy |})  (* 134-141 *)
    end.

  (** estimate, _kde.py 113-114. *)
  Definition kde_estimate (e : kde) (x y : matrix) : kde * result R :=
    let '(e', r) := estimate_entropies e x y in (e', rmap h_mi r).
End Kde.

(** * Canonical correlations *)

(** corr, correlation.py 8-9: [np.corrcoef(x, y)[0, 1]], the covariance divided by
    the standard deviations (the normalisation of the covariance cancels); NaN
    (0/0) when one of the two is constant. *)
Definition covariance (u v : list R) : R :=
  rmean (map (fun p => (fst p - rmean u) * (snd p - rmean v)) (combine u v)).
Definition corr (u v : list R) : fl :=
  let d := sqrt (variance u * variance v) in
  if Reqb d 0 then NaN else Fin (covariance u v / d).

(** mi_gauss, correlation.py 12-13: [-0.5 * np.log(1 - c**2)] with NumPy's
    logarithm: -inf at 0, NaN below. *)
Definition mi_gauss (c : fl) : fl :=
  match c with
  | Fin r => if Rltb (r * r) 1 then Fin (- (1 / 2) * ln (1 - r * r))
             else if Reqb (r * r) 1 then PInf else NaN
  | _ => NaN
  end.

Section Cca.
  (** [CCA(n_components, scale).fit_transform(x, y)]: the transformed samples. *)
  Variable cca : nat -> bool -> matrix -> matrix -> matrix * matrix.

  (** CCAMutualInformationEstimator.estimate, correlation.py 20-28. *)
  Definition cca_estimate (scale : bool) (x y : matrix) : result fl :=
    let n_components := Nat.min (ncols x) (ncols y) in                   (* 23 *)
    let '(x_new, y_new) := cca n_components scale x y in                 (* 24 *)
    let dims := ncols x_new in                                           (* 25 *)
    if negb (ncols y_new =? dims)%nat then Err AssertionError            (* 26 *)
    else Ok (fold_left fl_add
               (map (fun i => mi_gauss (corr (column x_new i) (column y_new i))) (seq 0 dims))
               (Fin 0)).                                                 (* 28 *)
End Cca.

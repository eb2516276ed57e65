(** Model of [scripts/Mixtures/validate_chi2_combination.py]: the comparison of the profile of a multivariate normal
    distribution with a combination of chi-squared variables.  Line numbers are of this file.
    Simplifications: exact reals; of the picture the two samples, the bins, the vertical line and the shaded region. *)
From Verif Require Import Base UtilsModel JaxModel SamplersModel GaussianModel MatrixUtilsModel BmmModel MultivariateModel CriticsModel.
Open Scope R_scope.
Local Notation length := List.length.

(** Division of NumPy's floats. *)
Definition np_div (a b : R) : fl :=
  if Reqb b 0 then if Rltb 0 a then PInf else if Reqb a 0 then NaN else NInf else Fin (a / b).
(** [abs] of a float. *)
Definition fl_abs (a : fl) : fl := match a with Fin r => Fin (Rabs r) | NaN => NaN | _ => PInf end.
(** [np.var]. *)
Definition np_var (l : list fl) : fl := fl_mean (map (fun v => fl_square (fl_sub v (fl_mean l))) l).

(** What [plot_samples] draws on [ax]. *)
Record comparison := {
  cp_profile : list fl;            (* 56 *)
  cp_chi2 : list fl;               (* 57 *)
  cp_bins : list R;                (* 55 *)
  cp_analytic : R;                 (* 62-64 *)
  cp_empirical : fl;
  cp_line : fl;                    (* 65 *)
  cp_span : fl * fl                (* 69 *)
}.

Section Plot.
  Context {J : prng}.
  Variable eigvals : matrix -> list (R * R).
  Variable cholesky : matrix -> option matrix.
  Variable normal_draw : list R -> option matrix -> key J -> nat -> matrix.
  (** [jax.random.normal(key, shape=(a, b))]. *)
  Variable standard_normal : key J -> nat -> nat -> matrix.

  (** The loop, 44-48.  [c] is [chi2_samples]. *)
  Definition combine_chi2 (rho : list R) (c : matrix) (mi : fl) (n : nat) : list fl :=
    fold_left (fun profile ir =>
      let weight := 1 / 2 * snd ir in                                                           (* 47 *)
      map (fun kv => fl_add (snd kv) (Fin (weight * (entry c (fst ir) (fst kv) - entry c (fst ir + length rho) (fst kv)))))
        (combine (seq 0 n) profile))                                                            (* 48 *)
      (combine (seq 0 (length rho)) rho) (repeat mi n).                                         (* 44-45 *)

  (** plot_samples, 12-69. *)
  Definition plot_samples (rho : list R) (additional_y : Z) : result comparison :=
    let dim_x := length rho in                                                                  (* 18 *)
    let dim_y := (Z.of_nat dim_x + additional_y)%Z in                                           (* 19 *)
    let dy := Z.to_nat dim_y in
    do cov <- canonical_correlation rho additional_y;                                           (* 22 *)
    let mi1 := fl_scale (1 / 2) (fl_ln (np_div (det dim_x (square_slice cov 0 dim_x) * det dy (square_slice cov dim_x (dim_x + dy)))
                                               (det (dim_x + dy) cov))) in                      (* 25-29 *)
    let mi2 := fl_opp (fl_scale (1 / 2) (fl_sum (map (fun r => np_log (1 - r ^ 2)) rho))) in    (* 30 *)
    if negb (fl_ltb (fl_abs (fl_sub mi1 mi2)) (Fin (1 / 100))) then Err AssertionError          (* 31 *)
    else
      do dist <- normal_distribution eigvals cholesky normal_draw (Z.of_nat dim_x) dim_y cov None;   (* 33 *)
      let keys := split J (prng_key J 21) 3 in                                                  (* 35-36 *)
      match nth_error keys 1, nth_error keys 2 with
      | Some k0, Some k1 =>
          do profile <- pmi_profile k0 dist 20000;                                              (* 39-40 *)
          let n_samples := Z.to_nat 20000 in
          let chi2_samples := map (map (fun v => v * v)) (standard_normal k1 (2 * dim_x) n_samples) in   (* 43 *)
          let chi2_profile := combine_chi2 rho chi2_samples mi1 n_samples in                    (* 44-48 *)
          let var_analytic := rsum (map (fun r => r * r) rho) in                                (* 51 *)
          do bins <- linspace (-2) 4 21;                                                        (* 55 *)
          let std := sqrt var_analytic in                                                       (* 68 *)
          Ok {| cp_profile := profile; cp_chi2 := chi2_profile; cp_bins := bins; cp_analytic := var_analytic;
                cp_empirical := np_var profile; cp_line := mi1; cp_span := (fl_sub mi1 (Fin std), fl_add mi1 (Fin std)) |}
      | _, _ => Err OtherError
      end.

  (** main, 72-80: the four panels. *)
  Definition panels : list (list R * Z) :=
    [([8 / 10; 5 / 10], 0%Z); ([7 / 10; 7 / 10; 7 / 10], 0%Z); ([5 / 10; 0; 0], 1%Z); ([5 / 10; 0; 0], 3%Z)].
  Definition main : result (list comparison) := map_results (fun p => plot_samples (fst p) (snd p)) panels.
End Plot.

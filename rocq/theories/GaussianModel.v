(** Model of [samplers/_splitmultinormal.py] and [samplers/_split_student_t.py] in
    [src/bmi].

    Numbers are exact reals with NumPy's special values; arrays are lists (of rows). *)
From Verif Require Import Base UtilsModel JaxModel SamplersModel.
Open Scope R_scope.

(** ** Arrays *)

(** [a.shape == (r, c)] for an array given as a list of rows.  Simplification: NumPy
    refuses ragged lists when the array is made (a ValueError as well). *)
Definition has_shape (m : matrix) (r c : nat) : bool :=
  (List.length m =? r)%nat && forallb (fun row => (List.length row =? c)%nat) m.

(** [a[i, j]]. *)
Definition entry (m : matrix) (i j : nat) : R := nth j (nth i m []) 0.

(** [a[lo:hi, lo:hi]]. *)
Definition square_slice (m : matrix) (lo hi : nat) : matrix :=
  map (fun row => firstn (hi - lo) (skipn lo row)) (firstn (hi - lo) (skipn lo m)).

(** [np.linalg.det] of a square array (exact), by expansion along the first row. *)
Definition drop_col (j : nat) (row : list R) : list R := (firstn j row ++ skipn (S j) row)%list.
Fixpoint det (n : nat) (m : matrix) : R :=
  match n with
  | O => 1
  | S n' => rsum (map (fun j => (-1) ^ j * nth j (hd [] m) 0 * det n' (map (drop_col j) (tl m)))
                      (seq 0 n))
  end.

(** [np.log]: -inf at 0, NaN below. *)
Definition np_log (r : R) : fl :=
  if Rltb 0 r then Fin (ln r) else if Reqb r 0 then NInf else NaN.

(** ** _splitmultinormal.py *)

(** [z > 0] for a complex number [(re, im)]: NumPy compares lexicographically.
    (When all eigenvalues are real, eigvals returns floats: the same comparison.) *)
Definition complex_positive (z : R * R) : bool :=
  Rltb 0 (fst z) || (Reqb (fst z) 0 && Rltb 0 (snd z)).

(** _Multinormal's attributes, 29-37. *)
Record multinormal := { mn_mean : list R; mn_covariance : matrix; mn_det : R }.

(** dim, 63-66. *)
Definition mn_dim (d : multinormal) : nat := List.length (mn_mean d).

(** entropy, 68-70. *)
Definition entropy (d : multinormal) : fl :=
  fl_divp (fl_add (np_log (mn_det d)) (Fin (INR (mn_dim d) * (1 + ln (2 * PI))))) 2.

(** SplitMultinormal's attributes, 105-122. *)
Record split_multinormal := {
  sm_dim_x : nat;
  sm_dim_y : nat;
  sm_mean : list R;
  sm_covariance : matrix;
  sm_joint : multinormal;
  sm_x : multinormal;
  sm_y : multinormal
}.

Section Multinormal.
  (** [np.linalg.eigvals] of a square array: real and imaginary parts. *)
  Variable eigvals : matrix -> list (R * R).

  (** _can_be_covariance, 11-17. *)
  Definition can_be_covariance (mat : matrix) : result unit :=
    let n := List.length mat in
    if forallb (fun i => forallb (fun j => negb (Reqb (entry mat i j) (entry mat j i))) (seq 0 n))
               (seq 0 n)
    then Err ValueError                                                  (* 13-14 *)
    else if negb (forallb complex_positive (eigvals mat))
    then Err ValueError                                                  (* 16-17 *)
    else Ok tt.

  (** _Multinormal.__init__, 23-47. *)
  Definition multinormal_init (mean : list R) (covariance : matrix) : result multinormal :=
    let dim := List.length mean in                                       (* 37 *)
    if negb (has_shape covariance dim dim) then Err ValueError           (* 40-44 *)
    else
      do _ <- can_be_covariance covariance;                              (* 47 *)
      Ok {| mn_mean := mean; mn_covariance := covariance;                (* 30-31 *)
            mn_det := det dim covariance |}.                             (* 34 *)

  (** SplitMultinormal.__init__, 93-122, with _validate_shapes, 124-132. *)
  Definition split_multinormal_init (dim_x dim_y : Z) (covariance : matrix) (mean : option (list R))
    : result split_multinormal :=
    do (dx, dy) <- base_sampler_init dim_x dim_y;                        (* 105 *)
    let dx := Z.to_nat dx in
    let n := (dx + Z.to_nat dy)%nat in
    let mean := match mean with None => repeat 0 n | Some m => m end in  (* 108-109 *)
    if negb (List.length mean =? n)%nat then Err ValueError              (* 127-128 *)
    else if negb (has_shape covariance n n) then Err ValueError          (* 129-132 *)
    else
      do joint <- multinormal_init mean covariance;                      (* 116 *)
      do x <- multinormal_init (firstn dx mean) (square_slice covariance 0 dx);   (* 117-119 *)
      do y <- multinormal_init (skipn dx mean) (square_slice covariance dx n);    (* 120-122 *)
      Ok {| sm_dim_x := dx; sm_dim_y := Z.to_nat dy; sm_mean := mean; sm_covariance := covariance;
            sm_joint := joint; sm_x := x; sm_y := y |}.

  (** SplitMultinormal.mutual_information, 139-157. *)
  Definition split_multinormal_mi (s : split_multinormal) : fl :=
    let h_x := entropy (sm_x s) in                                       (* 153 *)
    let h_y := entropy (sm_y s) in                                       (* 154 *)
    let h_xy := entropy (sm_joint s) in                                  (* 155 *)
    let mi := fl_sub (fl_add h_x h_y) h_xy in                            (* 156 *)
    py_max (Fin 0) mi.                                                   (* 157 *)

  Section Sampling.
    Context (J : prng).
    (** [random.multivariate_normal(key, mean, cov, shape=(n,))], an array of n rows. *)
    Variable multivariate_normal : key J -> list R -> matrix -> nat -> matrix.

    (** SplitMultinormal.sample, 134-137, with _Multinormal.sample, 49-61. *)
    Definition split_multinormal_sample (s : split_multinormal) (n_points : nat) (rng : seed J)
      : result (matrix * matrix) :=
      let rng := cast_to_rng J rng in                                    (* 135 *)
      let xy := multivariate_normal rng (mn_mean (sm_joint s)) (mn_covariance (sm_joint s)) n_points in (* 136 *)
      Ok (map (firstn (sm_dim_x s)) xy, map (skipn (sm_dim_x s)) xy).    (* 137 *)

    Definition split_multinormal_sampler (s : split_multinormal) : sampler J :=
      {| dim_x := Ok (Z.of_nat (sm_dim_x s)); dim_y := Ok (Z.of_nat (sm_dim_y s));
         sample := split_multinormal_sample s; mutual_information := Ok (split_multinormal_mi s) |}.

    (** BivariateNormalSampler.__init__, 164-199, sample, 201-202, and
        mutual_information, 207-210.  The second component is [_correlation] (180,
        204-205). *)
    Definition bivariate_normal_sampler (correlation std_x std_y mean_x mean_y : R)
      : result (sampler J * R) :=
      do _ <- base_sampler_init 1 1;                                     (* 172 *)
      if Rleb (Rmin std_x std_y) 0 then Err ValueError                   (* 174-177 *)
      else if negb (Rltb (-1) correlation && Rltb correlation 1) then Err ValueError   (* 178-179 *)
      else
        let cov := correlation * std_x * std_y in                        (* 182 *)
        let var_x := std_x ^ 2 in                                        (* 183 *)
        let var_y := std_y ^ 2 in                                        (* 184 *)
        let covariance := [[var_x; cov]; [cov; var_y]] in                (* 186-191 *)
        let mean := [mean_x; mean_y] in                                  (* 192 *)
        do s <- split_multinormal_init 1 1 covariance (Some mean);       (* 194-199 *)
        Ok ({| dim_x := Ok 1%Z; dim_y := Ok 1%Z;
               sample := split_multinormal_sample s;                     (* 201-202 *)
               mutual_information := Ok (match np_log (1 - correlation ^ 2) with
                                         | Fin l => Fin (- (1 / 2) * l)
                                         | NInf => PInf | _ => NaN end) |},   (* 210 *)
            correlation).
  End Sampling.

  (** ** _split_student_t.py *)

  (** scipy's [digamma] and the logarithm of [gamma], on positive numbers. *)
  Variable psi log_gamma : R -> R.

  (** [digamma] and [np.log(gamma(.))] of a float; +inf goes to +inf. *)
  Definition sp_digamma (a : fl) : fl := match a with Fin r => Fin (psi r) | PInf => PInf | _ => NaN end.
  Definition sp_log_gamma (a : fl) : fl := match a with Fin r => Fin (log_gamma r) | PInf => PInf | _ => NaN end.

  (** Products with a positive finite factor, and of two non-negative numbers (inf * 0
      is NaN). *)
  Definition fl_scale (c : R) (a : fl) : fl := match a with Fin r => Fin (c * r) | v => v end.
  Definition fl_mul (a b : fl) : fl :=
    match a, b with
    | Fin x, Fin y => Fin (x * y)
    | PInf, Fin y | Fin y, PInf => if Rltb 0 y then PInf else if Reqb y 0 then NaN else NInf
    | PInf, PInf => PInf
    | _, _ => NaN
    end.
  (** [np.log] of a positive float or +inf. *)
  Definition fl_ln (a : fl) : fl := match a with Fin r => np_log r | PInf => PInf | _ => NaN end.

  (** _differential_entropy, 12-26. *)
  Definition student_entropy (k : nat) (dof : fl) : fl :=
    let half_sum := fl_scale (1 / 2) (fl_add dof (Fin (INR k))) in       (* 21 *)
    let digamma_term :=
      fl_mul half_sum (fl_sub (sp_digamma half_sum) (sp_digamma (fl_scale (1 / 2) dof))) in   (* 22 *)
    let log_term :=
      fl_add (fl_add (fl_opp (sp_log_gamma half_sum)) (sp_log_gamma (fl_scale (1 / 2) dof)))
             (fl_scale (1 / 2 * INR k) (fl_ln (fl_scale PI dof))) in     (* 24 *)
    fl_add log_term digamma_term.                                        (* 26 *)

  (** SplitStudentT's attributes, 69-87; [df] may be [np.inf]. *)
  Record split_student := {
    st_multinormal : split_multinormal;
    st_mean : list R;
    st_df : fl;
    st_dispersion : matrix
  }.

  (** [df <= c]. *)
  Definition fl_leb (a : fl) (c : R) : bool :=
    match a with Fin r => Rleb r c | NInf => true | _ => false end.

  (** SplitStudentT.__init__, 47-87. *)
  Definition split_student_init (dim_x dim_y : Z) (df : fl) (dispersion : matrix) (mean : option (list R))
    : result split_student :=
    do (dx, dy) <- base_sampler_init dim_x dim_y;                        (* 69 *)
    let n := (Z.to_nat dx + Z.to_nat dy)%nat in
    let mean := match mean with None => repeat 0 n | Some m => m end in  (* 71-73 *)
    do s <- split_multinormal_init dim_x dim_y dispersion (Some mean);   (* 79-81 *)
    if fl_leb df 0 then Err ValueError                                   (* 83-84 *)
    else Ok {| st_multinormal := s; st_mean := mean; st_df := df; st_dispersion := dispersion |}.  (* 85-87 *)

  (** mi_correction_function, 157-166. *)
  Definition mi_correction_function (df : fl) (dim_x dim_y : nat) : fl :=
    let h_x := student_entropy dim_x df in                               (* 163 *)
    let h_y := student_entropy dim_y df in                               (* 164 *)
    let h_xy := student_entropy (dim_x + dim_y) df in                    (* 165 *)
    fl_sub (fl_add h_x h_y) h_xy.                                        (* 166 *)

  (** mi_normal, 130-134, and mi_correction, 136-143. *)
  Definition mi_normal (s : split_student) : fl := split_multinormal_mi (st_multinormal s).
  Definition mi_correction (s : split_student) : fl :=
    mi_correction_function (st_df s) (sm_dim_x (st_multinormal s)) (sm_dim_y (st_multinormal s)).

  (** mutual_information, 145-155. *)
  Definition split_student_mi (s : split_student) : fl := fl_add (mi_normal s) (mi_correction s).

  (** covariance, 114-128.  [inf / inf] is NaN; [inf * 0] is NaN. *)
  Definition split_student_covariance (s : split_student) : result (list (list fl)) :=
    if fl_leb (st_df s) 2 then Err ValueError                            (* 123-126 *)
    else Ok (match st_df s with
             | Fin df => map (map (fun v => Fin (df * v / (df - 2)))) (st_dispersion s)   (* 128 *)
             | _ => map (map (fun _ => NaN)) (st_dispersion s)
             end).

  (** [stats.multivariate_t.rvs(loc, shape, df, size, random_state)]: as an n x d array
      which SciPy then squeezes: a single row becomes a 1-D array. *)
  Variable multivariate_t : Z -> list R -> matrix -> fl -> nat -> matrix.
  Definition squeeze (cols : nat) (m : matrix) : ndarray :=
    match m with [_] => ArrOther | _ => Arr2 cols m end.

  (** sample, 89-107. SciPy refuses a [random_state] which is a JAX key (ValueError). *)
  Definition split_student_sample (J : prng) (s : split_student) (n_points : nat) (rng : seed J)
    : result (matrix * matrix) :=
    let dx := sm_dim_x (st_multinormal s) in
    let d := (dx + sm_dim_y (st_multinormal s))%nat in
    match rng with
    | SeedKey _ => Err ValueError
    | SeedInt r =>
        match squeeze d (multivariate_t r (st_mean s) (st_dispersion s) (st_df s) n_points) with   (* 95-101 *)
        | Arr2 c xy => if (List.length xy =? n_points)%nat && (c =? d)%nat                         (* 102-105 *)
                       then Ok (map (firstn dx) xy, map (skipn dx) xy)                             (* 107 *)
                       else Err AssertionError
        | ArrOther => Err AssertionError
        end
    end.

  Definition split_student_sampler (J : prng) (s : split_student) : sampler J :=
    {| dim_x := Ok (Z.of_nat (sm_dim_x (st_multinormal s)));
       dim_y := Ok (Z.of_nat (sm_dim_y (st_multinormal s)));
       sample := split_student_sample J s; mutual_information := Ok (split_student_mi s) |}.
End Multinormal.

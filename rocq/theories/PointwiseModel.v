(** Model of [workflows/projects/Beyond_Normal/figure_visualise_pointwise_mi.smk] (line numbers are
    of this file).  Simplifications: exact reals, hence densities which are never rounded to zero;
    colours and sizes are left out; the parameters of a task are read once and not for
    each point; numbers of wildcards are read off the list of inputs. *)
From Coq Require Import String Ascii.
From Verif Require Import Base UtilsModel JaxModel SamplersModel GaussianModel BenchmarkModel TasksModel RulesModel CriticsModel.
Open Scope R_scope.
Local Notation length := List.length.

(** ** Densities of SciPy *)

(** The matrix of [stats.multivariate_normal] and [stats.multivariate_t] for two variables, used on
    lines 21-24 and 42-45: as SciPy's eigh does, the lower triangle is read; ValueError
    (or LinAlgError, a subclass) unless positive definite. *)
Definition read_shape (shape : matrix) : result (R * R * R) :=
  match shape with
  | [[a; _]; [b; d]] => if Rltb 0 a && Rltb 0 (a * d - b * b) then Ok (a, b, d) else Err ValueError
  | _ => Err ValueError
  end.
(** The same for one variable, lines 27-36 and 47-54. *)
Definition read_scale (v : R) : result R := if Rltb 0 v then Ok v else Err ValueError.
(** [shape_matrix[i, j]], 29, 34, 49 and 53. *)
Definition index2 (m : matrix) (i j : nat) : result R :=
  match nth_error m i with
  | Some row => match nth_error row j with Some v => Ok v | None => Err IndexError end
  | None => Err IndexError
  end.

(** [multivariate_normal(...).pdf] with the mean at 0, in terms of the number of variables, the
    determinant and the squared distance, 42-54. *)
Definition normal_pdf (p : nat) (det maha : R) : R :=
  exp (- (1 / 2) * (INR p * ln (2 * PI) + ln det + maha)).
(** [multivariate_t(...).pdf], 21-36; [lg] is SciPy's gammaln. *)
Definition student_pdf (lg : R -> R) (df : Z) (p : nat) (det maha : R) : R :=
  let t := 1 / 2 * (IZR df + INR p) in
  exp (lg t - lg (1 / 2 * IZR df) - INR p / 2 * ln (IZR df * PI) - 1 / 2 * ln det - t * ln (1 + 1 / IZR df * maha)).
(** The squared distances from 0 which these use. *)
Definition maha2 (a b d x y : R) : R := (d * x * x - 2 * b * x * y + a * y * y) / (a * d - b * b).
Definition maha1 (v x : R) : R := x * x / v.

(** [np.log] of a positive number, 38 and 56. *)
Definition log_ratio (joint individual_x individual_y : R) : R := ln joint - ln individual_x - ln individual_y.

(** gaussian_logpdfratio, 41-56. *)
Definition gaussian_logpdfratio (x y : R) (shape_matrix : matrix) : result R :=
  do (a, b, d) <- read_shape shape_matrix;                                       (* 42-45 *)
  do u <- index2 shape_matrix 0 0; do u <- read_scale u;                          (* 47-50 *)
  do v <- index2 shape_matrix 1 1; do v <- read_scale v;                          (* 51-54 *)
  Ok (log_ratio (normal_pdf 2 (a * d - b * b) (maha2 a b d x y)) (normal_pdf 1 u (maha1 u x)) (normal_pdf 1 v (maha1 v y))).   (* 56 *)

(** student_logpdfratio, 20-38; [df <= 0] is a ValueError of SciPy. *)
Definition student_logpdfratio (lg : R -> R) (x y : R) (df : Z) (shape_matrix : matrix) : result R :=
  do (a, b, d) <- read_shape shape_matrix;                                       (* 21-25 *)
  if (df <=? 0)%Z then Err ValueError else
  do u <- index2 shape_matrix 0 0; do u <- read_scale u;                          (* 27-31 *)
  do v <- index2 shape_matrix 1 1; do v <- read_scale v;                          (* 32-36 *)
  Ok (log_ratio (student_pdf lg df 2 (a * d - b * b) (maha2 a b d x y)) (student_pdf lg df 1 u (maha1 u x))
                (student_pdf lg df 1 v (maha1 v y))).                            (* 38 *)

(** ** The arrays *)

(** RADIUS, 58. *)
Definition RADIUS : R := 5.
(** The arrays in a file: [get_data]'s dictionary, 77-82, and the name, 144 and 153. *)
Record arrays := { a_name : string; a_x : matrix; a_y : matrix; a_true : list (list R); a_critic : list (list R) }.

(** [np.asarray] of nested lists of numbers, 142 and 151: ValueError for ragged ones is left out. *)
Definition py_number (p : py) : result R :=
  match p with PFloat (Fin r) => Ok r | PInt n => Ok (IZR n) | _ => Err TypeError end.
Definition py_row (p : py) : result (list R) := match p with PList l => map_results py_number l | _ => Err TypeError end.
Definition py_matrix (p : py) : result matrix := match p with PList l => map_results py_row l | _ => Err TypeError end.
Definition py_int (p : py) : result Z := match p with PInt n => Ok n | _ => Err TypeError end.

(** A function of two numbers at all entries of two arrays, [np.vectorize(f)] of 75 and the nested [jax.vmap] of 74. *)
Definition vectorize (f : R -> R -> result R) (xs ys : list (list R)) : result (list (list R)) :=
  map_results (fun r => map_results (fun v => f (fst v) (snd v)) (combine (fst r) (snd r))) (combine xs ys).

Section Arrays.
  Context {J : prng}.
  (** The InfoNCE estimator: the estimate and the trained critic. *)
  Variables (F : formats) (eigvals : matrix -> list (R * R)) (psi log_gamma : R -> R)
    (mvn : key J -> list R -> matrix -> nat -> matrix) (mvt : Z -> list R -> matrix -> fl -> nat -> matrix)
    (infonce : matrix -> matrix -> result (fl * (list R -> list R -> R))).

  (** get_data, 60-82, with the name. *)
  Definition get_data (name : string) (t : task J) (logratio_true : R -> R -> result R) (radius : R) : prog arrays :=
    run xy <- lift (task_sample t 10000 42);                                     (* 62 *)
    let (samples_x, samples_y) := (xy : matrix * matrix) in
    run ec <- lift (infonce samples_x samples_y);                                (* 63 *)
    run _ <- task_mi t;                                                          (* 65 *)
    let critic := snd ec in                                                      (* 67 *)
    run xs <- lift (linspace (- radius) radius 71);                              (* 69 *)
    run ys <- lift (linspace (- radius) radius 71);                              (* 70 *)
    let (mxs, mys) := meshgrid xs ys in                                          (* 72 *)
    run pmi_critic <- lift (vectorize (fun x y => Ok (critic [x] [y])) mxs mys);   (* 74 *)
    run pmi_true <- lift (vectorize logratio_true mxs mys);                      (* 75 *)
    pret {| a_name := name; a_x := firstn 1000 samples_x; a_y := firstn 1000 samples_y;
            a_true := pmi_true; a_critic := pmi_critic |}.                       (* 77-82 *)

  (** generate_gauss_arrays, 138-144. *)
  Definition gauss_arrays : prog arrays :=
    run t <- task_multinormal_dense F eigvals mvn 1 1 (5 / 10) None;             (* 141 *)
    run p <- task_params t; run d <- read_dict p;
    run shape <- lift (do c <- lookup d "covariance"; py_matrix c);              (* 142 *)
    get_data "Bivariate normal" t (fun x y => gaussian_logpdfratio x y shape) RADIUS.   (* 143-144 *)
  (** generate_student_arrays, 146-153. *)
  Definition student_arrays (df : Z) : prog arrays :=
    run t <- task_student_dense F eigvals psi log_gamma mvt 1 1 df (5 / 10) None;   (* 150 *)
    run p <- task_params t; run d <- read_dict p;
    run shape <- lift (do c <- lookup d "dispersion"; py_matrix c);              (* 151 *)
    run dof <- lift (do c <- lookup d "dof"; py_int c);                          (* 152 *)
    get_data ("Bivariate Student, $\nu=" ++ int_str df ++ "$") t
      (fun x y => student_logpdfratio log_gamma x y dof shape) RADIUS.           (* 152-153 *)

  (** ** The figure *)

  (** [str.strip(chars)]: characters of the set at both ends, 127. *)
  Definition among (chars : string) (c : ascii) : bool := existsb (Ascii.eqb c) (list_ascii_of_string chars).
  Fixpoint lstrip_chars (chars s : string) : string :=
    match s with
    | EmptyString => EmptyString
    | String c s' => if among chars c then lstrip_chars chars s' else s
    end.
  Fixpoint rstrip_chars (chars s : string) : string :=
    match s with
    | EmptyString => EmptyString
    | String c s' => match rstrip_chars chars s' with
                     | EmptyString => if among chars c then EmptyString else String c EmptyString
                     | t => String c t
                     end
    end.
  Definition strip_chars (chars s : string) : string := rstrip_chars chars (lstrip_chars chars s).
  (** [str.capitalize()] of a text in ASCII, 128. *)
  Definition upper_char (c : ascii) : ascii :=
    let n := nat_of_ascii c in if ((97 <=? n) && (n <=? 122))%nat then ascii_of_nat (n - 32) else c.
  Definition lower_char (c : ascii) : ascii :=
    let n := nat_of_ascii c in if ((65 <=? n) && (n <=? 90))%nat then ascii_of_nat (n + 32) else c.
  Fixpoint lower_string (s : string) : string :=
    match s with EmptyString => EmptyString | String c s => String (lower_char c) (lower_string s) end.
  Definition capitalize (s : string) : string :=
    match s with EmptyString => EmptyString | String c s => String (upper_char c) (lower_string s) end.

  (** A column of the figure: the title, the points in both panels and the two pictures; the extent is
      (left, right, bottom, top). *)
  Record column := { c_title : string; c_points : matrix * matrix; c_true : list (list R); c_critic : list (list R);
                     c_extent : R * R * (R * R) }.
  (** The body of the loop, 115-129; there are six columns of panels, 107-114. *)
  Definition plot_column (i : nat) (a : arrays) : result column :=
    if (6 <=? i)%nat then Err IndexError else                                    (* 118 *)
    Ok {| c_title := capitalize (strip_chars "Bivariate " (a_name a));           (* 127-129 *)
          c_points := (a_x a, a_y a);                                            (* 119 *)
          c_true := a_true a; c_critic := a_critic a;                            (* 123-124 *)
          c_extent := (- RADIUS, RADIUS, (RADIUS, - RADIUS)) |}.
  (** The rule plot, 103-134, after the rules which make its inputs. *)
  Definition pmi_figure : prog (list column) :=
    run inputs <- sequence (map student_arrays [1; 2; 3; 5; 10]%Z ++ [gauss_arrays]);   (* 105 *)
    lift (map_results (fun ia => plot_column (fst ia) (snd ia)) (combine (seq 0 (length inputs)) inputs)).   (* 115-129 *)
End Arrays.

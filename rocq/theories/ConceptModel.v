(** Model of [scripts/Beyond_Normal/figures/concept/1v1.py] and [2v1.py] and of
    [scripts/Beyond_Normal/experimental/ksg_spiral.py].  Simplifications: exact reals; of the figures
    the numbers in the titles, the labels and the points; of the printed table the numbers;
    the estimator (KSG, [KsgModel]) is any function of the two samples. *)
From Coq Require Import String.
From Verif Require Import Base UtilsModel JaxModel SamplersModel GaussianModel MatrixUtilsModel TransformsModel TasksModel OutliersModel.
Open Scope R_scope.

(** [np.mean] and [np.std(ddof=0)] of a list, 1v1.py 91-95 and 2v1.py 18-22. *)
Definition np_mean (l : list R) : fl := match l with [] => NaN | _ => Fin (rsum l / INR (length l)) end.
Definition np_std0 (l : list R) : fl :=
  match l with [] => NaN | _ => Fin (sqrt (rsum (map (fun v => (v - rsum l / INR (length l)) ^ 2) l) / INR (length l))) end.

(** sigmoid, 1v1.py 49-50; stairs, 53-54; f1, 68-69; f2, 76-77; g2, 80-81 (g1, 72-73, is [erf]). *)
Definition sigmoid (x : R) : R := 1 / (1 + exp (-8 * x)).
Definition stairs (t : R) : R := sigmoid t + sigmoid (t - 1) + sigmoid (t + 2).
Definition f1 (x : R) : R := x.
Definition f2 (x : R) : R := stairs x.
Definition g2 (y : R) : R := - stairs y.
(** _assert_ravel_1d_array, 1v1.py 12-18, for arrays of two dimensions. *)
Definition ravel_1d (a : matrix) : result (list R) :=
  if forallb (fun row => Nat.eqb (length row) 1) a then Ok (concat a) else Err ValueError.

(** A panel: the numbers in the title, the labels and the points (with their colours). *)
Record concept_panel := { cp_true : fl; cp_mean : fl; cp_std : fl; cp_x_label : string; cp_y_label : string; cp_points : list (list R) }.

Section Concept.
  Context {J : prng}.
  Variables (eigvals : matrix -> list (R * R)) (mvn : key J -> list R -> matrix -> nat -> matrix) (expm : expm_function) (erf : R -> R)
    (estimate : matrix -> matrix -> result R).

  (** get_estimates, 1v1.py 84-96; 2v1.py 7-23 is the case of the identity. *)
  Definition get_estimates (s : sampler J) (f g : R -> R) (n_points n_seeds : nat) : result (fl * fl) :=
    do estimates <- each (fun seed => do (x, y) <- sample s n_points (SeedInt seed);   (* 86-87 *)
                                      estimate (map (map f) x) (map (map g) y)) (map Z.of_nat (seq 0 n_seeds));   (* 88-89 *)
    Ok (np_mean estimates, np_std0 estimates).                           (* 91-96 *)

  (** main of 1v1.py, 99-176. *)
  Definition panel_1v1 (s : sampler J) (f g : R -> R) (x_label y_label : string) : result concept_panel :=
    do t <- mutual_information s;                                        (* 116 *)
    do (m, d) <- get_estimates s f g 1000 20;                            (* 100-102, 118-135 *)
    do (x, y) <- sample s 10000 (SeedInt 42);                            (* 147 *)
    do x <- ravel_1d (map (map f) x); do y <- ravel_1d (map (map g) y);  (* 149-151, plot_points 44-45 *)
    Ok {| cp_true := t; cp_mean := m; cp_std := d; cp_x_label := x_label; cp_y_label := y_label;
          cp_points := map (fun p => [fst p; snd p]) (combine x y) |}.
  Definition concept_1v1 : result (list concept_panel) :=
    do s <- multinormal_sampler eigvals mvn 1 1 [[1; 95 / 100]; [95 / 100; 1]];   (* 104-113 *)
    do a <- panel_1v1 s (fun x => x) (fun x => x) "$X$" "$Y$";           (* 129, 166-167 *)
    do b <- panel_1v1 s f1 erf "$f_1(X)$" "$g_1(Y)$";                    (* 132, 169-170 *)
    do c <- panel_1v1 s f2 g2 "$f_2(X)$" "$g_2(Y)$";                     (* 135, 172-173 *)
    Ok [a; b; c].

  (** plot_sampler, 2v1.py 26-40: first two columns of X, coloured by Y. *)
  Definition panel_2v1 (s : sampler J) (x_label : string) : result concept_panel :=
    do (m, d) <- get_estimates s (fun x => x) (fun x => x) 5000 10;      (* 30-32, 50-51 *)
    do t <- mutual_information s;                                        (* 34 *)
    do (x, y) <- sample s 5000 (SeedInt 42);                             (* 38, 52 *)
    do a <- each (fun row => match row with a :: b :: _ => Ok [a; b] | _ => Err IndexError end) x;   (* 39 *)
    Ok {| cp_true := t; cp_mean := m; cp_std := d; cp_x_label := x_label; cp_y_label := "";
          cp_points := map (fun p => (fst p ++ [snd p])%list) (combine a (concat y)) |}.
  (** main of 2v1.py, 43-102. *)
  Definition concept_cov : matrix := mat_scale [[1; 5 / 10; 805 / 1000]; [5 / 10; 1; 805 / 1000]; [805 / 1000; 805 / 1000; 1]] (8 / 10).   (* 44-45, 56-62 *)
  Definition spiral_of (base : sampler J) (generator : matrix) (speed : R) : result (sampler J) :=
    do t <- spiral_init generator None speed;                            (* 67-68 *)
    transformed_sampler base (Some (pointwise (spiral_call expm t))) None 0 0 true.   (* 70-75 *)
  Definition concept_2v1 : result (list concept_panel) :=
    do base <- multinormal_sampler eigvals mvn 2 1 concept_cov;          (* 64 *)
    do generator <- so_generator 2 0 1;                                  (* 66 *)
    do slow <- spiral_of base generator (5 / 10);                        (* 54, 67 *)
    do fast <- spiral_of base generator 1;                               (* 54, 68 *)
    do a <- panel_2v1 base "$X$"; do b <- panel_2v1 slow "$f_1(X)$"; do c <- panel_2v1 fast "$f_2(X)$";   (* 79-94 *)
    Ok [a; b; c].

  (** generate_covariance, ksg_spiral.py 24-33. *)
  Definition generate_covariance (correlation : R) (dim_x dim_y : Z) : result matrix :=
    let dx := Z.to_nat dim_x in
    do c <- assign (np_eye (dx + Z.to_nat dim_y)) 0 dx correlation;      (* 30-31 *)
    assign c dx 0 correlation.                                           (* 32-33 *)
  (** create_base_sampler, 36-45. *)
  Definition create_base_sampler (dim_x dim_y : Z) (rho : R) : result (sampler J) :=
    if negb (Rleb (-1) rho && Rltb rho 1) then Err AssertionError        (* 37 *)
    else do c <- generate_covariance rho dim_x dim_y;                    (* 39 *)
         multinormal_sampler eigvals mvn dim_x dim_y c.                  (* 41-45 *)
  (** main, 48-81: the true value, the estimate, and the estimates after the spirals. *)
  Definition ksg_spiral (dim_x dim_y : Z) (rho : R) (n_points : nat) (seed : Z) : result (fl * R * list (R * R)) :=
    do base <- create_base_sampler dim_x dim_y rho;                      (* 54 *)
    do (x, y) <- sample base n_points (SeedInt seed);                    (* 56 *)
    do t <- mutual_information base;                                     (* 57 *)
    do e <- estimate x y;                                                (* 59 *)
    do generator <- so_generator dim_x 0 1;                              (* 67 *)
    do rows <- each (fun speed =>
        do s <- spiral_init generator None speed;                        (* 70 *)
        let x' := vmap (on_point (pointwise (spiral_call expm s))) x in  (* 71-75 *)
        do e <- estimate x' y;                                           (* 77-79 *)
        Ok (speed, e)) [0; 2 / 100; 1 / 10; 5 / 10; 1; 10];              (* 69 *)
    Ok (t, e, rows).
End Concept.

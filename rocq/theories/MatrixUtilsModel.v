(** Model of [samplers/_matrix_utils.py] in [src/bmi].

    Arrays are lists of rows of exact reals; in-place assignments return the new array.
    Dimensions are Python ints; after the checks they are non-negative and indices are
    written as natural numbers. *)
From Verif Require Import Base UtilsModel JaxModel SamplersModel GaussianModel.
From Coq Require Import String.
Open Scope R_scope.
Local Notation length := List.length.

(** ** Arrays *)

(** [np.full((r, c), v)] (and [np.zeros]). *)
Definition np_full (r c : nat) (v : R) : matrix := repeat (repeat v c) r.

(** [np.eye(n)]. *)
Definition np_eye (n : nat) : matrix :=
  map (fun i => map (fun j => if (i =? j)%nat then 1 else 0) (seq 0 n)) (seq 0 n).

Fixpoint update {A} (l : list A) (i : nat) (f : A -> A) : list A :=
  match l, i with
  | [], _ => []
  | a :: l', O => f a :: l'
  | a :: l', S i' => a :: update l' i' f
  end.

(** [a[i, j] = f(a[i, j])]: IndexError outside the array. *)
Definition modify (m : matrix) (i j : nat) (f : R -> R) : result matrix :=
  match nth_error m i with
  | None => Err IndexError
  | Some row => if (j <? length row)%nat then Ok (update m i (fun row => update row j f)) else Err IndexError
  end.

(** [a[i, j] = v] and [a[i, j] += v]. *)
Definition assign (m : matrix) (i j : nat) (v : R) : result matrix := modify m i j (fun _ => v).
Definition increase (m : matrix) (i j : nat) (v : R) : result matrix := modify m i j (fun w => w + v).

(** Changing the entries of [a[lo:hi, lo:hi]]. *)
Definition modify_block (m : matrix) (lo hi : nat) (f : nat -> nat -> R -> R) : matrix :=
  let inside i := (lo <=? i)%nat && (i <? hi)%nat in
  map (fun ir => if inside (fst ir)
                 then map (fun jw => if inside (fst jw) then f (fst ir) (fst jw) (snd jw) else snd jw)
                          (combine (seq 0 (length (snd ir))) (snd ir))
                 else snd ir)
      (combine (seq 0 (length m)) m).

(** [a[lo:hi, lo:hi] += v]. *)
Definition increase_block (m : matrix) (lo hi : nat) (v : R) : matrix :=
  modify_block m lo hi (fun _ _ w => w + v).

(** [a[lo:hi, lo:hi] = b] for [b] of the right shape. *)
Definition assign_block (m : matrix) (lo hi : nat) (b : matrix) : matrix :=
  modify_block m lo hi (fun i j _ => entry b (i - lo) (j - lo)).

(** [for i in range(lo, hi): a = body(a, i)], stopping at the first exception. *)
Definition loop {A} (lo hi : nat) (body : A -> nat -> result A) (a : A) : result A :=
  fold_left (fun r i => do a <- r; body a i) (seq lo (hi - lo)) (Ok a).

(** ** Correlation matrices *)

(** _validate, 9-22. *)
Definition validate (dim_x dim_y k : Z) (correlation correlation_x correlation_y : R) : result unit :=
  if (Z.min (Z.min dim_x dim_y) k <? 1)%Z then Err ValueError                                   (* 12-13 *)
  else if ((dim_x <? k) || (dim_y <? k))%Z then Err ValueError                                  (* 15-16 *)
  else if Rltb (Rmin (Rmin correlation_x correlation_y) correlation) (-1)                       (* 18-22 *)
       || Rltb 1 (Rmax (Rmax correlation_x correlation_y) correlation)
  then Err ValueError
  else Ok tt.

(** parametrised_correlation_matrix, 25-73. *)
Definition parametrised_correlation_matrix (dim_x dim_y k : Z) (correlation correlation_x correlation_y : R)
  : result matrix :=
  do _ <- validate dim_x dim_y k correlation correlation_x correlation_y;                       (* 49-56 *)
  let dx := Z.to_nat dim_x in let dy := Z.to_nat dim_y in
  let corr_matrix := np_eye (dx + dy) in                                                        (* 58 *)
  do corr_matrix <- loop 0 (Z.to_nat k) (fun m i =>                                             (* 59 *)
    do m <- assign m i (dx + i)%nat correlation;                                                (* 60 *)
    assign m (dx + i)%nat i correlation) corr_matrix;                                           (* 61 *)
  do corr_matrix <- loop 0 dx (fun m i => loop 0 i (fun m j =>                                  (* 63-64 *)
    do m <- assign m i j correlation_x;                                                         (* 65 *)
    assign m j i correlation_x) m) corr_matrix;                                                 (* 66 *)
  loop dx (dx + dy) (fun m i => loop dx i (fun m j =>                                           (* 68-69 *)
    do m <- assign m i j correlation_y;                                                         (* 70 *)
    assign m j i correlation_y) m) corr_matrix.                                                 (* 71 *)

(** canonical_correlation, 76-108.  A negative [dim_y] makes NumPy raise ValueError; a
    negative [additional_y] leads to an IndexError in the loop. *)
Definition canonical_correlation (rho : list R) (additional_y : Z) : result matrix :=
  let dx := length rho in                                                                       (* 97 *)
  let dim_y := (Z.of_nat dx + additional_y)%Z in                                                (* 98 *)
  if (dim_y <? 0)%Z then Err ValueError
  else
    let dy := Z.to_nat dim_y in
    let covariance := np_full (dx + dy) (dx + dy) 0 in                                          (* 100 *)
    let covariance := assign_block covariance 0 dx (np_eye dx) in                               (* 101 *)
    let covariance := assign_block covariance dx (dx + dy) (np_eye dy) in                       (* 102 *)
    loop 0 dx (fun m i =>                                                                       (* 104 *)
      do m <- assign m i (dx + i)%nat (nth i rho 0);                                            (* 105 *)
      assign m (dx + i)%nat i (nth i rho 0)) covariance.                                        (* 106 *)

(** ** The latent variable model *)

(** GaussianLVMParametrization's attributes after __post_init__, 157-177.
    Simplification: [eta_x] is a number (passing None makes [covariance] fail). *)
Record lvm := {
  lv_dim_x : nat; lv_dim_y : nat; lv_n_interacting : nat;
  lv_alpha : R; lv_lambd : R; lv_epsilon_x : R; lv_epsilon_y : R;
  lv_beta_x : R; lv_beta_y : R; lv_eta_x : R; lv_eta_y : R
}.

Definition default {A} (o : option A) (d : A) : A := match o with Some a => a | None => d end.

(** __post_init__, 169-177. *)
Definition lvm_init (dim_x dim_y n_interacting : Z) (alpha lambd epsilon_x : R) (epsilon_y : option R)
    (beta_x : R) (beta_y : option R) (eta_x : R) (eta_y : option R) : result lvm :=
  if negb ((0 <=? n_interacting)%Z && (n_interacting <=? Z.min dim_x dim_y)%Z) then Err ValueError   (* 170-174 *)
  else Ok {| lv_dim_x := Z.to_nat dim_x; lv_dim_y := Z.to_nat dim_y;
             lv_n_interacting := Z.to_nat n_interacting; lv_alpha := alpha; lv_lambd := lambd;
             lv_epsilon_x := epsilon_x; lv_epsilon_y := default epsilon_y epsilon_x;            (* 175 *)
             lv_beta_x := beta_x; lv_beta_y := default beta_y beta_x;                           (* 176 *)
             lv_eta_x := eta_x; lv_eta_y := default eta_y eta_x |}.                             (* 177 *)

(** A row of zeros, with the entry at [i] assigned. *)
Definition one_hot (n i : nat) (v : R) : list R := update (repeat 0 n) i (fun _ => v).

(** _z_coefficients, 179-190. *)
Definition z_coefficients (p : lvm) (i : nat) : list R :=
  if (i <? lv_n_interacting p)%nat                                                              (* 188 *)
  then one_hot (lv_n_interacting p) i (lv_lambd p)                                              (* 189 *)
  else repeat 0 (lv_n_interacting p).                                                           (* 187 *)

(** _mixing_x, 192-221. *)
Definition mixing_x (p : lvm) (i : nat) : list R :=
  let k := lv_n_interacting p in
  ([lv_alpha p; lv_beta_x p; 0]                                                                 (* 198 *)
   ++ z_coefficients p i                                                                        (* 199 *)
   ++ one_hot (lv_dim_x p) i (lv_epsilon_x p)                                                   (* 201-202 *)
   ++ repeat 0 (lv_dim_y p)                                                                     (* 204 *)
   ++ (if (k <=? i)%nat then one_hot (lv_dim_x p - k) (i - k) (lv_eta_x p)
       else repeat 0 (lv_dim_x p - k))                                                          (* 206-208 *)
   ++ repeat 0 (lv_dim_y p - k))%list.                                                          (* 210 *)

(** _mixing_y, 223-252. *)
Definition mixing_y (p : lvm) (i : nat) : list R :=
  let k := lv_n_interacting p in
  ([lv_alpha p; 0; lv_beta_y p]                                                                 (* 229 *)
   ++ z_coefficients p i                                                                        (* 230 *)
   ++ repeat 0 (lv_dim_x p)                                                                     (* 232 *)
   ++ one_hot (lv_dim_y p) i (lv_epsilon_y p)                                                   (* 234-235 *)
   ++ repeat 0 (lv_dim_x p - k)                                                                 (* 237 *)
   ++ (if (k <=? i)%nat then one_hot (lv_dim_y p - k) (i - k) (lv_eta_y p)
       else repeat 0 (lv_dim_y p - k)))%list.                                                   (* 239-241 *)

(** mixing, 254-267; [np.vstack] of no rows raises. *)
Definition mixing (p : lvm) : result matrix :=
  match (map (mixing_x p) (seq 0 (lv_dim_x p)) ++ map (mixing_y p) (seq 0 (lv_dim_y p)))%list with
  | [] => Err ValueError
  | rows => Ok rows
  end.

(** n_latent, 269-278. *)
Definition n_latent (p : lvm) : nat :=
  (3 + lv_n_interacting p + lv_dim_x p + lv_dim_y p + (lv_dim_x p - lv_n_interacting p)
   + (lv_dim_y p - lv_n_interacting p))%nat.

(** covariance, 280-320. *)
Definition covariance (p : lvm) : result matrix :=
  let dx := lv_dim_x p in
  let k := lv_n_interacting p in
  let n_all := (dx + lv_dim_y p)%nat in                                                         (* 285-286 *)
  let c := np_full n_all n_all (lv_alpha p ^ 2) in                                              (* 289-293 *)
  let c := increase_block c 0 dx (lv_beta_x p ^ 2) in                                           (* 296 *)
  let c := increase_block c dx n_all (lv_beta_y p ^ 2) in                                       (* 297 *)
  do c <- loop 0 dx (fun c i => increase c i i (lv_epsilon_x p ^ 2)) c;                         (* 300-301 *)
  do c <- loop dx n_all (fun c j => increase c j j (lv_epsilon_y p ^ 2)) c;                     (* 302-303 *)
  do c <- loop 0 k (fun c i =>                                                                  (* 306 *)
    let j := (dx + i)%nat in                                                                    (* 307 *)
    do c <- increase c i j (lv_lambd p ^ 2);                                                    (* 308 *)
    do c <- increase c j i (lv_lambd p ^ 2);                                                    (* 309 *)
    do c <- increase c i i (lv_lambd p ^ 2);                                                    (* 310 *)
    increase c j j (lv_lambd p ^ 2)) c;                                                         (* 311 *)
  do c <- loop k dx (fun c i => increase c i i (lv_eta_x p ^ 2)) c;                             (* 314-315 *)
  loop (k + dx) n_all (fun c j => increase c j j (lv_eta_y p ^ 2)) c.                           (* 317-318 *)

(** NumPy's division of floats (no exception), given exact operands. *)
Definition np_div (a b : R) : fl :=
  if Reqb b 0 then (if Rltb 0 a then PInf else if Rltb a 0 then NInf else NaN) else Fin (a / b).

(** correlation, 322-326 (a zero variance gives NaN). *)
Definition correlation (p : lvm) : result (list (list fl)) :=
  do c <- covariance p;                                                                         (* 324 *)
  let variance := map (fun i => entry c i i) (seq 0 (length c)) in                              (* 325 *)
  Ok (map (fun i => map (fun j => np_div (entry c i j) (sqrt (nth i variance 0 * nth j variance 0)))
                        (seq 0 (length c))) (seq 0 (length c))).                                (* 326 *)

(** latent_variable_labels, 328-337: "$Z_1$" and so on. *)
Definition label (name : string) (i : nat) : string := ("$" ++ name ++ "_" ++ decimal (i + 1) ++ "$")%string.
Definition latent_variable_labels (p : lvm) : list string :=
  let k := lv_n_interacting p in
  (["$U_\mathrm{all}$"%string; "$U_X$"%string; "$U_Y$"%string]                                  (* 331 *)
   ++ map (label "Z") (seq 0 k)                                                                 (* 332 *)
   ++ map (label "E") (seq 0 (lv_dim_x p))                                                      (* 333 *)
   ++ map (label "F") (seq 0 (lv_dim_y p))                                                      (* 334 *)
   ++ map (label "V") (seq k (lv_dim_x p - k))                                                  (* 335 *)
   ++ map (label "W") (seq k (lv_dim_y p - k)))%list.                                           (* 336 *)

(** xy_labels, 339-343. *)
Definition xy_labels (p : lvm) : list string :=
  (map (label "X") (seq 0 (lv_dim_x p)) ++ map (label "Y") (seq 0 (lv_dim_y p)))%list.

(** DenseLVMParametrization.__init__, 351-364. *)
Definition dense_init (dim_x dim_y : Z) (alpha epsilon : R) : result lvm :=
  lvm_init dim_x dim_y 0 alpha 0 epsilon (Some epsilon) 0 (Some 0) 0 (Some 0).

(** Python's division of floats. *)
Definition py_div (a b : R) : result R := if Reqb b 0 then Err ZeroDivisionError else Ok (a / b).

(** correlation_strength, 366-371. *)
Definition correlation_strength (p : lvm) : result R :=
  py_div (lv_alpha p ^ 2) (lv_alpha p ^ 2 + lv_epsilon_x p ^ 2).

(** SparseLVMParametrization.__init__, 375-405. *)
Definition sparse_init (dim_x dim_y n_interacting : Z) (beta lambd epsilon : R) (eta : option R) : result lvm :=
  let eta := default eta lambd in                                                               (* 391 *)
  lvm_init dim_x dim_y n_interacting 0 lambd epsilon (Some epsilon) beta (Some beta) eta (Some eta).   (* 393-405 *)

(** correlation_interacting, 407-412. *)
Definition correlation_interacting (p : lvm) : result R :=
  py_div (lv_lambd p ^ 2) (lv_beta_x p ^ 2 + lv_epsilon_x p ^ 2 + lv_lambd p ^ 2).

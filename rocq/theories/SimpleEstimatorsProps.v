(** KDE and CCA estimators: the theorems. *)
From Coq Require Import String.
From Verif Require Import Base UtilsModel UtilsSpec SimpleEstimatorsModel SimpleEstimatorsSpec SimpleEstimatorsProofs.
Open Scope R_scope.

(** C16. *)
Theorem C16_entropies (ld : string -> bandwidth -> matrix -> list R -> R) e x y sx sy :
  product_space_values (kde_standardize e) x y = Ok (sx, sy) ->
  exists e' h, estimate_entropies ld e x y = (e', Ok h) /\ kde_same e' e /\
    h_x h = mean_minus (ld (kd_kernel (kde_x e)) (kd_bandwidth (kde_x e)) sx) sx /\
    h_y h = mean_minus (ld (kd_kernel (kde_y e)) (kd_bandwidth (kde_y e)) sy) sy /\
    h_xy h = mean_minus (ld (kd_kernel (kde_xy e)) (kd_bandwidth (kde_xy e)) (hstack sx sy)) (hstack sx sy) /\
    h_mi h = h_x h + h_y h - h_xy h /\
    kde_estimate ld e x y = (e', Ok (h_x h + h_y h - h_xy h)).
Proof. exact (kde_entropies ld e x y sx sy). Qed.
Print Assumptions C16_entropies.

Theorem C16_history (ld : string -> bandwidth -> matrix -> list R -> R) e calls x y :
  snd (estimate_entropies ld (kde_run ld e calls) x y) = snd (estimate_entropies ld e x y) /\
  snd (kde_estimate ld (kde_run ld e calls) x y) = snd (kde_estimate ld e x y).
Proof. exact (kde_history ld e calls x y). Qed.
Print Assumptions C16_history.

Theorem C16_defaults kxy kx ky bxy bx by_ std e :
  kde_init kxy kx ky bxy bx by_ std = Ok e ->
  kd_kernel (kde_xy e) = kxy /\ kd_bandwidth (kde_xy e) = bxy /\ kde_standardize e = std /\
  (kx = None -> kd_kernel (kde_x e) = kxy) /\ (ky = None -> kd_kernel (kde_y e) = kxy) /\
  (bx = None -> kd_bandwidth (kde_x e) = bxy) /\ (by_ = None -> kd_bandwidth (kde_y e) = bxy) /\
  (forall k, kx = Some k -> k <> ""%string -> kd_kernel (kde_x e) = k) /\
  (forall k, ky = Some k -> k <> ""%string -> kd_kernel (kde_y e) = k) /\
  (forall b, bx = Some b -> kd_bandwidth (kde_x e) = b) /\ (forall b, by_ = Some b -> kd_bandwidth (kde_y e) = b) /\
  kd_data (kde_x e) = None /\ kd_data (kde_y e) = None /\ kd_data (kde_xy e) = None.
Proof. exact (kde_defaults kxy kx ky bxy bx by_ std e). Qed.
Print Assumptions C16_defaults.

Theorem C16_symmetric (ld : string -> bandwidth -> matrix -> list R -> R) e dx dy x y sx sy :
  (forall k b mx my rx ry, rectangular dx mx -> rectangular dy my -> In (rx, ry) (combine mx my) ->
     ld k b (hstack my mx) (ry ++ rx)%list = ld k b (hstack mx my) (rx ++ ry)%list) ->
  rectangular dx x -> rectangular dy y -> (0 < dx)%nat -> (0 < dy)%nat -> x <> [] ->
  product_space_values (kde_standardize e) x y = Ok (sx, sy) ->
  exists h h', snd (estimate_entropies ld e x y) = Ok h /\ snd (estimate_entropies ld (kde_swap e) y x) = Ok h' /\
    h_x h' = h_y h /\ h_y h' = h_x h /\ h_xy h' = h_xy h /\ h_mi h' = h_mi h.
Proof. exact (kde_symmetric ld e dx dy x y sx sy). Qed.
Print Assumptions C16_symmetric.

(** C17: [coords xn i] is the i-th coordinate of the sample transformed by CCA. *)
Theorem C17_value (cca : nat -> bool -> matrix -> matrix -> matrix * matrix) scale x y xn yn d :
  cca (Nat.min (ncols x) (ncols y)) scale x y = (xn, yn) ->
  rectangular d xn -> rectangular d yn -> xn <> [] -> List.length xn = List.length yn ->
  (forall i, (i < d)%nat -> ~ all_equal (coords xn i) /\ ~ all_equal (coords yn i)) ->
  exists r, cca_estimate cca scale x y = Ok r /\
    (r = PInf \/ exists v, r = Fin v /\ 0 <= v) /\
    (r = PInf <-> exists i, (i < d)%nat /\ affinely_related (coords xn i) (coords yn i)) /\
    (r = Fin 0 <-> forall i, (i < d)%nat -> pearson (coords xn i) (coords yn i) = 0) /\
    ((forall i, (i < d)%nat -> ~ affinely_related (coords xn i) (coords yn i)) ->
      r = Fin (rsum (map (fun i => - (1 / 2) * ln (1 - pearson (coords xn i) (coords yn i) * pearson (coords xn i) (coords yn i)))
                         (seq 0 d)))).
Proof. exact (fun Hc Rx Ry Hn Hl => cca_regular cca scale x y xn yn d Hc Rx Ry Hn Hl). Qed.
Print Assumptions C17_value.

Theorem C17_constant_coordinate (cca : nat -> bool -> matrix -> matrix -> matrix * matrix) scale x y xn yn d i :
  cca (Nat.min (ncols x) (ncols y)) scale x y = (xn, yn) ->
  rectangular d xn -> rectangular d yn -> xn <> [] -> List.length xn = List.length yn ->
  (i < d)%nat -> all_equal (coords xn i) \/ all_equal (coords yn i) ->
  cca_estimate cca scale x y = Ok NaN.
Proof. exact (fun Hc Rx Ry Hn Hl => cca_degenerate cca scale x y xn yn d Hc Rx Ry Hn Hl i). Qed.
Print Assumptions C17_constant_coordinate.

(** ** The hypotheses can be met. *)
Definition ex_ld : string -> bandwidth -> matrix -> list R -> R := fun _ _ m p => rsum p - INR (List.length m).
Definition ex_kde : kde :=
  let k := {| kd_kernel := "gaussian"%string; kd_bandwidth := BNumber 1; kd_data := None |} in
  {| kde_x := k; kde_y := k; kde_xy := k; kde_standardize := false |}.

Example C16_init_example :
  exists e, kde_init "tophat" None (Some "gaussian"%string) (BNumber 2) (Some (BNumber 1)) None false = Ok e.
Proof. eexists. reflexivity. Qed.

Example C16_entropies_example : product_space_values (kde_standardize ex_kde) [[1]; [2]] [[3]; [5]] = Ok ([[1]; [2]], [[3]; [5]]).
Proof. reflexivity. Qed.

Example C16_symmetric_example : forall k b mx my rx ry, rectangular 1 mx -> rectangular 1 my -> In (rx, ry) (combine mx my) ->
     ex_ld k b (hstack my mx) (ry ++ rx)%list = ex_ld k b (hstack mx my) (rx ++ ry)%list.
Proof.
  intros. unfold ex_ld. rewrite !BaseLemmas.rsum_app. unfold hstack. rewrite !map_length, !combine_length, Nat.min_comm. lra.
Qed.

Example C17_value_example :
  let cca := fun (_ : nat) (_ : bool) (a b : matrix) => (a, b) in
  let x := [[0]; [1]; [2]] in let y := [[1]; [3]; [2]] in
  rectangular 1 x /\ rectangular 1 y /\
  (forall i, (i < 1)%nat -> ~ all_equal (coords x i) /\ ~ all_equal (coords y i)) /\
  cca_estimate cca true x y = Ok (Fin (- (1 / 2) * ln (1 - 1 / 4))).
Proof.
  cbv zeta. set (x := [[0]; [1]; [2]]). set (y := [[1]; [3]; [2]]).
  assert (Rx : rectangular 1 x) by (repeat constructor). assert (Ry : rectangular 1 y) by (repeat constructor).
  assert (Hn : forall i, (i < 1)%nat -> ~ all_equal (coords x i) /\ ~ all_equal (coords y i)).
  { intros i Hi. assert (i = 0%nat) by lia. subst. split; intros H.
    - specialize (H 0 1). cbn in H. assert (0 = 1) by (apply H; tauto). lra.
    - specialize (H 1 3). cbn in H. assert (1 = 3) by (apply H; tauto). lra. }
  split; [assumption|]. split; [assumption|]. split; [assumption|].
  destruct (C17_value (fun _ _ a b => (a, b)) true x y x y 1 eq_refl Rx Ry ltac:(discriminate) eq_refl Hn) as (r & E & _ & _ & _ & Hv).
  rewrite E, Hv.
  - do 2 f_equal. cbn [seq map]. rewrite BaseLemmas.rsum_cons.
    assert (P : pearson (coords x 0) (coords y 0) = 1 / 2).
    { unfold pearson. replace (dot (centred (coords x 0)) (centred (coords x 0)) * dot (centred (coords y 0)) (centred (coords y 0))) with (2 * 2).
      - rewrite sqrt_square by lra. unfold dot, centred, rmean, coords, x, y. cbn. lra.
      - unfold dot, centred, rmean, coords, x, y. cbn. lra. }
    rewrite P. cbn [rsum fold_right]. replace (1 / 2 * (1 / 2)) with (1 / 4) by lra. lra.
  - intros i Hi (a & b & Ha & Eq). assert (i = 0%nat) by lia. subst i. cbn in Eq. injection Eq as E1 E2 E3. lra.
Qed.

Example C17_infinite_example :
  let x := [[0]; [1]; [2]] in let y := [[1]; [3]; [5]] in affinely_related (coords x 0) (coords y 0).
Proof. exists 2, 1. split; [lra|]. cbn. repeat f_equal; lra. Qed.

Example C17_constant_example : all_equal (coords [[0; 1]; [0; 2]] 0).
Proof. intros v w [<-|[<-|[]]] [<-|[<-|[]]]; reflexivity. Qed.

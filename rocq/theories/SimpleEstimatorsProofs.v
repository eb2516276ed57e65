(** Proofs about the KDE and CCA estimators. *)
From Coq Require Import String.
From Verif Require Import Base BaseLemmas UtilsModel UtilsSpec UtilsProofs KsgFitProofs KsgThms PluginProofs ObjectivesProofs
  SimpleEstimatorsModel SimpleEstimatorsSpec.
Open Scope R_scope.
Local Notation length := List.length.

(** ** KDE *)
Lemma mean_minus_opp f m : mean_minus f m = - rmean (map f m).
Proof.
  unfold mean_minus, rmean. rewrite !map_length, (rsum_map_ext _ (fun p => -1 * f p)) by (intros; lra).
  rewrite rsum_scal. unfold Rdiv. lra.
Qed.

Lemma kde_entropies ld e x y sx sy :
  product_space_values (kde_standardize e) x y = Ok (sx, sy) ->
  exists e' h, estimate_entropies ld e x y = (e', Ok h) /\ kde_same e' e /\
    h_x h = mean_minus (ld (kd_kernel (kde_x e)) (kd_bandwidth (kde_x e)) sx) sx /\
    h_y h = mean_minus (ld (kd_kernel (kde_y e)) (kd_bandwidth (kde_y e)) sy) sy /\
    h_xy h = mean_minus (ld (kd_kernel (kde_xy e)) (kd_bandwidth (kde_xy e)) (hstack sx sy)) (hstack sx sy) /\
    h_mi h = h_x h + h_y h - h_xy h /\
    kde_estimate ld e x y = (e', Ok (h_x h + h_y h - h_xy h)).
Proof.
  intros H. unfold kde_estimate, estimate_entropies. rewrite H.
  do 2 eexists. split; [reflexivity|]. rewrite !mean_minus_opp. cbn.
  repeat split; reflexivity.
Qed.

Lemma estimate_entropies_same ld e e' x y :
  kde_same e e' -> snd (estimate_entropies ld e x y) = snd (estimate_entropies ld e' x y).
Proof.
  intros ([A1 A2] & [B1 B2] & [C1 C2] & D). unfold estimate_entropies. rewrite D.
  destruct (product_space_values _ x y) as [[sx sy]|ex]; [|reflexivity]. cbn.
  rewrite A1, A2, B1, B2, C1, C2. reflexivity.
Qed.

Lemma kde_same_refl e : kde_same e e.
Proof. repeat split. Qed.
Lemma kde_same_trans a b c : kde_same a b -> kde_same b c -> kde_same a c.
Proof.
  intros ([A1 A2] & [B1 B2] & [C1 C2] & D) ([A1' A2'] & [B1' B2'] & [C1' C2'] & D').
  repeat split; congruence.
Qed.

Lemma estimate_keeps_settings ld e x y : kde_same (fst (estimate_entropies ld e x y)) e.
Proof.
  unfold estimate_entropies. destruct (product_space_values _ x y) as [[sx sy]|ex]; [|apply kde_same_refl].
  repeat split.
Qed.

Lemma kde_history ld e calls x y :
  snd (estimate_entropies ld (kde_run ld e calls) x y) = snd (estimate_entropies ld e x y) /\
  snd (kde_estimate ld (kde_run ld e calls) x y) = snd (kde_estimate ld e x y).
Proof.
  assert (H : kde_same (kde_run ld e calls) e).
  { revert e. induction calls as [|[a b] calls IH]; intros e; cbn [kde_run]; [apply kde_same_refl|].
    eapply kde_same_trans; [apply IH|apply estimate_keeps_settings]. }
  pose proof (estimate_entropies_same ld _ _ x y H) as E. split; [exact E|].
  unfold kde_estimate. destruct (estimate_entropies ld (kde_run ld e calls) x y), (estimate_entropies ld e x y).
  cbn in *. now rewrite E.
Qed.

Lemma kde_defaults kxy kx ky bxy bx by_ std e :
  kde_init kxy kx ky bxy bx by_ std = Ok e ->
  kd_kernel (kde_xy e) = kxy /\ kd_bandwidth (kde_xy e) = bxy /\ kde_standardize e = std /\
  (kx = None -> kd_kernel (kde_x e) = kxy) /\ (ky = None -> kd_kernel (kde_y e) = kxy) /\
  (bx = None -> kd_bandwidth (kde_x e) = bxy) /\ (by_ = None -> kd_bandwidth (kde_y e) = bxy) /\
  (forall k, kx = Some k -> k <> ""%string -> kd_kernel (kde_x e) = k) /\
  (forall k, ky = Some k -> k <> ""%string -> kd_kernel (kde_y e) = k) /\
  (forall b, bx = Some b -> kd_bandwidth (kde_x e) = b) /\ (forall b, by_ = Some b -> kd_bandwidth (kde_y e) = b) /\
  kd_data (kde_x e) = None /\ kd_data (kde_y e) = None /\ kd_data (kde_xy e) = None.
Proof.
  unfold kde_init. destruct (forallb _ _ && forallb _ _); [|discriminate]. intros [= <-]. cbn.
  repeat split; intros; subst; try reflexivity; unfold str_or.
  - destruct (String.eqb_spec k ""); [contradiction|reflexivity].
  - destruct (String.eqb_spec k ""); [contradiction|reflexivity].
Qed.

Lemma product_space_swap std dx dy x y sx sy :
  rectangular dx x -> rectangular dy y -> (0 < dx)%nat -> (0 < dy)%nat -> x <> [] ->
  product_space_values std x y = Ok (sx, sy) ->
  product_space_values std y x = Ok (sy, sx) /\ rectangular dx sx /\ rectangular dy sy /\ length sx = length sy.
Proof.
  intros Hx Hy Hdx Hdy Hn. unfold product_space_values.
  rewrite (Nat.eqb_sym (length y)). destruct (Nat.eqb_spec (length x) (length y)) as [E|E]; cbn [negb]; [|discriminate].
  assert (Hny : y <> []) by (intros ->; destruct x; simpl in E; congruence).
  destruct std.
  - rewrite (standard_scaler_ok dx x), (standard_scaler_ok dy y) by assumption. cbn [bind].
    intros [= <- <-]. destruct (scaler_shape dx x Hx Hn) as [L1 R1]. destruct (scaler_shape dy y Hy Hny) as [L2 R2].
    repeat split; auto; congruence.
  - intros [= <- <-]. auto.
Qed.

Lemma kde_symmetric (ld : string -> bandwidth -> matrix -> list R -> R) e dx dy x y sx sy :
  (forall k b mx my rx ry, rectangular dx mx -> rectangular dy my -> In (rx, ry) (combine mx my) ->
     ld k b (hstack my mx) (ry ++ rx)%list = ld k b (hstack mx my) (rx ++ ry)%list) ->
  rectangular dx x -> rectangular dy y -> (0 < dx)%nat -> (0 < dy)%nat -> x <> [] ->
  product_space_values (kde_standardize e) x y = Ok (sx, sy) ->
  exists h h', snd (estimate_entropies ld e x y) = Ok h /\ snd (estimate_entropies ld (kde_swap e) y x) = Ok h' /\
    h_x h' = h_y h /\ h_y h' = h_x h /\ h_xy h' = h_xy h /\ h_mi h' = h_mi h.
Proof.
  intros Hsym Hx Hy Hdx Hdy Hn H.
  destruct (product_space_swap _ _ _ _ _ _ _ Hx Hy Hdx Hdy Hn H) as (H' & Rx & Ry & Hl).
  destruct (kde_entropies ld e x y sx sy H) as (e1 & h & E1 & _ & A1 & A2 & A3 & A4 & _).
  destruct (kde_entropies ld (kde_swap e) y x sy sx H') as (e2 & h' & E2 & _ & B1 & B2 & B3 & B4 & _).
  exists h, h'. rewrite E1, E2. split; [reflexivity|]. split; [reflexivity|].
  cbn [kde_swap kde_x kde_y kde_xy] in *.
  assert (Exy : h_xy h' = h_xy h).
  { rewrite A3, B3. rewrite !mean_minus_opp. f_equal. unfold rmean. rewrite !map_length.
    rewrite (hstack_length sx sy), (hstack_length sy sx), Hl by congruence. f_equal.
    set (k := kd_kernel (kde_xy e)). set (b := kd_bandwidth (kde_xy e)).
    set (F := ld k b (hstack sy sx)). set (G := ld k b (hstack sx sy)). unfold hstack.
    rewrite combine_swap, !map_map. apply rsum_map_ext. intros [rx ry] Hin. cbn [fst snd]. unfold F, G. now apply Hsym. }
  split; [congruence|]. split; [congruence|]. split; [assumption|]. rewrite A4, B4, Exy.
  rewrite A1, A2, B1, B2. lra.
Qed.

(** ** CCA *)
Lemma dot_scal_sq (c k : R) (u v : list R) :
  rsum (map (fun p => (c * snd p - k * fst p) * (c * snd p - k * fst p)) (combine u v))
  = c * c * rsum (map (fun p => snd p * snd p) (combine u v)) - 2 * (c * k) * dot u v
    + k * k * rsum (map (fun p => fst p * fst p) (combine u v)).
Proof.
  unfold dot. induction (combine u v) as [|p l IH]; cbn [map]; [cbn; lra|]. rewrite !rsum_cons, IH. lra.
Qed.

Lemma dot_self (u : list R) : dot u u = rsum (map (fun a => a * a) u).
Proof. unfold dot. f_equal. induction u as [|a u IH]; simpl; congruence. Qed.

Lemma sum_sq_fst (u v : list R) : length u = length v -> rsum (map (fun p => fst p * fst p) (combine u v)) = dot u u.
Proof. intros H. rewrite dot_self. rewrite <- (combine_fst u v H) at 2. now rewrite map_map. Qed.
Lemma sum_sq_snd (u v : list R) : length u = length v -> rsum (map (fun p => snd p * snd p) (combine u v)) = dot v v.
Proof. intros H. rewrite dot_self. rewrite <- (combine_snd u v H) at 2. now rewrite map_map. Qed.

Lemma dot_self_nonneg u : 0 <= dot u u.
Proof. rewrite dot_self. apply rsum_nonneg, Forall_map, Forall_forall. intros a _. apply Rle_0_sqr. Qed.

Lemma cauchy_schwarz u v : length u = length v -> 0 < dot u u ->
  dot u v * dot u v <= dot u u * dot v v /\
  (dot u v * dot u v = dot u u * dot v v -> v = map (fun a => dot u v / dot u u * a) u).
Proof.
  intros Hl Hp.
  assert (Hid := dot_scal_sq (dot u u) (dot u v) u v).
  rewrite sum_sq_fst, sum_sq_snd in Hid by assumption.
  set (sq := map (fun p => (dot u u * snd p - dot u v * fst p) * (dot u u * snd p - dot u v * fst p)) (combine u v)) in *.
  assert (Hn : Forall (fun a => 0 <= a) sq) by (apply Forall_map, Forall_forall; intros; apply Rle_0_sqr).
  pose proof (rsum_nonneg _ Hn) as Hs.
  assert (E : rsum sq = dot u u * (dot u u * dot v v - dot u v * dot u v)) by (rewrite Hid; ring).
  split.
  - rewrite E in Hs. apply Rmult_le_reg_l with (dot u u); [assumption|]. lra.
  - intros Heq. rewrite Heq in E. replace (dot u u * (dot u u * dot v v - dot u u * dot v v)) with 0 in E by ring.
    apply rsum_zero_all in E; [|assumption]. unfold sq in E.
    set (c := dot u u) in *. set (k := dot u v) in *. clearbody c k. clear - Hl Hp E.
    revert v Hl E. induction u as [|a u IH]; intros [|b v] Hl E; simpl in Hl; try discriminate; [reflexivity|].
    cbn [combine map fst snd] in E. inversion E as [|? ? E1 E2]; subst. cbn [map]. f_equal.
    + assert (c * b - k * a = 0) by nra. apply Rmult_eq_reg_l with c; [|lra]. field_simplify; lra.
    + apply IH; [lia|exact E2].
Qed.

Lemma centred_length u : length (centred u) = length u.
Proof. apply map_length. Qed.

Lemma covariance_dot u v : length u = length v -> covariance u v = dot (centred u) (centred v) / INR (length u).
Proof.
  intros H. unfold covariance, rmean at 1, dot, centred. rewrite map_length, combine_length, <- H, Nat.min_id.
  f_equal. rewrite combine_map, map_map. reflexivity.
Qed.

Lemma variance_dot u : variance u = dot (centred u) (centred u) / INR (length u).
Proof. unfold variance, rmean at 1. rewrite dot_self. unfold centred. rewrite !map_map, map_length. reflexivity. Qed.

Definition constant (u : list R) : Prop := all_equal u.

Lemma dot_centred_pos u : u <> [] -> ~ constant u -> 0 < dot (centred u) (centred u).
Proof.
  intros Hu Hc. pose proof (dot_self_nonneg (centred u)). destruct (Req_dec (dot (centred u) (centred u)) 0) as [E|E]; [|lra].
  exfalso. apply Hc. assert (Hv : variance u = 0) by (rewrite variance_dot, E; unfold Rdiv; lra).
  apply variance_zero_constant in Hv; [|assumption]. rewrite Forall_forall in Hv.
  intros a b Ha Hb. rewrite (Hv a Ha), (Hv b Hb). reflexivity.
Qed.

Lemma constant_variance_zero u : u <> [] -> constant u -> variance u = 0.
Proof.
  intros Hu Hc. destruct u as [|a u]; [congruence|]. apply (constant_variance _ a); [discriminate|].
  apply Forall_forall. intros b Hb. apply Hc; [assumption|now left].
Qed.

Lemma corr_constant u v : u <> [] -> v <> [] -> constant u \/ constant v -> corr u v = NaN.
Proof.
  intros Hu Hv H. unfold corr. replace (variance u * variance v) with 0.
  - rewrite sqrt_0. now rewrite (proj2 (Reqb_true 0 0) eq_refl).
  - destruct H as [H|H]; [rewrite (constant_variance_zero u Hu H)|rewrite (constant_variance_zero v Hv H)]; lra.
Qed.

Lemma Reqb_false_intro x y : x <> y -> Reqb x y = false.
Proof. intros H. unfold Reqb. destruct (Req_EM_T x y); congruence. Qed.

Lemma corr_pearson u v : u <> [] -> length u = length v -> ~ constant u -> ~ constant v -> corr u v = Fin (pearson u v).
Proof.
  intros Hu Hl Hcu Hcv.
  assert (Hv : v <> []) by (intros ->; destruct u; [congruence|discriminate]).
  pose proof (dot_centred_pos u Hu Hcu) as Pu. pose proof (dot_centred_pos v Hv Hcv) as Pv.
  pose proof (INR_length_pos u Hu) as Hn.
  unfold corr, pearson. rewrite covariance_dot, !variance_dot, <- Hl by assumption.
  set (A := dot (centred u) (centred u)) in *. set (B := dot (centred v) (centred v)) in *.
  set (C := dot (centred u) (centred v)). set (n := INR (length u)) in *.
  replace (A / n * (B / n)) with (A * B * ((/ n) * (/ n))) by (field; lra).
  assert (0 < / n) by now apply Rinv_0_lt_compat.
  rewrite sqrt_mult, sqrt_square by nra.
  assert (0 < sqrt (A * B)) by (apply sqrt_lt_R0; nra).
  rewrite Reqb_false_intro by nra. f_equal. field. lra.
Qed.

Lemma pearson_bound u v : u <> [] -> length u = length v -> ~ constant u -> ~ constant v ->
  pearson u v * pearson u v <= 1 /\ (pearson u v * pearson u v = 1 <-> affinely_related u v).
Proof.
  intros Hu Hl Hcu Hcv.
  assert (Hv : v <> []) by (intros ->; destruct u; [congruence|discriminate]).
  pose proof (dot_centred_pos u Hu Hcu) as Pu. pose proof (dot_centred_pos v Hv Hcv) as Pv.
  destruct (cauchy_schwarz (centred u) (centred v)) as [H1 H2]; [rewrite !centred_length; assumption|assumption|].
  unfold pearson.
  set (A := dot (centred u) (centred u)) in *. set (B := dot (centred v) (centred v)) in *.
  set (C := dot (centred u) (centred v)) in *.
  assert (0 < A * B) by nra.
  replace (C / sqrt (A * B) * (C / sqrt (A * B))) with (C * C / (A * B)).
  2:{ assert (0 < sqrt (A * B)) by (apply sqrt_lt_R0; assumption).
      rewrite <- (sqrt_sqrt (A * B)) at 1 by lra. field. lra. }
  split.
  - apply Rmult_le_reg_r with (A * B); [assumption|]. unfold Rdiv. rewrite Rmult_assoc, Rinv_l by lra. lra.
  - split; intros E.
    + assert (E' : C * C = A * B).
      { apply Rmult_eq_reg_r with (/ (A * B)); [|apply Rinv_neq_0_compat; lra]. unfold Rdiv in E. rewrite E. now rewrite Rinv_r by lra. }
      specialize (H2 E'). exists (C / A), (rmean v - C / A * rmean u). split.
      * intros E0. assert (C = 0). { apply Rmult_eq_reg_r with (/ A); [|apply Rinv_neq_0_compat; lra]. unfold Rdiv in E0. lra. }
        subst C. rewrite H0 in E'. lra.
      * unfold centred in H2. rewrite map_map in H2.
        assert (G : map (fun t => t + rmean v) (map (fun t => t - rmean v) v) = v).
        { rewrite map_map. rewrite <- (map_id v) at 2. apply map_ext. intros; lra. }
        rewrite <- G at 1. rewrite H2, map_map. apply map_ext. intros t. lra.
    + destruct E as (a & b & Ha & ->). 
      assert (Hcen : centred (map (fun t => a * t + b) u) = map (fun t => a * t) (centred u)).
      { unfold centred. rewrite rmean_affine by assumption. rewrite !map_map. apply map_ext. intros t. lra. }
      assert (EC : C = a * A).
      { unfold C, A. rewrite Hcen. unfold dot. rewrite <- (map_id (centred u)) at 1. rewrite combine_map, map_map. cbn [fst snd].
        rewrite <- rsum_scal. clear. induction (centred u) as [|t l IH]; cbn [combine map fst snd]; [reflexivity|].
        rewrite !rsum_cons, IH. lra. }
      assert (EB : B = a * a * A).
      { unfold B, A. rewrite Hcen. rewrite !dot_self, map_map, <- rsum_scal. apply rsum_map_ext. intros t _. lra. }
      rewrite EC, EB. field. split; lra.
Qed.

Lemma fold_fl_add l a : fold_left fl_add l a = fl_add a (fl_sum l).
Proof.
  revert a. induction l as [|b l IH]; intros a; cbn [fold_left].
  - now rewrite fl_add_0_r.
  - rewrite IH. cbn [fl_sum fold_right]. now rewrite fl_add_assoc.
Qed.

Lemma mi_gauss_value r : r * r < 1 -> mi_gauss (Fin r) = Fin (- (1 / 2) * ln (1 - r * r)).
Proof. intros H. unfold mi_gauss. now rewrite (proj2 (Rltb_true _ _) H). Qed.
Lemma mi_gauss_one r : r * r = 1 -> mi_gauss (Fin r) = PInf.
Proof. intros H. unfold mi_gauss. rewrite (proj2 (Rltb_false _ _)) by lra. now rewrite (proj2 (Reqb_true _ _) H). Qed.

Lemma gauss_term_nonneg r : r * r < 1 -> 0 <= - (1 / 2) * ln (1 - r * r) /\ (- (1 / 2) * ln (1 - r * r) = 0 -> r = 0).
Proof.
  intros H. assert (Hr : 0 <= r * r) by apply Rle_0_sqr.
  assert (ln (1 - r * r) <= 0).
  { rewrite <- ln_1. apply Rcomplements.ln_le; lra. }
  split; [lra|]. intros E. assert (E2 : ln (1 - r * r) = 0) by lra.
  assert (1 - r * r = 1). { apply ln_inv; try lra. now rewrite ln_1. } nra.
Qed.

(** A sum of non-negative numbers and +inf. *)
Definition nonneg_fl (a : fl) : Prop := match a with Fin v => 0 <= v | PInf => True | _ => False end.

Lemma fl_sum_nonneg l : Forall nonneg_fl l ->
  nonneg_fl (fl_sum l) /\ (fl_sum l = PInf <-> In PInf l) /\ (fl_sum l = Fin 0 <-> Forall (fun a => a = Fin 0) l).
Proof.
  induction 1 as [|a l Ha Hl IH].
  - cbn. repeat split; try lra; try tauto; try discriminate. intros _. constructor.
  - destruct IH as (H1 & H2 & H3). cbn [fl_sum fold_right]. change (fold_right fl_add (Fin 0) l) with (fl_sum l) in *.
    destruct a as [v| | |]; cbn in Ha; try contradiction; destruct (fl_sum l) as [w| | |] eqn:E; cbn in H1; try contradiction; cbn.
    + split; [lra|]. split.
      * split; [discriminate|]. intros [?|Hin]; [discriminate|]. apply H2 in Hin. discriminate.
      * split.
        -- intros [= E0]. assert (v = 0) by lra. assert (w = 0) by lra. subst. constructor; [reflexivity|]. now apply H3.
        -- intros HF. inversion HF as [|? ? E1 E2]; subst. injection E1 as ->. apply H3 in E2. injection E2 as ->. f_equal. lra.
    + split; [exact I|]. split; [split; [intros _; right; now apply H2|auto]|].
      split; [discriminate|]. intros HF. inversion HF; subst. apply H3 in H5. discriminate.
    + split; [exact I|]. split; [split; [now left|auto]|]. split; [discriminate|]. intros HF. inversion HF; subst. discriminate.
    + split; [exact I|]. split; [split; [now left|auto]|]. split; [discriminate|]. intros HF. inversion HF; subst. discriminate.
Qed.

Lemma fl_sum_nan l : In NaN l -> fl_sum l = NaN.
Proof.
  induction l as [|a l IH]; intros H; [destruct H|]. cbn [fl_sum fold_right]. destruct H as [->|H].
  - reflexivity.
  - change (fold_right fl_add (Fin 0) l) with (fl_sum l). rewrite (IH H). destruct a; reflexivity.
Qed.

Section CcaThms.
  Variables (cca : nat -> bool -> matrix -> matrix -> matrix * matrix) (scale : bool) (x y xn yn : matrix) (d : nat).
  Hypothesis Hcca : cca (Nat.min (ncols x) (ncols y)) scale x y = (xn, yn).
  Hypothesis Rx : rectangular d xn.
  Hypothesis Ry : rectangular d yn.
  Hypothesis Hne : xn <> [].
  Hypothesis Hl : length xn = length yn.

  Let Hney : yn <> [].
  Proof. intros E. rewrite E in Hl. destruct xn; [congruence|discriminate]. Qed.

  Let ux i := coords xn i.
  Let uy i := coords yn i.

  Lemma cca_value : cca_estimate cca scale x y
    = Ok (fl_sum (map (fun i => mi_gauss (corr (ux i) (uy i))) (seq 0 d))).
  Proof.
    unfold cca_estimate. rewrite Hcca, (ncols_rect d xn), (ncols_rect d yn) by assumption.
    rewrite Nat.eqb_refl. cbn [negb]. now rewrite fold_fl_add, fl_add_0_l.
  Qed.

  Let lens i : length (ux i) = length (uy i).
  Proof. unfold ux, uy, coords. now rewrite !map_length. Qed.
  Let ux_ne i : ux i <> [].
  Proof. unfold ux, coords. destruct xn; [congruence|discriminate]. Qed.
  Let uy_ne i : uy i <> [].
  Proof. unfold uy, coords. destruct yn; [congruence|discriminate]. Qed.

  Lemma cca_degenerate i : (i < d)%nat -> all_equal (ux i) \/ all_equal (uy i) -> cca_estimate cca scale x y = Ok NaN.
  Proof.
    intros Hi H. rewrite cca_value. f_equal. apply fl_sum_nan. apply in_map_iff. exists i.
    split; [|apply in_seq; lia]. now rewrite corr_constant by auto.
  Qed.

  Lemma cca_regular :
    (forall i, (i < d)%nat -> ~ all_equal (ux i) /\ ~ all_equal (uy i)) ->
    exists r, cca_estimate cca scale x y = Ok r /\
      (r = PInf \/ exists v, r = Fin v /\ 0 <= v) /\
      (r = PInf <-> exists i, (i < d)%nat /\ affinely_related (ux i) (uy i)) /\
      (r = Fin 0 <-> forall i, (i < d)%nat -> pearson (ux i) (uy i) = 0) /\
      ((forall i, (i < d)%nat -> ~ affinely_related (ux i) (uy i)) ->
        r = Fin (rsum (map (fun i => - (1 / 2) * ln (1 - pearson (ux i) (uy i) * pearson (ux i) (uy i))) (seq 0 d)))).
  Proof.
    intros Hnc. rewrite cca_value. eexists. split; [reflexivity|].
    set (terms := map (fun i => mi_gauss (corr (ux i) (uy i))) (seq 0 d)).
    assert (Hterm : forall i, (i < d)%nat ->
      (affinely_related (ux i) (uy i) /\ mi_gauss (corr (ux i) (uy i)) = PInf) \/
      (~ affinely_related (ux i) (uy i) /\ pearson (ux i) (uy i) * pearson (ux i) (uy i) < 1 /\
       mi_gauss (corr (ux i) (uy i)) = Fin (- (1 / 2) * ln (1 - pearson (ux i) (uy i) * pearson (ux i) (uy i))))).
    { intros i Hi. destruct (Hnc i Hi) as [N1 N2]. rewrite corr_pearson by auto.
      destruct (pearson_bound (ux i) (uy i)) as [B1 B2]; auto.
      destruct (Req_dec (pearson (ux i) (uy i) * pearson (ux i) (uy i)) 1) as [E|E].
      - left. split; [now apply B2|]. now apply mi_gauss_one.
      - right. split; [intros Ha; apply E, B2, Ha|]. split; [lra|]. apply mi_gauss_value. lra. }
    assert (Hnn : Forall nonneg_fl terms).
    { apply Forall_map, Forall_forall. intros i Hi. apply in_seq in Hi.
      destruct (Hterm i) as [[_ ->]|(_ & Hlt & ->)]; [lia|exact I|]. now apply gauss_term_nonneg. }
    destruct (fl_sum_nonneg terms Hnn) as (H1 & H2 & H3).
    split; [|split; [|split]].
    - destruct (fl_sum terms) as [v| | |]; cbn in H1; try contradiction; [right; eauto|auto].
    - rewrite H2. unfold terms. rewrite in_map_iff. split.
      + intros (i & E & Hi). apply in_seq in Hi. exists i. split; [lia|].
        destruct (Hterm i) as [[Ha _]|(_ & _ & E')]; [lia|assumption|congruence].
      + intros (i & Hi & Ha). exists i. split; [|apply in_seq; lia].
        destruct (Hterm i Hi) as [[_ E]|(Hna & _)]; [assumption|contradiction].
    - rewrite H3. unfold terms. rewrite Forall_map, Forall_forall. split.
      + intros HF i Hi. assert (E := HF i). rewrite in_seq in E. specialize (E ltac:(lia)).
        destruct (Hterm i Hi) as [[_ E']|(_ & Hlt & E')]; [congruence|].
        rewrite E' in E. injection E as E. destruct (gauss_term_nonneg _ Hlt) as [_ G]. now apply G.
      + intros HF i Hi. apply in_seq in Hi. assert (Hi' : (i < d)%nat) by lia. specialize (HF i Hi').
        destruct (Hterm i Hi') as [[Ha E']|(_ & Hlt & E')].
        * exfalso. destruct (Hnc i Hi') as [N1 N2].
          destruct (pearson_bound (ux i) (uy i)) as [B1 B2]; auto. apply B2 in Ha. rewrite HF in Ha. lra.
        * rewrite E', HF. f_equal. replace (1 - 0 * 0) with 1 by lra. rewrite ln_1. lra.
    - intros Hna. assert (E : terms = map Fin (map (fun i => - (1 / 2) * ln (1 - pearson (ux i) (uy i) * pearson (ux i) (uy i))) (seq 0 d))).
      { unfold terms. rewrite map_map. apply map_ext_in. intros i Hi. apply in_seq in Hi.
        destruct (Hterm i) as [[Ha _]|(_ & _ & ->)]; [lia| |reflexivity]. exfalso. apply (Hna i); [lia|assumption]. }
      rewrite E, fl_sum_Fin. reflexivity.
  Qed.
End CcaThms.

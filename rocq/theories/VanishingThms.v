(** Mutual information that appears and vanishes. *)
From Coq Require Import String Reals.
From Coquelicot Require Import Coquelicot.
From Verif Require Import Base UtilsModel CriticsModel CriticsSpec CriticsThms VanishingModel VanishingSpec.
Open Scope R_scope.
Local Notation length := List.length.

(** ** Integrals *)
Lemma const_integral (lo hi a : R) : hi - lo = 1 -> is_RInt (fun _ => a) lo hi a.
Proof.
  intros W. assert (E : scal (hi - lo) a = a) by (rewrite W; unfold scal; cbn; unfold mult; cbn; ring).
  exact (eq_ind _ (fun v : R => is_RInt (fun _ => a) lo hi v) (@is_RInt_const R_NormedModule lo hi a) _ E).
Qed.
Lemma step_integral (f : R -> R) a b : (forall x, 0 < x < 1 -> f x = a) -> (forall x, 1 < x < 2 -> f x = b) -> is_RInt f 0 2 (a + b).
Proof.
  intros A B. apply (is_RInt_Chasles f 0 1 2 a b).
  - apply is_RInt_ext with (fun _ => a).
    + intros x. rewrite Rmin_left, Rmax_right by lra. intros H. symmetry. now apply A.
    + apply const_integral. lra.
  - apply is_RInt_ext with (fun _ => b).
    + intros x. rewrite Rmin_left, Rmax_right by lra. intros H. symmetry. now apply B.
    + apply const_integral. lra.
Qed.

(** Densities constant on the four unit squares. *)
Definition quad (w00 w01 w10 w11 : R) (x y : R) : R :=
  w00 * unit_square 0 0 x y + w01 * unit_square 0 1 x y + w10 * unit_square 1 0 x y + w11 * unit_square 1 1 x y.
(** [a] on the first unit interval, [b] on the second one. *)
Definition steps (a b x : R) : R :=
  if Rlt_dec 0 x then if Rlt_dec x 1 then a else if Rlt_dec 1 x then if Rlt_dec x 2 then b else 0 else 0 else 0.
Ltac cells := repeat (match goal with
  | |- context [Rlt_dec ?a ?b] => destruct (Rlt_dec a b); try lra
  end).
Lemma steps_low a b x : 0 < x < 1 -> steps a b x = a.
Proof. intros H. unfold steps. cells. Qed.
Lemma steps_high a b x : 1 < x < 2 -> steps a b x = b.
Proof. intros H. unfold steps. cells. Qed.
Lemma steps_integral a b : is_RInt (steps a b) 0 2 (a + b).
Proof. apply step_integral; intros x H; [now apply steps_low|now apply steps_high]. Qed.
Lemma quad_steps w00 w01 w10 w11 x y : quad w00 w01 w10 w11 x y = steps (steps w00 w01 y) (steps w10 w11 y) x.
Proof. unfold quad, steps, unit_square. cells. Qed.
Lemma quad_swap w00 w01 w10 w11 x y : quad w00 w01 w10 w11 x y = steps (steps w00 w10 x) (steps w01 w11 x) y.
Proof. unfold quad, steps, unit_square. cells. Qed.

Definition term (w r c : R) : R := if Req_EM_T w 0 then 0 else w * ln (w / (r * c)).
Lemma quad_information w00 w01 w10 w11 : 0 <= w00 -> 0 <= w01 -> 0 <= w10 -> 0 <= w11 -> w00 + w01 + w10 + w11 = 1 ->
  mutual_information (quad w00 w01 w10 w11)
    (term w00 (w00 + w01) (w00 + w10) + term w01 (w00 + w01) (w01 + w11) + (term w10 (w10 + w11) (w00 + w10) + term w11 (w10 + w11) (w01 + w11))).
Proof.
  intros P0 P1 P2 P3 S. split.
  { intros x y. rewrite quad_steps. unfold steps. cells. }
  exists (steps (w00 + w01) (w10 + w11)), (steps (w00 + w10) (w01 + w11)),
    (steps (term w00 (w00 + w01) (w00 + w10) + term w01 (w00 + w01) (w01 + w11)) (term w10 (w10 + w11) (w00 + w10) + term w11 (w10 + w11) (w01 + w11))).
  assert (Low : forall x, 0 < x < 1 -> forall a b c d, steps (steps a b x) (steps c d x) = steps a c).
  { intros x H a b c d. now rewrite !steps_low. }
  split; [|split; [|split; [|split; [|split]]]].
  - intros x. apply is_RInt_ext with (steps (steps w00 w10 x) (steps w01 w11 x)); [intros y _; now rewrite quad_swap|].
    replace (steps (w00 + w01) (w10 + w11) x) with (steps w00 w10 x + steps w01 w11 x) by (unfold steps; cells). apply steps_integral.
  - intros y. apply is_RInt_ext with (steps (steps w00 w01 y) (steps w10 w11 y)); [intros x _; now rewrite quad_steps|].
    replace (steps (w00 + w10) (w01 + w11) y) with (steps w00 w01 y + steps w10 w11 y) by (unfold steps; cells). apply steps_integral.
  - replace 1 with (w00 + w01 + (w10 + w11)) by lra. apply steps_integral.
  - replace 1 with (w00 + w10 + (w01 + w11)) by lra. apply steps_integral.
  - intros x.
    replace (steps (term w00 (w00 + w01) (w00 + w10) + term w01 (w00 + w01) (w01 + w11)) (term w10 (w10 + w11) (w00 + w10) + term w11 (w10 + w11) (w01 + w11)) x)
      with (steps (term w00 (w00 + w01) (w00 + w10)) (term w10 (w10 + w11) (w00 + w10)) x + steps (term w01 (w00 + w01) (w01 + w11)) (term w11 (w10 + w11) (w01 + w11)) x)
      by (unfold steps; cells).
    apply step_integral; intros y H; rewrite quad_swap.
    + rewrite !(steps_low _ _ y H). unfold steps, term. cells; try reflexivity; destruct (Req_EM_T 0 0); lra.
    + rewrite !(steps_high _ _ y H). unfold steps, term. cells; try reflexivity; destruct (Req_EM_T 0 0); lra.
  - apply steps_integral.
Qed.
Lemma information_ext p q v : (forall x y, p x y = q x y) -> mutual_information p v -> mutual_information q v.
Proof.
  intros E [N (px & py & inner & A & B & C & D & F & G)]. split; [intros; now rewrite <- E|].
  exists px, py, inner. split; [|split; [|split; [|split; [|split]]]]; try assumption.
  - intros x. apply is_RInt_ext with (fun y => p x y); [intros; apply E|apply A].
  - intros y. apply is_RInt_ext with (fun x => p x y); [intros; apply E|apply B].
  - intros x. refine (is_RInt_ext _ _ _ _ _ _ (F x)). intros y _. now rewrite E.
Qed.
Lemma half_ln : 1 / 2 * ln (1 / 2 / ((1 / 2 + 0) * (1 / 2 + 0))) = ln 2 / 2.
Proof. replace (1 / 2 / ((1 / 2 + 0) * (1 / 2 + 0))) with 2 by field. field. Qed.

Ltac quads := let x := fresh in let y := fresh in intros x y;
  unfold all_mixture, diagonal_mixture, other_mixture, bottom_left, top_right, quad, half_half; try lra.
Ltac conds := repeat match goal with
  | |- context [Req_EM_T ?a ?b] => destruct (Req_EM_T a b); try lra
  end.
Theorem informations : mutual_information bottom_left 0 /\ mutual_information top_right 0 /\ mutual_information diagonal_mixture (ln 2) /\
  mutual_information other_mixture (ln 2) /\ mutual_information all_mixture 0.
Proof.
  split; [|split; [|split; [|split]]].
  - apply information_ext with (quad 1 0 0 0); [quads; unfold diagonal_mixture, other_mixture, half_half, bottom_left, top_right; lra|].
    replace 0 with (term 1 (1 + 0) (1 + 0) + term 0 (1 + 0) (0 + 0) + (term 0 (0 + 0) (1 + 0) + term 0 (0 + 0) (0 + 0))) at 4; [apply quad_information; lra|].
    unfold term. conds. replace (1 / ((1 + 0) * (1 + 0))) with 1 by field. rewrite ln_1. ring.
  - apply information_ext with (quad 0 0 0 1); [quads; lra|].
    replace 0 with (term 0 (0 + 0) (0 + 0) + term 0 (0 + 0) (0 + 1) + (term 0 (0 + 1) (0 + 0) + term 1 (0 + 1) (0 + 1))) at 4; [apply quad_information; lra|].
    unfold term. conds. replace (1 / ((0 + 1) * (0 + 1))) with 1 by field. rewrite ln_1. ring.
  - apply information_ext with (quad (1 / 2) 0 0 (1 / 2)); [quads; lra|].
    replace (ln 2) with (term (1 / 2) (1 / 2 + 0) (1 / 2 + 0) + term 0 (1 / 2 + 0) (0 + 1 / 2) + (term 0 (0 + 1 / 2) (1 / 2 + 0) + term (1 / 2) (0 + 1 / 2) (0 + 1 / 2)));
      [apply quad_information; lra|].
    unfold term. conds. replace (0 + 1 / 2) with (1 / 2 + 0) by ring. rewrite half_ln. field.
  - apply information_ext with (quad 0 (1 / 2) (1 / 2) 0); [quads; lra|].
    replace (ln 2) with (term 0 (0 + 1 / 2) (0 + 1 / 2) + term (1 / 2) (0 + 1 / 2) (1 / 2 + 0) + (term (1 / 2) (1 / 2 + 0) (0 + 1 / 2) + term 0 (1 / 2 + 0) (1 / 2 + 0)));
      [apply quad_information; lra|].
    unfold term. conds. replace (0 + 1 / 2) with (1 / 2 + 0) by ring. rewrite half_ln. field.
  - apply information_ext with (quad (1 / 4) (1 / 4) (1 / 4) (1 / 4)); [quads; lra|].
    replace 0 with (term (1 / 4) (1 / 4 + 1 / 4) (1 / 4 + 1 / 4) + term (1 / 4) (1 / 4 + 1 / 4) (1 / 4 + 1 / 4) +
      (term (1 / 4) (1 / 4 + 1 / 4) (1 / 4 + 1 / 4) + term (1 / 4) (1 / 4 + 1 / 4) (1 / 4 + 1 / 4))); [apply quad_information; lra|].
    unfold term. conds. replace (1 / 4 / ((1 / 4 + 1 / 4) * (1 / 4 + 1 / 4))) with 1 by field. rewrite ln_1. ring.
Qed.

(** ** The pictures *)
Lemma grid_fifty : linspace 0 2 50 = Ok (map (fun k => INR k * (2 / 49)) (seq 0 50)).
Proof.
  change 50%Z with (Z.of_nat 50). rewrite linspace_ticks by lia. f_equal. apply map_ext. intros k. unfold tick.
  replace ((2 - 0) / (INR 50 - 1)) with (2 / 49); [ring|]. rewrite INR_IZR_INZ. cbn [Z.of_nat Pos.of_succ_nat Pos.succ]. lra.
Qed.
Lemma or_on_grid xs ys f g : or_masks (on_grid xs ys f) (on_grid xs ys g) = on_grid xs ys (fun x y => orb (f x y) (g x y)).
Proof.
  unfold or_masks, on_grid. induction ys as [|y ys IH]; [reflexivity|]. cbn [map combine fst snd]. f_equal; [|exact IH].
  clear IH. induction xs as [|x xs IH]; [reflexivity|]. cbn [map combine fst snd]. f_equal. exact IH.
Qed.
Lemma grid_shows w f p : (forall x y, w * (if f x y : bool then 1 else 0) = p x y) ->
  shows (weigh w (on_grid (map (fun k => INR k * (2 / 49)) (seq 0 50)) (map (fun k => INR k * (2 / 49)) (seq 0 50)) f)) p.
Proof.
  intros H. unfold shows, weigh, on_grid. rewrite !map_map. rewrite map_length, seq_length. split; [reflexivity|]. intros j Hj.
  match goal with |- context [nth j (map ?g (seq 0 50)) []] => set (row := g) end.
  assert (Q : nth j (map row (seq 0 50)) [] = row j).
  { rewrite (nth_indep _ [] (row 0%nat)) by (now rewrite map_length, seq_length). rewrite (map_nth row), seq_nth by lia. reflexivity. }
  rewrite Q. unfold row. rewrite !map_map, map_length, seq_length. split; [reflexivity|]. intros i Hi.
  set (cell := fun k => w * (if f (INR k * (2 / 49)) (INR j * (2 / 49)) then 1 else 0)).
  change (nth i (map cell (seq 0 50)) 0 = p (INR i * (2 / 49)) (INR j * (2 / 49))). rewrite (nth_indep _ 0 (cell 0%nat)) by (now rewrite map_length, seq_length).
  rewrite (map_nth cell), seq_nth by lia. unfold cell. apply H.
Qed.
Definition first_half (x : R) : bool := Rltb 0 x && Rltb x 1.
Definition second_half (x : R) : bool := Rltb 1 x && Rltb x 2.
Lemma halves_apart x : first_half x && second_half x = false.
Proof. unfold first_half, second_half, Rltb. destruct (Rlt_dec x 1), (Rlt_dec 1 x); try lra; now rewrite ?andb_false_r, ?andb_false_l. Qed.
Lemma squares_halves x y : unit_square 0 0 x y = (if first_half x && first_half y then 1 else 0) /\
  unit_square 0 1 x y = (if first_half x && second_half y then 1 else 0) /\
  unit_square 1 0 x y = (if second_half x && first_half y then 1 else 0) /\
  unit_square 1 1 x y = (if second_half x && second_half y then 1 else 0).
Proof.
  unfold unit_square, first_half, second_half, Rltb. replace (0 + 1) with 1 by ring. replace (1 + 1) with 2 by ring.
  split; [|split; [|split]]; repeat match goal with |- context [Rlt_dec ?a ?b] => destruct (Rlt_dec a b) end; reflexivity.
Qed.
Lemma masks_halves x y : mask1 x y = first_half x && first_half y /\ mask2 x y = second_half x && second_half y /\
  mask4 x y = orb (first_half x && second_half y) (second_half x && first_half y).
Proof. unfold mask1, mask2, mask4, first_half, second_half. now rewrite !andb_assoc. Qed.
Theorem pictures_show : exists c1 c2 c3 c4 c5, main = Ok [c1; c2; c3; c4; c5] /\
  (forall c, In c [c1; c2; c3; c4; c5] -> pc_lower c = true /\ pc_extent c = (0, 2, 0, 2) /\ pc_vmin c = 0 /\ pc_vmax c = 1) /\
  shows (pc_array c1) bottom_left /\ title_value (pc_title c1) 0 /\
  shows (pc_array c2) top_right /\ title_value (pc_title c2) 0 /\
  shows (pc_array c3) diagonal_mixture /\ title_value (pc_title c3) (ln 2) /\
  shows (pc_array c4) other_mixture /\ title_value (pc_title c4) (ln 2) /\
  shows (pc_array c5) all_mixture /\ title_value (pc_title c5) 0.
Proof.
  do 5 eexists. split. { unfold main. rewrite !grid_fifty. cbn [bind]. rewrite !or_on_grid. reflexivity. }
  split. { intros c H. cbn [In] in H. repeat destruct H as [<-|H]; try contradiction H; cbn [plot_density pc_lower pc_extent pc_vmin pc_vmax]; auto. }
  cbn [pc_array pc_title plot_density].
  split; [|split; [left; auto|split; [|split; [left; auto|split; [|split; [right; auto|split; [|split; [right; auto|split; [|left; auto]]]]]]]]];
    apply grid_shows; intros x y; destruct (masks_halves x y) as (M1 & M2 & M4); destruct (squares_halves x y) as (S1 & S2 & S3 & S4);
    unfold all_mixture, diagonal_mixture, other_mixture, bottom_left, top_right, half_half;
    rewrite ?M1, ?M2, ?M4, ?S1, ?S2, ?S3, ?S4; assert (Hx := halves_apart x); assert (Hy := halves_apart y);
    destruct (first_half x), (second_half x), (first_half y), (second_half y); cbn in *; try discriminate; lra.
Qed.
(** No position is on a line between the squares, so the colours never mix. *)
Theorem positions_inside i : INR i * (2 / 49) <> 1.
Proof.
  intros H. assert (E : INR (2 * i) = INR 49).
  { rewrite mult_INR. replace (INR 49) with 49 by (rewrite INR_IZR_INZ; reflexivity). cbn [INR]. lra. }
  apply INR_eq in E. lia.
Qed.
(** Colours between the limits. *)
Theorem within_limits x y : 0 <= bottom_left x y <= 1 /\ 0 <= top_right x y <= 1 /\ 0 <= diagonal_mixture x y <= 1 / 2 /\ 0 <= other_mixture x y <= 1 / 2 /\ 0 <= all_mixture x y <= 1 / 4.
Proof.
  destruct (squares_halves x y) as (S1 & S2 & S3 & S4). unfold all_mixture, diagonal_mixture, other_mixture, bottom_left, top_right, half_half.
  rewrite S1, S2, S3, S4. assert (Hx := halves_apart x). assert (Hy := halves_apart y).
  destruct (first_half x), (second_half x), (first_half y), (second_half y); cbn in *; try discriminate; lra.
Qed.
Theorem information_unique p v w : mutual_information p v -> mutual_information p w -> v = w.
Proof.
  intros [_ (px & py & inner & A & B & _ & _ & F & G)] [_ (px' & py' & inner' & A' & B' & _ & _ & F' & G')].
  assert (U : forall (f : R -> R) a b, is_RInt f 0 2 a -> is_RInt f 0 2 b -> a = b).
  { intros f a b Ha Hb. rewrite <- (is_RInt_unique _ _ _ _ Ha). exact (is_RInt_unique _ _ _ _ Hb). }
  assert (Ex : forall x, px x = px' x) by (intros x; exact (U _ _ _ (A x) (A' x))).
  assert (Ey : forall y, py y = py' y) by (intros y; exact (U _ _ _ (B y) (B' y))).
  assert (Ei : forall x, inner x = inner' x).
  { intros x. apply (U _ _ _ (F x)). refine (is_RInt_ext _ _ _ _ _ _ (F' x)). intros y _. now rewrite Ex, Ey. }
  apply (U _ _ _ G). refine (is_RInt_ext _ _ _ _ _ _ G'). intros x _. now rewrite Ei.
Qed.

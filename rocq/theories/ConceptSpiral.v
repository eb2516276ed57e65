(** The spiral in the first two of any number of coordinates. *)
From Coquelicot Require Import Coquelicot.
From Coq Require Import Lia Lra.
From Verif Require Import Base BaseLemmas UtilsModel JaxModel SamplersModel GaussianModel MatrixUtilsModel MatrixUtilsSpec MatrixUtilsProofs
  TransformsModel TransformsSpec ExpmProofs RotateProofs ConceptModel ConceptSpec.
Open Scope R_scope.
Local Notation length := List.length.

Lemma sum_two m f : sum_below (S (S m)) f = f 0%nat + f 1%nat + sum_below m (fun l => f (S (S l))).
Proof. unfold sum_below. cbn [seq map rsum fold_right]. rewrite <- seq_shift, map_map, <- seq_shift, map_map. unfold rsum. cbn [fold_right]. ring. Qed.
Lemma series_zero (f : nat -> R) : (forall k, f k = 0) -> Series f = 0.
Proof. intros H. rewrite (Series_ext f (fun k => 0 * f k)); [rewrite Series_scal_l; ring|]. intros k. rewrite H. ring. Qed.
Section Powers.
  Variables (m : nat) (c : R).
  Let a := fun i j => c * generator_entry 0 1 i j.
  Let b := entry [[0; - c]; [c; 0]].
  Lemma row_sum i f : sum_below (S (S m)) (fun l => a i l * f l) = a i 0%nat * f 0%nat + a i 1%nat * f 1%nat.
  Proof.
    rewrite sum_two. rewrite (sum_ext m _ (fun _ => 0)); [rewrite sum_zero; ring|]. intros l _. unfold a, generator_entry. cbn [Nat.eqb andb].
    rewrite andb_false_r. destruct i as [|[|i]]; cbn; ring.
  Qed.
  Lemma powers_agree k j : (j < 2)%nat -> power_entry (S (S m)) a k 0 j = power_entry 2 b k 0 j /\ power_entry (S (S m)) a k 1 j = power_entry 2 b k 1 j.
  Proof.
    intros Hj. induction k as [|k [I0 I1]]; [split; reflexivity|]. cbn [power_entry]. rewrite !row_sum, I0, I1.
    rewrite !(sum_two 0). unfold a, b, generator_entry, entry, sum_below. cbn. split; ring.
  Qed.
  Lemma powers_right k j : power_entry (S (S m)) a k 0 (S (S j)) = 0 /\ power_entry (S (S m)) a k 1 (S (S j)) = 0.
  Proof. induction k as [|k [I0 I1]]; [split; reflexivity|]. cbn [power_entry]. rewrite !row_sum, I0, I1. split; ring. Qed.
  Lemma powers_below k i j : power_entry (S (S m)) a (S k) (S (S i)) j = 0.
  Proof. cbn [power_entry]. rewrite row_sum. unfold a, generator_entry. cbn. ring. Qed.

  Variable q : matrix.
  Hypothesis Q : is_exponential (S (S m)) a q.
  Lemma exp_front i j : (i < 2)%nat -> (j < 2)%nat -> entry q i j = flow 2 b 1 i j.
  Proof.
    intros Hi Hj. assert (S := proj2 Q i j ltac:(lia) ltac:(lia)). rewrite <- (is_series_unique _ _ S).
    unfold flow, PSeries. apply Series_ext. intros k. rewrite pow1, Rmult_1_r. unfold coef. f_equal.
    destruct (powers_agree k j Hj). destruct i as [|[|i]]; [assumption|assumption|lia].
  Qed.
  Lemma exp_right i j : (i < 2)%nat -> (S (S j) < S (S m))%nat -> entry q i (S (S j)) = 0.
  Proof.
    intros Hi Hj. assert (S := proj2 Q i _ ltac:(lia) Hj). rewrite <- (is_series_unique _ _ S). apply series_zero. intros k.
    destruct (powers_right k j) as [A B]. destruct i as [|[|i]]; [rewrite A|rewrite B|lia]; unfold Rdiv; ring.
  Qed.
  Lemma exp_below i j : (S (S i) < S (S m))%nat -> (j < S (S m))%nat -> entry q (S (S i)) j = kronecker (S (S i)) j.
  Proof.
    intros Hi Hj. assert (S := proj2 Q _ j Hi Hj). rewrite <- (is_series_unique _ _ S). rewrite Series_incr_1 by (eexists; exact S).
    rewrite series_zero; [cbn [power_entry fact INR]; field|]. intros k. rewrite powers_below. unfold Rdiv. ring.
  Qed.
End Powers.

Lemma front_spiral expm n g speed s x : is_expm expm -> (2 <= n)%Z -> so_generator n 0 1 = Ok g -> spiral_init g None speed = Ok s -> length x = Z.to_nat n ->
  spiral_call expm s x = Ok (front_spun speed x).
Proof.
  intros He Hn Hg Hs Lx. destruct (generator_ok n 0 1 ltac:(lia) ltac:(lia)) as (g' & E & [Lg Rg] & Eg). rewrite Hg in E. injection E as <-.
  destruct (spiral_formula expm g None speed s x He Hs ltac:(congruence)) as (q & z & y & C & Q & [Lz Iz] & ->). rewrite C. f_equal. clear C Hs.
  rewrite Lg in Q, Lz, Iz. assert (M : exists m, Z.to_nat n = S (S m)) by (exists (Z.to_nat n - 2)%nat; lia). destruct M as (m & M). rewrite M in *.
  set (t := speed * norm2 x) in *.
  assert (Q' : is_exponential (S (S m)) (fun i j => t * generator_entry 0 1 i j) q).
  { destruct Q as [S Q]. split; [exact S|]. intros i j Hi Hj. eapply is_series_ext; [|exact (Q i j Hi Hj)]. intros k. cbv beta. f_equal. apply power_ext; auto.
    intros i' j' Hi' Hj'. cbv beta. rewrite Eg by assumption. reflexivity. }
  destruct x as [|x0 [|x1 x]]; try discriminate. cbn [length] in Lx. injection Lx as Lx. unfold front_spun. fold t. cbv zeta.
  destruct (flow_plane t 1) as (F1 & F2 & F3 & F4). rewrite Rmult_1_r in F1, F2, F3, F4.
  assert (Z : forall i, (i < 2)%nat -> nth i z 0 = entry q i 0 * x0 + entry q i 1 * x1).
  { intros i Hi. rewrite Iz by lia. rewrite sum_two. cbn [nth]. rewrite (sum_ext m _ (fun _ => 0)); [rewrite sum_zero; ring|].
    intros l Hl. rewrite (exp_right m t q Q' i l Hi ltac:(lia)). ring. }
  apply (nth_ext _ _ 0 0); [cbn [length]; lia|]. intros i Hi. rewrite Lz in Hi. destruct i as [|[|i]].
  - rewrite Z by lia. rewrite !(exp_front m t q Q') by lia. rewrite F1, F3. cbn [nth]. ring.
  - rewrite Z by lia. rewrite !(exp_front m t q Q') by lia. rewrite F2, F4. cbn [nth]. ring.
  - rewrite Iz by exact Hi. transitivity (nth (S (S i)) (x0 :: x1 :: x) 0); [|reflexivity]. rewrite <- (sum_kronecker (S (S m)) (fun l => nth l (x0 :: x1 :: x) 0) (S (S i)) Hi). apply sum_ext. intros l Hl.
    rewrite (exp_below m t q Q') by assumption. reflexivity.
Qed.
Lemma front_still x : front_spun 0 x = x.
Proof. destruct x as [|a [|b x]]; try reflexivity. unfold front_spun. rewrite Rmult_0_l. cbv zeta. rewrite cos_0, sin_0. f_equal; [ring|]. f_equal. ring. Qed.
Lemma norm2_two a b x : norm2 (a :: b :: x) = a * a + b * b + norm2 x.
Proof. unfold norm2. cbn [length]. rewrite sum_two. cbn [nth]. ring. Qed.
Lemma front_norm speed x : norm2 (front_spun speed x) = norm2 x.
Proof.
  destruct x as [|a [|b x]]; try reflexivity. unfold front_spun. cbv zeta. set (t := speed * _). rewrite !norm2_two.
  assert (H := sin2_cos2 t). unfold Rsqr in H. replace (a * a + b * b) with ((sin t * sin t + cos t * cos t) * (a * a + b * b)) by (rewrite H; ring). ring.
Qed.

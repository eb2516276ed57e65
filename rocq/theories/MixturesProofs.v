(** Samplers of mixtures, and mixtures of normal distributions in equal proportions. *)
From Verif Require Import Base UtilsModel JaxModel SamplersModel GaussianModel MatrixUtilsModel BmmModel MultivariateModel GmmModel
  BenchmarkModel TasksModel MixturesModel BaseLemmas SamplersProofs BmmSpec BmmProofs.
From mathcomp Require Import all_ssreflect ssralg matrix mxalgebra.
From Verif Require Import RStruct PosDef MatrixBridge GaussianSpec GaussianProofs ExpectationProofs GaussianThms
  MultivariateSpec MultivariateProofs MultivariateThms GmmMixSpec GmmThms MixturesSpec EigvalsExist.
Set Implicit Arguments.
Unset Strict Implicit.
Unset Printing Implicit Defensive.
Import GRing.Theory.
Local Open Scope ring_scope.

(** ** Samplers *)

Section Samplers.
  Context {J : prng}.

  Lemma sampler_ok (d : joint_distribution J) n : (0 < jd_dim_x d)%N -> (0 < jd_dim_y d)%N -> Z.le 1 n ->
    exists s, default_bmm d n = Ok s /\ samples_from id d n s.
  Proof.
    move=> dx dy hn.
    have [b hb] : exists b, bmm_init d None (SeedInt 0) n = Ok b.
    { apply: (proj2 (proj1 (bmm_init_spec d None (SeedInt 0) n))); split; [exact/ltP | split=> //; exact/ltP]. }
    have eb : b = {| bm_dist := d; bm_mi := None; bm_mi_stderr := None; bm_mi_estimate_seed := SeedInt 0; bm_mi_estimate_sample := n |}.
    { move: hb; rewrite /bmm_init; case: (base_sampler_init _ _) => //= p; by case: (Z.ltb n 1) => // -[<-]. }
    exists (bmm_sampler b); rewrite /default_bmm hb eb; split=> //; split=> //.
    - move=> k rng k0 len; rewrite /bmm_sampler /= /bmm_sample /jd_sample /=.
      have -> : Z.ltb (Z.of_nat k) 1 = false by apply/Z.ltb_ge; move/ltP: k0; lia.
      by rewrite Znat.Nat2Z.id.
    - rewrite /bmm_sampler /= /bmm_mutual_information /=.
      have [p [hp ep]] := proj2 (profile_spec d n (cast_to_rng J (SeedInt 0))) hn.
      by rewrite /monte_carlo_mi_estimate hp /= ep.
  Qed.

  Lemma sampler_rejects (d : joint_distribution J) n : Z.lt n 1 -> default_bmm d n = Err ValueError.
  Proof.
    move=> hn; rewrite /default_bmm.
    have [h1 [[b h]|->]] := bmm_init_spec d None (SeedInt 0) n; last by [].
    by have [_ [_ h3]] := proj1 h1 (ex_intro _ b h); lia.
  Qed.

  (** Transforming the points of X. *)
  Lemma moved_ok f (d : joint_distribution J) n s g h :
    (0 < jd_dim_x d)%N -> (0 < jd_dim_y d)%N -> samples_from f d n s ->
    (forall x, List.length x = jd_dim_x d -> g (f x) = Ok (h x)) ->
    exists s', transformed_sampler s (Some (pointwise g)) None 0 0 true = Ok s' /\ samples_from h d n s'.
  Proof.
    move=> dx dy [e1 e2 e3 e4 e5] hg; rewrite /transformed_sampler e1 e2 /= !Z.add_0_r.
    have -> : base_sampler_init (Z.of_nat (jd_dim_x d)) (Z.of_nat (jd_dim_y d)) = Ok (Z.of_nat (jd_dim_x d), Z.of_nat (jd_dim_y d)).
    { rewrite /base_sampler_init /validate_dimensions; move/ltP: dx => dx; move/ltP: dy => dy.
      have -> : Z.ltb (Z.of_nat (jd_dim_x d)) 1 = false by apply/Z.ltb_ge; lia.
      by have -> : Z.ltb (Z.of_nat (jd_dim_y d)) 1 = false by apply/Z.ltb_ge; lia. }
    eexists; split; first by [].
    split=> //=.
    - by move=> rng; rewrite e3.
    - move=> k rng k0 len; rewrite e4 //= /vmap /= !List.map_map /=.
      f_equal; f_equal.
      apply: List.map_ext_in => z hz; rewrite hg // List.firstn_length.
      have := proj1 (List.Forall_forall _ _) len z hz => ->; apply: PeanoNat.Nat.min_l; apply/leP; exact: leq_addr.
  Qed.
End Samplers.

(** ** Mixtures *)

Lemma average_of K (w : R) (f : nat -> R) : (0 < K)%N -> Rlt 0 w ->
  mixture_of K (fun k => List.nth k (List.repeat w K) (IZR 0)) f = average K f.
Proof.
  move=> K0 w0; rewrite /mixture_of /average.
  have e1 : forall g, (forall k, (k < K)%coq_nat -> g k = f k) ->
    rsum (List.map (fun k => Rmult (List.nth k (List.repeat w K) (IZR 0)) (f k)) (List.seq 0 K)) = Rmult w (rsum (List.map g (List.seq 0 K))).
  { move=> g hg.
    rewrite (@List.map_ext_in _ _ _ (fun k => Rmult w (g k))); last first.
    { move=> k /List.in_seq [_ hk]; rewrite hg //; congr (Rmult _ _).
      rewrite (List.nth_indep _ _ w); [exact: List.nth_repeat | by rewrite List.repeat_length]. }
    elim: (List.seq 0 K) => [|a l IH]; rewrite /rsum /= ?Rmult_0_r // -/(rsum _) -/(rsum _) IH; by rewrite Rmult_plus_distr_l. }
  rewrite (e1 f) //.
  have -> : rsum (List.map (fun k => List.nth k (List.repeat w K) (IZR 0)) (List.seq 0 K)) = Rmult w (INR K).
  { have {1}-> : K = List.length (List.repeat w K) by rewrite List.repeat_length.
    have := nth_seq (List.repeat w K); rewrite List.repeat_length => ->.
    elim: K {K0 e1} => [|k IH]; first by rewrite /rsum /= Rmult_0_r.
    rewrite S_INR /= /rsum /= -/(rsum _) IH; ring. }
  have k0 : INR K <> IZR 0 by apply: not_0_INR; move: K0; case: (K).
  field; split=> //; exact: Rgt_not_eq.
Qed.

Lemma average_ext K f g : (forall k, (k < K)%N -> f k = g k) -> average K f = average K g.
Proof.
  move=> h; rewrite /average; congr (Rdiv (rsum _) _).
  by apply: List.map_ext_in => k /List.in_seq [_ /ltP hk]; apply: h.
Qed.

Lemma density_eq (J : prng) (e : tfd J) z v w : has_density e z v -> v = w -> has_density e z w.
Proof. by move=> h <-. Qed.

Lemma normal_at_eq n (mu mu' : 'cV[R]_n) (S S' : 'M[R]_n) z : mu = mu' -> S = S' ->
  normal_density_at mu S z = normal_density_at mu' S' z.
Proof. by move=> -> ->. Qed.

Lemma mixture_ext (J : prng) (d : joint_distribution J) m n K mean mean' cov cov' :
  (forall k i, (k < K)%N -> (i < m + n)%N -> mean k i = mean' k i) ->
  (forall k i j, (k < K)%N -> (i < m + n)%N -> (j < m + n)%N -> cov k i j = cov' k i j) ->
  normal_mixture d m n K mean cov -> normal_mixture d m n K mean' cov'.
Proof.
  move=> hm hc [e1 e2 e3 e4 e5]; split=> //.
  - move=> z hz; apply: (density_eq (e3 z hz)); apply: average_ext => k hk; apply: normal_at_eq.
    + apply/matrixP => i j; rewrite !mxE; exact: hm.
    + apply/matrixP => i j; rewrite !mxE; exact: hc.
  - move=> z hz; apply: (density_eq (e4 z hz)); apply: average_ext => k hk; apply: normal_at_eq.
    + apply/matrixP => i j; rewrite !mxE; apply: hm => //; apply: ltn_addr; exact: ltn_ord.
    + apply/matrixP => i j; rewrite !mxE; apply: hc => //; apply: ltn_addr; exact: ltn_ord.
  - move=> z hz; apply: (density_eq (e5 z hz)); apply: average_ext => k hk; apply: normal_at_eq.
    + apply/matrixP => i j; rewrite !mxE; apply: hm => //; rewrite ltn_add2l; exact: ltn_ord.
    + apply/matrixP => i j; rewrite !mxE; apply: hc => //; rewrite ltn_add2l; exact: ltn_ord.
Qed.

Section Mix.
  Context {J : prng}.
  Variable T : tfp_draws J.
  Variable eigvals : UtilsModel.matrix -> list (R * R).
  Variable cholesky : UtilsModel.matrix -> option UtilsModel.matrix.
  Variable normal_draw : list R -> option UtilsModel.matrix -> key J -> nat -> UtilsModel.matrix.
  Hypothesis eig : eigvals_symmetric eigvals.
  Hypothesis cho : factorises cholesky.
  Local Notation normal := (normal_distribution eigvals cholesky normal_draw).

  Lemma mix_ok (A : Type) (xs : list A) (f : A -> result (joint_distribution J)) (mu : A -> list R) (C : A -> UtilsModel.matrix)
      (m n : nat) (w : R) a0 : (0 < m)%N -> (0 < n)%N -> (0 < List.length xs)%N -> Rlt 0 w ->
    (forall a, List.In a xs -> f a = normal (Z.of_nat m) (Z.of_nat n) (C a) (Some (mu a))) ->
    (forall a, List.In a xs -> [/\ List.length (mu a) = (m + n)%N, has_shape (C a) (m + n) (m + n) & posdef (sigma m n (C a))]) ->
    exists d, (do cs <- map_results f xs; mixture T (List.repeat w (List.length xs)) cs) = Ok d /\
      normal_mixture d m n (List.length xs) (fun k i => List.nth i (mu (List.nth k xs a0)) (IZR 0))
        (fun k i j => entry (C (List.nth k xs a0)) i j).
  Proof.
    move=> m0 n0 K0 w0 ef hc; set K := List.length xs.
    set g := {| dr_pi := List.repeat w K; dr_mu := List.map mu xs; dr_cov := List.map C xs |}.
    have fa : List.Forall (fun C => [/\ has_shape C (m + n) (m + n), posdef (sigma m n C) & eigvals_exact eigvals m n C]) (dr_cov g).
    { apply/List.Forall_forall => _ /List.in_map_iff [a [<- ha]]; have [h1 h2 h3] := hc a ha; split=> //.
      apply: eigvals_symmetric_exact => //; exact: (proj1 h3). }
    have sm : has_shape (dr_mu g) (List.length (dr_pi g)) (m + n).
    { apply/has_shapeP; rewrite /= List.map_length List.repeat_length; split=> //.
      apply/List.Forall_forall => _ /List.in_map_iff [a [<- ha]]; by have [] := hc a ha. }
    have lc : List.length (dr_cov g) = List.length (dr_pi g) by rewrite /= List.map_length List.repeat_length.
    have K0' : (0 < List.length (dr_pi g))%N by rewrite /= List.repeat_length.
    have [d hd] := build_accepts T cholesky normal_draw m0 n0 K0' sm lc fa.
    have eb : sample_into_bmm_distribution T eigvals cholesky normal_draw g (Z.of_nat m) (Z.of_nat n) =
      (do cs <- map_results f xs; mixture T (List.repeat w K) cs).
    { rewrite /sample_into_bmm_distribution to_nat_add sm lc PeanoNat.Nat.eqb_refl /=.
      have -> : List.forallb (fun c => has_shape c (m + n) (m + n)) (List.map C xs) = true.
      { apply/List.forallb_forall => c h; by move/List.Forall_forall: fa => /(_ c h) []. }
      rewrite /=; congr (bind _ _).
      elim: xs {K g fa sm lc K0 K0' d hd hc} ef => [|a xs IH] ef //=.
      rewrite -(ef a (or_introl erefl)); case: (f a) => //= c.
      by rewrite IH // => b hb; apply: ef; right. }
    exists d; split; first by rewrite -eb.
    have gp : good_proportions (dr_pi g).
    { split; first by apply/List.Forall_forall => r /(@List.repeat_spec _ _ _ _) ->; exact: Rlt_le.
      have pos : forall k, (0 < k)%N -> Rlt 0 (rsum (List.repeat w k)).
      { case=> // k _; elim: k => [|k IH]; rewrite /= /rsum /=; first by rewrite Rplus_0_r.
        apply: Rplus_lt_0_compat => //; exact: IH. }
      exact: pos. }
    have [d1 d2 d3] := build_densities hd gp (proj2 (List.Forall_forall _ _) (fun c hc' =>
      let: And3 s p e := proj1 (List.Forall_forall _ _) fa c hc' in And3 (proj1 p) (proj1 e) (cholesky_exact_of s cho))).
    have [j1 j2 _ _] := build_dims hd.
    have em : forall k, (k < K)%N -> List.nth k (List.map mu xs) nil = mu (List.nth k xs a0).
    { move=> k /ltP hk; rewrite (List.nth_indep _ nil (mu a0)) ?List.map_length //; exact: List.map_nth. }
    have ec : forall k, (k < K)%N -> List.nth k (List.map C xs) nil = C (List.nth k xs a0).
    { move=> k /ltP hk; rewrite (List.nth_indep _ nil (C a0)) ?List.map_length //; exact: List.map_nth. }
    split=> //.
    - move=> z hz; apply: (density_eq (d1 z hz)); rewrite /= List.repeat_length average_of //.
      apply: average_ext => k hk; apply: normal_at_eq.
      + apply/matrixP => i j; by rewrite !mxE em.
      + apply/matrixP => i j; by rewrite !mxE ec.
    - move=> z hz; apply: (density_eq (d2 z hz)); rewrite /= List.repeat_length average_of //.
      apply: average_ext => k hk; apply: normal_at_eq.
      + apply/matrixP => i j; by rewrite !mxE em.
      + apply/matrixP => i j; by rewrite !mxE ec.
    - move=> z hz; apply: (density_eq (d3 z hz)); rewrite /= List.repeat_length average_of //.
      apply: average_ext => k hk; apply: normal_at_eq.
      + apply/matrixP => i j; by rewrite !mxE em.
      + apply/matrixP => i j; by rewrite !mxE ec.
  Qed.

  (** When a component is refused. *)
  Lemma mix_rejects (A : Type) (xs : list A) (f : A -> result (joint_distribution J)) ps :
    (forall a e, List.In a xs -> f a = Err e -> e = ValueError) ->
    (exists a e, List.In a xs /\ f a = Err e) ->
    (do cs <- map_results f xs; mixture T ps cs) = Err ValueError.
  Proof.
    move=> h [a [e [ha hf]]]; have -> // : map_results f xs = Err ValueError.
    elim: xs h ha => [|b xs IH] h //= ha; case hb: (f b) => [c|e'] /=; last by rewrite (h b e' (or_introl erefl) hb).
    case: ha => [eb|ha]; first by move: hf; rewrite -eb hb.
    by rewrite IH // => a' e' ha' hf'; apply: (h a' e') => //; right.
  Qed.
End Mix.

(** The mixtures built from draws of the posterior: covariances, acceptance, densities. *)
From Verif Require Import Base UtilsModel JaxModel SamplersModel GaussianModel BmmModel MultivariateModel GmmModel
  BaseLemmas SamplersProofs BmmSpec BmmProofs.
From mathcomp Require Import all_ssreflect ssralg matrix mxalgebra.
From Verif Require Import RStruct PosDef MatrixBridge GaussianSpec GaussianProofs ExpectationProofs GaussianThms
  MultivariateSpec MultivariateProofs MultivariateThms GmmMixSpec.
Set Implicit Arguments.
Unset Strict Implicit.
Unset Printing Implicit Defensive.
Import GRing.Theory.
Local Open Scope ring_scope.

(** ** Covariances *)

Lemma nth_map_seq (A : Type) (f : nat -> A) n i d : (i < n)%coq_nat -> List.nth i (List.map f (List.seq 0 n)) d = f i.
Proof.
  move=> h; rewrite (List.nth_indep _ d (f 0%N)); last by rewrite List.map_length List.seq_length.
  by rewrite List.map_nth List.seq_nth.
Qed.

Lemma entry_grid (f : nat -> nat -> R) m n i j : (i < m)%coq_nat -> (j < n)%coq_nat ->
  entry (List.map (fun i => List.map (f i) (List.seq 0 n)) (List.seq 0 m)) i j = f i j.
Proof. by move=> hi hj; rewrite /entry nth_map_seq // nth_map_seq. Qed.

Lemma grid_shape (f : nat -> nat -> R) m n :
  has_shape (List.map (fun i => List.map (f i) (List.seq 0 n)) (List.seq 0 m)) m n.
Proof.
  apply/has_shapeP; rewrite List.map_length List.seq_length; split=> //.
  apply/List.Forall_forall => r /List.in_map_iff [i [<- _]]; by rewrite List.map_length List.seq_length.
Qed.

Lemma l_scaled_shape n jitter tau L : List.length tau = n -> has_shape (l_scaled jitter tau L) n n.
Proof. move=> <-; exact: grid_shape. Qed.

Lemma l_scaled_mx n jitter tau L : List.length tau = n -> to_mx n n (l_scaled jitter tau L) = scaled_factor n jitter tau L.
Proof.
  move=> h; apply/matrixP => i j; rewrite !mxE /l_scaled h.
  rewrite (entry_grid _ (elimT ltP (ltn_ord i)) (elimT ltP (ltn_ord j))).
  rewrite (bigD1 i) //= !mxE eqxx mulr1n big1 ?addr0; last first.
  { move=> k ne; rewrite !mxE eq_sym (negbTE ne) mulr0n; exact: mul0r. }
  lazymatch goal with |- ?l = ?r => change (@eq R l r) end.
  have -> : (i =? j)%nat = (i == j).
  { apply/idP/eqP => [/PeanoNat.Nat.eqb_eq e|->]; [exact: val_inj | exact: PeanoNat.Nat.eqb_refl]. }
  by case: (i == j).
Qed.

Lemma gram_shape (M : UtilsModel.matrix) n m : has_shape M n m -> has_shape (times_transpose M) n n.
Proof.
  move=> /has_shapeP [h _]; apply/has_shapeP; rewrite /times_transpose List.map_length; split=> //.
  apply/List.Forall_forall => r /List.in_map_iff [x [<- _]]; by rewrite List.map_length.
Qed.

Lemma gram_mx (M : UtilsModel.matrix) n : has_shape M n n -> to_mx n n (times_transpose M) = to_mx n n M *m (to_mx n n M)^T.
Proof.
  move=> /has_shapeP [h /List.Forall_forall f]; apply/matrixP => i j; rewrite !mxE /entry /times_transpose.
  have li : (i < List.length M)%coq_nat by rewrite h; apply/ltP.
  have lj : (j < List.length M)%coq_nat by rewrite h; apply/ltP.
  have -> : List.nth i (List.map (fun r => List.map (fun s => dot r s) M) M) nil = List.map (fun s => dot (List.nth i M nil) s) M.
  { rewrite (List.nth_indep _ nil (List.map (fun s => dot nil s) M)); last by rewrite List.map_length.
    by rewrite (List.map_nth (fun r => List.map (fun s => dot r s) M)). }
  rewrite (List.nth_indep _ _ (dot (List.nth i M nil) nil)); last by rewrite List.map_length.
  rewrite (List.map_nth (fun s => dot (List.nth i M nil) s)).
  have e1 : List.length (List.nth i M nil) = n by apply: f; exact: List.nth_In.
  have e2 : List.length (List.nth j M nil) = n by apply: f; exact: List.nth_In.
  rewrite dot_sum ?e1 ?e2 // (rsum_bigop (fun k => Rmult (List.nth k (List.nth i M nil) (IZR 0)) (List.nth k (List.nth j M nil) (IZR 0)))).
  by apply: eq_bigr => k _; rewrite !mxE.
Qed.

Lemma covariance_shape n jitter tau L : List.length tau = n -> has_shape (component_covariance jitter tau L) n n.
Proof. move=> h; apply: gram_shape; exact: (l_scaled_shape _ _ h). Qed.

Lemma covariance_mx n jitter tau L : List.length tau = n ->
  to_mx n n (component_covariance jitter tau L) = factored n jitter tau L.
Proof. by move=> h; rewrite /component_covariance gram_mx ?l_scaled_mx // l_scaled_shape. Qed.

Lemma scaled_lower n jitter tau L : Rlt 0 jitter -> List.Forall (Rle 0) tau ->
  is_trig_mx (to_mx n n L) -> (forall i : 'I_n, Rlt 0 (to_mx n n L i i)) ->
  lower_factor (scaled_factor n jitter tau L) (factored n jitter tau L).
Proof.
  move=> jp tp tr pos.
  have en : forall i j : 'I_n, scaled_factor n jitter tau L i j =
    Rplus (Rmult (List.nth i tau (IZR 0)) (to_mx n n L i j)) (if i == j then jitter else IZR 0).
  { move=> i j; rewrite /scaled_factor mxE [in X in _ + X]mxE mxE (bigD1 i) //= big1; last first.
    { move=> k ne; rewrite !mxE eq_sym (negbTE ne) mulr0n; exact: mul0r. }
    rewrite !mxE eqxx mulr1n addr0; by case: (i == j). }
  split=> //.
  - apply/is_trig_mxP => i j lt; rewrite en (elimT is_trig_mxP tr i j lt).
    have -> : (i == j) = false by apply/negbTE/eqP => e; move: lt; rewrite e ltnn.
    rewrite Rplus_0_r; exact: Rmult_0_r.
  - move=> i; rewrite en eqxx; have p := pos i.
    have t : Rle 0 (List.nth i tau (IZR 0)).
    { case: (PeanoNat.Nat.lt_ge_cases i (List.length tau)) => h.
      - move/List.Forall_forall: tp; apply; exact: List.nth_In.
      - rewrite List.nth_overflow //; exact: Rle_refl. }
    apply: Rplus_le_lt_0_compat => //; apply: Rmult_le_pos => //; exact: Rlt_le.
Qed.

Lemma covariance_posdef n jitter tau L : Rlt 0 jitter -> List.length tau = n -> List.Forall (Rle 0) tau ->
  is_trig_mx (to_mx n n L) -> (forall i : 'I_n, Rlt 0 (to_mx n n L i i)) ->
  posdef (to_mx n n (component_covariance jitter tau L)).
Proof. move=> jp h tp tr pos; rewrite covariance_mx //; exact: factor_posdef (scaled_lower jp tp tr pos). Qed.

(** ** Components *)

Section Build.
  Context {J : prng}.
  Variable T : tfp_draws J.
  Variable eigvals : UtilsModel.matrix -> list (R * R).
  Variable cholesky : UtilsModel.matrix -> option UtilsModel.matrix.
  Variable normal_draw : list R -> option UtilsModel.matrix -> key J -> nat -> UtilsModel.matrix.
  Local Notation build := (sample_into_bmm_distribution T eigvals cholesky normal_draw).
  Local Notation normal := (normal_distribution eigvals cholesky normal_draw).

  Lemma to_nat_add (m n : nat) : Z.to_nat (Z.of_nat m + Z.of_nat n) = (m + n)%N.
  Proof. by rewrite -Znat.Nat2Z.inj_add Znat.Nat2Z.id plusE. Qed.

  Lemma build_ok (g : gmm_draw) (m n : nat) d : build g (Z.of_nat m) (Z.of_nat n) = Ok d ->
    [/\ has_shape (dr_mu g) (List.length (dr_pi g)) (m + n), List.length (dr_cov g) = List.length (dr_pi g),
        List.Forall (fun C => has_shape C (m + n) (m + n)) (dr_cov g)
      & exists cs, List.Forall2 (fun mc c => normal (Z.of_nat m) (Z.of_nat n) (snd mc) (Some (fst mc)) = Ok c)
          (List.combine (dr_mu g) (dr_cov g)) cs /\ mixture T (dr_pi g) cs = Ok d].
  Proof.
    rewrite /sample_into_bmm_distribution to_nat_add.
    case h1: (has_shape (dr_mu g) _ _) => //=.
    case h2: ((List.length (dr_cov g) =? List.length (dr_pi g))%nat && _) => //=.
    move: h2 => /andP [/PeanoNat.Nat.eqb_eq h2 /List.forallb_forall h3].
    case h4: (map_results _ _) => [cs|] //= hm.
    split=> //; first by apply/List.Forall_forall => C /h3.
    exists cs; split=> //; exact: map_results_inv h4.
  Qed.

  Lemma build_errors (g : gmm_draw) dim_x dim_y e : build g dim_x dim_y = Err e -> e = AssertionError \/ e = ValueError.
  Proof.
    rewrite /sample_into_bmm_distribution.
    case: (has_shape (dr_mu g) _ _) => /=; last by case=> <-; left.
    case: (_ && _) => /=; last by case=> <-; left.
    have me : forall l e, map_results (fun mc => normal dim_x dim_y (snd mc) (Some (fst mc))) l = Err e -> e = ValueError.
    { elim=> [|a l IH] e' //=; case h: (normal _ _ _ _) => [c|e''] /=; last by case=> <-; exact: normal_errors h.
      by case h': (map_results _ l) => [r|e''] //= [<-]; exact: IH. }
    case h: (map_results _ _) => [cs|e'] /=; last by case=> <-; right; exact: me h.
    rewrite /mixture; case: (_ || _) => [[<-]|]; first by right.
    by case: (~~ _) => // -[<-]; right.
  Qed.

  Lemma build_assertion (g : gmm_draw) dim_x dim_y :
    (build g dim_x dim_y = Err AssertionError) <->
    ~ (has_shape (dr_mu g) (List.length (dr_pi g)) (Z.to_nat (dim_x + dim_y)) /\ List.length (dr_cov g) = List.length (dr_pi g) /\
       List.Forall (fun C => has_shape C (Z.to_nat (dim_x + dim_y)) (Z.to_nat (dim_x + dim_y))) (dr_cov g)).
  Proof.
    rewrite /sample_into_bmm_distribution.
    case: (has_shape (dr_mu g) _ _) => /=; last by split=> // _ [].
    case h2: ((List.length (dr_cov g) =? List.length (dr_pi g))%nat && _) => /=; last first.
    { split=> // _ [_ [h3 h4]]; move: h2; rewrite h3 PeanoNat.Nat.eqb_refl /= => /negP; apply.
      apply/List.forallb_forall => C hC; exact: (proj1 (List.Forall_forall _ _) h4 C hC). }
    move: h2 => /andP [/PeanoNat.Nat.eqb_eq h2 /List.forallb_forall h3]; split; last first.
    { case; split=> //; split=> //; apply/List.Forall_forall; exact: h3. }
    case h: (map_results _ _) => [cs|e'] /=.
    - rewrite /mixture; case: (_ || _) => //; by case: (~~ _).
    - move=> [ee]; exfalso; move: h; rewrite ee; elim: (List.combine _ _) => [|a l IH] //=.
      case h: (normal _ _ _ _) => [c|e''] /=; last by case=> e3; have := normal_errors h; rewrite e3.
      by case h': (map_results _ l) => [r|e''] //= [e3]; apply: IH; rewrite -e3.
  Qed.

  Lemma build_dims (g : gmm_draw) (m n : nat) d : build g (Z.of_nat m) (Z.of_nat n) = Ok d ->
    [/\ jd_dim_x d = m, jd_dim_y d = n, (0 < List.length (dr_pi g))%N & analytic_mi d = None].
  Proof.
    move=> /build_ok [h1 h2 h3 [cs [h4 h5]]].
    have [a1 [_ a3]] := mixture_accepts T (dr_pi g) cs.
    have [ne [ll _]] := proj1 a1 (ex_intro _ d h5); have [an fd] := a3 d h5.
    case: cs h4 ne ll fd {a1 a3 h5} => [|c cs] h4 // _ ll fd.
    have [C [mean /normal_ok [s [_ ec]]]] : exists C mean, normal (Z.of_nat m) (Z.of_nat n) C mean = Ok c.
    { inversion h4 as [|mc ? ? ? hc ? ]; subst; by exists (snd mc), (Some (fst mc)). }
    have [d1 d2] := List.Forall_inv fd; rewrite -d1 -d2 ec; split=> //; by rewrite -ll.
  Qed.

  Lemma build_accepts (g : gmm_draw) (m n : nat) : (0 < m)%N -> (0 < n)%N -> (0 < List.length (dr_pi g))%N ->
    has_shape (dr_mu g) (List.length (dr_pi g)) (m + n) -> List.length (dr_cov g) = List.length (dr_pi g) ->
    List.Forall (fun C => [/\ has_shape C (m + n) (m + n), posdef (sigma m n C) & eigvals_exact eigvals m n C]) (dr_cov g) ->
    exists d, build g (Z.of_nat m) (Z.of_nat n) = Ok d.
  Proof.
    move=> m0 n0 K0 sm lc hC; rewrite /sample_into_bmm_distribution to_nat_add sm lc PeanoNat.Nat.eqb_refl /=.
    have -> : List.forallb (fun c => has_shape c (m + n) (m + n)) (dr_cov g) = true.
    { apply/List.forallb_forall => C h; by move/List.Forall_forall: hC => /(_ C h) []. }
    move: sm => /has_shapeP [lm fm] /=.
    have [cs hcs] : exists cs, List.Forall2 (fun mc c => normal (Z.of_nat m) (Z.of_nat n) (snd mc) (Some (fst mc)) = Ok c)
      (List.combine (dr_mu g) (dr_cov g)) cs.
    { have hin : forall mc, List.In mc (List.combine (dr_mu g) (dr_cov g)) ->
        exists c, normal (Z.of_nat m) (Z.of_nat n) (snd mc) (Some (fst mc)) = Ok c.
      { move=> [mu C] h; have [h1 h2] : List.In mu (dr_mu g) /\ List.In C (dr_cov g)
          by split; [exact: List.in_combine_l h | exact: List.in_combine_r h].
        move/List.Forall_forall: hC => /(_ C h2) [s pd ex].
        apply: (proj2 (normal_accepts _ _ _ m0 n0 (proj1 pd) ex)); split=> //=.
        by move/List.Forall_forall: fm; apply. }
      elim: (List.combine _ _) hin => [|a l IH] hin; first by exists nil; constructor.
      have [c hc] := hin a (or_introl erefl); have [cs hcs] := IH (fun mc h => hin mc (or_intror h)).
      exists (c :: cs); by constructor. }
    rewrite (map_results_ok _ _ _ hcs) /=; apply: (proj2 (proj1 (mixture_accepts T (dr_pi g) cs))).
    have ll : List.length cs = List.length (dr_pi g).
    { have -> : List.length cs = List.length (List.combine (dr_mu g) (dr_cov g)) by elim: hcs => //= ? ? ? ? _ _ ->.
      by rewrite List.combine_length lm lc PeanoNat.Nat.min_id. }
    have hd : List.Forall (fun c => jd_dim_x c = m /\ jd_dim_y c = n) cs.
    { elim: hcs => [|a c l l' /normal_ok [s [_ ->]] _ IH]; constructor=> //. }
    split; last by split=> //; exists m, n.
    by move=> e; move: K0; rewrite -ll e.
  Qed.
  Lemma by_index (A B : Type) (f : A -> B -> R) (ps : list R) (ms : list A) (cs : list B) a b :
    List.length ms = List.length ps -> List.length cs = List.length ps ->
    List.map (fun pv : R * R => Rmult (fst pv) (snd pv)) (List.combine ps (List.map (fun mc => f (fst mc) (snd mc)) (List.combine ms cs)))
    = List.map (fun k => Rmult (List.nth k ps (IZR 0)) (f (List.nth k ms a) (List.nth k cs b))) (List.seq 0 (List.length ps)).
  Proof.
    elim: ps ms cs => [|p ps IH] [|u ms] [|c cs] //= [h1] [h2].
    by rewrite IH // -List.seq_shift List.map_map.
  Qed.

  Lemma nth_seq (ps : list R) : List.map (fun k => List.nth k ps (IZR 0)) (List.seq 0 (List.length ps)) = ps.
  Proof. by elim: ps => [|p ps IH] //=; rewrite -List.seq_shift List.map_map IH. Qed.

  Lemma exp_density (e : tfd J) z r : log_prob e z = Fin r -> has_density e z (exp r).
  Proof. by move=> h; left; rewrite ln_exp; split=> //; exact: exp_pos. Qed.

  Lemma build_densities (g : gmm_draw) (m n : nat) d : build g (Z.of_nat m) (Z.of_nat n) = Ok d ->
    good_proportions (dr_pi g) ->
    List.Forall (fun C => [/\ (sigma m n C)^T = sigma m n C, eigvals_ok (m + n) C (eigvals C) & cholesky_exact cholesky m n C]) (dr_cov g) ->
    let K := List.length (dr_pi g) in
    let p k := List.nth k (dr_pi g) (IZR 0) in
    let mu k := to_cv (m + n) (List.nth k (dr_mu g) nil) in
    let S k := sigma m n (List.nth k (dr_cov g) nil) in
    [/\ forall z, List.length z = (m + n)%N ->
          has_density (dist_joint d) z (mixture_of K p (fun k => normal_density_at (mu k) (S k) (to_cv (m + n) z))),
        forall x, List.length x = m ->
          has_density (dist_x d) x (mixture_of K p (fun k => normal_density_at (usubmx (mu k)) (ulsubmx (S k)) (to_cv m x)))
      & forall y, List.length y = n ->
          has_density (dist_y d) y (mixture_of K p (fun k => normal_density_at (dsubmx (mu k)) (drsubmx (S k)) (to_cv n y)))].
  Proof.
    move=> /build_ok [/has_shapeP [lm fm] lc fc [cs [hcs hm]]] gp hC K p mu S.
    have [ll [ej [ex ey]]] := mixture_parts T _ _ _ hm.
    have part : forall (sel : joint_distribution J -> tfd J) (f : list R -> UtilsModel.matrix -> R) z,
      (forall u C c, List.In C (dr_cov g) -> normal (Z.of_nat m) (Z.of_nat n) C (Some u) = Ok c -> has_density (sel c) z (f u C)) ->
      has_density (tfd_mixture T (dr_pi g) (List.map sel cs)) z
        (mixture_of K p (fun k => f (List.nth k (dr_mu g) nil) (List.nth k (dr_cov g) nil))).
    { move=> sel f z h.
      have := mixture_density T (dr_pi g) (List.map sel cs) z (List.map (fun mc => f (fst mc) (snd mc)) (List.combine (dr_mu g) (dr_cov g))) gp.
      rewrite List.map_length => /(_ ll); rewrite (by_index f nil nil lm lc) /mixture_of nth_seq; apply.
      have hin : forall mc, List.In mc (List.combine (dr_mu g) (dr_cov g)) -> List.In (snd mc) (dr_cov g).
      { move=> [u C]; exact: List.in_combine_r. }
      elim: hcs hin {hm ll ej ex ey} => [|[u C] c l l' hc _ IH] hin; first by constructor.
      constructor; first by apply: h hc; exact: (hin _ (or_introl erefl)).
      by apply: IH => mc hmc; apply: hin; right. }
    have dens : forall u C c, List.In C (dr_cov g) -> normal (Z.of_nat m) (Z.of_nat n) C (Some u) = Ok c -> _
      := fun u C c hin hc => let: And3 sy ei ch := proj1 (List.Forall_forall _ _) hC C hin in normal_densities sy ei ch hc.
    split.
    - move=> z hz; rewrite ej.
      apply: (part dist_joint (fun u C => normal_density_at (to_cv (m + n) u) (sigma m n C) (to_cv (m + n) z))) => u C c hin hc.
      have [h _ _] := dens u C c hin hc; apply: exp_density; exact: h.
    - move=> z hz; rewrite ex.
      apply: (part dist_x (fun u C => normal_density_at (usubmx (to_cv (m + n) u)) (ulsubmx (sigma m n C)) (to_cv m z))) => u C c hin hc.
      have [_ h _] := dens u C c hin hc; apply: exp_density; exact: h.
    - move=> z hz; rewrite ey.
      apply: (part dist_y (fun u C => normal_density_at (dsubmx (to_cv (m + n) u)) (drsubmx (sigma m n C)) (to_cv n z))) => u C c hin hc.
      have [_ _ h] := dens u C c hin hc; apply: exp_density; exact: h.
  Qed.

  (** ** Draws of the posterior *)

  Lemma latent_covs prog K n l : proper_latent K n l ->
    List.length (dr_cov (draw_of_latent prog l)) = K /\
    (forall k, (k < K)%coq_nat -> List.nth k (dr_cov (draw_of_latent prog l)) nil =
       component_covariance (pg_jitter prog) (List.nth k (lt_tau l) nil) (List.nth k (lt_l_omega l) nil)) /\
    (forall k, (k < K)%coq_nat -> List.length (List.nth k (lt_tau l) nil) = n).
  Proof.
    move=> [_ _ [/has_shapeP [lt ft] _] [lo _]]; rewrite /= List.map_length List.combine_length lt lo PeanoNat.Nat.min_id.
    split=> //; split=> k hk.
    - rewrite (List.nth_indep _ nil ((fun tl => component_covariance (pg_jitter prog) (fst tl) (snd tl)) (nil, nil))); last first.
      { by rewrite List.map_length List.combine_length lt lo PeanoNat.Nat.min_id. }
      by rewrite (List.map_nth (fun tl => component_covariance (pg_jitter prog) (fst tl) (snd tl))) List.combine_nth // lt lo.
    - apply: (proj1 (List.Forall_forall _ _) ft); apply: List.nth_In; by rewrite lt.
  Qed.

  Lemma latent_posdef prog K n l k : proper_latent K n l -> Rlt 0 (pg_jitter prog) -> (k < K)%coq_nat ->
    let C := List.nth k (dr_cov (draw_of_latent prog l)) nil in
    [/\ has_shape C n n,
        to_mx n n C = factored n (pg_jitter prog) (List.nth k (lt_tau l) nil) (List.nth k (lt_l_omega l) nil)
      & posdef (to_mx n n C)].
  Proof.
    move=> pl jp hk; have [lc [ec lt]] := latent_covs prog pl; rewrite ec //; have ln := lt k hk.
    case: pl => _ _ [/has_shapeP [lt' _] nt] [lo fo].
    have [sL [tr pos]] := proj1 (List.Forall_forall _ _) fo (List.nth k (lt_l_omega l) nil) (List.nth_In _ _ (eq_ind_r (fun x => (k < x)%coq_nat) hk lo)).
    have tp := proj1 (List.Forall_forall _ _) nt (List.nth k (lt_tau l) nil) (List.nth_In _ _ (eq_ind_r (fun x => (k < x)%coq_nat) hk lt')).
    split; [exact: covariance_shape | exact: covariance_mx | exact: covariance_posdef].
  Qed.

  Lemma latent_accepted prog K (m n : nat) l : (0 < K)%N -> (0 < m)%N -> (0 < n)%N ->
    Rlt 0 (pg_jitter prog) -> proper_latent K (m + n) l ->
    List.Forall (eigvals_exact eigvals m n) (dr_cov (draw_of_latent prog l)) ->
    exists d, [/\ build (draw_of_latent prog l) (Z.of_nat m) (Z.of_nat n) = Ok d, jd_dim_x d = m & jd_dim_y d = n].
  Proof.
    move=> K0 m0 n0 jp pl ex; have [lc _] := latent_covs prog pl; have [lp _] := prop_pi pl.
    have [d hd] : exists d, build (draw_of_latent prog l) (Z.of_nat m) (Z.of_nat n) = Ok d.
    { apply: build_accepts => //.
      - by rewrite /= lp.
      - rewrite /= lp; exact: prop_mu pl.
      - by rewrite lc /= lp.
      - apply/List.Forall_forall => C hC; have [k [hk <-]] := List.In_nth _ _ nil hC.
        rewrite lc in hk; have [h1 _ h3] := latent_posdef pl jp hk; split=> //.
        apply: (proj1 (List.Forall_forall _ _) ex); apply: List.nth_In; by rewrite lc. }
    exists d; have [h1 h2 _ _] := build_dims hd; by split.
  Qed.

  Lemma latent_density prog K (m n : nat) l d : proper_latent K (m + n) l -> Rlt 0 (pg_jitter prog) ->
    List.Forall (fun C => eigvals_exact eigvals m n C /\ cholesky_exact cholesky m n C) (dr_cov (draw_of_latent prog l)) ->
    build (draw_of_latent prog l) (Z.of_nat m) (Z.of_nat n) = Ok d ->
    let mu k := to_cv (m + n) (List.nth k (lt_mu l) nil) in
    let S k := factored (m + n) (pg_jitter prog) (List.nth k (lt_tau l) nil) (List.nth k (lt_l_omega l) nil) in
    let density k z := normal_density_at (mu k) (S k) z in
    forall z, List.length z = (m + n)%N ->
      has_density (dist_joint d) z
        (rsum (List.map (fun k => Rmult (List.nth k (lt_pi l) (IZR 0)) (density k (to_cv (m + n) z))) (List.seq 0 K))).
  Proof.
    move=> pl jp ex hd mu S density z hz; have [lc _] := latent_covs prog pl; have [lp [pp p1]] := prop_pi pl.
    have [h _ _] : _ := build_densities hd (conj pp (eq_ind_r (Rlt 0) Rlt_0_1 p1))
      (proj2 (List.Forall_forall _ _) (fun C hC =>
        let: conj ee ch := proj1 (List.Forall_forall _ _) ex C hC in
        And3 (let: ex_intro k (conj hk e) := List.In_nth _ _ nil hC in
              eq_ind _ (fun C => (sigma m n C)^T = sigma m n C)
                (let: And3 _ _ pd := latent_posdef pl jp (eq_ind _ (fun x => (k < x)%coq_nat) hk _ lc) in proj1 pd) _ e)
          (proj1 ee) ch)).
    have := h z hz; rewrite /mixture_of -[dr_pi _]/(lt_pi l) -[dr_mu _]/(lt_mu l) lp.
    have -> : rsum (List.map (fun k => List.nth k (lt_pi l) (IZR 0)) (List.seq 0 K)) = IZR 1 by rewrite -lp nth_seq.
    rewrite /Rdiv Rinv_1 Rmult_1_r.
    set a := List.map _ _; set b := List.map _ _; have -> // : a = b.
    apply: List.map_ext_in => k /List.in_seq [_ hk].
    have [_ e _] := latent_posdef pl jp hk; by rewrite /sigma e.
  Qed.
End Build.

(** The distributions of the mixtures paper. *)
From Verif Require Import Base UtilsModel JaxModel SamplersModel GaussianModel MatrixUtilsModel TransformsModel BmmModel
  MultivariateModel GmmModel BenchmarkModel TasksModel MixturesModel PaperModel BaseLemmas SamplersProofs BmmSpec BmmProofs PaperSpec
  MatrixUtilsSpec MatrixUtilsProofs LvmProofs TransformsSpec RotateProofs.
From mathcomp Require Import all_ssreflect ssralg matrix mxalgebra.
From Verif Require Import RStruct PosDef MatrixBridge GaussianSpec GaussianProofs ExpectationProofs GaussianThms
  MatrixUtilsThms MultivariateSpec MultivariateProofs MultivariateThms GmmMixSpec GmmThms MixturesSpec EigvalsExist
  MixturesProofs MixturesThms MixturesMore.
Set Implicit Arguments.
Unset Strict Implicit.
Unset Printing Implicit Defensive.
Import GRing.Theory.
Local Open Scope ring_scope.
Ltac real_eq := lazymatch goal with |- ?l = ?r => change (@eq R l r) end.

(** ** Normal densities *)
Lemma gauss_exp m v x : Rlt 0 v ->
  gauss m v x = exp (Rminus (Ropp (Rdiv (Rmult (Rminus x m) (Rminus x m)) (Rmult 2 v))) (Rdiv (Rplus (ln (Rmult 2 PI)) (ln v)) 2)).
Proof.
  move=> v0; have p0 : Rlt 0 (Rmult 2 PI) by have := PI_RGT_0; lra.
  rewrite /gauss {2}/Rminus exp_plus (exp_Ropp (Rdiv (Rplus _ _) _)).
  have -> : Rdiv (Rplus (ln (Rmult 2 PI)) (ln v)) 2 = Rmult (Rinv 2) (ln (Rmult (Rmult 2 PI) v)).
  { rewrite (ln_mult (Rmult 2 PI) v p0 v0); real_eq; field. }
  have -> : exp (Rmult (Rinv 2) (ln (Rmult (Rmult 2 PI) v))) = sqrt (Rmult (Rmult 2 PI) v).
  { rewrite -Rpower_sqrt //; exact: Rmult_lt_0_compat. }
  by rewrite /= Rmult_1_r.
Qed.
Lemma gauss_pos m v x : Rlt 0 v -> Rlt 0 (gauss m v x).
Proof. by move=> v0; rewrite gauss_exp //; exact: exp_pos. Qed.

Lemma one_dim m v x (M : 'M[R]_1) (c : 'cV[R]_1) : Rlt 0 v -> M ord0 ord0 = v -> c ord0 ord0 = m ->
  normal_density_at c M (to_cv 1 [:: x]) = gauss m v x.
Proof.
  move=> v0 eM ec; rewrite gauss_exp // /normal_density_at /normal_log_density; congr exp.
  have eS : M = v%:M by apply/matrixP => i j; rewrite !mxE (ord1 i) (ord1 j) eM eqxx.
  have dM : \det M = v by rewrite eS det_scalar1.
  have uM : M \in unitmx by rewrite unitmxE dM; apply/unitrP; exists (Rinv v); split; [exact: Rinv_l (Rgt_not_eq _ _ v0) | exact: Rinv_r (Rgt_not_eq _ _ v0)].
  have e : M *m to_cv 1 [:: Rdiv (Rminus x m) v] = to_cv 1 [:: x] - c.
  { apply/matrixP => i j; rewrite !mxE big_ord_recl big_ord0 !mxE /= addr0 (ord1 i) (ord1 j) eM ec.
    change (@eq R (Rmult v (Rdiv (Rminus x m) v)) (Rplus x (Ropp m))); field; lra. }
  rewrite (qf_inv uM e) dM !mxE big_ord_recl big_ord0 !mxE /= addr0 ec.
  set l := ln v; set g := ln _.
  change (@eq R (Rminus (Rmult (Ropp (Rinv 2)) (Rmult (Rplus x (Ropp m)) (Rdiv (Rminus x m) v))) (Rmult (Rinv 2) (Rplus l (Rmult 1 g))))
    (Rminus (Ropp (Rdiv (Rmult (Rminus x m) (Rminus x m)) (Rmult 2 v))) (Rdiv (Rplus g l) 2))).
  field; lra.
Qed.

Lemma two_dim mx my vx vy x y (M : 'M[R]_(1 + 1)) (c : 'cV[R]_(1 + 1)) : Rlt 0 vx -> Rlt 0 vy ->
  M = sigma 1 1 [:: [:: vx; IZR 0]; [:: IZR 0; vy]] -> c = to_cv (1 + 1) [:: mx; my] ->
  normal_density_at c M (to_cv (1 + 1) [:: x; y]) = Rmult (gauss mx vx x) (gauss my vy y).
Proof.
  move=> v0 w0 eM ec; rewrite !gauss_exp // -exp_plus /normal_density_at /normal_log_density; congr exp.
  have pd : posdef M by rewrite eM; apply: two_posdef => //; rewrite Rmult_0_l; exact: Rmult_lt_0_compat.
  have uM : M \in unitmx by exact: posdef_unit.
  have [dM _ _] := bivariate_dets vx vy (IZR 0); rewrite -eM Rmult_0_l Rminus_0_r in dM.
  have e : M *m to_cv (1 + 1) [:: Rdiv (Rminus x mx) vx; Rdiv (Rminus y my) vy] = to_cv (1 + 1) [:: x; y] - c.
  { rewrite eM ec; apply/matrixP => i j; rewrite !mxE !big_ord_recl big_ord0 !mxE /=.
    case: i => -[|[|i]] hi //=; rewrite /entry /= addr0.
    - change (@eq R (Rplus (Rmult vx (Rdiv (Rminus x mx) vx)) (Rmult 0 (Rdiv (Rminus y my) vy))) (Rplus x (Ropp mx))); field; lra.
    - change (@eq R (Rplus (Rmult 0 (Rdiv (Rminus x mx) vx)) (Rmult vy (Rdiv (Rminus y my) vy))) (Rplus y (Ropp my))); field; lra. }
  rewrite (qf_inv uM e) dM (ln_mult vx vy v0 w0) !mxE !big_ord_recl big_ord0 !mxE ec !mxE /= addr0.
  set l := ln vx; set l' := ln vy; set g := ln _.
  change (@eq R (Rminus (Rmult (Ropp (Rinv 2)) (Rplus (Rmult (Rplus x (Ropp mx)) (Rdiv (Rminus x mx) vx))
      (Rmult (Rplus y (Ropp my)) (Rdiv (Rminus y my) vy)))) (Rmult (Rinv 2) (Rplus (Rplus l l') (Rmult (Rplus 1 1) g))))
    (Rplus (Rminus (Ropp (Rdiv (Rmult (Rminus x mx) (Rminus x mx)) (Rmult 2 vx))) (Rdiv (Rplus g l) 2))
      (Rminus (Ropp (Rdiv (Rmult (Rminus y my) (Rminus y my)) (Rmult 2 vy))) (Rdiv (Rplus g l') 2)))).
  field; lra.
Qed.

Section Paper.
  Context {J : prng}.
  Variable T : tfp_draws J.
  Variable eigvals : UtilsModel.matrix -> list (R * R).
  Variable cholesky : UtilsModel.matrix -> option UtilsModel.matrix.
  Variable normal_draw : list R -> option UtilsModel.matrix -> key J -> nat -> UtilsModel.matrix.
  Variable expm : expm_function.
  Hypothesis eig : eigvals_symmetric eigvals.
  Hypothesis cho : factorises cholesky.
  Local Notation normal := (normal_distribution eigvals cholesky normal_draw).

  (** ** Mixtures of balls *)
  Definition part_of (b : ball) : list R * UtilsModel.matrix :=
    ([:: mean_x b; mean_y b], [:: [:: var_x b; IZR 0]; [:: IZR 0; var_y b]]).
  Definition proper (b : ball) : Prop := Rlt 0 (weight b) /\ Rlt 0 (var_x b) /\ Rlt 0 (var_y b).

  Lemma rsum_pos l : l <> [::] -> List.Forall (fun r => Rlt 0 r) l -> Rlt 0 (rsum l).
  Proof.
    have p : forall l, List.Forall (fun r => Rlt 0 r) l -> Rle 0 (rsum l).
    { move=> l'; elim: l' => [|a l' IH] h; rewrite /rsum /=; first exact: Rle_refl.
      have := List.Forall_inv h; have := IH (List.Forall_inv_tail h); rewrite /rsum; lra. }
    case: l => // a l _ h; rewrite /rsum /=; have := List.Forall_inv h; have := p l (List.Forall_inv_tail h); rewrite /rsum; lra.
  Qed.

  Lemma mixture_total (balls : list ball) (f : nat -> R) (F : ball -> R) : rsum (List.map weight balls) = IZR 1 ->
    (forall k b0, (k < List.length balls)%N -> f k = F (List.nth k balls b0)) ->
    mixture_of (List.length balls) (fun k => List.nth k (List.map weight balls) (IZR 0)) f = PaperSpec.total balls F.
  Proof.
    move=> h1 hf; rewrite /mixture_of /PaperSpec.total.
    have -> : rsum (List.map (fun k => List.nth k (List.map weight balls) (IZR 0)) (List.seq 0 (List.length balls))) = IZR 1.
    { rewrite -h1; have := nth_seq (List.map weight balls); by rewrite List.map_length => ->. }
    rewrite /Rdiv Rinv_1 Rmult_1_r; congr rsum; clear h1.
    elim: balls f hf => //= b balls IH f hf.
    rewrite (hf 0%N b) //=; congr (_ :: _).
    rewrite -List.seq_shift List.map_map -(IH (fun k => f k.+1)) // => k b0 hk; by rewrite (hf k.+1 b0).
  Qed.

  Lemma balls_made (balls : list ball) : balls <> [::] -> List.Forall proper balls -> rsum (List.map weight balls) = IZR 1 ->
    exists d, pair_mixture T eigvals cholesky normal_draw (List.map weight balls) (List.map part_of balls) = Ok d /\ ball_mixture d balls.
  Proof.
    move=> ne hp h1; set K := List.length balls.
    have K0 : (0 < K)%N by rewrite /K; case: balls ne {hp h1 K}.
    set g := {| dr_pi := List.map weight balls; dr_mu := List.map fst (List.map part_of balls); dr_cov := List.map snd (List.map part_of balls) |}.
    have fa : List.Forall (fun C => [/\ has_shape C (1 + 1) (1 + 1), posdef (sigma 1 1 C) & eigvals_exact eigvals 1 1 C]) (dr_cov g).
    { apply/List.Forall_forall => C /List.in_map_iff [mc [<- /List.in_map_iff [b [<- hb]]]].
      have [_ [vx vy]] := proj1 (List.Forall_forall _ _) hp b hb.
      have pd : posdef (sigma 1 1 (part_of b).2) by apply: two_posdef => //; rewrite Rmult_0_l; exact: Rmult_lt_0_compat.
      split=> //; apply: eigvals_symmetric_exact => //; exact: (proj1 pd). }
    have sm : has_shape (dr_mu g) (List.length (dr_pi g)) (1 + 1).
    { apply/has_shapeP; rewrite /= !List.map_length; split=> //.
      by apply/List.Forall_forall => r /List.in_map_iff [mc [<- /List.in_map_iff [b [<- _]]]]. }
    have lc : List.length (dr_cov g) = List.length (dr_pi g) by rewrite /= !List.map_length.
    have K0' : (0 < List.length (dr_pi g))%N by rewrite /= List.map_length.
    have [d hd] := @build_accepts J T eigvals cholesky normal_draw g 1 1 isT isT K0' sm lc fa.
    have eb : sample_into_bmm_distribution T eigvals cholesky normal_draw g 1 1 =
      pair_mixture T eigvals cholesky normal_draw (List.map weight balls) (List.map part_of balls).
    { rewrite /sample_into_bmm_distribution /pair_mixture (to_nat_add 1 1 : Z.to_nat (1 + 1) = (1 + 1)%N) sm lc PeanoNat.Nat.eqb_refl /=.
      have -> : List.forallb (fun c => has_shape c 2 2) (List.map snd (List.map part_of balls)) = true.
      { apply/List.forallb_forall => c h; by move/List.Forall_forall: fa => /(_ c h) []. }
      rewrite /=; congr (bind _ _); by elim: (balls) => //= b bs ->. }
    exists d; split; first by rewrite -eb.
    have gp : good_proportions (dr_pi g).
    { split; last by rewrite /= h1; exact: Rlt_0_1.
      apply/List.Forall_forall => r /List.in_map_iff [b [<- hb]]; have [w _] := proj1 (List.Forall_forall _ _) hp b hb; exact: Rlt_le. }
    have [d1 d2 d3] := build_densities hd gp (proj2 (List.Forall_forall _ _) (fun c hc' =>
      let: And3 s p e := proj1 (List.Forall_forall _ _) fa c hc' in And3 (proj1 p) (proj1 e) (cholesky_exact_of s cho))).
    have [j1 j2 _ _] := build_dims hd.
    have em : forall k b0, (k < K)%N -> List.nth k (dr_mu g) nil = (part_of (List.nth k balls b0)).1.
    { move=> k b0 /ltP hk; rewrite /= List.map_map (List.nth_indep _ nil (part_of b0).1) ?List.map_length //; exact: (List.map_nth (fun b => (part_of b).1)). }
    have ec : forall k b0, (k < K)%N -> List.nth k (dr_cov g) nil = (part_of (List.nth k balls b0)).2.
    { move=> k b0 /ltP hk; rewrite /= List.map_map (List.nth_indep _ nil (part_of b0).2) ?List.map_length //; exact: (List.map_nth (fun b => (part_of b).2)). }
    have pr : forall k b0, (k < K)%N -> proper (List.nth k balls b0).
    { move=> k b0 /ltP hk; apply: (proj1 (List.Forall_forall _ _) hp); exact: List.nth_In. }
    split=> //.
    - move=> x y; apply: (density_eq (d1 [:: x; y] erefl)); rewrite /= List.map_length; apply: mixture_total => // k b0 hk.
      have [_ [vx vy]] := pr k b0 hk; apply: two_dim => //; [by rewrite (ec k b0) | by rewrite (em k b0)].
    - move=> x; apply: (density_eq (d2 [:: x] erefl)); rewrite /= List.map_length; apply: mixture_total => // k b0 hk.
      have [_ [vx vy]] := pr k b0 hk; apply: one_dim => //; [by rewrite (ec k b0) // !mxE | by rewrite (em k b0) // !mxE].
    - move=> x; apply: (density_eq (d3 [:: x] erefl)); rewrite /= List.map_length; apply: mixture_total => // k b0 hk.
      have [_ [vx vy]] := pr k b0 hk; apply: one_dim => //; [by rewrite (ec k b0) // !mxE | by rewrite (em k b0) // !mxE].
  Qed.

  Lemma four_balls_ok : exists d, four_balls T eigvals cholesky normal_draw = Ok d /\ ball_mixture d four_balls_parts.
  Proof.
    have [||| d [hd hb]] := @balls_made four_balls_parts; first by [].
    - by repeat (constructor; first by rewrite /proper /=; lra).
    - rewrite /rsum /=; real_eq; field.
    - exists d; split=> //; rewrite -hd /four_balls x_components /= /scaled /part_of /=; congr (pair_mixture _ _ _ _ _ _);
        repeat (f_equal; try (real_eq; field)).
  Qed.
  Lemma u_shape_ok : exists d, u_shape T eigvals cholesky normal_draw = Ok d /\ ball_mixture d u_shape_parts.
  Proof.
    have [||| d [hd hb]] := @balls_made u_shape_parts; first by [].
    - by repeat (constructor; first by rewrite /proper /=; lra).
    - rewrite /rsum /=; real_eq; field.
    - exists d; split=> //; rewrite -hd /u_shape /= /diagonal /part_of /=; congr (pair_mixture _ _ _ _ _ _);
        repeat (f_equal; try (real_eq; field)).
  Qed.
  Lemma corners_ok : exists d, corners T eigvals cholesky normal_draw = Ok d /\ ball_mixture d corners_parts.
  Proof.
    have [||| d [hd hb]] := @balls_made corners_parts; first by [].
    - by repeat (constructor; first by rewrite /proper /=; lra).
    - rewrite /rsum /=; real_eq; field.
    - exists d; split=> //; rewrite -hd /corners /= /diagonal /scaled /part_of /=; congr (pair_mixture _ _ _ _ _ _);
        repeat (f_equal; try (real_eq; field)).
  Qed.

  (** ** The example distributions *)
  Lemma create_x_ok n : Z.le 1 n -> exists d s, [/\ create_x_distribution T eigvals cholesky normal_draw n = Ok (d, s),
    samples_from id d n s & normal_mixture d 1 1 2 (fun _ _ => IZR 0) (fun k i j => Rmult (Rdiv 3 10) (x_cov (Rdiv 9 10) k i j))].
  Proof.
    move=> hn; have half : Rlt 0 (Rdiv 1 2) by lra.
    set C := fun x : R => scaled (Rdiv 3 10) [:: [:: IZR 1; Rmult x (Rdiv 9 10)]; [:: Rmult x (Rdiv 9 10); IZR 1]].
    have hc : forall a, List.In a [:: IZR (-1); IZR 1] ->
      [/\ List.length [:: IZR 0; IZR 0] = (1 + 1)%N, has_shape (C a) (1 + 1) (1 + 1) & posdef (sigma 1 1 (C a))].
    { move=> a ha; split=> //; apply: two_posdef; try lra; by case: ha => [<-|[<-|[]]]; lra. }
    have [d [hd md]] := @mix_ok J T eigvals cholesky normal_draw eig cho R [:: IZR (-1); IZR 1]
      (fun x => do c <- canonical_correlation [:: Rmult x (Rdiv 9 10)] 0; normal 1 1 (scaled (Rdiv 3 10) c) (Some [:: IZR 0; IZR 0]))
      (fun=> [:: IZR 0; IZR 0]) C 1 1 (Rdiv 1 2) (IZR 0) isT isT isT half (fun a _ => erefl _) hc.
    have [dx dy] := mixture_dims md isT isT; have [s [es ss]] := sampler_ok dx dy hn.
    exists d, s; split=> //.
    - move: hd; rewrite /create_x_distribution; case: (map_results _ _) => //= cs -> /=; by rewrite es.
    - apply: (mixture_ext _ _ md) => [k i _ hi|k i j hk hi hj]; first by case: i hi => [|[|]].
      rewrite /x_cov; case: k hk => [|[|]] // _; case: i hi => [|[|]] // _; case: j hj => [|[|]] // _; rewrite /entry /=; real_eq; ring.
  Qed.

  Lemma create_galaxy_ok n : is_expm expm -> Z.le 1 n ->
    exists d s, [/\ create_galaxy_distribution T eigvals cholesky normal_draw expm n = Ok (d, s),
      samples_from (fun x => List.map (Rmult (Rdiv 3 10)) (swirl (Rdiv 1 2) x)) d n s & normal_mixture d 2 1 2 (balls_mean (IZR 3)) unit_cov].
  Proof.
    move=> he hn; have half : Rlt 0 (Rdiv 1 2) by lra.
    set mu := fun x : R => [:: Rmult x (Rdiv 15 10); Rmult x (Rdiv 15 10); Rmult x (Rdiv 15 10)].
    have hc : forall a, List.In a [:: IZR (-1); IZR 1] ->
      [/\ List.length (mu a) = (2 + 1)%N, has_shape (diagonal [:: IZR 1; IZR 1; IZR 1]) (2 + 1) (2 + 1)
        & posdef (sigma 2 1 (diagonal [:: IZR 1; IZR 1; IZR 1]))].
    { move=> a _; split=> //; apply: diagonal_posdef => //; do 3 (constructor; first lra); constructor. }
    have [d [hd md]] := @mix_ok J T eigvals cholesky normal_draw eig cho R [:: IZR (-1); IZR 1]
      (fun x => do c <- canonical_correlation [:: IZR 0] 1; normal 2 1 c (Some (mu x)))
      mu (fun=> diagonal [:: IZR 1; IZR 1; IZR 1]) 2 1 (Rdiv 1 2) (IZR 0) isT isT isT half (fun a _ => erefl _) hc.
    have [dx dy] := mixture_dims md isT isT; have [s [es ss]] := sampler_ok dx dy hn.
    have [sp [ei _]] := plane_spiral expm (Rdiv 5 10) (IZR 0) (IZR 0) he.
    have hg : forall x, List.length x = jd_dim_x d -> spiral_call expm sp (id x) = Ok (swirl (Rdiv 5 10) x).
    { move=> x; rewrite (nm_dim_x md) => /plane_points [a [b ->]].
      have [sp' [ei' e]] := plane_spiral expm (Rdiv 5 10) a b he.
      have <- : sp' = sp by move: ei'; rewrite ei; case.
      exact: e. }
    have [s1 [es1 ss1]] := moved_ok dx dy ss hg.
    have hg' : forall x, List.length x = jd_dim_x d -> shrink (swirl (Rdiv 5 10) x) = Ok (List.map (Rmult (Rdiv 3 10)) (swirl (Rdiv 1 2) x)).
    { by move=> x _; rewrite /shrink (_ : Rdiv 5 10 = Rdiv 1 2) //; real_eq; field. }
    have [s2 [es2 ss2]] := moved_ok dx dy ss1 hg'.
    exists d, s2; split=> //.
    - move: hd; rewrite /create_galaxy_distribution; case: (map_results _ _) => // cs; rewrite /bind => ->; cbv beta iota; rewrite es; cbv beta iota; rewrite ei; cbv beta iota; rewrite es1; cbv beta iota; by rewrite es2.
    - apply: (mixture_ext _ _ md) => [k i hk hi|k i j _ hi hj].
      + rewrite /balls_mean; move: k hk; do 2 (case; first by (case: i hi => [|[|[|]]] // _ _; rewrite /=; real_eq; field)); by [].
      + by case: i hi => [|[|[|]]] // _; case: j hj => [|[|[|]]].
  Qed.

  Lemma create_ai_ok n : Z.le 1 n -> exists d s, [/\ create_ai_distribution T eigvals cholesky normal_draw n = Ok (d, s),
    samples_from id d n s & normal_mixture d 1 1 6 ai_mean ai_cov].
  Proof.
    move=> hn; have sixth : Rlt 0 (Rdiv 1 6) by lra.
    have root : Rmult (sqrt (Rmult (Rdiv 4 100) (Rdiv 2 10))) (sqrt (Rmult (Rdiv 4 100) (Rdiv 2 10))) = Rmult (Rdiv 4 100) (Rdiv 2 10).
    { apply: sqrt_sqrt; lra. }
    have hc : forall a, List.In a letters ->
      [/\ List.length a.1 = (1 + 1)%N, has_shape a.2 (1 + 1) (1 + 1) & posdef (sigma 1 1 a.2)].
    { have dg : forall u v, Rlt 0 u -> Rlt 0 v -> posdef (sigma 1 1 (diagonal [:: u; v])).
      { move=> u v hu hv; apply: diagonal_posdef => //; by do 2 constructor=> //. }
      move=> a; case=> [<-|[<-|[<-|[<-|[<-|[<-|[]]]]]]]; (split=> //); rewrite /=; try (apply: dg; lra).
      - apply: two_posdef; try lra; set r := sqrt _ in root *; clearbody r; nra.
      - apply: two_posdef; try lra; set r := sqrt _ in root *; clearbody r; nra. }
    have [d [hd md]] := @mix_ok J T eigvals cholesky normal_draw eig cho _ letters
      (fun mc => normal 1 1 (snd mc) (Some (fst mc))) fst snd 1 1 (Rdiv 1 6) ([::], [::]) isT isT isT sixth (fun a _ => erefl _) hc.
    have [dx dy] := mixture_dims md isT isT; have [s [es ss]] := sampler_ok dx dy hn.
    exists d, s; split=> //.
    - move: hd; rewrite /create_ai_distribution; case: (map_results _ _) => //= cs -> /=; by rewrite es.
    - have e1 : Rmult (Rdiv 1 25) (Rdiv 1 5) = Rmult (Rdiv 4 100) (Rdiv 2 10) by field.
      apply: (mixture_ext _ _ md) => [k i hk hi|k i j hk hi hj].
      + move: k hk; do 6 (case; first by (case: i hi => [|[|]] // _ _; rewrite /ai_mean /=; real_eq; field)); by [].
      + move: k hk; rewrite /ai_cov; do 6 (case; first by (case: i hi => [|[|]] // _; case: j hj => [|[|]] // _ _; rewrite /= ?e1 /entry /=;
          real_eq; field)); by [].
  Qed.

  Lemma create_waves_ok n_components n : Z.lt 0 n_components -> Z.le 1 n ->
    exists d s, [/\ create_waves_distribution T eigvals cholesky normal_draw n_components n = Ok (d, s),
      samples_from (ripple (IZR 5) (IZR 3)) d n s & normal_mixture d 2 1 (Z.to_nat n_components) ridges_mean ridges_cov].
  Proof.
    move=> h0 hn; have [d [hd md]] := ridges_ok T normal_draw eig cho h0; have [dx dy] := mixture_dims md isT isT.
    have [s [es ss]] := sampler_ok dx dy hn.
    set wave_at := fun x : list R => [:: Rplus (List.nth 0 x (IZR 0)) (Rmult 5 (sin (Rmult 3 (List.nth 1 x (IZR 0)))));
      List.nth 1 x (IZR 0)].
    have hg : forall x, List.length x = jd_dim_x d -> sway (id x) = Ok (wave_at x).
    { move=> x; rewrite (nm_dim_x md) => /plane_points [a [b ->]]; rewrite /sway /wave_at /=.
      do 2 f_equal; f_equal; real_eq; ring. }
    have [s' [es' ss']] := moved_ok dx dy ss hg.
    have hg' : forall x, List.length x = jd_dim_x d -> PaperModel.flatten (wave_at x) = Ok (ripple (IZR 5) (IZR 3) x).
    { move=> x; rewrite (nm_dim_x md) => /plane_points [a [b ->]]; rewrite /PaperModel.flatten /wave_at /ripple /=.
      set w := Rmult 5 _.
      have -> : Rminus (Rmult (Rdiv 1 10) (Rplus a w)) (Rdiv 8 10) = Rminus (Rdiv (Rplus a w) 10) (Rdiv 4 5) by field.
      by have -> : Rmult (Rdiv 5 10) b = Rdiv b 2 by field. }
    have [s2 [es2 ss2]] := moved_ok dx dy ss' hg'.
    have ec : Z.gtb n_components 0 = true by apply/Z.gtb_lt.
    exists d, s2; split=> //.
    rewrite /create_waves_distribution ec; move: hd; rewrite /ridges_distribution; case: (map_results _ _) => //= cs -> /=.
    by rewrite es /= es' /= es2.
  Qed.

  Lemma create_bad n : Z.lt n 1 ->
    [/\ create_x_distribution T eigvals cholesky normal_draw n = Err ValueError,
        create_galaxy_distribution T eigvals cholesky normal_draw expm n = Err ValueError,
        create_ai_distribution T eigvals cholesky normal_draw n = Err ValueError,
        forall k, Z.lt 0 k -> create_waves_distribution T eigvals cholesky normal_draw k n = Err ValueError
      & forall k m, Z.le k 0 -> create_waves_distribution T eigvals cholesky normal_draw k m = Err AssertionError].
  Proof.
    move=> hn; split.
    - have [d [s [+ _ _]]] := create_x_ok (Z.le_refl 1); rewrite /create_x_distribution.
      case: (map_results _ _) => //= cs; case: (mixture _ _ _) => //= d' _; by rewrite sampler_rejects.
    - rewrite /create_galaxy_distribution.
      have [d [+ _]] := balls_ok T normal_draw eig cho (IZR 3); rewrite /balls_distribution.
      have -> : (fun x : R => do covariance <- canonical_correlation [:: IZR 0] 1;
          normal 2 1 covariance (Some [:: Rdiv (Rmult x 3) 2; Rdiv (Rmult x 3) 2; Rdiv (Rmult x 3) 2])) =
        (fun x : R => do covariance <- canonical_correlation [:: IZR 0] 1;
          normal 2 1 covariance (Some [:: Rmult x (Rdiv 15 10); Rmult x (Rdiv 15 10); Rmult x (Rdiv 15 10)])).
      { apply: FunctionalExtensionality.functional_extensionality => x.
        by have -> : Rdiv (Rmult x 3) 2 = Rmult x (Rdiv 15 10) by real_eq; field. }
      case: (map_results _ _) => //= cs; case: (mixture _ _ _) => //= d' _; by rewrite sampler_rejects.
    - have [d [s [+ _ _]]] := create_ai_ok (Z.le_refl 1); rewrite /create_ai_distribution.
      case: (map_results _ _) => //= cs; case: (mixture _ _ _) => //= d' _; by rewrite sampler_rejects.
    - move=> k k0; have [d [s [+ _ _]]] := create_waves_ok k0 (Z.le_refl 1); rewrite /create_waves_distribution.
      case: (Z.gtb k 0) => //=; case: (map_results _ _) => //= cs; case: (mixture _ _ _) => //= d' _; by rewrite sampler_rejects.
    - move=> k m k0; rewrite /create_waves_distribution.
      have -> // : Z.gtb k 0 = false by rewrite Z.gtb_ltb; apply/Z.ltb_ge.
  Qed.
End Paper.

(** ** Profiles of pointwise mutual information *)
Lemma total_pos balls f : balls <> [::] -> List.Forall proper balls -> (forall b, proper b -> Rlt 0 (f b)) ->
  Rlt 0 (PaperSpec.total balls f).
Proof.
  move=> ne hp hf; apply: rsum_pos; first by case: balls ne {hp}.
  apply/List.Forall_forall => r /List.in_map_iff [b [<- hb]].
  have p := proj1 (List.Forall_forall _ _) hp b hb; apply: Rmult_lt_0_compat; [exact: (proj1 p) | exact: hf].
Qed.

Lemma ball_pmi (J : prng) (d : joint_distribution J) balls x y : balls <> [::] -> List.Forall proper balls -> ball_mixture d balls ->
  point_pmi d [:: x] [:: y] = Fin (ln (Rdiv (PaperSpec.total balls (fun b => Rmult (ball_x x b) (ball_y y b)))
    (Rmult (PaperSpec.total balls (ball_x x)) (PaperSpec.total balls (ball_y y))))).
Proof.
  move=> ne hp [_ _ hj hx hy].
  have px : Rlt 0 (PaperSpec.total balls (ball_x x)) by apply: total_pos => // b [_ [v _]]; exact: gauss_pos.
  have py : Rlt 0 (PaperSpec.total balls (ball_y y)) by apply: total_pos => // b [_ [_ v]]; exact: gauss_pos.
  have pj : Rlt 0 (PaperSpec.total balls (fun b => Rmult (ball_x x b) (ball_y y b))).
  { apply: total_pos => // b [_ [v v']]; apply: Rmult_lt_0_compat; exact: gauss_pos. }
  rewrite /point_pmi (fin_density pj (hj x y)) (fin_density px (hx x)) (fin_density py (hy y)) /fl_add /fl_sub /fl_opp; congr Fin.
  have pxy := Rmult_lt_0_compat _ _ px py.
  rewrite /Rdiv (ln_mult _ _ pj (Rinv_0_lt_compat _ pxy)) (ln_Rinv _ pxy) (ln_mult _ _ px py); real_eq; ring.
Qed.

Lemma corners_pmi (J : prng) (d : joint_distribution J) x y : ball_mixture d corners_parts -> point_pmi d [:: x] [:: y] = Fin (IZR 0).
Proof.
  move=> h; rewrite (ball_pmi x y _ _ h) //; last by repeat (constructor; first by rewrite /proper /=; lra).
  have v0 : Rlt 0 (Rdiv 1 2) by lra.
  rewrite /PaperSpec.total /rsum /= /ball_x /ball_y /=.
  move: (gauss_pos (IZR (-1)) x v0) (gauss_pos (IZR 1) x v0) (gauss_pos (IZR (-1)) y v0) (gauss_pos (IZR 1) y v0).
  set a := gauss _ _ x; set b := gauss _ _ x; set c := gauss _ _ y; set e := gauss _ _ y; clearbody a b c e => pa pb pc pe.
  congr Fin; rewrite -[RHS]ln_1; congr ln; real_eq; field.
  have p1 : Rlt 0 (Rplus a b) by lra.
  have p2 : Rlt 0 (Rplus c e) by lra.
  split; lra.
Qed.

Lemma scaled_x_pmi (J : prng) (d : joint_distribution J) v rho x y : Rlt 0 v -> Rlt (Rabs rho) 1 ->
  normal_mixture d 1 1 2 (fun _ _ => IZR 0) (fun k i j => Rmult v (x_cov rho k i j)) ->
  point_pmi d [:: x] [:: y] = Fin (
    let s := Rminus 1 (Rmult rho rho) in
    Rminus (Rminus (ln (cosh (Rdiv (Rmult rho (Rmult x y)) (Rmult v s)))) (Rdiv (ln s) 2))
           (Rdiv (Rmult (Rmult rho rho) (Rplus (Rmult x x) (Rmult y y))) (Rmult (Rmult 2 v) s))).
Proof.
  move=> v0 /less_one h [_ _ hj hx hy].
  set s := Rminus 1 (Rmult rho rho); have s0 : Rlt 0 s by rewrite /s; lra.
  set g := ln (Rmult 2 PI).
  have one : forall (M : 'M[R]_1) u, M ord0 ord0 = v -> normal_density_at (\col_i IZR 0) M (to_cv 1 [:: u]) =
    exp (Rminus (Ropp (Rdiv (Rmult u u) (Rmult 2 v))) (Rdiv (Rplus g (ln v)) 2)).
  { move=> M u eM; rewrite (@one_dim (IZR 0) v) // ?mxE // gauss_exp // Rminus_0_r //. }
  have m1 : forall k, (\matrix_(i < 1, j < 1) Rmult v (x_cov rho k i j)) ord0 ord0 = v by move=> k; rewrite mxE /x_cov eqxx Rmult_1_r.
  have m2 : forall k, (\matrix_(i < 1, j < 1) Rmult v (x_cov rho k (1 + i)%N (1 + j)%N)) ord0 ord0 = v by move=> k; rewrite mxE /x_cov eqxx Rmult_1_r.
  have av : forall f u, (forall k, f k = u) -> average 2 f = u.
  { by move=> f u e; rewrite /average /rsum /= !e; field. }
  have pair : forall k c, (k < 2)%N -> c = (if k == 0%N then Ropp rho else rho) ->
    normal_density_at (\col_(i < 1 + 1) IZR 0) (\matrix_(i < 1 + 1, j < 1 + 1) Rmult v (x_cov rho k i j)) (to_cv (1 + 1) [:: x; y]) =
    exp (Rminus (Rdiv (Rplus (Rminus (Rmult x x) (Rmult (Rmult 2 c) (Rmult x y))) (Rmult y y)) (Rmult (Rmult (-2) v) s))
                (Rplus (Rplus (Rdiv (ln s) 2) (ln v)) g)).
  { move=> k c hk ec.
    have cc : Rmult c c = Rmult rho rho.
    { rewrite ec; case: (k == 0%N) => //; real_eq; ring. }
    have -> : \matrix_(i < 1 + 1, j < 1 + 1) Rmult v (x_cov rho k i j) = sigma 1 1 [:: [:: v; Rmult v c]; [:: Rmult v c; v]].
    { apply/matrixP => i j; rewrite !mxE /x_cov -ec; case: i => -[|[|i]] hi1 //; case: j => -[|[|j]] hj1 //;
        rewrite /entry /= ?Rmult_1_r //. }
    have vs : Rminus (Rmult v v) (Rmult (Rmult v c) (Rmult v c)) = Rmult (Rmult v v) s.
    { rewrite /s -cc; real_eq; ring. }
    have vs0 : Rlt 0 (Rmult (Rmult v v) s) by apply: Rmult_lt_0_compat => //; exact: Rmult_lt_0_compat.
    have pd : posdef (sigma 1 1 [:: [:: v; Rmult v c]; [:: Rmult v c; v]]).
    { apply: two_posdef => //; lra. }
    rewrite /normal_density_at /normal_log_density; congr exp.
    have -> : to_cv (1 + 1) [:: x; y] - \col_(i < 1 + 1) IZR 0 = to_cv (1 + 1) [:: x; y].
    { by apply/matrixP => i j; rewrite !mxE; exact: Rminus_0_r. }
    have [-> _ _] := bivariate_dets v v (Rmult v c).
    rewrite vs (ln_mult _ s (Rmult_lt_0_compat _ _ v0 v0) s0) (ln_mult v v v0 v0) -/g.
    have e : sigma 1 1 [:: [:: v; Rmult v c]; [:: Rmult v c; v]] *m to_cv (1 + 1) [:: Rdiv (Rminus x (Rmult c y)) (Rmult v s); Rdiv (Rminus y (Rmult c x)) (Rmult v s)]
      = to_cv (1 + 1) [:: x; y].
    { have sc : s = Rminus 1 (Rmult c c) by rewrite cc.
      apply/matrixP => i j; rewrite !mxE !big_ord_recl big_ord0 !mxE /=.
      case: i => -[|[|i]] hi //=; rewrite /entry /= addr0.
      - change (@eq R (Rplus (Rmult v (Rdiv (Rminus x (Rmult c y)) (Rmult v s))) (Rmult (Rmult v c) (Rdiv (Rminus y (Rmult c x)) (Rmult v s)))) x).
        rewrite sc; field; rewrite -sc; lra.
      - change (@eq R (Rplus (Rmult (Rmult v c) (Rdiv (Rminus x (Rmult c y)) (Rmult v s))) (Rmult v (Rdiv (Rminus y (Rmult c x)) (Rmult v s)))) y).
        rewrite sc; field; rewrite -sc; lra. }
    rewrite (qf_inv (posdef_unit pd) e) !mxE !big_ord_recl big_ord0 !mxE /= addr0.
    set l := ln s; set l' := ln v; clearbody l l' g.
    change (@eq R (Rminus (Rmult (Ropp (Rinv 2)) (Rplus (Rmult x (Rdiv (Rminus x (Rmult c y)) (Rmult v s))) (Rmult y (Rdiv (Rminus y (Rmult c x)) (Rmult v s)))))
        (Rmult (Rinv 2) (Rplus (Rplus (Rplus l' l') l) (Rmult (Rplus 1 1) g))))
      (Rminus (Rdiv (Rplus (Rminus (Rmult x x) (Rmult (Rmult 2 c) (Rmult x y))) (Rmult y y)) (Rmult (Rmult (-2) v) s)) (Rplus (Rplus (Rdiv l 2) l') g))).
    field; lra. }
  set A := Rdiv (Rplus (Rmult x x) (Rmult y y)) (Rmult (Rmult (-2) v) s).
  set B := Rplus (Rplus (Rdiv (ln s) 2) (ln v)) g.
  set C := Rdiv (Rmult rho (Rmult x y)) (Rmult v s).
  have ej : average 2 (fun k => normal_density_at (\col_(i < 1 + 1) IZR 0) (\matrix_(i < 1 + 1, j < 1 + 1) Rmult v (x_cov rho k i j)) (to_cv (1 + 1) [:: x; y]))
    = Rmult (exp (Rminus A B)) (cosh C).
  { rewrite /average /rsum /= (pair 0%N (Ropp rho)) // (pair 1%N rho) //.
    have -> : Rminus (Rdiv (Rplus (Rminus (Rmult x x) (Rmult (Rmult 2 (Ropp rho)) (Rmult x y))) (Rmult y y)) (Rmult (Rmult (-2) v) s)) B
      = Rplus (Rminus A B) (Ropp C) by rewrite /A /C; field; lra.
    have -> : Rminus (Rdiv (Rplus (Rminus (Rmult x x) (Rmult (Rmult 2 rho) (Rmult x y))) (Rmult y y)) (Rmult (Rmult (-2) v) s)) B
      = Rplus (Rminus A B) C by rewrite /A /C; field; lra.
    rewrite !exp_plus /cosh; field. }
  have c0 : Rlt 0 (cosh C) by rewrite /cosh; have := exp_pos C; have := exp_pos (Ropp C); lra.
  have lj : log_prob (dist_joint d) [:: x; y] = Fin (Rplus (Rminus A B) (ln (cosh C))).
  { rewrite (@fin_density J _ _ (Rmult (exp (Rminus A B)) (cosh C))).
    - congr Fin; rewrite (ln_mult _ _ (exp_pos _) c0); by rewrite ln_exp.
    - apply: Rmult_lt_0_compat => //; exact: exp_pos.
    - rewrite -ej; exact: (hj [:: x; y] erefl). }
  have lx : log_prob (dist_x d) [:: x] = Fin (Rminus (Ropp (Rdiv (Rmult x x) (Rmult 2 v))) (Rdiv (Rplus g (ln v)) 2)).
  { rewrite (fin_density _ (density_eq (hx [:: x] erefl) (av _ _ (fun k => one _ x (m1 k))))); [by rewrite ln_exp | exact: exp_pos]. }
  have ly : log_prob (dist_y d) [:: y] = Fin (Rminus (Ropp (Rdiv (Rmult y y) (Rmult 2 v))) (Rdiv (Rplus g (ln v)) 2)).
  { rewrite (fin_density _ (density_eq (hy [:: y] erefl) (av _ _ (fun k => one _ y (m2 k))))); [by rewrite ln_exp | exact: exp_pos]. }
  rewrite /point_pmi lj lx ly /fl_add /fl_sub /fl_opp; congr Fin; rewrite -/C -/s /A /B.
  have -> : Rmult rho rho = Rminus 1 s by rewrite /s; ring.
  set l := ln s; set lc := ln (cosh C); set lv := ln v; clearbody l lc lv; field; lra.
Qed.

Lemma small_swirl_bijection speed c : c <> IZR 0 -> plane_bijection (fun x => List.map (Rmult c) (swirl speed x)).
Proof.
  move=> c0 y ly; have [|x [lx ex ux]] := @swirl_bijection speed (List.map (Rmult (Rinv c)) y); first by rewrite List.map_length.
  have cc : forall r, Rmult c (Rmult (Rinv c) r) = r by move=> r; real_eq; field.
  have cc' : forall r, Rmult (Rinv c) (Rmult c r) = r by move=> r; real_eq; field.
  exists x; split=> //.
  - rewrite ex List.map_map (List.map_ext _ id cc); exact: List.map_id.
  - move=> x' lx' e; apply: ux => //; rewrite -e List.map_map (List.map_ext _ id cc'); by rewrite List.map_id.
Qed.

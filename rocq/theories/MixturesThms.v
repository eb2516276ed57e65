(** The tasks built from mixtures. *)
From Coq Require Import String.
From Verif Require Import Base UtilsModel JaxModel SamplersModel GaussianModel MatrixUtilsModel TransformsModel BmmModel
  MultivariateModel GmmModel BenchmarkModel TasksModel MixturesModel BaseLemmas SamplersProofs BmmSpec BmmProofs
  MatrixUtilsSpec MatrixUtilsProofs LvmProofs TransformsSpec RotateProofs.
From mathcomp Require Import all_ssreflect ssralg matrix mxalgebra.
From Verif Require Import RStruct PosDef MatrixBridge GaussianSpec GaussianProofs ExpectationProofs GaussianThms
  MatrixUtilsThms MultivariateSpec MultivariateProofs MultivariateThms GmmMixSpec GmmThms MixturesSpec EigvalsExist
  MixturesProofs.
Set Implicit Arguments.
Unset Strict Implicit.
Unset Printing Implicit Defensive.
Import GRing.Theory.
Local Open Scope ring_scope.

(** ** Matrices *)

Lemma diagonal_shape v n : List.length v = n -> has_shape (diagonal v) n n.
Proof.
  move=> <-; apply/has_shapeP; rewrite /diagonal List.map_length List.seq_length; split=> //.
  by apply/List.Forall_forall => r /List.in_map_iff [i [<- _]]; rewrite List.map_length List.seq_length.
Qed.

Lemma diagonal_entry v i j : (i < List.length v)%coq_nat -> (j < List.length v)%coq_nat ->
  entry (diagonal v) i j = if PeanoNat.Nat.eqb i j then List.nth i v (IZR 0) else IZR 0.
Proof.
  move=> hi hj; rewrite /entry /diagonal.
  rewrite (List.nth_indep _ nil (List.map (fun j => if PeanoNat.Nat.eqb 0 j then List.nth 0 v (IZR 0) else IZR 0) (List.seq 0 (List.length v))));
    last by rewrite List.map_length List.seq_length.
  rewrite (List.map_nth (fun i => List.map (fun j => if PeanoNat.Nat.eqb i j then List.nth i v (IZR 0) else IZR 0) (List.seq 0 (List.length v)))).
  rewrite List.seq_nth //=.
  rewrite (List.nth_indep _ (IZR 0) (if PeanoNat.Nat.eqb i 0 then List.nth i v (IZR 0) else IZR 0));
    last by rewrite List.map_length List.seq_length.
  by rewrite (List.map_nth (fun j => if PeanoNat.Nat.eqb i j then List.nth i v (IZR 0) else IZR 0)) List.seq_nth.
Qed.

Lemma diagonal_posdef m n v : List.length v = (m + n)%N -> List.Forall (fun r => Rlt 0 r) v ->
  posdef (sigma m n (diagonal v)).
Proof.
  move=> l h.
  have -> : sigma m n (diagonal v) = diag_mx (\row_i List.nth i v (IZR 0)).
  { apply/matrixP => i j; rewrite !mxE diagonal_entry; try (rewrite l; apply/ltP; exact: ltn_ord).
    case: (PeanoNat.Nat.eqb_spec i j) => [/val_inj ->|e]; first by rewrite eqxx.
    by case: eqP => // e'; case: e; rewrite e'. }
  apply/posdef_diag => i; rewrite mxE; move/List.Forall_forall: h; apply; apply: List.nth_In; rewrite l; apply/ltP; exact: ltn_ord.
Qed.

(** [a], [b] on the diagonal and [c] elsewhere. *)
Lemma two_posdef a b c : Rlt 0 a -> Rlt 0 b -> Rlt (Rmult c c) (Rmult a b) ->
  posdef (sigma 1 1 [:: [:: a; c]; [:: c; b]]).
Proof.
  move=> ha hb hc; split; first exact: bivariate_sym.
  move=> x nz; rewrite bivariate_qf.
  have nz' : x ord0 ord0 <> 0 \/ x ord_max ord0 <> 0.
  { case: (Req_EM_T (x ord0 ord0) 0) => e1; [case: (Req_EM_T (x ord_max ord0) 0) => e2; [|by right] | by left].
    case/eqP: nz; apply/matrixP => i j; rewrite (ord1 j) [RHS]mxE.
    case: i => [[|[|i]] hi] //.
    - by rewrite (_ : Ordinal hi = ord0) //; apply/val_inj.
    - by rewrite (_ : Ordinal hi = ord_max) //; apply/val_inj. }
  move: nz'; set u := x ord0 ord0; set v := x ord_max ord0; clearbody u v.
  change (GRing.zero R_zmodType) with (IZR Z0) => nz'.
  apply: (Rmult_lt_reg_l a) => //; rewrite Rmult_0_r.
  have -> : Rmult a (Rplus (Rmult a (Rmult u u)) (Rplus (Rmult (Rmult 2 c) (Rmult u v)) (Rmult b (Rmult v v)))) =
    Rplus (Rsqr (Rplus (Rmult a u) (Rmult c v))) (Rmult (Rminus (Rmult a b) (Rmult c c)) (Rsqr v)).
  { rewrite /Rsqr; lazymatch goal with |- ?l = ?r => change (@eq R l r) end; ring. }
  case: (Req_EM_T v 0) => [v0|v0].
  - have u0 : u <> 0 by case: nz'.
    rewrite v0 Rmult_0_r Rplus_0_r Rsqr_0 Rmult_0_r Rplus_0_r; apply: Rsqr_pos_lt.
    apply: Rmult_integral_contrapositive_currified => //; exact: Rgt_not_eq.
  - apply: Rplus_le_lt_0_compat; first exact: Rle_0_sqr.
    apply: Rmult_lt_0_compat; [lra | exact: Rsqr_pos_lt].
Qed.

(** ** Maps of the plane *)

Lemma plane_points (x : list R) : List.length x = 2%N -> exists a b, x = [:: a; b].
Proof. case: x => [|a [|b [|]]] // _; by exists a, b. Qed.

Lemma swirl_back speed x : List.length x = 2%N -> swirl (Ropp speed) (swirl speed x) = x.
Proof.
  move=> /plane_points [a [b ->]]; rewrite /swirl /=.
  set t := Rmult speed _; have q := sin2_cos2 t; rewrite /Rsqr in q.
  set u := Rminus (Rmult a _) _; set v := Rplus (Rmult a (sin t)) (Rmult b (cos t)).
  have e : Rplus (Rmult u u) (Rmult v v) = Rplus (Rmult a a) (Rmult b b).
  { transitivity (Rmult (Rplus (Rmult a a) (Rmult b b)) (Rplus (Rmult (sin t) (sin t)) (Rmult (cos t) (cos t)))).
    - rewrite /u /v; lazymatch goal with |- ?l = ?r => change (@eq R l r) end; ring.
    - by rewrite q Rmult_1_r. }
  have -> : Rmult (Ropp speed) (Rplus (Rmult u u) (Rmult v v)) = Ropp t by rewrite e Ropp_mult_distr_l_reverse.
  rewrite sin_neg cos_neg.
  have -> : Rminus (Rmult u (cos t)) (Rmult v (Ropp (sin t))) = a.
  { transitivity (Rmult a (Rplus (Rmult (sin t) (sin t)) (Rmult (cos t) (cos t)))); last by rewrite q Rmult_1_r.
    rewrite /u /v; lazymatch goal with |- ?l = ?r => change (@eq R l r) end; ring. }
  have -> // : Rplus (Rmult u (Ropp (sin t))) (Rmult v (cos t)) = b.
  transitivity (Rmult b (Rplus (Rmult (sin t) (sin t)) (Rmult (cos t) (cos t)))); last by rewrite q Rmult_1_r.
  rewrite /u /v; lazymatch goal with |- ?l = ?r => change (@eq R l r) end; ring.
Qed.

Lemma swirl_bijection speed : plane_bijection (swirl speed).
Proof.
  move=> y ly; exists (swirl (Ropp speed) y); split=> //.
  - by rewrite -{1}(Ropp_involutive speed) swirl_back.
  - by move=> x lx <-; rewrite swirl_back.
Qed.

Lemma ripple_bijection amplitude frequency : plane_bijection (ripple amplitude frequency).
Proof.
  move=> y /plane_points [u [v ->]].
  exists [:: Rminus (Rmult 10 (Rplus u (Rdiv 4 5))) (Rmult amplitude (sin (Rmult frequency (Rmult 2 v)))); Rmult 2 v]; split=> //.
  - rewrite /ripple /=; set w := Rmult amplitude _.
    have -> : Rminus (Rdiv (Rplus (Rminus (Rmult 10 (Rplus u (Rdiv 4 5))) w) w) 10) (Rdiv 4 5) = u by field.
    by have -> : Rdiv (Rmult 2 v) 2 = v by field.
  - move=> x' /plane_points [a [b ->]]; rewrite /ripple /= => -[<- <-].
    have -> : Rmult 2 (Rdiv b 2) = b by field.
    set w := Rmult amplitude _.
    by have -> : Rminus (Rmult 10 (Rplus (Rminus (Rdiv (Rplus a w) 10) (Rdiv 4 5)) (Rdiv 4 5))) w = a by field.
Qed.

Section Tasks.
  Context {J : prng}.
  Variable F : formats.
  Variable T : tfp_draws J.
  Variable eigvals : UtilsModel.matrix -> list (R * R).
  Variable cholesky : UtilsModel.matrix -> option UtilsModel.matrix.
  Variable normal_draw : list R -> option UtilsModel.matrix -> key J -> nat -> UtilsModel.matrix.
  Variable expm : expm_function.
  Hypothesis eig : eigvals_symmetric eigvals.
  Hypothesis cho : factorises cholesky.
  Local Notation normal := (normal_distribution eigvals cholesky normal_draw).

  Lemma mixture_dims d m n K mean cov : normal_mixture (J := J) d m n K mean cov -> (0 < m)%N -> (0 < n)%N ->
    (0 < jd_dim_x d)%N /\ (0 < jd_dim_y d)%N.
  Proof. by move=> [-> -> _ _ _]. Qed.

  (** *** X *)

  Lemma x_components r : canonical_correlation [:: r] 0 = Ok [:: [:: IZR 1; r]; [:: r; IZR 1]].
  Proof. reflexivity. Qed.

  Lemma ball_components : canonical_correlation [:: IZR 0] 1 = Ok (diagonal [:: IZR 1; IZR 1; IZR 1]).
  Proof. reflexivity. Qed.

  Lemma one_not_less r : ~ Rlt (Rabs r) 1 -> Rle 1 (Rmult r r).
  Proof. move=> /Rnot_lt_le h; rewrite -(Rabs_pos_eq (Rmult r r)); [rewrite Rabs_mult; nra | nra]. Qed.

  Lemma less_one r : Rlt (Rabs r) 1 -> Rlt (Rmult r r) 1.
  Proof. move=> /Rabs_def2 [h1 h2]; nra. Qed.

  Lemma x_ok rho : Rlt (Rabs rho) 1 -> exists d, x_distribution T eigvals cholesky normal_draw rho = Ok d /\
    normal_mixture d 1 1 2 (fun _ _ => IZR 0) (x_cov rho).
  Proof.
    move=> /less_one h.
    have half : Rlt 0 (Rdiv 1 2) by lra.
    set C := fun x : R => [:: [:: IZR 1; Rmult x rho]; [:: Rmult x rho; IZR 1]].
    have hc : forall a, List.In a [:: IZR (-1); IZR 1] ->
      [/\ List.length [:: IZR 0; IZR 0] = (1 + 1)%N, has_shape (C a) (1 + 1) (1 + 1) & posdef (sigma 1 1 (C a))].
    { move=> a ha; split=> //; apply: two_posdef; try lra.
      have -> : Rmult (Rmult a rho) (Rmult a rho) = Rmult rho rho.
      { case: ha => [<-|[<-|[]]]; lazymatch goal with |- ?l = ?r => change (@eq R l r) end; ring. }
      lra. }
    have [d [hd md]] := @mix_ok J T eigvals cholesky normal_draw eig cho R [:: IZR (-1); IZR 1]
      (fun x => do c <- canonical_correlation [:: Rmult x rho] 0; normal 1 1 c (Some [:: IZR 0; IZR 0]))
      (fun=> [:: IZR 0; IZR 0]) C 1 1 (Rdiv 1 2) (IZR 0) isT isT isT half (fun a _ => erefl _) hc.
    exists d; split=> //.
    apply: (mixture_ext _ _ md) => [k i _ hi|k i j hk hi hj]; first by case: i hi => [|[|]].
    rewrite /x_cov; case: k hk => [|[|]] // _; case: i hi => [|[|]] // _; case: j hj => [|[|]] // _; rewrite /entry /=;
      lazymatch goal with |- ?l = ?r => change (@eq R l r) end; ring.
  Qed.

  Lemma x_bad rho : ~ Rlt (Rabs rho) 1 -> x_distribution T eigvals cholesky normal_draw rho = Err ValueError.
  Proof.
    move=> /one_not_less h; apply: mix_rejects.
    - move=> a e _; rewrite x_components /=; exact: normal_errors.
    - exists (IZR 1); rewrite x_components /=.
      set C := [:: [:: _; _]; _].
      case en: (normal 1 1 C (Some [:: IZR 0; IZR 0])) => [d|e]; last by exists e; split=> //; right; left.
      have sy : (sigma 1 1 C)^T = sigma 1 1 C by exact: bivariate_sym.
      have ex : eigvals_exact eigvals 1 1 C by apply: eigvals_symmetric_exact.
      have [_ _ pd] := proj1 (@normal_accepts J eigvals cholesky normal_draw 1 1 C (Some [:: IZR 0; IZR 0]) isT isT sy ex)
        (ex_intro _ d en).
      exfalso; move: pd => [_ pd].
      have [e _ _] := bivariate_dets (IZR 1) (IZR 1) (Rmult 1 rho).
      have := det_posdef (conj sy pd); rewrite e; lra.
  Qed.

  Lemma dread_new h (p : sdict py) : dread (List.app h [:: p]) (List.length h) = p.
  Proof. by rewrite /dread List.app_nth2 // PeanoNat.Nat.sub_diag. Qed.

  Lemma x_task rho n h : Rlt (Rabs rho) 1 -> Z.le 1 n ->
    let params := [:: ("gaussian_correlation"%string, PFloat (Fin rho))] in
    exists d t, [/\ task_x F T eigvals cholesky normal_draw rho n h = (List.app h [:: params], Ok t),
      described t (List.app h [:: params]) ("1v1-X-" ++ float_repr F rho)%string "X 1 × 1"%string params,
      samples_from id d n (t_sampler t) & normal_mixture d 1 1 2 (fun _ _ => IZR 0) (x_cov rho)].
  Proof.
    move=> hr hn params; have [d [hd md]] := x_ok hr; have [dx dy] := mixture_dims md isT isT.
    have [s [es ss]] := sampler_ok dx dy hn.
    exists d; eexists; split=> //.
    - by rewrite /task_x /pbind /BenchmarkModel.lift hd /= es.
    - split=> //; split=> //; eexists; split; [reflexivity | exact: dread_new].
    - by [].
  Qed.

  Lemma x_task_bad rho n h : ~ (Rlt (Rabs rho) 1 /\ Z.le 1 n) ->
    task_x F T eigvals cholesky normal_draw rho n h = (h, Err ValueError).
  Proof.
    move=> hb; rewrite /task_x /pbind /BenchmarkModel.lift.
    case: (Rlt_dec (Rabs rho) 1) => hr; last by rewrite x_bad.
    have [d [-> _]] := x_ok hr; rewrite /= sampler_rejects //; case: (Z_lt_le_dec n 1) => // hn; by case: hb.
  Qed.

  (** *** AI *)

  Lemma ai_ok : exists d, ai_distribution T eigvals cholesky normal_draw = Ok d /\ normal_mixture d 1 1 6 ai_mean ai_cov.
  Proof.
    have sixth : Rlt 0 (Rdiv 1 6) by lra.
    have root : Rmult (sqrt (Rmult (Rdiv 4 100) (Rdiv 2 10))) (sqrt (Rmult (Rdiv 4 100) (Rdiv 2 10))) = Rmult (Rdiv 4 100) (Rdiv 2 10).
    { apply: sqrt_sqrt; lra. }
    have hc : forall a, List.In a ai_components ->
      [/\ List.length a.1 = (1 + 1)%N, has_shape a.2 (1 + 1) (1 + 1) & posdef (sigma 1 1 a.2)].
    { have dg : forall u v, Rlt 0 u -> Rlt 0 v -> posdef (sigma 1 1 (diagonal [:: u; v])).
      { move=> u v hu hv; apply: diagonal_posdef => //; by do 2 constructor=> //. }
      move=> a; case=> [<-|[<-|[<-|[<-|[<-|[<-|[]]]]]]]; (split=> //); rewrite /=; try (apply: dg; lra).
      - apply: two_posdef; try lra; set r := sqrt _ in root *; clearbody r; nra.
      - apply: two_posdef; try lra; set r := sqrt _ in root *; clearbody r; nra. }
    have [d [hd md]] := @mix_ok J T eigvals cholesky normal_draw eig cho _ ai_components
      (fun mc => normal 1 1 (snd mc) (Some (fst mc))) fst snd 1 1 (Rdiv 1 6) ([::], [::]) isT isT isT sixth (fun a _ => erefl _) hc.
    exists d; split=> //.
    have e1 : Rmult (Rdiv 1 25) (Rdiv 1 5) = Rmult (Rdiv 4 100) (Rdiv 2 10) by field.
    apply: (mixture_ext _ _ md) => [k i hk hi|k i j hk hi hj].
    - move: k hk; do 6 (case; first by (case: i hi => [|[|]] // _ _; rewrite /ai_mean /=;
        lazymatch goal with |- ?l = ?r => change (@eq R l r) end; field)); by [].
    - move: k hk; rewrite /ai_cov; do 6 (case; first by (case: i hi => [|[|]] // _; case: j hj => [|[|]] // _ _; rewrite /= ?e1 /entry /=;
        lazymatch goal with |- ?l = ?r => change (@eq R l r) end; field)); by [].
  Qed.

  Lemma ai_task n h : Z.le 1 n ->
    exists d t, [/\ task_ai T eigvals cholesky normal_draw n h = (h, Ok t),
      t_id t = "1v1-AI"%string /\ t_name t = "AI 1 × 1"%string /\ t_params t = None,
      samples_from id d n (t_sampler t) & normal_mixture d 1 1 6 ai_mean ai_cov].
  Proof.
    move=> hn; have [d [hd md]] := ai_ok; have [dx dy] := mixture_dims md isT isT.
    have [s [es ss]] := sampler_ok dx dy hn.
    by exists d; eexists; split=> //; rewrite /task_ai /pbind /BenchmarkModel.lift ?hd /= ?es.
  Qed.

  Lemma ai_task_bad n h : Z.lt n 1 -> task_ai T eigvals cholesky normal_draw n h = (h, Err ValueError).
  Proof. move=> hn; rewrite /task_ai /pbind /BenchmarkModel.lift; have [d [-> _]] := ai_ok; by rewrite /= sampler_rejects. Qed.

  (** *** Galaxy *)

  Lemma balls_ok distance : exists d, balls_distribution T eigvals cholesky normal_draw distance = Ok d /\
    normal_mixture d 2 1 2 (balls_mean distance) unit_cov.
  Proof.
    have half : Rlt 0 (Rdiv 1 2) by lra.
    set mu := fun x : R => [:: Rdiv (Rmult x distance) 2; Rdiv (Rmult x distance) 2; Rdiv (Rmult x distance) 2].
    have hc : forall a, List.In a [:: IZR (-1); IZR 1] ->
      [/\ List.length (mu a) = (2 + 1)%N, has_shape (diagonal [:: IZR 1; IZR 1; IZR 1]) (2 + 1) (2 + 1)
        & posdef (sigma 2 1 (diagonal [:: IZR 1; IZR 1; IZR 1]))].
    { move=> a _; split=> //; apply: diagonal_posdef => //; do 3 (constructor; first lra); constructor. }
    have [d [hd md]] := @mix_ok J T eigvals cholesky normal_draw eig cho R [:: IZR (-1); IZR 1]
      (fun x => do c <- canonical_correlation [:: IZR 0] 1; normal 2 1 c (Some (mu x)))
      mu (fun=> diagonal [:: IZR 1; IZR 1; IZR 1]) 2 1 (Rdiv 1 2) (IZR 0) isT isT isT half (fun a _ => erefl _) hc.
    exists d; split=> //.
    apply: (mixture_ext _ _ md) => [k i hk hi|k i j _ hi hj].
    - rewrite /balls_mean; move: k hk; do 2 (case; first by (case: i hi => [|[|[|]]] // _ _; rewrite /=;
        lazymatch goal with |- ?l = ?r => change (@eq R l r) end; field)); by [].
    - by case: i hi => [|[|[|]]] // _; case: j hj => [|[|[|]]].
  Qed.

  Lemma galaxy_task speed distance n h : is_expm expm -> Z.le 1 n ->
    let params := [:: ("speed"%string, PFloat (Fin speed)); ("distance"%string, PFloat (Fin distance))] in
    exists d t, [/\ task_galaxy F T eigvals cholesky normal_draw expm speed distance n h = (List.app h [:: params], Ok t),
      described t (List.app h [:: params]) ("2v1-galaxy-" ++ float_repr F speed ++ "-" ++ float_repr F distance)%string
        "Galaxy 2 × 1"%string params,
      samples_from (swirl speed) d n (t_sampler t) & normal_mixture d 2 1 2 (balls_mean distance) unit_cov].
  Proof.
    move=> he hn params; have [d [hd md]] := balls_ok distance; have [dx dy] := mixture_dims md isT isT.
    have [s [es ss]] := sampler_ok dx dy hn.
    have [sp [ei _]] := plane_spiral expm speed (IZR 0) (IZR 0) he.
    have hg : forall x, List.length x = jd_dim_x d -> spiral_call expm sp (id x) = Ok (swirl speed x).
    { move=> x; rewrite (nm_dim_x md) => /plane_points [a [b ->]].
      have [sp' [ei' e]] := plane_spiral expm speed a b he.
      have <- : sp' = sp by move: ei'; rewrite ei; case.
      exact: e. }
    have [s' [es' ss']] := moved_ok dx dy ss hg.
    exists d; eexists; split=> //.
    - rewrite /task_galaxy /pbind /BenchmarkModel.lift hd; cbv beta iota; rewrite es; cbv beta iota; rewrite ei; cbv beta iota; by rewrite es'.
    - split=> //; split=> //; eexists; split; [reflexivity | exact: dread_new].
    - by [].
  Qed.

  Lemma galaxy_task_bad speed distance n h : Z.lt n 1 ->
    task_galaxy F T eigvals cholesky normal_draw expm speed distance n h = (h, Err ValueError).
  Proof.
    move=> hn; rewrite /task_galaxy /pbind /BenchmarkModel.lift; have [d [-> _]] := balls_ok distance; by rewrite /= sampler_rejects.
  Qed.

  (** *** Waves *)

  Lemma ridges_ok n_components : Z.lt 0 n_components ->
    exists d, ridges_distribution T eigvals cholesky normal_draw n_components = Ok d /\
      normal_mixture d 2 1 (Z.to_nat n_components) ridges_mean ridges_cov.
  Proof.
    move=> h0; set K := Z.to_nat n_components.
    have w0 : Rlt 0 (Rdiv 1 (IZR n_components)) by apply: Rdiv_lt_0_compat; [lra | exact: (IZR_lt 0)].
    set xs := List.map Z.of_nat (List.seq 0 K).
    have lx : List.length xs = K by rewrite List.map_length List.seq_length.
    have K0 : (0 < List.length xs)%N by rewrite lx; apply/ltP; rewrite /K; lia.
    set mu := fun x : Z => [:: Rmult (IZR x) (Rdiv 15 10); Rmult 0 (Rdiv 15 10); Rmult (IZR (Z.modulo x 4)) (Rdiv 15 10)].
    set C := diagonal [:: Rdiv 1 10; IZR 1; Rdiv 1 10].
    have hc : forall a, List.In a xs ->
      [/\ List.length (mu a) = (2 + 1)%N, has_shape C (2 + 1) (2 + 1) & posdef (sigma 2 1 C)].
    { move=> a _; split=> //; apply: diagonal_posdef => //; do 3 (constructor; first lra); constructor. }
    have [d [hd md]] := @mix_ok J T eigvals cholesky normal_draw eig cho _ xs
      (fun x => normal 2 1 C (Some (mu x))) mu (fun=> C) 2 1 _ 0%Z isT isT K0 w0 (fun a _ => erefl _) hc.
    exists d; split; first by move: hd; rewrite lx.
    rewrite lx in md.
    apply: (mixture_ext _ _ md) => [k i hk hi|k i j _ hi hj].
    - have -> : List.nth k xs 0%Z = Z.of_nat k.
      { rewrite /xs (List.map_nth Z.of_nat (List.seq 0 K) 0%N) List.seq_nth //; exact/ltP. }
      rewrite /mu /ridges_mean.
      have -> : Z.modulo (Z.of_nat k) 4 = Z.of_nat (Nat.modulo k 4) by rewrite Znat.Nat2Z.inj_mod.
      rewrite -!INR_IZR_INZ; set m4 := INR (Nat.modulo _ _).
      by case: i hi => [|[|[|]]] // _; rewrite /=; lazymatch goal with |- ?l = ?r => change (@eq R l r) end; field.
    - by case: i hi => [|[|[|]]] // _; case: j hj => [|[|[|]]].
  Qed.

  Lemma waves_task n_components amplitude frequency n h : Z.lt 0 n_components -> Z.le 1 n ->
    let params := [:: ("n_components"%string, PInt n_components); ("wave_amplitude"%string, PFloat (Fin amplitude));
                      ("wave_frequency"%string, PFloat (Fin frequency))] in
    exists d t, [/\ task_waves F T eigvals cholesky normal_draw n_components amplitude frequency n h = (List.app h [:: params], Ok t),
      described t (List.app h [:: params])
        ("2v1-waves-" ++ int_str n_components ++ "-" ++ float_repr F amplitude ++ "-" ++ float_repr F frequency)%string
        "Waves 2 × 1"%string params,
      samples_from (ripple amplitude frequency) d n (t_sampler t)
    & normal_mixture d 2 1 (Z.to_nat n_components) ridges_mean ridges_cov].
  Proof.
    move=> h0 hn params; have [d [hd md]] := ridges_ok h0; have [dx dy] := mixture_dims md isT isT.
    have [s [es ss]] := sampler_ok dx dy hn.
    set wave_at := fun x : list R => [:: Rplus (List.nth 0 x (IZR 0)) (Rmult amplitude (sin (Rmult frequency (List.nth 1 x (IZR 0)))));
      List.nth 1 x (IZR 0)].
    have hg : forall x, List.length x = jd_dim_x d -> wave amplitude frequency (id x) = Ok (wave_at x).
    { move=> x; rewrite (nm_dim_x md) => /plane_points [a [b ->]]; rewrite /wave /wave_at /=.
      do 2 f_equal; f_equal; lazymatch goal with |- ?l = ?r => change (@eq R l r) end; ring. }
    have [s' [es' ss']] := moved_ok dx dy ss hg.
    have hg' : forall x, List.length x = jd_dim_x d -> squeeze (wave_at x) = Ok (ripple amplitude frequency x).
    { move=> x; rewrite (nm_dim_x md) => /plane_points [a [b ->]]; rewrite /squeeze /wave_at /ripple /=.
      set w := Rmult amplitude _.
      have -> : Rminus (Rmult (Rdiv 1 10) (Rplus a w)) (Rdiv 8 10) = Rminus (Rdiv (Rplus a w) 10) (Rdiv 4 5) by field.
      by have -> : Rmult (Rdiv 5 10) b = Rdiv b 2 by field. }
    have [s2 [es2 ss2]] := moved_ok dx dy ss' hg'.
    have ec : Z.gtb n_components 0 = true by apply/Z.gtb_lt.
    exists d; eexists; split=> //.
    - by rewrite /task_waves /pbind /BenchmarkModel.lift ec /= hd /= es /= es' /= es2.
    - split=> //; split=> //; eexists; split; [reflexivity | exact: dread_new].
    - by [].
  Qed.

  Lemma waves_task_bad n_components amplitude frequency n h :
    (Z.le n_components 0 -> task_waves F T eigvals cholesky normal_draw n_components amplitude frequency n h = (h, Err AssertionError)) /\
    (Z.lt 0 n_components -> Z.lt n 1 ->
     task_waves F T eigvals cholesky normal_draw n_components amplitude frequency n h = (h, Err ValueError)).
  Proof.
    split=> [h0|h0 hn]; rewrite /task_waves /pbind /BenchmarkModel.lift.
    - have -> // : Z.gtb n_components 0 = false by rewrite Z.gtb_ltb; apply/Z.ltb_ge.
    - have -> : Z.gtb n_components 0 = true by apply/Z.gtb_lt.
      have [d [-> _]] := ridges_ok h0; by rewrite /= sampler_rejects.
  Qed.

  (** *** Concentric *)

  Lemma rings_ok m n_components : (0 < m)%N -> Z.lt 0 n_components ->
    exists d, concentric_distribution T eigvals cholesky normal_draw (Z.of_nat m) n_components = Ok d /\
      normal_mixture d m 1 (Z.to_nat n_components) (rings_mean m) (rings_cov m).
  Proof.
    move=> m0 h0; set K := Z.to_nat n_components.
    have w0 : Rlt 0 (Rdiv 1 (IZR n_components)) by apply: Rdiv_lt_0_compat; [lra | exact: (IZR_lt 0)].
    set xs := List.seq 1 K.
    have lx : List.length xs = K by rewrite List.seq_length.
    have K0 : (0 < List.length xs)%N by rewrite lx; apply/ltP; rewrite /K; lia.
    set mu := fun i : nat => List.app (List.repeat (IZR 0) m) [:: Rmult 1 (INR i)].
    set v := fun i : nat => List.app (List.repeat (pow (INR i) 2) m) [:: Rdiv 1 10000].
    have lv : forall i, List.length (v i) = (m + 1)%N by move=> i; rewrite /v List.app_length List.repeat_length.
    have hc : forall a, List.In a xs ->
      [/\ List.length (mu a) = (m + 1)%N, has_shape (diagonal (v a)) (m + 1) (m + 1) & posdef (sigma m 1 (diagonal (v a)))].
    { move=> a /List.in_seq [a1 _]; split; [by rewrite /mu List.app_length List.repeat_length | exact: diagonal_shape |].
      apply: diagonal_posdef => //; apply/List.Forall_app; split; last by constructor; [lra | constructor].
      apply/List.Forall_forall => r /(@List.repeat_spec _ _ _ _) ->; apply: pow_lt; apply: lt_0_INR; lia. }
    have [d [hd md]] := @mix_ok J T eigvals cholesky normal_draw eig cho _ xs
      (fun x => normal (Z.of_nat m) 1 (diagonal (v x)) (Some (mu x))) mu (fun a => diagonal (v a)) m 1 _ 0%N m0 isT K0 w0 (fun a _ => erefl _) hc.
    exists d; split; first by move: hd; rewrite lx /concentric_distribution !Znat.Nat2Z.id.
    rewrite lx in md.
    have last : forall (a b : R) i, (i < m + 1)%N -> List.nth i (List.app (List.repeat a m) [:: b]) (IZR 0) = if (i < m)%N then a else b.
    { move=> a b i hi; case: ltnP => him.
      - rewrite List.app_nth1 ?List.repeat_length; last exact/ltP.
        rewrite (List.nth_indep _ _ a) ?List.repeat_length; [exact: List.nth_repeat | exact/ltP].
      - have -> : i = m by apply/eqP; rewrite eqn_leq him andbT; move: hi; rewrite addn1 ltnS.
        by rewrite List.app_nth2 List.repeat_length // PeanoNat.Nat.sub_diag. }
    apply: (mixture_ext _ _ md) => [k i hk hi|k i j hk hi hj]; rewrite List.seq_nth; try (exact/ltP).
    - by rewrite /mu /rings_mean last // Rmult_1_l.
    - rewrite /rings_cov diagonal_entry ?lv; try (exact/ltP).
      case: (PeanoNat.Nat.eqb_spec i j) => [->|e]; last by case: eqP.
      by rewrite eqxx /v last.
  Qed.

  Lemma rings_bad dim_x n_components : Z.lt dim_x 1 -> Z.lt 0 n_components ->
    concentric_distribution T eigvals cholesky normal_draw dim_x n_components = Err ValueError.
  Proof.
    move=> hd h0; apply: mix_rejects => [a e _|]; first exact: normal_errors.
    exists 1%N.
    set C := diagonal _; set mu := Some _.
    case en: (normal dim_x 1 C mu) => [d|e]; last by exists e; split=> //; apply/List.in_seq; split=> //; lia.
    have [_ _ h _ _] := normal_dims en; exfalso; lia.
  Qed.

  Lemma concentric_task m n_components n h : (0 < m)%N -> Z.lt 0 n_components -> Z.le 1 n ->
    let params := [:: ("n_components"%string, PInt n_components)] in
    exists d t, [/\ task_concentric_multinormal T eigvals cholesky normal_draw (Z.of_nat m) n_components n h = (List.app h [:: params], Ok t),
      described t (List.app h [:: params]) (int_str (Z.of_nat m) ++ "v1-concentric_gaussians-" ++ int_str n_components)%string
        ("Concentric " ++ int_str (Z.of_nat m) ++ " × 1")%string params,
      samples_from id d n (t_sampler t)
    & normal_mixture d m 1 (Z.to_nat n_components) (rings_mean m) (rings_cov m)].
  Proof.
    move=> m0 h0 hn params; have [d [hd md]] := rings_ok m0 h0; have [dx dy] := mixture_dims md m0 isT.
    have [s [es ss]] := sampler_ok dx dy hn.
    have ec : Z.gtb n_components 0 = true by apply/Z.gtb_lt.
    exists d; eexists; split=> //.
    - by rewrite /task_concentric_multinormal /pbind /BenchmarkModel.lift ec /= hd /= es.
    - split=> //; split=> //; eexists; split; [reflexivity | exact: dread_new].
    - by [].
  Qed.

  Lemma concentric_task_bad dim_x n_components n h :
    (Z.le n_components 0 -> task_concentric_multinormal T eigvals cholesky normal_draw dim_x n_components n h = (h, Err AssertionError)) /\
    (Z.lt 0 n_components -> ~ (Z.le 1 dim_x /\ Z.le 1 n) ->
     task_concentric_multinormal T eigvals cholesky normal_draw dim_x n_components n h = (h, Err ValueError)).
  Proof.
    split=> [h0|h0 hb]; rewrite /task_concentric_multinormal /pbind /BenchmarkModel.lift.
    - have -> // : Z.gtb n_components 0 = false by rewrite Z.gtb_ltb; apply/Z.ltb_ge.
    - have -> : Z.gtb n_components 0 = true by apply/Z.gtb_lt.
      case: (Z_lt_le_dec dim_x 1) => hd; first by rewrite /= rings_bad.
      have m0 : (0 < Z.to_nat dim_x)%N by apply/ltP; lia.
      have [d [hd' _]] := rings_ok m0 h0; rewrite Znat.Z2Nat.id in hd'; last lia.
      rewrite /= hd' /= sampler_rejects //; case: (Z_lt_le_dec n 1) => // hn; by case: hb.
  Qed.
End Tasks.

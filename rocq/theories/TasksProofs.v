(** Proofs about the transforms of tasks ([TasksModel]). *)
From Coq Require Import String.
From Verif Require Import Base UtilsModel JaxModel SamplersModel GaussianModel MatrixUtilsModel TransformsModel
  BaseLemmas TransformsSpec RotateProofs BenchmarkModel BenchmarkSpec BenchmarkProofs BenchmarkThms TasksModel TasksSpec.
Open Scope Z_scope.
Local Notation length := List.length.

(** ** Heaps which only grow *)
Definition ext (h h' : dheap) : Prop :=
  (length h <= length h')%nat /\ forall r, (r < length h)%nat -> dread h' r = dread h r.
Lemma ext_refl h : ext h h.
Proof. split; auto. Qed.
Lemma ext_trans a b c : ext a b -> ext b c -> ext a c.
Proof. intros [L K] [L' K']. split; [lia|]. intros r H. rewrite K' by lia. auto. Qed.
Lemma ext_valid h h' o : ext h h' -> valid_ref h o -> valid_ref h' o.
Proof. intros [L _]. destruct o; cbn; lia. Qed.
Lemma ext_content h h' o : ext h h' -> valid_ref h o -> content h' o = content h o.
Proof. intros [_ K]. destruct o; cbn; auto. Qed.

Section Steps.
  Context {J : prng}.

  (** The facts behind [usable], which do not mention the heap's other contents. *)
  Definition ready (t : task J) (h : dheap) (dx dy : Z) (mi : fl) : Prop :=
    valid_ref h (t_params t) /\ dim_x (t_sampler t) = Ok dx /\ dim_y (t_sampler t) = Ok dy /\
    mutual_information (t_sampler t) = Ok mi /\ fl_ltb mi (Fin 0) = false /\ mi <> NaN.

  Lemma usable_ready t h : usable t h -> exists dx dy mi, ready t h dx dy mi /\ 1 <= dx /\ 1 <= dy.
  Proof.
    intros (V & h1 & m & H & Hx & Hy). destruct (metadata_inv _ _ _ _ H) as (_ & _ & Dx & Dy & M & P).
    exists (md_dim_x m), (md_dim_y m), (md_mi m). split; [|auto]. repeat split; auto.
    - destruct P as [-> | [v [-> P]]]; [reflexivity|]. cbn. unfold Rltb. destruct (Rlt_dec v 0); [lra|reflexivity].
    - destruct P as [-> | [v [-> P]]]; discriminate.
  Qed.
  Lemma ready_ext t h h' dx dy mi : ext h h' -> ready t h dx dy mi -> ready t h' dx dy mi.
  Proof. intros E (V & R). split; [eapply ext_valid; eauto|exact R]. Qed.

  Lemma ready_metadata t h dx dy mi : ready t h dx dy mi -> exists h' m, metadata t h = (h', Ok m) /\ ext h h' /\
    md_id m = t_id t /\ md_name m = t_name t /\ md_dim_x m = dx /\ md_dim_y m = dy /\ md_mi m = mi /\
    dread h' (md_params m) = content h (t_params t) /\ (md_params m < length h')%nat /\
    (content h (t_params t) <> [] -> t_params t = Some (md_params m)).
  Proof.
    intros (V & Dx & Dy & M & P & N).
    destruct (metadata_ok t h dx dy mi V Dx Dy M P N) as (h' & m & E & A1 & A2 & A3 & A4 & A5 & A6 & A7 & A8 & A9 & A10).
    exists h', m. repeat split; auto.
  Qed.

  Lemma step_id t h dx dy mi : ready t h dx dy mi -> exists h', task_id t h = (h', Ok (t_id t)) /\ ext h h'.
  Proof.
    intros R. destruct (ready_metadata _ _ _ _ _ R) as (h' & m & E & X & I & _).
    exists h'. destruct (task_properties _ _ _ _ E) as (P & _). rewrite P, I. auto.
  Qed.
  Lemma step_dim_x t h dx dy mi : ready t h dx dy mi -> exists h', task_dim_x t h = (h', Ok dx) /\ ext h h'.
  Proof.
    intros R. destruct (ready_metadata _ _ _ _ _ R) as (h' & m & E & X & _ & _ & D & _).
    exists h'. destruct (task_properties _ _ _ _ E) as (_ & _ & _ & P & _). rewrite P, D. auto.
  Qed.
  Lemma step_dim_y t h dx dy mi : ready t h dx dy mi -> exists h', task_dim_y t h = (h', Ok dy) /\ ext h h'.
  Proof.
    intros R. destruct (ready_metadata _ _ _ _ _ R) as (h' & m & E & X & _ & _ & _ & D & _).
    exists h'. destruct (task_properties _ _ _ _ E) as (_ & _ & _ & _ & P & _). rewrite P, D. auto.
  Qed.
  Lemma step_params t h dx dy mi : ready t h dx dy mi -> exists h' r, task_params t h = (h', Ok r) /\ ext h h' /\
    dread h' r = content h (t_params t) /\ (r < length h')%nat /\
    (content h (t_params t) <> [] -> t_params t = Some r).
  Proof.
    intros R. destruct (ready_metadata _ _ _ _ _ R) as (h' & m & E & X & _ & _ & _ & _ & _ & C & L & S).
    exists h', (md_params m). destruct (task_properties _ _ _ _ E) as (_ & _ & P & _). auto.
  Qed.
  Lemma step_name t h dx dy mi name (f : string -> string) : ready t h dx dy mi -> exists h',
    or_name name (run n <- task_name t; pret (f n)) h = (h', Ok (given name (f (t_name t)))) /\ ext h h'.
  Proof.
    intros R. assert (D : exists h', (run n <- task_name t; pret (f n)) h = (h', Ok (f (t_name t))) /\ ext h h').
    { destruct (ready_metadata _ _ _ _ _ R) as (h' & m & E & X & _ & I & _).
      exists h'. destruct (task_properties _ _ _ _ E) as (_ & P & _). unfold pbind. rewrite P, I. auto. }
    destruct name as [[|a s]|]; cbn [or_name given]; try exact D.
    exists h. split; [reflexivity|apply ext_refl].
  Qed.
  (** [task_id or f"..."], with the id in place of the name. *)
  Lemma step_or_id t h dx dy mi name (f : string -> string) : ready t h dx dy mi -> exists h',
    or_name name (run n <- task_id t; pret (f n)) h = (h', Ok (given name (f (t_id t)))) /\ ext h h'.
  Proof.
    intros R. assert (D : exists h', (run n <- task_id t; pret (f n)) h = (h', Ok (f (t_id t))) /\ ext h h').
    { destruct (step_id _ _ _ _ _ R) as (h' & E & X). exists h'. unfold pbind. rewrite E. auto. }
    destruct name as [[|a s]|]; cbn [or_name given]; try exact D.
    exists h. split; [reflexivity|apply ext_refl].
  Qed.

  Lemma transformed_ok (base : sampler J) tx ty ax v dx dy : dim_x base = Ok dx -> dim_y base = Ok dy ->
    1 <= dx -> 1 <= dy -> 0 <= ax -> exists s, transformed_sampler base tx ty ax 0 v = Ok s.
  Proof.
    intros Dx Dy Hx Hy Ha. unfold transformed_sampler, base_sampler_init, validate_dimensions.
    rewrite Dx, Dy. cbn [bind].
    destruct (Z.ltb_spec ax 0); [lia|]. cbn [orb Z.ltb Z.compare].
    destruct (Z.ltb_spec (dx + ax) 1); [lia|]. destruct (Z.ltb_spec (dy + 0) 1); [lia|]. cbn. eauto.
  Qed.

  Lemma derived_intro (base : task J) h h' dx dy mi tx ty ax v s i n p id name new (on_x on_y : matrix -> matrix -> Prop) :
    ready base h dx dy mi -> ext h h' -> 0 <= ax -> 1 <= dx -> 1 <= dy ->
    transformed_sampler (t_sampler base) tx ty ax 0 v = Ok s ->
    i = id (t_id base) -> n = name (t_name base) ->
    (p < length h')%nat -> updated (content h (t_params base)) new (dread h' p) ->
    (forall x, on_x x ((if v then vmap (on_point (default tx identity)) else on_batch (default tx identity)) x)) ->
    (forall y, on_y y ((if v then vmap (on_point (default ty identity)) else on_batch (default ty identity)) y)) ->
    derived base {| t_sampler := s; t_id := i; t_name := n; t_params := Some p |} h h' id name ax new on_x on_y.
  Proof.
    intros R E Ha Hdx Hdy T -> -> L U Ax Ay.
    destruct (ready_metadata _ _ _ _ _ R) as (h1 & m & M & E1 & I1 & N1 & X1 & Y1 & MI1 & C1 & L1 & _).
    set (t := {| t_sampler := s; t_id := id (t_id base); t_name := name (t_name base); t_params := Some p |}).
    destruct R as (V & Dx & Dy & Hm & Hp & Hn).
    unfold transformed_sampler in T.
    destruct ((ax <? 0) || (0 <? 0))%bool; [discriminate|].
    rewrite Dx, Dy in T. cbn [bind] in T. unfold base_sampler_init in T.
    destruct (validate_dimensions (dx + ax) (dy + 0)) as [u|]; [|discriminate]. cbn [bind] in T.
    injection T as <-.
    assert (Rt : ready t h' (dx + ax) (dy + 0) mi) by (repeat split; auto).
    destruct (ready_metadata _ _ _ _ _ Rt) as (h2 & m' & M' & E2 & I2 & N2 & X2 & Y2 & MI2 & C2 & L2 & _).
    split; [split; [exact L|]; exists h2, m'; rewrite X2, Y2; split; [exact M'|lia]|].
    split; [exact (proj1 E)|].
    exists h1, m, h2, m'. split; [exact M|]. split; [exact M'|].
    rewrite I2, N2, MI2, X2, Y2, I1, N1, MI1, X1, Y1. cbn [t_id t_name t].
    repeat split; auto; try lia.
    - rewrite C1, C2. exact U.
    - exact (proj2 E).
    - intros k rng. cbn [t_sampler t sample]. destruct (sample (t_sampler base) k rng) as [[x y]|e]; [|reflexivity].
      cbn [bind]. do 2 eexists. split; [reflexivity|]. split; [apply Ax|apply Ay].
  Qed.
End Steps.

Lemma updated_nil d : updated d [] d.
Proof. intros k. reflexivity. Qed.

Lemma each_row_pointwise f x : each_row f x (vmap (on_point (pointwise f)) x).
Proof.
  unfold each_row, vmap. induction x as [|r x IH]; cbn; constructor; [|exact IH].
  intros v ->. reflexivity.
Qed.

Lemma init_none n g speed : square_array (Z.to_nat n) g -> exists s, spiral_init g None speed = Ok s.
Proof. intros S. eexists. apply (init_ok (Z.to_nat n)); [exact S|exact I]. Qed.

Lemma usable_ext {J} (t : task J) h h' : ext h h' -> usable t h -> usable t h'.
Proof.
  intros E U. destruct (usable_ready _ _ U) as (dx & dy & mi & R & Hx & Hy).
  assert (R' := ready_ext _ _ _ _ _ _ E R). split; [apply R'|].
  destruct (ready_metadata _ _ _ _ _ R') as (h1 & m & M & _ & _ & _ & X & Y & _).
  exists h1, m. rewrite X, Y. auto.
Qed.
Lemma derived_ext {J} (base t : task J) h0 h h' id name ax new on_x on_y : usable base h0 -> ext h0 h ->
  derived base t h h' id name ax new on_x on_y -> derived base t h0 h' id name ax new on_x on_y.
Proof.
  intros U E (Ut & Le & h1 & m & h2 & m' & M & M' & I & N & MI & X & Y & P & K & S).
  destruct (usable_ready _ _ U) as (dx & dy & mi & R & _).
  destruct (ready_metadata _ _ _ _ _ R) as (h3 & m0 & M0 & _ & I0 & N0 & X0 & Y0 & MI0 & C0 & _).
  assert (R' := ready_ext _ _ _ _ _ _ E R).
  destruct (ready_metadata _ _ _ _ _ R') as (h4 & m1 & M1 & _ & I1 & N1 & X1 & Y1 & MI1 & C1 & _).
  rewrite M in M1. injection M1 as <- <-.
  split; [exact Ut|]. split; [destruct E; lia|].
  exists h3, m0, h2, m'. split; [exact M0|]. split; [exact M'|].
  rewrite I, N, MI, X, Y, I0, N0, X0, Y0, MI0, I1, N1, X1, Y1, MI1. repeat split; auto.
  - rewrite C0, <- (ext_content _ _ _ E), <- C1 by apply U. exact P.
  - intros r Hr. destruct E as [L E]. rewrite K by lia. auto.
Qed.

(** Runs the steps of a transform one after the other. *)
Tactic Notation "step" open_constr(lem) ident(h1) ident(E) ident(X) :=
  destruct lem as (h1 & E & X); unfold pbind at 1; rewrite E; cbv beta iota.

Section Transforms.
  Context {J : prng}.
  Implicit Types base t : task J.

  (** The transforms which keep the dictionary of the base task. *)
  Lemma keeping base name tx ty v (f g : string -> string) (on_x on_y : matrix -> matrix -> Prop) h :
    usable base h ->
    (forall x, on_x x ((if v : bool then vmap (on_point tx) else on_batch tx) x)) ->
    (forall y, on_y y ((if v then vmap (on_point ty) else on_batch ty) y)) ->
    exists h' t,
      (run s <- lift (transformed_sampler (t_sampler base) (Some tx) (Some ty) 0 0 v);
       run i <- task_id base;
       run n <- or_name name (run n <- task_name base; pret (g n));
       run p <- task_params base;
       pret {| t_sampler := s; t_id := f i; t_name := n; t_params := Some p |}) h = (h', Ok t) /\
      derived base t h h' f (fun n => given name (g n)) 0 [] on_x on_y /\
      (content h (t_params base) <> [] -> t_params t = t_params base).
  Proof.
    intros U Ax Ay. destruct (usable_ready _ _ U) as (dx & dy & mi & R & Hx & Hy).
    destruct (transformed_ok (t_sampler base) (Some tx) (Some ty) 0 v dx dy) as [s T];
      [apply R|apply R|lia|lia|lia|].
    unfold pbind at 1, lift at 1. rewrite T.
    step (step_id _ _ _ _ _ R) h1 E1 X1.
    assert (R1 := ready_ext _ _ _ _ _ _ X1 R).
    step (step_name _ _ _ _ _ name g R1) h2 E2 X2.
    assert (R2 := ready_ext _ _ _ _ _ _ X2 R1).
    destruct (step_params _ _ _ _ _ R2) as (h3 & p & E3 & X3 & C & L & S).
    unfold pbind at 1. rewrite E3. cbv beta iota. unfold pret.
    assert (X02 : ext h h2) by (eapply ext_trans; eauto).
    assert (X03 : ext h h3) by (eapply ext_trans; eauto).
    rewrite (ext_content _ _ _ X02) in C, S by apply U.
    eexists h3, _. split; [reflexivity|]. split.
    - eapply derived_intro; eauto; try lia. rewrite C. apply updated_nil.
    - intros H. cbn. symmetry. auto.
  Qed.

  (** The transforms which merge new entries into a fresh dictionary. *)
  Lemma merging base name tx ty v (f g : string -> string) new (on_x on_y : matrix -> matrix -> Prop) h :
    usable base h ->
    (forall x, on_x x ((if v : bool then vmap (on_point tx) else on_batch tx) x)) ->
    (forall y, on_y y ((if v then vmap (on_point ty) else on_batch ty) y)) ->
    exists h' t,
      (run s <- lift (transformed_sampler (t_sampler base) (Some tx) (Some ty) 0 0 v);
       run i <- task_id base;
       run n <- or_name name (run n <- task_name base; pret (g n));
       run p <- task_params base;
       run d <- read_dict p;
       run p' <- new_dict (sdict_merge d new);
       pret {| t_sampler := s; t_id := f i; t_name := n; t_params := Some p' |}) h = (h', Ok t) /\
      derived base t h h' f (fun n => given name (g n)) 0 new on_x on_y /\
      (exists p, t_params t = Some p /\ (length h <= p < length h')%nat).
  Proof.
    intros U Ax Ay. destruct (usable_ready _ _ U) as (dx & dy & mi & R & Hx & Hy).
    destruct (transformed_ok (t_sampler base) (Some tx) (Some ty) 0 v dx dy) as [s T];
      [apply R|apply R|lia|lia|lia|].
    unfold pbind at 1, lift at 1. rewrite T.
    step (step_id _ _ _ _ _ R) h1 E1 X1.
    assert (R1 := ready_ext _ _ _ _ _ _ X1 R).
    step (step_name _ _ _ _ _ name g R1) h2 E2 X2.
    assert (R2 := ready_ext _ _ _ _ _ _ X2 R1).
    destruct (step_params _ _ _ _ _ R2) as (h3 & p & E3 & X3 & C & L & S).
    unfold pbind at 1. rewrite E3. cbv beta iota. unfold pbind, read_dict, new_dict, dalloc, pret. cbv beta iota.
    assert (X02 : ext h h2) by (eapply ext_trans; eauto).
    assert (X03 : ext h h3) by (eapply ext_trans; eauto).
    assert (X34 : ext h3 (h3 ++ [sdict_merge (dread h3 p) new])).
    { split; [rewrite app_length; lia|]. intros r Hr. now apply dread_app. }
    rewrite (ext_content _ _ _ X02) in C by apply U.
    eexists _, _. split; [reflexivity|]. split.
    - eapply derived_intro; eauto; try lia; [eapply ext_trans; eauto|rewrite app_length; cbn; lia|].
      rewrite dread_new, C. apply merge_updated.
    - eexists. split; [reflexivity|]. rewrite app_length. cbn. destruct X03. lia.
  Qed.

  Lemma asinh_derived base name h : usable base h -> exists h' t, transform_asinh_task base name h = (h', Ok t) /\
    derived base t h h' (fun i => "asinh-" ++ i)%string (fun n => given name ("Asinh @ " ++ n)) 0 []
      (each_entry np_arcsinh) (each_entry np_arcsinh) /\
    (content h (t_params base) <> [] -> t_params t = t_params base).
  Proof. intros U. apply (keeping base name _ _ true (fun i => "asinh-" ++ i)%string); auto; reflexivity. Qed.
  Lemma half_cube_derived base name h : usable base h -> exists h' t, transform_half_cube_task base name h = (h', Ok t) /\
    derived base t h h' (fun i => "half_cube-" ++ i)%string (fun n => given name ("Half-cube @ " ++ n)) 0 []
      (each_entry half_cube) (each_entry half_cube) /\
    (content h (t_params base) <> [] -> t_params t = t_params base).
  Proof. intros U. apply (keeping base name _ _ true (fun i => "half_cube-" ++ i)%string); auto; reflexivity. Qed.
  Lemma normal_cdf_derived erf base name h : usable base h -> exists h' t, transform_normal_cdf_task erf base name h = (h', Ok t) /\
    derived base t h h' (fun i => "normal_cdf-" ++ i)%string (fun n => given name ("Normal CDF @ " ++ n)) 0 []
      (each_entry (normal_cdf erf)) (each_entry (normal_cdf erf)) /\
    (content h (t_params base) <> [] -> t_params t = t_params base).
  Proof. intros U. apply (keeping base name _ _ true (fun i => "normal_cdf-" ++ i)%string); auto; reflexivity. Qed.
  Lemma wiggly_derived base name h : usable base h -> exists h' t, transform_wiggly_task base name h = (h', Ok t) /\
    derived base t h h' (fun i => "wiggly-" ++ i)%string (fun n => given name ("Wiggly @ " ++ n)) 0 []
      (each_entry wiggly_x) (each_entry wiggly_y) /\
    (content h (t_params base) <> [] -> t_params t = t_params base).
  Proof. intros U. apply (keeping base name _ _ true (fun i => "wiggly-" ++ i)%string); auto; reflexivity. Qed.

  Lemma rotate_derived expm base name h dx dy : usable base h -> dim_x (t_sampler base) = Ok dx ->
    dim_y (t_sampler base) = Ok dy -> 3 <= dx -> 3 <= dy ->
    exists h' t, transform_rotate_task expm base name h = (h', Ok t) /\
    derived base t h h' (fun i => "rotate-" ++ i)%string (fun n => given name ("Rotate @ " ++ n)) 0 []
      (each_row (rotate_x expm dx)) (each_row (rotate_y expm dy)).
  Proof.
    intros U Hx Hy Lx Ly. destruct (usable_ready _ _ U) as (dx' & dy' & mi & R & _).
    assert (dx' = dx) as -> by (destruct R as (_ & R & _); congruence).
    assert (dy' = dy) as -> by (destruct R as (_ & _ & R & _); congruence).
    unfold transform_rotate_task.
    step (step_dim_x _ _ _ _ _ R) h1 E1 X1. assert (R1 := ready_ext _ _ _ _ _ _ X1 R).
    step (step_dim_y _ _ _ _ _ R1) h2 E2 X2. assert (R2 := ready_ext _ _ _ _ _ _ X2 R1).
    assert (X02 : ext h h2) by (eapply ext_trans; eauto).
    destruct (Z.ltb_spec 2 dx); [|lia]. destruct (Z.ltb_spec 2 dy); [|lia]. cbn [negb].
    destruct (transformed_ok (t_sampler base) (Some (pointwise (rotate_x expm dx))) (Some (pointwise (rotate_y expm dy))) 0 true dx dy) as [s T];
      [auto|auto|lia|lia|lia|].
    unfold pbind at 1, lift at 1. rewrite T.
    step (step_id _ _ _ _ _ R2) h3 E3 X3. assert (R3 := ready_ext _ _ _ _ _ _ X3 R2).
    step (step_name _ _ _ _ _ name (fun n => "Rotate @ " ++ n)%string R3) h4 E4 X4.
    assert (R4 := ready_ext _ _ _ _ _ _ X4 R3).
    destruct (step_params _ _ _ _ _ R4) as (h5 & p & E5 & X5 & C & L & _).
    unfold pbind at 1. rewrite E5. cbv beta iota. unfold pret.
    assert (X04 : ext h h4) by (eapply ext_trans; [exact X02|eapply ext_trans; eauto]).
    rewrite (ext_content _ _ _ X04) in C by apply U.
    eexists h5, _. split; [reflexivity|].
    eapply derived_intro; eauto; try lia; try (apply each_row_pointwise).
    - eapply ext_trans; eauto.
    - rewrite C. apply updated_nil.
  Qed.

  Lemma swissroll_derived base name h : usable base h -> dim_x (t_sampler base) = Ok 1 ->
    exists h' t, transform_swissroll_task base name h = (h', Ok t) /\
    derived base t h h' (fun i => "swissroll_x-" ++ i)%string (fun _ => name) 1 []
      (each_row swissroll2d) unchanged.
  Proof.
    intros U Hx. destruct (usable_ready _ _ U) as (dx & dy & mi & R & _ & Hy).
    assert (dx = 1) as -> by (destruct R as (_ & R & _); congruence).
    unfold transform_swissroll_task.
    step (step_dim_x _ _ _ _ _ R) h1 E1 X1. assert (R1 := ready_ext _ _ _ _ _ _ X1 R).
    cbn [negb Z.eqb Pos.eqb].
    destruct (transformed_ok (t_sampler base) (Some (pointwise swissroll2d)) None 1 true 1 dy) as [s T];
      [auto|apply R|lia|lia|lia|].
    unfold pbind at 1, lift at 1. rewrite T.
    step (step_id _ _ _ _ _ R1) h2 E2 X2. assert (R2 := ready_ext _ _ _ _ _ _ X2 R1).
    destruct (step_params _ _ _ _ _ R2) as (h3 & p & E3 & X3 & C & L & _).
    unfold pbind at 1. rewrite E3. cbv beta iota. unfold pret.
    assert (X02 : ext h h2) by (eapply ext_trans; eauto).
    rewrite (ext_content _ _ _ X02) in C by apply U.
    eexists h3, _. split; [reflexivity|].
    eapply derived_intro; eauto; try lia.
    - eapply ext_trans; eauto.
    - rewrite C. apply updated_nil.
    - apply each_row_pointwise.
    - intros y. apply map_id.
  Qed.

  Lemma spiral_derived expm base speed name normalize h dx dy : usable base h -> dim_x (t_sampler base) = Ok dx ->
    dim_y (t_sampler base) = Ok dy -> 2 <= dx -> 3 <= dy ->
    exists h' t gx gy sx sy, transform_spiral_task expm base speed name normalize h = (h', Ok t) /\
    so_generator dx 0 1 = Ok gx /\ so_generator dy 1 2 = Ok gy /\
    spiral_init gx None (if normalize then speed / IZR dx else speed)%R = Ok sx /\
    spiral_init gy None (if normalize then speed / IZR dy else speed)%R = Ok sy /\
    derived base t h h' (fun i => "spiral-" ++ i)%string (fun n => given name ("Spiral @ " ++ n)) 0
      [("speed", PFloat (Fin speed)); ("normalize_speed", PBool normalize)]%string
      (each_row (spiral_call expm sx)) (each_row (spiral_call expm sy)) /\
    (exists p, t_params t = Some p /\ (length h <= p < length h')%nat).
  Proof.
    intros U Hx Hy Lx Ly. destruct (usable_ready _ _ U) as (dx' & dy' & mi & R & _).
    assert (dx' = dx) as -> by (destruct R as (_ & R & _); congruence).
    assert (dy' = dy) as -> by (destruct R as (_ & _ & R & _); congruence).
    unfold transform_spiral_task.
    step (step_dim_x _ _ _ _ _ R) h1 E1 X1. assert (R1 := ready_ext _ _ _ _ _ _ X1 R).
    destruct (Z.ltb_spec 1 dx); [|lia]. cbn [negb].
    step (step_dim_y _ _ _ _ _ R1) h2 E2 X2. assert (R2 := ready_ext _ _ _ _ _ _ X2 R1).
    destruct (Z.ltb_spec 2 dy); [|lia]. cbn [negb].
    assert (X02 : ext h h2) by (eapply ext_trans; eauto).
    destruct (generator_ok dx 0 1) as (gx & Gx & Sx & _); [lia|lia|].
    destruct (generator_ok dy 1 2) as (gy & Gy & Sy & _); [lia|lia|].
    unfold pbind at 1, lift at 1. rewrite Gx. unfold pbind at 1, lift at 1. rewrite Gy. cbv zeta.
    destruct (init_none dx gx (if normalize then speed / IZR dx else speed)%R Sx) as [sx Ix].
    destruct (init_none dy gy (if normalize then speed / IZR dy else speed)%R Sy) as [sy Iy].
    unfold pbind at 1, lift at 1. rewrite Ix. unfold pbind at 1, lift at 1. rewrite Iy.
    destruct (merging base name (pointwise (spiral_call expm sx)) (pointwise (spiral_call expm sy)) true
                (fun i => "spiral-" ++ i)%string (fun n => "Spiral @ " ++ n)%string
                [("speed", PFloat (Fin speed)); ("normalize_speed", PBool normalize)]%string
                (each_row (spiral_call expm sx)) (each_row (spiral_call expm sy)) h2)
      as (h' & t & E & D & P).
    - eapply usable_ext; eauto.
    - apply each_row_pointwise.
    - apply each_row_pointwise.
    - exists h', t, gx, gy, sx, sy. split; [exact E|]. do 4 (split; [first [assumption|reflexivity]|]).
      split; [eapply derived_ext; eauto|].
      destruct P as (p & -> & P). exists p. split; [reflexivity|]. destruct X02. lia.
  Qed.

  Lemma power_derived F base alpha name h : usable base h -> exists h' t, transform_power_task F base alpha name h = (h', Ok t) /\
    derived base t h h' (fun i => "power_" ++ float_fixed F 5 alpha ++ "-" ++ i)%string
      (fun n => given name ("Power " ++ float_fixed F 2 alpha ++ " @ " ++ n)) 0 [("alpha", PFloat (Fin alpha))]%string
      (each_entry (fun x => real_part (signed_power alpha x))) (each_entry (fun x => real_part (signed_power alpha x))) /\
    (exists p, t_params t = Some p /\ (length h <= p < length h')%nat).
  Proof.
    intros U. apply (merging base name _ _ false (fun i => "power_" ++ float_fixed F 5 alpha ++ "-" ++ i)%string
      (fun n => "Power " ++ float_fixed F 2 alpha ++ " @ " ++ n)%string); auto; reflexivity.
  Qed.
  Lemma uniformise_derived Q base name nq seed h : usable base h -> exists h' t, transform_uniformise Q base name nq seed h = (h', Ok t) /\
    derived base t h h' (fun i => "uniformise-" ++ i)%string (fun n => given name ("Uniformise @ " ++ n)) 0
      [("n_quantiles", PInt nq)]%string (whole (Q nq "uniform"%string seed)) (whole (Q nq "uniform"%string seed)) /\
    (exists p, t_params t = Some p /\ (length h <= p < length h')%nat).
  Proof.
    intros U. apply (merging base name _ _ false (fun i => "uniformise-" ++ i)%string
      (fun n => "Uniformise @ " ++ n)%string); auto; reflexivity.
  Qed.
  Lemma gaussianise_derived Q base name nq seed h : usable base h -> exists h' t, transform_gaussianise Q base name nq seed h = (h', Ok t) /\
    derived base t h h' (fun i => "gaussianise-" ++ i)%string (fun n => given name ("Gaussianise @ " ++ n)) 0
      [("n_quantiles", PInt nq)]%string (whole (Q nq "normal"%string seed)) (whole (Q nq "normal"%string seed)) /\
    (exists p, t_params t = Some p /\ (length h <= p < length h')%nat).
  Proof.
    intros U. apply (merging base name _ _ false (fun i => "gaussianise-" ++ i)%string
      (fun n => "Gaussianise @ " ++ n)%string); auto; reflexivity.
  Qed.

  Lemma rescale_derived base name id h : usable base h -> exists h' t, transform_rescale base name id h = (h', Ok t) /\
    derived base t h h' (fun i => given id ("rescale-" ++ i)) (fun n => given name ("Rescale @ " ++ n)) 0 []
      (whole scaler_transform) (whole scaler_transform).
  Proof.
    intros U. destruct (usable_ready _ _ U) as (dx & dy & mi & R & Hx & Hy).
    destruct (transformed_ok (t_sampler base) (Some (batchwise scaler_transform)) (Some (batchwise scaler_transform)) 0 false dx dy) as [s T];
      [apply R|apply R|lia|lia|lia|].
    unfold transform_rescale. unfold pbind at 1, lift at 1. rewrite T.
    step (step_or_id _ _ _ _ _ id (fun i => "rescale-" ++ i)%string R) h1 E1 X1.
    assert (R1 := ready_ext _ _ _ _ _ _ X1 R).
    step (step_name _ _ _ _ _ name (fun n => "Rescale @ " ++ n)%string R1) h2 E2 X2.
    assert (R2 := ready_ext _ _ _ _ _ _ X2 R1).
    destruct (step_params _ _ _ _ _ R2) as (h3 & p & E3 & X3 & C & L & _).
    unfold pbind at 1. rewrite E3. cbv beta iota. unfold pret.
    assert (X02 : ext h h2) by (eapply ext_trans; eauto).
    rewrite (ext_content _ _ _ X02) in C by apply U.
    eexists h3, _. split; [reflexivity|]. eapply derived_intro; eauto; try lia.
    - eapply ext_trans; eauto.
    - rewrite C. apply updated_nil.
    - reflexivity.
    - reflexivity.
  Qed.

  (** Too few dimensions. *)
  Lemma swissroll_rejects base name h dx : usable base h -> dim_x (t_sampler base) = Ok dx -> dx <> 1 ->
    exists h', transform_swissroll_task base name h = (h', Err AssertionError).
  Proof.
    intros U Hx N. destruct (usable_ready _ _ U) as (dx' & dy & mi & R & _).
    assert (dx' = dx) as -> by (destruct R as (_ & R & _); congruence).
    unfold transform_swissroll_task. step (step_dim_x _ _ _ _ _ R) h1 E1 X1.
    destruct (Z.eqb_spec dx 1); [contradiction|]. cbn [negb]. eexists. reflexivity.
  Qed.
  Lemma rotate_rejects expm base name h dx dy : usable base h -> dim_x (t_sampler base) = Ok dx ->
    dim_y (t_sampler base) = Ok dy -> dx < 3 \/ dy < 3 ->
    exists h', transform_rotate_task expm base name h = (h', Err AssertionError).
  Proof.
    intros U Hx Hy N. destruct (usable_ready _ _ U) as (dx' & dy' & mi & R & _).
    assert (dx' = dx) as -> by (destruct R as (_ & R & _); congruence).
    assert (dy' = dy) as -> by (destruct R as (_ & _ & R & _); congruence).
    unfold transform_rotate_task. step (step_dim_x _ _ _ _ _ R) h1 E1 X1. assert (R1 := ready_ext _ _ _ _ _ _ X1 R).
    step (step_dim_y _ _ _ _ _ R1) h2 E2 X2.
    destruct (Z.ltb_spec 2 dx); cbn [negb]; [|eexists; reflexivity].
    destruct (Z.ltb_spec 2 dy); cbn [negb]; [lia|eexists; reflexivity].
  Qed.
  Lemma spiral_rejects expm base speed name normalize h dx dy : usable base h -> dim_x (t_sampler base) = Ok dx ->
    dim_y (t_sampler base) = Ok dy -> dx < 2 \/ dy < 3 ->
    exists h', transform_spiral_task expm base speed name normalize h = (h', Err AssertionError).
  Proof.
    intros U Hx Hy N. destruct (usable_ready _ _ U) as (dx' & dy' & mi & R & _).
    assert (dx' = dx) as -> by (destruct R as (_ & R & _); congruence).
    assert (dy' = dy) as -> by (destruct R as (_ & _ & R & _); congruence).
    unfold transform_spiral_task. step (step_dim_x _ _ _ _ _ R) h1 E1 X1. assert (R1 := ready_ext _ _ _ _ _ _ X1 R).
    destruct (Z.ltb_spec 1 dx); cbn [negb]; [|eexists; reflexivity].
    step (step_dim_y _ _ _ _ _ R1) h2 E2 X2.
    destruct (Z.ltb_spec 2 dy); cbn [negb]; [lia|eexists; reflexivity].
  Qed.
End Transforms.

(** Proofs about the basic tasks ([TasksModel], statements in [BasicSpec]). *)
From Coq Require Import String.
From Verif Require Import Base UtilsModel JaxModel SamplersModel GaussianModel MatrixUtilsModel TransformsModel
  BaseLemmas TransformsSpec MatrixUtilsSpec SimpleTransformProofs InvertProofs TrainingSpec SamplersSpec SamplersProofs
  SamplersThms CsvProofs BenchmarkModel BenchmarkSpec BenchmarkProofs BenchmarkThms TasksModel TasksSpec TasksProofs TasksThms
  GaussianSpec TasksGaussian MatrixUtilsProofs TasksBuild BasicSpec BasicGaussian.
Open Scope Z_scope.
Local Notation length := List.length.

Set Default Proof Using "Type".

Section Build.
  Context {J : prng}.

  Lemma builds_from (s : sampler J) dx dy mi d i (n : prog string) h h1 nm P : sound s dx dy mi P -> (0 <= mi)%R ->
    1 <= dx -> 1 <= dy -> ext h h1 -> n h1 = (h1, Ok nm) -> d <> [] ->
    exists h' t h2 m, (run n <- n; run p <- new_dict d; pret {| t_sampler := s; t_id := i; t_name := n; t_params := Some p |}) h1 = (h', Ok t) /\
      usable t h' /\ metadata t h' = (h2, Ok m) /\
      md_id m = i /\ md_name m = nm /\ md_dim_x m = dx /\ md_dim_y m = dy /\ md_mi m = Fin mi /\
      dread h2 (md_params m) = d /\ (length h <= md_params m)%nat /\
      (length h <= length h')%nat /\ (forall r, (r < length h)%nat -> dread h' r = dread h r) /\ P (t_sampler t).
  Proof.
    intros (Dx & Dy & M & B) Hm Hx Hy X N Hd. destruct (new_dict_ext d h1) as (E & X' & L).
    set (t := {| t_sampler := s; t_id := i; t_name := nm; t_params := Some (length h1) |}).
    assert (R : ready t (h1 ++ [d])%list dx dy (Fin mi)).
    { repeat split; auto; [|discriminate]. cbn. unfold Rltb. destruct (Rlt_dec mi 0); [lra|reflexivity]. }
    destruct (ready_metadata _ _ _ _ _ R) as (h2 & m & Em & Xm & A1 & A2 & A3 & A4 & A5 & A6 & A7 & A8).
    assert (C : content (h1 ++ [d])%list (t_params t) = d).
    { cbn. unfold dread. now rewrite app_nth2, Nat.sub_diag by lia. }
    rewrite C in *.
    exists (h1 ++ [d])%list, t, h2, m.
    unfold pbind, pret. rewrite N, E. split; [reflexivity|].
    split; [apply (fine_usable s dx dy); auto|].
    { split; [exact Dx|]. split; [exact Dy|]. exists (Fin mi). destruct R as (_ & _ & _ & ? & ? & ?). auto. }
    split; [exact Em|]. do 6 (split; [assumption|]).
    split; [specialize (A8 Hd); injection A8 as <-; exact (proj1 X)|].
    split; [exact (Nat.le_trans _ _ _ (proj1 X) (proj1 X'))|]. split; [|exact B]. intros r Hr. rewrite (proj2 X') by (destruct X; lia). apply X, Hr.
  Qed.
  Lemma builds_intro (s : sampler J) dx dy mi d i (n : prog string) h nm P : sound s dx dy mi P -> (0 <= mi)%R ->
    1 <= dx -> 1 <= dy -> n h = (h, Ok nm) -> d <> [] ->
    builds (run n <- n; run p <- new_dict d; pret {| t_sampler := s; t_id := i; t_name := n; t_params := Some p |}) h i nm dx dy mi d P.
  Proof. intros. now apply builds_from; auto using ext_refl. Qed.

  Lemma or_name_given name d h : or_name name (pret d) h = (h, Ok (given name d)).
  Proof. now destruct name as [[|]|]. Qed.

  Lemma dims_str_app dx dy s : (dims_str dx dy ++ s)%string = (int_str dx ++ " × " ++ int_str dy ++ s)%string.
  Proof. unfold dims_str. now rewrite <- !string_app_assoc. Qed.

  Variable F : formats.
  Variable D : draws J.
  Variable eigvals : matrix -> list (R * R).
  Variable mvn : key J -> list R -> matrix -> nat -> matrix.
  Variable psi log_gamma : R -> R.
  Variable mvt : Z -> list R -> matrix -> fl -> nat -> matrix.

  (** *** Uniform variable with uniform noise *)
  Lemma additive_build : prng_ok J -> draws_ok J D -> forall eps, (0 < eps)%R -> exists mi,
    is_additive_mi eps mi /\ (forall v, is_additive_mi eps v -> v = mi) /\
    forall h, builds (task_additive_noise F D eps) h ("1v1-additive-" ++ float_repr F eps)
      ("Uniform 1 × 1 (additive noise=" ++ float_repr F eps ++ ")") 1 1 mi [("epsilon", PFloat (Fin eps))]%string
      (noisy_pairs D eps).
  Proof.
    clear psi log_gamma mvt. intros HJ HD eps P. destruct (additive_true_mi J D HJ HD eps P) as (s & mi & E & M & Pm & U).
    exists mi. split; [now apply U|]. split; [intros v; apply U|]. intros h.
    unfold task_additive_noise, builds, pbind at 1, lift. rewrite E.
    apply (builds_from s 1 1 mi _ _ (pret _) h h); [|lra|lia|lia|apply ext_refl|reflexivity|discriminate].
    unfold additive_uniform_sampler in E. cbn in E. destruct (Rleb eps 0); [discriminate|]. injection E as <-.
    do 3 (split; [auto|]). intros n rng. cbn [sample].
    destruct (split2_ok J HJ (cast_to_rng J rng)) as (kx & kn & E2 & E3).
    exists kx, kn. split; [exact E3|]. rewrite E2. cbn [bind]. unfold column. now rewrite map_map.
  Qed.
  Lemma additive_reject eps h : (eps <= 0)%R -> task_additive_noise F D eps h = (h, Err ValueError).
  Proof.
    clear psi log_gamma mvt. intros H. unfold task_additive_noise, pbind, lift, additive_uniform_sampler. cbn.
    destruct (Rleb eps 0) eqn:E; [reflexivity|]. apply Rleb_false in E. lra.
  Qed.

  (** *** Normal variables *)
  Section Accepting.
  Hypothesis He : eigvals_positive eigvals.

  Lemma bivariate_build rho h : (-1 < rho < 1)%R ->
    builds (task_bivariate_normal F eigvals mvn rho) h ("1v1-normal-" ++ float_repr F rho) "Bivariate normal 1 × 1" 1 1
      (paired_mi 1 rho) [("gaussian_correlation", PFloat (Fin rho))]%string (normal_pairs mvn 1 1 (constant_off rho)).
  Proof using He.
    clear psi log_gamma mvt. intros [P Q]. destruct (binormal_built He mvn P Q) as (s & r & E & M & S).
    unfold task_bivariate_normal, builds, pbind at 1, lift. rewrite E.
    apply (builds_from s 1 1 (paired_mi 1 rho) _ _ (pret _) h h _ _ S M); [lia|lia|apply ext_refl|reflexivity|discriminate].
  Qed.

  Lemma mixture_cdf_increasing erf w v a b : is_erf erf -> (0 < w)%R -> (0 < v)%R ->
    strictly_increasing (fun x => w * normal_cdf erf (x + a) + v * normal_cdf erf (x - b))%R.
  Proof.
    clear psi log_gamma mvt. intros H Hw Hv x y L. destruct (normal_cdf_spec erf H) as [I _].
    assert (A := I (x + a)%R (y + a)%R ltac:(lra)). assert (B := I (x - b)%R (y - b)%R ltac:(lra)). nra.
  Qed.
  Lemma invert_matched G y x : strictly_increasing G -> (-10 <= x <= 10)%R -> G x = y ->
    (Rabs (invert_cdf G y - x) <= 1 / 10 ^ 12 / 2)%R.
  Proof.
    clear psi log_gamma mvt. intros I H <-. unfold invert_cdf.
    destruct (invert_terminates G (-10) 10 (1 / 10 ^ 12) (G x) 64) as (r & E & _).
    - lra.
    - rewrite Rabs_pos_eq by lra. lra.
    - rewrite E. apply (invert_close G (-10) 10 (1 / 10 ^ 12) 64 x r); [lra| |exact H|exact E].
      intros u v _ L _. now apply I.
  Qed.

  Lemma bimodal_build erf rho h : is_erf erf -> (-1 < rho < 1)%R ->
    builds (task_bimodal_gaussians F erf eigvals mvn rho) h ("1v1-bimodal-" ++ float_repr F rho) "Bimodal 1 × 1" 1 1
      (paired_mi 1 rho) [("gaussian_correlation", PFloat (Fin rho))]%string
      (fun s => exists g, normal_pairs mvn 1 1 (constant_off rho) g /\
         let Phi := phi_of erf in
         entries_related (quantile_matched Phi (fun x => 3 / 10 * Phi x + 7 / 10 * Phi (x - 5)))
                         (quantile_matched Phi (fun x => 1 / 2 * Phi (x + 1) + 1 / 2 * Phi (x - 3))) g s)%R.
  Proof using He.
    clear psi log_gamma mvt. intros Herf P. match goal with |- builds _ _ _ _ _ _ _ _ ?B => set (behaviour := B) end. unfold task_bimodal_gaussians.
    destruct (bivariate_build rho h P) as (h1 & t & hm & m & E & U & Em & _ & _ & Dx & Dy & M & _ & _ & L1 & K & B).
    unfold builds, pbind at 1. rewrite E.
    destruct (normal_cdf_derived erf t None h1 U) as (h2 & u & E2 & De & _).
    unfold pbind at 1. rewrite E2. cbv zeta.
    destruct De as (Uu & L2 & ha & ma & hb & mb & Ma & Mb & _ & _ & Mm & Mx & My & _ & K2 & S).
    rewrite Em in Ma. injection Ma as <- <-. rewrite Dx, Z.add_0_r in Mx. rewrite Dy in My. rewrite M in Mm.
    destruct (metadata_inv _ _ _ _ Mb) as (_ & _ & Sx & Sy & Sm & Pm). rewrite Mx in Sx. rewrite My in Sy. rewrite Mm in Sm, Pm.
    set (Gx := fun x : R => (3 / 10 * _ + _)%R). set (Gy := fun x : R => (5 / 10 * _ + _)%R).
    destruct (transformed_ok (t_sampler u) (Some (elementwise (invert_cdf Gx))) (Some (elementwise (invert_cdf Gy))) 0 true 1 1) as [s T];
      [auto|auto|lia|lia|lia|].
    unfold pbind at 1, lift. rewrite T.
    destruct (mi_of_transformed _ _ _ _ _ _ _ _ T) as (Tm & Tx & Ty).
    apply (builds_from s 1 1 (paired_mi 1 rho) _ _ (pret _) h h2 _ behaviour); [|destruct Pm as [Pm|(v & Pm & Pv)]; [discriminate|injection Pm as ->; exact Pv]|lia|lia| |reflexivity|discriminate].
    2:{ split; [lia|]. intros r Hr. rewrite K2 by lia. now apply K. }
    split; [exact (Tx _ Sx)|]. split; [exact (Ty _ Sy)|]. split; [rewrite Tm; exact Sm|].
    unfold behaviour. clear behaviour. cbv zeta. exists (t_sampler t). split; [exact B|]. intros n rng. specialize (S n rng).
    assert (Phi : forall x, phi_of erf x = normal_cdf erf x).
    { intros x. unfold phi_of, normal_cdf. replace (Rpower 2 (5 / 10)) with (sqrt 2); [field|].
      rewrite <- (Rpower_sqrt 2) by lra. f_equal. field. }
    unfold transformed_sampler, base_sampler_init, validate_dimensions in T. rewrite Sx, Sy in T. cbn in T. injection T as <-. cbn [sample].
    destruct (sample (t_sampler t) n rng) as [[x y]|e]; [|rewrite S; reflexivity].
    destruct S as (x' & y' & S & -> & ->). rewrite S. cbn [bind]. do 2 eexists. split; [reflexivity|].
    assert (rows : forall G (z : matrix), strictly_increasing G -> forall G', (forall v, G' v = G v) ->
      Forall2 (Forall2 (quantile_matched (phi_of erf) G')) z (map (map (invert_cdf G)) (map (map (normal_cdf erf)) z))).
    { intros G z I G' EG. rewrite map_map. induction z as [|r z IH]; [constructor|]. cbn [map]. constructor; [|exact IH].
      rewrite map_map. clear IH z. induction r as [|a r IH]; [constructor|]. cbn [map]. constructor; [|exact IH].
      intros v Hv Ev. rewrite EG, Phi in Ev. apply invert_matched; auto. }
    split.
    - apply (rows Gx); [apply mixture_cdf_increasing; auto; lra|]. intros v. unfold Gx. now rewrite !Phi, Rplus_0_r.
    - apply (rows Gy); [apply mixture_cdf_increasing; auto; lra|]. intros v. unfold Gy. rewrite !Phi. lra.
  Qed.

  Lemma latent_build dx dy k alpha lambd beta eta name h : 1 <= dx -> 1 <= dy -> 0 <= k <= Z.min dx dy ->
    let a := Z.to_nat dx in let b := Z.to_nat dy in
    let e := match eta with Some v => v | None => lambd end in
    let cov := latent_cov a (Z.to_nat k) alpha lambd beta e in
    exists C, has_entries (a + b) C cov /\
    builds (task_multinormal_lvm F eigvals mvn dx dy k alpha lambd beta eta name) h
      (dashed (["multinormal"; "lvm"; int_str dx; int_str dy; int_str k]%string ++ map (float_fixed F 5) [alpha; lambd; beta; e]))
      (given name ("Multinormal " ++ int_str dx ++ " × " ++ int_str dy ++ " (LVM)")) dx dy
      (gaussian_mi (sigma a b C)) (latent_parameters dx dy k alpha lambd beta e) (normal_pairs mvn a b (normalised cov)).
  Proof using He.
    clear psi log_gamma mvt. intros Hx Hy Hk a b e cov.
    destruct (latent_normal (k := k) He mvn alpha lambd beta e Hx Hy ltac:(lia) ltac:(lia) ltac:(lia)) as (C0 & C & s & H0 & E2 & E3 & M & S).
    fold a b in H0, E2, M, S. exists C0. split; [exact H0|].
    unfold task_multinormal_lvm, builds. change (default eta lambd) with e.
    unfold pbind at 1, lift at 1. rewrite lvm_parameters_ok by lia. fold a b.
    unfold pbind at 1, lift at 1. rewrite E2. unfold pbind at 1, lift at 1. rewrite E3. cbv zeta.
    replace (latent_parameters dx dy k alpha lambd beta e) with (lvm_dict (shared a b (Z.to_nat k) alpha lambd beta e))
      by (unfold lvm_dict, latent_parameters, shared, a, b; cbn [lv_dim_x lv_dim_y lv_n_interacting lv_alpha lv_lambd lv_epsilon_x lv_epsilon_y lv_beta_x lv_beta_y lv_eta_x lv_eta_y]; rewrite !Z2Nat.id by lia; reflexivity).
    apply (builds_from s dx dy _ _ _ _ h h _ _ S M Hx Hy (ext_refl h)); [rewrite dims_str_app; apply or_name_given|discriminate].
  Qed.

  Lemma sparse_build dx dy k st name h : 1 <= dx -> 1 <= dy -> 0 <= k <= Z.min dx dy ->
    let a := Z.to_nat dx in let r := strength_correlation st in
    builds (task_multinormal_sparse F eigvals mvn dx dy k st name) h
      (dashed ["multinormal"; "sparse"; int_str dx; int_str dy; int_str k; float_repr F st]%string)
      (given name ("Multinormal " ++ int_str dx ++ " × " ++ int_str dy ++ " (sparse)")) dx dy
      (paired_mi (Z.to_nat k) r) [("n_interacting", PInt k); ("strength", PFloat (Fin st))]%string
      (normal_pairs mvn a (Z.to_nat dy) (paired_off a (Z.to_nat k) r)).
  Proof using He.
    clear psi log_gamma mvt. intros Hx Hy Hk a r.
    destruct (sparse_normal (k := k) He mvn st Hx Hy ltac:(lia) ltac:(lia) ltac:(lia)) as (C & s & E2 & E3 & M & S).
    unfold task_multinormal_sparse, task_multinormal_lvm, builds. cbv zeta. cbn [default].
    unfold pbind at 1, pbind at 1, lift at 1. rewrite lvm_parameters_ok by lia.
    unfold pbind at 1, lift at 1. rewrite E2. unfold pbind at 1, lift at 1. rewrite E3.
    unfold pbind at 1. rewrite name_none. cbv beta iota.
    unfold pbind at 1. destruct (new_dict_ext (lvm_dict (shared (Z.to_nat dx) (Z.to_nat dy) (Z.to_nat k) 0 st 0 st)) h) as (-> & X & L).
    unfold pret at 1. cbv beta iota.
    apply (builds_from s dx dy _ _ _ _ h _ _ _ S M Hx Hy X); [rewrite dims_str_app; apply or_name_given|discriminate].
  Qed.

  Lemma given_twice name d d' : d <> ""%string -> given (Some (given name d)) d' = given name d.
  Proof. intros H. destruct name as [[|]|]; cbn [given]; auto; destruct d; cbn [given]; auto; now destruct H. Qed.

  Lemma pair_build dx dy st name h : 2 <= dx -> 2 <= dy ->
    let a := Z.to_nat dx in let r := strength_correlation st in
    builds (task_multinormal_2pair F eigvals mvn dx dy st name) h
      (dashed ["multinormal"; "sparse"; int_str dx; int_str dy; "2"; float_repr F st]%string)
      (given name ("Multinormal " ++ int_str dx ++ " × " ++ int_str dy ++ " (2-pair)")) dx dy
      (paired_mi 2 r) [("n_interacting", PInt 2); ("strength", PFloat (Fin st))]%string
      (normal_pairs mvn a (Z.to_nat dy) (paired_off a 2 r)).
  Proof using He.
    clear psi log_gamma mvt. intros Hx Hy a r. unfold task_multinormal_2pair, builds, pbind at 1. rewrite or_name_given.
    assert (B := sparse_build dx dy 2 st (Some (given name ("Multinormal " ++ dims_str dx dy ++ " (2-pair)"))) h ltac:(lia) ltac:(lia) ltac:(lia)).
    rewrite given_twice in B by discriminate.
    rewrite dims_str_app in *. exact B.
  Qed.

  Lemma listed_of n C f : has_entries n C f -> matrix_list C = listed n f.
  Proof.
    clear psi log_gamma mvt. intros [Sh En]. destruct (proj1 (shape_rows _ _ _) Sh) as [L Rw]. unfold matrix_list, listed. f_equal.
    set (f1 := fun row : list R => PList (map (fun v => PFloat (Fin v)) row)).
    set (f2 := fun i => PList (map (fun j => PFloat (Fin (f i j))) (seq 0 n))).
    apply nth_ext with (d := f1 []) (d' := f2 0%nat); [now rewrite !map_length, seq_length|].
    intros i Hi. rewrite map_length, L in Hi. rewrite !map_nth, seq_nth by lia. cbn [plus]. unfold f1, f2. f_equal.
    assert (Li : length (nth i C []) = n) by (apply Rw; lia).
    apply nth_ext with (d := PFloat (Fin 0)) (d' := PFloat (Fin (f i 0%nat))); [now rewrite !map_length, seq_length|].
    intros j Hj. rewrite map_length, Li in Hj.
    rewrite (map_nth (fun v => PFloat (Fin v)) _ 0%R), (map_nth (fun j => PFloat (Fin (f i j)))), seq_nth by lia. cbn [plus].
    do 2 f_equal. apply (En i j Hi Hj).
  Qed.
  Lemma dense_listed dx dy r : 1 <= dx -> 1 <= dy ->
    matrix_list (constant_correlation (dx + dy) r) = listed (Z.to_nat dx + Z.to_nat dy) (constant_off r).
  Proof.
    clear psi log_gamma mvt. intros Hx Hy. apply listed_of. replace (dx + dy) with (Z.of_nat (Z.to_nat dx + Z.to_nat dy)) by lia. apply dense_entries.
  Qed.

  Lemma dense_build dx dy r name h : 1 <= dx -> 1 <= dy -> (r < 1)%R -> (-1 < (IZR (dx + dy) - 1) * r)%R ->
    let a := Z.to_nat dx in let b := Z.to_nat dy in
    builds (task_multinormal_dense F eigvals mvn dx dy r name) h
      (dashed ["multinormal"; "dense"; int_str dx; int_str dy; float_repr F r]%string)
      (given name ("Multinormal " ++ int_str dx ++ " × " ++ int_str dy ++ " (dense)")) dx dy
      (dense_mi a b r) [("off_diag", PFloat (Fin r)); ("covariance", listed (a + b) (constant_off r))]%string
      (normal_pairs mvn a b (constant_off r)).
  Proof using He.
    clear psi log_gamma mvt. intros Hx Hy R1 R2 a b. destruct (dense_normal He mvn Hx Hy R1 R2) as (s & E & M & S).
    unfold task_multinormal_dense, builds. cbv zeta. unfold pbind at 1, lift. rewrite E.
    unfold a, b. rewrite <- dense_listed by lia.
    apply (builds_from s dx dy _ _ _ _ h h _ _ S M Hx Hy (ext_refl h)); [rewrite dims_str_app; apply or_name_given|discriminate].
  Qed.

  (** *** Student variables *)
  Section Student.
  Hypothesis Hm : forall r mu D df k, length (mvt r mu D df k) = k.
  Notation correction df dx dy := (student_correction psi log_gamma (IZR df) (Z.to_nat dx) (Z.to_nat dy)).

  Lemma student_identity_build dx dy df name h : 1 <= dx -> 1 <= dy -> 1 <= df -> (0 <= correction df dx dy)%R ->
    let a := Z.to_nat dx in let b := Z.to_nat dy in
    builds (J := J) (task_student_identity eigvals psi log_gamma mvt dx dy df name) h
      (dashed ["student"; "identity"; int_str dx; int_str dy; int_str df]%string)
      (given name ("Student-t " ++ int_str dx ++ " × " ++ int_str dy ++ " (dof=" ++ int_str df ++ ")")) dx dy
      (correction df dx dy) [("dof", PInt df)]%string (student_pairs mvt a b df (constant_off 0)).
  Proof using He Hm.
    intros Hx Hy Hd M a b. destruct (BasicGaussian.identity_student He J psi log_gamma Hx Hy Hd Hm) as (s & E & S).
    unfold task_student_identity, builds. unfold pbind at 1, lift. rewrite E.
    apply (builds_from s dx dy _ _ _ _ h h _ _ S M Hx Hy (ext_refl h)); [rewrite dims_str_app; apply or_name_given|discriminate].
  Qed.

  Lemma student_dense_build dx dy df r name h : 1 <= dx -> 1 <= dy -> 1 <= df -> (r < 1)%R -> (-1 < (IZR (dx + dy) - 1) * r)%R ->
    let a := Z.to_nat dx in let b := Z.to_nat dy in
    (0 <= dense_mi a b r + correction df dx dy)%R ->
    builds (J := J) (task_student_dense F eigvals psi log_gamma mvt dx dy df r name) h
      (dashed ["student"; "dense"; int_str dx; int_str dy; int_str df; float_repr F r]%string)
      (given name ("Student-t " ++ int_str dx ++ " × " ++ int_str dy ++ " (dof=" ++ int_str df ++ ", dense)")) dx dy
      (dense_mi a b r + correction df dx dy)%R
      [("dof", PInt df); ("off_diag", PFloat (Fin r)); ("dispersion", listed (a + b) (constant_off r))]%string
      (student_pairs mvt a b df (constant_off r)).
  Proof using He Hm.
    intros Hx Hy Hd R1 R2 a b M. destruct (dense_student He J psi log_gamma Hx Hy Hd Hm R1 R2) as (s & E & S).
    unfold task_student_dense, builds. cbv zeta. unfold pbind at 1, lift. rewrite E.
    unfold a, b. rewrite <- dense_listed by lia.
    apply (builds_from s dx dy _ _ _ _ h h _ _ S M Hx Hy (ext_refl h)); [rewrite dims_str_app; apply or_name_given|discriminate].
  Qed.

  Lemma student_sparse_build dx dy df k st name h : 1 <= dx -> 1 <= dy -> 1 <= df -> 0 <= k <= Z.min dx dy ->
    let a := Z.to_nat dx in let r := strength_correlation st in
    (0 <= paired_mi (Z.to_nat k) r + correction df dx dy)%R ->
    builds (J := J) (task_student_sparse F eigvals psi log_gamma mvt dx dy df k st name) h
      (dashed ["student"; "sparse"; int_str dx; int_str dy; int_str df; int_str k; float_repr F st]%string)
      (given name ("Student-t " ++ int_str dx ++ " × " ++ int_str dy ++ " (dof=" ++ int_str df ++ ", sparse)")) dx dy
      (paired_mi (Z.to_nat k) r + correction df dx dy)%R
      [("dof", PInt df); ("n_interacting", PInt k); ("strength", PFloat (Fin st))]%string
      (student_pairs mvt a (Z.to_nat dy) df (paired_off a (Z.to_nat k) r)).
  Proof using He Hm.
    intros Hx Hy Hd Hk a r M.
    destruct (sparse_student He J psi log_gamma st Hx Hy Hd (k := k) ltac:(lia) ltac:(lia) ltac:(lia) Hm) as (C & s & E2 & E3 & S).
    unfold task_student_sparse, builds. unfold pbind at 1, lift at 1. rewrite lvm_parameters_ok by lia.
    unfold pbind at 1, lift at 1. rewrite E2. unfold pbind at 1, lift at 1. rewrite E3. cbv zeta.
    apply (builds_from s dx dy _ _ _ _ h h _ _ S M Hx Hy (ext_refl h)); [rewrite dims_str_app; apply or_name_given|discriminate].
  Qed.

  Lemma student_pair_build dx dy df st name h : 2 <= dx -> 2 <= dy -> 1 <= df ->
    let a := Z.to_nat dx in let r := strength_correlation st in
    (0 <= paired_mi 2 r + correction df dx dy)%R ->
    builds (J := J) (task_student_2pair F eigvals psi log_gamma mvt dx dy df st name) h
      (dashed ["student"; "sparse"; int_str dx; int_str dy; int_str df; "2"; float_repr F st]%string)
      (given name ("Student-t " ++ int_str dx ++ " × " ++ int_str dy ++ " (dof=" ++ int_str df ++ ", 2-pair)")) dx dy
      (paired_mi 2 r + correction df dx dy)%R
      [("dof", PInt df); ("n_interacting", PInt 2); ("strength", PFloat (Fin st))]%string
      (student_pairs mvt a (Z.to_nat dy) df (paired_off a 2 r)).
  Proof using He Hm.
    intros Hx Hy Hd a r M. unfold task_student_2pair, builds, pbind at 1. rewrite or_name_given.
    assert (B := student_sparse_build dx dy df 2 st (Some (given name ("Student-t " ++ dims_str dx dy ++ " (dof=" ++ int_str df ++ ", 2-pair)"))) h
      ltac:(lia) ltac:(lia) Hd ltac:(lia) M).
    rewrite given_twice in B by discriminate.
    rewrite dims_str_app in *. exact B.
  Qed.
  End Student.
  End Accepting.

  (** *** Rejected arguments *)
  Lemma bivariate_reject rho h : (rho <= -1 \/ 1 <= rho)%R -> task_bivariate_normal F eigvals mvn rho h = (h, Err ValueError).
  Proof.
    clear psi log_gamma mvt. intros H. unfold task_bivariate_normal, pbind, lift, bivariate_normal_sampler. cbn [base_sampler_init validate_dimensions bind].
    change (base_sampler_init 1 1) with (Ok (1, 1)). cbn [bind].
    destruct (Rleb (Rmin 1 1) 0); [reflexivity|].
    unfold Rltb. destruct (Rlt_dec (-1) rho); destruct (Rlt_dec rho 1); cbn; try reflexivity. lra.
  Qed.
  Lemma bimodal_reject erf rho h : (rho <= -1 \/ 1 <= rho)%R -> task_bimodal_gaussians F erf eigvals mvn rho h = (h, Err ValueError).
  Proof. intros H. unfold task_bimodal_gaussians, pbind at 1. now rewrite bivariate_reject. Qed.

  Lemma parameters_reject dx dy k alpha lambd beta eta : k < 0 \/ Z.min dx dy < k ->
    lvm_parameters dx dy k alpha lambd beta eta = Err ValueError.
  Proof.
    clear psi log_gamma mvt. intros H. unfold lvm_parameters, lvm_init. destruct (Z.leb_spec 0 k); destruct (Z.leb_spec k (Z.min dx dy)); try reflexivity. lia.
  Qed.
  Lemma latent_reject dx dy k : k < 0 \/ Z.min dx dy < k -> forall alpha lambd beta eta st df name h,
    task_multinormal_lvm F eigvals mvn dx dy k alpha lambd beta eta name h = (h, Err ValueError) /\
    task_multinormal_sparse F eigvals mvn dx dy k st name h = (h, Err ValueError) /\
    task_student_sparse (J := J) F eigvals psi log_gamma mvt dx dy df k st name h = (h, Err ValueError).
  Proof.
    intros H alpha lambd beta eta st df name h.
    assert (A : forall alpha lambd beta eta name, task_multinormal_lvm F eigvals mvn dx dy k alpha lambd beta eta name h = (h, Err ValueError)).
    { intros. unfold task_multinormal_lvm, pbind at 1, lift at 1. now rewrite parameters_reject. }
    split; [apply A|]. split; [unfold task_multinormal_sparse, pbind at 1; now rewrite A|].
    unfold task_student_sparse, pbind at 1, lift at 1. now rewrite parameters_reject.
  Qed.
  Lemma pair_reject dx dy : Z.min dx dy < 2 -> forall df st name h,
    task_multinormal_2pair F eigvals mvn dx dy st name h = (h, Err ValueError) /\
    task_student_2pair (J := J) F eigvals psi log_gamma mvt dx dy df st name h = (h, Err ValueError).
  Proof.
    intros H df st name h.
    unfold task_multinormal_2pair, task_student_2pair, pbind at 1 2. rewrite !or_name_given.
    split; apply latent_reject; auto using 0%R, None; exact R0 || exact None.
  Qed.
  Lemma dense_reject dx dy r : 1 <= dx -> 1 <= dy ->
    (let C := constant_correlation (dx + dy) r in eigvals_ok (Z.to_nat dx + Z.to_nat dy) C (eigvals C)) ->
    (1 <= r \/ (IZR (dx + dy) - 1) * r <= -1)%R -> forall df name h,
    task_multinormal_dense F eigvals mvn dx dy r name h = (h, Err ValueError) /\
    task_student_dense (J := J) F eigvals psi log_gamma mvt dx dy df r name h = (h, Err ValueError).
  Proof.
    intros Hx Hy Ok Bad df name h. destruct (dense_rejected mvn psi log_gamma mvt Hx Hy Ok Bad) as [A B].
    unfold task_multinormal_dense, task_student_dense, pbind at 1 4, lift at 1 2. cbv zeta. now rewrite A, B.
  Qed.
End Build.

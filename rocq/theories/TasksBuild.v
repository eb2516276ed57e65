(** The published list of tasks can be built ([TasksModel]). *)
From Coq Require Import String.
From Verif Require Import Base UtilsModel JaxModel SamplersModel GaussianModel MatrixUtilsModel TransformsModel
  BaseLemmas TrainingSpec SamplersSpec SamplersProofs SamplersThms BenchmarkModel BenchmarkSpec BenchmarkProofs BenchmarkThms TasksModel TasksSpec TasksProofs TasksThms
  GaussianSpec TasksGaussian.
Open Scope Z_scope.
Local Notation length := List.length.

Section Build.
  Context {J : prng}.

  (** A program which, in every heap like [h], makes a usable task with these dimensions
      and changes no dictionary. *)
  Definition makes (p : prog (task J)) (h : dheap) (dx dy : Z) : Prop :=
    exists h' t, p h = (h', Ok t) /\ ext h h' /\ usable t h' /\ dim_x (t_sampler t) = Ok dx /\ dim_y (t_sampler t) = Ok dy.

  Definition fine (s : sampler J) (dx dy : Z) : Prop :=
    dim_x s = Ok dx /\ dim_y s = Ok dy /\ exists mi, mutual_information s = Ok mi /\ fl_ltb mi (Fin 0) = false /\ mi <> NaN.
  Lemma sound_fine s dx dy : sound_sampler s dx dy -> fine s dx dy.
  Proof.
    intros (Dx & Dy & v & M & P). repeat split; auto. exists (Fin v). split; [exact M|]. split; [|discriminate].
    cbn. unfold Rltb. destruct (Rlt_dec v 0); [lra|reflexivity].
  Qed.
  Lemma fine_usable (s : sampler J) dx dy i n p h : fine s dx dy -> 1 <= dx -> 1 <= dy -> (p < length h)%nat ->
    usable {| t_sampler := s; t_id := i; t_name := n; t_params := Some p |} h.
  Proof.
    intros (Dx & Dy & mi & M & P & N) Hx Hy L. set (t := {| t_sampler := s; t_id := i; t_name := n; t_params := Some p |}).
    destruct (metadata_ok t h dx dy mi) as (h1 & m & E & _ & _ & X & Y & _); auto.
    split; [exact L|]. exists h1, m. rewrite X, Y. auto.
  Qed.

  Lemma new_dict_ext d h : new_dict d h = ((h ++ [d])%list, Ok (length h)) /\ ext h (h ++ [d]) /\ (length h < length (h ++ [d])%list)%nat.
  Proof.
    split; [reflexivity|]. rewrite app_length. cbn. split; [|lia]. split; [rewrite app_length; lia|].
    intros r Hr. now apply dread_app.
  Qed.

  Lemma constructor_makes s dx dy d i (n : prog string) h nm : fine s dx dy -> 1 <= dx -> 1 <= dy ->
    n h = (h, Ok nm) ->
    makes (run n <- n; run p <- new_dict d; pret {| t_sampler := s; t_id := i; t_name := n; t_params := Some p |}) h dx dy.
  Proof.
    intros S Hx Hy N. destruct (new_dict_ext d h) as (E & X & L).
    unfold makes, pbind, pret. rewrite N, E. eexists _, _. split; [reflexivity|]. split; [exact X|].
    split; [eapply fine_usable; eauto|]. destruct S as (? & ? & _). auto.
  Qed.
  Lemma constructor_makes' s dx dy d i n h : fine s dx dy -> 1 <= dx -> 1 <= dy ->
    makes (run p <- new_dict d; pret {| t_sampler := s; t_id := i; t_name := n; t_params := Some p |}) h dx dy.
  Proof. intros S Hx Hy. exact (constructor_makes s dx dy d i (pret n) h n S Hx Hy eq_refl). Qed.

  Lemma derived_makes (base t : task J) h h' id name ax new on_x on_y dx dy : derived base t h h' id name ax new on_x on_y ->
    dim_x (t_sampler base) = Ok dx -> dim_y (t_sampler base) = Ok dy ->
    ext h h' /\ usable t h' /\ dim_x (t_sampler t) = Ok (dx + ax) /\ dim_y (t_sampler t) = Ok dy.
  Proof.
    intros (U & L & h1 & m & h2 & m' & M & M' & _ & _ & _ & X & Y & _ & K & _) Dx Dy.
    destruct (metadata_inv _ _ _ _ M) as (_ & _ & A & B & _). destruct (metadata_inv _ _ _ _ M') as (_ & _ & A' & B' & _).
    split; [split; auto|]. split; [exact U|]. split; congruence.
  Qed.

  Lemma name_none (p : string) h : or_name None (pret p) h = (h, Ok p).
  Proof. reflexivity. Qed.

  Lemma makes_bind p q h dx dy ex ey : makes p h dx dy ->
    (forall t h', ext h h' -> usable t h' -> dim_x (t_sampler t) = Ok dx -> dim_y (t_sampler t) = Ok dy -> makes (q t) h' ex ey) ->
    makes (pbind p q) h ex ey.
  Proof.
    intros (h1 & t & E & X & U & Dx & Dy) K. destruct (K t h1 X U Dx Dy) as (h2 & u & E2 & X2 & R).
    exists h2, u. unfold pbind. rewrite E. split; [exact E2|]. split; [eapply ext_trans; eauto|exact R].
  Qed.

  Section Transforms.
    Variables (erf : R -> R) (expm : expm_function).
    Variables (t : task J) (h : dheap) (dx dy : Z).
    Hypotheses (U : usable t h) (Dx : dim_x (t_sampler t) = Ok dx) (Dy : dim_y (t_sampler t) = Ok dy).

    Ltac by_derived L := destruct L as (h' & u & E & D & _); destruct (derived_makes _ _ _ _ _ _ _ _ _ _ _ _ D Dx Dy) as (X & V & A & B);
      rewrite Z.add_0_r in A; exists h', u; auto.
    Lemma asinh_makes : makes (asinh t) h dx dy.
    Proof. by_derived (asinh_derived t None h U). Qed.
    Lemma half_makes : makes (half_cubed t) h dx dy.
    Proof. by_derived (half_cube_derived t None h U). Qed.
    Lemma cdf_makes : makes (normal_cdfise erf t) h dx dy.
    Proof. by_derived (normal_cdf_derived erf t None h U). Qed.
    Lemma wiggly_makes : makes (wigglify t) h dx dy.
    Proof. by_derived (wiggly_derived t None h U). Qed.
    Lemma swissroll_makes name : dx = 1 -> makes (transform_swissroll_task t name) h 2 dy.
    Proof.
      intros ->. destruct (swissroll_derived t name h U Dx) as (h' & u & E & D).
      destruct (derived_makes _ _ _ _ _ _ _ _ _ _ _ _ D Dx Dy) as (X & V & A & B). exists h', u. auto.
    Qed.
    Lemma spiral_makes : 2 <= dx -> 3 <= dy -> makes (spiralise expm t) h dx dy.
    Proof.
      intros Lx Ly. unfold spiralise.
      destruct (spiral_derived expm t 1 None true h dx dy U Dx Dy Lx Ly) as (h' & u & gx & gy & sx & sy & E & _ & _ & _ & _ & D & _).
      destruct (derived_makes _ _ _ _ _ _ _ _ _ _ _ _ D Dx Dy) as (X & V & A & B). rewrite Z.add_0_r in A. exists h', u. auto.
    Qed.
    Lemma pret_makes : makes (pret t) h dx dy.
    Proof. exists h, t. split; [reflexivity|]. split; [apply ext_refl|auto]. Qed.
  End Transforms.

  Lemma sequence_makes (ps : list (prog (task J))) : forall h0 h,
    ext h0 h -> Forall (fun p => exists dx dy, forall h, ext h0 h -> makes p h dx dy) ps ->
    exists h' l, sequence ps h = (h', Ok l) /\ ext h h' /\ Forall (fun t => usable t h') l.
  Proof.
    induction ps as [|p ps IH]; intros h0 h X F; cbn [sequence].
    - exists h, []. split; [reflexivity|]. split; [apply ext_refl|constructor].
    - inversion F as [|? ? (dx & dy & M) F']; subst.
      destruct (M h X) as (h1 & t & E & X1 & U & _).
      destruct (IH h0 h1) as (h2 & l & E2 & X2 & Us); [eapply ext_trans; eauto|exact F'|].
      exists h2, (t :: l). unfold pbind, pret. rewrite E, E2. split; [reflexivity|]. split; [eapply ext_trans; eauto|].
      constructor; [eapply usable_ext; eauto|exact Us].
  Qed.

  Section Tasks.
    Variables (F : formats) (D : draws J) (erf : R -> R) (expm : expm_function) (eigvals : matrix -> list (R * R))
      (mvn : key J -> list R -> matrix -> nat -> matrix) (psi log_gamma : R -> R)
      (mvt : Z -> list R -> matrix -> fl -> nat -> matrix).
    Hypotheses (HJ : prng_ok J) (HD : draws_ok J D) (He : eigvals_positive eigvals).
    (** The corrections of the Student tasks of the list are not negative. *)
    Hypothesis Hs : forall d df, In (d, df) [(1, 1); (2, 1); (2, 2); (3, 2); (3, 3); (5, 2); (5, 3)] ->
      (0 <= student_correction psi log_gamma (IZR df) (Z.to_nat d) (Z.to_nat d))%R.

    Lemma additive_makes eps h : (0 < eps)%R -> makes (task_additive_noise F D eps) h 1 1.
    Proof.
      intros P. destruct (additive_true_mi J D HJ HD eps P) as (s & mi & E & M & Pm & _).
      unfold task_additive_noise, pbind at 1, lift. rewrite E. apply (constructor_makes' s); [|lia|lia].
      apply sound_fine. unfold additive_uniform_sampler in E. cbn in E. destruct (Rleb eps 0); [discriminate|]. injection E as <-.
      split; [reflexivity|]. split; [reflexivity|]. exists mi. split; [exact M|lra].
    Qed.
    Lemma binormal_makes rho h : (-1 < rho < 1)%R -> makes (task_bivariate_normal F eigvals mvn rho) h 1 1.
    Proof.
      intros [P Q]. destruct (binormal_sampler He mvn P Q) as (s & r & E & S).
      unfold task_bivariate_normal, makes, pbind at 1, lift. rewrite E. apply (constructor_makes' s); [apply sound_fine, S|lia|lia].
    Qed.
    Lemma bimodal_makes rho h : (-1 < rho < 1)%R -> makes (task_bimodal_gaussians F erf eigvals mvn rho) h 1 1.
    Proof.
      intros P. unfold task_bimodal_gaussians.
      eapply makes_bind; [apply binormal_makes, P|]. intros t h1 X1 U1 Dx1 Dy1.
      eapply makes_bind; [exact (cdf_makes erf t h1 1 1 U1 Dx1 Dy1)|]. intros u h2 X2 U2 Dx2 Dy2. cbv zeta.
      destruct (usable_ready _ _ U2) as (dx & dy & mi & R & _ & _).
      assert (dx = 1 /\ dy = 1) as [-> ->] by (destruct R as (_ & A & B & _); split; congruence).
      set (fx := invert_cdf _). set (fy := invert_cdf (fun x => 5 / 10 * _ + _)%R).
      destruct (transformed_ok (t_sampler u) (Some (elementwise fx)) (Some (elementwise fy)) 0 true 1 1) as [s T]; [auto|auto|lia|lia|lia|].
      unfold makes, pbind at 1, lift. rewrite T. apply (constructor_makes' s); [|lia|lia].
      destruct (mi_of_transformed _ _ _ _ _ _ _ _ T) as (Em & Ex & Ey).
      destruct R as (_ & Rx & Ry & Rm & Rp & Rn). split; [exact (Ex _ Rx)|]. split; [exact (Ey _ Ry)|].
      exists mi. rewrite Em. auto.
    Qed.

    Lemma dense_makes d h : 1 <= d -> makes (dense F eigvals mvn d) h d d.
    Proof.
      intros H. destruct (dense_sampler He mvn (dx := d) (dy := d) (off := (5 / 10)%R)) as (s & E & S); [lia|lia|lra|lra|].
      unfold dense, task_multinormal_dense, makes, pbind at 1, lift. rewrite E.
      eapply (constructor_makes s); [apply sound_fine, S|lia|lia|apply name_none].
    Qed.
    Lemma pair_makes d h : 2 <= d -> makes (two_pair F eigvals mvn d) h d d.
    Proof.
      intros H. destruct (sparse_sampler He mvn (dx := d) (dy := d) (k := 2) 0 2 0 2) as (p & c & s & E1 & E2 & E3 & S); [lia..|].
      unfold two_pair, task_multinormal_2pair, task_multinormal_sparse, task_multinormal_lvm.
      unfold makes. unfold pbind at 1. rewrite name_none. cbv beta iota zeta. cbn [default].
      unfold pbind at 1, pbind at 1, lift at 1. rewrite E1.
      unfold pbind at 1, lift at 1. rewrite E2. unfold pbind at 1, lift at 1. rewrite E3.
      unfold pbind at 1. rewrite name_none. cbv beta iota.
      unfold pbind at 1. destruct (new_dict_ext (lvm_dict p) h) as (-> & X & L). unfold pret at 1. cbv beta iota.
      destruct (constructor_makes s d d [("n_interacting", PInt 2); ("strength", PFloat (Fin 2))]%string
        ("multinormal-sparse-" ++ int_str d ++ "-" ++ int_str d ++ "-" ++ int_str 2 ++ "-" ++ float_repr F 2)
        (or_name (Some ("Multinormal " ++ dims_str d d ++ " (2-pair)")%string) (pret ("Multinormal " ++ dims_str d d ++ " (sparse)")%string))
        (h ++ [lvm_dict p])%list ("Multinormal " ++ dims_str d d ++ " (2-pair)")%string) as (h' & t & E & X' & R);
        [apply sound_fine, S|lia|lia|reflexivity|].
      exists h', t. split; [exact E|]. split; [eapply ext_trans; eauto|exact R].
    Qed.
    Lemma identity_makes d df h : In (d, df) [(1, 1); (2, 1); (2, 2); (3, 2); (3, 3); (5, 2); (5, 3)] ->
      makes (identity_student eigvals psi log_gamma mvt d df) h d d.
    Proof.
      intros H. assert (1 <= d /\ 1 <= df) as [Hd Hf].
      { cbn in H. repeat (destruct H as [H|H]; [injection H as <- <-; lia|]). contradiction. }
      assert (exists s : sampler J, student_sampler eigvals psi log_gamma mvt d d df (np_eye (Z.to_nat (d + d))) = Ok s /\ sound_sampler s d d) as (s & E & S).
      { apply (@identity_sampler _ He); auto; lia. }
      unfold identity_student, task_student_identity, makes, pbind at 1, lift. rewrite E.
      eapply (constructor_makes s); [apply sound_fine, S|lia|lia|apply name_none].
    Qed.

    Ltac member := cbn [In]; tauto.

    Lemma one_dim_builds h : exists h' l, one_dim_tasks F D erf eigvals mvn psi log_gamma mvt h = (h', Ok l) /\ ext h h' /\
      Forall (fun t => usable t h') l.
    Proof.
      unfold one_dim_tasks.
      destruct (binormal_makes (75 / 100) h) as (h1 & b & Eb & Xb & Ub & Bx & By); [lra|].
      unfold pbind at 1. rewrite Eb.
      destruct (cdf_makes erf b h1 1 1 Ub Bx By) as (h2 & u & Eu & Xu & Uu & Ux & Uy).
      unfold pbind at 1. rewrite Eu.
      destruct (identity_makes 1 1 h2) as (h3 & s & Es & Xs & Us & Sx & Sy); [member|].
      unfold pbind at 1. rewrite Es.
      assert (Ub3 : usable b h3) by (eapply usable_ext; [|exact Ub]; eapply ext_trans; eauto).
      assert (Uu3 : usable u h3) by (eapply usable_ext; eauto).
      destruct (sequence_makes [pret b; pret u; task_additive_noise F D (10 / 100); task_additive_noise F D (75 / 100);
         task_bimodal_gaussians F erf eigvals mvn (75 / 100); wigglify b; half_cubed b; pret s; asinh s] h3 h3)
        as (h4 & l & El & Xl & Ul); [apply ext_refl| |].
      { repeat apply Forall_cons; try apply Forall_nil; do 2 eexists; intros h' X;
          first [ apply additive_makes; lra | apply bimodal_makes; lra
                | apply pret_makes; [eapply usable_ext; eauto|eassumption|eassumption]
                | apply wiggly_makes; [eapply usable_ext; eauto|eassumption|eassumption]
                | apply half_makes; [eapply usable_ext; eauto|eassumption|eassumption]
                | apply asinh_makes; [eapply usable_ext; eauto|eassumption|eassumption] ]. }
      unfold pbind at 1. rewrite El.
      destruct (swissroll_makes u h4 1 1) with (name := "Swiss roll 2 × 1"%string) as (h5 & e & Ee & Xe & Ue & _);
        [eapply usable_ext; eauto|exact Ux|exact Uy|reflexivity|].
      unfold pbind at 1. rewrite Ee. unfold pret.
      exists h5, (l ++ [e])%list. split; [reflexivity|]. split; [repeat (eapply ext_trans; [eassumption|]); apply ext_refl|].
      apply Forall_app. split; [|auto]. eapply Forall_impl; [|exact Ul]. intros t. apply usable_ext, Xe.
    Qed.

    Lemma multinormal_builds h : exists h' l, multinormal_tasks F eigvals mvn h = (h', Ok l) /\ ext h h' /\ Forall (fun t : task J => usable t h') l.
    Proof.
      apply (sequence_makes _ h h); [apply ext_refl|].
      repeat apply Forall_cons; try apply Forall_nil; do 2 eexists; intros h' _; first [apply dense_makes; lia|apply pair_makes; lia].
    Qed.
    Lemma student_builds h : exists h' l, student_tasks eigvals psi log_gamma mvt h = (h', Ok l) /\ ext h h' /\ Forall (fun t : task J => usable t h') l.
    Proof.
      apply (sequence_makes _ h h); [apply ext_refl|].
      repeat apply Forall_cons; try apply Forall_nil; do 2 eexists; intros h' _; apply identity_makes; member.
    Qed.
    Lemma transformed_builds h : exists h' l, transformed_tasks F erf expm eigvals mvn psi log_gamma mvt h = (h', Ok l) /\ ext h h' /\
      Forall (fun t : task J => usable t h') l.
    Proof.
      unfold transformed_tasks.
      destruct (pair_makes 3 h) as (h1 & b3 & E3 & X3 & U3 & A3 & B3); [lia|]. unfold pbind at 1. rewrite E3.
      destruct (pair_makes 5 h1) as (h2 & b5 & E5 & X5 & U5 & A5 & B5); [lia|]. unfold pbind at 1. rewrite E5.
      destruct (pair_makes 25 h2) as (h3 & b25 & E25 & X25 & U25 & A25 & B25); [lia|]. unfold pbind at 1. rewrite E25.
      assert (V3 : usable b3 h3) by (eapply usable_ext; [|exact U3]; eapply ext_trans; eauto).
      assert (V5 : usable b5 h3) by (eapply usable_ext; eauto).
      edestruct (sequence_makes) with (h0 := h3) (h := h3) as (h4 & l & El & Xl & Ul); [apply ext_refl| |
        exists h4, l; split; [exact El|]; split; [repeat (eapply ext_trans; [eassumption|]); apply ext_refl|exact Ul]].
      Ltac item3 := apply Forall_cons; [do 2 eexists; intros h' X|].
      Ltac old3 := first [eapply usable_ext; eauto|eassumption|lia].
      do 3 (item3; [apply cdf_makes; old3|]). do 3 (item3; [apply half_makes; old3|]). do 3 (item3; [apply spiral_makes; old3|]).
      do 3 (item3; [eapply makes_bind; [apply cdf_makes; old3|intros; apply spiral_makes; first [eassumption|lia]]|]).
      do 3 (item3; [eapply makes_bind; [apply identity_makes; member|intros; apply asinh_makes; eassumption]|]).
      apply Forall_nil.
    Qed.

    Lemma list_builds h : exists h' l, benchmark_tasks_list F D erf expm eigvals mvn psi log_gamma mvt h = (h', Ok l) /\ ext h h' /\
      Forall (fun t => usable t h') l.
    Proof.
      unfold benchmark_tasks_list.
      destruct (one_dim_builds h) as (h1 & a & E1 & X1 & U1). unfold pbind at 1. rewrite E1.
      destruct (multinormal_builds h1) as (h2 & b & E2 & X2 & U2). unfold pbind at 1. rewrite E2.
      destruct (student_builds h2) as (h3 & c & E3 & X3 & U3). unfold pbind at 1. rewrite E3.
      destruct (transformed_builds h3) as (h4 & d & E4 & X4 & U4). unfold pbind at 1. rewrite E4. unfold pret.
      assert (K : forall (k : dheap) (l : list (task J)), ext k h4 -> Forall (fun t => usable t k) l -> Forall (fun t => usable t h4) l).
      { intros k l X. apply Forall_impl. intros t. apply usable_ext, X. }
      exists h4, (a ++ b ++ c ++ d)%list. split; [reflexivity|]. split; [repeat (eapply ext_trans; [eassumption|]); apply ext_refl|].
      repeat (apply Forall_app; split); try assumption; (eapply K; [|eassumption]); repeat (eapply ext_trans; [eassumption|]); apply ext_refl.
    Qed.

    Lemma dictionary_builds h : exists h' d, benchmark_tasks F D erf expm eigvals mvn psi log_gamma mvt h = (h', Ok d).
    Proof.
      unfold benchmark_tasks. destruct (list_builds h) as (h1 & l & E & _ & U). unfold pbind at 1. rewrite E.
      apply tasks_by_id_total, U.
    Qed.
  End Tasks.
End Build.

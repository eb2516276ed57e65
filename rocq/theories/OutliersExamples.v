(** Examples for contaminated distributions. *)
From Coq Require Import String ZArith Lia Lra.
From Verif Require Import Base BaseLemmas UtilsModel JaxModel SamplersModel GaussianModel MatrixUtilsModel BmmModel MultivariateModel
  MixturesModel PaperModel OutliersModel DiscreteSpec OutliersSpec BmmSpec BmmProofs OutliersThms TrainingExamples BmmExamples.
From mathcomp Require Import ssreflect.
From Verif Require Import MixturesSpec EigvalsExist MultivariateThms MultivariateExamples OutliersFactor OutliersMade.
Open Scope R_scope.
Local Notation length := List.length.

(** The sum over two points is an integral. *)
Definition two_points (f : list R -> list R -> R) : R := f [0; 0] [0; 0] + 2 * f [1; 1] [0; 1].
Lemma two_points_integral : integral two_points.
Proof.
  split; unfold two_points; [intros; ring|]. intros f g H. assert (A := H [0; 0] [0; 0]). assert (B := H [1; 1] [0; 1]). lra.
Qed.

(** Half of the square with density 4xy, with noise of density 1. *)
Lemma square_densities : densities (square tilt) (fun x y => two_dim tilt (x ++ y)%list) (one_dim tilt) (one_dim tilt).
Proof.
  split; cbn [dist_joint dist_x dist_y square jd_dim_x jd_dim_y].
  - intros x y Lx Ly. apply has_density_log. split; [|reflexivity].
    destruct x as [|u [|]]; try discriminate. destruct y as [|v [|]]; try discriminate. cbn. apply Rmult_le_pos; apply tilt_nonneg.
  - intros x Lx. apply has_density_log. split; [|reflexivity]. destruct x as [|u [|]]; try discriminate. apply tilt_nonneg.
  - intros x Lx. apply has_density_log. split; [|reflexivity]. destruct x as [|u [|]]; try discriminate. apply tilt_nonneg.
Qed.
Lemma half_level : 0 <= 1 / 2 <= 1.
Proof. lra. Qed.
Lemma flat_side y : length y = jd_dim_y (square tilt) -> has_density (side flat) y (one_dim flat y).
Proof. intros Ly. apply has_density_log. split; [|reflexivity]. destruct y as [|v [|]]; try discriminate. apply flat_nonneg. Qed.
Lemma half_noise : exists noise d, product_distribution demo_tfp (dist_x (square tilt)) (side flat) = Ok noise /\
  setup_mixture demo_tfp {| dist_true := square tilt; dist_noise := noise |} (1 / 2) = Ok d /\
  densities d (contaminated (1 / 2) (fun x y => two_dim tilt (x ++ y)%list) (one_dim tilt) (one_dim flat)) (one_dim tilt)
    (contaminated_y (1 / 2) (one_dim tilt) (one_dim flat)).
Proof.
  destruct (product_distribution demo_tfp (dist_x (square tilt)) (side flat)) as [noise|] eqn:N; [|discriminate].
  destruct (setup_mixture demo_tfp {| dist_true := square tilt; dist_noise := noise |} (1 / 2)) as [d|] eqn:M.
  - exists noise, d. split; [reflexivity|]. split; [exact M|].
    apply (contaminate demo_tfp (square tilt) (side flat) noise d (1 / 2) (fun x y => two_dim tilt (x ++ y)%list) (one_dim tilt) (one_dim tilt) (one_dim flat)
      half_level square_densities flat_side); [| |exact N|exact M]; injection N as <-; reflexivity.
  - injection N as <-. discriminate.
Qed.

Lemma demo_setups : exists eigvals cholesky setups, eigvals_symmetric eigvals /\ factorises cholesky /\
  change_mixing_setups demo_tfp eigvals cholesky demo_normal_draw = Ok setups /\ length setups = 2%nat.
Proof.
  destruct eigvals_exists as [e He]. destruct cholesky_exists as [c Hc].
  destruct (setups_made demo_tfp e c demo_normal_draw He Hc) as (s & i & o & _ & E & _). exists e, c. eexists. split; [exact He|]. split; [exact Hc|]. split; [exact E|reflexivity].
Qed.
Lemma demo_contaminated : exists d : joint_distribution demo, contaminated_signal d (2 / 10) 25.
Proof.
  destruct eigvals_exists as [e He]. destruct cholesky_exists as [c Hc].
  destruct (setups_made demo_tfp e c demo_normal_draw He Hc) as (s & i & o & _ & _ & _ & M). destruct (M (2 / 10)) as (d & _ & D & _); [lra|]. eauto.
Qed.

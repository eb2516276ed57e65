(** Concrete configurations for the statements in [ConfigProps]. *)
From Coq Require Import String.
From Verif Require Import Base UtilsModel JaxModel SamplersModel GaussianModel MatrixUtilsModel TransformsModel
  BaseLemmas TrainingSpec SamplersSpec TransformsSpec ExpmProofs BmmModel MultivariateModel BenchmarkModel BenchmarkSpec
  TasksModel TasksSpec GaussianSpec TasksGaussian TasksBuild MixturesModel ConfigModel ConfigSpec ConfigThms MixturesSpec ConfigMixtures ConfigBuild ConfigLoad
  TrainingExamples SamplersExamples TasksExamples BmmExamples MultivariateExamples MultivariateThms EigvalsExist.
Open Scope Z_scope.
Local Notation length := List.length.

Definition more_formats : formats :=
  {| float_repr := fun x => if Reqb x (9 / 10) then "0.9" else if Reqb x (2 / 10) then "0.2" else if Reqb x 3 then "3.0"
                            else if Reqb x 5 then "5.0" else float_repr ex_formats x;
     float_fixed := fun _ _ => "0.00000" |}%string.
Lemma more_formats_ok : more_floats more_formats.
Proof.
  unfold more_floats, python_floats, more_formats, ex_formats, Reqb. cbn [float_repr].
  repeat split; repeat match goal with |- context [Req_EM_T ?a ?b] => destruct (Req_EM_T a b); try lra end; reflexivity.
Qed.
Definition ex_percent (x : R) : string := if Reqb x (2 / 10) then "20%"%string else "50%"%string.
Lemma ex_percent_ok : percents ex_percent.
Proof.
  unfold percents, ex_percent, Reqb.
  split; repeat match goal with |- context [Req_EM_T ?a ?b] => destruct (Req_EM_T a b); try lra end; reflexivity.
Qed.

Lemma loading_closed {J} u t (h : dheap) es : @loading J u t h es [] -> exists h' d, t h = (h', Ok d) /\ map fst d = map entry_id es.
Proof.
  intros (h0 & bs & E & L & I & A & _). destruct A as (h' & d & E' & R); [apply Forall_forall; intros b K; apply I; auto|].
  exists h', d. split; [exact E'|]. transitivity (map t_id bs).
  - clear - R. induction R as [|b kt bs d [H _] R IH]; cbn; congruence.
  - clear - L. induction L as [|e b es bs (H & _) L IH]; cbn; congruence.
Qed.
Lemma ex_demo : exists h' d, demo_tasks (J := demo) more_formats (fun x => x) ex_eigvals (fun _ _ _ n => repeat [] n) [] = (h', Ok d) /\
  map fst d = ["swissroll_x-normal_cdf-1v1-normal-0.75"; "multinormal-dense-3-3-0.5"]%string.
Proof.
  apply (loading_closed _ _ _ demo_catalogue (demo_loads (J := demo) more_formats (fun x => x) ex_eigvals
    (fun _ _ _ n => repeat [] n) more_formats_ok ex_eigvals_ok [])).
Qed.
Lemma ex_v1 : exists h' d, v1_tasks (J := demo) more_formats demo_draws (fun x => x) zero_expm ex_eigvals (fun _ _ _ n => repeat [] n)
    (fun _ => 0%R) (fun _ => 0%R) (fun _ _ _ _ n => repeat [] n) [] = (h', Ok d) /\ length d = 39%nat.
Proof.
  destruct (loading_closed _ _ _ v1_catalogue (v1_loading (J := demo) more_formats demo_draws (fun x => x) zero_expm ex_eigvals
    (fun _ _ _ n => repeat [] n) (fun _ => 0%R) (fun _ => 0%R) (fun _ _ _ _ n => repeat [] n) more_formats_ok demo_ok demo_draws_ok ex_student_positive ex_eigvals_ok []))
    as (h' & d & E & M).
  exists h', d. split; [exact E|]. apply (f_equal (@length string)) in M. rewrite !map_length in M. exact M.
Qed.
(** All assumptions about the libraries can be met together. *)
Lemma ex_v2 : exists eigvals cholesky, eigvals_symmetric eigvals /\ factorises cholesky /\
  loading (J := demo) (v2_unscaled more_formats ex_percent demo_draws (fun x => x) series_expm eigvals (fun _ _ _ n => repeat [] n)
      (fun _ => 0%R) (fun _ => 0%R) (fun _ _ _ _ n => repeat [] n) demo_tfp cholesky demo_normal_draw)
    (v2_tasks more_formats ex_percent demo_draws (fun x => x) series_expm eigvals (fun _ _ _ n => repeat [] n)
      (fun _ => 0%R) (fun _ => 0%R) (fun _ _ _ _ n => repeat [] n) demo_tfp cholesky demo_normal_draw) [] v2_catalogue estimated.
Proof.
  destruct eigvals_exists as [e He], cholesky_exists as [c Hc]. exists e, c. split; [exact He|]. split; [exact Hc|].
  apply v2_loading; [exact more_formats_ok|exact demo_ok|exact demo_draws_ok|exact ex_student_positive|exact ex_percent_ok|exact He|exact Hc|exact series_expm_ok].
Qed.
Lemma ex_gmm : exists eigvals cholesky, eigvals_symmetric eigvals /\ factorises cholesky /\
  collecting (J := demo) (gmm_tasks more_formats ex_percent demo_draws series_expm eigvals (fun _ _ _ n => repeat [] n)
      (fun _ => 0%R) (fun _ => 0%R) (fun _ _ _ _ n => repeat [] n) demo_tfp cholesky demo_normal_draw)
    (gmm_tasks_dict more_formats ex_percent demo_draws series_expm eigvals (fun _ _ _ n => repeat [] n)
      (fun _ => 0%R) (fun _ => 0%R) (fun _ _ _ _ n => repeat [] n) demo_tfp cholesky demo_normal_draw) [] gmm_catalogue estimated.
Proof.
  destruct eigvals_exists as [e He], cholesky_exists as [c Hc]. exists e, c. split; [exact He|]. split; [exact Hc|].
  apply gmm_collecting; [exact more_formats_ok|exact demo_ok|exact demo_draws_ok|exact ex_student_positive|exact ex_percent_ok|exact He|exact Hc|exact series_expm_ok].
Qed.

(** Concrete machines for the statements in [ExternalProps]. *)
From Coq Require Import Ascii String.
From Verif Require Import Base UtilsModel JaxModel SamplersModel BaseLemmas UtilsSpec UtilsProofs CsvProofs
  BenchmarkModel BenchmarkSpec TasksModel ExternalModel ExternalSpec ExternalProofs ExternalThms.
Open Scope Z_scope.
Local Notation length := List.length.

(** Python reads "0.5" and "20.5"; everything else is no number. *)
Definition ex_conv : conversions :=
  {| decode := Some;
     parse_float := fun s => if String.eqb s "0.5" then Some (Fin (1/2)) else
                             if String.eqb s "20.5" then Some (Fin (41/2)) else None;
     py_bytes := fun s => ("b'" ++ s ++ "'")%string;
     exit_message := fun _ code => ("exit status " ++ int_str code)%string;
     decode_message := fun _ => "codec"%string;
     cast_message := fun s => ("Failed to cast " ++ s)%string |}.
Definition ex_show (r : R) : string := if Reqb r 0 then "0" else "1".
Definition ex_read (s : string) : option R := if String.eqb s "0" then Some 0%R else Some 1%R.
Definition ex_good (r : R) : Prop := r = 0%R \/ r = 1%R.

(** A library which knows one number and fails unless asked for it. *)
Definition ex_setting : setting :=
  {| st_conv := ex_conv; st_show := ex_show; st_read := ex_read;
     st_double := fun s => if String.eqb s "2.0" then Some 2%R else None;
     st_r := fun c => match c with BnslMi _ _ 10 => inr "0.5"%string | KnnMi _ _ _ 3 => inr "0.5"%string | _ => inl "R stops"%string end;
     st_julia := fun c => match jc_method c with Kraskov1 4 => inr "20.5"%string | _ => inl "julia stops"%string end;
     st_r_error := "Error"; st_julia_error := "ERROR"; st_cwd := "/home"; st_code := "external";
     st_missing := "missing"; st_empty := "empty"; st_tmp := "/tmp/sample" |}.

Lemma ex_setting_ok : setting_ok ex_good ex_setting.
Proof.
  unfold setting_ok, ex_setting, ex_read, ex_show, ex_good, is_absolute; cbn [st_read st_show st_cwd st_tmp].
  split; [|split; [|split; eexists; reflexivity]]; intros r [-> | ->]; unfold Reqb; destruct (Req_EM_T _ _); try (exfalso; lra); try reflexivity; try (split; reflexivity).
Qed.
Definition ex_xs : matrix := [[0; 1]; [1; 1]; [0; 0]]%R.
Definition ex_ys : matrix := [[1]; [0]; [0]]%R.
Lemma ex_sample_ok : sample_ok ex_good 2 1 ex_xs ex_ys.
Proof. unfold sample_ok, ex_xs, ex_ys, ex_good. repeat split; try lia; repeat (constructor; try (cbn; auto)). Qed.

Lemma half_is_number : is_number ex_conv "0.5" (Fin (1/2)).
Proof.
  split; [|split; reflexivity]. unfold tidy, white. split.
  - intros c s' E. injection E as <- _. vm_compute. intuition discriminate.
  - intros s' c E. destruct s' as [|a [|b [|d [|e s']]]]; try discriminate. injection E as <- <- <-. vm_compute. intuition discriminate.
Qed.

(** A warning before the number. *)
Lemma warning_breaks : exists V args exec fs chunks v,
  exec args fs = Exited 0 chunks /\ existsb fst chunks = true /\
  is_number V (String.concat EmptyString (map snd (filter (fun c => negb (fst c)) chunks))) v /\
  (forall w, run_command_and_read_mi V exec args fs <> Done w).
Proof.
  exists ex_conv, [], (fun _ _ => Exited 0 [(true, "Warning message:"); (false, "0.5")]%string), (fun _ => None),
    [(true, "Warning message:"); (false, "0.5")]%string, (Fin (1/2)).
  split; [reflexivity|]. split; [reflexivity|]. split; [exact half_is_number|].
  intros w. cbn. discriminate.
Qed.
Lemma noise_changes_number : exists V args exec fs chunks v,
  exec args fs = Exited 0 chunks /\
  is_number V (String.concat EmptyString (map snd (filter (fun c => negb (fst c)) chunks))) v /\
  exists w, run_command_and_read_mi V exec args fs = Done w /\ w <> v.
Proof.
  exists ex_conv, [], (fun _ _ => Exited 0 [(true, "2"); (false, "0.5")]%string), (fun _ => None),
    [(true, "2"); (false, "0.5")]%string, (Fin (1/2)).
  split; [reflexivity|]. split; [exact half_is_number|].
  exists (Fin (41/2)). split; [reflexivity|]. intros E. injection E. lra.
Qed.
Lemma stdout_alone_refuted : ~ (forall V args exec fs chunks v,
  exec args fs = Exited 0 chunks ->
  is_number V (String.concat EmptyString (map snd (filter (fun c => negb (fst c)) chunks))) v ->
  run_command_and_read_mi V exec args fs = Done v).
Proof.
  intros H. destruct warning_breaks as (V & args & exec & fs & chunks & v & E & _ & N & W). exact (W v (H _ _ _ _ _ _ E N)).
Qed.

Lemma documented_values_refuted : ~ (forall proc, In proc [0; 1; 2; 10] -> exists p, r_bnsl proc = Ok p).
Proof. intros H. destruct (H 0) as [p Hp]; [left; reflexivity|discriminate Hp]. Qed.
Lemma same_validation_refuted :
  (exists proc p, r_bnsl proc = Ok p /\ r_proc_ok proc = false) /\ (exists proc e, r_bnsl proc = Err e /\ r_proc_ok proc = true).
Proof. split; [exists 5, 5|exists 0, ValidationError]; split; reflexivity. Qed.

Lemma no_x_instance : rmi_script ex_read ["s.csv"; "0"; "2"; "--method"; "BNSL"]%string
  (fun _ => Some ("Y0,Y1" ++ String newline "0,1" ++ String newline EmptyString)%string) = Some (BnslMi [[0%R]] [[0%R; 1%R]] 0).
Proof.
  apply (no_x_columns ex_read "s.csv" ("Y0,Y1" ++ String newline "0,1" ++ String newline EmptyString)%string ["Y0"; "Y1"]%string [[0%R; 1%R]]);
    try reflexivity; [discriminate|]. constructor; [reflexivity|constructor].
Qed.

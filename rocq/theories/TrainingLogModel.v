(** Model of [src/bmi/estimators/neural/_training_log.py].
    Printing and the progress bar (lines 53-54, 62, 77-80, 112, 119-120, 129-130,
    144-149, 155-161, 163-201) have no effect on the state modelled here. *)
From Coq Require Import String.
From Verif Require Import Base.

(** Values stored in the dictionary of additional information. *)
Inductive info :=
| InfoBool (b : bool)
| InfoInt (n : Z)
| InfoHistory (h : list (Z * fl)).

(** TrainingLog's attributes, 38-51. *)
Record training_log := {
  max_n_steps : Z;                        (* 38 *)
  early_stopping : bool;                  (* 39 *)
  train_smooth_factor : R;                (* 40 *)
  train_history_in_info : bool;           (* 43 *)
  test_history_in_info : bool;            (* 44 *)
  mi_train_history : list (Z * fl);       (* 46 *)
  mi_test_history : list (Z * fl);        (* 47 *)
  mi_test_best : option fl;               (* 48 *)
  logs_since_mi_test_best : Z;            (* 49 *)
  log_info : sdict info                   (* 51 *)
}.

(** __init__, 11-54. *)
Definition log_init (max_steps : Z) (early : bool) (factor : R) (train_in test_in : bool) : result training_log :=
  if Rleb factor (1 / 2)                                                  (* 36 *)
  then Ok {| max_n_steps := max_steps; early_stopping := early; train_smooth_factor := factor;
             train_history_in_info := train_in; test_history_in_info := test_in;
             mi_train_history := []; mi_test_history := []; mi_test_best := None;
             logs_since_mi_test_best := 0; log_info := [] |}
  else Err AssertionError.

(** log_train_mi, 56-62. *)
Definition log_train_mi (l : training_log) (n_step : Z) (mi : fl) : training_log :=
  {| max_n_steps := max_n_steps l; early_stopping := early_stopping l;
     train_smooth_factor := train_smooth_factor l;
     train_history_in_info := train_history_in_info l; test_history_in_info := test_history_in_info l;
     mi_train_history := mi_train_history l ++ [(n_step, mi)];             (* 61 *)
     mi_test_history := mi_test_history l; mi_test_best := mi_test_best l;
     logs_since_mi_test_best := logs_since_mi_test_best l; log_info := log_info l |}.

(** log_test_mi, 64-80. *)
Definition log_test_mi (l : training_log) (n_step : Z) (mi : fl) : training_log :=
  let improved := match mi_test_best l with None => true | Some b => fl_ltb b mi end in    (* 69 *)
  {| max_n_steps := max_n_steps l; early_stopping := early_stopping l;
     train_smooth_factor := train_smooth_factor l;
     train_history_in_info := train_history_in_info l; test_history_in_info := test_history_in_info l;
     mi_train_history := mi_train_history l;
     mi_test_history := mi_test_history l ++ [(n_step, mi)];               (* 75 *)
     mi_test_best := if improved then Some mi else mi_test_best l;         (* 70 *)
     logs_since_mi_test_best := if improved then 0 else logs_since_mi_test_best l + 1;   (* 71, 73 *)
     log_info := log_info l |}.

(** final_mi, 82-87. *)
Definition final_mi (l : training_log) : fl :=
  match mi_test_best l with None => NaN | Some b => b end.

(** additional_information, 89-106. *)
Definition additional_information (l : training_log) : sdict info :=
  let n_steps := match rev (mi_train_history l) with (n, _) :: _ => n | [] => 0 end in   (* 91-94 *)
  let i := sdict_merge (log_info l) [("n_training_steps"%string, InfoInt n_steps)] in    (* 97-99 *)
  let i := if train_history_in_info l
           then sdict_merge i [("training_history"%string, InfoHistory (mi_train_history l))] else i in  (* 101-102 *)
  if test_history_in_info l
  then sdict_merge i [("test_history"%string, InfoHistory (mi_test_history l))] else i.  (* 103-104 *)

(** early_stop, 108-109. *)
Definition early_stop (l : training_log) : bool :=
  early_stopping l && (1 <? logs_since_mi_test_best l).

(** Python's [int(r)]: truncation towards zero. *)
Definition py_int (r : R) : Z :=
  if Rle_dec 0 r then Int_part r else - Int_part (- r).

(** [jnp.cumsum(l)], starting from an accumulated value. *)
Fixpoint cumsum_from (acc : fl) (l : list fl) : list fl :=
  match l with
  | [] => []
  | a :: l' => fl_add acc a :: cumsum_from (fl_add acc a) l'
  end.

(** [jnp.max]: NaN if some entry is NaN. *)
Definition jnp_max2 (a b : fl) : fl :=
  match a, b with NaN, _ | _, NaN => NaN | _, _ => if fl_ltb a b then b else a end.
Definition jnp_max (l : list fl) : fl :=
  match l with [] => NaN | a :: l' => fold_left jnp_max2 l' a end.

(** [1.05 * a]. *)
Definition times_1_05 (a : fl) : fl :=
  match a with Fin r => Fin (105 / 100 * r) | v => v end.

Definition set_info (l : training_log) (d : sdict info) : training_log :=
  {| max_n_steps := max_n_steps l; early_stopping := early_stopping l;
     train_smooth_factor := train_smooth_factor l;
     train_history_in_info := train_history_in_info l; test_history_in_info := test_history_in_info l;
     mi_train_history := mi_train_history l; mi_test_history := mi_test_history l;
     mi_test_best := mi_test_best l; logs_since_mi_test_best := logs_since_mi_test_best l;
     log_info := d |}.

(** [self._additional_information[k] = True] *)
Definition flag (k : string) (d : sdict info) : sdict info := sdict_set d k (InfoBool true).

(** The smoothed training curve, 134-135. *)
Definition smoothed (w : Z) (train_mi : list fl) : list fl :=
  let cs := cumsum_from (Fin 0) (Fin 0 :: train_mi) in                    (* 134 *)
  map (fun p => fl_divp (fl_sub (fst p) (snd p)) (IZR w))                 (* 135 *)
      (combine (skipn (Z.to_nat w) cs) (py_slice cs 0 (- w))).

(** detect_warnings, 115-161. *)
Definition detect_warnings (l : training_log) : result training_log :=
  let d := log_info l in
  let d := if early_stopping l && negb (early_stop l)                     (* 117 *)
           then flag "early_stopping_not_triggered" d else d in           (* 118 *)
  let train_mi := map snd (mi_train_history l) in                         (* 123 *)
  let w := py_int (train_smooth_factor l * IZR (zlen train_mi)) in        (* 124 *)
  if w <? 1 then Ok (set_info l (flag "training_too_short_for_diagnostics" d))   (* 127-131 *)
  else
    let smooth := smoothed w train_mi in
    if negb (w + 1 <=? zlen smooth) then Err AssertionError               (* 138 *)
    else
      let m := jnp_max smooth in                                          (* 140 *)
      do fin <- py_index smooth (-1);                                     (* 141, 151 *)
      let d := if fl_ltb (times_1_05 fin) m then flag "max_training_mi_decreased" d else d in   (* 142-143 *)
      do prv <- py_index smooth (- w);                                    (* 152 *)
      let d := if fl_ltb (times_1_05 prv) fin then flag "training_mi_still_increasing" d else d in (* 153-154 *)
      Ok (set_info l d).

(** finish, 111-113. *)
Definition finish (l : training_log) : result training_log := detect_warnings l.

(** Vocabulary of the statements about the tables behind the figures. *)
From Coq Require Import String.
From Verif Require Import Base UtilsModel JaxModel SamplersModel GaussianModel TransformsModel BenchmarkModel TasksModel TasksSpec TablesModel TablesSpec FiguresModel.
Local Notation length := List.length.
Open Scope R_scope.

Definition neural (estimators : sdict bool) (e : string) : Prop := sdict_get estimators e = Some true.

(** Less than a tenth of the largest estimate of all seeds. *)
Definition far_below (data : list row) (r : row) : Prop :=
  exists m, largest (map r_estimate (seeds data (r_estimator r) (r_task r) (r_n r))) m /\
    match m with
    | Fin v => fl_ltb (r_estimate r) (Fin (v / 10)) = true
    | PInf => r_estimate r <> NaN /\ r_estimate r <> PInf
    | NInf | NaN => False
    end.
(** A failed run of a neural estimator. *)
Definition failed_run (estimators : sdict bool) (data : list row) (r : row) : Prop :=
  neural estimators (r_estimator r) /\ (fl_ltb (r_estimate r) (Fin 0) = true \/ far_below data r).

(** [n] is the largest sample size. *)
Definition top_size (data : list row) (n : Z) : Prop :=
  (exists r, In r data /\ r_n r = n) /\ forall r, In r data -> (r_n r <= n)%Z.

(** The natural logarithm of estimate over truth, for finite numbers and a positive truth. *)
Definition log_error (r : row) (v : fl) : Prop :=
  forall a b, r_estimate r = Fin a -> r_true r = Fin b -> 0 < b ->
    (0 < a -> v = Fin (ln (a / b))) /\ (a = 0 -> v = NInf) /\ (a < 0 -> v = NaN).

(** [n] is what is needed: all larger sizes are solved, and no smaller size has that property. *)
Definition needed (size solved : Z -> Prop) (v : fl) : Prop :=
  (exists n, v = Fin (IZR n) /\ size n /\ (forall m, size m -> (n <= m)%Z -> solved m) /\
     forall k, size k -> (k < n)%Z -> exists m, size m /\ (k <= m)%Z /\ ~ solved m) \/
  (v = PInf /\ exists n, size n /\ ~ solved n /\ forall m, size m -> (m <= n)%Z) \/
  (v = NaN /\ forall n, ~ size n).
(** An error of at most 50%. *)
Definition small (v : fl) : Prop := exists x, v = Fin x /\ Rabs x < ln (3 / 2).

(** A table of the values [value estimator task]: the rows are the known tasks with some
    value, in the order of the dictionary, under their names; the columns likewise. *)
Definition shows (value : string -> string -> fl -> Prop) (estimators : sdict bool) (tasks : sdict (string * fl))
    (names : sdict string) (t : table) : Prop :=
  exists es ts,
    keeping (fun e => exists k v, value e k v) (map fst estimators) es /\
    keeping (fun k => exists e v, value e k v) (map fst tasks) ts /\
    Forall2 (fun e n => sdict_get names e = Some n) es (tb_columns t) /\
    Forall2 (fun k n => exists mi, sdict_get tasks k = Some (n, mi)) ts (tb_index t) /\
    Forall2 (fun k r => Forall2 (fun e v => value e k v \/ (v = NaN /\ forall w, ~ value e k w)) es r) ts (tb_values t).
(** Some estimator with values has no name. *)
Definition unnamed (value : string -> string -> fl -> Prop) (estimators : sdict bool) (names : sdict string) : Prop :=
  exists e b k v, In (e, b) estimators /\ value e k v /\ sdict_get names e = None.

(** ** The values of the three figures *)
Section Values.
  Variables (estimators : sdict bool) (results : list row).
  Definition error (r : row) : fl := np_ln (np_divide (r_estimate r) (r_true r)).
  (** The mean over the seeds which did not fail. *)
  Definition mean_over (n : Z) (f : row -> fl) (e k : string) (v : fl) : Prop :=
    exists s, keeping (fun r => ~ failed_run estimators results r) (seeds results e k n) s /\ s <> [] /\ mean_of (map f s) v.
  (** ... at the largest sample size. *)
  Definition mean_at_top (f : row -> fl) (e k : string) (v : fl) : Prop := exists n, top_size results n /\ mean_over n f e k v.
  (** The number of samples needed, for the sizes where some seed did not fail. *)
  Definition samples_needed (e k : string) (v : fl) : Prop :=
    (exists n w, mean_over n error e k w) /\
    needed (fun n => exists w, mean_over n error e k w) (fun n => exists w, mean_over n error e k w /\ small w) v.
  (** The number of failed seeds of a neural estimator at the largest sample size. *)
  Definition fails (e k : string) (v : fl) : Prop :=
    exists n f, top_size results n /\ neural estimators e /\ seeds results e k n <> [] /\
      keeping (failed_run estimators results) (seeds results e k n) f /\ v = Fin (INR (length f)).
End Values.

(** [u] is [t] with another column. *)
Definition with_column (t : table) (name : string) (values : list fl) (u : table) : Prop :=
  tb_index u = tb_index t /\ tb_columns u = (tb_columns t ++ [name])%list /\
  Forall2 (fun x r => r = (snd x ++ [fst x])%list) (combine values (tb_values t)) (tb_values u) /\ length values = length (tb_values t).

(** [t] is [base] with standardized samples: id (unless empty), name, dimensions, parameters
    and mutual information are those of [base]. *)
Definition rescaled {J} (h h' : dheap) (base t : task J) : Prop :=
  derived base t h h' (fun i => given (Some i) ("rescale-" ++ i)%string) (fun n => given (Some n) ("Rescale @ " ++ n)%string) 0%Z []
    (whole scaler_transform) (whole scaler_transform).

(** The number behind the colour of a cell: the value, or the end of the scale. *)
Definition drawn (top : R) (v c : fl) : Prop :=
  (v = NaN -> c = NaN) /\ (v = PInf -> c = Fin top) /\ (v = NInf -> c = Fin 0) /\
  forall x, v = Fin x -> (x < 0 -> c = Fin 0) /\ (0 <= x <= top -> c = Fin x) /\ (top < x -> c = Fin top).

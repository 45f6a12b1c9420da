(** Independent specifications for utils.py. *)
From Coq Require Import ZArith QArith Qabs List.
From Verif Require Import Utils_Model. (* only for the type of calls and outputs of the stopwatch *)
Import ListNotations.
Open Scope Z_scope.

(** Value of the polynomial c0 + c1 x + c2 x^2 + ... (Horner). *)
Fixpoint poly_val (cs : list Z) (x : Z) : Z :=
  match cs with [] => 0 | c :: r => c + x * poly_val r x end.

Fixpoint poly_valQ (cs : list Q) (x : Q) : Q :=
  match cs with [] => 0%Q | c :: r => (c + x * poly_valQ r x)%Q end.

(** [m] is a nearest integer of [x], the even one in case of a tie. *)
Definition nearest_even (x : Q) (m : Z) : Prop :=
  (Qabs (x - inject_Z m) <= 1 # 2)%Q /\ ((Qabs (x - inject_Z m) == 1 # 2)%Q -> Z.even m = true).

(** expected outputs: [t0] start reading, [p] last reading, [last] what get_last_measured_time shows *)
Fixpoint sw_expected (t0 p last : Z) (os : list sw_op) : list sw_out :=
  match os with
  | [] => []
  | OpStart _ :: r => OutUnit :: sw_expected t0 p last r
  | OpMeasure t :: r => OutTime (t - p) :: sw_expected t0 t (t - p) r
  | OpTotal t :: r => OutTime (t - t0) :: sw_expected t0 p last r
  | OpLast :: r => OutTime last :: sw_expected t0 p last r
  | OpIsStarted :: r => OutBool true :: sw_expected t0 p last r
  end.

(** sum of the values returned by the measure_time calls of a history *)
Definition out_time (o : sw_op * sw_out) : Z :=
  match o with (OpMeasure _, OutTime t) => t | _ => 0 end.
(** the last clock reading made by measure_time in a history *)
Definition op_reading (o : sw_op) (dflt : Z) : Z := match o with OpMeasure t => t | _ => dflt end.

Definition measured_sum (os : list sw_op) (outs : list sw_out) : Z :=
  fold_right Z.add 0 (map out_time (combine os outs)).
Definition last_reading (t0 : Z) (os : list sw_op) : Z := fold_left (fun d o => op_reading o d) os t0.

(** Model of ProgressBar (utils.py:78-169).
    Simplifications common to the whole file: the iterable is a list of items that can be iterated without exceptions;
    clock readings are integers, [hz] of them to a second, and the arithmetic on times is exact (python: floats);
    a printed line is represented by the values put into the template of line 112. *)
From Coq Require Import ZArith QArith List Bool.
From Verif Require Import PyBase Rnd Utils_Model.
Import ListNotations.
Open Scope Z_scope.

(** utils.py:112 with 121-122, 128 and 149-152 — a printed line: the first one (all dashes), an update
    (percentage, estimated time left, time passed), the last one (100%, no time left, time passed). *)
Inductive pb_line :=
| PFirst
| PUpdate (pct : Z) (left passed : Z * Z * Z * Z)
| PLast (passed : Z * Z * Z * Z).

(** utils.py:103-111 with the state of the underlying [enumerate]: the items left and the next index.
    left_time (line 111) is written but never read, and left out. *)
Record pbar (A : Type) := {
  pb_items : list A;       (* what the iterator still has to give *)
  pb_next : Z;             (* the next index of enumerate *)
  pb_enum : bool;
  pb_freq : Q;
  pb_len : Z;
  pb_sw : stopwatch;
  pb_counter : Z;          (* _printing_time_counter, in clock ticks *)
  pb_iters : Z;            (* num_of_iters *)
  pb_passed : Z            (* passed_time, in clock ticks *)
}.
Arguments pb_items {A}. Arguments pb_next {A}. Arguments pb_enum {A}. Arguments pb_freq {A}. Arguments pb_len {A}.
Arguments pb_sw {A}. Arguments pb_counter {A}. Arguments pb_iters {A}. Arguments pb_passed {A}.

(** utils.py:82-113 — ProgressBar(itr, start, est_len=, enumerate=, update_freq=).  [has_len]: what len(itr) gives,
    None if there is no __len__.  [est_len]: None if it is not given or given as None.  The name [exc] of line 93 is
    deleted at the end of the except clause (and never bound when est_len is given), so that line 100 raises
    UnboundLocalError in place of ValueError. *)
Definition pb_new {A} (items : list A) (has_len : option Z) (start : Z) (est_len : option Z) (enum : bool) (freq : Q)
  : res (pbar A) :=
  let* len := match est_len with
              | Some n => Ok n
              | None => match has_len with Some n => Ok n | None => Raise UnboundLocalError end
              end in
  Ok {| pb_items := items; pb_next := start; pb_enum := enum; pb_freq := freq; pb_len := len; pb_sw := sw_init;
        pb_counter := 0; pb_iters := 0; pb_passed := 0 |}.

(** utils.py:158-161 — an item as it is handed out *)
Inductive pb_item (A : Type) := IEnum (i : Z) (v : A) | IVal (v : A).
Arguments IEnum {A}. Arguments IVal {A}.

(** utils.py:115-161 — outcome of __next__: an item, the end (StopIteration), or another exception *)
Inductive pb_out (A : Type) := PItem (x : pb_item A) | PStop | PExn (e : exn).
Arguments PItem {A}. Arguments PStop {A}. Arguments PExn {A}.

Section Clock.
  (** clock ticks per second (time.time(), used at utils.py:27, 34, 41) *)
  Variable hz : positive.

  (** seconds of a number of ticks; time.time() is in seconds (utils.py:27, 34, 41) *)
  Definition secs (t : Z) : Q := t # hz.

  (** int(100 * i / est_len), truncated towards zero (utils.py:151) *)
  Definition percent (i len : Z) : res Z :=
    if len =? 0 then Raise ZeroDivisionError else Ok (Z.quot (100 * i) len).

  (** utils.py:144-146 — the new estimate, in seconds *)
  Definition estimate (passed counter i num len : Z) : Q :=
    (((4 # 5) * secs passed + secs counter) / (inject_Z i - (1 # 5) * inject_Z num) * inject_Z (len - i))%Q.

  (** utils.py:115-161 — __next__; [now1], [now2]: the clock readings it makes, in this order (line 121 reads one).
      The result: the new state, the lines printed, the outcome. *)
  Definition pb_step {A} (now1 now2 : Z) (p : pbar A) : pbar A * list pb_line * pb_out A :=
    match pb_items p with
    | [] =>
        match sw_total now1 (pb_sw p) with
        | Raise e => (p, [], PExn e)
        | Ok t => (p, [PLast (secs_to_dhms (secs t))], PStop)
        end
    | v :: rest =>
        let i := pb_next p in
        let out := if pb_enum p then PItem (IEnum i v) else PItem (IVal v) in
        let upd sw counter iters passed :=
          {| pb_items := rest; pb_next := i + 1; pb_enum := pb_enum p; pb_freq := pb_freq p; pb_len := pb_len p;
             pb_sw := sw; pb_counter := counter; pb_iters := iters; pb_passed := passed |} in
        if i =? 0 then
          (upd (sw_start now1 (pb_sw p)) (pb_counter p) (pb_iters p) (pb_passed p), [PFirst], out)
        else
          let '(sw1, t) := sw_measure now1 (pb_sw p) in
          let counter := pb_counter p + t in
          if Qle_bool (secs counter) (pb_freq p) then (upd sw1 counter (pb_iters p) (pb_passed p), [], out)
          else if Qeq_bool (inject_Z i - (1 # 5) * inject_Z (pb_iters p)) 0 then
            (upd sw1 counter (pb_iters p) (pb_passed p), [], PExn ZeroDivisionError)
          else
            let left := estimate (pb_passed p) counter i (pb_iters p) (pb_len p) in
            match sw_total now2 sw1 with
            | Raise e => (upd sw1 counter (pb_iters p) (pb_passed p), [], PExn e)
            | Ok total =>
                match percent i (pb_len p) with
                | Raise e => (upd sw1 counter (pb_iters p) (pb_passed p), [], PExn e)
                | Ok pct =>
                    (upd sw1 0 i total,
                     [PUpdate pct (secs_to_dhms left) (secs_to_dhms (secs total))], out)
                end
            end
    end.

  (** [for x in bar]: calls __next__ (utils.py:115) until it ends or raises; [clock k] are the readings of the k-th call.
      The result: the items handed out, the lines printed, the exception that left the loop (None: normal end).
      The outer [None]: not finished within [fuel] calls. *)
  Fixpoint pb_for {A} (fuel : nat) (clock : nat -> Z * Z) (k : nat) (p : pbar A)
    : option (list (pb_item A) * list pb_line * option exn) :=
    match fuel with
    | O => None
    | S f =>
        let '(now1, now2) := clock k in
        match pb_step now1 now2 p with
        | (_, ls, PStop) => Some ([], ls, None)
        | (_, ls, PExn e) => Some ([], ls, Some e)
        | (p', ls, PItem x) =>
            match pb_for f clock (S k) p' with
            | None => None
            | Some (xs, ls', e) => Some (x :: xs, ls ++ ls', e)
            end
        end
    end.
End Clock.

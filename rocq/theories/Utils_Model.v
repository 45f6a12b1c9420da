(** Model of utils.py. *)
From Coq Require Import ZArith QArith List Bool.
From Verif Require Import PyBase Rnd.
Import ListNotations.
Open Scope Z_scope.

(** utils.py:16-20 — MeasureRuntime.__init__.  The two-element list [times] is the pair
    ([t_0], [t_1]); the attribute [_start_time] only exists after [start_measure].
    Simplification: clock readings are integers (ticks) and subtraction is exact. *)
Record stopwatch := {
  sw_cur : bool;           (* current_index, false = 0, true = 1 *)
  sw_prev : bool;          (* previous_index *)
  sw_t0 : Z; sw_t1 : Z;    (* times *)
  sw_started : bool;
  sw_start_time : option Z
}.

(** utils.py:16-20 *)
Definition sw_init : stopwatch :=
  {| sw_cur := false; sw_prev := false; sw_t0 := 0; sw_t1 := 0; sw_started := false; sw_start_time := None |}.

(** times[i], utils.py:37 and 45 *)
Definition sw_time (s : stopwatch) (i : bool) : Z := if i then sw_t1 s else sw_t0 s.

(** utils.py:22-30 — start_measure with clock reading [now] *)
Definition sw_start (now : Z) (s : stopwatch) : stopwatch :=
  if sw_started s then s
  else {| sw_cur := negb (sw_cur s); sw_prev := sw_prev s;
          sw_t0 := if sw_cur s then sw_t0 s else now;
          sw_t1 := if sw_cur s then now else sw_t1 s;
          sw_started := true; sw_start_time := Some now |}.

(** utils.py:32-37 — measure_time with clock reading [now] *)
Definition sw_measure (now : Z) (s : stopwatch) : stopwatch * Z :=
  let s' := {| sw_cur := negb (sw_cur s); sw_prev := sw_cur s;
               sw_t0 := if sw_cur s then sw_t0 s else now;
               sw_t1 := if sw_cur s then now else sw_t1 s;
               sw_started := sw_started s; sw_start_time := sw_start_time s |} in
  (s', sw_time s' (sw_prev s') - sw_time s' (sw_cur s')).

(** utils.py:39-41 — get_total_runtime *)
Definition sw_total (now : Z) (s : stopwatch) : res Z :=
  match sw_start_time s with Some t => Ok (now - t) | None => Raise AttributeError end.

(** utils.py:43-45 — get_last_measured_time *)
Definition sw_last (s : stopwatch) : Z := sw_time s (sw_prev s) - sw_time s (sw_cur s).

(** Calls of the public methods of MeasureRuntime (utils.py:22-49), each with the clock reading it makes. *)
Inductive sw_op := OpStart (now : Z) | OpMeasure (now : Z) | OpTotal (now : Z) | OpLast | OpIsStarted.
(** utils.py:22-49 *)
Inductive sw_out := OutUnit | OutTime (t : Z) | OutBool (b : bool) | OutExn (e : exn).

(** One call; utils.py:22-49. *)
Definition sw_step (s : stopwatch) (o : sw_op) : stopwatch * sw_out :=
  match o with
  | OpStart now => (sw_start now s, OutUnit)
  | OpMeasure now => let '(s', t) := sw_measure now s in (s', OutTime t)
  | OpTotal now => (s, match sw_total now s with Ok t => OutTime t | Raise e => OutExn e end)
  | OpLast => (s, OutTime (sw_last s))
  | OpIsStarted => (s, OutBool (sw_started s))
  end.

(** A history of calls (utils.py:22-49). *)
Fixpoint sw_run (s : stopwatch) (os : list sw_op) : stopwatch * list sw_out :=
  match os with
  | [] => (s, [])
  | o :: r => let '(s1, x) := sw_step s o in let '(s2, xs) := sw_run s1 r in (s2, x :: xs)
  end.

(** utils.py:65-67 — the [while b] loop of gcd on integers; [None] = not finished within [fuel] rounds. *)
Fixpoint gcd_loop (fuel : nat) (a b : Z) : option Z :=
  if b =? 0 then Some a
  else match fuel with
       | O => None
       | S n => gcd_loop n b (a mod b)
       end.

(** utils.py:55-67 — MathOperations.gcd on integers (the recursive call only swaps once). *)
Definition py_gcd (fuel : nat) (a b : Z) : option Z :=
  if b >? a then gcd_loop fuel b a else gcd_loop fuel a b.

(** utils.py:69-75 — MathOperations.subs_in_polynom on integers. *)
Definition subs_in_polynom (coeffs : list Z) (x : Z) : Z :=
  fold_left Z.add (map (fun j => nth j coeffs 0 * x ^ Z.of_nat j) (seq 0 (length coeffs))) 0.

(** utils.py:69-75 — the same function when the coefficients are mpf values and [x] is an int:
    [x ** j] is an exact int, each product and each partial sum is rounded by [rd]. *)
Definition subs_in_polynom_r (rd : Q -> Q) (coeffs : list Q) (x : Z) : Q :=
  fold_left (radd rd)
    (map (fun j => rmul rd (nth j coeffs 0%Q) (inject_Z (x ^ Z.of_nat j))) (seq 0 (length coeffs))) 0%Q.

(** utils.py:163-169 — ProgressBar._secs_to_days_hrs_mins_secs; [round] is round-half-even. *)
Definition secs_to_dhms (seconds : Q) : Z * Z * Z * Z :=
  let s0 := rne seconds in
  let minutes := s0 / 60 in let secs := s0 mod 60 in
  let hours := minutes / 60 in let minutes' := minutes mod 60 in
  let days := hours / 24 in let hours' := hours mod 24 in
  (days, hours', minutes', secs).

(** utils.py:172-176 — one round of [zip_longest] over [n] references to one iterator.
    [actives] tells which of the [n] positions have not hit StopIteration yet, [numactive] counts them,
    [rest] are the items left in the shared iterator.  [None] = the generator stops. *)
Fixpoint zl_round {A} (fill : A) (actives : list bool) (rest : list A) (numactive : Z)
  : option (list A * list bool * list A * Z) :=
  match actives with
  | [] => Some ([], [], rest, numactive)
  | false :: acts =>
      match zl_round fill acts rest numactive with
      | None => None
      | Some (c, a, r, m) => Some (fill :: c, false :: a, r, m)
      end
  | true :: acts =>
      match rest with
      | x :: rest' =>
          match zl_round fill acts rest' numactive with
          | None => None
          | Some (c, a, r, m) => Some (x :: c, true :: a, r, m)
          end
      | [] =>
          if numactive - 1 =? 0 then None
          else match zl_round fill acts [] (numactive - 1) with
               | None => None
               | Some (c, a, r, m) => Some (fill :: c, false :: a, r, m)
               end
      end
  end.

(** utils.py:172-176 — the successive tuples of [zip_longest]; [None] = not exhausted within [fuel] tuples. *)
Fixpoint zl_loop {A} (fuel : nat) (fill : A) (actives : list bool) (rest : list A) (numactive : Z)
  : option (list (list A)) :=
  match fuel with
  | O => None
  | S f =>
      match zl_round fill actives rest numactive with
      | None => Some []
      | Some (c, a, r, m) =>
          match zl_loop f fill a r m with None => None | Some cs => Some (c :: cs) end
      end
  end.

(** utils.py:172-176 — grouper (a non-positive [n] gives an empty argument list and no tuple). *)
Definition grouper {A} (fuel : nat) (xs : list A) (n : Z) (fill : A) : option (list (list A)) :=
  if n <=? 0 then Some [] else zl_loop fuel fill (repeat true (Z.to_nat n)) xs n.

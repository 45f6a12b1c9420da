(** Model of distribute_run.py: split_params and the names of the jobs. No proofs. *)
From Coq Require Import Ascii String ZArith QArith List Bool.
From Verif Require Import PyBase Rnd ULCD_Model Rational_Model Hashtable_Model.
Import ListNotations.
Local Open Scope Z_scope.
Local Open Scope list_scope.
Local Open Scope res_scope.

(** One coefficient range [lo, hi] (a two-element list in the code); a polynomial's ranges; an interlace of those. [distribute_run.py:36-37, 53, 57] *)
Definition crange := (Z * Z)%type.
(** distribute_run.py:36-37, 53, 57 *)
Definition pranges := list crange.
(** distribute_run.py:36-37, 53, 57 *)
Definition iranges := list pranges.
(** [a_coeffs, b_coeffs]. [distribute_run.py:36-37, 53, 57] *)
Definition job := (iranges * iranges)%type.

(** distribute_run.py:61-62 and 67-68: the index of the first range of more than one value, if there is one. *)
Fixpoint first_wide (r : pranges) : option nat :=
  match r with
  | [] => None
  | (lo, hi) :: r' => if hi - lo <=? 1 then option_map S (first_wide r') else Some 0%nat
  end.
(** distribute_run.py:65, 71: int((hi + lo)/2); the quotient of two ints is a float, int() cuts towards zero. *)
Definition mid_bound (rg : crange) : Z := q_int (fl (inject_Z (snd rg + fst rg) / 2)).
(** distribute_run.py:75 resp. 76: one bound of range number [i] replaced. *)
Fixpoint set_hi (i : nat) (v : Z) (r : pranges) : pranges :=
  match r, i with
  | [], _ => []
  | (lo, _) :: r', O => (lo, v) :: r'
  | x :: r', S i' => x :: set_hi i' v r'
  end.
(** distribute_run.py:76 *)
Fixpoint set_lo (i : nat) (v : Z) (r : pranges) : pranges :=
  match r, i with
  | [], _ => []
  | (_, hi) :: r', O => (v, hi) :: r'
  | x :: r', S i' => x :: set_lo i' v r'
  end.
(** distribute_run.py:75-76 *)
Definition on_first (f : pranges -> pranges) (c : iranges) : iranges :=
  match c with [] => [] | p :: r => f p :: r end.

(** distribute_run.py:53-77. [split_num] is not negative (line 17). An interlace without polynomials raises
    IndexError (line 59). The copies of line 58 share nothing with the argument. *)
Fixpoint split_params (ab : job) (split_num : nat) : res (list job) :=
  match split_num with
  | O => Ok [ab]
  | S k =>
      let (a, b) := ab in
      match a, b with
      | [], _ | _, [] => Raise IndexError
      | a0 :: _, b0 :: _ =>
          let next :=
            match first_wide a0 with
            | Some i => let v := mid_bound (nth i a0 (0, 0)) in
                        Ok ((on_first (set_hi i v) a, b), (on_first (set_lo i v) a, b))
            | None =>
                match first_wide b0 with
                | Some i => let v := mid_bound (nth i b0 (0, 0)) in
                            Ok ((a, on_first (set_hi i v) b), (a, on_first (set_lo i v) b))
                | None => Raise ValueError
                end
            end in
          let* jj := next in
          let* l1 := split_params (fst jj) k in
          let* l2 := split_params (snd jj) k in
          Ok (l1 ++ l2)
      end
  end.

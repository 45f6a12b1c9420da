(** Independent specification: limits and rates of four continued fractions, over the reals. *)
From Coq Require Import Reals.
Local Open Scope R_scope.

(** The limits. *)
Definition limit_of (k : nat) : R :=
  match k with
  | 1%nat => 1 / (exp 1 / 2 - 1)
  | 2%nat | 3%nat => 4 / PI
  | _ => PI + 3
  end.

(** Bounds below and above the distance of the n-th convergent to the limit: 1/(n+4)! (faster than any power),
    2^-n n^-3.5, between (4/25)^n/n and 4^-n/n, and n^-3, each up to a constant. *)
Definition err_low (k n : nat) : R :=
  let x := INR n in
  match k with
  | 1%nat => 14 / INR (fact (n + 4))
  | 2%nat => sqrt (2 * x + 3) * (/ 2) ^ (n + 1) / ((x * x + 5 * x + 5) * (x * x + 3 * x + 1))
  | 3%nat => (2 * x + 5) / ((x + 2) * (x + 3)) * (4 / 25) ^ (n + 1)
  | _ => / (2 * (x + 1) * (x + 2) * (2 * x + 3))
  end.
Definition err_high (k n : nat) : R :=
  let x := INR n in
  match k with
  | 1%nat => 32 / INR (fact (n + 4))
  | 2%nat => 8 * sqrt (x + 1) * (/ 2) ^ (n + 1) / ((x * x + 5 * x + 5) * (x * x + 3 * x + 1))
  | 3%nat => (/ 4) ^ n / (x + 2)
  | _ => / ((x + 1) * (x + 2) * (2 * x + 3))
  end.

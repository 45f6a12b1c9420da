(** Independent specification: limits and rates of the continued fractions of the test suite, over the reals. *)
From Coq Require Import Reals.
Local Open Scope R_scope.

(** The limits. *)
Definition golden_ratio : R := (1 + sqrt 5) / 2.
Definition test_limit (k : nat) : R :=
  match k with
  | 1%nat => 4 / PI + 1
  | 2%nat => PI + 3
  | 3%nat => 4 / PI
  | 4%nat => exp 1 / (exp 1 - 1)
  | 5%nat => golden_ratio
  | _ => Rpower 2 (1 / 12) + 1
  end.

(** Bounds of the distance of the n-th convergent to the limit. *)
Definition test_low (k n : nat) : R :=
  let x := INR n in
  match k with
  | 1%nat => 4 / (PI * PI) / (x + 2)
  | 2%nat => / (2 * (x + 1) * (x + 2) * (2 * x + 3))
  | 3%nat => (2 * x + 5) / ((x + 2) * (x + 3)) * (4 / 25) ^ (n + 1)
  | 4%nat => / (3 * INR (fact (n + 2)))
  | 5%nat => / golden_ratio ^ (2 * n + 1)
  | _ => (/ 8) ^ n / 18
  end.
Definition test_high (k n : nat) : R :=
  let x := INR n in
  match k with
  | 1%nat => 4 / (PI * PI) / x
  | 2%nat => / ((x + 1) * (x + 2) * (2 * x + 3))
  | 3%nat => (/ 4) ^ n / (x + 2)
  | 4%nat => 5 / (4 * INR (fact (n + 2)))
  | 5%nat => / golden_ratio ^ (2 * n)
  | _ => (/ 4) ^ n / 9
  end.

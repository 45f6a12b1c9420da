(** What the constants are: the numbers of mathematics, and what it means to have their digits. *)
From Coq Require Import Ascii ZArith QArith Qreals Reals List.
Local Open Scope R_scope.

(** the decimal digits 0 to 9 *)
Definition is_digit (c : ascii) : Prop := (48 <= nat_of_ascii c <= 57)%nat.
(** x is the number K with an error of less than a unit of the d-th decimal place *)
Definition accurate (x : Q) (K : R) (d : Z) : Prop := Rabs (Q2R x - K) < / 10 ^ Z.to_nat d.
(** z = 1 + 1/2^n + 1/3^n + ... *)
Definition is_zeta (n : nat) (z : R) : Prop := Un_cv (fun N => sum_f_R0 (fun k => / INR (S k) ^ n) N) z.
(** the golden ratio *)
Definition golden : R := (1 + sqrt 5) / 2.
(** the bond percolation thresholds of the honeycomb lattice and of the triangular lattice *)
Definition honeycomb : R := 1 - 2 * sin (PI / 18).
(** the other one *)
Definition triangular : R := 2 * sin (PI / 18).

(** Independent specification of rounding to a number of digits and of the sums of the series of cosine and sine. *)
From Coq Require Import ZArith QArith Qabs Qpower.
Open Scope Z_scope.

(** the numbers with at most p digits in base B (any exponent) *)
Definition floating (B p : Z) (y : Q) : Prop :=
  exists m k, Z.abs m <= B ^ p /\ (y == inject_Z m * Qpower (inject_Z B) k)%Q.
(** rounding to the nearest of them; between two equally near ones either may be taken *)
Definition nearest (B p : Z) (rd : Q -> Q) : Prop :=
  forall x, floating B p (rd x) /\ forall y, floating B p y -> (Qabs (rd x - x) <= Qabs (y - x))%Q.

(** n! *)
Fixpoint factorial (n : nat) : Z := match n with O => 1 | S k => Z.of_nat n * factorial k end.
(** (-1)^k x^(2k+d) / (2k+d)!, for d = 0 (cosine) and d = 1 (sine) *)
Definition series_term (d : nat) (x : Q) (k : nat) : Q :=
  (Qpower (-1) (Z.of_nat k) * Qpower x (Z.of_nat (2 * k + d)) / inject_Z (factorial (2 * k + d)))%Q.
(** the sum of the first n+1 terms *)
Fixpoint series (d : nat) (x : Q) (n : nat) : Q :=
  match n with O => series_term d x 0 | S k => (series d x k + series_term d x n)%Q end.
(** ... and of their sizes *)
Fixpoint series_abs (d : nat) (x : Q) (n : nat) : Q :=
  match n with O => Qabs (series_term d x 0) | S k => (series_abs d x k + Qabs (series_term d x n))%Q end.

(** Independent specification for continued fractions with positive coefficients. *)
From Coq Require Import ZArith QArith Qabs List.
From Verif Require Import Spec_Utils Spec_ContFrac.
Import ListNotations.
Open Scope Z_scope.

(** from the first level on all coefficients are positive; nothing is asked of a_0 *)
Definition positive (a b : list (list Z)) : Prop := forall i, 1 <= i -> 0 < icoef a i /\ 0 < icoef b i.
(** y lies between x and z, in either order *)
Definition between (x y z : Q) : Prop := (x <= y /\ y <= z)%Q \/ (z <= y /\ y <= x)%Q.
(** the finite fractions settle: late ones differ as little as one likes *)
Definition settles (V : nat -> option Q) : Prop :=
  forall eps, (0 < eps)%Q -> exists N, forall m n, (N <= m)%nat -> (N <= n)%nat ->
    exists v w, V m = Some v /\ V n = Some w /\ (Qabs (v - w) < eps)%Q.
(** a polynomial, given by its coefficients from the constant upwards, of degree exactly d or more; of degree d or less *)
Definition degree_at_least (d : nat) (f : list Z) : Prop := exists r x, f = r ++ [x] /\ x <> 0 /\ (d <= length r)%nat.
Definition degree_at_most (d : nat) (f : list Z) : Prop := (length f <= d + 1)%nat.

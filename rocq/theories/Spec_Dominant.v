(** Independent specification for continued fractions whose a_i are larger than their b_i. *)
From Coq Require Import ZArith QArith Qabs List.
From Verif Require Import Spec_Utils Spec_ContFrac.
Import ListNotations.
Open Scope Z_scope.

(** from the first level on b_i is not zero and |a_i| exceeds |b_i| by at least d; nothing is asked of a_0 *)
Definition dominates (d : Z) (a b : list (list Z)) : Prop := forall i, 1 <= i -> icoef b i <> 0 /\ Z.abs (icoef b i) + d <= Z.abs (icoef a i).
(** the values tend to r *)
Definition tends_to (V : nat -> option Q) (r : Q) : Prop :=
  forall eps, (0 < eps)%Q -> exists N, forall n, (N <= n)%nat -> exists v, V n = Some v /\ (Qabs (v - r) < eps)%Q.
(** from some number on all values keep some distance from r *)
Definition stays_away (V : nat -> option Q) (r : Q) : Prop :=
  exists eps N, (0 < eps)%Q /\ forall n, (N <= n)%nat -> exists v, V n = Some v /\ (eps <= Qabs (v - r))%Q.

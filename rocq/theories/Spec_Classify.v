(** Independent specification of the speed of convergence of a sequence of results. *)
From Coq Require Import ZArith QArith Qabs List.
Import ListNotations.
Open Scope Z_scope.

(** distance of the results number i and i+2 of a sequence; None if one of them is not a number *)
Definition gap (x : Z -> option Q) (i : Z) : option Q :=
  match x i, x (i + 2) with Some u, Some v => Some (Qabs (v - u)) | _, _ => None end.

(** by which factor the distance shrinks from (i, i+2) to (i+2, i+4); None if a distance is zero or missing *)
Definition shrink (x : Z -> option Q) (i : Z) : option Q :=
  match gap x i, gap x (i + 2) with
  | Some d, Some e => if Qeq_bool d 0 then None else if Qeq_bool e 0 then None else Some (d / e)%Q
  | _, _ => None
  end.

Fixpoint somes {A} (l : list (option A)) : list A :=
  match l with [] => [] | Some a :: r => a :: somes r | None :: r => somes r end.

(** the known factors at the sampled positions, even and odd subsequence *)
Definition evens_at (x : Z -> option Q) (idx : list Z) : list Q := somes (map (shrink x) idx).
Definition odds_at (x : Z -> option Q) (idx : list Z) : list Q := somes (map (fun i => shrink x (i + 1)) idx).

(** the results of the sequence at a position and the five following ones *)
Definition six (x : Z -> option Q) (i : Z) : list (option Q) := map (fun k => x (i + k)) [0; 1; 2; 3; 4; 5].

(** arithmetic that does not round *)
Definition exact (rd : Q -> Q) : Prop := forall q, (rd q == q)%Q.
(** a square root that is exact on squares *)
Definition sqrt_exact (f : Q -> Q) : Prop := forall r x, (0 <= r)%Q -> (x == r * r)%Q -> (f x == r)%Q.
(** a square root with a relative error of at most one percent in the square *)
Definition sqrt_close (f : Q -> Q) : Prop :=
  forall x, (0 <= x)%Q -> (0 <= f x)%Q /\ ((99 # 100) * x <= f x * f x <= (101 # 100) * x)%Q.

(** results that approach L geometrically: L + c (s r)^-i, s = 1 or -1 *)
Definition geometric (x : Z -> option Q) (L c s r : Q) (idx : list Z) : Prop :=
  forall i k, In i idx -> 0 <= k <= 5 -> exists v, x (i + k) = Some v /\ (v == L + c * Qpower (s * r) (- (i + k)))%Q.

(** arithmetic with a relative error of at most d per operation *)
Definition rel (d : Q) (rd : Q -> Q) : Prop := forall q, (Qabs (rd q - q) <= d * Qabs q)%Q.

(** accurate enough for n samples: a relative error per operation of at most 1/1000 of 1/(n+1) *)
Definition accurate (n : nat) (rd : Q -> Q) : Prop :=
  exists d, (0 <= d)%Q /\ rel d rd /\ (inject_Z (1 + Z.of_nat n) * d <= 1 # 1000)%Q.

(** all numbers of a list in an interval *)
Definition within (lo hi : Q) (l : list Q) : Prop := Forall (fun q => lo <= q <= hi)%Q l.

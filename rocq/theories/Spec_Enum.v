(** Specifications for the enumeration of polynomials, independent of the model's helpers. *)
From Coq Require Import ZArith QArith List Bool.
Import ListNotations.
Local Open Scope Z_scope.

(** Each coefficient lies in its half-open range. *)
Definition in_ranges (r : list (list (Z * Z))) (ps : list (list Z)) : Prop :=
  Forall2 (Forall2 (fun c lh => fst lh <= c < snd lh)) ps r.

(** [d] is the degree of [p]: the largest index of a nonzero coefficient, -1 if there is none. *)
Definition is_degree (p : list Z) (d : Z) : Prop :=
  (d = -1 /\ Forall (fun c => c = 0) p) \/
  (0 <= d < Z.of_nat (length p) /\ nth (Z.to_nat d) p 0 <> 0 /\ forall j, d < Z.of_nat j -> nth j p 0 = 0).

(** An interlace of two or more identical polynomials collapses to one of them. *)
Definition collapses (ps qs : list (list Z)) : Prop :=
  (exists p n, ps = repeat p (S (S n)) /\ qs = [p]) \/
  ((forall p n, ps <> repeat p (S (S n))) /\ qs = ps).

(** Strict lexicographic order on coefficient lists and on pairs of interlaced polynomials. *)
Inductive lex : list Z -> list Z -> Prop :=
| lex_lt x y l m : x < y -> length l = length m -> lex (x :: l) (y :: m)
| lex_eq x l m : lex l m -> lex (x :: l) (x :: m).
Definition flat (p : list (list Z) * list (list Z)) : list Z := concat (fst p) ++ concat (snd p).

(** value of a polynomial *)
Fixpoint pval (p : list Z) (x : Z) : Z := match p with [] => 0 | c :: r => c + x * pval r x end.

(** sum over the indices: c_0 x^n + c_1 (x+1)^n + ... *)
Fixpoint shifted_powers (cs : list Z) (n : Z) (x : Z) : Z :=
  match cs with [] => 0 | c :: r => c * x ^ n + shifted_powers r n (x + 1) end.

(** Pascal's triangle *)
Fixpoint pascal (n k : nat) : Z :=
  match n, k with
  | _, O => 1
  | O, S _ => 0
  | S n', S k' => pascal n' k' + pascal n' k
  end.

(** A mask: strictly increasing positions below n. *)
Fixpoint increasing (lo n : Z) (m : list Z) : Prop :=
  match m with [] => True | i :: r => lo <= i < n /\ increasing (i + 1) n r end.
(** [q] has size n, the coefficients of [p] at the positions [m] in order, and zeros elsewhere *)
Definition placed (n : Z) (p m q : list Z) : Prop :=
  Z.of_nat (length q) = n /\
  (forall j, (j < length m)%nat -> nth (Z.to_nat (nth j m 0)) q 0 = nth j p 0) /\
  (forall i, 0 <= i < n -> ~ In i m -> nth (Z.to_nat i) q 0 = 0).

(** What is assumed of the float square root [d ** 0.5] on the integers below [bound]: not negative, relative error of the
    square at most 2^-51 (an error of about one unit in the last place), exact on perfect squares. *)
Definition good_sqrt (bound : Z) (f : Z -> Q) : Prop :=
  forall d, 0 <= d < bound ->
    (0 <= f d)%Q /\
    (inject_Z d * (1 - (1 # 2 ^ 51)) <= f d * f d /\ f d * f d <= inject_Z d * (1 + (1 # 2 ^ 51)))%Q /\
    (forall r, 0 <= r -> d = r * r -> (f d == inject_Z r)%Q).

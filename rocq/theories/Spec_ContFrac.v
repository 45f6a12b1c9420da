(** Independent specification of continued fractions. *)
From Coq Require Import ZArith QArith Qabs List.
From Verif Require Import Spec_Utils Rnd.
Import ListNotations.
Open Scope Z_scope.

(** a0 + b1/(a1 + b2/(... + bn/an)) for the list [(a1,b1); ...; (an,bn)];
    None if a division by zero occurs. *)
Fixpoint nested (a0 : Q) (l : list (Q * Q)) : option Q :=
  match l with
  | [] => Some a0
  | (a1, b1) :: r =>
      match nested a1 r with
      | Some t => if Qeq_bool t 0 then None else Some (a0 + b1 / t)%Q
      | None => None
      end
  end.

(** coefficient number i of interlaced polynomials: polynomial number i mod (number of polynomials), at i *)
Definition icoef (l : list (list Z)) (i : Z) : Z :=
  poly_val (nth (Z.to_nat (i mod Z.of_nat (length l))) l []) i.

(** [(a_i, b_i)] for the given indices *)
Definition icoefs (a b : list (list Z)) (is : list Z) : list (Z * Z) :=
  map (fun i => (icoef a i, icoef b i)) is.

Definition toQ (l : list (Z * Z)) : list (Q * Q) := map (fun '(x, y) => (inject_Z x, inject_Z y)) l.

(** Continuants (computed from the innermost level outwards): the fraction a0 + b1/(a1+...) is P/Q with *)
Fixpoint cont_xy (l : list (Z * Z)) : Z * Z :=
  match l with
  | [] => (1, 0)
  | (a1, b1) :: r => let '(x, y) := cont_xy r in (a1 * x + y, b1 * x)
  end.
Definition contP (a0 : Z) (l : list (Z * Z)) : Z := a0 * fst (cont_xy l) + snd (cont_xy l).
Definition contQ (l : list (Z * Z)) : Z := fst (cont_xy l).

Definition prodZ (l : list Z) : Z := fold_right Z.mul 1 l.

(** [r] approximates [v] with relative error at most [e] *)
Definition approx (r v e : Q) : Prop := (Qabs (r - v) <= e * Qabs v)%Q.

(** Index sequence advanced by a history of counts: each entry is (restart?, number of iterations).
    A restart begins at index 1 again, otherwise indices continue after the counter. *)
Fixpoint index_seq (os : list (bool * Z)) (cnt : Z) (seq : list Z) : Z * list Z :=
  match os with
  | [] => (cnt, seq)
  | (true, n) :: r => index_seq r n (map Z.of_nat (List.seq 1 (Z.to_nat n)))
  | (false, n) :: r => index_seq r (cnt + n) (seq ++ map (fun k => cnt + Z.of_nat k) (List.seq 1 (Z.to_nat n)))
  end.

(** Independent specification: what a stored result says. *)
From Coq Require Import String ZArith QArith List Reals Qreals.
From Verif Require Import Spec_Utils Spec_ContFrac.
Import ListNotations.
Local Open Scope R_scope.

(** The fraction with the polynomials a and b: all its convergents exist, and they tend to K. *)
Definition convergent (a b : list Z) (n : nat) : option Q :=
  nested (inject_Z (icoef [a] 0)) (toQ (icoefs [a] [b] (map Z.of_nat (seq 1 n)))).
Definition value_of (a b : list Z) (K : R) : Prop :=
  exists V : nat -> Q, (forall n, convergent a b n = Some (V n)) /\ Un_cv (fun n => Q2R (V n)) K.

(** The functions, by their names in the headers. *)
Definition func_of (name : string) : option (R -> R) :=
  match find (fun e => String.eqb name (fst e))
    [("safe_inverse", fun x => / x); ("1/x", fun x => / x); ("lambda x: x", fun x => x); ("lambda x: x**2", fun x => x * x);
     ("lambda x: safe_inverse(x**2)", fun x => / (x * x)); ("safe_sqrt", sqrt);
     ("lambda x: x**3", fun x => x ^ 3); ("lambda x: safe_inverse(x**3)", fun x => / x ^ 3);
     ("lambda x: x**4", fun x => x ^ 4); ("lambda x: safe_inverse(x**4)", fun x => / x ^ 4);
     ("lambda x: x**5", fun x => x ^ 5); ("lambda x: safe_inverse(x**5)", fun x => / x ^ 5);
     ("lambda x: dec_sin(x/18)", fun x => sin (x / 18)); ("lambda x: 2*dec_sin(x/18)", fun x => 2 * sin (x / 18));
     ("lambda x: dec_sin(2*safe_inverse(x)/9)", fun x => sin (2 * / x / 9));
     ("lambda x: 2*dec_sin(2*safe_inverse(x)/9)", fun x => 2 * sin (2 * / x / 9))]%string with
  | Some (_, f) => Some f
  | None => None
  end.
(** The constants, by their names in the headers. None: the stored files have no result for it. *)
Definition const_of_name (name : string) : option R :=
  match find (fun e => String.eqb name (fst e))
    [("pi", PI); ("e", exp 1); ("percolation, 0", 1 - 2 * sin (PI / 18)); ("percolation, 1", 2 * sin (PI / 18))]%string with
  | Some (_, x) => Some x
  | None => None
  end.
(** (u/x + x/l + c)/d *)
Definition ulcd_R (u l c d : Z) (x : R) : R := (IZR u / x + x / IZR l + IZR c) / IZR d.

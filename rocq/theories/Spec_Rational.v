(** Specifications for rational-function left-hand sides: functions are given by their values, divisibility in Z[x]
    by the values at the integers. Independent of the model's polynomial arithmetic. *)
From Coq Require Import Ascii String ZArith QArith Qabs Qround List Bool.
From Verif Require Import Spec_Utils Spec_ULCD.
Import ListNotations.
Local Open Scope Z_scope.

(** value of an integer polynomial at a rational number *)
Definition pvalq (p : list Z) (y : Q) : Q := poly_valQ (map inject_Z p) y.
(** the function p/q + n *)
Definition ratf (p q : list Z) (n : Z) (y : Q) : Q := (pvalq p y / pvalq q y + inject_Z n)%Q.
(** not the zero polynomial *)
Definition nonzero_poly (p : list Z) : Prop := exists n, poly_val p n <> 0.
(** divisibility in Z[x] *)
Definition zdivides (h p : list Z) : Prop := exists k, forall n, poly_val p n = poly_val h n * poly_val k n.
(** only 1 and -1 divide both *)
Definition zcoprime (p q : list Z) : Prop :=
  forall h, zdivides h p -> zdivides h q -> (forall n, poly_val h n = 1) \/ (forall n, poly_val h n = -1).
(** h is the greatest common divisor with positive leading coefficient (0 for two zero polynomials) *)
Definition is_zgcd (p q h : list Z) : Prop :=
  exists p' q', (forall n, poly_val p n = poly_val h n * poly_val p' n) /\
                (forall n, poly_val q n = poly_val h n * poly_val q' n) /\
                (nonzero_poly p \/ nonzero_poly q ->
                   zcoprime p' q' /\ exists B, forall n, B < n -> 0 < poly_val h n).
(** p/q is a constant function *)
Definition constant_ratio (p q : list Z) : Prop :=
  exists a b, b <> 0 /\ forall n, b * poly_val p n = a * poly_val q n.
(** sum of the absolute values of the terms of p at x *)
Fixpoint psize (p : list Z) (x : Q) : Q :=
  match p with [] => 0%Q | c :: r => (Qabs (inject_Z c) + Qabs x * psize r x)%Q end.
(** length without trailing zero coefficients *)
Definition true_length (p : list Z) (l : nat) : Prop :=
  (l <= length p)%nat /\ (forall i, (l <= i)%nat -> nth i p 0 = 0) /\ (l = 0%nat \/ nth (l - 1) p 0 <> 0).

(** the external gcd function is right on the pair (p, q), however the two polynomials are written *)
Definition gcd_for (pgcd : list Z -> list Z -> list Z) (p q : list Z) : Prop :=
  forall p' q', (forall n, poly_val p' n = poly_val p n) -> (forall n, poly_val q' n = poly_val q n) -> is_zgcd p q (pgcd p' q').

(** ---- what a piece of LaTeX denotes ---- *)
Section Latex.
  Variable name : list ascii.
  Local Open Scope list_scope.
  (** a power of the variable; without braces the exponent is one digit *)
  Inductive ltx_pow : list ascii -> nat -> Prop :=
  | lp_var : ltx_pow name 1
  | lp_digit i : (i < 10)%nat -> ltx_pow (name ++ chars "^" ++ int_chars (Z.of_nat i)) i
  | lp_braces i : ltx_pow (name ++ chars "^{" ++ int_chars (Z.of_nat i) ++ chars "}") i.
  (** c * x^i *)
  Inductive ltx_mono : list ascii -> Z -> nat -> Prop :=
  | lm_const c : ltx_mono (int_chars c) c 0
  | lm_pow t i : ltx_pow t i -> ltx_mono t 1 i
  | lm_minus t i : ltx_pow t i -> ltx_mono (chars "-" ++ t) (-1) i
  | lm_coeff c t i : ltx_pow t i -> ltx_mono (int_chars c ++ chars " " ++ t) c i.
  (** a sum of monomials *)
  Inductive ltx_poly : list ascii -> (Q -> Q) -> Prop :=
  | lq_one t c i f : ltx_mono t c i -> (forall x, f x == inject_Z c * x ^ Z.of_nat i)%Q -> ltx_poly t f
  | lq_add t c i s g f : ltx_mono t c i -> ltx_poly s g -> (forall x, f x == inject_Z c * x ^ Z.of_nat i + g x)%Q ->
      ltx_poly (t ++ chars "+" ++ s) f.
  (** a polynomial or a fraction of two, possibly plus an integer; d is the denominator *)
  Inductive ltx_rat : list ascii -> (Q -> Q) -> (Q -> Q) -> Prop :=
  | lr_poly t f : ltx_poly t f -> ltx_rat t f (fun _ => 1%Q)
  | lr_frac t s n d : ltx_poly t n -> ltx_poly s d ->
      ltx_rat (chars "\frac{ " ++ t ++ chars " }{ " ++ s ++ chars " }") (fun x => n x / d x)%Q d
  | lr_plus t f d k : ltx_rat t f d -> ltx_rat (t ++ chars "+ " ++ int_chars k) (fun x => f x + inject_Z k)%Q d.
End Latex.

(** Independent specification for the ULCD left-hand sides. *)
From Coq Require Import Ascii String ZArith QArith Qabs List.
From Coq Require DecimalString.
Import ListNotations.
Local Open Scope Z_scope.

(** The mathematical value (u/x + x/l + c)/d. *)
Definition ulcd_fun (p : Z * Z * Z * Z) (x : Q) : Q :=
  let '(u, l, c, d) := p in ((inject_Z u / x + x / inject_Z l + inject_Z c) / inject_Z d)%Q.
(** The sum of the magnitudes of its three terms, which bounds the effect of rounding. *)
Definition ulcd_size (p : Z * Z * Z * Z) (x : Q) : Q :=
  let '(u, l, c, d) := p in
  ((Qabs (inject_Z u / x) + Qabs (x / inject_Z l) + Qabs (inject_Z c)) / Qabs (inject_Z d))%Q.
Definition ulcd_defined (p : Z * Z * Z * Z) (x : Q) : Prop :=
  let '(u, l, c, d) := p in ~ (x == 0)%Q /\ l <> 0 /\ d <> 0.

(** ---- the LaTeX fragment used for these expressions: text of a tree, and what the tree denotes ---- *)
Definition chars (s : string) : list ascii := list_ascii_of_string s.
Definition int_chars (z : Z) : list ascii := chars (DecimalString.NilZero.string_of_int (Z.to_int z)).

Inductive lterm := LInt (z : Z) | LVar | LFrac (n d : lterm) | LMinusOneTimes (t : lterm).
Inductive lexp :=
| LSum (ts : list lterm)                   (* t1+t2+... *)
| LOver (d : Z) (ts : list lterm)          (* \frac{ 1 }{ d } \left( t1+... \right) *)
| LMinus (ts : list lterm).                (* - \left( t1+... \right) *)

Section Render.
  Variable name : list ascii.
  Local Open Scope list_scope.
  Fixpoint term_text (t : lterm) : list ascii :=
    match t with
    | LInt z => int_chars z
    | LVar => name
    | LFrac n d => chars "\frac{ " ++ term_text n ++ chars " }{ " ++ term_text d ++ chars " }"
    | LMinusOneTimes t => chars "\left(-1\right) \cdot " ++ term_text t
    end.
  Fixpoint sum_text (ts : list lterm) : list ascii :=
    match ts with
    | [] => []
    | [t] => term_text t
    | t :: r => term_text t ++ chars "+" ++ sum_text r
    end.
  Definition exp_text (e : lexp) : list ascii :=
    match e with
    | LSum ts => sum_text ts
    | LOver d ts => chars "\frac{ 1 }{ " ++ int_chars d ++ chars " } \left( " ++ sum_text ts ++ chars " \right)"
    | LMinus ts => chars "- \left( " ++ sum_text ts ++ chars " \right)"
    end.
End Render.

Fixpoint term_val (x : Q) (t : lterm) : Q :=
  match t with
  | LInt z => inject_Z z
  | LVar => x
  | LFrac n d => (term_val x n / term_val x d)%Q
  | LMinusOneTimes t => (- term_val x t)%Q
  end.
Definition sum_val (x : Q) (ts : list lterm) : Q := fold_right (fun t s => (term_val x t + s)%Q) 0%Q ts.
Definition exp_val (x : Q) (e : lexp) : Q :=
  match e with
  | LSum ts => sum_val x ts
  | LOver d ts => (1 / inject_Z d * sum_val x ts)%Q
  | LMinus ts => (- sum_val x ts)%Q
  end.

(** ---- ranges ---- *)
(** [l] lists lo, lo+step, lo+2*step, ... strictly before hi *)
Definition arith (lo hi step : Z) (l : list Z) : Prop :=
  forall k v, nth_error l k = Some v <-> v = lo + step * Z.of_nat k /\ (0 < step -> v < hi) /\ (step < 0 -> hi < v).
(** what a list or tuple given as a range stands for *)
Definition seq_denotes (r l : list Z) : Prop :=
  match r with
  | [lo; hi] => arith lo hi 1 l
  | [lo; hi; step] => step <> 0 /\ arith lo hi step l
  | _ => l = r
  end.

(** Independent specification of the texts produced for results. *)
From Coq Require Import Ascii String ZArith QArith List.
From Verif Require Import PyBase Spec_ContFrac Spec_ULCD.
Import ListNotations.
Local Open Scope Z_scope.
Local Open Scope list_scope.

(** ---- continued fractions ---- *)
(** a0 + \frac{ b1 } { a1 + \frac{ b2 } { ... an + \dots } } for [(a1, b1); ...; (an, bn)] *)
Fixpoint cf_text (a0 : Z) (l : list (Z * Z)) : list ascii :=
  match l with
  | [] => int_chars a0 ++ chars " + \dots"
  | (a1, b1) :: r => int_chars a0 ++ chars " + \frac{ " ++ int_chars b1 ++ chars " } { " ++ cf_text a1 r ++ chars " }"
  end.
(** what such a text denotes when the dots stand for [t]; None if a division by zero occurs *)
Fixpoint cf_denotes (a0 : Z) (l : list (Z * Z)) (t : Q) : option Q :=
  match l with
  | [] => Some (inject_Z a0 + t)%Q
  | (a1, b1) :: r =>
      match cf_denotes a1 r t with
      | Some v => if Qeq_bool v 0 then None else Some (inject_Z a0 + inject_Z b1 / v)%Q
      | None => None
      end
  end.

(** ---- functions of one argument: their LaTeX text and their meaning ---- *)
Inductive ptree := TArg | TInv (t : ptree) | TPow (t : ptree) (n : Z) | TFun (f : string) (t : ptree).
Fixpoint ptree_text (t : ptree) (arg : list ascii) : list ascii :=
  match t with
  | TArg => arg
  | TInv t => chars "\frac{1}{ " ++ ptree_text t arg ++ chars " }"
  | TPow t n => chars "\left( " ++ ptree_text t arg ++ chars " \right)^" ++ int_chars n
  | TFun f t => chars "\" ++ chars f ++ chars "\left( " ++ ptree_text t arg ++ chars " \right)"
  end.
Section Meaning.
  Context {N : Type}.
  (** the reciprocal that is total (1/0 is infinity), powers, and named functions *)
  Variable inv : N -> res N.
  Variable pow : N -> Z -> res N.
  Variable fn : string -> N -> res N.
  Fixpoint ptree_val (t : ptree) (x : N) : res N :=
    match t with
    | TArg => Ok x
    | TInv t => let* y := ptree_val t x in inv y
    | TPow t n => let* y := ptree_val t x in pow y n
    | TFun f t => let* y := ptree_val t x in fn f y
    end.
End Meaning.
(** The function that belongs to each index, as documented in the list of post-processing functions. *)
Definition post_base (k : Z) : option ptree :=
  match k with
  | 0 => Some TArg
  | 1 => Some (TPow TArg 2) | 2 => Some (TPow TArg 3) | 3 => Some (TPow TArg 4) | 4 => Some (TPow TArg 5)
  | 5 => Some (TFun "sqrt" TArg)
  | 6 => Some (TFun "sin" TArg) | 7 => Some (TFun "cos" TArg) | 8 => Some (TFun "tan" TArg) | 9 => Some (TFun "cot" TArg)
  | 10 => Some (TFun "exp" TArg) | 11 => Some (TFun "ln" TArg)
  | _ => None
  end.
Definition post_tree (i : Z) : option ptree :=
  match post_base (i / 2) with
  | Some t => Some (if i mod 2 =? 0 then t else TInv t)
  | None => None
  end.

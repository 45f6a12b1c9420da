(** Python primitives used by the models: exceptions as values, ranges, slices,
    cartesian products, insertion-ordered dictionaries. *)
From Coq Require Import ZArith List Bool Lia.
Import ListNotations.
Open Scope Z_scope.

(** Exceptions that the modelled code can raise.  [ZeroB i] models cont_fracs.py:11-13. *)
Inductive exn :=
| ValueError | TypeError | KeyError | IndexError | ZeroDivisionError
| AttributeError | NameError | RuntimeError | ZeroB (i : Z)
| KeyboardInterrupt | UnboundLocalError | StopIteration.

(** Outcome of a python call: a value or an exception. [python or library primitive, used at cont_fracs.py:132, 394; decimal_hashtable.py:27] *)
Inductive res (A : Type) :=
| Ok (a : A)
| Raise (e : exn).
Arguments Ok {A} a.
Arguments Raise {A} e.

(** Sequencing of python statements: the first exception wins. [python or library primitive, used at cont_fracs.py:132, 394; decimal_hashtable.py:27] *)
Definition bind {A B} (x : res A) (f : A -> res B) : res B :=
  match x with Ok a => f a | Raise e => Raise e end.

Declare Scope res_scope.
Notation "'let*' x := e 'in' k" := (bind e (fun x => k))
  (at level 200, x pattern, e at level 100, k at level 200, right associativity) : res_scope.
Open Scope res_scope.

(** [for x in xs: s = f s x] where the body may raise. [python or library primitive, used at utils.py:75; cont_fracs.py:396-397] *)
Fixpoint foldM {S A} (f : S -> A -> res S) (xs : list A) (s : S) : res S :=
  match xs with
  | [] => Ok s
  | x :: r => let* s' := f s x in foldM f r s'
  end.

(** [[f x for x in xs]] where the body may raise. [python or library primitive, used at cont_fracs.py:427-428; enum_params.py:429-430] *)
Fixpoint mapM {A B} (f : A -> res B) (xs : list A) : res (list B) :=
  match xs with
  | [] => Ok []
  | x :: r => let* y := f x in let* ys := mapM f r in Ok (y :: ys)
  end.

(** [range(lo, hi)]. [python or library primitive, used at cont_fracs.py:427; basic_representation_types.py:60] *)
Definition zrange (lo hi : Z) : list Z :=
  map (fun i => lo + Z.of_nat i) (seq 0 (Z.to_nat (hi - lo))).

(** [range(lo, hi, step)] for [step >= 1]. [python or library primitive, used at cont_fracs.py:209, 278] *)
Definition zrange_step (lo hi step : Z) : list Z :=
  map (fun i => lo + step * Z.of_nat i) (seq 0 (Z.to_nat ((hi - lo + step - 1) / step))).

(** [xs[i]] for any python index (negative indices count from the end). [python or library primitive, used at enum_params.py:137; cont_fracs.py:129] *)
Definition py_nth {A} (xs : list A) (i : Z) : res A :=
  let n := Z.of_nat (length xs) in
  let j := if i <? 0 then i + n else i in
  if (j <? 0) || (n <=? j) then Raise IndexError
  else match nth_error xs (Z.to_nat j) with Some x => Ok x | None => Raise IndexError end.

(** [xs[:k]] for any python integer [k]. [python or library primitive, used at decimal_hashtable.py:33; enum_params.py:508] *)
Definition py_take {A} (k : Z) (xs : list A) : list A :=
  if 0 <=? k then firstn (Z.to_nat k) xs
  else firstn (Z.to_nat (Z.of_nat (length xs) + k)) xs.

(** [itertools.product] of the lists in lexicographic order. [python or library primitive, used at enum_poly_params.py:108, 115; lhs_evaluators.py:534, 539] *)
Fixpoint product {A} (ls : list (list A)) : list (list A) :=
  match ls with
  | [] => [[]]
  | l :: r => flat_map (fun x => map (cons x) (product r)) l
  end.

(** Insertion-ordered dictionary as an association list. *)
Section Dict.
  Context {K V : Type} (eqb : K -> K -> bool).
  (** python or library primitive, used at decimal_hashtable.py:38-47, 82-98; main.py:66-67 *)
  Fixpoint d_get (d : list (K * V)) (k : K) : option V :=
    match d with
    | [] => None
    | (k', v) :: r => if eqb k k' then Some v else d_get r k
    end.
  (** python or library primitive, used at decimal_hashtable.py:38-47, 82-98; main.py:66-67 *)
  Definition d_mem (d : list (K * V)) (k : K) : bool :=
    match d_get d k with Some _ => true | None => false end.
  (** assignment keeps the position of an existing key and appends a new one. [python or library primitive, used at decimal_hashtable.py:38-47, 82-98; main.py:66-67] *)
  Fixpoint d_set (d : list (K * V)) (k : K) (v : V) : list (K * V) :=
    match d with
    | [] => [(k, v)]
    | (k', v') :: r => if eqb k k' then (k', v) :: r else (k', v') :: d_set r k v
    end.
  (** python or library primitive, used at decimal_hashtable.py:38-47, 82-98; main.py:66-67 *)
  Fixpoint d_del (d : list (K * V)) (k : K) : list (K * V) :=
    match d with
    | [] => []
    | (k', v') :: r => if eqb k k' then r else (k', v') :: d_del r k
    end.
  (** python or library primitive, used at decimal_hashtable.py:38-47, 82-98; main.py:66-67 *)
  Definition d_keys (d : list (K * V)) : list K := map fst d.
End Dict.

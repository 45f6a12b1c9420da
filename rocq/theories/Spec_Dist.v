(** Specifications for splitting a search into jobs. *)
From Coq Require Import ZArith List.
From Verif Require Import Spec_Enum.
Import ListNotations.
Local Open Scope Z_scope.

(** A point of a search space: the coefficients of the a and of the b polynomials. *)
Definition point := (list (list Z) * list (list Z))%type.
Definition space := (list (list (Z * Z)) * list (list (Z * Z)))%type.
Definition in_space (s : space) (x : point) : Prop := in_ranges (fst s) (fst x) /\ in_ranges (snd s) (snd x).
(** [js] is a partition of [s]. *)
Definition partition (s : space) (js : list space) : Prop :=
  (forall x, in_space s x <-> exists j, In j js /\ in_space j x) /\
  ForallOrdPairs (fun j j' => forall x, ~ (in_space j x /\ in_space j' x)) js.
(** All bounds are below [b] in absolute value. *)
Definition bounded (b : Z) (s : space) : Prop :=
  forall p r, In p (fst s ++ snd s) -> In r p -> Z.abs (fst r) < b /\ Z.abs (snd r) < b.
(** How often the ranges of a polynomial can be halved. *)
Definition halvings (p : list (Z * Z)) : Z := fold_right (fun r n => Z.log2 (snd r - fst r) + n) 0 p.

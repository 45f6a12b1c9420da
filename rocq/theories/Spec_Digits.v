(** Numbers whose texts are those of Python's Decimals. *)
From Coq Require Import ZArith QArith List Bool Ascii.
From Verif Require Import PyBase Hashtable_Model Spec_Hashtable Hashtable_Dec.
Import ListNotations.
Local Open Scope Z_scope.

(** A Decimal as Python keeps it: its digits do not start with a zero, unless it is zero and has that digit only. *)
Definition dec_normal (d : pydec) : Prop := dec_wf d /\ (d_int d = [0%nat] \/ hd 1%nat (d_int d) <> 0%nat).
(** [eng] gives every number for which it has a text the text of a Decimal with that value. *)
Definition decimal_texts (eng : Q -> res text) : Prop :=
  forall q s, eng q = Ok s -> exists d, dec_normal d /\ s = dec_eng d /\ (dec_value d == q)%Q.
(** 10^-a, but not less than 10^-6 *)
Definition tolerance (a : Z) : Q := ten_p (- Z.min a 6).

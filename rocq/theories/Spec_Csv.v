(** Specification of what a csv file says, for C145 and C146. *)
From Coq Require Import Ascii String ZArith List Bool.
Import ListNotations.
Local Open Scope list_scope.

(** A carriage return, with the newline after it if there is one, counts as a newline. *)
Inductive one_newline : list ascii -> list ascii -> Prop :=
| on_nil : one_newline [] []
| on_crlf s t : one_newline s t -> one_newline ("013"%char :: "010"%char :: s) ("010"%char :: t)
| on_cr s t : (forall r, s <> "010"%char :: r) -> one_newline s t -> one_newline ("013"%char :: s) ("010"%char :: t)
| on_other c s t : c <> "013"%char -> one_newline s t -> one_newline (c :: s) (c :: t).

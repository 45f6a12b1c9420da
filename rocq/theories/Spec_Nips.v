(** Independent specification: the iterations the plots of gen_errors_for_nips.py are about. *)

(** The first iteration of the window and the last one. *)
Definition window_of (k : nat) : nat * nat :=
  match k with 1 => (31, 65) | 2 => (61, 300) | _ => (31, 130) end.

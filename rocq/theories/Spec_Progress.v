(** Independent specification of an iteration with a progress display. *)
From Coq Require Import ZArith QArith List.
Import ListNotations.
Open Scope Z_scope.

(** the items with their positions, from [i] on *)
Fixpoint numbered {A} (i : Z) (xs : list A) : list (Z * A) :=
  match xs with [] => [] | x :: r => (i, x) :: numbered (i + 1) r end.

(** the positions at which an update is due: more than [freq] seconds ([hz] clock ticks each) after the previous
    update (or the beginning), [t k] being the time at which item k is fetched; positions i, i+1, ..., i+n-1 *)
Fixpoint due (hz : positive) (freq : Q) (t : nat -> Z) (last : Z) (i n : nat) : list nat :=
  match n with
  | O => []
  | S n' => if Qlt_le_dec freq (t i - last # hz) then i :: due hz freq t (t i) (S i) n'
            else due hz freq t last (S i) n'
  end.

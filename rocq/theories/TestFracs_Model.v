(** The continued fractions of tests/test_cont_fracs.py. *)
From Coq Require Import ZArith QArith List.
From Verif Require Import ContFrac_Model.
Import ListNotations.
Open Scope Z_scope.

(** tests/test_cont_fracs.py:13-18 — the argument a of the k-th case *)
Definition test_a (k : nat) : coeffs :=
  match k with 1%nat => [[2]] | 2%nat => [[6]] | 3%nat => [[1; 2]] | 4%nat => [[2; 1]] | 5%nat => [[1]] | _ => [[2]; [0; 12]] end.
(** tests/test_cont_fracs.py:13-18 — the argument b of the k-th case *)
Definition test_b (k : nat) : coeffs :=
  match k with 1%nat => [[1; -4; 4]] | 2%nat => [[1; -4; 4]] | 3%nat => [[0; 0; 1]] | 4%nat => [[0; -1]] | 5%nat => [[1]] | _ => [[-1; 6]; [-5; 6]] end.
(** tests/test_cont_fracs.py:13-18 — the number of iterations of the k-th case *)
Definition test_iters (k : nat) : nat :=
  match k with 1%nat => 550 | 2%nat => 500 | 3%nat => 200 | _ => 400 end.
(** tests/test_cont_fracs.py:13-18 — the threshold of the k-th case *)
Definition test_threshold (k : nat) : Q :=
  match k with 1%nat => 8 # 10 ^ 4 | 2%nat => 1 # 10 ^ 8 | _ => 1 # 10 ^ 15 end.

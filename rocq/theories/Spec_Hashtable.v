(** Specifications for the hash table, independent of the model's helpers. *)
From Coq Require Import ZArith QArith List Bool Ascii.
Import ListNotations.
Local Open Scope Z_scope.

(** A plain map on characters lists. *)
Section PlainMap.
  Context {V : Type}.
  Inductive mop := MSet (k : list ascii) (v : V) | MGet (k : list ascii) | MMem (k : list ascii).
  Inductive mout := MDone | MFound (v : V) | MAbsent | MTrue | MFalse.
  Definition ascii_list_dec : forall a b : list ascii, {a = b} + {a <> b} := list_eq_dec ascii_dec.
  Definition map_upd (m : list ascii -> option V) (k : list ascii) (v : V) : list ascii -> option V :=
    fun k' => if ascii_list_dec k' k then Some v else m k'.
  Fixpoint map_run (proj : list ascii -> list ascii) (m : list ascii -> option V) (os : list mop) : list mout :=
    match os with
    | [] => []
    | MSet k v :: r => MDone :: map_run proj (map_upd m (proj k) v) r
    | MGet k :: r => match m (proj k) with Some v => MFound v | None => MAbsent end :: map_run proj m r
    | MMem k :: r => match m (proj k) with Some _ => MTrue | None => MFalse end :: map_run proj m r
    end.
End PlainMap.
Arguments mop : clear implicits.
Arguments mout : clear implicits.

(** Value of a decimal numeral: digits most significant first. *)
Definition digits_val (ds : list nat) : Z := fold_left (fun a d => 10 * a + Z.of_nat d) ds 0.
(** 10^e for any integer e. *)
Definition ten_p (e : Z) : Q := (if 0 <=? e then inject_Z (10 ^ e) else / inject_Z (10 ^ (- e)))%Q.
(** number of characters up to and including the decimal point: None if there is no point *)
Fixpoint point_at (s : list ascii) : option nat :=
  match s with
  | [] => None
  | c :: r => if Ascii.eqb c "."%char then Some 1%nat
              else match point_at r with Some n => Some (S n) | None => None end
  end.

(** Model of the functions dec_cos and dec_sin of postprocfuncs.py. The argument is a finite number. No proofs. *)
From Coq Require Import ZArith QArith.
From Verif Require Import PyBase Rnd.
Open Scope Z_scope.

(** What the name getcontext of postprocfuncs.py:20, 29, 46, 55 gives: nothing (the module does not import it, postprocfuncs.py:4), or a
    context with this precision. *)
Definition decctx := option Z.

Section Trig.
  (** [rdp prec]: how the numbers of the class of x round when the context has the precision [prec]. For Decimals to [prec] digits; numbers of
      mpmath have their own precision and do not depend on it. *)
  Variable rdp : Z -> Q -> Q.

  (** postprocfuncs.py:22-28 and 48-54 — the loop; [None] = not finished within [fuel] rounds. The integers fact and sign are exact. *)
  Fixpoint taylor (rd : Q -> Q) (x : Q) (fuel : nat) (i : Z) (lasts s : Q) (fact : Z) (num : Q) (sign : Z) : option Q :=
    if Qeq_bool s lasts then Some s
    else
      match fuel with
      | O => None
      | S f =>
          let lasts := s in
          let i := i + 2 in
          let fact := fact * (i * (i - 1)) in
          let num := rmul rd num (rmul rd x x) in
          let sign := - sign in
          let s := radd rd s (rmul rd (rdiv rd num (inject_Z fact)) (inject_Z sign)) in
          taylor rd x f i lasts s fact num sign
      end.

  (** postprocfuncs.py:6-30. The result: the context afterwards, and the value or the exception. *)
  Definition dec_cos (ctx : decctx) (x : Q) (fuel : nat) : option (decctx * res Q) :=
    match ctx with
    | None => Some (ctx, Raise NameError)
    | Some prec =>
        let prec := prec + 2 in
        match taylor (rdp prec) x fuel 0 0 1 1 1 1 with
        | None => None
        | Some s => let prec := prec - 2 in Some (Some prec, Ok (rdp prec s))
        end
    end.
  (** postprocfuncs.py:32-56 *)
  Definition dec_sin (ctx : decctx) (x : Q) (fuel : nat) : option (decctx * res Q) :=
    match ctx with
    | None => Some (ctx, Raise NameError)
    | Some prec =>
        let prec := prec + 2 in
        match taylor (rdp prec) x fuel 1 0 x 1 x 1 with
        | None => None
        | Some s => let prec := prec - 2 in Some (Some prec, Ok (rdp prec s))
        end
    end.
End Trig.

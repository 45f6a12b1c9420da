(** Rounding of a rational to [p] significant bits, nearest, ties to even; unbounded exponent range.
    This is the rounding of mpmath's [mpf] operations + - * / and of [mpf(int)] with working precision [p]
    (mpmath/libmp: normalize with rounding 'n'), and of CPython floats ([p = 53]) away from
    overflow and subnormals. *)
From Coq Require Import ZArith QArith Qabs Qpower Bool.
Open Scope Z_scope.

(** round to the nearest integer, ties to even (also python's [round(x)] on exact values). [python or library primitive, used at cont_fracs.py:101, 118, 397] *)
Definition rne (x : Q) : Z :=
  let n := Qnum x in
  let d := Zpos (Qden x) in
  let q := n / d in
  let r := n mod d in
  if 2 * r <? d then q
  else if d <? 2 * r then q + 1
  else if Z.even q then q else q + 1.

(** floor(log2 |x|) for x <> 0. [python or library primitive, used at cont_fracs.py:101, 118, 397] *)
Definition mag (x : Q) : Z :=
  let n := Z.abs (Qnum x) in
  let d := Zpos (Qden x) in
  let k := Z.log2 n - Z.log2 d in
  if n * 2 ^ (Z.max 0 (- k)) <? d * 2 ^ (Z.max 0 k) then k - 1 else k.

(** python or library primitive, used at cont_fracs.py:101, 118, 397 *)
Definition two_p (e : Z) : Q := Qpower (2 # 1) e.

(** python or library primitive, used at cont_fracs.py:101, 118, 397 *)
Definition rnd (p : Z) (x : Q) : Q :=
  if Qnum x =? 0 then 0%Q
  else
    let e := mag x - p + 1 in
    Qred (inject_Z (rne (x * two_p (- e))) * two_p e)%Q.

(** Correctly rounded operations with a given rounding function. [python or library primitive, used at cont_fracs.py:397; utils.py:75] *)
Definition radd (rd : Q -> Q) (x y : Q) : Q := rd (x + y)%Q.
(** python or library primitive, used at cont_fracs.py:397; utils.py:75 *)
Definition rsub (rd : Q -> Q) (x y : Q) : Q := rd (x - y)%Q.
(** python or library primitive, used at cont_fracs.py:397; utils.py:75 *)
Definition rmul (rd : Q -> Q) (x y : Q) : Q := rd (x * y)%Q.
(** python or library primitive, used at cont_fracs.py:397; utils.py:75 *)
Definition rdiv (rd : Q -> Q) (x y : Q) : Q := rd (x / y)%Q.

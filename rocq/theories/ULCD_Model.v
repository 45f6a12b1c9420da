(** Model of the ULCD left-hand sides of lhs_evaluators.py (lines 24-80 and 98-247). No proofs.
    Numbers: the target constant and the value are finite numbers (rationals); every arithmetic operation on them is
    followed by the rounding [rd] of the working precision. Division by zero raises (mpmath's ZeroDivisionError;
    Python's decimal raises DivisionByZero or InvalidOperation, the first of which is a ZeroDivisionError). *)
From Coq Require Import Ascii String ZArith QArith Qabs List Bool.
From Verif Require Import PyBase Rnd ContFrac_Model Hashtable_Model.
Import ListNotations.
Local Open Scope Z_scope.
Local Open Scope res_scope.
Local Open Scope list_scope.

(** (u, l, c, d) (lhs_evaluators.py:104-109) *)
Notation ulcd4 := (Z * Z * Z * Z)%type (only parsing).

(** Attributes of a ULCDEvaluator (lhs_evaluators.py:26-37, 108-110). *)
Record ulcd := mkUlcd { ul_params : ulcd4; ul_const : Q; ul_val : Q }.

Section Eval.
  Variable rd : Q -> Q.

  (** A division of two numbers, at least one of which is an mpf/Decimal. [python or library primitive, used at lhs_evaluators.py:110] *)
  Definition div_r (a b : Q) : res Q := if Qeq_bool b 0 then Raise ZeroDivisionError else Ok (rd (a / b)%Q).

  (** The expression of lhs_evaluators.py:110, 117 and 124: (u / x + x / l + c) / d *)
  Definition ulcd_calc (x : Q) (p : ulcd4) : res Q :=
    let '(u, l, c, d) := p in
    let* t1 := div_r (inject_Z u) x in
    let* t2 := div_r x (inject_Z l) in
    div_r (rd (rd (t1 + t2) + inject_Z c))%Q (inject_Z d).

  (** Assigning self.params and then self.val; when the expression raises the parameters are already replaced
      (lhs_evaluators.py:108-110, 116-117, 123-124). *)
  Definition ulcd_assign (o : ulcd) (p : ulcd4) : ulcd * res unit :=
    match ulcd_calc (ul_const o) p with
    | Ok v => (mkUlcd p (ul_const o) v, Ok tt)
    | Raise e => (mkUlcd p (ul_const o) (ul_val o), Raise e)
    end.

  (** lhs_evaluators.py:26-37 with parameters; no object results from a constructor that raises. *)
  Definition ulcd_new (p : ulcd4) (x : Q) : res ulcd :=
    let* v := ulcd_calc x p in Ok (mkUlcd p x v).
  (** lhs_evaluators.py:32-33, 37 — the constructor applied to another object. *)
  Definition ulcd_copy (o : ulcd) : res ulcd := ulcd_new (ul_params o) (ul_const o).
  (** lhs_evaluators.py:104-110 *)
  Definition ulcd_reinit (p : ulcd4) (o : ulcd) : ulcd * res unit := ulcd_assign o p.
  (** lhs_evaluators.py:112-117 *)
  Definition ulcd_flip_sign (o : ulcd) : ulcd * res unit :=
    let '(u, l, c, d) := ul_params o in ulcd_assign o (u, l, c, d * -1).
  (** lhs_evaluators.py:119-124 *)
  Definition ulcd_add_int (i : Z) (o : ulcd) : ulcd * res unit :=
    let '(u, l, c, d) := ul_params o in ulcd_assign o (u, l, c + d * i, d).

  (** A sequence of method calls, each of which may raise without stopping the caller. [calls of the methods lhs_evaluators.py:104-124] *)
  Inductive ulcd_op := UReinit (p : ulcd4) | UFlip | UAdd (i : Z).
  (** calls of the methods lhs_evaluators.py:104-124 *)
  Definition ulcd_step (o : ulcd) (op : ulcd_op) : ulcd * res unit :=
    match op with UReinit p => ulcd_reinit p o | UFlip => ulcd_flip_sign o | UAdd i => ulcd_add_int i o end.
  (** calls of the methods lhs_evaluators.py:104-124 *)
  Fixpoint ulcd_run (ops : list ulcd_op) (o : ulcd) : ulcd * list (res unit) :=
    match ops with
    | [] => (o, [])
    | op :: r => let (o1, x) := ulcd_step o op in let (o2, xs) := ulcd_run r o1 in (o2, x :: xs)
    end.

  (** lhs_evaluators.py:191-193 *)
  Definition ulcd_is_degenerate (o : ulcd) : bool :=
    let '(u, l, c, d) := ul_params o in (Z.abs u =? 1) && (u =? - l).

  (** ---- enumeration ---- *)
  (** Accepted forms of one range (lhs_evaluators.py:212-227): an int, a list or tuple, another sized iterable
      (given by its elements; bool, a subclass of int, is not distinguished from int). *)
  Inductive rarg := RInt (n : Z) | RSeq (l : list Z) | RIter (l : list Z).

  (** range(lo, hi, step) for any step. [python or library primitive, used at lhs_evaluators.py:215, 219, 223, 227] *)
  Definition py_range3 (lo hi step : Z) : res (list Z) :=
    if step =? 0 then Raise ValueError
    else if 0 <? step then Ok (zrange_step lo hi step)
    else Ok (map (fun i => lo + step * Z.of_nat i) (seq 0 (Z.to_nat ((lo - hi - step - 1) / - step)))).

  (** lhs_evaluators.py:214-215 (and 218, 222, 226) *)
  Definition seq_range (l : list Z) : res (list Z) :=
    match l with
    | [lo; hi] => Ok (zrange lo hi)
    | [lo; hi; step] => py_range3 lo hi step
    | _ => Ok l
    end.
  (** lhs_evaluators.py:212-223 — u, l and c *)
  Definition ulc_range (r : rarg) : res (list Z) :=
    match r with RInt n => Ok (zrange (- n) (n + 1)) | RSeq l => seq_range l | RIter l => Ok l end.
  (** lhs_evaluators.py:224-227 *)
  Definition d_range (r : rarg) : res (list Z) :=
    match r with RInt n => Ok (zrange 1 (n + 1)) | RSeq l => seq_range l | RIter l => Ok l end.

  (** Attributes of a ULCDEnumerator after the constructor. [lhs_evaluators.py:211-230] *)
  Record uenum := { ue_u : list Z; ue_l : list Z; ue_c : list Z; ue_d : list Z; ue_x : Q; ue_len : Z }.

  (** lhs_evaluators.py:198-230; a sequence of ranges of another length than 4 raises ValueError (line 211). *)
  Definition uenum_new (rs : list rarg) (x : Q) : res uenum :=
    match rs with
    | [ru; rl; rc; rd_] =>
        let* u := ulc_range ru in
        let* l := ulc_range rl in
        let* c := ulc_range rc in
        let* d := d_range rd_ in
        Ok {| ue_u := u; ue_l := l; ue_c := c; ue_d := d; ue_x := x;
              ue_len := Z.of_nat (length u) * Z.of_nat (length l) * Z.of_nat (length c) * Z.of_nat (length d) |}
    | _ => Raise ValueError
    end.

  (** itertools.product of the four ranges (lhs_evaluators.py:238). *)
  Definition product4 (us ls cs ds : list Z) : list ulcd4 :=
    flat_map (fun u => flat_map (fun l => flat_map (fun c => map (fun d => (u, l, c, d)) ds) cs) ls) us.

  (** lhs_evaluators.py:240-245 *)
  Definition ulcd_skip (p : ulcd4) : bool :=
    let '(u, l, c, d) := p in
    if (d =? 0) || (l =? 0) then true else Z.abs d <=? Z.abs c.

  (** lhs_evaluators.py:232-247. The generator re-uses one object; between two yields the consumer runs.
      [body o s] is the consumer's loop body: it receives the yielded object in its current state and may
      change it and its own state [s] or raise, which ends the loop. *)
  Section Generator.
    Context {S : Type}.
    Variable body : ulcd -> S -> (ulcd * S) * res unit.
    (** lhs_evaluators.py:232-247 *)
    Fixpoint ugen_loop (ps : list ulcd4) (o : ulcd) (s : S) : (ulcd * S) * res unit :=
      match ps with
      | [] => ((o, s), Ok tt)
      | p :: r =>
          if ulcd_skip p then ugen_loop r o s
          else match ulcd_reinit p o with
               | (o1, Raise e) => ((o1, s), Raise e)
               | (o1, Ok _) => match body o1 s with
                               | (os, Raise e) => (os, Raise e)
                               | ((o2, s2), Ok _) => ugen_loop r o2 s2
                               end
               end
      end.
    (** [for obj in enumerator.generator(): body]; the state of the shared object is returned too. [lhs_evaluators.py:232-247] *)
    Definition ugen_for (en : uenum) (s : S) : res ((ulcd * S) * res unit) :=
      let* o := ulcd_new (1, 1, 1, 1) (ue_x en) in
      Ok (ugen_loop (product4 (ue_u en) (ue_l en) (ue_c en) (ue_d en)) o s).
  End Generator.

  (** [[(obj.get_params(), obj.get_val()) for obj in generator()]]. [lhs_evaluators.py:232-247] *)
  Definition ugen_list (en : uenum) : res (list (ulcd4 * Q)) :=
    let* r := ugen_for (fun o s => ((o, s ++ [(ul_params o, ul_val o)]), Ok tt)) en [] in
    match r with
    | ((_, s), Ok _) => Ok s
    | (_, Raise e) => Raise e
    end.
End Eval.

(** ---- equivalence of two results ---- *)
(** A result as it is used here: ((pa, pb), object, index of the post-processing function). [lhs_evaluators.py:134-135] *)
Definition uresult := ((coeffs * coeffs) * ulcd * Z)%type.

(** python or library primitive, used at lhs_evaluators.py:142, 150 *)
Definition poly_eqb (a b : list Z) : bool := if list_eq_dec Z.eq_dec a b then true else false.
(** python or library primitive, used at lhs_evaluators.py:142, 150 *)
Definition coeffs_eqb (a b : coeffs) : bool := if list_eq_dec (list_eq_dec Z.eq_dec) a b then true else false.
(** python or library primitive, used at lhs_evaluators.py:142, 150 *)
Definition ulcd4_eqb (p q : ulcd4) : bool :=
  let '(u1, l1, c1, d1) := p in let '(u2, l2, c2, d2) := q in
  (u1 =? u2) && (l1 =? l2) && (c1 =? c2) && (d1 =? d2).

(** Python float arithmetic: round to nearest even, 53 bits (overflow and underflow are not modelled). [python or library primitive, used at lhs_evaluators.py:156-159] *)
Definition fl (x : Q) : Q := rnd 53 x.
(** int == float. [python or library primitive, used at lhs_evaluators.py:156-159] *)
Definition zq_eqb (z : Z) (q : Q) : bool := Qeq_bool (inject_Z z) q.

(** lhs_evaluators.py:127-164, for two ULCD objects (line 136 answers False for objects of different classes).
    [d1 / d2] is Python's correctly rounded true division; an int operand of * and / is first converted to a float. *)
Definition ulcd_is_equiv (r1 r2 : uresult) : res bool :=
  let '(ab1, o1, ind1) := r1 in
  let '(ab2, o2, ind2) := r2 in
  let p1 := ul_params o1 in
  let p2 := ul_params o2 in
  if negb (ind1 =? 0) || negb (ind2 =? 0) then
    Ok ((coeffs_eqb (fst ab1) (fst ab2) && coeffs_eqb (snd ab1) (snd ab2)) && ulcd4_eqb p1 p2 && (ind1 =? ind2))
  else
    let '(pa1, pb1) := ab1 in
    let '(pa2, pb2) := ab2 in
    if negb (Nat.eqb (length pa1) (length pa2)) || negb (Nat.eqb (length pb1) (length pb2)) then Ok false
    else if coeffs_eqb pb1 pb2 && (coeffs_eqb pa1 pa2 || coeffs_eqb pa1 (map (map Z.opp) pa2)) then
      let '(u1, l1, c1, d1) := p1 in
      let '(u2, l2, c2, d2) := p2 in
      let same s := (u1 =? u2 * s) && (l1 =? l2 * s) && (c1 =? c2 * s) && (Z.abs d1 =? Z.abs d2) in
      if same 1 || same (-1) then Ok true
      else if d2 =? 0 then Raise ZeroDivisionError
      else
        let ratio := Qabs (fl (inject_Z d1 / inject_Z d2)%Q) in
        let fmul z := fl (fl (inject_Z z) * ratio)%Q in
        let fdiv z : res Q := if Qeq_bool ratio 0 then Raise ZeroDivisionError else Ok (fl (fl (inject_Z z) / ratio)%Q) in
        let check s : res bool :=
          if zq_eqb u1 (fmul (s * u2)) then
            let* l' := fdiv (s * l2) in
            Ok (zq_eqb l1 l' && zq_eqb c1 (fmul (s * c2)))
          else Ok false in
        let* x := check 1 in
        if x : bool then Ok true else check (-1)
    else Ok false.

(** ---- LaTeX ---- *)
(** '+'.join. [python or library primitive, used at lhs_evaluators.py:183] *)
Fixpoint join_plus (l : list text) : text :=
  match l with
  | [] => []
  | [x] => x
  | x :: r => x ++ txt "+" ++ join_plus r
  end.

(** r'\frac{{ {0} }}{{ {1} }}'.format(a, b). [python or library primitive, used at lhs_evaluators.py:174, 176] *)
Definition fmt_frac (a b : text) : text := txt "\frac{ " ++ a ++ txt " }{ " ++ b ++ txt " }".

(** lhs_evaluators.py:166-189 *)
Definition ulcd_latex (p : ulcd4) (name : text) : text :=
  let '(u, l, c, d) := p in
  let e1 := if negb (u =? 0) then [fmt_frac (z_text u) name] else [] in
  let e2 := if negb (Z.abs l =? 1) then [fmt_frac name (z_text l)]
            else if l =? -1 then [txt "\left(-1\right) \cdot " ++ name]
            else [name] in
  let e3 := if negb (c =? 0) then [z_text c] else [] in
  let s := join_plus (e1 ++ e2 ++ e3) in
  if negb (Z.abs d =? 1) then txt "\frac{ 1 }{ " ++ z_text d ++ txt " } \left( " ++ s ++ txt " \right)"
  else if d =? -1 then txt "- \left( " ++ s ++ txt " \right)"
  else s.

(** ---- object identity ---- *)
(** Objects live in a heap and are referred to by address; address 0 is the object the generator re-uses
    (lhs_evaluators.py:237). [uh_clicks] are the addresses stored in the recorded clicks (enum_params.py:229). *)
Record uheap := mkUheap { uh_objs : list ulcd; uh_clicks : list nat }.
(** lhs_evaluators.py:237-247; enum_params.py:229, 299, 302, 308 *)
Inductive uevent :=
| EvYield (p : ulcd4)              (* the generator moves on: reinit_params of the shared object, lhs_evaluators.py:246 *)
| EvRecord                         (* find_clicks records lhs_evaluator(enum_res_obj), enum_params.py:229 *)
| EvCall (k : nat) (op : ulcd_op). (* a later method call on the object of click number k, enum_params.py:299-302 *)

(** lhs_evaluators.py:246; enum_params.py:299, 302 *)
Fixpoint set_nth {A} (n : nat) (x : A) (l : list A) : list A :=
  match l, n with
  | [], _ => []
  | _ :: r, O => x :: r
  | y :: r, S m => y :: set_nth m x r
  end.

Section Heap.
  Variable rd : Q -> Q.
  (** A method call on the object at an address. [lhs_evaluators.py:237-247; enum_params.py:229, 299, 302, 308] *)
  Definition uh_call (addr : nat) (op : ulcd_op) (h : uheap) : uheap :=
    match nth_error (uh_objs h) addr with
    | Some o => mkUheap (set_nth addr (fst (ulcd_step rd o op)) (uh_objs h)) (uh_clicks h)
    | None => h
    end.
  (** One event; a constructor that raises records nothing. [lhs_evaluators.py:237-247; enum_params.py:229, 299, 302, 308] *)
  Definition uh_event (h : uheap) (e : uevent) : uheap :=
    match e with
    | EvYield p => uh_call 0 (UReinit p) h
    | EvRecord =>
        match nth_error (uh_objs h) 0 with
        | Some o => match ulcd_copy rd o with
                    | Ok o' => mkUheap (uh_objs h ++ [o']) (uh_clicks h ++ [length (uh_objs h)])
                    | Raise _ => h
                    end
        | None => h
        end
    | EvCall k op => match nth_error (uh_clicks h) k with Some addr => uh_call addr op h | None => h end
    end.
  (** lhs_evaluators.py:237-247; enum_params.py:229, 299, 302, 308 *)
  Definition uh_run (es : list uevent) (h : uheap) : uheap := fold_left uh_event es h.
  (** The object of click number k. [lhs_evaluators.py:237-247; enum_params.py:229, 299, 302, 308] *)
  Definition uh_click (h : uheap) (k : nat) : option ulcd :=
    match nth_error (uh_clicks h) k with Some addr => nth_error (uh_objs h) addr | None => None end.
End Heap.

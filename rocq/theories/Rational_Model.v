(** Model of the rational-function left-hand sides of lhs_evaluators.py (lines 15-21 and 256-557). No proofs.
    Polynomials are coefficient lists, lowest power first. A sympy Poly over ZZ (or QQ) is a coefficient list without
    trailing zeros. sympy's division is modelled by its dense algorithms (dup_rr_div over ZZ, dup_ff_div over QQ);
    sympy's gcd is the parameter [pgcd], specified in Spec_Rational.v. *)
From Coq Require Import Ascii String ZArith QArith Qabs Qround List Bool.
From Verif Require Import PyBase Rnd ContFrac_Model Hashtable_Model ULCD_Model.
Import ListNotations.
Local Open Scope Z_scope.
Local Open Scope res_scope.
Local Open Scope list_scope.

(** ---- dense polynomials over ZZ ---- *)
(** dup_strip: drop zero leading coefficients. [python or library primitive, used at lhs_evaluators.py:367, 373, 441-442] *)
Fixpoint znorm (p : list Z) : list Z :=
  match p with
  | [] => []
  | c :: r => match znorm r with
              | [] => if c =? 0 then [] else [c]
              | r' => c :: r'
              end
  end.
(** dup_sub / dup_add before stripping. [python or library primitive, used at lhs_evaluators.py:367, 373, 441-442] *)
Fixpoint zsub (p q : list Z) : list Z :=
  match p, q with
  | [], _ => map Z.opp q
  | _, [] => p
  | a :: p', b :: q' => (a - b) :: zsub p' q'
  end.
(** dup_mul_term: c * x^j * p, for c <> 0. [python or library primitive, used at lhs_evaluators.py:367, 373, 441-442] *)
Definition zterm (c : Z) (j : nat) (p : list Z) : list Z := repeat 0 j ++ map (Z.mul c) p.
(** leading coefficient (dup_LC). [python or library primitive, used at lhs_evaluators.py:367, 373, 441-442] *)
Definition zlc (p : list Z) : Z := last p 0.

(** sympy dup_rr_div, the loop. The PolynomialDivisionFailed branch needs a degree that does not drop, which cannot
    happen over ZZ (see rr_loop_len); the fuel is the length of the dividend. [python or library primitive, used at lhs_evaluators.py:367, 373, 441-442] *)
Fixpoint rr_loop (fuel : nat) (g q r : list Z) : list Z * list Z :=
  match fuel with
  | O => (q, r)
  | S f =>
      if negb (zlc r mod zlc g =? 0) then (q, r)
      else
        let c := zlc r / zlc g in
        let j := (length r - length g)%nat in
        let q' := znorm (zsub q (zterm (- c) j [1])) in
        let r' := znorm (zsub r (zterm c j g)) in
        if Nat.ltb (length r') (length g) then (q', r') else rr_loop f g q' r'
  end.
(** Poly.div(g, auto=False) over ZZ. [python or library primitive, used at lhs_evaluators.py:367, 373, 441-442] *)
Definition rr_div (f g : list Z) : res (list Z * list Z) :=
  match g with
  | [] => Raise ZeroDivisionError
  | _ => if Nat.ltb (length f) (length g) then Ok ([], f) else Ok (rr_loop (length f) g [] f)
  end.

(** ---- dense polynomials over QQ ---- *)
(** python or library primitive, used at lhs_evaluators.py:444, 447, 450 *)
Fixpoint qnorm (p : list Q) : list Q :=
  match p with
  | [] => []
  | c :: r => match qnorm r with
              | [] => if Qeq_bool c 0 then [] else [c]
              | r' => c :: r'
              end
  end.
(** python or library primitive, used at lhs_evaluators.py:444, 447, 450 *)
Fixpoint qadd (p q : list Q) : list Q :=
  match p, q with
  | [], _ => q
  | _, [] => p
  | a :: p', b :: q' => Qred (a + b) :: qadd p' q'
  end.
(** python or library primitive, used at lhs_evaluators.py:444, 447, 450 *)
Definition qterm (c : Q) (j : nat) (p : list Q) : list Q := repeat 0%Q j ++ map (fun a => Qred (c * a)) p.
(** python or library primitive, used at lhs_evaluators.py:444, 447, 450 *)
Fixpoint qmul (p q : list Q) : list Q :=
  match p with
  | [] => []
  | a :: p' => qadd (qterm a 0 q) (0%Q :: qmul p' q)
  end.
(** python or library primitive, used at lhs_evaluators.py:444, 447, 450 *)
Definition qlc (p : list Q) : Q := last p 0%Q.
(** sympy dup_ff_div, the loop. [python or library primitive, used at lhs_evaluators.py:444, 447, 450] *)
Fixpoint ff_loop (fuel : nat) (g q r : list Q) : list Q * list Q :=
  match fuel with
  | O => (q, r)
  | S f =>
      let c := Qred (qlc r / qlc g) in
      let j := (length r - length g)%nat in
      let q' := qnorm (qadd q (qterm c j [1%Q])) in
      let r' := qnorm (qadd r (qterm (- c)%Q j g)) in
      if Nat.ltb (length r') (length g) then (q', r') else ff_loop f g q' r'
  end.
(** Poly.div(g): over ZZ with auto=True the polynomials are converted to QQ first; the conversion of an integral
    result back to ZZ does not change the numbers. [python or library primitive, used at lhs_evaluators.py:444, 447, 450] *)
Definition ff_div (f g : list Z) : res (list Q * list Q) :=
  match g with
  | [] => Raise ZeroDivisionError
  | _ => let F := map inject_Z f in let G := map inject_Z g in
         if Nat.ltb (length F) (length G) then Ok ([], F) else Ok (ff_loop (length F) G [] F)
  end.

(** lhs_evaluators.py:15-17; sympy cannot parse the empty text. *)
Definition poly2sympoly (coeffs : list Z) : res (list Z) :=
  match coeffs with [] => Raise ValueError | _ => Ok (znorm coeffs) end.
(** lhs_evaluators.py:20-21; all_coeffs() of the zero polynomial is [0]. *)
Definition sympoly2poly (s : list Z) : list Z := match s with [] => [0] | _ => s end.
(** int() of a rational coefficient truncates towards zero. [lhs_evaluators.py:20-21, 450] *)
Definition q_int (q : Q) : Z := Z.quot (Qnum q) (Zpos (Qden q)).
(** lhs_evaluators.py:20-21, 450 *)
Definition sympoly2poly_q (s : list Q) : list Z := match s with [] => [0] | _ => map q_int s end.
(** quotient.all_coeffs()[-1]. [lhs_evaluators.py:446-447] *)
Definition free_coeff (s : list Q) : Q := hd 0%Q s.
(** quotient -= c. [lhs_evaluators.py:447] *)
Definition qsub_const (s : list Q) (c : Z) : list Q := qnorm (qadd s [inject_Z (- c)]).

(** utils.py:69-75 for integer coefficients at a number: powers, products and partial sums are rounded by [rd]
    (powers are assumed correctly rounded). *)
Definition subs_in_polynom_x (rd : Q -> Q) (coeffs : list Z) (x : Q) : Q :=
  fold_left (fun s t => rd (s + t)%Q)
    (map (fun j => rd (inject_Z (nth j coeffs 0%Z) * rd (x ^ Z.of_nat j)))%Q (seq 0 (length coeffs))) 0%Q.

(** Which number class the target constant belongs to: Python's Decimal has the method is_normal (used in
    lhs_evaluators.py:310 and 555), mpmath's mpf has not. *)
Inductive numkind := KDecimal | KMpf.

(** Attributes of a RationalFuncEvaluator (lhs_evaluators.py:26-37, 257-313). The symbolic caches are an optional
    cached polynomial and the flag _should_update_..._symbolic. *)
Record rfun := mkRfun {
  rf_num : list Z; rf_den : list Z; rf_int : Z;
  rf_params : list Z * list Z * Z; rf_const : Q; rf_val : mpfv;
  rf_nsym : option (list Z); rf_nupd : bool;
  rf_dsym : option (list Z); rf_dupd : bool;
  rf_canon : bool }.

Section Rational.
  Variable kind : numkind.
  Variable rd : Q -> Q.
  Variable pgcd : list Z -> list Z -> list Z.

  (** value.is_normal(): finite and not zero (the exponent limits are not modelled). The sum over an empty list is
      the int 0, which has no is_normal either. [python or library primitive, used at lhs_evaluators.py:310, 555] *)
  Definition is_normal (coeffs : list Z) (v : Q) : res bool :=
    match kind, coeffs with
    | KMpf, _ => Raise AttributeError
    | _, [] => Raise AttributeError
    | KDecimal, _ => Ok (negb (Qeq_bool v 0))
    end.

  (** lhs_evaluators.py:304-313 *)
  Definition calc_val (num den : list Z) (n : Z) (x : Q) : res mpfv :=
    let a := subs_in_polynom_x rd num x in
    let b := subs_in_polynom_x rd den x in
    let* nb := is_normal den b in
    if negb nb then Ok NaN
    else
      let* na := is_normal num a in
      if negb na then Ok NaN else Ok (Fin (rd (rd (a / b) + inject_Z n)))%Q.

  (** self._calc_val() on an object. [lhs_evaluators.py:304-313] *)
  Definition rf_calc (o : rfun) : rfun * res unit :=
    match calc_val (rf_num o) (rf_den o) (rf_int o) (rf_const o) with
    | Ok v => (mkRfun (rf_num o) (rf_den o) (rf_int o) (rf_params o) (rf_const o) v
                 (rf_nsym o) (rf_nupd o) (rf_dsym o) (rf_dupd o) (rf_canon o), Ok tt)
    | Raise e => (o, Raise e)
    end.

  (** lhs_evaluators.py:264-276 (an integer added_int). self.params is not touched. *)
  Definition rf_reinit (p : list Z * list Z * Z) (o : rfun) : rfun * res unit :=
    let '(num, den, n) := p in
    rf_calc (mkRfun num den n (rf_params o) (rf_const o) (rf_val o) (rf_nsym o) true (rf_dsym o) true false).

  (** lhs_evaluators.py:257-262 and 26-37; before _calc_val the object has no value and no caches. *)
  Definition rf_new (p : list Z * list Z * Z) (x : Q) : res rfun :=
    let '(num, den, n) := p in
    let* v := calc_val num den n x in
    Ok (mkRfun num den n p x v None true None true false).
  (** lhs_evaluators.py:32-33, 37 *)
  Definition rf_copy (o : rfun) : res rfun := rf_new (rf_params o) (rf_const o).

  (** lhs_evaluators.py:329-336 *)
  Definition rf_update_params (o : rfun) : rfun * res unit :=
    rf_calc (mkRfun (rf_num o) (rf_den o) (rf_int o) (rf_num o, rf_den o, rf_int o) (rf_const o) (rf_val o)
               (rf_nsym o) true (rf_dsym o) true false).

  (** lhs_evaluators.py:315-322 *)
  Definition rf_flip_sign (o : rfun) : rfun * res unit :=
    match rf_update_params (mkRfun (rf_num o) (map (Z.mul (-1)) (rf_den o)) (rf_int o * -1) (rf_params o) (rf_const o) (rf_val o)
                             (rf_nsym o) (rf_nupd o) (rf_dsym o) true false) with
    | (o1, Ok _) => rf_calc o1
    | (o1, Raise e) => (o1, Raise e)
    end.
  (** lhs_evaluators.py:324-327 *)
  Definition rf_add_int (n : Z) (o : rfun) : rfun * res unit :=
    rf_update_params (mkRfun (rf_num o) (rf_den o) (rf_int o + n) (rf_params o) (rf_const o) (rf_val o)
                        (rf_nsym o) (rf_nupd o) (rf_dsym o) (rf_dupd o) (rf_canon o)).

  (** lhs_evaluators.py:278-283 *)
  Definition rf_get_nsym (o : rfun) : rfun * res (list Z) :=
    match rf_nsym o, rf_nupd o with
    | Some s, false => (o, Ok s)
    | _, _ => match poly2sympoly (rf_num o) with
              | Ok s => (mkRfun (rf_num o) (rf_den o) (rf_int o) (rf_params o) (rf_const o) (rf_val o)
                           (Some s) false (rf_dsym o) (rf_dupd o) (rf_canon o), Ok s)
              | Raise e => (o, Raise e)
              end
    end.
  (** lhs_evaluators.py:291-296 *)
  Definition rf_get_dsym (o : rfun) : rfun * res (list Z) :=
    match rf_dsym o, rf_dupd o with
    | Some s, false => (o, Ok s)
    | _, _ => match poly2sympoly (rf_den o) with
              | Ok s => (mkRfun (rf_num o) (rf_den o) (rf_int o) (rf_params o) (rf_const o) (rf_val o)
                           (rf_nsym o) (rf_nupd o) (Some s) false (rf_canon o), Ok s)
              | Raise e => (o, Raise e)
              end
    end.

  (** The new numerator, denominator and increment of added_int computed in lhs_evaluators.py:440-451
      from the symbolic numerator and denominator. *)
  Definition canon_polys (P D : list Z) : res (list Z * list Z * Z) :=
    let h := znorm (pgcd P D) in
    let* qr := rr_div P h in
    let num := fst qr in
    let* qr2 := rr_div D h in
    let den := fst qr2 in
    let* qr3 := ff_div num den in
    let quotient := fst qr3 in
    let remainder := snd qr3 in
    let c := Qceiling (free_coeff quotient) in
    let quotient' := qsub_const quotient c in
    let res := qnorm (qadd (qmul quotient' (map inject_Z den)) remainder) in
    Ok (sympoly2poly_q res, sympoly2poly den, c).

  (** lhs_evaluators.py:433-453 (old_numerator_denominator_p, which nothing reads, is left out). *)
  Definition rf_canonalize (o : rfun) : rfun * res unit :=
    if rf_canon o then (o, Ok tt)
    else
      match rf_get_nsym o with
      | (o1, Raise e) => (o1, Raise e)
      | (o1, Ok P) =>
          match rf_get_dsym o1 with
          | (o2, Raise e) => (o2, Raise e)
          | (o2, Ok D) =>
              match canon_polys P D with
              | Raise e => (o2, Raise e)
              | Ok (num, den, c) =>
                  rf_update_params (mkRfun num den (rf_int o2 + c) (rf_params o2) (rf_const o2) (rf_val o2)
                                      (rf_nsym o2) (rf_nupd o2) (rf_dsym o2) (rf_dupd o2) true)
              end
          end
      end.

  (** lhs_evaluators.py:455-460 *)
  Definition rf_is_degenerate (o : rfun) : rfun * res bool :=
    match rf_canonalize o with
    | (o1, Raise e) => (o1, Raise e)
    | (o1, Ok _) =>
        (o1, Ok ((Nat.eqb (length (rf_num o1)) 1 && Nat.eqb (length (rf_den o1)) 1) ||
                 Nat.eqb (length (rf_num o1)) 0 || poly_eqb (rf_num o1) [0]))
    end.

  (** calls of the methods lhs_evaluators.py:264-276, 315-327, 433-453 *)
  Inductive rf_op := RFlip | RAdd (n : Z) | RCanon | RReinit (p : list Z * list Z * Z).
  (** calls of the methods lhs_evaluators.py:264-276, 315-327, 433-453 *)
  Definition rf_step (o : rfun) (op : rf_op) : rfun * res unit :=
    match op with
    | RFlip => rf_flip_sign o | RAdd n => rf_add_int n o | RCanon => rf_canonalize o | RReinit p => rf_reinit p o
    end.
  (** A sequence of calls; the caller catches every exception. [calls of the methods lhs_evaluators.py:264-276, 315-327, 433-453] *)
  Fixpoint rf_run (ops : list rf_op) (o : rfun) : rfun * list (res unit) :=
    match ops with
    | [] => (o, [])
    | op :: r => let (o1, out) := rf_step o op in let (o2, outs) := rf_run r o1 in (o2, out :: outs)
    end.

  (** ---- equivalence ---- *)
  (** A result: ((pa, pb), object, index of the post-processing function). [lhs_evaluators.py:346-347] *)
  Definition rresult := ((coeffs * coeffs) * rfun * Z)%type.

  (** quotient - quotient(0). [lhs_evaluators.py:368, 374] *)
  Definition drop_free (s : list Z) : list Z := znorm (zsub s [hd 0 s]).

  (** lhs_evaluators.py:338-381 for two rational functions (others: False, lines 349-351). The objects are
      canonicalized as a side effect. [inv] is INVERSE_POSTPROC_PAIRS. *)
  Definition rf_is_equiv (inv : list (Z * Z)) (r1 r2 : rresult) : (rfun * rfun) * res bool :=
    let '(ab1, o1, i1) := r1 in
    let '(ab2, o2, i2) := r2 in
    let is_inverse := existsb (fun '(a, b) => (a =? i1) && (b =? i2)) inv in
    if negb is_inverse && negb (i1 =? i2) then ((o1, o2), Ok false)
    else
      match rf_canonalize o1 with
      | (o1', Raise e) => ((o1', o2), Raise e)
      | (o1', Ok _) =>
          match rf_canonalize o2 with
          | (o2', Raise e) => ((o1', o2'), Raise e)
          | (o2', Ok _) =>
              let (o1a, n1) := rf_get_nsym o1' in
              let (o1b, d1) := rf_get_dsym o1a in
              let (o2a, n2) := rf_get_nsym o2' in
              let (o2b, d2) := rf_get_dsym o2a in
              ((o1b, o2b),
               let* N1 := n1 in
               let* D1 := d1 in
               let* qr1 := rr_div N1 D1 in
               let* N2 := n2 in
               let* D2 := d2 in
               let* qr2 := if is_inverse then rr_div D2 N2 else rr_div N2 D2 in
               Ok ((coeffs_eqb (snd ab1) (snd ab2) &&
                    (coeffs_eqb (fst ab1) (fst ab2) || coeffs_eqb (fst ab1) (map (map Z.opp) (fst ab2)))) &&
                   (poly_eqb (drop_free (fst qr1)) (drop_free (fst qr2)) && poly_eqb (snd qr1) (snd qr2))))
          end
      end.

  (** ---- enumeration ---- *)
  (** Attributes of a RationalFuncEnumerator. Each coefficient range is a pair (min, max) (documented format; a third
      element would be a step and is not modelled). [lhs_evaluators.py:509-523] *)
  Record renum := { re_num : list (Z * Z); re_den : list (Z * Z); re_force : bool; re_x : Q; re_len : Z }.
  (** reduce(operator.mul, l). [python or library primitive, used at lhs_evaluators.py:521-522] *)
  Definition reduce_mul (l : list Z) : res Z :=
    match l with [] => Raise TypeError | a :: r => Ok (fold_left Z.mul r a) end.
  (** lhs_evaluators.py:509-523 *)
  Definition renum_new (num den : list (Z * Z)) (force : bool) (x : Q) : res renum :=
    let* a := reduce_mul (map (fun c => snd c - fst c) num) in
    let* b := reduce_mul (map (fun c => snd c - fst c) den) in
    Ok {| re_num := num; re_den := den; re_force := force; re_x := x; re_len := a * b |}.

  (** len(list(itertools.dropwhile(lambda x: x == 0, reversed(p)))). [lhs_evaluators.py:545-546] *)
  Fixpoint drop_zeros (l : list Z) : list Z := match l with [] => [] | c :: r => if c =? 0 then drop_zeros r else l end.
  (** lhs_evaluators.py:545-546 *)
  Definition stripped_len (p : list Z) : Z := Z.of_nat (length (drop_zeros (rev p))).
  (** not any(p). [lhs_evaluators.py:537, 542] *)
  Definition all_zero (p : list Z) : bool := negb (existsb (fun c => negb (c =? 0)) p).

  (** lhs_evaluators.py:540-557 — body of the loops: None = continue *)
  Definition renum_body (en : renum) (p q : list Z) : res (option rfun) :=
    if all_zero q then Ok None
    else if (stripped_len p <? 2) && (stripped_len q <? 2) then Ok None
    else if re_force en && (stripped_len p <? stripped_len q) then Ok None
    else
      let a := subs_in_polynom_x rd p (re_x en) in
      let b := subs_in_polynom_x rd q (re_x en) in
      let* na := is_normal p a in
      if negb na then Ok None
      else
        let* nb := is_normal q b in
        if negb nb then Ok None
        else let* o := rf_new (p, q, 0) (re_x en) in Ok (Some o).

  (** lhs_evaluators.py:534, 539 *)
  Definition ranges_of (l : list (Z * Z)) : list (list Z) := map (fun c => zrange (fst c) (snd c)) l.
  (** [list(generator())] (lhs_evaluators.py:525-557); every object is a new one. *)
  Definition renum_list (en : renum) : res (list rfun) :=
    let* oss := mapM (fun p =>
      if all_zero p then Ok []
      else mapM (fun q => renum_body en p q) (product (ranges_of (re_den en)))) (product (ranges_of (re_num en))) in
    Ok (flat_map (fun o => match o with Some x => [x] | None => [] end) (List.concat oss)).

  (** ---- LaTeX ---- *)
  (** one monomial (lhs_evaluators.py:405-422) *)
  Definition mono_latex (name : text) (i : nat) (c : Z) : list text :=
    if c =? 0 then []
    else match i with
         | O => [z_text c]
         | 1%nat => if c =? 1 then [name] else if c =? -1 then [txt "-" ++ name] else [z_text c ++ txt " " ++ name]
         | _ => if c =? 1 then [name ++ txt "^" ++ z_text (Z.of_nat i)]
                else [z_text c ++ txt " " ++ name ++ txt "^" ++ z_text (Z.of_nat i)]
         end.
  (** lhs_evaluators.py:404-422 *)
  Fixpoint poly_elements (name : text) (i : nat) (p : list Z) : list text :=
    match p with [] => [] | c :: r => mono_latex name i c ++ poly_elements name (S i) r end.
  (** lhs_evaluators.py:404-424. Line 423 (which removes "name^0" from the first element) is modelled by its failure
      on an empty list only: no element contains that text, as the exponent 0 is never printed. *)
  Definition poly_latex (name : text) (p : list Z) : res text :=
    match poly_elements name 0 p with [] => Raise IndexError | l => Ok (join_plus l) end.
  (** lhs_evaluators.py:397-431; the strip() of line 425 only matters for names that begin or end with a blank and is
      left out. *)
  Definition rf_latex (o : rfun) (name : text) : rfun * res text :=
    match rf_canonalize o with
    | (o1, Raise e) => (o1, Raise e)
    | (o1, Ok _) =>
        (o1, let* n := poly_latex name (rf_num o1) in
             let* d := poly_latex name (rf_den o1) in
             let e := if text_eqb d (txt "1") then n else fmt_frac n d in
             Ok (if rf_int o1 =? 0 then e else e ++ txt "+ " ++ z_text (rf_int o1)))
    end.
End Rational.

(** Model of postprocfuncs.py, latex.py (latex_cont_frac) and of the export of results (enum_params.py:400-482).
    No proofs. *)
From Coq Require Import Ascii String ZArith QArith Qabs List Bool.
From Verif Require Import PyBase Rnd Utils_Model ContFrac_Model Hashtable_Model ULCD_Model Rational_Model MITM_Model.
Import ListNotations.
Local Open Scope Z_scope.
Local Open Scope res_scope.
Local Open Scope list_scope.

(** ---- str.format ---- *)
(** python or library primitive, used at postprocfuncs.py:117-140; latex.py:31; enum_params.py:443 *)
Definition char_eqb (a b : ascii) : bool := Ascii.eqb a b.
(** python or library primitive, used at postprocfuncs.py:117-140; latex.py:31; enum_params.py:443 *)
Definition is_digit (c : ascii) : bool := let n := nat_of_ascii c in (Nat.leb 48 n) && (Nat.leb n 57).
(** python or library primitive, used at postprocfuncs.py:117-140; latex.py:31; enum_params.py:443 *)
Fixpoint digits_val (s : text) (acc : Z) : option Z :=
  match s with
  | [] => Some acc
  | c :: r => if is_digit c then digits_val r (10 * acc + Z.of_nat (nat_of_ascii c - 48)) else None
  end.
(** A replacement field up to its closing brace, after CPython's parse_field: an opening brace inside the field name is
    an error ("unexpected '{' in field name"), and so is a missing closing brace. Conversions and format specifications
    (exclamation mark, colon), attributes and indices do not occur in the modelled code; a field name containing such
    characters is treated like any other name. [python or library primitive, used at postprocfuncs.py:117-140; latex.py:31; enum_params.py:443] *)
Fixpoint fmt_field (s : text) (acc : text) : res (text * text) :=
  match s with
  | [] => Raise ValueError
  | c :: r => if char_eqb c "{"%char then Raise ValueError
              else if char_eqb c "}"%char then Ok (rev acc, r)
              else fmt_field r (c :: acc)
  end.
(** The value of a field: positional when it is a number, else a keyword (none is ever given). [python or library primitive, used at postprocfuncs.py:117-140; latex.py:31; enum_params.py:443] *)
Definition fmt_arg (name : text) (args : list text) : res text :=
  match name with
  | [] => Raise ValueError
  | _ => match digits_val name 0 with
         | Some i => py_nth args i
         | None => Raise KeyError
         end
  end.
(** tmpl.format of the arguments (already converted by str). [python or library primitive, used at postprocfuncs.py:117-140; latex.py:31; enum_params.py:443] *)
Fixpoint py_format_go (fuel : nat) (tmpl : text) (args : list text) : res text :=
  match fuel with
  | O => Raise ValueError
  | S k =>
      match tmpl with
      | [] => Ok []
      | c :: r =>
          if char_eqb c "{"%char then
            match r with
            | d :: r' =>
                if char_eqb d "{"%char then let* t := py_format_go k r' args in Ok (c :: t)
                else let* nr := fmt_field r [] in
                     let* v := fmt_arg (fst nr) args in
                     let* t := py_format_go k (snd nr) args in
                     Ok (v ++ t)
            | [] => Raise ValueError
            end
          else if char_eqb c "}"%char then
            match r with
            | d :: r' => if char_eqb d "}"%char then let* t := py_format_go k r' args in Ok (c :: t) else Raise ValueError
            | [] => Raise ValueError
            end
          else let* t := py_format_go k r args in Ok (c :: t)
      end
  end.
(** python or library primitive, used at postprocfuncs.py:117-140; latex.py:31; enum_params.py:443 *)
Definition py_format (tmpl : string) (args : list text) : res text :=
  py_format_go (S (String.length tmpl)) (txt tmpl) args.

(** ---- post-processing functions ---- *)
(** postprocfuncs.py:75-98 *)
Definition POSTPROC_FUNCS : list text := map txt
  ["lambda x: x"; "safe_inverse";
   "lambda x: x**2"; "lambda x: safe_inverse(x**2)";
   "lambda x: x**3"; "lambda x: safe_inverse(x**3)";
   "lambda x: x**4"; "lambda x: safe_inverse(x**4)";
   "lambda x: x**5"; "lambda x: safe_inverse(x**5)";
   "safe_sqrt"; "lambda x: safe_inverse(safe_sqrt(x))";
   "lambda x: dec_sin(x)"; "lambda x: safe_inverse(dec_sin(x))";
   "lambda x: dec_cos(x)"; "lambda x: safe_inverse(dec_cos(x))";
   "lambda x: dec_tan(x)"; "lambda x: safe_inverse(dec_tan(x))";
   "lambda x: dec_cot(x)"; "lambda x: safe_inverse(dec_cot(x))";
   "lambda x: x.exp()"; "lambda x: safe_inverse(x.exp())";
   "lambda x: x.ln()"; "lambda x: safe_inverse(x.ln())"]%string.

(** Python expressions that occur in these texts: x, f(e), x**n (a one-digit n), x.m(). [postprocfuncs.py:75-98] *)
Inductive pexpr := PX | PPow (n : Z) | PMeth (m : text) | PCall (f : text) (e : pexpr).
(** python or library primitive, used at postprocfuncs.py:152 *)
Definition is_name_char (c : ascii) : bool :=
  let n := nat_of_ascii c in (Nat.leb 97 n && Nat.leb n 122) || is_digit c || char_eqb c "_"%char.
(** python or library primitive, used at postprocfuncs.py:152 *)
Fixpoint span_name (s : text) : text * text :=
  match s with
  | c :: r => if is_name_char c then let (a, b) := span_name r in (c :: a, b) else ([], s)
  | [] => ([], [])
  end.
(** The parser of such an expression: the expression and the rest of the text. [python or library primitive, used at postprocfuncs.py:152] *)
Fixpoint parse_expr (fuel : nat) (s : text) : option (pexpr * text) :=
  match fuel with
  | O => None
  | S k =>
      let (n, r) := span_name s in
      if text_eqb n (txt "x") then
        match r with
        | "*"%char :: "*"%char :: d :: r' => if is_digit d then Some (PPow (Z.of_nat (nat_of_ascii d - 48)), r') else None
        | "."%char :: r' => match span_name r' with
                            | (m, "("%char :: ")"%char :: r'') => Some (PMeth m, r'')
                            | _ => None
                            end
        | _ => Some (PX, r)
        end
      else match n, r with
           | _ :: _, "("%char :: r' =>
               match parse_expr k r' with
               | Some (e, ")"%char :: r'') => Some (PCall n e, r'')
               | _ => None
               end
           | _, _ => None
           end
  end.
(** eval of such a text (postprocfuncs.py:152): a lambda, or the name of a function. *)
Fixpoint strip_prefix (p s : text) : option text :=
  match p, s with
  | [], _ => Some s
  | c :: p', d :: s' => if char_eqb c d then strip_prefix p' s' else None
  | _ :: _, [] => None
  end.
(** python or library primitive, used at postprocfuncs.py:152 *)
Definition py_eval (s : text) : option pexpr :=
  match strip_prefix (txt "lambda x: ") s with
  | Some body => match parse_expr (length body) body with Some (e, []) => Some e | _ => None end
  | None => match span_name s with ((_ :: _) as n, []) => Some (PCall n PX) | _ => None end
  end.

(** The operations of a number class that the functions use. A missing method raises AttributeError. [postprocfuncs.py:58-70, 75-98] *)
Record numops (N : Type) := {
  no_is_zero : N -> res bool;    (* x.is_zero() *)
  no_recip : N -> res N;         (* 1/x *)
  no_pow : N -> Z -> res N;      (* x**n *)
  no_neg : N -> res bool;        (* x < 0 *)
  no_sqrt : N -> res N;          (* x.sqrt() *)
  no_meth : text -> N -> res N;  (* any other method *)
  no_inf : N; no_nan : N         (* dec('inf'), dec('NaN') *) }.
Arguments no_is_zero {N}. Arguments no_recip {N}. Arguments no_pow {N}. Arguments no_neg {N}. Arguments no_sqrt {N}.
Arguments no_meth {N}. Arguments no_inf {N}. Arguments no_nan {N}.

Section Eval.
  Context {N : Type}.
  Variable ops : numops N.
  (** postprocfuncs.py:58-63 *)
  Definition safe_inverse (x : N) : res N :=
    let* z := no_is_zero ops x in if z then Ok (no_inf ops) else no_recip ops x.
  (** postprocfuncs.py:65-70 *)
  Definition safe_sqrt (x : N) : res N :=
    let* n := no_neg ops x in if n then Ok (no_nan ops) else no_sqrt ops x.
  (** The functions by name. dec_cos and dec_sin (lines 6-56) begin with getcontext(), a name that the module does not
      import (line 4); dec_tan and dec_cot are not defined at all. *)
  Definition call_global (f : text) (x : N) : res N :=
    if text_eqb f (txt "safe_inverse") then safe_inverse x
    else if text_eqb f (txt "safe_sqrt") then safe_sqrt x
    else Raise NameError.
  (** postprocfuncs.py:75-98, 152 *)
  Fixpoint eval_pexpr (e : pexpr) (x : N) : res N :=
    match e with
    | PX => Ok x
    | PPow n => no_pow ops x n
    | PMeth m => if text_eqb m (txt "sqrt") then no_sqrt ops x else no_meth ops m x
    | PCall f e => let* y := eval_pexpr e x in call_global f y
    end.
  (** EVALUATED_POSTPROC_FUNCS (postprocfuncs.py:152). A text outside of the modelled grammar stands for the constant
      exception SyntaxError; there is none in the list (see Results_Proofs). *)
  Definition eval_func (s : text) : N -> res N :=
    match py_eval s with Some e => eval_pexpr e | None => fun _ => Raise ValueError end.
  (** postprocfuncs.py:152 *)
  Definition EVALUATED_POSTPROC_FUNCS : list (N -> res N) := map eval_func POSTPROC_FUNCS.
End Eval.

(** mpmath's mpf as it is used for the fractions: no is_zero, exp or ln method; sqrt rounds the square root [sq].
    The power of an int exponent is rounded once. Comparisons with NaN are false. The values dec('inf') and dec('NaN')
    are not finite. [python or library primitive, used at postprocfuncs.py:58-70] *)
Definition mpf_ops (rd : Q -> Q) (sq : Q -> Q) : numops mpfv := {|
  no_is_zero := fun _ => Raise AttributeError;
  no_recip := fun v => match v with Fin q => if Qeq_bool q 0 then Raise ZeroDivisionError else Ok (Fin (rd (Qinv q))) | NaN => Ok NaN end;
  no_pow := fun v n => match v with Fin q => Ok (Fin (rd (Qpower q n))) | NaN => Ok NaN end;
  no_neg := fun v => match v with Fin q => Ok (if Qlt_le_dec q 0 then true else false) | NaN => Ok false end;
  no_sqrt := fun v => match v with Fin q => Ok (Fin (sq q)) | NaN => Ok NaN end;
  no_meth := fun _ _ => Raise AttributeError;
  no_inf := NaN; no_nan := NaN |}.

(** list.index. [python or library primitive, used at postprocfuncs.py:110] *)
Fixpoint list_index (x : text) (l : list text) (i : Z) : res Z :=
  match l with
  | [] => Raise ValueError
  | y :: r => if text_eqb x y then Ok i else list_index x r (i + 1)
  end.
(** l[0::2] and l[1::2]. [python or library primitive, used at postprocfuncs.py:109] *)
Fixpoint evens {A} (l : list A) : list A :=
  match l with [] => [] | x :: r => x :: match r with [] => [] | _ :: r' => evens r' end end.
(** python or library primitive, used at postprocfuncs.py:109 *)
Definition odds {A} (l : list A) : list A := evens (tl l).
(** postprocfuncs.py:109-111 *)
Definition INVERSE_POSTPROC_PAIRS : res (list (Z * Z)) :=
  let* ps := mapM (fun '(f1, f2) => let* i := list_index f1 POSTPROC_FUNCS 0 in
                                    let* j := list_index f2 POSTPROC_FUNCS 0 in Ok (i, j))
                  (combine (evens POSTPROC_FUNCS) (odds POSTPROC_FUNCS)) in
  Ok (ps ++ map (fun '(i, j) => (j, i)) ps).

(** postprocfuncs.py:117-149: every entry is a function of (lhs, rhs) *)
Definition keep_lhs (tmpl : string) (lhs rhs : text) : res (text * text) :=
  let* r := py_format tmpl [rhs] in Ok (lhs, r).
(** postprocfuncs.py:117-149 *)
Definition POSTPROC_FUNCS_LATEX : list (text * (text -> text -> res (text * text))) := map (fun '(k, f) => (txt k, f))
  [("lambda x: x", fun lhs rhs => Ok (lhs, rhs));
   ("safe_inverse", keep_lhs "\frac{{1}}{{ {0} }}");
   ("lambda x: x**2", keep_lhs "\left( {0} \right)^2");
   ("lambda x: safe_inverse(x**2)", keep_lhs "\frac{{1}}{{ \left( {0} \right)^2 }}");
   ("lambda x: x**3", keep_lhs "\left( {0} \right)^3");
   ("lambda x: safe_inverse(x**3)", keep_lhs "\frac{{1}}{{ \left( {0} \right)^3 }}");
   ("lambda x: x**4", keep_lhs "\left( {0} \right)^4");
   ("lambda x: safe_inverse(x**4)", keep_lhs "\frac{{1}}{{ \left( {0} \right)^4 }}");
   ("lambda x: x**5", keep_lhs "\left( {0} \right)^5");
   ("lambda x: safe_inverse(x**5)", keep_lhs "\frac{{1}}{{ \left( {0} \right)^5 }}");
   ("safe_sqrt", fun lhs rhs => let* l := py_format "\sqrt{ {0} }" [lhs] in Ok (l, rhs));
   ("lambda x: safe_inverse(safe_sqrt(x))", keep_lhs "\frac{{1}}{\sqrt{ {0} }}");
   ("lambda x: dec_sin(x)", keep_lhs "\sin\left( {0} \right)");
   ("lambda x: safe_inverse(dec_sin(x))", keep_lhs "\frac{{1}}{{ \sin\left( {0} \right) }}");
   ("lambda x: dec_cos(x)", keep_lhs "\cos\left( {0} \right)");
   ("lambda x: safe_inverse(dec_cos(x))", keep_lhs "\frac{{1}}{{ \cos\left( {0} \right) }}");
   ("lambda x: dec_tan(x)", keep_lhs "\tan\left( {0} \right)");
   ("lambda x: safe_inverse(dec_tan(x))", keep_lhs "\frac{{1}}{{ \tan\left( {0} \right) }}");
   ("lambda x: dec_cot(x)", keep_lhs "\cot\left( {0} \right)");
   ("lambda x: safe_inverse(dec_cot(x))", keep_lhs "\frac{{1}}{{ \cot\left( {0} \right) }}");
   ("lambda x: x.exp()", fun lhs rhs => let* r := py_format "\exp\left( {0} \right)" [rhs] in Ok (rhs, r));
   ("lambda x: safe_inverse(x.exp())", keep_lhs "\frac{{1}}{{ \exp\left( {0} \right) }}");
   ("lambda x: x.ln()", fun lhs rhs => let* r := py_format "\ln\left( {0} \right)" [lhs] in Ok (rhs, r));
   ("lambda x: safe_inverse(x.ln())", keep_lhs "\frac{{1}}{{ \ln\left( {0} \right) }}")]%string.

(** ---- latex.py ---- *)
(** latex.py:20-34; the recursion is on the length of a, which shrinks by one in every call. a[:-1] is [removelast]. *)
Fixpoint latex_cont_frac_go (fuel : nat) (a b : list Z) (current : text) : res text :=
  match fuel with
  | O => Raise RuntimeError
  | S k =>
      let* cur := match current with
                  | [] => let* x := py_nth a (-1) in Ok (z_text x ++ txt " + \dots")
                  | _ => Ok current
                  end in
      if 1 <? Z.of_nat (length a) then
        let* x := py_nth a (-2) in
        let* y := py_nth b (-1) in
        let* new := py_format "{0} + \frac{{ {1} }} {{ {2} }}" [z_text x; z_text y; cur] in
        latex_cont_frac_go k (removelast a) (removelast b) new
      else Ok cur
  end.
(** latex.py:20-34 *)
Definition latex_cont_frac (a b : list Z) : res text := latex_cont_frac_go (S (length a)) a b [].

(** ---- results as equations ---- *)
(** enum_params.py:414-415, 433-436 *)
Definition known_target (name : text) : text :=
  if text_eqb name (txt "pi") then txt "\pi"
  else if text_eqb name (txt "phi") then txt "\varphi"
  else name.
(** eval_poly(p[i % len(p)], i) for i in range(depth) (enum_params.py:429-430) *)
Definition first_coeffs (p : coeffs) (depth : Z) : res (list Z) :=
  mapM (fun i => if (Z.of_nat (length p) =? 0) then Raise ZeroDivisionError
                 else let* c := py_nth p (i mod Z.of_nat (length p)) in Ok (subs_in_polynom c i)) (zrange 0 depth).

Section Export.
  Variable rd : Q -> Q.
  Context {O : Type}.
  (** get_latex_exp of the left-hand side; it may change the object (see [rf_latex]) *)
  Variable lhs_latex : O -> text -> O * res text.
  Variable funcs : list (mpfv -> res mpfv).
  Variable target : option Q.

  (** one result (enum_params.py:418-446): [Ok None] when it is skipped *)
  Definition result_eqn (latex_tab : list (text * (text -> text -> res (text * text)))) (name : text)
      (texts : list text) (ignore_zerob : bool) (depth : Z) (c : click O) : O * res (option text) :=
    match build_from_params rd funcs target 400 c with
    | Raise (ZeroB n) => (ck_obj c, if ignore_zerob then Ok None else Raise (ZeroB n))
    | Raise e => (ck_obj c, Raise e)
    | Ok _ =>
        match (let* a := first_coeffs (fst (ck_ab c)) depth in
               let* b := first_coeffs (snd (ck_ab c)) depth in Ok (a, b)) with
        | Raise e => (ck_obj c, Raise e)
        | Ok (a, b) =>
            let (o, l) := lhs_latex (ck_obj c) (known_target name) in
            (o, let* lhs := l in
                let* rhs := latex_cont_frac a b in
                let* f := py_nth texts (ck_ind c) in
                match d_get text_eqb latex_tab f with
                | None => Raise KeyError
                | Some g => let* lr := g lhs rhs in
                            let* eqn := py_format "{0} = {1}" [fst lr; snd lr] in
                            Ok (Some eqn)
                end)
        end
    end.
  (** enum_params.py:400-448; the left-hand side objects are changed in place, and keep the changes when an exception
      leaves the loop *)
  Fixpoint results_as_eqns (latex_tab : list (text * (text -> text -> res (text * text)))) (name : text)
      (texts : list text) (ignore_zerob : bool) (depth : Z) (cs : list (click O)) : list (click O) * res (list text) :=
    match cs with
    | [] => ([], Ok [])
    | c :: r =>
        let (o, x) := result_eqn latex_tab name texts ignore_zerob depth c in
        match x with
        | Raise e => (ck_with c o :: r, Raise e)
        | Ok e => let (r', y) := results_as_eqns latex_tab name texts ignore_zerob depth r in
                  (ck_with c o :: r', let* es := y in Ok (match e with Some t => t :: es | None => es end))
        end
    end.

  (** One row of the csv file (enum_params.py:466-478): the polynomials, the index standing for the function object
      that is written, the text of the left-hand side, its parameters, the convergence information and the two
      numbers. How csv renders the first fields is not modelled. *)
  Record csv_row := { cr_ab : abpair; cr_func : Z; cr_type : text; cr_params : text; cr_conv : conv; cr_res : text; cr_val : text }.
  (** [eng]: to_eng_string of a number. [lhs_val], [lhs_params]: get_val and the text of get_params.
      str(lhs_res_obj) is 'Params %s, Res %s' (lhs_evaluators.py:39-40). Subscripting the missing convergence
      information None is a TypeError. *)
  Variable eng : mpfv -> res text.
  Variable lhs_val : O -> mpfv.
  Variable lhs_params : O -> text.
  (** lhs_evaluators.py:39-40; enum_params.py:468 *)
  Definition lhs_str (o : O) : res text :=
    let* v := eng (lhs_val o) in Ok (txt "Params " ++ lhs_params o ++ txt ", Res " ++ v).
  (** enum_params.py:466-478 *)
  Definition csv_row_of (c : click O) : res csv_row :=
    let* ty := lhs_str (ck_obj c) in
    let* b := build_from_params rd funcs target 400 c in
    let '(_, v, o) := b in
    let* _ := py_nth funcs (ck_ind c) in
    let* cv := match ck_conv c with Some cv => Ok cv | None => Raise TypeError end in
    let* t1 := eng v in
    let* t2 := eng (lhs_val o) in
    Ok {| cr_ab := ck_ab c; cr_func := ck_ind c; cr_type := ty; cr_params := lhs_params o; cr_conv := cv; cr_res := t1; cr_val := t2 |}.
  (** enum_params.py:450-482: the file (the name of the target and the rows), or an exception and no file at all *)
  Definition export_to_csv (name : text) (cs : list (click O)) : res (text * list csv_row) :=
    let* rows := mapM csv_row_of cs in Ok (name, rows).
End Export.
(** mpmath's mpf has no to_eng_string. [enum_params.py:478] *)
Definition eng_mpf (v : mpfv) : res text := Raise AttributeError.

(** Model of process_and_compare.py. No proofs. A csv file is the list of its rows, a row the list of the texts of its
    fields: the csv syntax belongs to the standard library. Printing and drawing are not modelled. *)
From Coq Require Import Ascii String ZArith QArith Qabs List Bool.
From Verif Require Import PyBase Rnd Utils_Model ContFrac_Model Hashtable_Model ULCD_Model Rational_Model MITM_Model
  Results_Model Config_Model Consts_Model Classify_Model Errors_Model.
From Verif Require Scripts_Model.
Import ListNotations.
Local Open Scope Z_scope.
Local Open Scope res_scope.
Local Open Scope list_scope.

(** ---- texts ---- *)
(** python or library primitive, used at process_and_compare.py:48, 81 *)
Fixpoint drop_while (p : ascii -> bool) (s : text) : text :=
  match s with c :: r => if p c then drop_while p r else s | [] => [] end.
(** s.strip(chars): the characters of a set are removed at both ends. [python or library primitive, used at process_and_compare.py:48, 81] *)
Definition strip_set (chars s : text) : text :=
  let p c := existsb (char_eqb c) chars in rev (drop_while p (rev (drop_while p s))).
(** s.split(sep) for a sep that is not empty. [python or library primitive, used at process_and_compare.py:40, 48] *)
Fixpoint split_go (fuel : nat) (sep s acc : text) : list text :=
  match fuel with
  | O => []
  | S k =>
      match strip_prefix sep s with
      | Some r => rev acc :: split_go k sep r []
      | None => match s with [] => [rev acc] | c :: r => split_go k sep r (c :: acc) end
      end
  end.
(** python or library primitive, used at process_and_compare.py:40, 48 *)
Definition py_split (sep s : text) : list text := split_go (S (length s)) sep s [].
(** s.replace(old, new) for an old that is not empty. [python or library primitive, used at process_and_compare.py:48, 69-70] *)
Fixpoint replace_go (fuel : nat) (old new s : text) : text :=
  match fuel with
  | O => []
  | S k =>
      match strip_prefix old s with
      | Some r => new ++ replace_go k old new r
      | None => match s with [] => [] | c :: r => c :: replace_go k old new r end
      end
  end.
(** python or library primitive, used at process_and_compare.py:48, 69-70 *)
Definition py_replace (old new s : text) : text := replace_go (S (length s)) old new s.
(** s.startswith(p). [python or library primitive, used at process_and_compare.py:39, 42, 55, 58] *)
Definition starts_with (p s : text) : bool := match strip_prefix p s with Some _ => true | None => false end.
(** xs[i:j] for 0 <= i <= j. [python or library primitive, used at process_and_compare.py:75] *)
Definition cut {A} (i j : nat) (xs : list A) : list A := firstn (j - i) (skipn i xs).

(** ---- old_enum_csv_to_pdf ---- *)
(** constant_gen (process_and_compare.py:36-63): a generator itself; a lambda over the variable i, which is also the
    variable of the loop at line 68 (lines 41, 44); a lambda over a variable of its own (lines 57, 60). *)
Inductive lgen := LPlain (b : gbody) | LLoop (b : gbody) | LOwn (b : gbody) (i : Z).
(** process_and_compare.py:30-34 *)
Definition lgens (pt et : text) : list (text * gbody) := map (fun '(k, b) => (txt k, b))
  [("e", GConst (e_const et)); ("pi", GConst (pi_const pt)); ("feig", GList feig_consts);
   ("euler_masch", GConst euler_masch_const); ("percolation", GList percolation_consts)]%string.
(** int(constant.split(',')[1].strip()) (process_and_compare.py:40, 43, 56, 59) *)
Definition const_index (constant : text) : res Z :=
  let* s := py_nth (py_split (txt ",") constant) 1 in py_int (strip s).
(** process_and_compare.py:36-44 ([own] = false) and 53-60 ([own] = true). None: the name constant_gen stays unbound. *)
Definition choose_gen (pt et : text) (own : bool) (constant : text) : res (option lgen) :=
  match d_get text_eqb (lgens pt et) constant with
  | Some b => Ok (Some (LPlain b))
  | None =>
      let mk b := let* i := const_index constant in Ok (Some (if own then LOwn b i else LLoop b)) in
      if starts_with (txt "feig") constant then mk (GList feig_consts)
      else if starts_with (txt "percolation") constant then mk (GList percolation_consts)
      else Ok None
  end.
(** constant_gen() in row number [n] of the loop (process_and_compare.py:76) *)
Definition call_lgen (g : lgen) (n : Z) (m : mpctx) : mpctx * res Q :=
  match g with
  | LPlain b => call_gen b [] m
  | LLoop b => call_gen b [GInt n] m
  | LOwn b i => call_gen b [GInt i] m
  end.
(** process_and_compare.py:48 *)
Definition header_funcs (s : text) : list text :=
  py_split (txt ", ") (py_replace (txt "'") [] (strip_set (txt "]") (strip_set (txt "[") s))).
(** process_and_compare.py:69-70 *)
Definition tuple_to_json (s : text) : text :=
  py_replace (txt ")") (txt "]") (py_replace (txt ",)") (txt "]") (py_replace (txt "(") (txt "[") s)).
(** A JSON list of ints. None: something else. [process_and_compare.py:69-74] *)
Fixpoint ints_of (l : list json) : option (list Z) :=
  match l with
  | [] => Some []
  | JInt z :: r => match ints_of r with Some zs => Some (z :: zs) | None => None end
  | _ :: _ => None
  end.
(** A JSON list of lists of ints. None: something else. [process_and_compare.py:69-74] *)
Fixpoint lists_of (l : list json) : option coeffs :=
  match l with
  | [] => Some []
  | JList x :: r => match ints_of x, lists_of r with Some p, Some ps => Some (p :: ps) | _, _ => None end
  | _ :: _ => None
  end.
(** process_and_compare.py:71-74. Subscripting a number or null is a TypeError. Simplification: a value that is neither a
    list of ints nor a list of lists of ints would be stored and fail later; here RuntimeError stands for it. *)
Definition row_params (j : json) : res coeffs :=
  match j with
  | JList [] => Raise IndexError
  | JList ((JList _ :: _) as l) => match lists_of l with Some ps => Ok ps | None => Raise RuntimeError end
  | JList l => match ints_of l with Some p => Ok [p] | None => Raise RuntimeError end
  | JStr _ => Raise RuntimeError
  | _ => Raise TypeError
  end.
(** One row (process_and_compare.py:69-79): the context, and the result that is appended. The index row[2] exists when
    row[3:7] has four elements. *)
Definition load_row (g : lgen) (n : Z) (row : list text) (m : mpctx) : mpctx * res (click ulcd) :=
  match (let* ta := py_nth row 0 in
         let* ja := json_loads (tuple_to_json ta) in
         let* tb := py_nth row 1 in
         let* jb := json_loads (tuple_to_json tb) in
         let* a := row_params ja in
         let* b := row_params jb in
         let* us := mapM py_int (cut 3 7 row) in
         match us with [u; l; c; d] => Ok (a, b, (u, l, c, d)) | _ => Raise ValueError end) with
  | Raise e => (m, Raise e)
  | Ok (a, b, p) =>
      let (m1, x) := call_lgen g n m in
      (m1, let* q := x in
           let* o := ulcd_new (rnd (mp_prec m1)) p q in
           let* ti := py_nth row 2 in
           let* i := py_int ti in
           Ok ((a, b), o, i, None))
  end.
(** process_and_compare.py:68-79 *)
Fixpoint load_rows (g : lgen) (n : Z) (rows : list (list text)) (m : mpctx) : mpctx * res (list (click ulcd)) :=
  match rows with
  | [] => (m, Ok [])
  | row :: r =>
      match load_row g n row m with
      | (m1, Raise e) => (m1, Raise e)
      | (m1, Ok c) => let (m2, x) := load_rows g (n + 1) r m1 in (m2, let* cs := x in Ok (c :: cs))
      end
  end.
(** process_and_compare.py:50-63; [given] is the argument. The name, and the generator if there is one. *)
Definition header_const (pt et : text) (given : option text) (g0 : option lgen) (row : list text) : res (text * option lgen) :=
  match given with
  | Some ((_ :: _) as c) => Ok (c, g0)
  | _ =>
      let* c3 := if 2 <? Z.of_nat (length row) then py_nth row 3 else Ok [] in
      match c3 with
      | [] => Ok (txt "pi", Some (LPlain (GConst (pi_const pt))))
      | _ => let* g := choose_gen pt et true c3 in Ok (c3, g)
      end
  end.
(** The arguments of MITM: the functions of a header (process_and_compare.py:49) *)
Definition header_eval (sq : Q -> Q) (rd : Q -> Q) (fs : list text) : res (list (mpfv -> res mpfv)) :=
  mapM (fun f => let* i := list_index f POSTPROC_FUNCS 0 in py_nth (EVALUATED_POSTPROC_FUNCS (mpf_ops rd sq)) i) fs.
(** get_latex_exp of a ULCD (lhs_evaluators.py:166-189), which leaves the object alone *)
Definition ulcd_lhs_latex (o : ulcd) (name : text) : ulcd * res text := (o, Ok (ulcd_latex (ul_params o) name)).
(** process_and_compare.py:24-84: the name of the pdf file and the equations that are handed to generate_latex. The
    constructor of MITM sets the precision to 50 digits (enum_params.py:75); [sq] is the square root of mpmath. next() at
    the end of the file is a StopIteration. *)
Definition old_enum_csv_to_pdf (sq : Q -> Q) (pt et : text) (path : text) (rows : list (list text)) (given : option text)
  : res (text * list text) :=
  let* g0 := match given with Some ((_ :: _) as c) => choose_gen pt et false c | _ => Ok None end in
  match rows with
  | [] => Raise StopIteration
  | row :: rest =>
      let* f1 := py_nth row 1 in
      let fs := header_funcs f1 in
      let m0 := set_dps 50 in
      let* funcs := header_eval sq (rnd (mp_prec m0)) fs in
      let* cg := header_const pt et given g0 row in
      match rest with
      | [] => Raise StopIteration
      | _ :: data =>
          match snd cg with
          | None => Raise UnboundLocalError
          | Some g =>
              let (m, x) := load_rows g 0 data m0 in
              let* cs := x in
              let rd := rnd (mp_prec m) in
              let* eqns := snd (results_as_eqns rd ulcd_lhs_latex funcs (Some (rd (pi_const pt))) POSTPROC_FUNCS_LATEX (fst cg) fs true 5 cs) in
              Ok (strip_set (txt ".csv") path, eqns)
          end
      end
  end.

(** ---- load_cont_fracs ---- *)
(** re.findall: the groups of the matches, from left to right, without overlap. For a pattern that does not match the
    empty text. [python or library primitive, used at process_and_compare.py:136, 141] *)
Fixpoint findall_go (fuel : nat) (r : rx) (s : text) : list caps :=
  match fuel with
  | O => []
  | S k =>
      match re_match r s with
      | Some (cs, rest) => cs :: findall_go k r rest
      | None => match s with [] => [] | _ :: s' => findall_go k r s' end
      end
  end.
(** python or library primitive, used at process_and_compare.py:136, 141 *)
Definition re_findall (r : rx) (s : text) : list caps := findall_go (S (length s)) r s.
(** \-?[0-9]+ (process_and_compare.py:136, 141) *)
Definition rx_int : rx := RSeq (ROpt (lit "-"%char)) (RPlus is_digit).
(** '\[(\-?[0-9]+), ?(\-?[0-9]+), ?(\-?[0-9]+)\]' (process_and_compare.py:136, 141) *)
Definition rx_triple : rx :=
  RSeq (lit "["%char) (RSeq (RGroup 1 rx_int) (RSeq (lit ","%char) (RSeq (ROpt (lit " "%char)) (RSeq (RGroup 2 rx_int)
    (RSeq (lit ","%char) (RSeq (ROpt (lit " "%char)) (RSeq (RGroup 3 rx_int) (lit "]"%char)))))))).
(** process_and_compare.py:136 (and 141) *)
Definition triples (s : text) : res coeffs :=
  mapM (fun cs => mapM (fun n => py_int (group n cs)) [1; 2; 3]%nat) (re_findall rx_triple s).
(** [0-9+\-*/x ()] (process_and_compare.py:146) *)
Definition formula_char (c : ascii) : bool := is_digit c || existsb (char_eqb c) (txt "+-*/x ()").
(** '^\-?[0-9]+(\.[0-9]+)?$' (process_and_compare.py:159) *)
Definition rx_number : rx :=
  RSeq rx_int (RSeq (ROpt (RGroup 1 (RSeq (lit "."%char) (RPlus is_digit)))) REnd).
(** The value of x (process_and_compare.py:154-163): pi and e are generators, another number is a Decimal, given by its text. *)
Inductive ltarget := LPi | LE | LDec (s : text).
(** process_and_compare.py:164-165; the function is given by the text of its body *)
Record lparams := { lp_a : coeffs; lp_b : coeffs; lp_formula : text; lp_x : ltarget }.
(** process_and_compare.py:154-163; None: the row is skipped *)
Definition target_x (s : text) : option ltarget :=
  let t := lower (strip s) in
  if text_eqb t (txt "pi") then Some LPi
  else if text_eqb t (txt "e") then Some LE
  else match re_match rx_number t with Some _ => Some (LDec t) | None => None end.
Section Load.
  (** whether eval('lambda x: ' + s) returns (process_and_compare.py:150) *)
  Variable evals : text -> bool.
  (** One row (process_and_compare.py:135-165): what is handed to eval, and the parameters (None: the row is skipped) *)
  Definition load_cf_row (row : list text) : list text * res (option lparams) :=
    match (let* ta := py_nth row 0 in
           let* a := triples ta in
           match a with
           | [] => Ok None
           | _ => let* tb := py_nth row 1 in
                  let* b := triples tb in
                  match b with [] => Ok None | _ => let* tf := py_nth row 2 in Ok (Some (a, b, strip tf)) end
           end) with
    | Raise e => ([], Raise e)
    | Ok None => ([], Ok None)
    | Ok (Some (a, b, f)) =>
        match re_match (RPlus formula_char) f with
        | None => ([], Ok None)
        | Some _ =>
            let src := txt "lambda x: " ++ f in
            ([src], if evals src then
                      let* tx := py_nth row 3 in
                      Ok (match target_x tx with
                          | Some x => Some {| lp_a := a; lp_b := b; lp_formula := f; lp_x := x |}
                          | None => None
                          end)
                    else Ok None)
        end
    end.
  (** process_and_compare.py:130-167 *)
  Fixpoint load_cont_fracs (rows : list (list text)) : list text * res (list lparams) :=
    match rows with
    | [] => ([], Ok [])
    | row :: r =>
        match load_cf_row row with
        | (ev, Raise e) => (ev, Raise e)
        | (ev, Ok x) => let (ev', y) := load_cont_fracs r in
                        (ev ++ ev', let* ps := y in Ok (match x with Some p => p :: ps | None => ps end))
        end
    end.
End Load.

(** ---- analyze_contfracs_csv ---- *)
(** v < 10**-15 (process_and_compare.py:249), a python float; false for NaN *)
Definition tiny (v : mpfv) : bool :=
  match v with Fin q => negb (Qle_bool (rnd 53 (1 # (10 ^ 15))) q) | NaN => false end.
(** process_and_compare.py:249-250; None: more than [fuel] rounds. The element is read before the cutoff is tested. *)
Fixpoint cutoff_loop (fuel : nat) (errors : list (Z * mpfv)) (cutoff : Z) : option (res Z) :=
  match py_nth errors cutoff with
  | Raise e => Some (Raise e)
  | Ok p => if tiny (snd p) && (0 <? cutoff)
            then match fuel with O => None | S k => cutoff_loop k errors (Z.shiftr cutoff 1) end
            else Some (Ok cutoff)
  end.
(** The points that both regressions get (process_and_compare.py:251-263). [gt] is abs(err) > Decimal('1E-50'), a
    comparison of an mpf with a Decimal that is up to the library. *)
Definition legacy_fit_points (gt : mpfv -> res bool) (errors : list (Z * mpfv)) (cutoff : Z) : res (list (Z * mpfv)) :=
  filterM (fun p => let* b := gt (snd p) in Ok (if b : bool then Some p else None)) (skipn (Z.to_nat cutoff) errors).
(** process_and_compare.py:246-266; [reg] is what is done with the points (logarithms and linregress). 64 rounds suffice. *)
Definition legacy_fitting {R} (gt : mpfv -> res bool) (reg : list (Z * mpfv) -> res R) (errors : list (Z * mpfv)) : res R :=
  match cutoff_loop 64 errors 500 with
  | Some (Ok k) => let* pts := legacy_fit_points gt errors k in reg pts
  | Some (Raise e) => Raise e
  | None => Raise RuntimeError
  end.
Section Analyze.
  Variable rd : Q -> Q.
  Variable evals : text -> bool.
  (** target_formula(target_x) (process_and_compare.py:172). Simplification: an mpf. *)
  Variable apply : text -> ltarget -> res Q.
  (** find_linear_fitting and plot_errors on the list of errors (process_and_compare.py:285, 288-289) *)
  Variable fit : list (Z * mpfv) -> res unit.
  (** is_convergence_fast and estimate_approach_type_and_params (process_and_compare.py:290-292), see cf_is_fast, cf_estimate *)
  Variable conv_of : contfrac -> res (bool * conv).
  (** process_and_compare.py:170-172 *)
  Definition legacy_cf (p : lparams) : res contfrac :=
    let* t := apply (lp_formula p) (lp_x p) in
    cf_new (Nested (lp_a p)) (Nested (lp_b p)) true None None (Some t) false.
  (** process_and_compare.py:282-292: the figures (path and title), and the two lists *)
  Fixpoint analyze_loop (dir name : text) (i : Z) (ps : list lparams) : list (text * text) * res (list (bool * conv)) :=
    match ps with
    | [] => ([], Ok [])
    | p :: r =>
        match (let* c := legacy_cf p in
               match build_contfrac_errors rd 2000 c with
               | (_, Raise e) => Raise e
               | (c1, Ok errors) => let* _ := fit errors in Ok c1
               end) with
        | Raise e => ([], Raise e)
        | Ok c1 =>
            let fig := (Scripts_Model.os_join dir (name ++ txt "-" ++ z_text (i + 1) ++ txt ".png"),
                        name ++ txt " - " ++ z_text (i + 1) ++ txt "th row") in
            match conv_of c1 with
            | Raise e => ([fig], Raise e)
            | Ok v => let (figs, y) := analyze_loop dir name (i + 1) r in (fig :: figs, let* vs := y in Ok (v :: vs))
            end
        end
    end.
  (** process_and_compare.py:269-293. The function load_enum_csv_as_cont_fracs_csv of line 275 is commented out (lines
      86-128). *)
  Definition analyze_contfracs_csv (path : text) (rows : list (list text)) (filetype : text)
    : list (text * text) * res (list bool * list conv) :=
    let (dir, file) := path_split path in
    let name := fst (Scripts_Model.splitext file) in
    if text_eqb filetype (txt "enum_res") then ([], Raise NameError)
    else if text_eqb filetype (txt "cont_frac") then
      match snd (load_cont_fracs evals rows) with
      | Raise e => ([], Raise e)
      | Ok ps => let (figs, y) := analyze_loop dir name 0 ps in (figs, let* vs := y in Ok (map fst vs, map snd vs))
      end
    else ([], Raise ValueError).
End Analyze.

(** ---- is_poly_or_exp_approach ---- *)
(** The second component of the result (process_and_compare.py:305, 388, 409) *)
Inductive lrate := LZero | LRate (q : Q) | LPoly (slope r2 : mpfv).
Section Approach.
  Variable rd : Q -> Q.
  (** is_zero() of a number (process_and_compare.py:349, 351) *)
  Variable is_zero : mpfv -> res bool.
  (** x**0.5 of an mpf (process_and_compare.py:388-389) *)
  Variable msqrt : Q -> Q.
  (** math.log and scipy.stats.linregress (process_and_compare.py:397-407) *)
  Variable flog : Q -> Q.
  (** process_and_compare.py:399, 407 *)
  Variable linregress : list Q -> list mpfv -> mpfv * mpfv * mpfv.

  (** x / y, x + y and (x - y)**2 of numbers, of which each may be NaN (process_and_compare.py:362-375) *)
  Definition vdiv (x y : mpfv) : res mpfv :=
    match x, y with
    | Fin a, Fin b => if Qeq_bool b 0 then Raise ZeroDivisionError else Ok (Fin (rdiv rd a b))
    | _, _ => Ok NaN
    end.
  (** process_and_compare.py:370-373 *)
  Definition vadd (x y : mpfv) : mpfv := match x, y with Fin a, Fin b => Fin (radd rd a b) | _, _ => NaN end.
  (** process_and_compare.py:371, 373 *)
  Definition vdiff2 (x y : mpfv) : mpfv :=
    match x, y with Fin a, Fin b => let d := rsub rd a b in Fin (rmul rd d d) | _, _ => NaN end.
  (** x > y for a float y; false for NaN (process_and_compare.py:376, 379-380) *)
  Definition vgt (x : mpfv) (y : Q) : bool := match x with Fin a => negb (Qle_bool a y) | NaN => false end.
  (** d != 0; true for NaN (process_and_compare.py:363, 365) *)
  Definition nonzero (d : mpfv) : bool := match d with Fin q => negb (Qeq_bool q 0) | NaN => true end.
  (** process_and_compare.py:349-352 *)
  Definition legacy_diminish (ds : list (Z * mpfv)) : res bool :=
    if 3 <? Z.of_nat (length ds)
    then let* bs := mapM (fun p => is_zero (snd p)) (last3 ds) in Ok (forallb (fun b => b) bs)
    else Ok false.
  (** process_and_compare.py:362-365 *)
  Fixpoint legacy_ratios (ds : list (Z * mpfv)) : res (list mpfv) :=
    match ds with
    | (_, d) :: (_, e) :: r =>
        let* here := if nonzero d && nonzero e then let* q := vdiv d e in Ok [q] else Ok [] in
        let* rest := legacy_ratios r in
        Ok (here ++ rest)
    | _ => Ok []
    end.
  (** sum(xs) / len(xs) (process_and_compare.py:370-373) *)
  Definition vmean (xs : list mpfv) : res mpfv :=
    if Z.of_nat (length xs) =? 0 then Raise ZeroDivisionError
    else vdiv (fold_left vadd xs (Fin 0)) (Fin (inject_Z (Z.of_nat (length xs)))).
  (** process_and_compare.py:393-410 *)
  Definition legacy_poly (ds dos : list (Z * mpfv)) : res lrate :=
    let* p := regress flog linregress ds in
    let* o := regress flog linregress dos in
    let '(sp, _, rp) := p in
    let '(so, _, ro) := o in
    Ok (LPoly (vpred (py_minv (vabs sp) (vabs so))) (py_minv (vsqr rp) (vsqr ro))).
  (** process_and_compare.py:347-410 *)
  Definition legacy_classify (threshold : Q) (find_poly : bool) (s : list (Z * list mpfv)) : res (atype * lrate) :=
    let ds := delta_pair rd s in
    let dos := delta_odd rd s in
    let* dp := legacy_diminish ds in
    let* dq := legacy_diminish dos in
    let t0 := if xorb dp dq then ATUndefined else if dp && dq then ATFast else ATNone in
    let* pr := legacy_ratios ds in
    let* od := legacy_ratios dos in
    match pr with
    | [] => Ok (t0, LZero)
    | _ =>
        let* mp := vmean pr in
        let* ep := vmean (map (fun r => vdiff2 r mp) pr) in
        let* mo := vmean od in
        let* eo := vmean (map (fun r => vdiff2 r mo) od) in
        let* rp := vdiv ep mp in
        let* ro := vdiv eo mo in
        if vgt ro half_f || vgt rp half_f then Ok (ATUndefined, LZero)
        else
          let pe := vgt mp threshold in
          let oe := vgt mo threshold in
          if xorb pe oe then Ok (ATMixed, LZero)
          else if pe && oe then
            match mp, mo with
            | Fin a, Fin b => Ok (ATExp, LRate (py_min (msqrt a) (msqrt b)))
            | _, _ => Ok (ATExp, LZero)   (* does not occur: a comparison with NaN is false *)
            end
          else if find_poly then let* r := legacy_poly ds dos in Ok (ATPoly, r)
          else Ok (ATPoly, LZero)
    end.
  (** process_and_compare.py:297-410; the ValueError of line 302 is created but not raised *)
  Definition is_poly_or_exp_approach (iters cutoff step : Z) (threshold : Q) (find_poly : bool) (c : contfrac)
    : contfrac * res (atype * lrate) :=
    match cf_gen0 rd cutoff true c with
    | (c1, Raise e) => (c1, Raise e)
    | (c1, Ok _) =>
        match five_res rd 5 c1 [] with
        | (c2, Raise e) => (c2, Raise e)
        | (c2, Ok l0) =>
            match ContFrac_Model.py_range3 (cutoff + step) (iters + 1) step with
            | Raise e => (c2, Raise e)
            | Ok idx =>
                match sample_loop rd idx step c2 [(cutoff, l0)] with
                | (c3, Raise e) => (c3, Raise e)
                | (c3, Ok s) => (c3, legacy_classify threshold find_poly s)
                end
            end
        end
    end.
End Approach.
(** exponential_threshold=1.1 (process_and_compare.py:297), a python float *)
Definition legacy_threshold : Q := rnd 53 (11 # 10).

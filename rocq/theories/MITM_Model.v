(** Model of enum_params.py (class MITM). No proofs.
    Progress bars and printing are left out. Numbers are finite (a rational) or not (NaN stands for NaN and the
    infinities, which the code treats alike: they are not normal). [rd] is the rounding of the working precision. *)
From Coq Require Import Ascii String ZArith QArith Qabs List Bool.
From Verif Require Import PyBase Rnd ContFrac_Model Hashtable_Model ULCD_Model Rational_Model.
From Verif Require Enum_Model.
Import ListNotations.
Local Open Scope Z_scope.
Local Open Scope res_scope.
Local Open Scope list_scope.

(** (a_poly, b_poly), each a tuple of polynomials. [enum_params.py:156, 196] *)
Definition abpair := (coeffs * coeffs)%type.
(** python or library primitive, used at enum_params.py:157, 195 *)
Definition ab_eqb (x y : abpair) : bool := coeffs_eqb (fst x) (fst y) && coeffs_eqb (snd x) (snd y).

(** What a table stores: entries ((pa, pb), post_func_ind) in lists (enum_params.py:195-196), and under the key
    'parameters' a dictionary of settings (main.py:111-112). *)
Inductive tent := TEnt (ab : abpair) (i : Z) | TParams.
(** python or library primitive, used at enum_params.py:195 *)
Definition tent_eqb (x y : tent) : bool :=
  match x, y with TEnt a i, TEnt b j => ab_eqb a b && (i =? j) | TParams, TParams => true | _, _ => false end.
(** enum_params.py:83 *)
Definition mtable := htab (hval tent).

(** mpmath.isnormal: finite and not zero. [python or library primitive, used at enum_params.py:173, 190, 283] *)
Definition isnormal (v : mpfv) : bool := match v with Fin q => negb (Qeq_bool q 0) | NaN => false end.
(** abs(v); exact, as v has the working precision. [python or library primitive, used at enum_params.py:192, 214, 281, 286] *)
Definition absv (v : mpfv) : mpfv := match v with Fin q => Fin (Qabs q) | NaN => NaN end.

Section Frac.
  Variable rd : Q -> Q.
  (** [k -= int(k)] when trunc_integer is set (enum_params.py:193-194, 215-216, 287-289); int() of a NaN or an
      infinity raises. *)
  Definition trunc_int (trunc : bool) (v : mpfv) : res mpfv :=
    if trunc then match v with Fin q => Ok (Fin (rd (q - inject_Z (q_int q)))) | NaN => Raise ValueError end
    else Ok v.
End Frac.

(** Numbers used as keys are kept in lowest terms (see [rawkey]). [enum_params.py:195-196] *)
Definition num_key (q : Q) : rawkey := KNum (Qred q).

(** ---- building the table ---- *)
(** Elements of the sets of enum_params.py:137, 145 and 158: a pair (i, postproc_funcs[i]) or an index. *)
Inductive setelt := SPair (i : Z) (f : mpfv -> res mpfv) | SInd (i : Z).
(** Functions are compared by identity; all pairs come from the same list, so equal indices mean equal functions. [python or library primitive, used at enum_params.py:137, 145, 158] *)
Definition setelt_eqb (x y : setelt) : bool :=
  match x, y with SPair i _, SPair j _ => i =? j | SInd i, SInd j => i =? j | _, _ => false end.
(** python or library primitive, used at enum_params.py:137, 145, 158 *)
Definition set_add (x : setelt) (s : list setelt) : list setelt := if existsb (setelt_eqb x) s then s else s ++ [x].
(** python or library primitive, used at enum_params.py:137, 145, 158 *)
Definition set_diff (s t : list setelt) : list setelt := filter (fun x => negb (existsb (setelt_eqb x) t)) s.

Section Build.
  Variable rd : Q -> Q.
  (** cont_fracs.eval_dec_contfrac_by_polys(pa, pb, self._polys_enumer_num_of_iterations) *)
  Variable cfval : abpair -> res Q.
  Variable funcs : list (mpfv -> res mpfv).
  Variable trunc : bool.
  (** The order in which a python set is iterated over (line 179); it may be different for every pair. *)
  Variable order : abpair -> list setelt -> list setelt.

  (** enum_params.py:137 *)
  Definition filtered_funcs (flt : list Z) : res (list setelt) :=
    foldM (fun s i => let* f := py_nth funcs i in Ok (set_add (SPair i f) s)) flt [].

  (** enum_params.py:139-145 — the black-list. [for ab, postproc_func_ind in v] over the entries of a list; a
      dictionary (of settings) cannot be unpacked this way. *)
  Definition bl_add (bl : list (abpair * list setelt)) (x : tent) : res (list (abpair * list setelt)) :=
    match x with
    | TEnt ab i =>
        let s := match d_get ab_eqb bl ab with Some s => s | None => [] end in
        Ok (d_set ab_eqb bl ab (set_add (SInd i) s))
    | TParams => Raise ValueError
    end.
  (** enum_params.py:142 *)
  Definition is_params_key (k : rawkey) : bool := match k with KStr s => text_eqb s (txt "parameters") | KNum _ => false end.
  (** enum_params.py:139-145 *)
  Definition blacklist (t : mtable) : res (list (abpair * list setelt)) :=
    foldM (fun bl kv => if is_params_key (fst kv) then Ok bl
                        else match snd kv with
                             | VList l => foldM bl_add l bl
                             | VOne _ => Raise ValueError
                             end) (h_data t) [].

  (** enum_params.py:195-196. [x not in d] for a dictionary is a test of its keys; a dictionary has no append. *)
  Definition store (ab : abpair) (i : Z) (k : Q) (t : mtable) : mtable * res unit :=
    match d_get rawkey_eqb (h_data t) (num_key k) with
    | None => (ht_raw_set (num_key k) (VList [TEnt ab i]) t, Ok tt)
    | Some (VList l) =>
        if existsb (tent_eqb (TEnt ab i)) l then (t, Ok tt)
        else (ht_raw_set (num_key k) (VList (l ++ [TEnt ab i])) t, Ok tt)
    | Some (VOne _) => (t, Raise AttributeError)
    end.

  (** enum_params.py:179-196 — the inner loop. [kb] says whether the local variable k has a value: the handler at
      lines 186-188 prints it before raising again. *)
  Fixpoint funcs_loop (fs : list setelt) (ab : abpair) (v : Q) (kb : bool) (t : mtable) : (mtable * bool) * res unit :=
    match fs with
    | [] => ((t, kb), Ok tt)
    | SInd _ :: _ => ((t, kb), Raise TypeError)   (* an int cannot be unpacked *)
    | SPair i f :: r =>
        match f (Fin v) with
        | Raise e => ((t, kb), Raise (if kb then e else UnboundLocalError))
        | Ok k =>
            if negb (isnormal k) then funcs_loop r ab v true t
            else match trunc_int rd trunc (absv k) with
                 | Ok (Fin q) =>
                     match store ab i q t with
                     | (t1, Raise e) => ((t1, true), Raise e)
                     | (t1, Ok _) => funcs_loop r ab v true t1
                     end
                 | Ok NaN => ((t, true), Raise TypeError)   (* not possible: k is finite *)
                 | Raise e => ((t, true), Raise e)
                 end
        end
    end.

  (** enum_params.py:156-177 — the outer loop *)
  Fixpoint pairs_loop (pairs : list abpair) (fs : list setelt) (bl : list (abpair * list setelt)) (kb : bool) (t : mtable)
    : (mtable * bool) * res unit :=
    match pairs with
    | [] => ((t, kb), Ok tt)
    | ab :: r =>
        let listed := d_get ab_eqb bl ab in
        let todo := match listed with Some s => set_diff fs s | None => fs end in
        if match listed, todo with Some _, [] => true | _, _ => false end then pairs_loop r fs bl kb t
        else
          match cfval ab with
          | Raise ZeroDivisionError => pairs_loop r fs bl kb t
          | Raise e => ((t, kb), Raise e)
          | Ok v =>
              if negb (isnormal (Fin v)) then pairs_loop r fs bl kb t
              else match funcs_loop (order ab todo) ab v kb t with
                   | ((t1, kb1), Raise e) => ((t1, kb1), Raise e)
                   | ((t1, kb1), Ok _) => pairs_loop r fs bl kb1 t1
                   end
          end
    end.

  (** enum_params.py:135-197 — _iter2hashtalbe. [gen] is the pairs yielded by the generator and how it ends. The loop
      at line 141 binds k when the table is not empty. *)
  Definition iter2hashtable (flt : list Z) (gen : list abpair * res unit) (validate : bool) (t : mtable) : mtable * res unit :=
    match filtered_funcs flt with
    | Raise e => (t, Raise e)
    | Ok fs =>
        match (if validate then blacklist t else Ok []) with
        | Raise e => (t, Raise e)
        | Ok bl =>
            let kb := validate && match h_data t with [] => false | _ => true end in
            match pairs_loop (fst gen) fs bl kb t with
            | ((t1, _), Raise e) => (t1, Raise e)
            | ((t1, _), Ok _) => (t1, snd gen)
            end
        end
    end.
End Build.

(** ---- left-hand sides as seen by this module ---- *)
(** ((a, b), lhs object, post_func_ind, convergence_info) (enum_params.py:227-230) *)
Definition conv := (atype * aparams)%type.
(** enum_params.py:227-230, 309 *)
Definition click (O : Type) := (abpair * O * Z * option conv)%type.
(** enum_params.py:227-230, 309 *)
Definition ck_ab {O} (c : click O) : abpair := let '(ab, _, _, _) := c in ab.
(** enum_params.py:227-230, 309 *)
Definition ck_obj {O} (c : click O) : O := let '(_, o, _, _) := c in o.
(** enum_params.py:227-230, 309 *)
Definition ck_ind {O} (c : click O) : Z := let '(_, _, i, _) := c in i.
(** enum_params.py:227-230, 309 *)
Definition ck_conv {O} (c : click O) : option conv := let '(_, _, _, v) := c in v.
(** enum_params.py:227-230, 309 *)
Definition ck_with {O} (c : click O) (o : O) : click O := let '(ab, _, i, v) := c in (ab, o, i, v).

(** The methods of an LHSEvaluator class that are used here. Every recorded click has its own object
    (enum_params.py:229), so that objects can be treated as values (see C42). *)
Record lhs_class (O : Type) := {
  lc_val : O -> mpfv;
  lc_degen : O -> O * res bool;
  lc_copy : O -> res O;
  lc_flip : O -> O * res unit;
  lc_add : Z -> O -> O * res unit;
  lc_canon : O -> O * res unit;
  lc_equiv : abpair * O * Z -> abpair * O * Z -> (O * O) * res bool }.
Arguments lc_val {O}. Arguments lc_degen {O}. Arguments lc_copy {O}. Arguments lc_flip {O}. Arguments lc_add {O}.
Arguments lc_canon {O}. Arguments lc_equiv {O}.

(** lhs_evaluators.py:98-193; canonalize_params is inherited and does nothing (lines 75-77). *)
Definition ulcd_class (rd : Q -> Q) : lhs_class ulcd := {|
  lc_val := fun o => Fin (ul_val o);
  lc_degen := fun o => (o, Ok (ulcd_is_degenerate o));
  lc_copy := ulcd_copy rd;
  lc_flip := ulcd_flip_sign rd;
  lc_add := ulcd_add_int rd;
  lc_canon := fun o => (o, Ok tt);
  lc_equiv := fun r1 r2 => ((snd (fst r1), snd (fst r2)), ulcd_is_equiv r1 r2) |}.
(** lhs_evaluators.py:256-460 *)
Definition rat_class (kind : numkind) (rd : Q -> Q) (pgcd : list Z -> list Z -> list Z) (inv : list (Z * Z)) : lhs_class rfun := {|
  lc_val := rf_val;
  lc_degen := rf_is_degenerate kind rd pgcd;
  lc_copy := rf_copy kind rd;
  lc_flip := rf_flip_sign kind rd;
  lc_add := rf_add_int kind rd;
  lc_canon := rf_canonalize kind rd pgcd;
  lc_equiv := rf_is_equiv kind rd pgcd inv |}.

Section Clicks.
  Variable rd : Q -> Q.
  Variable eng : Q -> res text.
  Context {O : Type}.
  Variable cls : lhs_class O.
  Variable funcs : list (mpfv -> res mpfv).
  Variable trunc : bool.

  (** A number used as a key or in a comparison of texts; the text of a NaN is 'NaN' (Decimal). [enum_params.py:217, 223, 230] *)
  Definition vkey (v : mpfv) : ukey := match v with Fin q => UNum q | NaN => UStr (txt "NaN") end.
  (** python or library primitive, used at enum_params.py:508 *)
  Definition engv (v : mpfv) : res text := match v with Fin q => eng q | NaN => Ok (txt "NaN") end.

  (** enum_params.py:229-230 — the list of new clicks; [for ab, post_func_ind in v] *)
  Definition new_clicks (o : O) (v : hval tent) : res (list (click O)) :=
    match v with
    | VOne _ => Raise ValueError
    | VList l => mapM (fun x => match x with
                                | TEnt ab i => let* o' := lc_copy cls o in Ok (ab, o', i, None)
                                | TParams => Raise ValueError
                                end) l
    end.

  (** enum_params.py:214-230 — the body of the loop: the clicks it adds. (The second test of line 223 has the answer
      of the first, so that signed_r is r.) *)
  Definition click_body (t : mtable) (o : O) : res (list (click O)) :=
    let* r := trunc_int rd trunc (absv (lc_val cls o)) in
    let* hit := ht_contains eng (vkey r) t in
    if negb hit then Ok []
    else
      let (o1, d) := lc_degen cls o in
      let* deg := d in
      if deg : bool then Ok []
      else
        let* hit2 := ht_contains eng (vkey r) t in
        let signed_r := if hit2 : bool then r else match r with Fin q => Fin (- q) | NaN => NaN end in
        let* v := ht_get eng (vkey signed_r) t in
        new_clicks o1 v.

  (** enum_params.py:207-231 — the click list found; [gen] is the objects yielded by the generator and how it ends.
      (Between two yields no method that changes the yielded object is called, apart from is_degenerate on rational
      functions, each of which is yielded once.) *)
  Definition find_clicks_loop (t : mtable) (gen : list O * res unit) : res (list (click O)) :=
    let* l := foldM (fun acc o => let* n := click_body t o in Ok (acc ++ n)) (fst gen) [] in
    let* _ := snd gen in Ok l.

  (** enum_params.py:501-508 for any number *)
  Definition compare_texts (d1 d2 : mpfv) (accuracy : Z) : res bool :=
    let accuracy := accuracy + 1 in
    let* t1 := engv d1 in
    let* t2 := engv d2 in
    Ok (text_eqb (py_take (accuracy + 1) t1) (py_take (accuracy + 1) t2)).

  (** python or library primitive, used at enum_params.py:297, 337 *)
  Definition qlt (a b : Q) : bool := negb (Qle_bool b a).
  (** signed_lhs > 0 and signed_rhs < 0, or the other way round (line 297) *)
  Definition opposite (l r : mpfv) : bool :=
    match l, r with
    | Fin a, Fin b => (qlt 0 a && qlt b 0) || (qlt a 0 && qlt 0 b)
    | _, _ => false
    end.
  (** enum_params.py:300 *)
  Definition negv (v : mpfv) : mpfv := match v with Fin q => Fin (- q) | NaN => NaN end.
  (** int(signed_rhs - signed_lhs). [enum_params.py:302] *)
  Definition int_diff (r l : mpfv) : res Z :=
    match r, l with Fin a, Fin b => Ok (q_int (rd (a - b))) | _, _ => Raise ValueError end.

  (** enum_params.py:274-309 — one click: the click with its object as the methods leave it, and whether it is kept.
      [ev] is the contfrac_evaluator; print_clicks is False, as in every call of the program. *)
  Definition refine_one (ev : abpair -> Z -> option conv -> res mpfv) (accuracy : Z) (c : click O) : click O * res bool :=
    let '(ab, o, i, info) := c in
    match (let* f := py_nth funcs i in let* v := ev ab accuracy info in f v) with
    | Raise ZeroDivisionError => (c, Ok false)
    | Raise e => (c, Raise e)
    | Ok signed_rhs =>
        let rhs := absv signed_rhs in
        if negb (isnormal rhs) then (c, Ok false)
        else
          let signed_lhs := lc_val cls o in
          let lhs := absv signed_lhs in
          match (let* rhs' := trunc_int rd trunc rhs in
                 let* lhs' := trunc_int rd trunc lhs in
                 compare_texts rhs' lhs' accuracy) with
          | Raise e => (c, Raise e)
          | Ok false => (c, Ok false)
          | Ok true =>
              let flip := opposite signed_lhs signed_rhs in
              match (if flip then lc_flip cls o else (o, Ok tt)) with
              | (o1, Raise e) => (ck_with c o1, Raise e)
              | (o1, Ok _) =>
                  let signed_lhs' := if flip then negv signed_lhs else signed_lhs in
                  match int_diff signed_rhs signed_lhs' with
                  | Raise e => (ck_with c o1, Raise e)   (* raised again by the handler, line 304 *)
                  | Ok n =>
                      match lc_add cls n o1 with
                      | (o2, Raise e) => (ck_with c o2, Raise RuntimeError)
                      | (o2, Ok _) =>
                          match lc_canon cls o2 with
                          | (o3, Raise e) => (ck_with c o3, Raise e)
                          | (o3, Ok _) => (ck_with c o3, Ok true)
                          end
                      end
                  end
              end
          end
    end.

  (** enum_params.py:263-310: all clicks with their objects as they are left, the survivors, and the outcome. *)
  Fixpoint refine_loop (ev : abpair -> Z -> option conv -> res mpfv) (accuracy : Z) (cs : list (click O))
    : (list (click O) * list (click O)) * res unit :=
    match cs with
    | [] => (([], []), Ok tt)
    | c :: r =>
        match refine_one ev accuracy c with
        | (c', Raise e) => ((c' :: r, []), Raise e)
        | (c', Ok keep) =>
            let '((all, kept), x) := refine_loop ev accuracy r in
            ((c' :: all, if keep then c' :: kept else kept), x)
        end
    end.
  (** The new value of self.filtered_params: assigned at the end only (line 310), but the objects in the old list
      are changed in place. *)
  Definition refine (ev : abpair -> Z -> option conv -> res mpfv) (accuracy : Z) (cs : list (click O)) : list (click O) * res unit :=
    match refine_loop ev accuracy cs with
    | ((_, kept), Ok _) => (kept, Ok tt)
    | ((all, _), Raise e) => (all, Raise e)
    end.

  (** enum_params.py:233-241 *)
  Definition ev_const (n : Z) : abpair -> Z -> option conv -> res mpfv :=
    fun ab _ _ => let* v := eval_dec_contfrac_by_polys rd (Nested (fst ab)) (Nested (snd ab)) n in Ok (Fin v).
  (** enum_params.py:250-260. [acc10] is dec('1E-%d' % (accuracy+100)), [req] the required number of iterations
      (see [cf_gen]); a convergence_info is a non-empty tuple, hence true. *)
  Definition ev_conv (req : Q -> Q * Q -> res Z) (acc10 : Z -> Q) (target : option Q) (n : Z) : abpair -> Z -> option conv -> res mpfv :=
    fun ab accuracy info =>
      let* c := cf_new (Nested (fst ab)) (Nested (snd ab)) true None None target false in
      let c1 := match info with Some (t, p) => set_approach c t p | None => c end in
      match cf_gen rd req n (acc10 accuracy) true c1 with
      | (_, Raise e) => Raise e
      | (c2, Ok _) => Ok (cf_result c2)
      end.

  (** ---- filters ---- *)
  (** lhs_evaluators.py:134-135, 346-347 *)
  Definition ck3 (c : click O) : abpair * O * Z := let '(ab, o, i, _) := c in (ab, o, i).

  (** enum_params.py:321-325 — compare a click with the unique ones so far: their objects and the one of the click may
      be changed by is_equiv. *)
  Fixpoint uniq_scan (us : list (click O)) (c : click O) : (list (click O) * click O) * res bool :=
    match us with
    | [] => (([], c), Ok false)
    | u :: r =>
        match lc_equiv cls (ck3 u) (ck3 c) with
        | ((ou, oc), Raise e) => ((ck_with u ou :: r, ck_with c oc), Raise e)
        | ((ou, oc), Ok true) => ((ck_with u ou :: r, ck_with c oc), Ok true)
        | ((ou, oc), Ok false) =>
            let '((r', c'), x) := uniq_scan r (ck_with c oc) in ((ck_with u ou :: r', c'), x)
        end
    end.
  (** enum_params.py:317-327 — None: an exception was raised (self.filtered_params keeps its old list) *)
  Fixpoint uniq_loop (us : list (click O)) (cs : list (click O)) : list (click O) * res unit :=
    match cs with
    | [] => (us, Ok tt)
    | c :: r =>
        match uniq_scan us c with
        | ((us', _), Raise e) => (us', Raise e)
        | ((us', c'), Ok dup) => uniq_loop (if dup then us' else us' ++ [c']) r
        end
    end.
  (** enum_params.py:312-328. Simplification: after an exception the old list is given with its objects unchanged
      (is_equiv only brings them to canonical form). *)
  Definition filter_uniq (cs : list (click O)) : list (click O) * res unit :=
    match uniq_loop [] cs with
    | (us, Ok _) => (us, Ok tt)
    | (_, Raise e) => (cs, Raise e)
    end.

  (** enum_params.py:330-341. [roots b] are the values of numpy.roots(b[::-1]) as (real, imaginary) parts, which are
      floats; [round()] of a float is to the nearest integer, ties to even. *)
  Definition int_root_flag (r : Q * Q) : bool :=
    let c := fl (1 # 1000) in
    qlt (Qabs (snd r)) c && qlt (fl (fst r - inject_Z (rne (fst r)))) c && qlt c (fst r).
  (** enum_params.py:330-341 *)
  Definition filter_pos_roots (roots : list Z -> list (Q * Q)) (cs : list (click O)) : list (click O) :=
    filter (fun c => negb (existsb int_root_flag (flat_map roots (snd (ck_ab c))))) cs.

  (** A new ContFrac for a click (enum_params.py:251, 352, 376); [target] is the default target value. *)
  Definition ck_new (target : option Q) (c : click O) : res contfrac :=
    cf_new (Nested (fst (ck_ab c))) (Nested (snd (ck_ab c))) true None None target false.

  (** filter whose test may raise. [enum_params.py:350-360, 374-389] *)
  Fixpoint filterM {A B} (f : A -> res (option B)) (l : list A) : res (list B) :=
    match l with
    | [] => Ok []
    | x :: r => let* y := f x in let* ys := filterM f r in Ok (match y with Some b => b :: ys | None => ys end)
    end.

  (** print(cf_params) (enum_params.py:357, 383): the repr of a click contains that of its left-hand side, which is
      'Params %s, Res %s' with the to_eng_string of its value (lhs_evaluators.py:39-43). Simplification: only whether this raises. *)
  Definition print_click (c : click O) : res unit := let* _ := engv (lc_val cls (ck_obj c)) in Ok tt.

  (** enum_params.py:343-360; an exception leaves the old list. [surp] is print_surprising_nonexp_contfracs: then a fraction that
      is not fast is printed and classified as well. [est] is estimate_approach_type_and_params followed by get_approach_type_and_params on the
      fraction as is_convergence_fast has left it; nothing catches its exceptions here. Simplification: the printed text is left out. *)
  Definition filter_exp (est : contfrac -> res conv) (surp : bool) (target : option Q) (cs : list (click O)) : list (click O) * res unit :=
    match filterM (fun c => let* cf := ck_new target c in
                            let (cf1, r) := cf_is_fast rd 600 200 50 cf in
                            let* fast := r in
                            if fast : bool then Ok (Some c)
                            else if surp then let* _ := print_click c in let* _ := est cf1 in Ok None else Ok None) cs with
    | Ok l => (l, Ok tt)
    | Raise e => (cs, Raise e)
    end.

  (** python or library primitive, used at enum_params.py:386 *)
  Definition atype_eqb (a b : atype) : bool :=
    match a, b with
    | ATNone, ATNone | ATUndefined, ATUndefined | ATExp, ATExp | ATSuperExp, ATSuperExp | ATPoly, ATPoly
    | ATFast, ATFast | ATMixed, ATMixed => true
    | _, _ => false
    end.
  (** enum_params.py:367-370, 386 *)
  Definition given {A} (l : option (list A)) : bool := match l with Some (_ :: _) => true | _ => false end.
  (** enum_params.py:386 *)
  Definition listed (t : atype) (l : option (list atype)) : bool :=
    match l with Some l => existsb (atype_eqb t) l | None => false end.
  (** enum_params.py:362-389. [est] is estimate_approach_type_and_params followed by get_approach_type_and_params on a
      new fraction (see [cf_estimate]); the handler at line 380 catches every Exception, of which KeyboardInterrupt
      is none, and prints the click; an exception of the printing is not caught. *)
  Definition filter_approach (est : contfrac -> res conv) (target : option Q) (whitelist blacklist : option (list atype))
      (cs : list (click O)) : list (click O) * res unit :=
    if negb (given whitelist || given blacklist) then (cs, Raise ValueError)
    else if given whitelist && given blacklist then (cs, Raise ValueError)
    else
      match filterM (fun c : click O =>
               let* cf := ck_new target c in
               match est cf with
               | Raise KeyboardInterrupt => Raise KeyboardInterrupt
               | Raise _ => let* _ := print_click c in Ok None
               | Ok (t, p) =>
                   if (given whitelist && listed t whitelist) || (given blacklist && negb (listed t blacklist))
                   then Ok (Some (let '(ab, o, i, _) := c in (ab, o, i, Some (t, p))))
                   else Ok None
               end) cs with
      | Ok l => (l, Ok tt)
      | Raise e => (cs, Raise e)
      end.

  (** enum_params.py:484-499 with the default of 400 iterations *)
  Definition build_from_params (target : option Q) (iterations : Z) (c : click O) : res (contfrac * mpfv * O) :=
    let* cf := ck_new target c in
    match cf_gen0 rd iterations true cf with
    | (_, Raise e) => Raise e
    | (cf1, Ok _) =>
        let* f := py_nth funcs (ck_ind c) in
        let* v := f (cf_result cf1) in
        Ok (cf1, v, ck_obj c)
    end.
End Clicks.

(** ---- the object ---- *)
(** Classes of enumerators (enum_poly_params.py); indexed and sparse are derived from normal. [enum_poly_params.py:45, 198, 233] *)
Inductive pclass := PNormal | PIndexed | PSparse.
(** python or library primitive, used at enum_params.py:101 *)
Definition isinstance (c d : pclass) : bool :=
  match d, c with PNormal, _ => true | PIndexed, PIndexed => true | PSparse, PSparse => true | _, _ => false end.
(** An enumerator: its class and the special_params it was created with; the sparse class unpacks two of them
    (enum_poly_params.py:242). *)
Record enumer := { en_class : pclass; en_special : option (Z * Z) }.
(** enum_poly_params.py:50-81, 202-206, 235-248 *)
Definition enumer_new (c : pclass) (sp : option (Z * Z)) : res enumer :=
  match c, sp with
  | PSparse, None => Raise TypeError
  | _, _ => Ok {| en_class := c; en_special := sp |}
  end.

(** Attributes of a MITM object (enum_params.py:69-88). The texts and the latex table are left out. *)
Record mitm (O : Type) := {
  mi_enum : enumer; mi_iters : Z; mi_exp_only : bool;
  mi_target : Q; mi_name : text; mi_filter : list Z; mi_trunc : bool; mi_hprec : Z; mi_prec : Z;
  mi_table : mtable; mi_funcs : list (mpfv -> res mpfv); mi_params : list (click O) }.
Arguments mi_enum {O}. Arguments mi_iters {O}. Arguments mi_exp_only {O}. Arguments mi_target {O}. Arguments mi_name {O}.
Arguments mi_filter {O}. Arguments mi_trunc {O}. Arguments mi_hprec {O}. Arguments mi_prec {O}. Arguments mi_table {O}.
Arguments mi_funcs {O}. Arguments mi_params {O}.

(** The arguments common to the constructor and redefine_settings. [enum_params.py:37-41, 90-94] *)
Record msettings := {
  s_target : Q; s_name : text; s_filter : list Z; s_trunc : bool; s_hprec : Z; s_class : pclass;
  s_special : option (Z * Z); s_prec : Z; s_funcs : list (mpfv -> res mpfv) }.

Section Object.
  Context {O : Type}.
  (** enum_params.py:37-88 *)
  Definition mitm_new (exp_only : bool) (iters : Z) (s : msettings) : res (mitm O) :=
    let* en := enumer_new (s_class s) (s_special s) in
    Ok {| mi_enum := en; mi_iters := iters; mi_exp_only := exp_only; mi_target := s_target s; mi_name := s_name s;
          mi_filter := s_filter s; mi_trunc := s_trunc s; mi_hprec := s_hprec s; mi_prec := s_prec s;
          mi_table := ht_new (s_hprec s); mi_funcs := s_funcs s; mi_params := [] |}.
  (** enum_params.py:90-120. The working precision of mpmath (line 109), a global, is not part of the object;
      self.prec keeps its value. *)
  Definition mitm_redefine (s : msettings) (m : mitm O) : mitm O * res unit :=
    match (if isinstance (en_class (mi_enum m)) (s_class s) then Ok (mi_enum m) else enumer_new (s_class s) (s_special s)) with
    | Raise e => (m, Raise e)
    | Ok en =>
        ({| mi_enum := en; mi_iters := mi_iters m; mi_exp_only := mi_exp_only m; mi_target := s_target s;
            mi_name := s_name s; mi_filter := s_filter s; mi_trunc := s_trunc s; mi_hprec := s_hprec s;
            mi_prec := mi_prec m; mi_table := ht_update_accuracy (s_hprec s) (mi_table m); mi_funcs := s_funcs s;
            mi_params := [] |}, Ok tt)
    end.
  (** enum_params.py:395-398 *)
  Definition mitm_reset (m : mitm O) : mitm O :=
    {| mi_enum := mi_enum m; mi_iters := mi_iters m; mi_exp_only := mi_exp_only m; mi_target := mi_target m;
       mi_name := mi_name m; mi_filter := mi_filter m; mi_trunc := mi_trunc m; mi_hprec := mi_hprec m;
       mi_prec := mi_prec m; mi_table := ht_new (mi_hprec m); mi_funcs := mi_funcs m; mi_params := mi_params m |}.
  (** enum_params.py:83, 196 *)
  Definition with_table (m : mitm O) (t : mtable) : mitm O :=
    {| mi_enum := mi_enum m; mi_iters := mi_iters m; mi_exp_only := mi_exp_only m; mi_target := mi_target m;
       mi_name := mi_name m; mi_filter := mi_filter m; mi_trunc := mi_trunc m; mi_hprec := mi_hprec m;
       mi_prec := mi_prec m; mi_table := t; mi_funcs := mi_funcs m; mi_params := mi_params m |}.
  (** enum_params.py:231, 310, 328, 341, 360, 389 *)
  Definition with_params (m : mitm O) (cs : list (click O)) : mitm O :=
    {| mi_enum := mi_enum m; mi_iters := mi_iters m; mi_exp_only := mi_exp_only m; mi_target := mi_target m;
       mi_name := mi_name m; mi_filter := mi_filter m; mi_trunc := mi_trunc m; mi_hprec := mi_hprec m;
       mi_prec := mi_prec m; mi_table := mi_table m; mi_funcs := mi_funcs m; mi_params := cs |}.

  Variable rd : Q -> Q.
  Variable fsqrt : Z -> Q.
  Variable ibinom : Z -> Z -> Z.
  Variable mask_order : list (list (list Z)) -> list (list (list Z)).
  Variable order : abpair -> list setelt -> list setelt.

  (** enum_poly_params.py:187-189, 208-224, 250-266 *)
  Definition manip_of (en : enumer) : bool -> list (list Z) -> res (list (list (list Z))) :=
    match en_class en with
    | PNormal => Enum_Model.manip_normal
    | PIndexed => Enum_Model.manip_indexed ibinom
    | PSparse => let '(na, nb) := match en_special en with Some p => p | None => (0, 0) end in
                 Enum_Model.manip_sparse mask_order na nb
    end.
  (** The settings of the enumerator made at enum_params.py:69-72 or 102-107 (avoid_zero_b has no effect, as no
      fraction is generated). *)
  Definition enum_set (m : mitm O) : Enum_Model.enum_settings :=
    {| Enum_Model.e_iters := mi_iters m; Enum_Model.e_exp_only := mi_exp_only m; Enum_Model.e_avoid_roots := true;
       Enum_Model.e_gen_cf := false; Enum_Model.e_avoid_zero_b := true |}.
  (** enum_poly_params.py:142-144 *)
  Definition pair_of (i : Enum_Model.item) : abpair :=
    match i with Enum_Model.IPair a b => (a, b) | Enum_Model.ICF _ a b => (a, b) end.
  (** self.rhs_polys_enumer.polys_generator (enum_params.py:131); the length estimate of the sparse class may raise
      (enum_poly_params.py:244-245). [target] is the default target value of the ContFrac made there. *)
  Definition rhs_pairs (target : option Q) (m : mitm O) (range_a range_b : Enum_Model.prange) : res (list abpair * res unit) :=
    let* _ := match en_class (mi_enum m), en_special (mi_enum m) with
              | PSparse, Some (na, nb) => Enum_Model.sparse_factor ibinom na nb range_a range_b
              | _, _ => Ok 1
              end in
    let '(items, x) := Enum_Model.polys_generator rd fsqrt (enum_set m) (manip_of (mi_enum m)) target range_a range_b in
    Ok (map pair_of items, x).

  (** cont_fracs.eval_dec_contfrac_by_polys as it is called at enum_params.py:166 *)
  Definition cf_value (iters : Z) (ab : abpair) : res Q := eval_dec_contfrac_by_polys rd (Nested (fst ab)) (Nested (snd ab)) iters.

  (** enum_params.py:123-133 *)
  Definition build_hashtable (target : option Q) (range_a range_b : Enum_Model.prange) (validate : bool) (m : mitm O)
    : mitm O * res unit :=
    match rhs_pairs target m range_a range_b with
    | Raise e => (m, Raise e)
    | Ok gen =>
        let (t, x) := iter2hashtable rd (cf_value (mi_iters m)) (mi_funcs m) (mi_trunc m) order (mi_filter m) gen validate (mi_table m) in
        (with_table m t, x)
    end.

  (** enum_params.py:199-231: the enumerator class is given by what its generator yields for the target constant *)
  Definition find_clicks (eng : Q -> res text) (cls : lhs_class O) (enum : Q -> res (list O * res unit)) (m : mitm O)
    : mitm O * res unit :=
    match (let* gen := enum (mi_target m) in find_clicks_loop rd eng cls (mi_trunc m) (mi_table m) gen) with
    | Ok cs => (with_params m cs, Ok tt)
    | Raise e => (m, Raise e)
    end.
End Object.

(** Model of main.py (function main, lines 39-186) and of generate_latex (latex.py:5-17). No proofs.
    Printing and time measuring are left out. The result of a run is the new state of the disk and how main ends;
    [None] instead of an ending means that a setting of an unexpected type was reached, which is outside of the model. *)
From Coq Require Import Ascii String ZArith QArith List Bool.
From Verif Require Import PyBase Rnd ContFrac_Model Hashtable_Model ULCD_Model Rational_Model MITM_Model Results_Model Config_Model
  Consts_Model.
From Verif Require Enum_Model.
Import ListNotations.
Local Open Scope Z_scope.
Local Open Scope res_scope.
Local Open Scope list_scope.

(** ---- constant generators ---- *)
(** A value of consts_generators (main.py:58-65): a function of gen_consts, or functools.partial of one with an index. *)
Inductive cgen := CPlain (b : gbody) | CPart (b : gbody) (i : garg).
(** target_generator(): the working precision it leaves, and its outcome. [called at enum_params.py:210] *)
Definition call0 (g : cgen) (m : mpctx) : mpctx * res Q :=
  match g with CPlain b => call_gen b [] m | CPart b i => call_gen b [i] m end.

(** ---- the disk ---- *)
(** A stored MITM object: no clicks are stored by main (the list is empty when the object is dumped); the target
    generator is kept by name, its value is computed when it is called. [main.py:81, 114] *)
Record saved := { sv_mitm : mitm Empty_set; sv_gen : cgen }.
(** What the output files hold: the csv file (target name and rows), the LaTeX source (the equations), the PDF file, and
    the settings. [main.py:166, 172, 184] *)
Inductive outfile := OCsv (f : text * list csv_row) | OTex (eqns : list text) | OPdf | OConf (items : list (text * text)).
(** Paths are compared as texts. The directories that table files live in are taken to exist and to be writable. [main.py:80-81, 113-114] *)
Record world := { w_tables : list (text * saved); w_dirs : list text; w_files : list (text * outfile) }.
(** main.py:80-81, 113-114 *)
Definition write_table (p : text) (s : saved) (w : world) : world :=
  {| w_tables := d_set text_eqb (w_tables w) p s; w_dirs := w_dirs w; w_files := w_files w |}.
(** main.py:166, 172, 183-184 *)
Definition write_file (p : text) (f : outfile) (w : world) : world :=
  {| w_tables := w_tables w; w_dirs := w_dirs w; w_files := d_set text_eqb (w_files w) p f |}.
(** main.py:162 *)
Definition is_dir (p : text) (w : world) : bool := existsb (text_eqb p) (w_dirs w).
(** os.mkdir; FileExistsError is represented by RuntimeError. [python or library primitive, used at main.py:163-164] *)
Definition mkdir (p : text) (w : world) : world * res unit :=
  if is_dir p w then (w, Raise RuntimeError)
  else ({| w_tables := w_tables w; w_dirs := w_dirs w ++ [p]; w_files := w_files w |}, Ok tt).
(** open(directory + name, 'w') and writing; FileNotFoundError is represented by RuntimeError. [python or library primitive, used at main.py:166, 172, 183-184] *)
Definition write_in (d name : text) (f : outfile) (w : world) : world * res unit :=
  if is_dir d w then (write_file (d ++ txt "/" ++ name) f w, Ok tt) else (w, Raise RuntimeError).

(** The object of a run, seen as an object for left-hand sides of another type; it has no clicks. [main.py:119] *)
Definition retype {A B} (m : mitm A) : mitm B :=
  {| mi_enum := mi_enum m; mi_iters := mi_iters m; mi_exp_only := mi_exp_only m; mi_target := mi_target m;
     mi_name := mi_name m; mi_filter := mi_filter m; mi_trunc := mi_trunc m; mi_hprec := mi_hprec m;
     mi_prec := mi_prec m; mi_table := mi_table m; mi_funcs := mi_funcs m; mi_params := [] |}.
(** enum_params.py:210 *)
Definition with_target {A} (m : mitm A) (x : Q) : mitm A :=
  {| mi_enum := mi_enum m; mi_iters := mi_iters m; mi_exp_only := mi_exp_only m; mi_target := x;
     mi_name := mi_name m; mi_filter := mi_filter m; mi_trunc := mi_trunc m; mi_hprec := mi_hprec m;
     mi_prec := mi_prec m; mi_table := mi_table m; mi_funcs := mi_funcs m; mi_params := mi_params m |}.

(** ---- settings of the expected types ---- *)
(** main.py:87, 99, 123-124, 135-136, 145-146 *)
Definition as_int (v : cval) : option Z := match v with CInt z => Some z | _ => None end.
(** main.py:86, 108, 119 *)
Fixpoint all_some {A B} (f : A -> option B) (l : list A) : option (list B) :=
  match l with
  | [] => Some []
  | a :: r => match f a, all_some f r with Some b, Some bs => Some (b :: bs) | _, _ => None end
  end.
(** main.py:86, 108, 119 *)
Definition j_int (j : json) : option Z := match j with JInt z => Some z | _ => None end.
(** main.py:86, 108, 119 *)
Definition j_list {A} (f : json -> option A) (j : json) : option (list A) := match j with JList l => all_some f l | _ => None end.
(** main.py:86, 108, 119 *)
Definition j_pair (j : json) : option (Z * Z) := match j with JList [JInt a; JInt b] => Some (a, b) | _ => None end.
(** main.py:86, 96 *)
Definition as_ints (v : cval) : option (list Z) := match v with CList l => all_some j_int l | _ => None end.
(** main.py:108 *)
Definition as_ranges (v : cval) : option Enum_Model.prange := match v with CList l => all_some (j_list j_pair) l | _ => None end.
(** main.py:88, 98 *)
Definition as_special (v : cval) : option (option (Z * Z)) :=
  match v with CNone => Some None | CList [JInt a; JInt b] => Some (Some (a, b)) | _ => None end.
(** main.py:80, 113 *)
Definition as_path (v : cval) : option text := match v with CStr s => Some s | _ => None end.
(** lhs_params of the type ulcd: a range is an int or a list of ints. [lhs_evaluators.py:198-230] *)
Definition j_range (j : json) : option rarg :=
  match j with JInt n => Some (ULCD_Model.RInt n) | JList l => option_map ULCD_Model.RSeq (all_some j_int l) | _ => None end.
(** lhs_evaluators.py:198-230 *)
Definition as_ulcd (v : cval) : option (list rarg) := match v with CList l => all_some j_range l | _ => None end.
(** lhs_params of the type rationalfunc: p, q, force_bigger_numerator. [lhs_evaluators.py:518-519] *)
Definition as_rational (v : cval) : option (list (Z * Z) * list (Z * Z) * bool) :=
  match v with
  | CList [JList p; JList q; JBool f] =>
      match all_some j_pair p, all_some j_pair q with Some p, Some q => Some (p, q, f) | _, _ => None end
  | _ => None
  end.
(** The truth of the setting gen_hashtable_only (main.py:117-118): None, a boolean or a text *)
Definition truthy (v : cval) : bool :=
  match v with CNone => false | CBool b => b | CStr s => match s with [] => false | _ => true end | _ => true end.
(** The index of a constant (main.py:54-56) *)
Definition as_garg (v : cval) : option garg := match v with CNone => Some GNone | CInt z => Some (GInt z) | _ => None end.

(** ---- left-hand sides as main uses them ---- *)
(** renum_list, split: the objects yielded before the generator ends or raises (lhs_evaluators.py:525-557) *)
Section Yields.
  Variable kind : numkind.
  Variable rd : Q -> Q.
  (** lhs_evaluators.py:525-557 *)
  Fixpoint renum_yields (en : renum) (pqs : list (list Z * list Z)) : list rfun * res unit :=
    match pqs with
    | [] => ([], Ok tt)
    | (p, q) :: r =>
        match (if all_zero p then Ok None else renum_body kind rd en p q) with
        | Raise e => ([], Raise e)
        | Ok x => let (ys, e) := renum_yields en r in (match x with Some o => o :: ys | None => ys end, e)
        end
    end.
  (** lhs_enumerator = lhs_classes['enum'](lhs_enumerator_params, x); lhs_enumerator.generator() (enum_params.py:210-212) *)
  Definition rational_enum (p : list (Z * Z) * list (Z * Z) * bool) (x : Q) : res (list rfun * res unit) :=
    let '(num, den, force) := p in
    let* en := renum_new num den force x in
    Ok (renum_yields en (list_prod (product (ranges_of (re_num en))) (product (ranges_of (re_den en))))).
  (** The ULCD generator yields one object again and again; find_clicks does not change it (see MITM_Model). Its
      constructor is called when the first object is asked for. [lhs_evaluators.py:198-247; enum_params.py:210-212] *)
  Definition ulcd_enum (rs : list rarg) (x : Q) : res (list ulcd * res unit) :=
    let* en := uenum_new rs x in
    match ugen_list rd en with
    | Ok l => Ok (map (fun pv => mkUlcd (fst pv) x (snd pv)) l, Ok tt)
    | Raise e => Ok ([], Raise e)
    end.
End Yields.

(** ---- the run ---- *)
Section Main.
  (** The rest of the literals of pi and e (see Consts_Model). *)
  Variables pi_tail e_tail : text.
  (** Libraries and floats of the enumeration (see MITM_Model). *)
  Variable fsqrt : Z -> Q.
  Variable ibinom : Z -> Z -> Z.
  Variable mask_order : list (list (list Z)) -> list (list (list Z)).
  Variable order : abpair -> list setelt -> list setelt.
  Variable cf_target : option Q.
  (** Numbers: to_eng_string; whether is_normal exists; polynomial gcd; square roots. *)
  Variable eng : Q -> res text.
  Variable kind : numkind.
  Variable pgcd : list Z -> list Z -> list Z.
  Variable sq : Q -> Q.
  (** The convergence estimation, the number of iterations it asks for, dec('1E-%d' % (accuracy+100)), numpy.roots. *)
  Variable est : contfrac -> res conv.
  Variable req : Q -> Q * Q -> res Z.
  Variable acc10 : Z -> Q.
  Variable roots : list Z -> list (Q * Q).
  (** str() of the parameters of a left-hand side *)
  Variable upar : ulcd -> text.
  Variable rpar : rfun -> text.
  (** What the environment does: a keyboard interrupt in the last stage of refinement, the two readings of the clock
      (main.py:164-165), and the outcome of compiling the LaTeX source. An interrupt [(k, n)] arrives in the k-th step
      of that stage; in a refinement (k = 0), after n clicks. (Interrupts in the middle of the treatment of one click
      or at other times are not modelled.) *)
  Variable irq : option (nat * nat).
  Variables t1 t2 : text.
  Variable pdf : res unit.

  (** main.py:54-65; gen_consts.py:79-118. The dictionary lookup of gen_consts.py:62 succeeds. *)
  Definition apery_q : Q := match apery_const with Ok q => q | Raise _ => 0 end.
  (** main.py:54-65 *)
  Definition consts_generators (i : garg) : list (text * cgen) := map (fun '(k, g) => (txt k, g))
    [("e", CPlain (GConst (e_const e_tail))); ("pi", CPlain (GConst (pi_const pi_tail)));
     ("feig", CPart (GList feig_consts) i); ("euler_masch", CPlain (GConst euler_masch_const));
     ("percolation", CPart (GList percolation_consts) i); ("zeta", CPart (GDict zeta_consts) i);
     ("phi", CPlain (GConst phi_const)); ("apery", CPlain (GConst apery_q))]%string.
  (** main.py:66-75: the generator and the name. Lines 72-75 read a global variable i that does not exist. *)
  Definition choose_const (v : cval) (i : garg) : res (cgen * text) :=
    match v with
    | CStr s =>
        match d_get text_eqb (consts_generators i) s with
        | None => Raise ValueError
        | Some g => if text_eqb s (txt "feig") || text_eqb s (txt "percolation") then Raise NameError else Ok (g, s)
        end
    | _ => Raise ValueError
    end.

  (** main.py:20: DECIMAL_PREC *)
  Definition DECIMAL_PREC : Z := 50.
  (** The arguments of the constructor and of redefine_settings (main.py:85-102): the defaults for the others
      (enum_params.py:37-42, 90-94) are trunc_integer=True, enum_only_exp_conv=True. *)
  Definition settings_of (c : config) (name : text) (m : mpctx) : option msettings :=
    match as_ints (c_get c "postproc_funcs_filter"), as_int (c_get c "hashtable_precision"),
          c_get c "ab_polys_type", as_special (c_get c "ab_polys_special_params") with
    | Some flt, Some hp, CPoly cl, Some sp =>
        Some {| s_target := 0; s_name := name; s_filter := flt; s_trunc := true; s_hprec := hp; s_class := cl;
                s_special := sp; s_prec := DECIMAL_PREC;
                s_funcs := EVALUATED_POSTPROC_FUNCS (mpf_ops (rnd (mp_prec m)) sq) |}
    | _, _, _, _ => None
    end.
  (** pickle.load of a stored object: the table goes through __reduce__ and __setstate__. [main.py:80-81; decimal_hashtable.py:67-74] *)
  Definition unpickle (s : saved) : mitm Empty_set := with_table (sv_mitm s) (ht_unpickle (ht_reduce (mi_table (sv_mitm s)))).
  (** The functions of an object compute with the working precision of the moment, not the one of their creation. [main.py:89, 100] *)
  Definition with_funcs {A} (m : mitm A) (fs : list (mpfv -> res mpfv)) : mitm A :=
    {| mi_enum := mi_enum m; mi_iters := mi_iters m; mi_exp_only := mi_exp_only m; mi_target := mi_target m;
       mi_name := mi_name m; mi_filter := mi_filter m; mi_trunc := mi_trunc m; mi_hprec := mi_hprec m;
       mi_prec := mi_prec m; mi_table := mi_table m; mi_funcs := fs; mi_params := mi_params m |}.
  (** main.py:89, 100 *)
  Definition refresh {A} (m : mpctx) (x : mitm A) : mitm A :=
    with_funcs x (EVALUATED_POSTPROC_FUNCS (mpf_ops (rnd (mp_prec m)) sq)).

  (** main.py:79-106: the object, the precision and the generator in use. The operation was checked when the settings
      were read (configfile.py:52-54); an object whose file does not exist is a FileNotFoundError, and a file that holds no object an error of dill (both RuntimeError). *)
  Definition obtain (c : config) (g : cgen) (name : text) (m0 : mpctx) (w : world) : option (res (mpctx * cgen * mitm Empty_set)) :=
    match c_get c "hashtable_file_operation", as_path (c_get c "hashtable_file") with
    | CStr op, Some path =>
        if existsb (text_eqb op) [txt "use"; txt "expand"] then
          match d_get text_eqb (w_tables w) path with
          | None => Some (Raise RuntimeError)
          | Some s =>
              if text_eqb op (txt "expand") then
                let m := set_dps DECIMAL_PREC in
                match settings_of c name m with
                | None => None
                | Some st => Some (match mitm_redefine st (unpickle s) with
                                   | (x, Ok _) => Ok (m, g, x)
                                   | (_, Raise e) => Raise e
                                   end)
                end
              else Some (Ok (m0, sv_gen s, refresh m0 (unpickle s)))
          end
        else if text_eqb op (txt "generate") then
          let m := set_dps DECIMAL_PREC in
          match settings_of c name m, as_int (c_get c "hashtable_num_of_iterations") with
          | Some st, Some n => Some (let* x := mitm_new true n st in Ok (m, g, x))
          | _, _ => None
          end
        else Some (Raise ValueError)
    | _, _ => Some (Raise ValueError)
    end.

  (** main.py:107-116: build, store the settings in the table, write the file; the setting
      validate_hashtable_extend_no_replication is not passed on (default True). When the dump fails nothing is known of
      the file; this is not modelled. *)
  Definition extend (c : config) (m : mpctx) (g : cgen) (x : mitm Empty_set) (w : world)
    : world * option (res (mitm Empty_set)) :=
    match as_ranges (c_get c "a_coeffs_range"), as_ranges (c_get c "b_coeffs_range"), as_path (c_get c "hashtable_file") with
    | Some ra, Some rb, Some path =>
        match build_hashtable (rnd (mp_prec m)) fsqrt ibinom mask_order order cf_target ra rb true x with
        | (_, Raise e) => (w, Some (Raise e))
        | (x1, Ok _) =>
            match ht_set eng (UStr (txt "parameters")) (VOne TParams) (mi_table x1) with
            | (_, Raise e) => (w, Some (Raise e))
            | (t, Ok _) => let x2 := with_table x1 t in
                           (write_table path {| sv_mitm := x2; sv_gen := g |} w, Some (Ok x2))
            end
        end
    | _, _, _ => (w, None)
    end.

  Section Search.
    Context {O : Type}.
    Variable rd : Q -> Q.
    Variable cls : MITM_Model.lhs_class O.
    Variable lhs_latex : O -> text -> O * res text.
    Variable lhs_params : O -> text.
    Variable funcs : list (mpfv -> res mpfv).
    Variable trunc : bool.

    (** Steps on the click list, each of which may raise. [main.py:122-157] *)
    Definition step := list (click O) -> list (click O) * res unit.
    (** main.py:122-157 *)
    Definition seq_steps (ss : list step) : step := fun cs =>
      fold_left (fun s f => match s with (l, Ok _) => f l | (l, Raise e) => (l, Raise e) end) ss (cs, Ok tt).
    (** main.py:122-142. The calls of target_generator in the refinements (enum_params.py:271), whose value is not
        used, are left out: the generator has just worked in find_clicks and works again. [surp] is the setting given at line 131. *)
    Definition stages (surp : bool) (n1 a1 n2 a2 : Z) : step := seq_steps
      [refine rd eng cls funcs trunc (ev_const rd n1) a1; filter_uniq cls; filter_exp rd eng cls est surp cf_target;
       filter_approach eng cls est cf_target (Some [ATExp; ATSuperExp]) None;
       refine rd eng cls funcs trunc (ev_conv rd req acc10 cf_target n2) a2].
    (** A refinement that is interrupted after n clicks: the objects treated so far are changed, the list is not. [main.py:144-160] *)
    Definition refine_cut (ev : abpair -> Z -> option conv -> res mpfv) (a : Z) (n : nat) : step := fun cs =>
      match refine_loop rd eng cls funcs trunc ev a (firstn n cs) with
      | ((all, _), Ok _) => (all ++ skipn n cs, Raise KeyboardInterrupt)
      | ((all, _), Raise e) => (all ++ skipn n cs, Raise e)
      end.
    (** main.py:144-160 *)
    Definition cut : step := fun cs => (cs, Raise KeyboardInterrupt).
    (** main.py:144-160 *)
    Definition last_steps (n3 a3 : Z) : list step :=
      [refine rd eng cls funcs trunc (ev_conv rd req acc10 cf_target n3) a3; filter_uniq cls; filter_uniq cls;
       fun cs => (filter_pos_roots roots cs, Ok tt)].
    (** main.py:144-160 *)
    Definition last_stage (n3 a3 : Z) : step := fun cs =>
      match (match irq with
             | None => seq_steps (last_steps n3 a3)
             | Some (0%nat, n) => refine_cut (ev_conv rd req acc10 cf_target n3) a3 n
             | Some (k, _) => seq_steps (firstn k (last_steps n3 a3) ++ [cut])
             end) cs with
      | (l, Raise KeyboardInterrupt) => (l, Ok tt)
      | r => r
      end.

    (** main.py:162-186 and latex.py:5-17 (the LaTeX source is written before it is compiled and stays). *)
    Definition results_dir : text := txt "results".
    (** main.py:162-186 *)
    Definition export (c : config) (name : text) (cs : list (click O)) (w : world) : world * res unit :=
      let w := if is_dir results_dir w then w else fst (mkdir results_dir w) in
      match mkdir (results_dir ++ txt "/" ++ t1) w with
      | (w, Raise e) => (w, Raise e)
      | (w, Ok _) =>
          let d := results_dir ++ txt "/" ++ t2 in
          match export_to_csv rd funcs cf_target (engv eng) (lc_val cls) lhs_params name cs with
          | Raise e => (w, Raise e)
          | Ok f =>
              match write_in d (txt "results.csv") (OCsv f) w with
              | (w, Raise e) => (w, Raise e)
              | (w, Ok _) =>
                  match results_as_eqns rd lhs_latex funcs cf_target POSTPROC_FUNCS_LATEX name POSTPROC_FUNCS true 5 cs with
                  | (_, Raise e) => (w, Raise e)
                  | (_, Ok eqns) =>
                      let w := fst (write_in d (txt "results.tex") (OTex eqns) w) in
                      match pdf with
                      | Raise e => (w, Raise e)
                      | Ok _ =>
                          let w := fst (write_in d (txt "results.pdf") OPdf w) in
                          match save c with
                          | Raise e => (w, Raise e)
                          | Ok items => write_in d (txt "config.ini") (OConf items) w
                          end
                      end
                  end
              end
          end
      end.

    (** main.py:119-186 after target_generator() has given [x] *)
    Definition search (enum : Q -> res (list O * res unit)) (c : config) (x : Q) (s : mitm Empty_set) (w : world)
      : world * option (res unit) :=
      match find_clicks rd eng cls enum (with_target (retype s) x) with
      | (_, Raise e) => (w, Some (Raise e))
      | (s1, Ok _) =>
          match as_int (c_get c "first_filtering_num_of_iterations"), as_int (c_get c "first_filtering_precision"),
                as_int (c_get c "second_filtering_max_num_of_iterations"), as_int (c_get c "second_filtering_precision"),
                as_int (c_get c "third_filtering_max_num_of_iterations"), as_int (c_get c "third_filtering_precision") with
          | Some n1, Some a1, Some n2, Some a2, Some n3, Some a3 =>
              match stages (truthy (c_get c "print_surprising_nonexp_contfracs")) n1 a1 n2 a2 (mi_params s1) with
              | (_, Raise e) => (w, Some (Raise e))
              | (cs, Ok _) =>
                  match last_stage n3 a3 cs with
                  | (_, Raise e) => (w, Some (Raise e))
                  | (cs, Ok _) => let (w', r) := export c (mi_name s1) cs w in (w', Some r)
                  end
              end
          | _, _, _, _, _, _ => (w, None)
          end
      end.
  End Search.

  (** main.py:119: the type of the left-hand side (looking up 'enum' in None is a TypeError), then the constant, then
      its parameters. *)
  Definition find_and_export (c : config) (m : mpctx) (g : cgen) (x : mitm Empty_set) (w : world) : world * option (res unit) :=
    match c_get c "lhs_type" with
    | CLhs name =>
        match call0 g m with
        | (_, Raise e) => (w, Some (Raise e))
        | (m1, Ok v) =>
            let rd := rnd (mp_prec m1) in
            if text_eqb name (txt "ulcd") then
              match as_ulcd (c_get c "lhs_params") with
              | Some rs => search rd (ulcd_class rd) (fun o n => (o, Ok (ulcd_latex (ul_params o) n))) upar (mi_funcs x) (mi_trunc x)
                             (ulcd_enum rd rs) c v x w
              | None => (w, None)
              end
            else
              match as_rational (c_get c "lhs_params"), INVERSE_POSTPROC_PAIRS with
              | Some p, Ok inv => search rd (rat_class kind rd pgcd inv) (rf_latex kind rd pgcd) rpar (mi_funcs x) (mi_trunc x)
                                    (rational_enum kind rd p) c v x w
              | _, _ => (w, None)
              end
        end
    | CNone => (w, Some (Raise TypeError))
    | _ => (w, None)
    end.

  (** main.py:49-53: every known setting must be there *)
  Definition has_all (c : config) : bool := forallb (d_mem text_eqb c) (map fst CONFIG_PARAMS_TYPES).
  (** The body of main after get_config (main.py:49-186); [m0] is the precision before it. *)
  Definition main_with (c : config) (m0 : mpctx) (w : world) : world * option (res unit) :=
    if negb (has_all c) then (w, Some (Raise KeyError))
    else
      match as_garg (c_get c "i") with
      | None => (w, None)
      | Some i =>
          match choose_const (c_get c "const") i with
          | Raise e => (w, Some (Raise e))
          | Ok (g, name) =>
              match obtain c g name m0 w with
              | None => (w, None)
              | Some (Raise e) => (w, Some (Raise e))
              | Some (Ok (m, g1, x)) =>
                  match (if match c_get c "hashtable_file_operation" with CStr op => text_eqb op (txt "use") | _ => false end
                         then (w, Some (Ok x)) else extend c m g1 x w) with
                  | (w1, None) => (w1, None)
                  | (w1, Some (Raise e)) => (w1, Some (Raise e))
                  | (w1, Some (Ok x1)) =>
                      if truthy (c_get c "gen_hashtable_only") then (w1, Some (Ok tt))
                      else find_and_export c m g1 x1 w1
                  end
              end
          end
      end.
  (** main(config_file) in a new process (main.py:39-186): importing gen_consts has set the precision. *)
  Definition main (listdir : text -> list text) (file : option (list (text * text))) (w : world) : world * option (res unit) :=
    match load listdir file with
    | Raise e => (w, Some (Raise e))
    | Ok c => main_with c import_ctx w
    end.
End Main.

(** Everything that main does not determine itself (see the section above), in one record. [main.py:39-186] *)
Record env := {
  v_pi : text; v_e : text; v_fsqrt : Z -> Q; v_ibinom : Z -> Z -> Z; v_masks : list (list (list Z)) -> list (list (list Z));
  v_order : abpair -> list setelt -> list setelt; v_target : option Q; v_eng : Q -> res text; v_kind : numkind;
  v_pgcd : list Z -> list Z -> list Z; v_sq : Q -> Q; v_est : contfrac -> res conv; v_req : Q -> Q * Q -> res Z;
  v_acc10 : Z -> Q; v_roots : list Z -> list (Q * Q); v_upar : ulcd -> text; v_rpar : rfun -> text;
  v_irq : option (nat * nat); v_t1 : text; v_t2 : text; v_pdf : res unit }.
(** main.py:49-186 and 39-186 *)
Definition run_with (v : env) (c : config) (m0 : mpctx) (w : world) : world * option (res unit) :=
  main_with (v_pi v) (v_e v) (v_fsqrt v) (v_ibinom v) (v_masks v) (v_order v) (v_target v) (v_eng v) (v_kind v) (v_pgcd v)
    (v_sq v) (v_est v) (v_req v) (v_acc10 v) (v_roots v) (v_upar v) (v_rpar v) (v_irq v) (v_t1 v) (v_t2 v) (v_pdf v) c m0 w.
(** main.py:39-186 *)
Definition run (v : env) (listdir : text -> list text) (file : option (list (text * text))) (w : world) : world * option (res unit) :=
  main (v_pi v) (v_e v) (v_fsqrt v) (v_ibinom v) (v_masks v) (v_order v) (v_target v) (v_eng v) (v_kind v) (v_pgcd v)
    (v_sq v) (v_est v) (v_req v) (v_acc10 v) (v_roots v) (v_upar v) (v_rpar v) (v_irq v) (v_t1 v) (v_t2 v) (v_pdf v) listdir file w.

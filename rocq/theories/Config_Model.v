(** Model of configfile.py. The ini syntax itself (sections, comments, interpolation of percent signs, the stripping of
    values) belongs to the standard library's configparser; Ini_Model has it. Here a configuration file is the list of its
    (key, value) pairs, in file order, with texts free of percent signs and of surrounding blanks. No proofs. *)
From Coq Require Import Ascii String ZArith List Bool.
From Verif Require Import PyBase Hashtable_Model MITM_Model Results_Model.
Import ListNotations.
Local Open Scope Z_scope.
Local Open Scope res_scope.
Local Open Scope list_scope.

(** ---- texts ---- *)
(** str.lower, for ASCII. [python or library primitive, used at configfile.py:68, 127-134, 139-141] *)
Definition lower_char (c : ascii) : ascii :=
  let n := nat_of_ascii c in if (Nat.leb 65 n) && (Nat.leb n 90) then ascii_of_nat (n + 32) else c.
(** python or library primitive, used at configfile.py:68, 127-134, 139-141 *)
Definition lower (s : text) : text := map lower_char s.
(** str.isspace of an ASCII character. [python or library primitive, used at configfile.py:68, 126] *)
Definition is_blank (c : ascii) : bool :=
  let n := nat_of_ascii c in (Nat.leb 28 n && Nat.leb n 32) || (Nat.leb 9 n && Nat.leb n 13).
(** str.strip. [python or library primitive, used at configfile.py:68, 126] *)
Fixpoint lstrip (s : text) : text := match s with c :: r => if is_blank c then lstrip r else s | [] => [] end.
(** python or library primitive, used at configfile.py:68, 126 *)
Definition strip (s : text) : text := rev (lstrip (rev (lstrip s))).
(** int(s) of a text: blanks around, a sign, digits. Underscores between digits are not modelled (ValueError). [python or library primitive, used at configfile.py:108, 217, 221-228] *)
Definition py_int (s : text) : res Z :=
  let go (neg : bool) (t : text) :=
    match t with
    | [] => Raise ValueError
    | _ => match digits_val t 0 with Some n => Ok (if neg then - n else n) | None => Raise ValueError end
    end in
  match strip s with
  | c :: r => if char_eqb c "-"%char then go true r else if char_eqb c "+"%char then go false r else go false (c :: r)
  | [] => Raise ValueError
  end.

(** ---- regular expressions: the fragment that is used (module re) ---- *)
(** Character classes under the greedy + and the lazy *?; an optional group; groups; the end of the text. [python or library primitive, used at configfile.py:89, 93, 97-98, 104] *)
Inductive rx :=
| RChr (p : ascii -> bool)
| RPlus (p : ascii -> bool)
| RStarLazy (p : ascii -> bool)
| ROpt (r : rx)
| RSeq (r1 r2 : rx)
| RGroup (n : nat) (r : rx)
| REnd
| REmpty.
(** python or library primitive, used at configfile.py:89, 93, 97-98, 104 *)
Definition caps := list (nat * text).
(** Backtracking in the order of the re module: greedy repetitions give back one character at a time, lazy ones take one
    more at a time, an optional group is tried first with and then without. *)
Section Match.
  Context {X : Type}.
  (** python or library primitive, used at configfile.py:89, 93, 97-98, 104 *)
  Fixpoint star_g (p : ascii -> bool) (s : text) (k : text -> option X) : option X :=
    match s with
    | [] => k []
    | c :: r => if p c then match star_g p r k with Some x => Some x | None => k s end else k s
    end.
  (** python or library primitive, used at configfile.py:89, 93, 97-98, 104 *)
  Fixpoint star_l (p : ascii -> bool) (s : text) (k : text -> option X) : option X :=
    match k s with
    | Some x => Some x
    | None => match s with [] => None | c :: r => if p c then star_l p r k else None end
    end.
  (** python or library primitive, used at configfile.py:89, 93, 97-98, 104 *)
  Fixpoint rx_m (r : rx) (s : text) (cs : caps) (k : text -> caps -> option X) : option X :=
    match r with
    | RChr p => match s with c :: s' => if p c then k s' cs else None | [] => None end
    | RPlus p => match s with c :: s' => if p c then star_g p s' (fun t => k t cs) else None | [] => None end
    | RStarLazy p => star_l p s (fun t => k t cs)
    | ROpt r1 => match rx_m r1 s cs k with Some x => Some x | None => k s cs end
    | RSeq r1 r2 => rx_m r1 s cs (fun t cs' => rx_m r2 t cs' k)
    | RGroup n r1 => rx_m r1 s cs (fun t cs' => k t ((n, firstn (length s - length t) s) :: cs'))
    | REnd => match s with [] => k s cs | [c] => if Nat.eqb (nat_of_ascii c) 10 then k s cs else None | _ => None end
    | REmpty => k s cs
    end.
End Match.
(** re.match: the groups, and what is left of the text. [python or library primitive, used at configfile.py:89, 93, 98] *)
Definition re_match (r : rx) (s : text) : option (caps * text) := rx_m r s [] (fun t cs => Some (cs, t)).
(** The first match when the text is scanned from the left (re.findall, re.split): what precedes it, and its groups. [python or library primitive, used at configfile.py:97, 104] *)
Fixpoint re_search (r : rx) (s : text) : option (text * caps) :=
  match re_match r s with
  | Some (cs, _) => Some ([], cs)
  | None => match s with [] => None | c :: s' => match re_search r s' with Some (pre, cs) => Some (c :: pre, cs) | None => None end end
  end.
(** A group that took no part is the empty text in the results of findall. [python or library primitive, used at configfile.py:104] *)
Definition group (n : nat) (cs : caps) : text := match d_get Nat.eqb cs n with Some t => t | None => [] end.

(** python or library primitive, used at configfile.py:89, 93, 97-98, 104 *)
Definition any_char (c : ascii) : bool := negb (Nat.eqb (nat_of_ascii c) 10).
(** python or library primitive, used at configfile.py:89, 93, 97-98, 104 *)
Definition lit (c : ascii) : rx := RChr (char_eqb c).
(** python or library primitive, used at configfile.py:89, 93, 97-98, 104 *)
Fixpoint lits (s : text) : rx := match s with [] => REmpty | c :: r => RSeq (lit c) (lits r) end.
(** python or library primitive, used at configfile.py:89, 93, 97-98, 104 *)
Definition digit_or_dot (c : ascii) : bool := is_digit c || char_eqb c "."%char.
(** The texts that mean themselves in a pattern, except that a dot means any character. Other special characters in a
    file name are not modelled: [None]. [python or library primitive, used at configfile.py:98] *)
Definition special (c : ascii) : bool := existsb (char_eqb c) (txt "\^$*+?{}[]|()").
(** python or library primitive, used at configfile.py:98 *)
Fixpoint rx_of_name (s : text) : option rx :=
  match s with
  | [] => Some REmpty
  | c :: r => if special c then None
              else match rx_of_name r with
                   | Some x => Some (RSeq (if char_eqb c "."%char then RChr any_char else lit c) x)
                   | None => None
                   end
  end.
(** '(.*?)(\.pkl)' (configfile.py:89) *)
Definition rx_pkl : rx := RSeq (RGroup 1 (RStarLazy any_char)) (RGroup 2 (lits (txt ".pkl"))).
(** '(.*?)(_v[0-9]+)(\.pkl)' (configfile.py:93) *)
Definition rx_version : rx :=
  RSeq (RGroup 1 (RStarLazy any_char)) (RSeq (RGroup 2 (RSeq (lits (txt "_v")) (RPlus is_digit))) (RGroup 3 (lits (txt ".pkl")))).
(** '_v[0-9]+\.pkl$' (configfile.py:97) *)
Definition rx_tail : rx := RSeq (lits (txt "_v")) (RSeq (RPlus is_digit) (RSeq (lits (txt ".pkl")) REnd)).
(** '(%s)(_v[0-9.]+)?(\.pkl)' (configfile.py:98) *)
Definition rx_old (name : rx) : rx :=
  RSeq (RGroup 1 name) (RSeq (ROpt (RGroup 2 (RSeq (lits (txt "_v")) (RPlus digit_or_dot)))) (RGroup 3 (lits (txt ".pkl")))).
(** '(.*?)(_v[0-9.]+)?(\.pkl)' (configfile.py:104) *)
Definition rx_last : rx := rx_old (RStarLazy any_char).

(** ---- paths (posixpath) ---- *)
(** The part of a path after its last slash, and what comes before (with the slash). [python or library primitive, used at configfile.py:82] *)
Fixpoint cut_slash (rs : text) (acc : text) : text * text :=
  match rs with
  | [] => ([], acc)
  | c :: r => if char_eqb c "/"%char then (rev rs, acc) else cut_slash r (c :: acc)
  end.
(** python or library primitive, used at configfile.py:82 *)
Fixpoint rstrip_slash_rev (rs : text) : text :=
  match rs with c :: r => if char_eqb c "/"%char then rstrip_slash_rev r else rs | [] => [] end.
(** os.path.split. [python or library primitive, used at configfile.py:82] *)
Definition path_split (p : text) : text * text :=
  let (h, t) := cut_slash (rev p) [] in
  (match rstrip_slash_rev (rev h) with [] => h | rs => rev rs end, t).
(** os.path.join of a non-empty directory and a name without slashes. [python or library primitive, used at configfile.py:101, 112] *)
Definition path_join (d f : text) : text :=
  match rev d with c :: _ => if char_eqb c "/"%char then d ++ f else d ++ txt "/" ++ f | [] => f end.

(** Comparison of texts by character codes; list.sort. [python or library primitive, used at configfile.py:99] *)
Fixpoint text_leb (a b : text) : bool :=
  match a, b with
  | [], _ => true
  | _ :: _, [] => false
  | x :: a', y :: b' =>
      let m := nat_of_ascii x in let n := nat_of_ascii y in
      if Nat.ltb m n then true else if Nat.ltb n m then false else text_leb a' b'
  end.
(** python or library primitive, used at configfile.py:99 *)
Fixpoint ins_text (x : text) (l : list text) : list text :=
  match l with [] => [x] | y :: r => if text_leb x y then x :: l else y :: ins_text x r end.
(** python or library primitive, used at configfile.py:99 *)
Definition sort_texts (l : list text) : list text := fold_right ins_text [] l.

(** ---- file versions (configfile.py:78-112) ---- *)
(** Lines 89-94: the extension and the default version. [configfile.py:88-94] *)
Definition full_name (filename : text) : text :=
  let f1 := match re_match rx_pkl filename with Some _ => filename | None => filename ++ txt ".pkl" end in
  match re_match rx_version f1 with
  | Some _ => f1
  | None => py_take (-4) f1 ++ txt "_v1.pkl"
  end.
(** Line 97. [configfile.py:97] *)
Definition stripped (filename : text) : text :=
  match re_search rx_tail filename with Some (pre, _) => pre | None => filename end.
(** Lines 98-99. [configfile.py:98-99] *)
Definition old_versions (pat : rx) (listing : list text) : list text :=
  sort_texts (filter (fun fn => match re_match (rx_old pat) fn with Some _ => true | None => false end) listing).
(** Lines 103-109: the name of a new version, from the last old one. [configfile.py:104-109] *)
Definition next_version (last_old : text) : res text :=
  match re_search rx_last last_old with
  | None => Raise IndexError
  | Some (_, cs) =>
      let v := group 2 cs in
      let v := match v with _ :: _ :: r => r | _ => [] end in  (* v.replace('_v', ''): v is '_v' and digits or dots *)
      let* n := match v with [] => Ok 0 | _ => py_int v end in
      Ok (group 1 cs ++ txt "_v" ++ z_text (n + 1) ++ txt ".pkl")
  end.
(** The whole function: the new value of the setting hashtable_file. [listdir] gives the names in a directory.
    A name with special characters other than a dot is outside of the model: RuntimeError stands for it. [configfile.py:78-112] *)
Definition gen_hashtable_filename (listdir : text -> list text) (generate : bool) (path : text) : res text :=
  let (d, filename) := path_split path in
  let dir := match d with [] => txt "." | _ => d end in
  match filename with
  | [] => Ok path
  | _ =>
      let f := full_name filename in
      match rx_of_name (stripped f) with
      | None => Raise RuntimeError
      | Some pat =>
          match rev (old_versions pat (listdir dir)) with
          | [] => Ok (path_join dir f)
          | last_old :: _ =>
              let* g := if generate then next_version last_old else Ok last_old in
              Ok (path_join dir g)
          end
      end
  end.

(** ---- json.loads: the fragment of null, booleans, integers, texts without escapes, and lists ---- *)
(** python or library primitive, used at configfile.py:208, 212-216 *)
Inductive json := JNull | JBool (b : bool) | JInt (z : Z) | JStr (s : text) | JList (l : list json).
(** python or library primitive, used at configfile.py:208, 212-216 *)
Definition j_blank (c : ascii) : bool := existsb (Nat.eqb (nat_of_ascii c)) [32; 9; 10; 13]%nat.
(** python or library primitive, used at configfile.py:208, 212-216 *)
Fixpoint jws (s : text) : text := match s with c :: r => if j_blank c then jws r else s | [] => [] end.
(** python or library primitive, used at configfile.py:208, 212-216 *)
Fixpoint strip_prefix (p s : text) : option text :=
  match p, s with
  | [], _ => Some s
  | a :: p', b :: s' => if char_eqb a b then strip_prefix p' s' else None
  | _ :: _, [] => None
  end.
(** The rest of a text after its opening quote. A backslash (an escape) is not modelled; a control character is an
    error. [python or library primitive, used at configfile.py:208, 212-216] *)
Fixpoint jstr (s acc : text) : option (text * text) :=
  match s with
  | [] => None
  | c :: r => if char_eqb c """"%char then Some (rev acc, r)
              else if char_eqb c "\"%char || Nat.ltb (nat_of_ascii c) 32 then None
              else jstr r (c :: acc)
  end.
(** python or library primitive, used at configfile.py:208, 212-216 *)
Fixpoint span_digits (s : text) : text * text :=
  match s with
  | c :: r => if is_digit c then let (a, b) := span_digits r in (c :: a, b) else ([], s)
  | [] => ([], [])
  end.
(** An integer: no leading zeros. A number with a fraction or an exponent is not modelled. [python or library primitive, used at configfile.py:208, 212-216] *)
Definition jnat (s : text) : option (Z * text) :=
  match s with
  | c :: r =>
      let (ds, rest) := if char_eqb c "0"%char then ([c], r) else span_digits s in
      match ds, digits_val ds 0 with
      | _ :: _, Some n => match rest with
                          | d :: _ => if existsb (char_eqb d) (txt ".eE") then None else Some (n, rest)
                          | [] => Some (n, rest)
                          end
      | _, _ => None
      end
  | [] => None
  end.
(** python or library primitive, used at configfile.py:208, 212-216 *)
Definition jnum (s : text) : option (json * text) :=
  match s with
  | c :: r => if char_eqb c "-"%char then match jnat r with Some (n, t) => Some (JInt (- n), t) | None => None end
              else match jnat s with Some (n, t) => Some (JInt n, t) | None => None end
  | [] => None
  end.
(** python or library primitive, used at configfile.py:208, 212-216 *)
Fixpoint jv (fuel : nat) (s : text) : option (json * text) :=
  match fuel with
  | O => None
  | S k =>
      match s with
      | [] => None
      | c :: r =>
          if char_eqb c "["%char then
            match jws r with
            | d :: r' => if char_eqb d "]"%char then Some (JList [], r') else jl k (d :: r') []
            | [] => None
            end
          else if char_eqb c """"%char then match jstr r [] with Some (t, r') => Some (JStr t, r') | None => None end
          else match strip_prefix (txt "null") s, strip_prefix (txt "true") s, strip_prefix (txt "false") s with
               | Some t, _, _ => Some (JNull, t)
               | _, Some t, _ => Some (JBool true, t)
               | _, _, Some t => Some (JBool false, t)
               | _, _, _ => jnum s
               end
      end
  end
with jl (fuel : nat) (s : text) (acc : list json) : option (json * text) :=
  match fuel with
  | O => None
  | S k =>
      match jv k s with
      | None => None
      | Some (v, t) =>
          match jws t with
          | d :: r => if char_eqb d ","%char then jl k (jws r) (v :: acc)
                      else if char_eqb d "]"%char then Some (JList (rev (v :: acc)), r)
                      else None
          | [] => None
          end
      end
  end.
(** JSONDecodeError is a ValueError. [python or library primitive, used at configfile.py:208, 212-216] *)
Definition json_loads (s : text) : res json :=
  match jv (2 * length s + 2) (jws s) with
  | Some (v, t) => match jws t with [] => Ok v | _ => Raise ValueError end
  | None => Raise ValueError
  end.

(** ---- values of settings ---- *)
(** the values in the dictionary of configfile.py:31, 43, 46 *)
Inductive cval :=
| CNone | CBool (b : bool) | CInt (z : Z) | CStr (s : text) | CList (l : list json)
| CPoly (p : pclass)      (* a class of AB_POLYS_TYPES *)
| CLhs (name : text).     (* the dictionary LHS_TYPES[name] of two classes *)

(** configfile.py:123-134 *)
Definition string_parser (s : text) : cval :=
  let s := lower (strip s) in
  if text_eqb s (txt "none") then CNone
  else if text_eqb s (txt "false") then CBool false
  else if text_eqb s (txt "true") then CBool true
  else CStr s.
(** configfile.py:136-144 *)
Definition bool_parser (s : text) : res cval :=
  if text_eqb (lower s) (txt "false") then Ok (CBool false)
  else if text_eqb (lower s) (txt "true") then Ok (CBool true)
  else Raise ValueError.
(** configfile.py:146-149; os.path.sep is '/', so the replacement changes nothing. None and booleans have no replace. *)
Definition path_parser (s : text) : res cval :=
  match string_parser s with CStr t => Ok (CStr t) | _ => Raise AttributeError end.
(** AB_POLYS_TYPES (enum_poly_params.py:280-300): the names are the str of the classes (lines 41-42, 194-195, 229-230) *)
Definition AB_POLYS_TYPES : list (text * pclass) := [(txt "normal", PNormal); (txt "indexed", PIndexed); (txt "sparse", PSparse)].
(** configfile.py:151-157. None, True and False are not names of polynomial types. *)
Definition poly_type_parser (s : text) : res cval :=
  match string_parser s with
  | CStr t => match d_get text_eqb AB_POLYS_TYPES t with Some p => Ok (CPoly p) | None => Raise ValueError end
  | _ => Raise ValueError
  end.
(** The keys of LHS_TYPES (lhs_evaluators.py:560-582, 94-95, 252-253) *)
Definition LHS_TYPES : list text := [txt "rationalfunc"; txt "ulcd"].
(** configfile.py:159-166 *)
Definition lhs_type_parser (s : text) : res cval :=
  match string_parser s with
  | CStr t => if existsb (text_eqb t) LHS_TYPES then Ok (CLhs t) else Raise ValueError
  | _ => Raise ValueError
  end.
(** configfile.py:208, 212-213, 215-216 *)
Definition json_val (j : json) : cval :=
  match j with JNull => CNone | JBool b => CBool b | JInt z => CInt z | JStr s => CStr s | JList l => CList l end.
(** configfile.py:208, 212-213, 215-216 *)
Definition json_parser (s : text) : res cval := let* j := json_loads s in Ok (json_val j).
(** configfile.py:217, 221-228 *)
Definition int_parser (s : text) : res cval := let* z := py_int s in Ok (CInt z).
(** configfile.py:206, 210, 218 *)
Definition str_parser (s : text) : res cval := Ok (string_parser s).
(** configfile.py:206-229 *)
Definition CONFIG_PARAMS_TYPES : list (text * (text -> res cval)) := map (fun '(k, f) => (txt k, f))
  [("const", str_parser); ("ab_polys_type", poly_type_parser); ("ab_polys_special_params", json_parser);
   ("print_surprising_nonexp_contfracs", bool_parser); ("gen_hashtable_only", str_parser);
   ("a_coeffs_range", json_parser); ("b_coeffs_range", json_parser); ("lhs_type", lhs_type_parser);
   ("lhs_params", json_parser); ("postproc_funcs_filter", json_parser); ("i", int_parser);
   ("hashtable_file_operation", str_parser); ("validate_hashtable_extend_no_replication", bool_parser);
   ("hashtable_file", path_parser); ("hashtable_num_of_iterations", int_parser); ("hashtable_precision", int_parser);
   ("first_filtering_num_of_iterations", int_parser); ("first_filtering_precision", int_parser);
   ("second_filtering_max_num_of_iterations", int_parser); ("second_filtering_precision", int_parser);
   ("third_filtering_max_num_of_iterations", int_parser); ("third_filtering_precision", int_parser);
   ("is_test", bool_parser)]%string.
(** configfile.py:63-76, 168-188. What an unknown setting becomes is not modelled beyond its text: nothing reads it, and
    its conversion never raises. *)
Definition cast_param_val (key val : text) : res cval :=
  match d_get text_eqb CONFIG_PARAMS_TYPES key with
  | Some parse => if text_eqb (strip (lower val)) (txt "none") then Ok CNone else parse val
  | None => Ok (string_parser val)
  end.
(** configfile.py:31 *)
Definition config := list (text * cval).
(** python or library primitive, used at configfile.py:53-61, 81-82, 117-118 *)
Definition c_get (c : config) (k : string) : cval := match d_get text_eqb c (txt k) with Some v => v | None => CNone end.
(** configfile.py:114-121. Any iterable of names will do; an element that is not a name of the list is a ValueError
    (list.index), which the handler for KeyError does not catch. Iterating over None is a TypeError, and so is
    iterating over a number; a text is iterated by character. *)
Definition json_index (j : json) : res Z :=
  match j with JStr s => list_index s POSTPROC_FUNCS 0 | _ => Raise ValueError end.
(** configfile.py:114-121 *)
Definition gen_postproc_filter (v : cval) : res cval :=
  match v with
  | CList l => let* is := mapM json_index l in Ok (CList (map JInt is))
  | CStr s => let* is := mapM (fun c => list_index [c] POSTPROC_FUNCS 0) s in Ok (CList (map JInt is))
  | _ => Raise TypeError
  end.
(** configfile.py:41-43: the settings in the file; a later value of the same setting replaces an earlier one *)
Definition cast_all (items : list (text * text)) (c : config) : res config :=
  foldM (fun c '(k, v) => let* x := cast_param_val k v in Ok (d_set text_eqb c k x)) items c.
(** configfile.py:45-46: None for the settings that the file does not give *)
Definition fill (c : config) : config :=
  fold_left (fun c k => if d_mem text_eqb c k then c else d_set text_eqb c k CNone) (map fst CONFIG_PARAMS_TYPES) c.
(** configfile.py:78-112 called from 48. A hashtable_file that is None: os.path.split raises TypeError. *)
Definition set_hashtable_file (listdir : text -> list text) (c : config) : res config :=
  let generate := match c_get c "hashtable_file_operation" with CStr s => text_eqb s (txt "generate") | _ => false end in
  let* hf := match c_get c "hashtable_file" with
             | CStr p => gen_hashtable_filename listdir generate p
             | _ => Raise TypeError
             end in
  Ok (d_set text_eqb c (txt "hashtable_file") (CStr hf)).
(** configfile.py:114-121 called from 50 *)
Definition set_postproc (c : config) : res config :=
  let* pf := gen_postproc_filter (c_get c "postproc_funcs_filter") in
  Ok (d_set text_eqb (d_set text_eqb c (txt "postproc_funcs_filter_textual") (c_get c "postproc_funcs_filter")) (txt "postproc_funcs_filter") pf).
(** configfile.py:52-61: the check of the operation, and 'auto' *)
Definition check_operation (c : config) : res config :=
  match c_get c "hashtable_file_operation" with
  | CStr op =>
      if existsb (text_eqb op) [txt "generate"; txt "expand"; txt "use"] then
        match c_get c "gen_hashtable_only" with
        | CStr s => if text_eqb s (txt "auto")
                    then Ok (d_set text_eqb c (txt "gen_hashtable_only") (CBool (negb (text_eqb op (txt "use")))))
                    else Ok c
        | _ => Ok c
        end
      else Raise ValueError
  | _ => Raise ValueError
  end.
(** configfile.py:17-61. [file] is None when no file could be read: the configuration stays empty. *)
Definition load (listdir : text -> list text) (file : option (list (text * text))) : res config :=
  match file with
  | None => Ok []
  | Some items =>
      let* c1 := cast_all items [] in
      let* c2 := set_hashtable_file listdir (fill c1) in
      let* c3 := set_postproc c2 in
      check_operation c3
  end.

(** ---- writing a configuration ---- *)
(** str(x): in a list, texts are shown with quotes (repr). Quotes or backslashes inside them are not modelled. [python or library primitive, used at main.py:179] *)
Fixpoint commas (l : list text) : text :=
  match l with [] => [] | [x] => x | x :: r => x ++ txt ", " ++ commas r end.
(** python or library primitive, used at main.py:179 *)
Fixpoint json_repr (j : json) : text :=
  match j with
  | JNull => txt "None"
  | JBool b => txt (if b then "True" else "False")
  | JInt z => z_text z
  | JStr s => txt "'" ++ s ++ txt "'"
  | JList l => txt "[" ++ commas (map json_repr l) ++ txt "]"
  end.
(** enum_poly_params.py:41-42, 194-195, 229-230 *)
Definition pclass_name (p : pclass) : text := match p with PNormal => txt "normal" | PIndexed => txt "indexed" | PSparse => txt "sparse" end.
(** str of a dictionary shows the repr of the classes, which the metaclasses leave alone (lhs_evaluators.py:92-95) *)
Definition lhs_class (name : text) : text := if text_eqb name (txt "ulcd") then txt "ULCD" else txt "RationalFunc".
(** main.py:179 *)
Definition cval_str (v : cval) : text :=
  match v with
  | CNone => txt "None"
  | CBool b => txt (if b then "True" else "False")
  | CInt z => z_text z
  | CStr s => s
  | CList l => json_repr (JList l)
  | CPoly p => pclass_name p
  | CLhs n => txt "{'enum': <class 'lhs_evaluators." ++ lhs_class n ++ txt "Enumerator'>, 'eval': <class 'lhs_evaluators." ++ lhs_class n ++ txt "Evaluator'>}"
  end.
(** configfile.py:190-198. POSTPROC_FUNCS of an element that is not an integer is a TypeError (a boolean counts as an
    integer); so is iterating over a number. *)
Definition json_func (j : json) : res text :=
  match j with
  | JInt i => py_nth POSTPROC_FUNCS i
  | JBool b => py_nth POSTPROC_FUNCS (if b then 1 else 0)
  | _ => Raise TypeError
  end.
(** configfile.py:190-198 *)
Definition cfg_set (option value : text) : res text :=
  if text_eqb option (txt "postproc_funcs_filter") && negb (match value with [] => true | _ => false end) then
    let* j := json_loads value in
    match j with
    | JList l => let* fs := mapM json_func l in
                 Ok (txt "[" ++ commas (map (fun f => txt """" ++ f ++ txt """") fs) ++ txt "]")
    | JStr [] => Ok (txt "[]")
    | _ => Raise TypeError
    end
  else Ok value.
(** main.py:176-184 (and distribute_run.py:34-51 for the settings it does not replace): every known setting is written *)
Definition save (c : config) : res (list (text * text)) :=
  mapM (fun k => let* v := cfg_set k (cval_str (match d_get text_eqb c k with Some v => v | None => CNone end)) in Ok (k, v))
       (map fst CONFIG_PARAMS_TYPES).

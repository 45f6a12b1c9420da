(** Model of the syntax of configuration files: what configparser, the parent class of configfile.py, makes of the text of a
    file, and the text it writes. The files are read by configfile.py:35-43 and written by main.py:176-184 and
    distribute_run.py:34-51. Texts are ASCII. Every error class of configparser (missing section header, repeated section
    or setting, lines that cannot be parsed, bad interpolation) is RuntimeError. No proofs. *)
From Coq Require Import Ascii String ZArith List Bool.
From Verif Require Import PyBase Hashtable_Model MITM_Model Results_Model Config_Model Dist_Model Scripts_Model.
Import ListNotations.
Local Open Scope res_scope.
Local Open Scope list_scope.

(** ---- lines ---- *)
(** The newline, the carriage return and the tab. [python or library primitive, used at configfile.py:36; main.py:183-184] *)
Definition nl : ascii := "010"%char.
(** python or library primitive, used at configfile.py:36 *)
Definition cr : ascii := "013"%char.
(** python or library primitive, used at main.py:184 *)
Definition tab : ascii := "009"%char.
(** Files are read as text: both other line ends become newlines. [python or library primitive, used at configfile.py:36] *)
Fixpoint universal (s : text) : text :=
  match s with
  | [] => []
  | c :: r =>
      if char_eqb c cr then nl :: match r with
                                  | d :: r' => if char_eqb d nl then universal r' else universal r
                                  | [] => []
                                  end
      else c :: universal r
  end.
(** The lines of a file, without their ends; nothing follows a final newline. [python or library primitive, used at configfile.py:36] *)
Fixpoint file_lines (s : text) : list text :=
  match s with
  | [] => []
  | c :: r => if char_eqb c nl then [] :: file_lines r
              else match file_lines r with [] => [[c]] | l :: ls => (c :: l) :: ls end
  end.
(** str.rstrip. [python or library primitive, used at configfile.py:36] *)
Definition rstrip (s : text) : text := rev (lstrip (rev s)).
(** The column of the first character that is not blank. [python or library primitive, used at configfile.py:36] *)
Fixpoint indent (s : text) : nat := match s with c :: r => if is_blank c then S (indent r) else 0%nat | [] => 0%nat end.

(** ---- reading: configparser's _read with the default options (strict, no inline comments, blank lines in values) ---- *)
(** Up to the first character that satisfies [p], which must be there: what is before and what is after it. [python or library primitive, used at configfile.py:36] *)
Fixpoint cut_at (p : ascii -> bool) (s : text) : option (text * text) :=
  match s with
  | [] => None
  | c :: r => if p c then Some ([], r) else match cut_at p r with Some (a, b) => Some (c :: a, b) | None => None end
  end.
(** A section header: a bracket, at least one character that is not a closing bracket, and a closing bracket; what follows
    is ignored. Newer versions of Python take the last closing bracket of the line instead of the first one. [python or library primitive, used at configfile.py:36] *)
Definition header (v : text) : option text :=
  match v with
  | c :: r => if char_eqb c "["%char then
                match cut_at (char_eqb "]"%char) r with Some (d :: n, _) => Some (d :: n) | _ => None end
              else None
  | [] => None
  end.
(** A setting: up to the first equality sign or colon. [python or library primitive, used at configfile.py:36] *)
Definition delimiter (c : ascii) : bool := char_eqb c "="%char || char_eqb c ":"%char.
(** python or library primitive, used at configfile.py:36 *)
Definition comment_char (c : ascii) : bool := char_eqb c "#"%char || char_eqb c ";"%char.
(** The section whose settings are defaults for all the others. [python or library primitive, used at configfile.py:36, 41] *)
Definition DEFAULT : text := txt "DEFAULT".
(** A section: its settings in file order, each with the lines of its value. [python or library primitive, used at configfile.py:36] *)
Definition rawsec := list (text * list text).
(** The state of the reader: the sections so far (the section of the defaults is kept among them), the present section, the
    present setting (empty: none), the column at which it starts, and whether a line could not be parsed. [python or library primitive, used at configfile.py:36] *)
Record reader := { r_secs : list (text * rawsec); r_cur : option text; r_opt : text; r_ind : nat; r_bad : bool }.
(** python or library primitive, used at configfile.py:36 *)
Definition sec_of (r : reader) (n : text) : rawsec := match d_get text_eqb (r_secs r) n with Some s => s | None => [] end.
(** python or library primitive, used at configfile.py:36 *)
Definition put (r : reader) (n k : text) (ls : list text) : list (text * rawsec) :=
  d_set text_eqb (r_secs r) n (d_set text_eqb (sec_of r n) k ls).
(** One more line of the value of the present setting, if there is one. [python or library primitive, used at configfile.py:36] *)
Definition add_line (r : reader) (l : text) : option reader :=
  match r_cur r, r_opt r with
  | Some n, _ :: _ =>
      let ls := match d_get text_eqb (sec_of r n) (r_opt r) with Some ls => ls | None => [] end in
      Some {| r_secs := put r n (r_opt r) (ls ++ [l]); r_cur := r_cur r; r_opt := r_opt r; r_ind := r_ind r; r_bad := r_bad r |}
  | _, _ => None
  end.
(** A line that starts a section or a setting, stripped, at column [ind]. [python or library primitive, used at configfile.py:36] *)
Definition start_line (r : reader) (ind : nat) (value : text) : res reader :=
  match header value with
  | Some n =>
      if negb (text_eqb n DEFAULT) && d_mem text_eqb (r_secs r) n then Raise RuntimeError
      else Ok {| r_secs := d_set text_eqb (r_secs r) n (sec_of r n); r_cur := Some n; r_opt := []; r_ind := ind; r_bad := r_bad r |}
  | None =>
      match r_cur r with
      | None => Raise RuntimeError
      | Some n =>
          match cut_at delimiter value with
          | Some (k, v) =>
              let key := lower (rstrip k) in
              if d_mem text_eqb (sec_of r n) key then Raise RuntimeError
              else Ok {| r_secs := put r n key [strip v]; r_cur := Some n; r_opt := key; r_ind := ind;
                         r_bad := match rstrip k with [] => true | _ => r_bad r end |}
          | None => Ok {| r_secs := r_secs r; r_cur := Some n; r_opt := r_opt r; r_ind := ind; r_bad := true |}
          end
      end
  end.
(** python or library primitive, used at configfile.py:36 *)
Definition read_line (r : reader) (line : text) : res reader :=
  match strip line with
  | [] => Ok (match add_line r [] with Some r' => r' | None => r end)
  | c :: v =>
      if comment_char c then Ok r
      else match (if Nat.ltb (r_ind r) (indent line) then add_line r (c :: v) else None) with
           | Some r' => Ok r'
           | None => start_line r (indent line) (c :: v)
           end
  end.
(** The lines of a value are joined by newlines, and blanks at its end removed. [python or library primitive, used at configfile.py:36] *)
Fixpoint join_lines (ls : list text) : text :=
  match ls with [] => [] | [l] => l | l :: r => l ++ nl :: join_lines r end.
(** A section that has been read: its settings in file order. [python or library primitive, used at configfile.py:36] *)
Definition section := list (text * text).
(** ConfigParser.read of a file with this text. [python or library primitive, used at configfile.py:36] *)
Definition ini_read (t : text) : res (list (text * section)) :=
  let* r := foldM read_line (file_lines (universal t)) {| r_secs := []; r_cur := None; r_opt := []; r_ind := 0; r_bad := false |} in
  if r_bad r then Raise RuntimeError
  else Ok (map (fun '(n, s) => (n, map (fun '(k, ls) => (k, rstrip (join_lines ls))) s)) (r_secs r)).

(** ---- interpolation ---- *)
(** The name in %(name)s, given what follows the opening parenthesis, and what follows it. [python or library primitive, used at configfile.py:42, 198] *)
Definition reference (s : text) : option (text * text) :=
  match cut_at (char_eqb ")"%char) s with
  | Some (c :: n, d :: r) => if char_eqb d "s"%char then Some (c :: n, r) else None
  | _ => None
  end.
(** python or library primitive, used at configfile.py:42, 198 *)
Definition percent : ascii := "%"%char.
(** python or library primitive, used at configfile.py:42, 198 *)
Definition has_percent (s : text) : bool := existsb (char_eqb percent) s.
(** The value of a setting as it is handed out: %% is a percent sign and %(name)s the value of another setting of the
    section, itself interpolated by [inner]. The recursion is bounded by the length of the text, of which every step uses
    up a character. [python or library primitive, used at configfile.py:42] *)
Fixpoint interpolate_text (inner : text -> res text) (env : text -> option text) (n : nat) (rest : text) : res text :=
  match n, rest with
  | S m, c :: r =>
      if char_eqb c percent then
        match r with
        | [] => Raise RuntimeError
        | c2 :: r2 =>
            if char_eqb c2 percent then let* t := interpolate_text inner env m r2 in Ok (percent :: t)
            else if char_eqb c2 "("%char then
              match reference r2 with
              | None => Raise RuntimeError
              | Some (k, rest') =>
                  match env (lower k) with
                  | None => Raise RuntimeError
                  | Some v' =>
                      let* a := (if has_percent v' then inner v' else Ok v') in
                      let* t := interpolate_text inner env m rest' in Ok (a ++ t)
                  end
              end
            else Raise RuntimeError
        end
      else let* t := interpolate_text inner env m r in Ok (c :: t)
  | _, _ => Ok []
  end.
(** Down to [depth] levels. [python or library primitive, used at configfile.py:42] *)
Fixpoint interpolate (depth : nat) (env : text -> option text) (v : text) : res text :=
  match depth with
  | 0%nat => Raise RuntimeError
  | S d => interpolate_text (interpolate d env) env (length v) v
  end.
(** The check of a text that is set: without its %% and %(name)s it must have no percent sign. [python or library primitive, used at configfile.py:198] *)
Fixpoint drop_pairs (s : text) : text :=
  match s with
  | [] => []
  | c :: r => match r with
              | d :: r' => if char_eqb c percent && char_eqb d percent then drop_pairs r' else c :: drop_pairs r
              | [] => [c]
              end
  end.
(** Recursion bounded by the length, as above. [python or library primitive, used at configfile.py:198] *)
Fixpoint drop_references (n : nat) (s : text) : text :=
  match n, s with
  | S m, c :: r =>
      match (if char_eqb c percent then
               match r with d :: r' => if char_eqb d "("%char then reference r' else None | [] => None end
             else None) with
      | Some (_, rest) => drop_references m rest
      | None => c :: drop_references m r
      end
  | _, _ => []
  end.
(** python or library primitive, used at configfile.py:198 *)
Definition settable (v : text) : bool := negb (has_percent (drop_references (length v) (drop_pairs v))).

(** ---- loading: configfile.py:35-61 ---- *)
(** A setting of a section: its own value, or else the default. [python or library primitive, used at configfile.py:42] *)
Definition lookup (defaults s : section) (k : text) : option text :=
  match d_get text_eqb s k with Some v => Some v | None => d_get text_eqb defaults k end.
(** The settings of a section: its own, and then the defaults that it does not set. [python or library primitive, used at configfile.py:42] *)
Definition options (defaults s : section) : list text :=
  map fst s ++ filter (fun k => negb (d_mem text_eqb s k)) (map fst defaults).
(** configfile.py:41-43: a value is interpolated when the loop reaches it *)
Definition cast_sections (secs : list (text * section)) : res config :=
  let defaults := match d_get text_eqb secs DEFAULT with Some s => s | None => [] end in
  foldM (fun c '(_, s) =>
           foldM (fun c k =>
                    let* v := interpolate 10 (lookup defaults s) (match lookup defaults s k with Some v => v | None => [] end) in
                    let* x := cast_param_val k v in Ok (d_set text_eqb c k x)) (options defaults s) c)
        (filter (fun '(n, _) => negb (text_eqb n DEFAULT)) secs) [].
(** configfile.py:17-61 of a file with this text; None when there is no such file *)
Definition load_ini (listdir : text -> list text) (file : option text) : res config :=
  match file with
  | None => Ok []
  | Some t =>
      let* secs := ini_read t in
      let* c1 := cast_sections secs in
      let* c2 := set_hashtable_file listdir (fill c1) in
      let* c3 := set_postproc c2 in
      check_operation c3
  end.

(** ---- writing ---- *)
(** ConfigParser.write: newlines in a value are followed by a tab. [python or library primitive, used at main.py:184; distribute_run.py:51] *)
Definition write_value (v : text) : text := flat_map (fun c => if char_eqb c nl then [nl; tab] else [c]) v.
(** python or library primitive, used at main.py:184; distribute_run.py:51 *)
Definition write_item (i : text * text) : text := let '(k, v) := i in k ++ txt " = " ++ write_value v ++ [nl].
(** python or library primitive, used at main.py:184; distribute_run.py:51 *)
Definition ini_write (secs : list (text * section)) : text :=
  flat_map (fun '(n, s) => txt "[" ++ n ++ txt "]" ++ [nl] ++ flat_map write_item s ++ [nl]) secs.
(** configfile.py:190-198 with the parent's check of the text *)
Definition set_checked (option value : text) : res text :=
  let* v := cfg_set option value in
  if settable v then Ok v else Raise ValueError.
(** main.py:176-184: the text of the file that is written. The names of the settings are lower case already, and no two are
    the same. *)
Definition save_ini (c : config) : res text :=
  let* items := mapM (fun k => let* v := set_checked k (cval_str (match d_get text_eqb c k with Some v => v | None => CNone end)) in Ok (k, v))
                     (map fst CONFIG_PARAMS_TYPES) in
  Ok (ini_write [(txt "Setup", items)]).
(** distribute_run.py:34-51: the text of the file of job number [i] *)
Definition job_ini (c : config) (i : Z) (j : job) : res text :=
  let* items := mapM (fun k => let* v := set_checked k (job_text c i j k) in Ok (k, v)) (map fst CONFIG_PARAMS_TYPES) in
  Ok (ini_write [(txt "Setup", items)]).

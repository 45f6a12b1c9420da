(** Model of the main functions of distribute_run.py, run_distributed_configs.py and join_hashtables.py. Printing is left
    out. No proofs. *)
From Coq Require Import Ascii String ZArith QArith List Bool.
From Verif Require Import PyBase Rnd Hashtable_Model ULCD_Model Rational_Model MITM_Model Results_Model Config_Model Dist_Model Main_Model.
Import ListNotations.
Local Open Scope Z_scope.
Local Open Scope res_scope.
Local Open Scope list_scope.

(** ---- paths (posixpath) ---- *)
(** The part of a name from its last dot on, and what comes before; the name is given reversed. [python or library
    primitive, used at distribute_run.py:27, 42, 46; join_hashtables.py:10; run_distributed_configs.py:5] *)
Fixpoint cut_dot (rs acc : text) : option (text * text) :=
  match rs with
  | [] => None
  | c :: r => if char_eqb c "."%char then Some (rev r, c :: acc) else cut_dot r (c :: acc)
  end.
(** os.path.splitext: leading dots of the last component do not begin an extension. [python or library primitive, used
    at distribute_run.py:27, 42, 46; join_hashtables.py:10; run_distributed_configs.py:5] *)
Definition splitext (p : text) : text * text :=
  let (h, t) := cut_slash (rev p) [] in
  match cut_dot (rev t) [] with
  | Some (a, e) => if forallb (char_eqb "."%char) a then (p, []) else (h ++ a, e)
  | None => (p, [])
  end.
(** os.path.join of a non-empty path and another one; an absolute second path replaces the first. [python or library
    primitive, used at distribute_run.py:48-49; join_hashtables.py:9; run_distributed_configs.py:5] *)
Definition os_join (a b : text) : text :=
  match b with
  | c :: _ => if char_eqb c "/"%char then b else path_join a b
  | [] => path_join a b
  end.
(** open(p, 'w') and writing: the directory must exist, FileNotFoundError is represented by RuntimeError. [python or
    library primitive, used at distribute_run.py:50-51] *)
Definition open_write (p : text) (f : outfile) (w : world) : world * res unit :=
  match fst (path_split p) with
  | [] => (write_file p f w, Ok tt)
  | d => if is_dir d w then (write_file p f w, Ok tt) else (w, Raise RuntimeError)
  end.
(** '%02d' % i for a number that is not negative. [python or library primitive, used at distribute_run.py:42] *)
Definition pad2 (i : Z) : text := if i <? 10 then txt "0" ++ z_text i else z_text i.

(** ---- distribute_run.py ---- *)
(** str of the ranges of a job. [distribute_run.py:38, 40] *)
Definition ranges_json (r : iranges) : list json :=
  map (fun p => JList (map (fun ab => JList [JInt (fst ab); JInt (snd ab)]) p)) r.
(** distribute_run.py:42 *)
Definition part_name (i : Z) (p : text) : text := fst (splitext p) ++ txt "_part" ++ pad2 i ++ snd (splitext p).
(** The text that is given to set() for the setting [k] of job number [i]. [distribute_run.py:36-45] *)
Definition job_text (c : config) (i : Z) (j : job) (k : text) : text :=
  let s := cval_str (match d_get text_eqb c k with Some v => v | None => CNone end) in
  if text_eqb k (txt "a_coeffs_range") then cval_str (CList (ranges_json (fst j)))
  else if text_eqb k (txt "b_coeffs_range") then cval_str (CList (ranges_json (snd j)))
  else if text_eqb k (txt "hashtable_file") then part_name i s
  else s.
(** distribute_run.py:34-45 *)
Definition job_items (c : config) (i : Z) (j : job) : res (list (text * text)) :=
  mapM (fun k => let* v := cfg_set k (job_text c i j k) in Ok (k, v)) (map fst CONFIG_PARAMS_TYPES).
(** distribute_run.py:27 *)
Definition dist_dir (configfile : text) (k : Z) : text := fst (splitext configfile) ++ txt "_dist_" ++ z_text (2 ^ k).
(** distribute_run.py:46-49 *)
Definition job_path (configfile d : text) (i : Z) : text :=
  os_join d (fst (splitext configfile) ++ txt "_" ++ z_text i ++ snd (splitext configfile)).
(** distribute_run.py:33-51: the loop over the jobs *)
Fixpoint write_jobs (c : config) (configfile d : text) (i : Z) (js : list job) (w : world) : world * res unit :=
  match js with
  | [] => (w, Ok tt)
  | j :: r =>
      match job_items c i j with
      | Raise e => (w, Raise e)
      | Ok items =>
          match open_write (job_path configfile d i) (OConf items) w with
          | (w1, Raise e) => (w1, Raise e)
          | (w1, Ok _) => write_jobs c configfile d (i + 1) r w1
          end
      end
  end.
(** A settings file, as configparser reads it: None when it cannot be opened. Files of another kind are outside of the
    model ([None] outside). [configfile.py:34-37] *)
Definition read_conf (w : world) (p : text) : option (option (list (text * text))) :=
  match d_get text_eqb (w_files w) p with
  | None => Some None
  | Some (OConf items) => Some (Some items)
  | Some _ => None
  end.
Section Distribute.
  (** The float math.log(n, 2); a ValueError for n <= 0. It is not negative for n >= 1. *)
  Variable log2 : Z -> res Q.
  Variable listdir : text -> list text.
  (** distribute_run.py:15-17 *)
  Definition exponent (n : Z) : res Z :=
    let* l := log2 n in
    if (Zpos (Qden (Qred l)) =? 1) then Ok (q_int l) else Raise ValueError.
  (** main (distribute_run.py:13-51). The directory of the settings file is the parent of the new directory, so that
      os.mkdir finds it. Ranges that are not lists of lists of pairs of ints are outside of the model: [None]. *)
  Definition dist_main (split_num : Z) (configfile : text) (w : world) : world * option (res unit) :=
    match exponent split_num with
    | Raise e => (w, Some (Raise e))
    | Ok k =>
        match read_conf w configfile with
        | None => (w, None)
        | Some file =>
            match load listdir file with
            | Raise e => (w, Some (Raise e))
            | Ok c =>
                if negb (has_all c) then (w, Some (Raise KeyError))
                else
                  let d := dist_dir configfile k in
                  let w1 := if is_dir d w then w else fst (mkdir d w) in
                  match as_ranges (c_get c "a_coeffs_range"), as_ranges (c_get c "b_coeffs_range") with
                  | Some a, Some b =>
                      match split_params (a, b) (Z.to_nat k) with
                      | Raise e => (w1, Some (Raise e))
                      | Ok js => let (w2, r) := write_jobs c configfile d 0 js w1 in (w2, Some r)
                      end
                  | _, _ => (w1, None)
                  end
            end
        end
    end.
End Distribute.

(** ---- run_distributed_configs.py ---- *)
(** The commands that are started (run_distributed_configs.py:4-7); [listing] is os.listdir of the directory. *)
Definition start_jobs (listing : list text) (d : text) : list text :=
  map (fun f => txt "start cmd.exe /k python main.py " ++ os_join d f)
    (filter (fun f => text_eqb (snd (splitext f)) (txt ".ini")) listing).

(** ---- join_hashtables.py ---- *)
(** join_hashtables.py:9-10 *)
Definition join_files (listing : list text) (d : text) : list text :=
  map (os_join d) (filter (fun f => text_eqb (snd (splitext f)) (txt ".pkl")) listing).
(** open(f, 'rb') and pickle.load; FileNotFoundError is represented by RuntimeError. [join_hashtables.py:12-13, 15-16] *)
Definition load_table (w : world) (f : text) : res saved :=
  match d_get text_eqb (w_tables w) f with
  | Some s => Ok {| sv_mitm := unpickle s; sv_gen := sv_gen s |}
  | None => Raise RuntimeError
  end.
(** join_hashtables.py:14-17 *)
Fixpoint join_rest (w : world) (fs : list text) (s : saved) : res saved :=
  match fs with
  | [] => Ok s
  | f :: r =>
      let* a := load_table w f in
      let (t, x) := ht_append (mi_table (sv_mitm a)) (mi_table (sv_mitm s)) in
      let* _ := x in
      join_rest w r {| sv_mitm := with_table (sv_mitm s) t; sv_gen := sv_gen s |}
  end.
(** join_hashtables.py:6-19. An output file that exists already is only announced (lines 7-8). *)
Definition join_main (listing : list text) (d out : text) (w : world) : world * res unit :=
  match join_files listing d with
  | [] => (w, Raise IndexError)
  | f :: r =>
      match (let* s := load_table w f in join_rest w r s) with
      | Ok s => (write_table out s w, Ok tt)
      | Raise e => (w, Raise e)
      end
  end.

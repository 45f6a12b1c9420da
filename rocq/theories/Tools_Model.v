(** Model of fix_hashtable_filter_init_b_root.py. No proofs. *)
From Coq Require Import Ascii String ZArith QArith List Bool.
From Verif Require Import PyBase Rnd ContFrac_Model Hashtable_Model MITM_Model.
From Verif Require Enum_Model.
Import ListNotations.
Local Open Scope Z_scope.
Local Open Scope res_scope.
Local Open Scope list_scope.

(** l.pop(i). [python or library primitive, used at fix_hashtable_filter_init_b_root.py:25] *)
Definition py_pop {A} (i : Z) (l : list A) : res (list A) :=
  let n := Z.of_nat (length l) in
  let j := if i <? 0 then i + n else i in
  if (j <? 0) || (n <=? j) then Raise IndexError
  else Ok (firstn (Z.to_nat j) l ++ skipn (S (Z.to_nat j)) l).

Section Fix.
  (** to_eng_string of a numeric key, see Hashtable_Model *)
  Variable eng : Q -> res text.
  (** b ** 0.5, see Enum_Model.has_integer_roots *)
  Variable fsqrt : Z -> Q.

  (** fix_hashtable_filter_init_b_root.py:21, 25, 28 *)
  Definition ukey_of (k : rawkey) : ukey := match k with KStr s => UStr s | KNum q => UNum q end.
  (** The key of the underlying dictionary whose value dec_hashtable[k] is (decimal_hashtable.py:42-47). *)
  Fixpoint addr_loop (olds : list text) (cur : text) (d : list (rawkey * hval tent)) : text :=
    match olds with
    | [] => cur
    | o :: r => if raw_mem d o then o else addr_loop r cur d
    end.
  (** dec_hashtable[k].pop(i) (fix_hashtable_filter_init_b_root.py:25): the list is changed in place. A dictionary's
      pop of an absent key is a KeyError. *)
  Definition item_pop (k : rawkey) (i : Z) (t : mtable) : mtable * res unit :=
    match ht_manipulate_key eng t (ukey_of k) with
    | Raise e => (t, Raise e)
    | Ok (olds, cur) =>
        let a := addr_loop olds cur (h_data t) in
        match raw_get (h_data t) a with
        | None => (t, Raise KeyError)
        | Some (VOne _) => (t, Raise KeyError)
        | Some (VList l) =>
            match py_pop i l with
            | Raise e => (t, Raise e)
            | Ok l' => (ht_raw_set (KStr a) (VList l') t, Ok tt)
            end
        end
    end.
  (** fix_hashtable_filter_init_b_root.py:22-27 for one entry: is there a b polynomial with integer roots? *)
  Definition b_roots (ab : abpair) : bool := existsb (Enum_Model.has_integer_roots fsqrt) (snd ab).
  (** fix_hashtable_filter_init_b_root.py:20-27: the loop over a copy of the list. params[0] of a dictionary of settings is a KeyError. *)
  Fixpoint fix_list (k : rawkey) (copy : list tent) (i removed : Z) (t : mtable) : mtable * res unit :=
    match copy with
    | [] => (t, Ok tt)
    | TParams :: _ => (t, Raise KeyError)
    | TEnt ab _ :: r =>
        if b_roots ab then
          match item_pop k (i - removed) t with
          | (t1, Raise e) => (t1, Raise e)
          | (t1, Ok _) => fix_list k r (i + 1) (removed + 1) t1
          end
        else fix_list k r (i + 1) removed t
    end.
  (** fix_hashtable_filter_init_b_root.py:20-29 for one key. A slice of a dictionary is a TypeError. *)
  Definition fix_key (t : mtable) (k : rawkey) : mtable * res unit :=
    match ht_get eng (ukey_of k) t with
    | Raise e => (t, Raise e)
    | Ok (VOne _) => (t, Raise TypeError)
    | Ok (VList l) =>
        match fix_list k l 0 0 t with
        | (t1, Raise e) => (t1, Raise e)
        | (t1, Ok _) =>
            match ht_get eng (ukey_of k) t1 with
            | Raise e => (t1, Raise e)
            | Ok (VList []) => let (t2, x) := ht_raw_pop k t1 in (t2, let* _ := x in Ok tt)
            | Ok _ => (t1, Ok tt)
            end
        end
    end.
  (** fix_hashtable_filter_init_b_root.py:19-29 *)
  Fixpoint fix_keys (ks : list rawkey) (t : mtable) : mtable * res unit :=
    match ks with
    | [] => (t, Ok tt)
    | k :: r => match fix_key t k with (t1, Raise e) => (t1, Raise e) | (t1, Ok _) => fix_keys r t1 end
    end.
  (** list.remove. [python or library primitive, used at fix_hashtable_filter_init_b_root.py:17] *)
  Fixpoint list_remove (k : rawkey) (l : list rawkey) : res (list rawkey) :=
    match l with
    | [] => Raise ValueError
    | x :: r => if rawkey_eqb k x then Ok r else let* r' := list_remove k r in Ok (x :: r')
    end.
  (** fix_hashtable_filter_init_b_root.py:16-29 *)
  Definition fix_table (t : mtable) : res mtable :=
    let* ks := list_remove (KStr (txt "parameters")) (d_keys (h_data t)) in
    let (t1, x) := fix_keys ks t in let* _ := x in Ok t1.
  (** os.path.splitext (posixpath, standard library): the extension starts at the last dot of the last component, unless
      only dots precede it there. [splitext_rev] works on the reversed path; the accumulator is the extension. [python or library primitive, used at fix_hashtable_filter_init_b_root.py:31] *)
  Definition is_char (c d : ascii) : bool := Ascii.eqb c d.
  (** Is there, before the next slash, a character that is not a dot?. [python or library primitive, used at fix_hashtable_filter_init_b_root.py:31] *)
  Fixpoint has_stem (rp : text) : bool :=
    match rp with
    | [] => false
    | c :: r => if is_char c "/"%char then false else if is_char c "."%char then has_stem r else true
    end.
  (** python or library primitive, used at fix_hashtable_filter_init_b_root.py:31 *)
  Fixpoint splitext_rev (rp : text) (ext : text) : option (text * text) :=
    match rp with
    | [] => None
    | c :: r => if is_char c "/"%char then None
                else if is_char c "."%char then (if has_stem r then Some (rev r, c :: ext) else None)
                else splitext_rev r (c :: ext)
    end.
  (** python or library primitive, used at fix_hashtable_filter_init_b_root.py:31 *)
  Definition splitext (p : text) : text * text :=
    match splitext_rev (rev p) [] with Some x => x | None => (p, []) end.
  (** fix_hashtable_filter_init_b_root.py:31-33 *)
  Definition fixed_name (p : text) : text := fst (splitext p) ++ txt "_fixed" ++ snd (splitext p).
  (** fix_hashtable_filter_init_b_root.py:12-35: the file that is written, with its contents. [files] maps paths to un-pickled tables; the only file
      written is the output. A path that does not exist: RuntimeError stands for FileNotFoundError. *)
  Definition fix_main (p : text) (files : list (text * mtable)) : list (text * mtable) * res unit :=
    match d_get text_eqb files p with
    | None => (files, Raise RuntimeError)
    | Some t => match fix_table t with
                | Raise e => (files, Raise e)
                | Ok t' => (d_set text_eqb files (fixed_name p) t', Ok tt)
                end
    end.
End Fix.

(** Model of decimal_hashtable.py and of the text comparison of enum_params.py. No proofs. *)
From Coq Require Import ZArith QArith List Bool Ascii String.
From Coq Require DecimalString.
From Verif Require Import PyBase.
Import ListNotations.
Local Open Scope Z_scope.

(** Python [str]: a list of characters. [python or library primitive, used at decimal_hashtable.py:24-33] *)
Definition text := list ascii.
(** python or library primitive, used at decimal_hashtable.py:24-33 *)
Definition txt (s : string) : text := list_ascii_of_string s.
(** [str(z)] / ["%d" % z] of an integer. [python or library primitive, used at lhs_evaluators.py:174, 182] *)
Definition z_text (z : Z) : text := txt (DecimalString.NilZero.string_of_int (Z.to_int z)).

(** python or library primitive, used at decimal_hashtable.py:38, 45, 52, 59 *)
Fixpoint text_eqb (a b : text) : bool :=
  match a, b with
  | [], [] => true
  | x :: a', y :: b' => Ascii.eqb x y && text_eqb a' b'
  | _, _ => false
  end.

(** Keys of the underlying [dict]: text, or an untruncated number (stored by the inherited [get]/[setdefault], see
    enum_params.py:195-196). Numbers are kept in lowest terms, so equality of numbers is equality of the pair. *)
Inductive rawkey := KStr (s : text) | KNum (q : Q).
(** python or library primitive, used at decimal_hashtable.py:83 *)
Definition rawkey_eqb (a b : rawkey) : bool :=
  match a, b with
  | KStr s, KStr t => text_eqb s t
  | KNum p, KNum q => (Qnum p =? Qnum q) && Pos.eqb (Qden p) (Qden q)
  | _, _ => false
  end.

(** What a caller may pass as a key: a [str], an [mpf], or anything else. [decimal_hashtable.py:26-31] *)
Inductive ukey := UStr (s : text) | UNum (q : Q) | UOther.

(** State of a DecimalHashTable: the [accuracy] and [accuracy_history] attributes (decimal_hashtable.py:16-17) and the
    contents of the underlying [dict] in insertion order. *)
Record htab (V : Type) := mkHtab { h_acc : Z; h_hist : list Z; h_data : list (rawkey * V) }.
Arguments mkHtab {V}. Arguments h_acc {V}. Arguments h_hist {V}. Arguments h_data {V}.

Section Table.
  Context {V : Type}.
  (** [key.to_eng_string()] of a number (decimal_hashtable.py:31). mpmath's mpf has no such method, see
      [eng_pinned]; Python's Decimal has, see [dec_eng]. *)
  Variable eng : Q -> res text.

  (** decimal_hashtable.py:13-17 *)
  Definition ht_new (accuracy : Z) : htab V := mkHtab (accuracy + 1) [] [].

  (** decimal_hashtable.py:19-22 *)
  Definition ht_update_accuracy (accuracy : Z) (t : htab V) : htab V :=
    mkHtab (accuracy + 1) (h_hist t ++ [h_acc t]) (h_data t).

  (** decimal_hashtable.py:24-33 *)
  Definition ht_manipulate_key (t : htab V) (key : ukey) : res (list text * text) :=
    let* key_str := match key with
                    | UOther => Raise TypeError
                    | UStr s => Ok s
                    | UNum q => eng q
                    end in
    Ok (map (fun i => py_take (i + 1) key_str) (h_hist t), py_take (h_acc t + 1) key_str).

  (** python or library primitive, used at decimal_hashtable.py:38, 45-46, 52, 59 *)
  Definition raw_get (d : list (rawkey * V)) (s : text) : option V := d_get rawkey_eqb d (KStr s).
  (** python or library primitive, used at decimal_hashtable.py:38, 45-46, 52, 59 *)
  Definition raw_mem (d : list (rawkey * V)) (s : text) : bool := d_mem rawkey_eqb d (KStr s).

  (** the loop decimal_hashtable.py:37-39 *)
  Definition del_olds (olds : list text) (d : list (rawkey * V)) : list (rawkey * V) :=
    fold_left (fun d k => if raw_mem d k then d_del rawkey_eqb d (KStr k) else d) olds d.

  (** decimal_hashtable.py:35-40 *)
  Definition ht_set (key : ukey) (v : V) (t : htab V) : htab V * res unit :=
    match ht_manipulate_key t key with
    | Raise e => (t, Raise e)
    | Ok (olds, cur) =>
        (mkHtab (h_acc t) (h_hist t) (d_set rawkey_eqb (del_olds olds (h_data t)) (KStr cur) v), Ok tt)
    end.

  (** python or library primitive, used at decimal_hashtable.py:46-47, 54 *)
  Definition dict_getitem (d : list (rawkey * V)) (k : text) : res V :=
    match raw_get d k with Some v => Ok v | None => Raise KeyError end.

  (** decimal_hashtable.py:42-47 *)
  Fixpoint get_loop (olds : list text) (cur : text) (d : list (rawkey * V)) : res V :=
    match olds with
    | [] => dict_getitem d cur
    | k :: r => if raw_mem d k then dict_getitem d k else get_loop r cur d
    end.
  (** decimal_hashtable.py:42-47 *)
  Definition ht_get (key : ukey) (t : htab V) : res V :=
    let* p := ht_manipulate_key t key in get_loop (fst p) (snd p) (h_data t).

  (** decimal_hashtable.py:49-54; the value of the [del] statement is discarded by Python *)
  Fixpoint del_loop (olds : list text) (cur : text) (d : list (rawkey * V)) : list (rawkey * V) * res unit :=
    match olds with
    | [] => (d, let* _ := dict_getitem d cur in Ok tt)
    | k :: r => if raw_mem d k then (d_del rawkey_eqb d (KStr k), Ok tt) else del_loop r cur d
    end.
  (** decimal_hashtable.py:49-54 *)
  Definition ht_del (key : ukey) (t : htab V) : htab V * res unit :=
    match ht_manipulate_key t key with
    | Raise e => (t, Raise e)
    | Ok (olds, cur) =>
        let (d, r) := del_loop olds cur (h_data t) in (mkHtab (h_acc t) (h_hist t) d, r)
    end.

  (** decimal_hashtable.py:56-61 *)
  Fixpoint mem_loop (olds : list text) (cur : text) (d : list (rawkey * V)) : bool :=
    match olds with
    | [] => raw_mem d cur
    | k :: r => if raw_mem d k then true else mem_loop r cur d
    end.
  (** decimal_hashtable.py:56-61 *)
  Definition ht_contains (key : ukey) (t : htab V) : res bool :=
    let* p := ht_manipulate_key t key in Ok (mem_loop (fst p) (snd p) (h_data t)).

  (** [dict.setdefault]/[dict.get]/[dict.pop]/... are inherited and act on the raw key. [ht_raw_set] stands for any of
      the inherited writing methods (decimal_hashtable.py does not override them), [ht_raw_pop] for [dict.pop]. [used at enum_params.py:196] *)
  Definition ht_raw_set (k : rawkey) (v : V) (t : htab V) : htab V :=
    mkHtab (h_acc t) (h_hist t) (d_set rawkey_eqb (h_data t) k v).
  (** used at fix_hashtable_filter_init_b_root.py:29 *)
  Definition ht_raw_pop (k : rawkey) (t : htab V) : htab V * res V :=
    match d_get rawkey_eqb (h_data t) k with
    | Some v => (mkHtab (h_acc t) (h_hist t) (d_del rawkey_eqb (h_data t) k), Ok v)
    | None => (t, Raise KeyError)
    end.

  (** [dict.update(data)] with a plain dict: raw assignment of each item in order (decimal_hashtable.py:70). *)
  Definition dict_update (d data : list (rawkey * V)) : list (rawkey * V) :=
    fold_left (fun d kv => d_set rawkey_eqb d (fst kv) (snd kv)) data d.

  (** decimal_hashtable.py:63-65 *)
  Definition ht_getstate (t : htab V) : Z * list Z * list (rawkey * V) := (h_acc t, h_hist t, h_data t).
  (** decimal_hashtable.py:67-70 *)
  Definition ht_setstate (st : Z * list Z * list (rawkey * V)) (t : htab V) : htab V :=
    let '(a, h, data) := st in mkHtab a h (dict_update (h_data t) data).
  (** decimal_hashtable.py:72-74: constructor argument and state; the callable is the class itself. *)
  Definition ht_reduce (t : htab V) : Z * (Z * list Z * list (rawkey * V)) := (h_acc t, ht_getstate t).
  (** What [pickle.load] does with the result of [__reduce__]: call the class, then [__setstate__]. [python or library primitive, used at main.py:81] *)
  Definition ht_unpickle (p : Z * (Z * list Z * list (rawkey * V))) : htab V :=
    ht_setstate (snd p) (ht_new (fst p)).

  (** operation sequences. [calls of the methods decimal_hashtable.py:19-70] *)
  Inductive hop :=
  | HSet (k : ukey) (v : V) | HGet (k : ukey) | HDel (k : ukey) | HMem (k : ukey)
  | HUpd (accuracy : Z) | HRawSet (k : rawkey) (v : V) | HRawPop (k : rawkey) | HPickle.
  (** calls of the methods decimal_hashtable.py:19-70 *)
  Inductive hout := HUnit (r : res unit) | HVal (r : res V) | HBool (r : res bool).
  (** calls of the methods decimal_hashtable.py:19-70 *)
  Definition ht_step (t : htab V) (o : hop) : htab V * hout :=
    match o with
    | HSet k v => let (t', r) := ht_set k v t in (t', HUnit r)
    | HGet k => (t, HVal (ht_get k t))
    | HDel k => let (t', r) := ht_del k t in (t', HUnit r)
    | HMem k => (t, HBool (ht_contains k t))
    | HUpd a => (ht_update_accuracy a t, HUnit (Ok tt))
    | HRawSet k v => (ht_raw_set k v t, HUnit (Ok tt))
    | HRawPop k => let (t', r) := ht_raw_pop k t in (t', HVal r)
    | HPickle => (ht_unpickle (ht_reduce t), HUnit (Ok tt))
    end.
  (** calls of the methods decimal_hashtable.py:19-70 *)
  Fixpoint ht_run (t : htab V) (os : list hop) : htab V * list hout :=
    match os with
    | [] => (t, [])
    | o :: r => let (t1, x) := ht_step t o in let (t2, xs) := ht_run t1 r in (t2, x :: xs)
    end.
End Table.
Arguments hop : clear implicits.
Arguments hout : clear implicits.

(** Values of joined tables: a list of entries, or a single object (e.g. the saved parameters). [enum_params.py:195-196; main.py:111-112] *)
Inductive hval (E : Type) := VList (l : list E) | VOne (x : E).
Arguments VList {E}. Arguments VOne {E}.

Section Join.
  Context {E : Type}.
  (** decimal_hashtable.py:87-90 *)
  Definition as_list (v : hval E) : list E := match v with VList l => l | VOne x => [x] end.
  (** decimal_hashtable.py:82-98. The [except TypeError] branch is unreachable: both operands of [+] are lists.
      Sharing of list objects between the two tables (line 98) is not modelled. *)
  Definition append_step (app : htab (hval E)) (d : list (rawkey * hval E)) (k : rawkey) : list (rawkey * hval E) :=
    match d_get rawkey_eqb (h_data app) k with
    | None => d   (* k ranges over the keys of app *)
    | Some va =>
        match d_get rawkey_eqb d k with
        | Some vo => d_set rawkey_eqb d k (VList (as_list vo ++ as_list va))
        | None => d_set rawkey_eqb d k va
        end
    end.
  (** python or library primitive, used at decimal_hashtable.py:81 *)
  Definition zmem (x : Z) (l : list Z) : bool := existsb (Z.eqb x) l.
  (** decimal_hashtable.py:76-98 *)
  Definition ht_append (app t : htab (hval E)) : htab (hval E) * res unit :=
    if negb (h_acc t =? h_acc app) then (t, Raise TypeError)
    else (mkHtab (h_acc t)
            (h_hist t ++ filter (fun a => negb (zmem a (h_hist t))) (h_hist app))
            (fold_left (append_step app) (d_keys (h_data app)) (h_data t)), Ok tt).

  (** join_hashtables.py:6-19: the hash table files in the directory as they are listed and un-pickled; the first is
      popped and the others appended to it. [files.pop(0)] of an empty list raises IndexError. File names, the test
      for an existing output file (which only prints) and the final dump are not modelled here. *)
  Definition join_tables (tables : list (htab (hval E))) : res (htab (hval E)) :=
    match tables with
    | [] => Raise IndexError
    | t :: r => foldM (fun acc a => let (acc', x) := ht_append a acc in let* _ := x in Ok acc') r t
    end.
End Join.

(** enum_params.py:501-508 *)
Definition compare_dec_with_accuracy (eng : Q -> res text) (d1 d2 : Q) (accuracy : Z) : res bool :=
  let accuracy := accuracy + 1 in
  let* t1 := eng d1 in
  let* t2 := eng d2 in
  Ok (text_eqb (py_take (accuracy + 1) t1) (py_take (accuracy + 1) t2)).

(** mpmath's mpf (imported as [dec] in decimal_hashtable.py:7) has no [to_eng_string]. *)
Definition eng_pinned (q : Q) : res text := Raise AttributeError.

(** Python's [decimal.Decimal] (the commented-out import of decimal_hashtable.py:6): sign, digits of the coefficient and
    exponent, with value (-1)^sign * coefficient * 10^exponent. *)
Record pydec := mkDec { d_sign : bool; d_int : list nat; d_exp : Z }.
(** python or library primitive, used at decimal_hashtable.py:31 *)
Definition digit_char (n : nat) : ascii := ascii_of_nat (48 + n).
(** ["%+d" % z]. [python or library primitive, used at decimal_hashtable.py:31] *)
Definition zplus_text (z : Z) : text := if z <? 0 then z_text z else txt "+" ++ z_text z.

(** [Decimal.to_eng_string] of a finite number, after CPython's _pydecimal.Decimal.__str__ with eng=True and
    capitals=1 (standard library; not part of /repo). [python or library primitive, used at decimal_hashtable.py:31] *)
Definition dec_eng (d : pydec) : text :=
  let ds := map digit_char (d_int d) in
  let len := Z.of_nat (List.length ds) in
  let leftdigits := d_exp d + len in
  let dotplace :=
    if (d_exp d <=? 0) && (-6 <? leftdigits) then leftdigits
    else if text_eqb ds (txt "0") then (leftdigits + 1) mod 3 - 1
    else (leftdigits - 1) mod 3 + 1 in
  let '(intpart, fracpart) :=
    if dotplace <=? 0 then (txt "0", txt "." ++ repeat "0"%char (Z.to_nat (- dotplace)) ++ ds)
    else if len <=? dotplace then (ds ++ repeat "0"%char (Z.to_nat (dotplace - len)), [])
    else (firstn (Z.to_nat dotplace) ds, txt "." ++ skipn (Z.to_nat dotplace) ds) in
  let exp := if leftdigits =? dotplace then [] else txt "E" ++ zplus_text (leftdigits - dotplace) in
  (if d_sign d then txt "-" else []) ++ intpart ++ fracpart ++ exp.

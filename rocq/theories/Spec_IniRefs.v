(** Specification of what the settings of a configuration file say: references to other settings, and the section of defaults. *)
From Coq Require Import Ascii String List Bool.
From Verif Require Import PyBase Hashtable_Model Spec_Ini.
Import ListNotations.
Local Open Scope list_scope.

(** The same text in lower case. *)
Definition lowered (a b : text) : Prop :=
  Forall2 (fun c d => (65 <= nat_of_ascii c <= 90 -> nat_of_ascii d = nat_of_ascii c + 32)%nat /\ (~ (65 <= nat_of_ascii c <= 90)%nat -> d = c)) a b.
(** What a value says, with at most [n] levels: two percent signs are one, and %(name)s is what the value of that setting says. *)
Inductive expands (val : text -> text -> Prop) : nat -> text -> text -> Prop :=
| X_end n : expands val (S n) [] []
| X_char n c v t : c <> "%"%char -> expands val (S n) v t -> expands val (S n) (c :: v) (c :: t)
| X_percent n v t : expands val (S n) v t -> expands val (S n) (txt "%%" ++ v) ("%"%char :: t)
| X_plain n k k' w v t : k <> [] -> ~ In ")"%char k -> lowered k k' -> val k' w -> no_percent w -> expands val (S n) v t ->
    expands val (S n) (txt "%(" ++ k ++ txt ")s" ++ v) (w ++ t)
| X_ref n k k' w x v t : k <> [] -> ~ In ")"%char k -> lowered k k' -> val k' w -> expands val n w x -> expands val (S n) v t ->
    expands val (S n) (txt "%(" ++ k ++ txt ")s" ++ v) (x ++ t).
(** The value of a setting in a section: its own, or the default. *)
Definition value_in (D s : list (text * text)) (k w : text) : Prop := In (k, w) s \/ ~ In k (map fst s) /\ In (k, w) D.
Definition defaults_of (secs : list (text * list (text * text))) (D : list (text * text)) : Prop :=
  In (txt "DEFAULT", D) secs \/ ~ In (txt "DEFAULT") (map fst secs) /\ D = [].
(** The settings of a section: its own, then the defaults of the others. *)
Definition settings_in (D s : list (text * text)) : list (text * text) :=
  s ++ filter (fun kv => if in_dec (list_eq_dec ascii_dec) (fst kv) (map fst s) then false else true) D.
Definition section_says (D s items : list (text * text)) : Prop :=
  Forall2 (fun kv kx => fst kx = fst kv /\ expands (value_in D s) 10 (snd kv) (snd kx)) (settings_in D s) items.
Definition proper_sections (secs : list (text * list (text * text))) : list (text * list (text * text)) :=
  filter (fun ns => if list_eq_dec ascii_dec (fst ns) (txt "DEFAULT") then false else true) secs.
Definition file_says (secs : list (text * list (text * text))) (items : list (text * text)) : Prop :=
  exists D parts, defaults_of secs D /\ Forall2 (fun ns part => section_says D (snd ns) part) (proper_sections secs) parts /\ items = concat parts.
(** The names that a value refers to. *)
Inductive mentions : text -> text -> Prop :=
| M_here k k' v : k <> [] -> ~ In ")"%char k -> lowered k k' -> mentions (txt "%(" ++ k ++ txt ")s" ++ v) k'
| M_char c v n : c <> "%"%char -> mentions v n -> mentions (c :: v) n
| M_percent v n : mentions v n -> mentions (txt "%%" ++ v) n
| M_later k v n : k <> [] -> ~ In ")"%char k -> mentions v n -> mentions (txt "%(" ++ k ++ txt ")s" ++ v) n.
(** The settings that a setting refers to, directly or by way of others. *)
Inductive refers (val : text -> text -> Prop) : text -> text -> Prop :=
| R_one k w n : val k w -> mentions w n -> refers val k n
| R_more k m n : refers val k m -> refers val m n -> refers val k n.
(** A value with a percent sign that begins neither %% nor a reference. *)
Inductive broken : text -> Prop :=
| B_here b : (forall v, b <> "%"%char :: v) -> (forall k v, b = "("%char :: k ++ txt ")s" ++ v -> k = [] \/ In ")"%char k) -> broken ("%"%char :: b)
| B_char c v : c <> "%"%char -> broken v -> broken (c :: v)
| B_percent v : broken v -> broken (txt "%%" ++ v)
| B_later k v : k <> [] -> ~ In ")"%char k -> broken v -> broken (txt "%(" ++ k ++ txt ")s" ++ v).

(** Specification: the texts that survive being written to a configuration file and read again, and comments. Independent of
    Ini_Model; of Config_Model only the types of values are used. *)
From Coq Require Import Ascii String List Bool.
From Verif Require Import PyBase Hashtable_Model Results_Model Config_Model.
Import ListNotations.
Local Open Scope list_scope.

(** A blank: space, tab, newline, vertical tab, form feed, carriage return, or one of the four separators. *)
Definition blank (c : ascii) : Prop := In (nat_of_ascii c) [9; 10; 11; 12; 13; 28; 29; 30; 31; 32]%nat.
(** A text without line ends. *)
Definition oneline (s : text) : Prop := forall c, In c s -> nat_of_ascii c <> 10%nat /\ nat_of_ascii c <> 13%nat.
(** No blank at the end, none at the beginning. *)
Definition trim_end (s : text) : Prop := forall r c, s = r ++ [c] -> ~ blank c.
Definition trim_start (s : text) : Prop := forall r c, s = c :: r -> ~ blank c.
Definition trimmed (s : text) : Prop := trim_start s /\ trim_end s.
(** A line whose first character that is not blank is a hash or a semicolon. *)
Definition comment (l : text) : Prop :=
  oneline l /\ exists b c r, l = b ++ c :: r /\ Forall blank b /\ In c (txt "#;").
Definition not_comment (l : text) : Prop := forall r c, l = c :: r -> ~ In c (txt "#;").
(** The lines of a text, joined. *)
Fixpoint unlines (l : text) (ls : list text) : text :=
  match ls with [] => l | l' :: r => l ++ ascii_of_nat 10 :: unlines l' r end.
(** The name of a section. *)
Definition good_section_name (n : text) : Prop := n <> [] /\ oneline n /\ ~ In "]"%char n /\ n <> txt "DEFAULT".
(** The name of a setting: in lower case, and nothing in it that means something else. *)
Definition good_key (k : text) : Prop :=
  k <> [] /\ oneline k /\ trimmed k /\
  (forall c, In c k -> ~ In c (txt "=:") /\ ~ (65 <= nat_of_ascii c <= 90)%nat) /\
  (forall c r, k = c :: r -> ~ In c (txt "[#;")).
(** The value of a setting: one line, or several of which the later ones do not look like comments; no blanks around. *)
Definition good_value (v : text) : Prop :=
  exists l ls, v = unlines l ls /\ Forall (fun x => oneline x /\ trimmed x) (l :: ls) /\ Forall not_comment ls /\ trim_end v.
Definition good_section (s : list (text * text)) : Prop :=
  NoDup (map fst s) /\ Forall (fun kv => good_key (fst kv) /\ good_value (snd kv)) s.
(** Percent signs are special in configuration files. *)
Definition no_percent (v : text) : Prop := ~ In "%"%char v.
Definition lone_percent (v : text) : Prop :=
  exists a b, v = a ++ "%"%char :: b /\ no_percent a /\ no_percent b /\ (forall r, b <> "("%char :: r).
(** Settings all of whose texts are free of all that. Blanks around a text inside a list do no harm. *)
Definition plain (s : text) : Prop := oneline s /\ trimmed s /\ no_percent s.
Fixpoint plain_json (j : json) : Prop :=
  match j with
  | JStr s => oneline s /\ no_percent s
  | JList l => fold_right (fun x P => plain_json x /\ P) True l
  | _ => True
  end.
Definition plain_setting (v : cval) : Prop :=
  match v with CStr s => plain s | CList l => plain_json (JList l) | _ => True end.
(** A line with a setting, a line that cannot be the header of a section, and a line without any text. *)
Definition sets (k l : text) : Prop := exists d v, l = k ++ d :: v /\ In d (txt "=:") /\ oneline v.
Definition no_header (l : text) : Prop := oneline l /\ forall b r, Forall blank b -> l <> b ++ "["%char :: r.
Definition empty_line (l : text) : Prop := oneline l /\ Forall blank l.
(** Lines, each with its newline. *)
Definition text_of (ls : list text) : text := flat_map (fun l => l ++ [ascii_of_nat 10]) ls.

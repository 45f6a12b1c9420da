(** Independent specification for the settings file and the table file versions. *)
From Coq Require Import Ascii String ZArith List Bool.
From Verif Require Import Spec_ULCD.
Import ListNotations.
Local Open Scope Z_scope.
Local Open Scope list_scope.

(** The decimal digits, and the value of a text of digits *)
Definition digit_of (c : ascii) : option Z :=
  let n := Z.of_nat (nat_of_ascii c) in if (48 <=? n) && (n <=? 57) then Some (n - 48) else None.
Definition digits (w : list ascii) : Prop := Forall (fun c => digit_of c <> None) w.

(** A file counts as a version of the table [base]: base, perhaps _v and digits or dots, .pkl, and anything more. *)
Definition version_tail (v : list ascii) : Prop :=
  v = [] \/ exists w, w <> [] /\ Forall (fun c => digit_of c <> None \/ c = "."%char) w /\ v = chars "_v" ++ w.
Definition version_file (base fn : list ascii) : Prop :=
  exists v rest, version_tail v /\ fn = base ++ v ++ chars ".pkl" ++ rest.
(** The file of version number n *)
Definition version (base : list ascii) (n : Z) : list ascii := base ++ chars "_v" ++ int_chars n ++ chars ".pkl".

(** Plain names: small letters, digits, underscores and dashes *)
Definition plain_char (c : ascii) : Prop :=
  let n := Z.of_nat (nat_of_ascii c) in 97 <= n <= 122 \/ 48 <= n <= 57 \/ n = 95 \/ n = 45.
Definition plain (s : list ascii) : Prop := Forall plain_char s.
(** ... that do not end in a version number *)
Definition unversioned (s : list ascii) : Prop := ~ exists a w, w <> [] /\ digits w /\ s = a ++ chars "_v" ++ w.

(** Order of names: by the first character that differs *)
Inductive name_le : list ascii -> list ascii -> Prop :=
| nl_nil b : name_le [] b
| nl_lt x y a b : (nat_of_ascii x < nat_of_ascii y)%nat -> name_le (x :: a) (y :: b)
| nl_eq x a b : name_le a b -> name_le (x :: a) (x :: b).
(** Directory and name *)
Definition in_dir (dir f : list ascii) : list ascii := dir ++ chars "/" ++ f.
(** How the setting names the table [base]: without extension or version, with an extension, or with both; and what the
    file is called when there is none yet *)
Inductive config_name (base : list ascii) : list ascii -> list ascii -> Prop :=
| cn_bare : config_name base base (version base 1)
| cn_pkl : config_name base (base ++ chars ".pkl") (version base 1)
| cn_full w : w <> [] -> digits w -> config_name base (base ++ chars "_v" ++ w ++ chars ".pkl") (base ++ chars "_v" ++ w ++ chars ".pkl").
(** A path: a directory (not ending in a slash) and a name; or a name in the current directory *)
Inductive path_of (f : list ascii) : list ascii -> list ascii -> Prop :=
| po_here : path_of f (chars ".") f
| po_dir d c : c <> "/"%char -> path_of f (d ++ [c]) (in_dir (d ++ [c]) f).

(** Settings that are whole numbers and settings that are yes-or-no *)
Definition number_settings : list string :=
  ["i"; "hashtable_num_of_iterations"; "hashtable_precision"; "first_filtering_num_of_iterations"; "first_filtering_precision";
   "second_filtering_max_num_of_iterations"; "second_filtering_precision"; "third_filtering_max_num_of_iterations"; "third_filtering_precision"]%string.
Definition boolean_settings : list string := ["print_surprising_nonexp_contfracs"; "validate_hashtable_extend_no_replication"; "is_test"]%string.

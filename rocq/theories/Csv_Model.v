(** Model of the csv syntax: csv.writer as enum_params.py:450-482 uses it and csv.reader as process_and_compare.py:25-26,
    131-132 uses it, both with the default dialect (excel). Texts are ASCII without NUL characters.
    No proofs. *)
From Coq Require Import Ascii String ZArith List Bool.
From Verif Require Import PyBase Hashtable_Model MITM_Model Results_Model Ini_Model.
Import ListNotations.
Local Open Scope list_scope.

(** ---- writing ---- *)
(** python or library primitive, used at enum_params.py:453 *)
Definition comma : ascii := ","%char.
(** python or library primitive, used at enum_params.py:453 *)
Definition quote : ascii := """"%char.
(** Characters for which a field is put in quotes: the delimiter, the quote and those of the line end. [python or library primitive, used at enum_params.py:458-478] *)
Definition special_char (c : ascii) : bool := char_eqb c comma || char_eqb c quote || char_eqb c nl || char_eqb c cr.
(** A quote inside is doubled. [python or library primitive, used at enum_params.py:458-478] *)
Definition in_quotes (f : text) : text := quote :: flat_map (fun c => if char_eqb c quote then [quote; quote] else [c]) f ++ [quote].
(** python or library primitive, used at enum_params.py:458-478 *)
Definition write_field (f : text) : text := if existsb special_char f then in_quotes f else f.
(** The fields of a row with commas between them. [python or library primitive, used at enum_params.py:458-478] *)
Fixpoint write_fields (r : list text) : text :=
  match r with [] => [] | [f] => write_field f | f :: r' => write_field f ++ comma :: write_fields r' end.
(** A row whose only field is empty is written with quotes. [python or library primitive, used at enum_params.py:458-478] *)
Definition write_row (r : list text) : text :=
  (match r with [[]] => [quote; quote] | _ => write_fields r end) ++ [cr; nl].
(** python or library primitive, used at enum_params.py:458-482 *)
Definition csv_write (rows : list (list text)) : text := flat_map write_row rows.

(** ---- reading ---- *)
(** The states of the reader: before a row, before a field, in a field, in quotes, after a quote in quotes. [python or library primitive, used at process_and_compare.py:26, 132] *)
Inductive cmode := BeforeRow | BeforeField | InField | InQuotes | AfterQuote.
(** The rows so far, the present row and the present field, all reversed. [python or library primitive, used at process_and_compare.py:26, 132] *)
Record creader := { c_mode : cmode; c_field : text; c_row : list text; c_rows : list (list text) }.
(** python or library primitive, used at process_and_compare.py:26, 132 *)
Definition add_char (s : creader) (m : cmode) (c : ascii) : creader := {| c_mode := m; c_field := c :: c_field s; c_row := c_row s; c_rows := c_rows s |}.
(** python or library primitive, used at process_and_compare.py:26, 132 *)
Definition to_mode (s : creader) (m : cmode) : creader := {| c_mode := m; c_field := c_field s; c_row := c_row s; c_rows := c_rows s |}.
(** python or library primitive, used at process_and_compare.py:26, 132 *)
Definition end_field (s : creader) : creader := {| c_mode := BeforeField; c_field := []; c_row := rev (c_field s) :: c_row s; c_rows := c_rows s |}.
(** python or library primitive, used at process_and_compare.py:26, 132 *)
Definition end_row (s : creader) : creader :=
  {| c_mode := BeforeRow; c_field := []; c_row := []; c_rows := rev (rev (c_field s) :: c_row s) :: c_rows s |}.
(** One character. Other line ends than newlines do not occur, as files are opened in text mode. [python or library primitive, used at process_and_compare.py:25-26, 131-132] *)
Definition csv_char (s : creader) (c : ascii) : creader :=
  let field_start := if char_eqb c quote then to_mode s InQuotes else if char_eqb c comma then end_field s else add_char s InField c in
  match c_mode s with
  | BeforeRow => if char_eqb c nl then {| c_mode := BeforeRow; c_field := []; c_row := []; c_rows := [] :: c_rows s |} else field_start
  | BeforeField => if char_eqb c nl then end_row s else field_start
  | InField => if char_eqb c nl then end_row s else if char_eqb c comma then end_field s else add_char s InField c
  | InQuotes => if char_eqb c quote then to_mode s AfterQuote else add_char s InQuotes c
  | AfterQuote => if char_eqb c quote then add_char s InQuotes c else if char_eqb c comma then end_field s
                  else if char_eqb c nl then end_row s else add_char s InField c
  end.
(** The rows of a file with this text; a last row without a newline counts. The limit of 131072 characters in a field is left out. [python or library primitive, used at process_and_compare.py:25-26, 131-132] *)
Definition csv_read (t : text) : list (list text) :=
  let s := fold_left csv_char (universal t) {| c_mode := BeforeRow; c_field := []; c_row := []; c_rows := [] |} in
  rev (c_rows (match c_mode s with BeforeRow => s | _ => end_row s end)).

(** ---- the file of the results ---- *)
Section Export.
  (** str of a polynomial (a tuple or list of numbers), of a function object, of the type and of the parameters of convergence. [enum_params.py:476-477] *)
  Variables (show_poly : list (list Z) -> text) (show_func : Z -> text) (show_conv : conv -> text * text).
  (** enum_params.py:476-478 *)
  Definition row_texts (r : csv_row) : list text :=
    [show_poly (fst (cr_ab r)); show_poly (snd (cr_ab r)); show_func (cr_func r); cr_type r; cr_params r;
     fst (show_conv (cr_conv r)); snd (show_conv (cr_conv r)); cr_res r; cr_val r].
  (** enum_params.py:460-463 *)
  Definition titles : list text := map txt
    ["a poly2sympoly [a_0, a_1, ...]"; "b poly2sympoly  [b_0, b_1, ...]"; "postproc_func"; "LHS type"; "LHS params";
     "convergence type"; "convergence rate"; "postfunc(cont_frac)"; "LHS val"]%string.
  (** enum_params.py:450-482: the text of the file *)
  Definition export_text (f : text * list csv_row) : text :=
    csv_write ([txt "target_name"; fst f] :: titles :: map row_texts (snd f)).
End Export.

(** Specification of what a csv file says, whoever wrote it: fields with or without quotes, all kinds of line ends. *)
From Coq Require Import Ascii String List.
Import ListNotations.
Local Open Scope list_scope.

Definition comma_ch : ascii := ","%char.
Definition quote_ch : ascii := """"%char.
Definition lf_ch : ascii := "010"%char.
Definition cr_ch : ascii := "013"%char.
(** The same characters, with quotes doubled. *)
Inductive doubled : list ascii -> list ascii -> Prop :=
| db_nil : doubled [] []
| db_quote f g : doubled f g -> doubled (quote_ch :: f) (quote_ch :: quote_ch :: g)
| db_other c f g : c <> quote_ch -> doubled f g -> doubled (c :: f) (c :: g).
(** Characters that do not end a field. *)
Definition inside (f : list ascii) : Prop := forall c, In c f -> c <> comma_ch /\ c <> lf_ch /\ c <> cr_ch.
Definition no_quote_first (f : list ascii) : Prop := forall s, f <> quote_ch :: s.
(** A text for a field: without quotes, where a quote that is not the first character is a character like others; or in quotes, with further characters after
    the closing quote. *)
Inductive field_text : list ascii -> list ascii -> Prop :=
| ft_plain f : inside f -> no_quote_first f -> field_text f f
| ft_quoted f g h : ~ In cr_ch f -> doubled f g -> inside h -> no_quote_first h -> field_text (quote_ch :: g ++ quote_ch :: h) (f ++ h).
Inductive row_text : list ascii -> list (list ascii) -> Prop :=
| rt_one t f : field_text t f -> row_text t [f]
| rt_more t f u r : field_text t f -> row_text u r -> row_text (t ++ comma_ch :: u) (f :: r).
Definition line_end (e : list ascii) : Prop := e = [lf_ch] \/ e = [cr_ch; lf_ch] \/ e = [cr_ch].
(** A blank line is a row without fields; the last line end may be left out. *)
Inductive csv_text : list ascii -> list (list (list ascii)) -> Prop :=
| ct_end : csv_text [] []
| ct_last t r : row_text t r -> t <> [] -> csv_text t [r]
| ct_row t r e rest rows : row_text t r -> t <> [] -> line_end e -> (e = [cr_ch] -> forall s, rest <> lf_ch :: s) -> csv_text rest rows -> csv_text (t ++ e ++ rest) (r :: rows)
| ct_blank e rest rows : line_end e -> (e = [cr_ch] -> forall s, rest <> lf_ch :: s) -> csv_text rest rows -> csv_text (e ++ rest) ([] :: rows).

(** Specifications for whole runs of the program. *)
From Coq Require Import Ascii String ZArith QArith List Bool Permutation.
From Verif Require Import PyBase Rnd Spec_Enum Hashtable_Model ULCD_Model Rational_Model MITM_Model Results_Model Config_Model Consts_Model Main_Model Spec_MITM.
From Verif Require Enum_Model.
Import ListNotations.
Local Open Scope Z_scope.

(** The iteration over a set visits every element once. *)
Definition env_ok (v : env) : Prop := forall ab l, Permutation (v_order v ab l) l.
(** The value of a setting. *)
Definition setting (c : config) (k : string) (x : cval) : Prop := c_get c k = x.
Definition operation (c : config) (op : string) : Prop := c_get c "hashtable_file_operation" = CStr (txt op).
Definition table_path (c : config) (p : text) : Prop := c_get c "hashtable_file" = CStr p.
(** Only the table is wanted. *)
Definition table_only (c : config) : Prop := truthy (c_get c "gen_hashtable_only") = true.
Definition precision_ok (c : config) : Prop := forall h, c_get c "hashtable_precision" = CInt h -> 0 <= h.

(** The tables on the disk are those of objects that arise in runs. *)
Definition tables_built (w : world) : Prop := forall p s, In (p, s) (w_tables w) -> built (sv_mitm s).
(** A file that reports no result. *)
Definition reports_nothing (f : outfile) : Prop :=
  match f with OCsv (_, rows) => rows = [] | OTex eqns => eqns = [] | OPdf | OConf _ => True end.
Definition no_reports (w : world) : Prop := forall p f, In (p, f) (w_files w) -> reports_nothing f.

(** What a path holds. *)
Definition table_at (w : world) (p : text) : option saved := d_get text_eqb (w_tables w) p.
Definition file_at (w : world) (p : text) : option outfile := d_get text_eqb (w_files w) p.
(** The directory and the files of results. *)
Definition dir_of (t : text) : text := txt "results/" ++ t.
Definition result_names : list text := map txt ["results.csv"; "results.tex"; "results.pdf"; "config.ini"]%string.
Definition in_results (t p : text) : Prop := exists n, In n result_names /\ p = dir_of t ++ txt "/" ++ n.

(** Settings that are lists: of ints, and of the ranges of the coefficients. *)
Definition ints_setting (c : config) (k : string) (l : list Z) : Prop := c_get c k = CList (map JInt l).
Definition ranges_setting (c : config) (k : string) (r : list (list (Z * Z))) : Prop :=
  c_get c k = CList (map (fun p => JList (map (fun ab => JList [JInt (fst ab); JInt (snd ab)]) p)) r).

(** The pairs that the enumerator [en] yields for the ranges in the settings, when it comes to its end; [ex] tells
    whether fractions whose convergence is not exponential are skipped. *)
Definition bits50 : Z := mp_prec (set_dps 50).
Definition enumerates (v : env) (en : enumer) (ex : bool) (c : config) (pairs : list abpair) : Prop :=
  exists ra rb (x : mitm Empty_set), ranges_setting c "a_coeffs_range" ra /\ ranges_setting c "b_coeffs_range" rb /\
    mi_enum x = en /\ mi_exp_only x = ex /\
    rhs_pairs (rnd bits50) (v_fsqrt v) (v_ibinom v) (v_masks v) (v_target v) x ra rb = Ok (pairs, Ok tt).
(** The value of function number [i] at the fraction of [ab] with [n] iterations is recorded under [q]. *)
Definition records (v : env) (n : Z) (ab : abpair) (i : Z) (q : Q) : Prop :=
  gives (rnd bits50) (cf_value (rnd bits50) n) (EVALUATED_POSTPROC_FUNCS (mpf_ops (rnd bits50) (v_sq v))) true ab i q.
(** The pairs of the normal class for the ranges in the settings (see C48_pairs). *)
Definition normal_pair (v : env) (ex : bool) (c : config) (ab : abpair) : Prop :=
  exists ra rb pa pb, ranges_setting c "a_coeffs_range" ra /\ ranges_setting c "b_coeffs_range" rb /\
    in_ranges ra pa /\ in_ranges rb pb /\ collapses pa (fst ab) /\ collapses pb (snd ab) /\
    (forall p, In p pb -> Enum_Model.has_integer_roots (v_fsqrt v) p = false) /\
    (ex = true -> forall a b da db, fst ab = [a] -> snd ab = [b] -> is_degree a da -> is_degree b db -> db <= 2 * da).

(** The names of the table files in a directory. *)
Definition dir_list (w : world) (d : text) : list text :=
  flat_map (fun '(p, _) => match strip_prefix (d ++ txt "/") p with Some n => [n] | None => [] end) (w_tables w).
(** No text of a number begins like the text 'parameters'. *)
Definition numeric_texts (v : env) : Prop := forall q s, v_eng v q = Ok s -> forall k, s <> ("p"%char :: k).
(** The disks that arise when runs follow one another, starting without tables and results. *)
Inductive history : world -> Prop :=
| H_empty : forall w, w_tables w = [] -> w_files w = [] -> history w
| H_run : forall v listdir file w w' r, history w -> env_ok v -> numeric_texts v ->
    (forall c, load listdir file = Ok c -> precision_ok c) -> run v listdir file w = (w', r) -> history w'.
(** All settings are there; the index of the constant is an int or missing. *)
Definition complete (c : config) : Prop := forall k, In k (map fst CONFIG_PARAMS_TYPES) -> exists x, In (k, x) c.
Definition index_ok (c : config) : Prop := c_get c "i" = CNone \/ exists n, c_get c "i" = CInt n.
Definition known_constants : list string := ["e"; "pi"; "feig"; "euler_masch"; "percolation"; "zeta"; "phi"; "apery"]%string.

(** Settings that a run with the given operation does not read; with the operation 'use' the constant must still be one
    of those that work (see C86). *)
Definition unread (op : string) : list string :=
  ["validate_hashtable_extend_no_replication"; "is_test"]%string ++
  (if String.eqb op "expand" then ["hashtable_num_of_iterations"]
   else if String.eqb op "use" then
     ["hashtable_num_of_iterations"; "hashtable_precision"; "ab_polys_type"; "ab_polys_special_params"; "a_coeffs_range";
      "b_coeffs_range"; "postproc_funcs_filter"; "const"; "i"]
   else [])%string.
Definition good_constant (c : config) : Prop :=
  index_ok c /\ exists s, c_get c "const" = CStr (txt s) /\ In s ["e"; "pi"; "euler_masch"; "zeta"; "phi"; "apery"]%string.
Definition agree_on_read (op : string) (c c' : config) : Prop :=
  (forall k, ~ In k (unread op) -> c_get c k = c_get c' k) /\ (op = "use"%string -> good_constant c /\ good_constant c').
(** The same disk, except for what the copies of the settings say. *)
Definition same_but_settings (w w' : world) : Prop :=
  w_tables w = w_tables w' /\ w_dirs w = w_dirs w' /\
  forall p, file_at w p = file_at w' p \/ exists i i', file_at w p = Some (OConf i) /\ file_at w' p = Some (OConf i').
(** The text of the setting gen_hashtable_only that asks for the table only. *)
Definition only_text (op : text) (v : text) : Prop :=
  let s := lower (strip v) in s <> [] /\ s <> txt "none" /\ s <> txt "false" /\ (s = txt "auto" -> op <> txt "use").

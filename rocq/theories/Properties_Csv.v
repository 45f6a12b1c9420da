(** Claims C145 (csv files that are written are read back) and C146 (the texts of the stored results). *)
From Coq Require Import Ascii String ZArith List Bool Lia.
From Verif Require Import PyBase PyBase_Proofs Hashtable_Model Hashtable_Proofs MITM_Model Results_Model Config_Model Ini_Model Ini_Proofs Csv_Model Spec_Csv Csv_Proofs.
From Verif Require Import Spec_ULCD Spec_Legacy OldResults_Model OldTexts_Model Legacy_Model Legacy_Text Properties_Legacy Properties_OldResults.
Import ListNotations.
Local Open Scope list_scope.

(** ---- C145 ---- *)
Lemma universal_spec n : forall s, (length s <= n)%nat -> one_newline s (universal s).
Proof.
  induction n as [|n IH]; intros s L; [destruct s; [constructor|cbn in L; lia]|]. destruct s as [|c s]; [constructor|]. cbn in L. cbn [universal].
  destruct (char_eqb c cr) eqn:E; [|apply on_other; [now apply cneq|apply IH; lia]]. apply ceq in E. subst c. destruct s as [|d s].
  - apply on_cr; [discriminate|constructor].
  - cbn in L. destruct (char_eqb d nl) eqn:D.
    + apply ceq in D. subst d. apply on_crlf, IH. lia.
    + apply on_cr; [|apply IH; cbn; lia]. intros r [= -> _]. now rewrite crefl in D.
Qed.
(** Any rows, fields with commas, quotes and newlines included, are read back. *)
Theorem C145_read_written : forall rows, (forall r f, In r rows -> In f r -> ~ In "013"%char f) -> csv_read (csv_write rows) = rows.
Proof.
  intros rows H. rewrite read_written. rewrite <- (map_id rows) at 2. apply map_ext_in. intros r R. rewrite <- (map_id r) at 2. apply map_ext_in. intros f F.
  apply universal_id. intros c I E. apply (H r f R F). replace "013"%char with c; [exact I|]. rewrite <- (ascii_nat_embedding c), E. reflexivity.
Qed.
(** With carriage returns the rows and their fields are still there, and each line end has become a newline. *)
Theorem C145_line_ends : forall rows, Forall2 (Forall2 one_newline) rows (csv_read (csv_write rows)).
Proof.
  intros rows. rewrite read_written. induction rows as [|r rows IH]; cbn [map]; constructor; [|exact IH]. clear. induction r as [|f r IH]; cbn [map]; constructor; [|exact IH].
  now apply (universal_spec (length f)).
Qed.
Theorem C145_carriage_return_refuted : exists rows, csv_read (csv_write rows) <> rows.
Proof. exists [[["013"%char]]]. vm_compute. discriminate. Qed.
(** The file of the results: the name of the target, nine titles, nine fields for each result. *)
Theorem C145_export : forall show_poly show_func show_conv name rows,
  ~ In "013"%char name -> (forall r f, In r rows -> In f (row_texts show_poly show_func show_conv r) -> ~ In "013"%char f) ->
  let got := csv_read (export_text show_poly show_func show_conv (name, rows)) in
  nth_error got 0 = Some [txt "target_name"; name] /\
  (forall k r, nth_error rows k = Some r -> nth_error got (2 + k) =
     Some [show_poly (fst (cr_ab r)); show_poly (snd (cr_ab r)); show_func (cr_func r); cr_type r; cr_params r; fst (show_conv (cr_conv r)); snd (show_conv (cr_conv r));
           cr_res r; cr_val r]) /\
  length got = (2 + length rows)%nat /\ exists t, nth_error got 1 = Some t /\ length t = 9%nat /\ nth_error t 8 = Some (txt "LHS val").
Proof.
  intros sp sf sc name rows N H got. assert (G : got = [txt "target_name"; name] :: titles :: map (row_texts sp sf sc) rows).
  { unfold got, export_text. cbn [fst snd]. apply C145_read_written. intros r f [<-|[<-|I]] F.
    - destruct F as [<-|[<-|[]]]; [|exact N]. vm_compute. intuition discriminate.
    - unfold titles in F. repeat (destruct F as [<-|F]; [vm_compute; intuition discriminate|]). destruct F.
    - apply in_map_iff in I. destruct I as (q & <- & Q). now apply (H q f). }
  rewrite G. split; [reflexivity|]. split; [|split].
  - intros k r K. cbn [nth_error Nat.add]. now rewrite (map_nth_error _ _ _ K).
  - cbn [length Nat.add]. now rewrite map_length.
  - exists titles. now repeat split.
Qed.
(** Different results give different files. *)
Theorem C145_different : forall rows rows', (forall r f, In r rows -> In f r -> ~ In "013"%char f) -> (forall r f, In r rows' -> In f r -> ~ In "013"%char f) ->
  csv_write rows = csv_write rows' -> rows = rows'.
Proof. intros a b A B E. rewrite <- (C145_read_written a A), <- (C145_read_written b B). now rewrite E. Qed.
Example C145_ex : let rows := [map txt ["((1, 2), (3,))"; "a""b"; ""]; []; [[]]; [txt "x"; ["010"%char]]]%string in
  csv_read (csv_write rows) = rows /\ csv_write [map txt ["(1, 2)"; "a""b"; ""]%string] = txt """(1, 2)"",""a""""b""," ++ ["013"%char; "010"%char] /\
  csv_read (txt "a,b""c,""d""e") = [map txt ["a"; "b""c"; "de"]%string].
Proof. repeat split; vm_compute; reflexivity. Qed.

(** ---- C146 ---- *)
(** The rows of the texts are those of OldResults_Model with further columns. *)
Definition with_columns (s : stored_row) (rest : list (list ascii)) : old_result :=
  {| old_a := [sr_a s]; old_b := [sr_b s]; old_func := sr_func s; old_u := sr_u s; old_l := sr_l s; old_c := sr_c s; old_d := sr_d s;
     old_flat_a := false; old_flat_b := false; old_rest := rest |}.
Fixpoint tables_eqb (a b : list (list text)) : bool :=
  match a, b with
  | [], [] => true
  | x :: a', y :: b' => (length x =? length y)%nat && forallb (fun '(p, q) => text_eqb p q) (combine x y) && tables_eqb a' b'
  | _, _ => false
  end.
Lemma row_eqb_eq x : forall y, (length x =? length y)%nat = true -> forallb (fun '(p, q) => text_eqb p q) (combine x y) = true -> x = y.
Proof.
  induction x as [|p x IH]; intros [|q y] L F; try discriminate; [reflexivity|]. cbn in L, F. apply andb_true_iff in F. destruct F as [F1 F2]. apply text_eqb_eq in F1.
  f_equal; [exact F1|]. now apply IH.
Qed.
Lemma tables_eqb_eq a : forall b, tables_eqb a b = true -> a = b.
Proof.
  induction a as [|x a IH]; intros [|y b] H; try discriminate; [reflexivity|]. cbn [tables_eqb] in H. apply andb_true_iff in H. destruct H as [H T].
  apply andb_true_iff in H. destruct H as [L F]. f_equal; [now apply row_eqb_eq|now apply IH].
Qed.
Definition file_rest (f : stored_file) (rows : list (list text)) : list old_result :=
  map (fun '(s, row) => with_columns s (skipn 7 row)) (combine (sf_rows f) (skipn 2 rows)).
Definition text_ok (f : stored_file) (nt : string * text) : bool :=
  String.eqb (sf_name f) (fst nt) &&
  (let rows := csv_read (snd nt) in (length (sf_rows f) =? length (skipn 2 rows))%nat && tables_eqb rows (file_text f (nth 1 rows []) (file_rest f rows))).
Lemma texts_ok : (length stored_files =? length stored_texts)%nat && forallb (fun '(f, nt) => text_ok f nt) (combine stored_files stored_texts) = true.
Proof. vm_compute. reflexivity. Qed.
Lemma rest_same ss : forall rows, length ss = length rows -> Forall2 same_result ss (map (fun '(s, row) => with_columns s (skipn 7 row)) (combine ss rows)).
Proof. induction ss as [|s ss IH]; intros [|r rows] L; try discriminate; cbn; constructor; [repeat split|]. apply IH. now injection L. Qed.
Lemma pair_ok f : In f stored_files -> exists nt, In nt stored_texts /\ text_ok f nt = true.
Proof.
  pose proof texts_ok as T. apply andb_true_iff in T. destruct T as [L F]. apply Nat.eqb_eq in L. revert L F. generalize stored_texts as ts. generalize stored_files as fs.
  induction fs as [|g fs IH]; intros [|t ts] L F I; try discriminate; [destruct I|]. cbn in F. apply andb_true_iff in F. destruct F as [F1 F2]. destruct I as [->|I]; [exists t; cbn; auto|].
  destruct (IH ts) as (nt & J & O); [now injection L|exact F2|exact I|]. exists nt. split; [now right|exact O].
Qed.
Lemma text_pair nt : In nt stored_texts -> exists f, In f stored_files /\ text_ok f nt = true.
Proof.
  pose proof texts_ok as T. apply andb_true_iff in T. destruct T as [L F]. apply Nat.eqb_eq in L. revert L F. generalize stored_files as fs. generalize stored_texts as ts.
  induction ts as [|t ts IH]; intros [|g fs] L F I; try discriminate; [destruct I|]. cbn in F. apply andb_true_iff in F. destruct F as [F1 F2]. destruct I as [->|I]; [exists g; cbn; auto|].
  destruct (IH fs) as (f & J & O); [now injection L|exact F2|exact I|]. exists f. split; [now right|exact O].
Qed.
Lemma text_ok_rows f nt : text_ok f nt = true -> sf_name f = fst nt /\ exists titles rs, csv_read (snd nt) = file_text f titles rs /\ Forall2 same_result (sf_rows f) rs.
Proof.
  intros O. unfold text_ok in O. apply andb_true_iff in O. destruct O as [N O]. cbv zeta in O. apply andb_true_iff in O. destruct O as [L E]. apply Nat.eqb_eq in L.
  apply tables_eqb_eq in E. split; [now apply String.eqb_eq|]. exists (nth 1 (csv_read (snd nt)) []), (file_rest f (csv_read (snd nt))). split; [exact E|]. now apply rest_same.
Qed.
(** What the stored files say, as the csv reader reads their bytes. *)
Theorem C146_texts : forall name t, In (name, t) stored_texts ->
  exists f titles rs, In f stored_files /\ sf_name f = name /\ csv_read t = file_text f titles rs /\ Forall2 same_result (sf_rows f) rs.
Proof.
  intros name t I. destruct (text_pair _ I) as (f & J & O). destruct (text_ok_rows f _ O) as (N & titles & rs & E & S). exists f, titles, rs. auto.
Qed.
Theorem C146_all_files : forall f, In f stored_files -> exists t titles rs, In (sf_name f, t) stored_texts /\ csv_read t = file_text f titles rs /\ Forall2 same_result (sf_rows f) rs.
Proof.
  intros f I. destruct (pair_ok f I) as ([n t] & J & O). destruct (text_ok_rows f _ O) as (N & titles & rs & E & S). cbn [fst snd] in *. exists t, titles, rs. rewrite N. auto.
Qed.
(** None of the files with results is converted. *)
Theorem C146_conversion_refuted : forall sq pt et path given name t, In (name, t) stored_texts -> (2 < length (csv_read t))%nat ->
  exists e, old_enum_csv_to_pdf sq pt et path (csv_read t) given = Raise e.
Proof.
  intros sq pt et path given name t I L. destruct (C146_texts name t I) as (f & titles & rs & J & _ & E & S). rewrite E in *. apply C135_results_refuted; [exact J| |exact S].
  intros Z. rewrite Z in S. inversion S; subst rs. cbn in L. lia.
Qed.
(** The oldest file has no column for the function; its polynomials are not in lists. *)
Theorem C146_oldest : exists titles rest, length rest = length (sf_rows old_results) /\
  csv_read csv_results = [chars "postproc_func"; chars "1/x"] :: titles :: map (fun '(s, more) => [poly_tuple (sr_a s); poly_tuple (sr_b s); int_chars (sr_u s); int_chars (sr_l s); int_chars (sr_c s);
    int_chars (sr_d s)] ++ more) (combine (sf_rows old_results) rest) /\
  forall sq pt et path, old_enum_csv_to_pdf sq pt et path (csv_read csv_results) None = Raise ValueError.
Proof.
  exists (nth 1 (csv_read csv_results) []), (map (skipn 6) (skipn 2 (csv_read csv_results))). split; [vm_compute; reflexivity|]. split.
  - apply tables_eqb_eq. vm_compute. reflexivity.
  - intros. assert (H : exists rows, csv_read csv_results = [chars "postproc_func"; chars "1/x"] :: rows) by (eexists; vm_compute; reflexivity).
    destruct H as [rows ->]. apply C135_oldest_refuted.
Qed.
Example C146_ex : length stored_texts = 31%nat /\ In ("results_0117_050418.csv"%string, csv_results_0117_050418) stored_texts /\
  nth_error (csv_read csv_results_0117_050418) 2 = Some (map chars ["((-1, -2, 0),)"; "((0, 0, 1),)"; "0"; "0"; "-2"; "0"; "2"; "exp"]%string ++ skipn 8 (nth 2 (csv_read csv_results_0117_050418) [])) /\
  (2 < length (csv_read csv_results_0117_050418))%nat.
Proof. split; [reflexivity|]. split; [unfold stored_texts; repeat (first [left; reflexivity|right])|]. split; vm_compute; [reflexivity|lia]. Qed.

Print Assumptions C145_read_written.
Print Assumptions C145_line_ends.
Print Assumptions C145_carriage_return_refuted.
Print Assumptions C145_export.
Print Assumptions C145_different.
Print Assumptions C146_texts.
Print Assumptions C146_all_files.
Print Assumptions C146_conversion_refuted.
Print Assumptions C146_oldest.

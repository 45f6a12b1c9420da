(** Claim C150: what a csv file says, whoever wrote it. *)
From Coq Require Import Ascii String ZArith List Bool Lia.
From Verif Require Import PyBase PyBase_Proofs Hashtable_Model Hashtable_Proofs Results_Model Config_Model Ini_Model Ini_Proofs Csv_Model Csv_Proofs Spec_CsvRead.
Import ListNotations.
Local Open Scope list_scope.

Lemma doubled_dbl f g : doubled f g -> g = dbl f.
Proof.
  induction 1 as [|f g H IH|c f g N H IH]; [reflexivity| |]; unfold dbl; cbn [flat_map]; fold (dbl f).
  - change (char_eqb quote_ch quote) with true. cbn [app]. now rewrite IH.
  - assert (E : char_eqb c quote = false) by now apply cneq. rewrite E. cbn [app]. now rewrite IH.
Qed.
Lemma dbl_in c f : In c (dbl f) -> In c f.
Proof.
  induction f as [|d f IH]; [easy|]. unfold dbl. cbn [flat_map]. fold (dbl f). intros H. apply in_app_iff in H as [H|H]; [left|right; now apply IH].
  destruct (char_eqb d quote) eqn:E; [apply ceq in E; subst d; destruct H as [H|[H|[]]]; exact H|destruct H as [H|[]]; exact H].
Qed.
Lemma field_no_cr t f : field_text t f -> ~ In cr_ch t.
Proof.
  intros [f' H _|f' g h N D H _] I; [now apply (H _ I)|]. apply doubled_dbl in D. subst g. destruct I as [I|I]; [discriminate|]. apply in_app_iff in I as [I|[I|I]]; [|discriminate|now apply (H _ I)].
  exact (N (dbl_in _ _ I)).
Qed.
Lemma row_no_cr t r : row_text t r -> ~ In cr_ch t.
Proof.
  induction 1 as [t f H|t f u r H R IH]; [exact (field_no_cr _ _ H)|]. intros I. apply in_app_iff in I as [I|[I|I]]; [exact (field_no_cr _ _ H I)|discriminate|exact (IH I)].
Qed.
Lemma universal_none t x : ~ In cr_ch t -> universal (t ++ x) = t ++ universal x.
Proof.
  induction t as [|c t IH]; intros N; [reflexivity|]. cbn [app universal]. assert (E : char_eqb c cr = false) by (apply cneq; intros ->; apply N; now left).
  rewrite E, IH; [reflexivity|]. intros I. apply N. now right.
Qed.
Lemma universal_end e rest : line_end e -> (e = [cr_ch] -> forall s, rest <> lf_ch :: s) -> universal (e ++ rest) = nl :: universal rest.
Proof.
  intros [->|[->| ->]] H; [reflexivity|reflexivity|]. cbn [app universal]. change (char_eqb cr_ch cr) with true. cbv iota. f_equal. destruct rest as [|d rest]; [reflexivity|].
  assert (E : char_eqb d nl = false) by (apply cneq; intros ->; now apply (H eq_refl rest)). now rewrite E.
Qed.
(** after the text of a field *)
Definition ends (s : creader) (row : list text) rs : Prop :=
  c_mode s <> BeforeRow /\ end_row s = mk BeforeRow [] [] (row :: rs) /\ csv_char s nl = end_row s.
Lemma inside_code c f : inside f -> In c f -> char_eqb c comma = false /\ char_eqb c nl = false.
Proof. intros H I. destruct (H c I) as (A & B & _). split; apply cneq; assumption. Qed.
Lemma run_inside f : inside f -> forall g r rs, run (mk InField g r rs) f = mk InField (rev f ++ g) r rs.
Proof.
  induction f as [|c f IH]; intros H g r rs; [reflexivity|]. destruct (inside_code c (c :: f) H (or_introl eq_refl)) as [A B].
  unfold run. cbn [fold_left]. unfold csv_char at 2. cbn [c_mode mk]. rewrite A, B.
  change (run (mk InField (c :: g) r rs) f = mk InField (rev (c :: f) ++ g) r rs). rewrite IH by (intros d D; apply H; now right). cbn [rev]. now rewrite <- app_assoc.
Qed.
Lemma in_field_ends f r rs : csv_char (mk InField (rev f) r rs) comma = mk BeforeField [] (f :: r) rs /\ ends (mk InField (rev f) r rs) (rev (f :: r)) rs.
Proof.
  split; [unfold csv_char; cbn [c_mode mk]; change (char_eqb comma nl) with false; rewrite crefl; unfold end_field; cbn [c_field c_row c_rows mk]; now rewrite rev_involutive|].
  split; [discriminate|]. split; [|reflexivity]. unfold end_row. cbn [c_field c_row c_rows mk]. now rewrite rev_involutive.
Qed.
Lemma run_field_text m t f r rs : fresh m -> field_text t f ->
  csv_char (run (mk m [] r rs) t) comma = mk BeforeField [] (f :: r) rs /\
  (m = BeforeField \/ t <> [] -> ends (run (mk m [] r rs) t) (rev (f :: r)) rs).
Proof.
  intros M [f' H Q|f' g h N D H Q].
  - destruct f' as [|c f'].
    + destruct M as [->| ->]; (split; [reflexivity|]); intros [Z|Z]; try discriminate; try congruence; (split; [discriminate|split; reflexivity]).
    + destruct (inside_code c (c :: f') H (or_introl eq_refl)) as [A NL]. assert (B : char_eqb c quote = false) by (apply cneq; intros ->; now apply (Q f')).
      assert (X : run (mk m [] r rs) (c :: f') = mk InField (rev (c :: f')) r rs).
      { change (c :: f') with ([c] ++ f') at 1. rewrite run_app. replace (run (mk m [] r rs) [c]) with (mk InField [c] r rs).
        - rewrite run_inside by (intros d I; apply H; now right). reflexivity.
        - unfold run. cbn [fold_left]. unfold csv_char. destruct M as [->| ->]; cbn [c_mode mk]; rewrite A, B, NL; reflexivity. }
      rewrite X. destruct (in_field_ends (c :: f') r rs) as [E1 E2]. auto.
  - apply doubled_dbl in D. subst g.
    assert (X : run (mk m [] r rs) (quote_ch :: dbl f' ++ [quote_ch]) = mk AfterQuote (rev f') r rs).
    { change (quote_ch :: dbl f' ++ [quote_ch]) with ([quote] ++ dbl f' ++ [quote]). rewrite !run_app. replace (run (mk m [] r rs) [quote]) with (mk InQuotes [] r rs) by (destruct M as [->| ->]; reflexivity).
      rewrite run_dbl, app_nil_r. reflexivity. }
    assert (T : quote_ch :: dbl f' ++ quote_ch :: h = (quote_ch :: dbl f' ++ [quote_ch]) ++ h) by (cbn [app]; now rewrite <- app_assoc). rewrite T, run_app, X. destruct h as [|c h].
    + rewrite app_nil_r. change (run ?s []) with s. split.
      * unfold csv_char. cbn [c_mode mk]. change (char_eqb comma quote) with false. rewrite crefl. unfold end_field. cbn [c_field c_row c_rows mk]. now rewrite rev_involutive.
      * intros _. split; [discriminate|]. split; [|reflexivity]. unfold end_row. cbn [c_field c_row c_rows mk]. now rewrite rev_involutive.
    + destruct (inside_code c (c :: h) H (or_introl eq_refl)) as [A NL]. assert (B : char_eqb c quote = false) by (apply cneq; intros ->; now apply (Q h)).
      assert (Y : run (mk AfterQuote (rev f') r rs) (c :: h) = mk InField (rev (f' ++ c :: h)) r rs).
      { change (c :: h) with ([c] ++ h) at 1. rewrite run_app. replace (run (mk AfterQuote (rev f') r rs) [c]) with (mk InField (c :: rev f') r rs).
        - rewrite run_inside by (intros d I; apply H; now right). rewrite rev_app_distr. cbn [rev]. now rewrite <- app_assoc.
        - unfold run. cbn [fold_left]. unfold csv_char. cbn [c_mode mk]. rewrite A, B, NL. reflexivity. }
      rewrite Y. destruct (in_field_ends (f' ++ c :: h) r rs) as [E1 E2]. auto.
Qed.
Lemma run_row_text t r : row_text t r -> forall m q rs, fresh m -> (m = BeforeField \/ t <> []) -> ends (run (mk m [] q rs) t) (rev q ++ r) rs.
Proof.
  induction 1 as [t f H|t f u r H R IH]; intros m q rs M N; destruct (run_field_text m t f q rs M H) as [A B].
  - exact (B N).
  - rewrite run_app. change (run ?s (comma_ch :: ?x)) with (run (csv_char s comma) x). rewrite A. specialize (IH BeforeField (f :: q) rs (or_intror eq_refl) (or_introl eq_refl)).
    cbn [rev] in IH. rewrite <- app_assoc in IH. exact IH.
Qed.
Lemma run_text t rows : csv_text t rows -> forall rs, let s := run (mk BeforeRow [] [] rs) (universal t) in
  c_rows (match c_mode s with BeforeRow => s | _ => end_row s end) = rev rows ++ rs.
Proof.
  assert (FR : fresh BeforeRow) by now left.
  induction 1 as [|t r R N|t r e rest rows R N E G F IH|e rest rows E G F IH]; intros rs.
  - reflexivity.
  - cbv zeta. rewrite <- (app_nil_r t), (universal_none t [] (row_no_cr _ _ R)). cbn [universal]. rewrite app_nil_r.
    destruct (run_row_text _ _ R BeforeRow [] rs FR (or_intror N)) as (A & B & _). cbn [rev app] in B.
    destruct (c_mode (run (mk BeforeRow [] [] rs) t)); [now elim A| | | |]; rewrite B; reflexivity.
  - cbv zeta. rewrite (universal_none t _ (row_no_cr _ _ R)), (universal_end e rest E G), run_app. change (run ?s (nl :: ?x)) with (run (csv_char s nl) x).
    destruct (run_row_text _ _ R BeforeRow [] rs FR (or_intror N)) as (_ & B & C). cbn [rev app] in B. rewrite C, B. cbn [rev]. rewrite <- app_assoc. exact (IH (r :: rs)).
  - cbv zeta. rewrite (universal_end e rest E G). change (run ?s (nl :: ?x)) with (run (csv_char s nl) x). cbn [rev]. rewrite <- app_assoc. exact (IH ([] :: rs)).
Qed.
Theorem C150_read : forall t rows, csv_text t rows -> csv_read t = rows.
Proof.
  intros t rows H. unfold csv_read. change (fold_left csv_char ?x _) with (run (mk BeforeRow [] [] []) x). pose proof (run_text t rows H []) as R. cbv zeta in R |- *. rewrite R, app_nil_r. apply rev_involutive.
Qed.
(** So a text says one thing only. *)
Theorem C150_one_meaning : forall t rows rows', csv_text t rows -> csv_text t rows' -> rows = rows'.
Proof. intros t a b A B. apply C150_read in A, B. congruence. Qed.
(** A file made with another program: quotes that are not needed or stand inside, a blank line, all kinds of line ends, none at the end. *)
Example C150_ex : csv_text (txt """a,""""b"""""",1""2" ++ [cr_ch] ++ txt """c""d""," ++ [cr_ch; lf_ch] ++ [lf_ch] ++ txt """""") [[txt "a,""b"""; txt "1""2"]; [txt "cd"""; []]; []; [[]]].
Proof.
  assert (P : forall f, existsb (fun c => existsb (char_eqb c) [comma_ch; lf_ch; cr_ch]) f = false -> inside f).
  { intros f H c I. assert (N : forall d, In d [comma_ch; lf_ch; cr_ch] -> c <> d); [|repeat split; apply N; cbn; tauto].
    intros d D E. subst d. assert (T : existsb (fun c => existsb (char_eqb c) [comma_ch; lf_ch; cr_ch]) f = true); [|congruence].
    apply existsb_exists. exists c. split; [exact I|]. apply existsb_exists. exists c. split; [exact D|apply crefl]. }
  apply (ct_row (txt """a,""""b"""""",1""2") _ [cr_ch]); [|discriminate|right; right; reflexivity|intros _ s E; discriminate|].
  - apply (rt_more (txt """a,""""b""""""") (txt "a,""b""") (txt "1""2")); [|apply rt_one, ft_plain; [apply P; reflexivity|discriminate]]. apply (ft_quoted (txt "a,""b""") (txt "a,""""b""""") []); [| |apply P; reflexivity|discriminate].
    + intros I. repeat (destruct I as [I|I]; [discriminate|]). destruct I.
    + apply db_other; [discriminate|]. apply db_other; [discriminate|]. apply (db_quote (txt "b""") (txt "b""""")). apply db_other; [discriminate|]. apply db_quote. constructor.
  - apply (ct_row (txt """c""d"",") _ [cr_ch; lf_ch]); [|discriminate|right; left; reflexivity|discriminate|].
    + apply (rt_more (txt """c""d""") (txt "cd""") []); [|apply rt_one, ft_plain; [apply P; reflexivity|discriminate]].
      apply (ft_quoted (txt "c") (txt "c") (txt "d""")); [intros [I|[]]; discriminate| |apply P; reflexivity|discriminate]. apply db_other; [discriminate|constructor].
    + apply (ct_blank [lf_ch]); [now left|discriminate|]. apply ct_last; [|discriminate]. apply rt_one. apply (ft_quoted [] [] []); [easy|constructor|easy|discriminate].
Qed.

Print Assumptions C150_read.
Print Assumptions C150_one_meaning.

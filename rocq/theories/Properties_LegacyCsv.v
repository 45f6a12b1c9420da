(** Claim C149: the texts of the files that the analysis of continued fractions reads. *)
From Coq Require Import Ascii String ZArith QArith List Bool Lia.
From Verif Require Import PyBase PyBase_Proofs Utils_Model ContFrac_Model Hashtable_Model Hashtable_Proofs MITM_Model Results_Model Config_Model Ini_Model Ini_Proofs Csv_Model Csv_Proofs Classify_Model.
From Verif Require Import Spec_ULCD Config_Proofs Spec_Config Scripts_Model Scripts_Proofs Spec_Legacy Legacy_Model Legacy_Text Legacy_Regex Properties_Legacy2.
Import ListNotations.
Local Open Scope Z_scope.
Local Open Scope list_scope.

Lemma universal_no_cr f : ~ In "013"%char f -> universal f = f.
Proof. intros H. apply universal_id. intros c I E. apply H. replace "013"%char with c; [exact I|]. rewrite <- (ascii_nat_embedding c), E. reflexivity. Qed.
Lemma sep_by_in c sep : forall xs, In c (sep_by sep xs) -> In c sep \/ exists x, In x xs /\ In c x.
Proof.
  induction xs as [|x xs IH]; intros H; [destruct H|]. destruct xs as [|y ys]; [right; exists x; split; [now left|exact H]|].
  change (sep_by sep (x :: y :: ys)) with (x ++ sep ++ sep_by sep (y :: ys)) in H. apply in_app_iff in H as [H|H]; [right; exists x; split; [now left|exact H]|].
  apply in_app_iff in H as [H|H]; [now left|]. destruct (IH H) as [G|(z & Z1 & Z2)]; [now left|right; exists z; split; [now right|exact Z2]].
Qed.
Lemma list_str_no_cr xs : (forall x, In x xs -> ~ In "013"%char x) -> ~ In "013"%char (list_str xs).
Proof.
  intros H I. unfold list_str in I. apply in_app_iff in I as [I|I]; [destruct I as [I|[]]; discriminate|]. apply in_app_iff in I as [I|I]; [|destruct I as [I|[]]; discriminate].
  destruct (sep_by_in _ _ _ I) as [G|(x & X & G)]; [destruct G as [G|[G|[]]]; discriminate|exact (H x X G)].
Qed.
Lemma polys_no_cr ps : ~ In "013"%char (polys_list ps).
Proof.
  apply list_str_no_cr. intros x X. apply in_map_iff in X as (p & <- & _). apply list_str_no_cr. intros y Y. apply in_map_iff in Y as (z & <- & _).
  intros I. pose proof (z_text_blank z) as B. rewrite Forall_forall in B. specialize (B _ I). discriminate B.
Qed.
Lemma filter_all {A} (f : A -> bool) l : Forall (fun x => f x = true) l -> filter f l = l.
Proof. induction 1 as [|x l H F IH]; [reflexivity|]. cbn [filter]. now rewrite H, IH. Qed.

(** A fraction of such a file: polynomials with three coefficients, a formula without blanks of the allowed characters that python can evaluate, pi or e. *)
Definition plain_item (evals : text -> bool) (it : list (list Z) * list (list Z) * text * bool) : Prop :=
  let '(a, b, f, _) := it in
  a <> [] /\ b <> [] /\ Forall (fun p => length p = 3%nat) a /\ Forall (fun p => length p = 3%nat) b /\
  f <> [] /\ (forall c, In c f -> In c formula_start /\ ~ In c blanks) /\ evals (chars "lambda x: " ++ f) = true.
Definition item_row (it : list (list Z) * list (list Z) * text * bool) : list text :=
  let '(a, b, f, pi) := it in printed_row a b f (if pi : bool then chars "pi" else chars "e").
Definition item_params (it : list (list Z) * list (list Z) * text * bool) : lparams :=
  let '(a, b, f, pi) := it in {| lp_a := a; lp_b := b; lp_formula := f; lp_x := if pi : bool then LPi else LE |}.
Lemma item_no_cr evals it : plain_item evals it -> map universal (item_row it) = item_row it.
Proof.
  destruct it as [[[a b] f] pi]. intros (_ & _ & _ & _ & _ & FC & _). unfold item_row, printed_row. cbn [map]. rewrite !(universal_no_cr _ (polys_no_cr _)).
  rewrite (universal_no_cr f); [now destruct pi|]. intros I. destruct (FC _ I) as [_ N]. apply N. unfold blanks. vm_compute. tauto.
Qed.
Lemma item_loads evals it : plain_item evals it -> snd (load_cf_row evals (item_row it)) = Ok (Some (item_params it)).
Proof.
  destruct it as [[[a b] f] pi]. intros (NA & NB & LA & LB & NF & FC & EV). unfold item_row, printed_row, load_cf_row.
  assert (T : forall ps, Forall (fun p => length p = 3%nat) ps -> triples (polys_list ps) = Ok ps).
  { intros ps F. apply triples_iff. replace ps with (filter (fun p => Nat.eqb (length p) 3) ps) at 2; [apply scan_polys|]. apply filter_all.
    eapply Forall_impl; [|exact F]. intros p E. now rewrite E. }
  change (py_nth (polys_list a :: ?r) 0) with (Ok (polys_list a)). cbn [bind]. rewrite (T a LA). cbn [bind]. destruct a as [|a0 a]; [contradiction|].
  change (py_nth (?x :: polys_list b :: ?r) 1) with (Ok (polys_list b)). cbn [bind]. rewrite (T b LB). cbn [bind]. destruct b as [|b0 b]; [contradiction|].
  change (py_nth (?x :: ?y :: f :: ?r) 2) with (Ok f). cbn [bind].
  assert (TF : strip f = f).
  { symmetry. apply strip_trimmed. exists [], []. split; [now rewrite app_nil_r|]. split; [constructor|]. split; [constructor|]. split; intros c r ->; apply FC; [now left|]. apply in_or_app. right. now left. }
  rewrite TF. pose proof (proj2 (match_formula f)) as MF. destruct (re_match (RPlus formula_char) f); [|elim MF; [|reflexivity]; destruct f as [|c r]; [contradiction|]; exists c, r; split; [reflexivity|apply FC; now left]].
  cbn [snd]. change (txt "lambda x: ") with (chars "lambda x: "). rewrite EV. destruct pi; reflexivity.
Qed.
(** Fractions written to a csv file are loaded from its text, all of them and in order. *)
Theorem C149_loaded : forall evals items, Forall (plain_item evals) items ->
  snd (load_cont_fracs evals (csv_read (csv_write (map item_row items)))) = Ok (map item_params items).
Proof.
  intros evals items F. rewrite read_written, map_map. induction F as [|it items H F IH]; [reflexivity|]. cbn [map load_cont_fracs].
  rewrite (item_no_cr evals it H). pose proof (item_loads evals it H) as L. destruct (load_cf_row evals (item_row it)) as [ev r]. cbn [snd] in L. subst r.
  destruct (load_cont_fracs evals (map (fun x => map universal (item_row x)) items)) as [ev' y]. cbn [snd] in IH |- *. now rewrite IH.
Qed.
Example C149_ex : plain_item (fun _ => true) ([[1; 2; 3]], [[0; -1; 4]; [7; 0; 1]], txt "(4+x)/x", true) /\
  csv_write [item_row ([[1; 2; 3]], [[0; -1; 4]; [7; 0; 1]], txt "(4+x)/x", true)] = txt """[[1, 2, 3]]"",""[[0, -1, 4], [7, 0, 1]]"",(4+x)/x,pi" ++ [cr; nl].
Proof.
  split; [|vm_compute; reflexivity]. repeat split; try discriminate; try (repeat constructor; fail).
  - repeat (destruct H as [<-|H]; [apply formula_in; reflexivity|]). destruct H.
  - intros I. apply inset_spec in I. repeat (destruct H as [<-|H]; [discriminate I|]). destruct H.
Qed.

(** ---- the results of a search ---- *)
Lemma angle_row evals (ta tb r : text) more : snd (load_cf_row evals (ta :: tb :: ("<"%char :: r) :: more)) = Ok None.
Proof.
  unfold load_cf_row. rewrite (py_nth_at [] ta _ : py_nth (ta :: _) 0 = Ok ta). cbn [bind]. destruct (triples_scan ta) as (a & -> & _). cbn [bind]. destruct a as [|a0 a]; [reflexivity|].
  rewrite (py_nth_at [ta] tb _ : py_nth (ta :: tb :: _) 1 = Ok tb). cbn [bind]. destruct (triples_scan tb) as (b & -> & _). cbn [bind]. destruct b as [|b0 b]; [reflexivity|].
  rewrite (py_nth_at [ta; tb] ("<"%char :: r) more : py_nth (ta :: tb :: ("<"%char :: r) :: more) 2 = Ok ("<"%char :: r)). cbn [bind].
  destruct (re_match (RPlus formula_char) (strip ("<"%char :: r))) as [x|] eqn:E; [exfalso|reflexivity].
  assert (M : re_match (RPlus formula_char) (strip ("<"%char :: r)) <> None) by congruence. apply match_formula in M as (c & s & E2 & I).
  assert (T : trimmed blanks ("<"%char :: r) (c :: s)) by (apply strip_trimmed; now rewrite <- E2).
  destruct T as (p & q & EQ & P & _). assert (B : ~ In "<"%char blanks) by (intros Z; apply inset_spec in Z; discriminate Z).
  destruct p as [|p0 p]; [|injection EQ as <- _; inversion P as [|? ? P1]; contradiction]. injection EQ as <- _. apply formula_in in I. discriminate I.
Qed.
(** The file with the results of a search, given to the analysis of continued fractions, has nothing that it can analyse: no error is raised, and the
    answer is empty, whatever the results. Functions print as texts that begin with "<". *)
Theorem C149_results_refuted : forall rd evals apply fit conv_of show_poly show_func show_conv name rows path,
  (forall i, exists r, show_func i = "<"%char :: r) ->
  analyze_contfracs_csv rd evals apply fit conv_of path (csv_read (export_text show_poly show_func show_conv (name, rows))) (txt "cont_frac") = ([], Ok ([], [])).
Proof.
  intros rd evals apply fit conv_of sp sf sc name rows path H. unfold export_text. cbn [fst snd]. rewrite read_written. cbn [map]. unfold analyze_contfracs_csv.
  destruct (path_split path) as [d f]. cbv zeta. change (text_eqb (txt "cont_frac") (txt "enum_res")) with false. change (text_eqb (txt "cont_frac") (txt "cont_frac")) with true. cbv iota.
  assert (L : snd (load_cont_fracs evals ([universal (txt "target_name"); universal name] :: map universal titles :: map (map universal) (map (row_texts sp sf sc) rows))) = Ok []).
  { assert (R : snd (load_cont_fracs evals (map (map universal) (map (row_texts sp sf sc) rows))) = Ok []).
    { induction rows as [|r rows IH]; [reflexivity|]. cbn [map load_cont_fracs]. destruct (H (cr_func r)) as [s S].
      pose proof (angle_row evals (universal (sp (fst (cr_ab r)))) (universal (sp (snd (cr_ab r)))) (universal s)
        (map universal [cr_type r; cr_params r; fst (sc (cr_conv r)); snd (sc (cr_conv r)); cr_res r; cr_val r])) as A.
      assert (E : map universal (row_texts sp sf sc r) = universal (sp (fst (cr_ab r))) :: universal (sp (snd (cr_ab r))) :: ("<"%char :: universal s) ::
        map universal [cr_type r; cr_params r; fst (sc (cr_conv r)); snd (sc (cr_conv r)); cr_res r; cr_val r]) by (unfold row_texts; rewrite S; reflexivity).
      rewrite E. destruct (load_cf_row evals _) as [ev y]. cbn [snd] in A. subst y. destruct (load_cont_fracs evals (map (map universal) (map (row_texts sp sf sc) rows))) as [ev' y].
      cbn [snd] in IH |- *. now rewrite IH. }
    cbn [load_cont_fracs]. assert (A : load_cf_row evals [universal (txt "target_name"); universal name] = ([], Ok None)) by (unfold load_cf_row; reflexivity). rewrite A.
    assert (B : load_cf_row evals (map universal titles) = ([], Ok None)) by (vm_compute; reflexivity). rewrite B.
    destruct (load_cont_fracs evals (map (map universal) (map (row_texts sp sf sc) rows))) as [ev' y]. cbn [snd] in R |- *. now rewrite R. }
  change (map universal titles) with (map universal titles) in L. rewrite L. reflexivity.
Qed.
Example C149_results_ex : let show_func := fun _ : Z => txt "<function <lambda> at 0x7f>" in
  (forall i, exists r, show_func i = "<"%char :: r) /\
  csv_read (export_text polys_list show_func (fun _ => (txt "EXP", txt "2")) (txt "pi",
    [{| cr_ab := ([[1; 2; 3]], [[0; 4; 5]]); cr_func := 0; cr_type := txt "ulcd"; cr_params := txt "(1, 2, 0, 1)"; cr_conv := (ATExp, APNone); cr_res := txt "1.5"; cr_val := txt "1.5" |}])) =
  [[txt "target_name"; txt "pi"]; titles; map txt ["[[1, 2, 3]]"; "[[0, 4, 5]]"; "<function <lambda> at 0x7f>"; "ulcd"; "(1, 2, 0, 1)"; "EXP"; "2"; "1.5"; "1.5"]%string].
Proof. split; [eexists; reflexivity|vm_compute; reflexivity]. Qed.

Print Assumptions C149_loaded.
Print Assumptions C149_results_refuted.

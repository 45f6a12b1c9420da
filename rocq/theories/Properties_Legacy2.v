(** Properties C117-: loading and analysing files of continued fractions. *)
From Coq Require Import Ascii String ZArith QArith Qabs List Bool Lia.
From Verif Require Import PyBase PyBase_Proofs Rnd Utils_Model Spec_Utils ContFrac_Model Spec_ContFrac ContFrac_Proofs ContFrac_Hist ContFrac_Proofs2 Errors_Proofs Hashtable_Model MITM_Model Hashtable_Proofs Results_Model Config_Model Spec_ULCD
  Spec_Config Config_Proofs Errors_Model Spec_Scripts Scripts_Model Scripts_Proofs Classify_Model Legacy_Model Spec_Legacy Legacy_Text Legacy_Regex.
Import ListNotations.
Local Open Scope Z_scope.
Local Open Scope list_scope.

(** ---- blanks, small letters, numbers ---- *)
Lemma drop_while_ext p q s : (forall c, p c = q c) -> drop_while p s = drop_while q s.
Proof. intros H. induction s as [|c s IH]; [reflexivity|]. cbn [drop_while]. now rewrite H, IH. Qed.
Lemma lstrip_drop s : lstrip s = drop_while is_blank s.
Proof. induction s as [|c s IH]; [reflexivity|]. cbn [lstrip drop_while]. now rewrite IH. Qed.
Lemma inset_blanks c : inset blanks c = is_blank c.
Proof. destruct c as [[] [] [] [] [] [] [] []]; reflexivity. Qed.
Lemma strip_blanks s : strip s = strip_set blanks s.
Proof. unfold strip, strip_set. fold (inset blanks). now rewrite !lstrip_drop, !(drop_while_ext _ _ _ inset_blanks). Qed.
Lemma strip_trimmed s m : trimmed blanks s m <-> m = strip s.
Proof. rewrite strip_blanks. split; [intros H; symmetry; now apply trimmed_strip|intros ->; apply strip_set_trimmed]. Qed.
Lemma ascii_inj a b : nat_of_ascii a = nat_of_ascii b -> a = b.
Proof. intros H. rewrite <- (ascii_nat_embedding a), <- (ascii_nat_embedding b). now rewrite H. Qed.
Lemma lower_char_spec a : nat_of_ascii (lower_char a) = let n := nat_of_ascii a in if (65 <=? n)%nat && (n <=? 90)%nat then (n + 32)%nat else n.
Proof. destruct a as [[] [] [] [] [] [] [] []]; reflexivity. Qed.
Lemma small_spec s t : in_small s t <-> t = lower s.
Proof.
  unfold in_small, lower. split.
  - induction 1 as [|a b s t H F IH]; [reflexivity|]. cbn [map]. rewrite <- IH. f_equal. apply ascii_inj. now rewrite lower_char_spec.
  - intros ->. induction s as [|a s IH]; [constructor|]. cbn [map]. constructor; [apply lower_char_spec|exact IH].
Qed.
Lemma digit_in c : is_digit c = true <-> In c (chars "0123456789").
Proof.
  split.
  - destruct c as [[] [] [] [] [] [] [] []]; intros H; try discriminate H; cbn [chars list_ascii_of_string In]; tauto.
  - intros H. repeat (destruct H as [<-|H]; [reflexivity|]). destruct H.
Qed.
Lemma formula_in c : formula_char c = true <-> In c formula_start.
Proof.
  split.
  - destruct c as [[] [] [] [] [] [] [] []]; intros H; try discriminate H; unfold formula_start; cbn [chars list_ascii_of_string In]; tauto.
  - intros H. repeat (destruct H as [<-|H]; [reflexivity|]). destruct H.
Qed.
Lemma match_formula f : re_match (RPlus formula_char) f <> None <-> exists c r, f = c :: r /\ In c formula_start.
Proof.
  rewrite re_match_iff. split.
  - intros (t & M). inversion M as [|p c w t' P F| | | | | | | |]; subst. exists c, (w ++ t). split; [reflexivity|]. now apply formula_in.
  - intros (c & r & -> & I). exists r. apply (rm_plus formula_char c [] r); [now apply formula_in|constructor].
Qed.
Lemma all_digits_iff ds : all_digits ds <-> exists c r, ds = c :: r /\ is_digit c = true /\ Forall (fun c => is_digit c = true) r.
Proof.
  unfold all_digits. split.
  - intros [N F]. destruct ds as [|c r]; [contradiction|]. inversion F as [|? ? F1 F2]; subst. exists c, r. split; [reflexivity|]. split; [now apply digit_in|].
    eapply Forall_impl; [|exact F2]. intros d. apply digit_in.
  - intros (c & r & -> & P & F). split; [discriminate|]. constructor; [now apply digit_in|]. eapply Forall_impl; [|exact F]. intros d. apply digit_in.
Qed.
Lemma rm_plus_iff s t : rm (RPlus is_digit) s t <-> exists ds, s = ds ++ t /\ all_digits ds.
Proof.
  split.
  - intros M. inversion M as [|p c w t' P F| | | | | | | |]; subst. exists (c :: w). split; [reflexivity|]. apply all_digits_iff. eauto.
  - intros (ds & -> & D). apply all_digits_iff in D as (c & r & -> & P & F). cbn [app]. now constructor.
Qed.
Lemma match_number s : (forall c r, s = r ++ [c] -> nat_of_ascii c <> 10%nat) -> (re_match rx_number s <> None <-> number_lit s).
Proof.
  intros NL. rewrite re_match_iff. unfold rx_number, rx_int. split.
  - intros (u & M). inversion M as [| | | | |r1 r2 s1 s2 s3 M1 M2| | | |]; subst. inversion M1 as [| | | | |r1 r2 t1 t2 t3 M3 M4| | | |]; subst.
    apply rm_plus_iff in M4 as (ds & -> & D). inversion M2 as [| | | | |r1 r2 t1 t2' t3 M5 M6| | | |]; subst.
    assert (SG : exists sign, s = sign ++ ds ++ s2 /\ (sign = [] \/ sign = chars "-")).
    { inversion M3 as [| | |r t4 t5 M7|r t4| | | | |]; subst.
      - inversion M7 as [p c t6 P| | | | | | | | |]; subst. apply Ascii.eqb_eq in P. subst c. exists (chars "-"). auto.
      - exists []. auto. }
    destruct SG as (sign & E & SG).
    assert (FR : exists fr, s2 = fr ++ t2' /\ (fr = [] \/ exists es, fr = chars "." ++ es /\ all_digits es)).
    { inversion M5 as [| | |r t4 t5 M7|r t4| | | | |]; subst.
      - inversion M7 as [| | | | | |n r t6 t7 M8| | |]; subst. inversion M8 as [| | | | |r1 r2 t1 t2 t3 M9 M10| | | |]; subst.
        inversion M9 as [p c t6 P| | | | | | | | |]; subst. apply Ascii.eqb_eq in P. subst c. apply rm_plus_iff in M10 as (es & -> & DE).
        exists (chars "." ++ es). split; [reflexivity|]. right. eauto.
      - exists []. auto. }
    destruct FR as (fr & -> & FR). exists sign, ds, fr. rewrite E.
    assert (T2 : t2' = []).
    { inversion M6 as [| | | | | | | |c CE|]; subst; [reflexivity|]. exfalso. apply (NL c (sign ++ ds ++ fr)); [now rewrite <- !app_assoc|exact CE]. }
    rewrite T2, app_nil_r. auto.
  - intros (sign & ds & fr & -> & SG & D & FR). exists []. apply rm_seq with (t := fr).
    + apply rm_seq with (t := ds ++ fr).
      * destruct SG as [-> | ->]; [apply rm_opt0|apply rm_opt1; apply rm_lit].
      * apply rm_plus_iff. eauto.
    + destruct FR as [-> | (es & -> & DE)].
      * apply rm_seq with (t := []); [apply rm_opt0|constructor].
      * apply rm_seq with (t := []); [|constructor]. apply rm_opt1. constructor. apply rm_seq with (t := es); [apply rm_lit|].
        apply rm_plus_iff. exists es. split; [now rewrite app_nil_r|exact DE].
Qed.
Definition x_text (x : ltarget) : text := match x with LPi => chars "pi" | LE => chars "e" | LDec s => s end.
Definition known_x (x : text) : Prop := x = chars "pi" \/ x = chars "e" \/ number_lit x.
Lemma target_spec tx : match target_x tx with Some x => x_text x = lower (strip tx) /\ known_x (lower (strip tx)) | None => ~ known_x (lower (strip tx)) end.
Proof.
  unfold target_x, known_x. set (t := lower (strip tx)).
  assert (NL : forall c r, t = r ++ [c] -> nat_of_ascii c <> 10%nat).
  { intros c r E H. assert (T : trimmed blanks tx (strip tx)) by now apply strip_trimmed. destruct T as (p & q & _ & _ & _ & _ & T).
    destruct (strip tx) as [|d m] using rev_ind; [destruct r; discriminate E|]. unfold t, lower in E. rewrite map_app in E. apply app_inj_tail in E as [_ E].
    apply (T d m eq_refl). subst c. rewrite lower_char_spec in H. cbv zeta in H.
    assert (D : nat_of_ascii d = 10%nat) by (destruct ((65 <=? nat_of_ascii d)%nat && (nat_of_ascii d <=? 90)%nat) eqn:B; [apply andb_true_iff in B as [B1 B2]; apply Nat.leb_le in B1; lia|exact H]).
    unfold blanks. right. left. apply ascii_inj. rewrite D. reflexivity. }
  destruct (text_eqb t (txt "pi")) eqn:E1; [apply text_eqb_eq in E1; rewrite E1; auto|].
  destruct (text_eqb t (txt "e")) eqn:E2; [apply text_eqb_eq in E2; rewrite E2; auto|].
  pose proof (match_number t NL) as MN. destruct (re_match rx_number t).
  - split; [reflexivity|]. right. right. apply MN. discriminate.
  - intros [H|[H|H]].
    + rewrite H in E1. discriminate.
    + rewrite H in E2. discriminate.
    + apply MN in H. now apply H.
Qed.

Lemma py_nth_at (pre : list text) (x : text) post : py_nth (pre ++ x :: post) (Z.of_nat (length pre)) = Ok x.
Proof.
  unfold py_nth. rewrite app_length. cbn [length]. destruct (Z.ltb_spec (Z.of_nat (length pre)) 0); [lia|].
  replace ((Z.of_nat (length pre) <? 0) || (Z.of_nat (length pre + S (length post)) <=? Z.of_nat (length pre))) with false.
  2:{ symmetry. apply orb_false_iff. split; [apply Z.ltb_ge; lia|apply Z.leb_gt; lia]. }
  rewrite Nat2Z.id, nth_error_app2, Nat.sub_diag by lia. reflexivity.
Qed.
(** ---- C117: loading a file of continued fractions ---- *)
Section Load.
  Variable evals : text -> bool.
  Lemma cf_row_inv row a b f x : cf_row evals row a b f x -> exists ta tb tf tx more, row = ta :: tb :: tf :: tx :: more /\
    triples ta = Ok a /\ a <> [] /\ triples tb = Ok b /\ b <> [] /\ f = strip tf /\ re_match (RPlus formula_char) f <> None /\
    evals (txt "lambda x: " ++ f) = true /\ x = lower (strip tx) /\ known_x x.
  Proof.
    intros (ta & tb & tf & tx & more & y & -> & SA & NA & SB & NB & TF & C & EV & TX & SM & K). exists ta, tb, tf, tx, more.
    apply triples_iff in SA, SB. apply strip_trimmed in TF, TX. apply small_spec in SM. subst y. apply match_formula in C. repeat split; assumption.
  Qed.
  Lemma row_cases row : match snd (load_cf_row evals row) with
    | Raise e => e = IndexError /\ cut_row evals row
    | Ok (Some p) => ~ cut_row evals row /\ cf_row evals row (lp_a p) (lp_b p) (lp_formula p) (x_text (lp_x p))
    | Ok None => ~ cut_row evals row /\ ~ exists a b f x, cf_row evals row a b f x
    end.
  Proof.
    unfold load_cf_row. destruct row as [|ta row]; [split; [reflexivity|now left]|]. rewrite (py_nth_at [] ta row : py_nth (ta :: row) 0 = Ok ta). cbn [bind].
    destruct (triples_scan ta) as (a & EA & SA). rewrite EA. cbn [bind].
    assert (UA : forall a', scan ta a' -> a' = a) by (intros a' S; exact (scan_fun _ _ S _ SA)).
    destruct a as [|a0 a1] eqn:HA; cbn [snd].
    { split; [|intros (a' & b' & f & x & H); destruct (cf_row_inv _ _ _ _ _ H) as (? & ? & ? & ? & ? & E & TA & NA & _); injection E as <- _; apply triples_iff, UA in TA; contradiction].
      intros [H|[(? & ? & E & S & N)|[(? & ? & ? & ? & E & S & N & _)|(? & ? & ? & ? & ? & ? & E & S & N & _)]]]; [discriminate| | |]; injection E as <- _; apply UA in S; contradiction. }
    rewrite <- HA in *. assert (NA : a <> []) by (rewrite HA; discriminate). clear HA a0 a1.
    destruct row as [|tb row]; [split; [reflexivity|right; left; eauto]|]. rewrite (py_nth_at [ta] tb row : py_nth (ta :: tb :: row) 1 = Ok tb). cbn [bind].
    destruct (triples_scan tb) as (b & EB & SB). rewrite EB. cbn [bind].
    assert (UB : forall b', scan tb b' -> b' = b) by (intros b' S; exact (scan_fun _ _ S _ SB)).
    destruct b as [|b0 b1] eqn:HB; cbn [snd].
    { split; [|intros (a' & b' & f & x & H); destruct (cf_row_inv _ _ _ _ _ H) as (? & ? & ? & ? & ? & E & _ & _ & TA & N & _); injection E as _ <- _; apply triples_iff, UB in TA; contradiction].
      intros [H|[(? & ? & E & S & N)|[(? & ? & ? & ? & E & _ & _ & S & N)|(? & ? & ? & ? & ? & ? & E & _ & _ & S & N & _)]]]; [discriminate|discriminate| |]; injection E as _ <- _; apply UB in S; contradiction. }
    rewrite <- HB in *. assert (NB : b <> []) by (rewrite HB; discriminate). clear HB b0 b1.
    destruct row as [|tf row]; [split; [reflexivity|right; right; left; exists ta, a, tb, b; auto]|]. rewrite (py_nth_at [ta; tb] tf row : py_nth (ta :: tb :: tf :: row) 2 = Ok tf). cbn [bind].
    assert (TF : trimmed blanks tf (strip tf)) by now apply strip_trimmed.
    assert (UF : forall f, trimmed blanks tf f -> f = strip tf) by (intros f T; now apply strip_trimmed).
    pose proof (match_formula (strip tf)) as MF. destruct (re_match (RPlus formula_char) (strip tf)) as [cs|] eqn:EM; cbn [snd].
    2:{ split; [|intros (a' & b' & f & x & H); destruct (cf_row_inv _ _ _ _ _ H) as (? & ? & ? & ? & ? & E & _ & _ & _ & _ & -> & N & _); injection E as _ _ <- _; contradiction].
        intros [H|[(? & ? & E & S & N)|[(? & ? & ? & ? & E & _ & _ & S & N)|(? & ? & ? & ? & ? & ? & E & _ & _ & _ & _ & T & C & _)]]]; [discriminate|discriminate|discriminate|].
        injection E as _ _ <- _. apply UF in T. subst. apply match_formula in C. contradiction. }
    assert (C : exists c r, strip tf = c :: r /\ In c formula_start) by (apply MF; discriminate). clear MF.
    destruct (evals (txt "lambda x: " ++ strip tf)) eqn:EV.
    2:{ split; [|intros (a' & b' & f & x & H); destruct (cf_row_inv _ _ _ _ _ H) as (? & ? & ? & ? & ? & E & _ & _ & _ & _ & -> & _ & V & _); injection E as _ _ <- _; congruence].
        intros [H|[(? & ? & E & S & N)|[(? & ? & ? & ? & E & _ & _ & S & N)|(? & ? & ? & ? & ? & ? & E & _ & _ & _ & _ & T & _ & V)]]]; [discriminate|discriminate|discriminate|].
        injection E as _ _ <- _. apply UF in T. subst. change (chars "lambda x: ") with (txt "lambda x: ") in V. congruence. }
    destruct row as [|tx row]; [split; [reflexivity|right; right; right; exists ta, a, tb, b, tf, (strip tf); repeat split; assumption]|].
    rewrite (py_nth_at [ta; tb; tf] tx row : py_nth (ta :: tb :: tf :: tx :: row) 3 = Ok tx). cbn [bind].
    assert (NC : ~ cut_row evals (ta :: tb :: tf :: tx :: row)).
    { intros [H|[(? & ? & E & _)|[(? & ? & ? & ? & E & _)|(? & ? & ? & ? & ? & ? & E & _)]]]; discriminate. }
    pose proof (target_spec tx) as TS. destruct (target_x tx) as [x|].
    - split; [exact NC|]. cbn [lp_a lp_b lp_formula lp_x]. destruct TS as [-> K]. exists ta, tb, tf, tx, row, (strip tx).
      repeat split; try assumption; [now apply strip_trimmed|now apply small_spec].
    - split; [exact NC|]. intros (a' & b' & f & x & H). destruct (cf_row_inv _ _ _ _ _ H) as (? & ? & ? & ? & ? & E & _ & _ & _ & _ & _ & _ & _ & -> & K). injection E as _ _ _ <- _. contradiction.
  Qed.
  Definition somes {A} (os : list (option A)) : list A := flat_map (fun o => match o with Some x => [x] | None => [] end) os.
  Definition loaded_as (row : list text) (o : option lparams) : Prop :=
    match o with
    | Some p => cf_row evals row (lp_a p) (lp_b p) (lp_formula p) (x_text (lp_x p))
    | None => ~ exists a b f x, cf_row evals row a b f x
    end.
End Load.
(** The file loads unless a row ends early, and then exactly the rows in order are in the result. *)
Theorem C117_load : forall evals rows,
  match snd (load_cont_fracs evals rows) with
  | Ok ps => Forall (fun row => ~ cut_row evals row) rows /\ exists os, ps = somes os /\ Forall2 (loaded_as evals) rows os
  | Raise e => e = IndexError /\ Exists (cut_row evals) rows
  end.
Proof.
  intros evals. induction rows as [|row rows IH]; [split; [constructor|exists []; split; [reflexivity|constructor]]|]. cbn [load_cont_fracs].
  pose proof (row_cases evals row) as RC. destruct (load_cf_row evals row) as [ev [o|e]]; cbn [snd] in RC.
  - destruct (load_cont_fracs evals rows) as [ev' [ps|e]]; cbn [snd bind] in IH |- *.
    + destruct IH as [F (os & -> & F2)]. assert (NC : ~ cut_row evals row) by (destruct o; apply RC). split; [now constructor|]. exists (o :: os). split.
      * now destruct o.
      * constructor; [|exact F2]. destruct o; apply RC.
    + destruct IH as [-> X]. split; [reflexivity|now right].
  - cbn [snd]. destruct RC as [-> X]. split; [reflexivity|now left].
Qed.
(** A blank line anywhere stops the whole load. *)
Theorem C117_blank_line : forall evals rows, In [] rows -> snd (load_cont_fracs evals rows) = Raise IndexError.
Proof.
  intros evals rows I. pose proof (C117_load evals rows) as H. destruct (snd (load_cont_fracs evals rows)) as [ps|e].
  - exfalso. destruct H as [F _]. rewrite Forall_forall in F. apply (F _ I). now left.
  - now destruct H as [-> _].
Qed.
(** A row as python prints it: the polynomials with three coefficients are loaded, the others are dropped without notice. *)
Definition printed_row (a b : list (list Z)) (f x : text) : list text := [polys_list a; polys_list b; f; x].
Theorem C117_printed : forall evals a b f x,
  f <> [] -> (forall c, In c f -> In c formula_start /\ ~ In c blanks) -> evals (chars "lambda x: " ++ f) = true ->
  x = chars "pi" \/ x = chars "e" ->
  forall a' b' f' x', cf_row evals (printed_row a b f x) a' b' f' x' <->
    a' = filter (fun p => Nat.eqb (length p) 3) a /\ b' = filter (fun p => Nat.eqb (length p) 3) b /\ a' <> [] /\ b' <> [] /\ f' = f /\ x' = x.
Proof.
  intros evals a b f x NF FC EV HX a' b' f' x'.
  assert (TF : trimmed blanks f f).
  { exists [], []. split; [now rewrite app_nil_r|]. split; [constructor|]. split; [constructor|]. split; intros c r ->; apply FC; [now left|]. apply in_or_app. right. now left. }
  assert (TX : trimmed blanks x x).
  { apply strip_trimmed. destruct HX as [-> | ->]; reflexivity. }
  assert (SX : in_small x x) by (apply small_spec; destruct HX as [-> | ->]; reflexivity).
  split.
  - intros (ta & tb & tf & tx & more & y & E & SA & NA & SB & NB & T1 & _ & _ & T2 & S2 & _). injection E as <- <- <- <- <-.
    split; [exact (scan_fun _ _ SA _ (scan_polys a))|]. split; [exact (scan_fun _ _ SB _ (scan_polys b))|]. split; [exact NA|]. split; [exact NB|].
    apply strip_trimmed in T1, TF, T2, TX. apply small_spec in S2, SX. split; congruence.
  - intros (-> & -> & NA & NB & -> & ->). exists (polys_list a), (polys_list b), f, x, [], x. split; [reflexivity|]. split; [apply scan_polys|]. split; [exact NA|].
    split; [apply scan_polys|]. split; [exact NB|]. split; [exact TF|]. split.
    + destruct f as [|c r]; [contradiction|]. exists c, r. split; [reflexivity|]. apply FC. now left.
    + split; [exact EV|]. split; [exact TX|]. split; [exact SX|]. tauto.
Qed.
(** So a row may be loaded as another fraction, or not at all. *)
Theorem C117_other_fraction_refuted : forall evals, evals (chars "lambda x: x") = true ->
  cf_row evals (printed_row [[1; 2]; [1; 2; 3]] [[4; 5; 6]] (chars "x") (chars "pi")) [[1; 2; 3]] [[4; 5; 6]] (chars "x") (chars "pi") /\
  (forall a b f x, ~ cf_row evals (printed_row [[1; 2]] [[4; 5; 6]] (chars "x") (chars "pi")) a b f x).
Proof.
  intros evals EV.
  assert (FC : forall c, In c (chars "x") -> In c formula_start /\ ~ In c blanks).
  { intros c [<-|[]]. split; [apply formula_in; reflexivity|]. intros I. apply inset_spec in I. discriminate I. }
  split.
  - apply C117_printed; auto; [discriminate|]. repeat split; discriminate.
  - intros a b f x H. apply C117_printed in H as (-> & _ & N & _); auto. discriminate.
Qed.
(** Polynomials that are printed as tuples are never loaded: there is no bracket to be found. *)
Theorem C117_tuples_refuted : forall evals row a b f x, Forall (fun c => c <> "["%char) (hd [] row) -> ~ cf_row evals row a b f x.
Proof.
  intros evals row a b f x F (ta & tb & tf & tx & more & y & -> & SA & NA & _). apply NA. apply (scan_fun _ _ SA).
  rewrite <- (app_nil_r ta). apply scan_nobracket; [exact F|constructor].
Qed.

Definition C117_rows : list (list text) := map (map chars)
  [["[[1, 2, 3], [4, 5]]"; "[[0, -1, 7]]"; " 1 + x "; "PI"]; ["((1, 2, 3),)"; "[[0, -1, 7]]"; "x"; "pi"];
   ["[[1,2,3]]"; "[[0, 0, 1],[1, 1, 1]]"; "(x)"; "-2.50"; "a remark"]]%string.
Example C117_ex : load_cont_fracs (fun _ => true) C117_rows =
  (map chars ["lambda x: 1 + x"; "lambda x: (x)"]%string,
   Ok [{| lp_a := [[1; 2; 3]]; lp_b := [[0; -1; 7]]; lp_formula := chars "1 + x"; lp_x := LPi |};
       {| lp_a := [[1; 2; 3]]; lp_b := [[0; 0; 1]; [1; 1; 1]]; lp_formula := chars "(x)"; lp_x := LDec (chars "-2.50") |}]) /\
  In [] ([] :: C117_rows) /\ Forall (fun c => c <> "["%char) (hd [] (nth 1 C117_rows [])).
Proof. split; [vm_compute; reflexivity|]. split; [now left|]. cbn. repeat (constructor; [discriminate|]). constructor. Qed.

(** ---- C118: what is evaluated as python code ---- *)
Theorem C118_evaluated : forall evals rows s, In s (fst (load_cont_fracs evals rows)) ->
  exists ta tb tf more c r, In (ta :: tb :: tf :: more) rows /\ In c formula_start /\ trimmed blanks tf (c :: r) /\ s = chars "lambda x: " ++ c :: r.
Proof.
  intros evals. induction rows as [|row rows IH]; intros s I; [destruct I|]. cbn [load_cont_fracs] in I.
  assert (HR : forall s, In s (fst (load_cf_row evals row)) -> exists ta tb tf more c r, row = ta :: tb :: tf :: more /\ In c formula_start /\
    trimmed blanks tf (c :: r) /\ s = chars "lambda x: " ++ c :: r).
  { clear. intros s I. unfold load_cf_row in I. destruct row as [|ta row]; [destruct I|]. rewrite (py_nth_at [] ta row : py_nth (ta :: row) 0 = Ok ta) in I. cbn [bind] in I.
    destruct (triples ta) as [[|a a']|]; [destruct I| |destruct I]. cbn [bind] in I.
    destruct row as [|tb row]; [destruct I|]. rewrite (py_nth_at [ta] tb row : py_nth (ta :: tb :: row) 1 = Ok tb) in I. cbn [bind] in I.
    destruct (triples tb) as [[|b b']|]; [destruct I| |destruct I]. cbn [bind] in I.
    destruct row as [|tf row]; [destruct I|]. rewrite (py_nth_at [ta; tb] tf row : py_nth (ta :: tb :: tf :: row) 2 = Ok tf) in I. cbn [bind] in I.
    pose proof (match_formula (strip tf)) as MF. destruct (re_match (RPlus formula_char) (strip tf)); [|destruct I].
    destruct (proj1 MF) as (c & r & E & IC); [discriminate|]. cbn [fst In] in I. destruct I as [<-|[]]. exists ta, tb, tf, row, c, r. split; [reflexivity|]. split; [exact IC|].
    split; [apply strip_trimmed; now symmetry|]. now rewrite E. }
  destruct (load_cf_row evals row) as [ev [o|e]]; cbn [fst] in HR.
  - destruct (load_cont_fracs evals rows) as [ev' y]. cbn [fst] in *. apply in_app_or in I as [I|I].
    + destruct (HR s I) as (ta & tb & tf & more & c & r & -> & X). exists ta, tb, tf, more, c, r. split; [now left|exact X].
    + destruct (IH s I) as (ta & tb & tf & more & c & r & X & Y). exists ta, tb, tf, more, c, r. split; [now right|exact Y].
  - cbn [fst] in I. destruct (HR s I) as (ta & tb & tf & more & c & r & -> & X). exists ta, tb, tf, more, c, r. split; [now left|exact X].
Qed.
(** Only the first character of the formula is checked: any text at all may follow it, and is evaluated, even if the row is
    rejected afterwards or the load fails. *)
Theorem C118_any_code_refuted : forall evals ta a tb b c code more rows,
  scan ta a -> a <> [] -> scan tb b -> b <> [] -> In c formula_start -> trimmed blanks (c :: code) (c :: code) ->
  In (chars "lambda x: " ++ c :: code) (fst (load_cont_fracs evals ((ta :: tb :: (c :: code) :: more) :: rows))).
Proof.
  intros evals ta a tb b c code more rows SA NA SB NB IC T. cbn [load_cont_fracs].
  assert (G : forall (ta tb tf : text) (more : list text) a b, triples ta = Ok a -> a <> [] -> triples tb = Ok b -> b <> [] -> re_match (RPlus formula_char) (strip tf) <> None ->
    In (txt "lambda x: " ++ strip tf) (fst (load_cf_row evals (ta :: tb :: tf :: more)))).
  { clear. intros ta tb tf more a b SA NA SB NB M. unfold load_cf_row. rewrite (py_nth_at [] ta (tb :: tf :: more) : py_nth (ta :: tb :: tf :: more) 0 = Ok ta). cbn [bind].
    rewrite SA. cbn [bind]. destruct a as [|a0 a']; [contradiction|].
    rewrite (py_nth_at [ta] tb (tf :: more) : py_nth (ta :: tb :: tf :: more) 1 = Ok tb). cbn [bind]. rewrite SB. cbn [bind]. destruct b as [|b0 b']; [contradiction|].
    rewrite (py_nth_at [ta; tb] tf more : py_nth (ta :: tb :: tf :: more) 2 = Ok tf). cbn [bind].
    destruct (re_match (RPlus formula_char) (strip tf)); [now left|contradiction]. }
  apply triples_iff in SA, SB. apply strip_trimmed in T.
  assert (H : In (chars "lambda x: " ++ c :: code) (fst (load_cf_row evals (ta :: tb :: (c :: code) :: more)))).
  { specialize (G ta tb (c :: code) more a b SA NA SB NB). rewrite <- T in G. apply G. apply match_formula. eauto. }
  destruct (load_cf_row evals _) as [ev [o|e]]; cbn [fst] in H |- *; [|exact H]. destruct (load_cont_fracs evals rows) as [ev' y]. cbn [fst]. apply in_or_app. now left.
Qed.
Example C118_ex : let code := chars "0, __import__('os').remove('results.csv')" in
  scan (chars "[1, 2, 3]") [[1; 2; 3]] /\ trimmed blanks code code /\
  load_cont_fracs (fun _ => true) [[chars "[1, 2, 3]"; chars "[1, 2, 3]"; code; chars "tau"]] = ([chars "lambda x: " ++ code], Ok []).
Proof. split; [apply triples_iff; reflexivity|]. split; [apply strip_trimmed; reflexivity|vm_compute; reflexivity]. Qed.

(** ---- C119: the analysis of a file ---- *)
(** a file in a directory, or in the current directory ([]) *)
Definition file_at (d stem ext p : text) : Prop :=
  file_name stem ext /\ ((d = [] /\ p = named stem ext) \/ (dir_path d /\ p = in_dir d (named stem ext))).
Lemma path_split_bare n : ~ In "/"%char n -> path_split n = ([], n).
Proof. intros N. unfold path_split. pose proof (cut_name [] n (or_introl eq_refl) N) as C. cbn [app] in C. rewrite C. reflexivity. Qed.
Section Analysis.
  Variables (rd : Q -> Q) (evals : text -> bool) (apply : text -> ltarget -> res Q) (fit : list (Z * mpfv) -> res unit) (conv_of : contfrac -> res (bool * conv)).
  Notation analyze := (analyze_contfracs_csv rd evals apply fit conv_of).
  (** what is reported of one fraction: the estimates of a new object with the coefficients of the row and the value of its formula as target,
      after the distances of its first 2000 results to the target were fitted *)
  Definition reported (p : lparams) (v : bool * conv) : Prop :=
    exists t c c1, apply (lp_formula p) (lp_x p) = Ok t /\ fresh (lp_a p) (lp_b p) true false (Some t) c /\
      fit (map (fun i => (i, errv rd (lp_a p) (lp_b p) t i)) (zrange 1 2001)) = Ok tt /\ cf_gen0 rd 0 true c = (c1, Ok tt) /\ conv_of c1 = Ok v.
  Lemma reported_of p c c1 errors v : legacy_cf apply p = Ok c -> build_contfrac_errors rd 2000 c = (c1, Ok errors) -> fit errors = Ok tt -> conv_of c1 = Ok v -> reported p v.
  Proof.
    unfold legacy_cf. destruct (apply (lp_formula p) (lp_x p)) as [t|e] eqn:EA; [|discriminate]. cbn [bind]. intros HC EB EF EV.
    pose proof (build_errors_spec rd (lp_a p) (lp_b p) true false t c c 2000 HC (same_static_refl c) ltac:(lia)) as B. change (2000 + 1) with 2001 in B.
    destruct (find _ _) as [i|]; [rewrite EB in B; discriminate|]. destruct B as (c' & B & G). rewrite EB in B.
    assert (P : forall (x x' : contfrac) (y y' : list (Z * mpfv)), (x, Ok y) = (x', Ok y') -> x = x' /\ y = y') by (intros x x' y y' E; injection E; auto).
    destruct (P _ _ _ _ B) as [E1 E2]. subst c'. exists t, c, c1. rewrite <- E2. repeat split; assumption.
  Qed.
  Lemma loop_figures dir name : forall ps i vs figs, analyze_loop rd apply fit conv_of dir name i ps = (figs, Ok vs) ->
    Forall2 reported ps vs /\ figs =
      map (fun k => (os_join dir (name ++ txt "-" ++ z_text (i + Z.of_nat k + 1) ++ txt ".png"), name ++ txt " - " ++ z_text (i + Z.of_nat k + 1) ++ txt "th row")) (seq 0 (length ps)).
  Proof.
    induction ps as [|p ps IH]; intros i vs figs H; [injection H as <- <-; split; [constructor|reflexivity]|]. cbn [analyze_loop] in H.
    destruct (legacy_cf apply p) as [c|e] eqn:EC; [|discriminate]. cbn [bind] in H. destruct (build_contfrac_errors rd 2000 c) as [c1 [errors|e]] eqn:EB; [|discriminate].
    destruct (fit errors) as [[]|e] eqn:EF; [|discriminate]. cbn [bind] in H. destruct (conv_of c1) as [v|e] eqn:EV; [|discriminate].
    destruct (analyze_loop rd apply fit conv_of dir name (i + 1) ps) as [figs' [ws|e]] eqn:EL; [|discriminate]. cbn [bind] in H. injection H as <- <-.
    destruct (IH _ _ _ EL) as [F ->]. split; [constructor; [exact (reported_of _ _ _ _ _ EC EB EF EV)|exact F]|]. cbn [length seq map Z.of_nat]. rewrite Z.add_0_r. f_equal.
    rewrite <- seq_shift, map_map. apply map_ext. intros k. replace (i + Z.of_nat (S k) + 1) with (i + 1 + Z.of_nat k + 1) by lia. reflexivity.
  Qed.
Theorem C119_figures : forall d stem ext p rows figs fast conv, file_at d stem ext p ->
    analyze p rows (chars "cont_frac") = (figs, Ok (fast, conv)) ->
    exists ps vs, snd (load_cont_fracs evals rows) = Ok ps /\ Forall2 reported ps vs /\ fast = map fst vs /\ conv = map snd vs /\
      figs = map (fun k => figure_of d stem (Z.of_nat k)) (seq 1 (length ps)).
  Proof.
    intros d stem ext p rows figs fast conv [FN FA] H. unfold analyze_contfracs_csv in H.
    assert (PS : path_split p = (d, named stem ext)).
    { destruct FA as [[-> ->]|[D ->]]; [apply path_split_bare; now apply named_slash|apply split_in; [exact D|now apply named_slash]]. }
    rewrite PS in H. cbv zeta in H. change (text_eqb (chars "cont_frac") (txt "enum_res")) with false in H. change (text_eqb (chars "cont_frac") (txt "cont_frac")) with true in H. cbv iota in H.
    rewrite (split_named _ _ FN) in H. cbn [fst] in H. destruct (snd (load_cont_fracs evals rows)) as [ps|e]; [|discriminate].
    destruct (analyze_loop rd apply fit conv_of d stem 0 ps) as [figs' [vs|e]] eqn:EL; [|discriminate]. cbn [bind] in H. injection H as <- <- <-.
    destruct (loop_figures _ _ _ _ _ _ EL) as [F ->]. exists ps, vs. split; [reflexivity|]. split; [exact F|]. split; [reflexivity|]. split; [reflexivity|].
    rewrite <- seq_shift, map_map. apply map_ext. intros k. unfold figure_of. change z_text with int_chars. replace (0 + Z.of_nat k + 1) with (Z.of_nat (S k)) by lia.
    f_equal. assert (HS : forall r, stem ++ txt "-" ++ int_chars (Z.of_nat (S k)) ++ txt ".png" <> "/"%char :: r).
    { intros r E. destruct FN as (N & _ & _ & c & I & _). destruct stem as [|x st]; [destruct I|]. injection E as -> _. apply N. now left. }
    destruct FA as [[-> _]|[D _]].
    - unfold os_join. destruct stem as [|x st]; [now destruct FN as (_ & _ & _ & c & [] & _)|]. cbn [app].
      destruct (char_eqb x "/"); reflexivity.
    - rewrite join_rel by assumption. unfold in_dir. destruct D as (d' & c & -> & _). destruct (d' ++ [c]) eqn:E; [now destruct d'|]. now rewrite <- app_assoc.
  Qed.
  (** Nothing but 'cont_frac' is supported: the default 'enum_res' is not. *)
Theorem C119_filetype_refuted : forall p rows t, t <> chars "cont_frac" ->
    analyze p rows t = ([], Raise (if text_eqb t (chars "enum_res") then NameError else ValueError)).
  Proof.
    intros p rows t N. unfold analyze_contfracs_csv. destruct (path_split p) as [d f]. cbv zeta. change chars with txt in N |- *.
    destruct (text_eqb t (txt "enum_res")); [reflexivity|]. destruct (text_eqb t (txt "cont_frac")) eqn:E; [|reflexivity]. apply text_eqb_eq in E. contradiction.
  Qed.
  (** The title "1th row" may belong to any row of the file: rows that are skipped are not counted. *)
Theorem C119_row_refuted : forall d stem ext p pre row post a b f x figs fast conv, file_at d stem ext p ->
    (forall r a b f x, In r pre -> ~ cf_row evals r a b f x) -> cf_row evals row a b f x ->
    analyze p (pre ++ row :: post) (chars "cont_frac") = (figs, Ok (fast, conv)) ->
    exists q v figs' fast' conv', cf_row evals row (lp_a q) (lp_b q) (lp_formula q) (x_text (lp_x q)) /\ reported q v /\
      figs = figure_of d stem 1 :: figs' /\ fast = fst v :: fast' /\ conv = snd v :: conv'.
  Proof.
    intros d stem ext p pre row post a b f x figs fast conv FA SK CR H. destruct (C119_figures _ _ _ _ _ _ _ _ FA H) as (ps & vs & E & RP & -> & -> & ->).
    pose proof (C117_load evals (pre ++ row :: post)) as L. rewrite E in L. destruct L as (_ & os & -> & F2).
    apply Forall2_app_inv_l in F2 as (o1 & o2 & F1 & F2 & ->). inversion F2 as [|? o ? o3 R _]; subst.
    destruct o as [q|]; [|exfalso; apply R; eauto]. cbn [loaded_as] in R.
    assert (S1 : somes (o1 ++ Some q :: o3) = q :: somes o3).
    { unfold somes. rewrite flat_map_app. cbn [flat_map app]. replace (flat_map (fun o : option lparams => match o with Some x => [x] | None => [] end) o1) with (@nil lparams); [reflexivity|]. clear - F1 SK. induction F1 as [|r o pre os L F IH]; [reflexivity|]. cbn [flat_map]. destruct o as [p|].
      - exfalso. cbn [loaded_as] in L. eapply SK; [now left|exact L].
      - apply IH. intros r' a b f x I. apply SK. now right. }
    rewrite S1 in *. inversion RP as [|? v ? vs' R1 RS]; subst. exists q, v. cbn [length seq map]. do 3 eexists. split; [exact R|]. split; [exact R1|]. split; [reflexivity|]. split; reflexivity.
  Qed.
End Analysis.
(** The golden ratio in the second row: a file of which the first row is skipped. *)
Definition C119_rows : list (list text) := map (map chars)
  [["((1, 2, 3),)"; "[[0, -1, 7]]"; "x"; "pi"]; ["[[1, 0, 0]]"; "[[1, 0, 0]]"; "x"; "1.618"]]%string.
Definition C119_apply (f : text) (t : ltarget) : res Q := Ok (1618 # 1000).
Definition C119_conv (c : contfrac) : res (bool * conv) := Ok (true, (ATExp, APNone)).
Definition C119_run (fit : list (Z * mpfv) -> res unit) := analyze_contfracs_csv (rnd 170) (fun _ => true) C119_apply fit C119_conv
  (chars "data/golden.csv") C119_rows (chars "cont_frac").
Lemma C119_run_is fit : C119_run fit = match fit (map (fun i => (i, errv (rnd 170) [[1; 0; 0]] [[1; 0; 0]] (1618 # 1000) i)) (zrange 1 2001)) with
  | Ok _ => ([(chars "data/golden-1.png", chars "golden - 1th row")], Ok ([true], [(ATExp, APNone)]))
  | Raise e => ([], Raise e)
  end.
Proof.
  unfold C119_run, analyze_contfracs_csv.
  replace (snd (load_cont_fracs (fun _ => true) C119_rows)) with (Ok [{| lp_a := [[1; 0; 0]]; lp_b := [[1; 0; 0]]; lp_formula := chars "x"; lp_x := LDec (chars "1.618") |}]) by reflexivity.
  replace (path_split (chars "data/golden.csv")) with (chars "data", chars "golden.csv") by reflexivity.
  replace (fst (splitext (chars "golden.csv"))) with (chars "golden") by reflexivity.
  change (text_eqb (chars "cont_frac") (txt "enum_res")) with false. change (text_eqb (chars "cont_frac") (txt "cont_frac")) with true. cbv zeta iota.
  cbn [analyze_loop]. unfold legacy_cf at 1. cbn [lp_a lp_b lp_formula lp_x]. unfold C119_apply at 1. cbn [bind].
  set (cn := cf_new _ _ _ _ _ _ _). assert (HC : exists c, cn = Ok c) by (vm_compute; eauto). destruct HC as [c HC]. rewrite HC. cbn [bind].
  pose proof (build_errors_spec (rnd 170) [[1; 0; 0]] [[1; 0; 0]] true false (1618 # 1000) c c 2000 HC (same_static_refl c) ltac:(lia)) as B.
  rewrite find_bad_none in B.
  - destruct B as (c' & B & _). rewrite B. change (2000 + 1) with 2001. set (es := map _ (zrange 1 2001)). clearbody es. destruct (fit es); cbn [bind]; reflexivity.
  - intros _ i Hi. unfold icoef. cbn [length]. rewrite Z.mod_1_r. cbn [Z.to_nat nth poly_val]. lia.
Qed.
Example C119_ex : file_at (chars "data") (chars "golden") (chars "csv") (chars "data/golden.csv") /\
  (exists a b f x, cf_row (fun _ => true) (nth 1 C119_rows []) a b f x) /\ (forall a b f x, ~ cf_row (fun _ => true) (nth 0 C119_rows []) a b f x) /\
  C119_run (fun _ => Ok tt) = ([(chars "data/golden-1.png", chars "golden - 1th row")], Ok ([true], [(ATExp, APNone)])).
Proof.
  split; [|split; [|split; [|exact (C119_run_is _)]]].
  - split; [|right; split; [exists (chars "dat"), "a"%char; split; [reflexivity|discriminate]|reflexivity]].
    split; [|split; [|split]]; [intros I; cbn in I; intuition discriminate..|]. exists "g"%char. split; [now left|discriminate].
  - pose proof (row_cases (fun _ => true) (nth 1 C119_rows [])) as R. replace (snd (load_cf_row (fun _ => true) (nth 1 C119_rows []))) with
      (Ok (Some {| lp_a := [[1; 0; 0]]; lp_b := [[1; 0; 0]]; lp_formula := chars "x"; lp_x := LDec (chars "1.618") |})) in R by reflexivity. destruct R as [_ R]. eauto.
  - intros a b f x. apply C117_tuples_refuted. cbn. repeat (constructor; [discriminate|]). constructor.
Qed.

(** ---- C120: the fit ---- *)
(** the double nearest to 10**-15 *)
Definition float_1e_15 : Q := rnd 53 (1 # (10 ^ 15)).
Definition small_error (e : Z * mpfv) : Prop := exists q, snd e = Fin q /\ (q < float_1e_15)%Q.
Lemma tiny_small e : tiny (snd e) = true <-> small_error e.
Proof.
  unfold tiny, small_error. destruct (snd e) as [q|].
  - rewrite negb_true_iff. split.
    + intros H. exists q. split; [reflexivity|]. apply Qnot_le_lt. intros K. apply Qle_bool_iff in K. unfold float_1e_15 in K. congruence.
    + intros (q' & E & L). injection E as <-. apply not_true_is_false. rewrite Qle_bool_iff. now apply Qlt_not_le.
  - split; [discriminate|]. intros (q & E & _). discriminate.
Qed.
Lemma py_nth_ok {A} (l : list A) k e : 0 <= k -> nth_error l (Z.to_nat k) = Some e -> py_nth l k = Ok e.
Proof.
  intros K E. assert (L : (Z.to_nat k < length l)%nat) by (apply nth_error_Some; congruence). unfold py_nth. destruct (Z.ltb_spec k 0); [lia|].
  destruct (Z.ltb_spec k 0); [lia|]. destruct (Z.leb_spec (Z.of_nat (length l)) k); [lia|]. cbn [orb]. now rewrite E.
Qed.
Lemma cutoff_halved (errors : list (Z * mpfv)) : forall fuel k, 0 <= k -> k < 2 ^ Z.of_nat fuel -> k < Z.of_nat (length errors) ->
  exists m, cutoff_loop fuel errors k = Some (Ok m) /\ halved small_error errors k m /\ 0 <= m <= k.
Proof.
  induction fuel as [|fuel IH]; intros k K0 K1 KL; (destruct (nth_error errors (Z.to_nat k)) as [e|] eqn:E; [|apply nth_error_None in E; lia]);
    cbn [cutoff_loop]; rewrite (py_nth_ok _ _ _ K0 E).
  - assert (k = 0) by (cbn in K1; lia). subst k. rewrite andb_false_r. exists 0. split; [reflexivity|]. split; [econstructor; [exact E|now right]|lia].
  - destruct (tiny (snd e)) eqn:T; cbn [andb].
    + apply tiny_small in T. destruct (Z.ltb_spec 0 k) as [P|P].
      * rewrite Z.shiftr_div_pow2 by lia. change (2 ^ 1) with 2. assert (D : 0 <= k / 2 < k) by (split; [apply Z.div_pos; lia|apply Z.div_lt; lia]).
        destruct (IH (k / 2)) as (m & E1 & H & B); [lia| |lia|].
        { apply Z.div_lt_upper_bound; [lia|]. rewrite Nat2Z.inj_succ, Z.pow_succ_r in K1 by lia. lia. }
        exists m. split; [exact E1|]. split; [econstructor 2; eauto|lia].
      * assert (k = 0) by lia. subst k. exists 0. split; [reflexivity|]. split; [econstructor; [exact E|now right]|lia].
    + exists k. split; [reflexivity|]. split; [|lia]. econstructor; [exact E|]. left. rewrite <- tiny_small. congruence.
Qed.
Theorem C120_points : forall {R} (gt : mpfv -> bool) (reg : list (Z * mpfv) -> res R) errors, (500 < length errors)%nat ->
  exists k, halved small_error errors 500 k /\ 0 <= k <= 500 /\
    legacy_fitting (fun v => Ok (gt v)) reg errors = reg (filter (fun e => gt (snd e)) (skipn (Z.to_nat k) errors)).
Proof.
  intros R gt reg errors L. destruct (cutoff_halved errors 64 500 ltac:(lia) ltac:(cbn; lia) ltac:(lia)) as (k & E & H & B). exists k. split; [exact H|]. split; [exact B|].
  unfold legacy_fitting. rewrite E. unfold legacy_fit_points.
  assert (F : forall l, filterM (fun p : Z * mpfv => let* b := Ok (gt (snd p)) in Ok (if b : bool then Some p else None)) l = Ok (filter (fun e => gt (snd e)) l)).
  { clear. induction l as [|x l IH]; [reflexivity|]. cbn [filterM filter bind] in *. rewrite IH. cbn [bind]. destruct (gt (snd x)); reflexivity. }
  rewrite F. reflexivity.
Qed.
Theorem C120_few : forall {R} gt (reg : list (Z * mpfv) -> res R) errors, (length errors <= 500)%nat -> legacy_fitting gt reg errors = Raise IndexError.
Proof.
  intros R gt reg errors L. unfold legacy_fitting. cbn [cutoff_loop].
  assert (E : py_nth errors 500 = Raise IndexError).
  { unfold py_nth. change (500 <? 0) with false. cbv iota. change (500 <? 0) with false. destruct (Z.leb_spec (Z.of_nat (length errors)) 500); [reflexivity|lia]. }
  change (cutoff_loop 64 errors 500) with (match py_nth errors 500 with Raise e => Some (Raise e) | Ok p => if tiny (snd p) && (0 <? 500) then cutoff_loop 63 errors (Z.shiftr 500 1) else Some (Ok 500) end).
  rewrite E. reflexivity.
Qed.
(** With a library whose numbers do not compare with a Decimal, no file with a fraction in it is analysed. *)
Theorem C120_decimal_refuted : forall {R} rd evals apply (reg : list (Z * mpfv) -> res R) plot conv_of d stem ext p rows figs out,
  file_at d stem ext p ->
  analyze_contfracs_csv rd evals apply (fun errors => let* r := legacy_fitting (fun _ => Raise TypeError) reg errors in plot r) conv_of p rows (chars "cont_frac") = (figs, Ok out) ->
  snd (load_cont_fracs evals rows) = Ok [] /\ figs = [] /\ out = ([], []).
Proof.
  intros R rd evals apply reg plot conv_of d stem ext p rows figs [fast conv] FA H. destruct (C119_figures _ _ _ _ _ _ _ _ _ _ _ _ _ FA H) as (ps & vs & E & F & -> & -> & ->).
  assert (ps = []).
  { inversion F as [|q v ps' vs' RP _]; [reflexivity|]. subst. exfalso. destruct RP as (t & c & c1 & _ & _ & FT & _). revert FT. generalize (map (fun i => (i, errv rd (lp_a q) (lp_b q) t i)) (zrange 1 2001)). intros errors FT.
    destruct (Nat.le_gt_cases (length errors) 500) as [L|L]; [rewrite C120_few in FT by exact L; discriminate|].
    destruct (cutoff_halved errors 64 500 ltac:(lia) ltac:(cbn; lia) ltac:(lia)) as (k & EK & _ & B). unfold legacy_fitting in FT. rewrite EK in FT. unfold legacy_fit_points in FT.
    destruct (skipn (Z.to_nat k) errors) as [|x l] eqn:ES; [|discriminate]. apply (f_equal (@length _)) in ES. rewrite skipn_length in ES. cbn in ES. lia. }
  subst ps. inversion F. subst. auto.
Qed.
Definition C120_errors : list (Z * mpfv) := map (fun i => (Z.of_nat i, Fin (if (i <? 200)%nat then 1 else 0))) (seq 0 501).
Example C120_ex : (500 < length C120_errors)%nat /\ halved small_error C120_errors 500 125 /\
  legacy_fitting (fun v => Ok (match v with Fin q => negb (Qle_bool q 0) | NaN => false end)) (fun l => Ok (length l)) C120_errors = Ok 75%nat /\
  C119_run (fun errors => let* _ := legacy_fitting (fun _ => Raise TypeError) (fun _ => Ok tt) errors in Ok tt) = ([], Raise TypeError).
Proof.
  split; [vm_compute; lia|]. split; [|split; [vm_compute; reflexivity|]].
  - assert (S : small_error (500, Fin 0)) by (exists 0%Q; split; [reflexivity|vm_compute; reflexivity]). assert (S' : small_error (250, Fin 0)) by (exists 0%Q; split; [reflexivity|vm_compute; reflexivity]).
    econstructor 2; [reflexivity|exact S|lia|]. change (500 / 2) with 250. econstructor 2; [reflexivity|exact S'|lia|]. change (250 / 2) with 125.
    econstructor 1; [reflexivity|]. left. intros (q & E & L). cbn in E. injection E as <-. vm_compute in L. discriminate.
  - rewrite C119_run_is. set (es := map _ (zrange 1 2001)). assert (L : length es = 2000%nat) by (unfold es; rewrite map_length; vm_compute; reflexivity). clearbody es.
    destruct (cutoff_halved es 64 500 ltac:(lia) ltac:(cbn; lia) ltac:(lia)) as (k & EK & _ & B). unfold legacy_fitting. rewrite EK. unfold legacy_fit_points.
    destruct (skipn (Z.to_nat k) es) as [|x l] eqn:ES; [|reflexivity]. apply (f_equal (@length _)) in ES. rewrite skipn_length in ES. cbn in ES. lia.
Qed.

Print Assumptions C117_load.
Print Assumptions C117_blank_line.
Print Assumptions C117_printed.
Print Assumptions C117_other_fraction_refuted.
Print Assumptions C117_tuples_refuted.
Print Assumptions C118_evaluated.
Print Assumptions C118_any_code_refuted.
Print Assumptions C119_figures.
Print Assumptions C119_filetype_refuted.
Print Assumptions C119_row_refuted.
Print Assumptions C120_points.
Print Assumptions C120_few.
Print Assumptions C120_decimal_refuted.

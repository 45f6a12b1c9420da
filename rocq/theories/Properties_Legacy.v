(** Properties C114-C116: converting files of old results. *)
From Coq Require Import Ascii String ZArith QArith Qabs List Bool Lia.
From Verif Require Import PyBase PyBase_Proofs Rnd Rnd_Proofs ContFrac_Model Hashtable_Model Hashtable_Proofs ULCD_Model MITM_Model
  Results_Model Config_Model Consts_Model Spec_ContFrac Spec_ULCD Spec_Results Spec_Config Config_Proofs Config_Json
  ContFrac_Hist ULCD_Proofs Results_Proofs Properties_ContFrac Properties_ULCD Properties_Results Legacy_Model Spec_Legacy Legacy_Text.
Import ListNotations.
Local Open Scope Z_scope.
Local Open Scope list_scope.

(** ---- mapM and indices ---- *)
Lemma mapM_Forall2 {A B} (f : A -> res B) : forall xs ys, mapM f xs = Ok ys -> Forall2 (fun x y => f x = Ok y) xs ys.
Proof.
  induction xs as [|x xs IH]; intros ys H; cbn [mapM] in H; [injection H as <-; constructor|].
  destruct (f x) as [y|e] eqn:E; [|discriminate]. cbn [bind] in H. destruct (mapM f xs) as [zs|e]; [|discriminate]. cbn [bind] in H. injection H as <-.
  constructor; [exact E|]. now apply IH.
Qed.
Lemma F2_length {A B} (R : A -> B -> Prop) xs ys : Forall2 R xs ys -> length xs = length ys.
Proof. induction 1; cbn [length]; congruence. Qed.
Lemma py_nth_Forall2 {A B} (R : A -> B -> Prop) xs ys i y : Forall2 R xs ys -> py_nth ys i = Ok y -> exists x, py_nth xs i = Ok x /\ R x y.
Proof.
  intros F H. unfold py_nth in *. rewrite <- (F2_length R xs ys F) in H.
  destruct (_ || _) eqn:E in *; [discriminate|]. set (k := Z.to_nat _) in *. destruct (nth_error ys k) as [y'|] eqn:N; [|discriminate]. injection H as ->.
  clearbody k. clear E. revert k N. induction F as [|x0 y0 xs ys R0 F IH]; intros [|k] N; try discriminate; cbn [nth_error] in *.
  - injection N as ->. eauto.
  - now apply IH.
Qed.
Lemma py_nth_In {A} (l : list A) i x : py_nth l i = Ok x -> In x l.
Proof. unfold py_nth. destruct (_ || _); [discriminate|]. destruct (nth_error _ _) eqn:E; [|discriminate]. intros H. injection H as ->. eapply nth_error_In; eauto. Qed.
Lemma list_index_ok f l : forall n, In f l -> exists j, list_index f l n = Ok j /\ n <= j < n + Z.of_nat (length l) /\ nth_error l (Z.to_nat (j - n)) = Some f.
Proof.
  induction l as [|g l IH]; intros n I; [destruct I|]. cbn [list_index length]. destruct (text_eqb f g) eqn:E.
  - apply text_eqb_eq in E. subst g. exists n. rewrite Z.sub_diag. repeat split; try lia.
  - destruct I as [->|I]; [rewrite (proj2 (text_eqb_eq f f) eq_refl) in E; discriminate|]. destruct (IH (n + 1) I) as (j & J & R & N). exists j. split; [exact J|]. split; [lia|].
    replace (Z.to_nat (j - n)) with (S (Z.to_nat (j - (n + 1)))) by lia. exact N.
Qed.
Lemma post_index f : In f POSTPROC_FUNCS -> exists j, 0 <= j < 24 /\ list_index f POSTPROC_FUNCS 0 = Ok j /\ py_nth POSTPROC_FUNCS j = Ok f.
Proof.
  intros I. destruct (list_index_ok f POSTPROC_FUNCS 0 I) as (j & J & R & N). change (Z.of_nat (length POSTPROC_FUNCS)) with 24 in R. rewrite Z.sub_0_r in N. exists j.
  split; [lia|]. split; [exact J|]. unfold py_nth. change (Z.of_nat (length POSTPROC_FUNCS)) with 24.
  replace (j <? 0) with false by (symmetry; apply Z.ltb_ge; lia). replace ((j <? 0) || (24 <=? j)) with false by (symmetry; apply orb_false_iff; split; [apply Z.ltb_ge|apply Z.leb_gt]; lia).
  now rewrite N.
Qed.
(** the powers *)
Lemma power_index j f : 0 <= j < 24 -> py_nth POSTPROC_FUNCS j = Ok f -> mpf_works j = true -> latex_good j = true ->
  exists n, 1 <= n <= 5 /\ f = power_name n /\ post_tree j = Some (power_tree n).
Proof.
  intros J F M L. unfold mpf_works in M. apply existsb_exists in M as (k & K & E). apply Z.eqb_eq in E. subst k. cbn [In] in K.
  destruct K as [<-|[<-|[<-|[<-|[<-|[<-|[]]]]]]]; try discriminate L; injection F as <-;
    [exists 1|exists 2|exists 3|exists 4|exists 5]; (split; [lia|]); split; reflexivity.
Qed.
Lemma header_ok_post fs : fs <> [] -> Forall (fun f => In f POSTPROC_FUNCS) fs -> header_funcs (list_str (map quoted fs)) = fs.
Proof.
  intros N F. apply header_ok; [exact N|]. eapply Forall_impl; [|exact F]. intros f I.
  assert (B : forallb (fun f => forallb (fun c => negb (char_eqb c ",")) f && forallb (fun c => negb (char_eqb c "'")) f) POSTPROC_FUNCS = true) by (vm_compute; reflexivity).
  rewrite forallb_forall in B. specialize (B f I). apply andb_true_iff in B as [B1 B2]. rewrite forallb_forall in B1, B2.
  split; apply Forall_forall; intros c C; apply negb_true_iff; auto.
Qed.
Lemma header_eval_spec sq rd fs funcs : header_eval sq rd fs = Ok funcs ->
  Forall2 (fun f g => exists j, 0 <= j < 24 /\ py_nth POSTPROC_FUNCS j = Ok f /\ py_nth (EVALUATED_POSTPROC_FUNCS (mpf_ops rd sq)) j = Ok g) fs funcs.
Proof.
  intros H. apply mapM_Forall2 in H. induction H as [|f g fs gs H F IH]; [constructor|]. constructor; [|exact IH].
  destruct (list_index f POSTPROC_FUNCS 0) as [j|e] eqn:E; [|discriminate]. cbn [bind] in H.
  assert (I : In f POSTPROC_FUNCS).
  { clear H. revert E. generalize 0. generalize POSTPROC_FUNCS. induction l as [|x l IHl]; intros n E; [discriminate|]. cbn [list_index] in E.
    destruct (text_eqb f x) eqn:T; [apply text_eqb_eq in T; subst x; now left|right; eauto]. }
  destruct (post_index f I) as (j' & J & E' & P). rewrite E in E'. injection E' as <-. eauto.
Qed.
Lemma header_eval_total sq rd fs : Forall (fun f => In f POSTPROC_FUNCS) fs -> exists funcs, header_eval sq rd fs = Ok funcs.
Proof.
  unfold header_eval. induction 1 as [|f fs I F (gs & IH)]; [eexists; reflexivity|]. cbn [mapM]. destruct (post_index f I) as (j & J & E & P). rewrite E. cbn [bind].
  destruct (func_total _ (mpf_ops rd sq) j J) as (g & G). rewrite G. cbn [bind]. rewrite IH. eexists; reflexivity.
Qed.

(** ---- one row ---- *)
Lemma py_nth_pre {A} (l r : list A) i x : py_nth l i = Ok x -> 0 <= i -> py_nth (l ++ r) i = Ok x.
Proof.
  unfold py_nth. rewrite app_length. intros H I. replace (i <? 0) with false in * by (symmetry; apply Z.ltb_ge; lia).
  destruct ((i <? 0) || (Z.of_nat (length l) <=? i)) eqn:E; [discriminate|]. apply orb_false_iff in E as [E1 E2]. apply Z.leb_gt in E2.
  replace ((i <? 0) || (Z.of_nat (length l + length r) <=? i)) with false by (symmetry; apply orb_false_iff; split; [exact E1|apply Z.leb_gt; lia]).
  rewrite nth_error_app1 by lia. exact H.
Qed.
Lemma row_ok k n r m : proper r -> load_row (LPlain (GConst k)) n (old_row r) m =
  (m, let* o := ulcd_new (rnd (mp_prec m)) (old_u r, old_l r, old_c r, old_d r) (rnd (mp_prec m) k) in Ok ((old_a r, old_b r), o, old_func r, None)).
Proof.
  intros (NA & NB & FA & FB). unfold load_row.
  assert (R0 : @py_nth text (old_row r) 0 = @Ok text (old_polys (old_flat_a r) (old_a r))) by (apply py_nth_pre; [reflexivity|lia]).
  assert (R1 : @py_nth text (old_row r) 1 = @Ok text (old_polys (old_flat_b r) (old_b r))) by (apply py_nth_pre; [reflexivity|lia]).
  assert (R2 : @py_nth text (old_row r) 2 = @Ok text (z_text (old_func r))) by (apply py_nth_pre; [reflexivity|lia]).
  rewrite R0, R1.
  destruct (polys_loaded _ _ NA FA) as (ja & A1 & A2). destruct (polys_loaded _ _ NB FB) as (jb & B1 & B2).
  cbn [bind]. rewrite A1. cbn [bind]. rewrite B1. cbn [bind]. rewrite A2. cbn [bind]. rewrite B2. cbn [bind].
  change (cut 3 7 (old_row r)) with [z_text (old_u r); z_text (old_l r); z_text (old_c r); z_text (old_d r)].
  cbn [mapM]. rewrite !py_int_text. cbn [bind call_lgen]. unfold call_gen. cbn [tl set_precision call_body bind].
  destruct (ulcd_new _ _ _); cbn [bind]; [|reflexivity]. rewrite R2. cbn [bind]. now rewrite py_int_text.
Qed.
Definition loaded (r : old_result) (c : click ulcd) : Prop :=
  ck_ab c = (old_a r, old_b r) /\ ck_ind c = old_func r /\ ul_params (ck_obj c) = (old_u r, old_l r, old_c r, old_d r) /\ old_l r <> 0 /\ old_d r <> 0.
Lemma ulcd_new_ok rd p x o : ulcd_new rd p x = Ok o -> ul_params o = p /\ let '(u, l, c, d) := p in l <> 0 /\ d <> 0.
Proof.
  destruct p as [[[u l] c] d]. unfold ulcd_new, ulcd_calc. destruct (div_r rd (inject_Z u) x); [|discriminate]. cbn [bind].
  unfold div_r at 1. destruct (Qeq_bool (inject_Z l) 0) eqn:L; [discriminate|]. cbn [bind]. unfold div_r. destruct (Qeq_bool (inject_Z d) 0) eqn:D; [discriminate|]. cbn [bind].
  intros H. injection H as <-. split; [reflexivity|]. split; intros ->; discriminate.
Qed.
Lemma rows_ok k m : forall rs n, Forall proper rs -> fst (load_rows (LPlain (GConst k)) n (map old_row rs) m) = m /\
  forall cs, snd (load_rows (LPlain (GConst k)) n (map old_row rs) m) = Ok cs -> Forall2 loaded rs cs.
Proof.
  induction rs as [|r rs IH]; intros n F; cbn [map load_rows].
  - split; [reflexivity|]. intros cs H. injection H as <-. constructor.
  - inversion F as [|? ? F1 F2]; subst. rewrite row_ok by exact F1. destruct (ulcd_new _ _ _) as [o|e] eqn:U; cbn [bind]; [|split; [reflexivity|discriminate]].
    destruct (IH (n + 1) F2) as [I1 I2]. destruct (load_rows (LPlain (GConst k)) (n + 1) (map old_row rs) m) as [m2 x]. cbn [fst snd] in *. split; [exact I1|].
    destruct x as [cs|e]; [|discriminate]. cbn [bind]. intros cs' H. injection H as <-. constructor; [|now apply I2].
    destruct (ulcd_new_ok _ _ _ _ U) as (U1 & U2 & U3). repeat split; assumption.
Qed.
Lemma rows_total k m : ~ (rnd (mp_prec m) k == 0)%Q -> forall rs n, Forall proper rs -> Forall (fun r => old_l r <> 0 /\ old_d r <> 0) rs ->
  exists cs, load_rows (LPlain (GConst k)) n (map old_row rs) m = (m, Ok cs).
Proof.
  intros K. induction rs as [|r rs IH]; intros n F G; cbn [map load_rows]; [eexists; reflexivity|].
  inversion F as [|? ? F1 F2]; inversion G as [|? ? [G1 G2] G3]; subst. rewrite row_ok by exact F1. unfold ulcd_new, ulcd_calc, div_r.
  assert (Z0 : forall z, z <> 0 -> Qeq_bool (inject_Z z) 0 = false) by (intros z Hz; unfold Qeq_bool, inject_Z, Zeq_bool; cbn; destruct z; [contradiction|reflexivity|reflexivity]).
  destruct (Qeq_bool (rnd (mp_prec m) k) 0) eqn:E; [apply Qeq_bool_eq in E; contradiction|]. cbn [bind]. rewrite !Z0 by assumption. cbn [bind].
  destruct (IH (n + 1) F2 G3) as (cs & ->). cbn [bind]. eexists; reflexivity.
Qed.

(** ---- one equation ---- *)
Section One.
  Variables (rd rd' sq : Q -> Q) (target : option Q) (name : text) (fs : list text) (funcs : list (mpfv -> res mpfv)).
  Hypothesis HF : header_eval sq rd' fs = Ok funcs.
  Notation one c := (result_eqn rd ulcd_lhs_latex funcs target POSTPROC_FUNCS_LATEX name fs true 5 c).
  Lemma no_zerob : forall i f x n, py_nth funcs i = Ok f -> f x <> Raise (ZeroB n).
  Proof.
    intros i f x n H. destruct (py_nth_Forall2 _ _ _ _ _ (header_eval_spec _ _ _ _ HF) H) as (g & _ & j & _ & _ & G).
    exact (C80_functions rd' sq j f x n G).
  Qed.
  Lemma one_old r c o x : loaded r c -> one c = (o, Ok x) ->
    match x with None => zero_b (old_b r) | Some eqn => ~ zero_b (old_b r) /\ old_equation (shown_name name) fs r eqn end.
  Proof.
    intros (AB & IND & PAR & HL & HD) H. unfold result_eqn in H. pose proof (build_cases ulcd rd funcs target c) as B. rewrite AB in *.
    cbn [fst snd] in *.
    destruct (build_from_params rd funcs target 400 c) as [[[cf v] o']|e].
    2:{ destruct e; try (injection H as _ H; discriminate). injection H as _ <-.
        destruct B as [B|(f & y & F & Y)]; [exact B|]. now elim (no_zerob _ _ y i F). }
    destruct B as (-> & NA & NB & _ & (fn & FN & FV) & BZ).
    rewrite (first_coeffs_ok _ NA), (first_coeffs_ok _ NB) in H. cbn [bind] in H.
    unfold ulcd_lhs_latex in H. apply pair_equal_spec in H as [_ H]. cbn [bind] in H.
    pose proof (latex_first (old_a r, old_b r)) as LF. cbn [fst snd] in LF. rewrite LF in H. cbn [bind] in H.
    destruct (py_nth_Forall2 _ _ _ _ _ (header_eval_spec _ _ _ _ HF) FN) as (f & FT & j & J & PJ & EJ). rewrite FT in H. cbn [bind] in H.
    destruct (C79_mpf rd' sq j J) as (g & G & W). rewrite EJ in G. injection G as <-. specialize (W (cf_result cf)).
    destruct (mpf_works j) eqn:M; [|rewrite W in FV; discriminate].
    set (frac := cf_text _ _) in *.
    pose proof (latex_entry j (ulcd_latex (ul_params (ck_obj c)) (known_target name)) frac J) as LE. rewrite PJ in LE.
    destruct (d_get text_eqb POSTPROC_FUNCS_LATEX f) as [g|]; [|contradiction].
    destruct (latex_good j) eqn:LG.
    2:{ exfalso. unfold mpf_works in M. apply existsb_exists in M as (k & K & E). apply Z.eqb_eq in E. subst k. cbn [In] in K.
        destruct K as [K|[K|[K|[K|[K|[K|[]]]]]]]; subst j; try discriminate LG. rewrite LE in H. discriminate H. }
    destruct LE as (t & T & GE). rewrite GE in H. cbn [bind fst snd] in H. rewrite fmt_eqn in H. injection H as <-.
    destruct (power_index j f J PJ M LG) as (n & N & -> & TP). rewrite T in TP. injection TP as ->.
    split; [intros (i & I1 & I2); exact (BZ i I1 I2)|].
    rewrite PAR. destruct (C62_latex (old_u r) (old_l r) (old_c r) (old_d r) (shown_name name) HL HD) as (e & E1 & E2).
    exists n, e. split; [exact N|]. rewrite <- IND. split; [exact FT|]. split; [exact E2|]. now rewrite shown_known, E1.
  Qed.
  Lemma eqns_old : forall rs cs cs' es, Forall2 loaded rs cs ->
    results_as_eqns rd ulcd_lhs_latex funcs target POSTPROC_FUNCS_LATEX name fs true 5 cs = (cs', Ok es) ->
    exists os, es = somes os /\ Forall2 (fun r o =>
      match o with None => zero_b (old_b r) | Some eqn => ~ zero_b (old_b r) /\ old_equation (shown_name name) fs r eqn end) rs os.
  Proof.
    intros rs cs cs' es F. revert cs' es. induction F as [|r c rs cs L F IH]; intros cs' es H; cbn [results_as_eqns] in H.
    - injection H as _ <-. exists []. split; [reflexivity|constructor].
    - destruct (one c) as [o [x|e]] eqn:E; [|discriminate].
      destruct (results_as_eqns rd ulcd_lhs_latex funcs target POSTPROC_FUNCS_LATEX name fs true 5 cs) as [cs1 [es1|e]]; cbn [bind] in H; [|discriminate].
      injection H as _ <-. destruct (IH _ _ eq_refl) as (os & -> & R2).
      exists (x :: os). split; [destruct x; reflexivity|]. constructor; [|exact R2]. exact (one_old _ _ _ _ L E).
  Qed.
  (** a power always gets its equation *)
  Lemma one_total r c n : loaded r c -> hd [] (old_a r) <> [] -> old_a r <> [] -> old_b r <> [] ->
    1 <= n <= 5 -> py_nth fs (old_func r) = Ok (power_name n) -> exists x, snd (one c) = Ok x.
  Proof.
    intros (AB & IND & PAR & HL & HD) HA NA NB N FT. unfold result_eqn. 
    assert (PN : exists j, 0 <= j < 24 /\ py_nth POSTPROC_FUNCS j = Ok (power_name n) /\ mpf_works j = true /\ latex_good j = true).
    { assert (C : n = 1 \/ n = 2 \/ n = 3 \/ n = 4 \/ n = 5) by lia. destruct C as [->|[->|[->|[->| ->]]]]; [exists 0|exists 2|exists 4|exists 6|exists 8]; repeat split; try lia; reflexivity. }
    destruct PN as (j & J & PJ & M & LG).
    assert (FN : exists fn, py_nth funcs (old_func r) = Ok fn /\ py_nth (EVALUATED_POSTPROC_FUNCS (mpf_ops rd' sq)) j = Ok fn).
    { assert (F2 : Forall2 (fun g f => exists k, 0 <= k < 24 /\ py_nth POSTPROC_FUNCS k = Ok f /\ py_nth (EVALUATED_POSTPROC_FUNCS (mpf_ops rd' sq)) k = Ok g) funcs fs).
      { pose proof (header_eval_spec _ _ _ _ HF) as F. clear -F. induction F; constructor; auto. }
      destruct (py_nth_Forall2 _ _ _ _ _ F2 FT) as (fn & F1 & k & K & PK & EK). exists fn. split; [exact F1|].
      enough (k = j) by (subst; exact EK). clear -J K PJ PK.
      assert (ND : NoDup POSTPROC_FUNCS).
      { assert (B : (fix nd (l : list text) := match l with [] => true | x :: r => negb (existsb (text_eqb x) r) && nd r end) POSTPROC_FUNCS = true) by (vm_compute; reflexivity).
        revert B. generalize POSTPROC_FUNCS. induction l as [|x l IH]; intros B; [constructor|]. apply andb_true_iff in B as [B1 B2]. constructor; [|now apply IH].
        intros I. apply negb_true_iff in B1. assert (X : existsb (text_eqb x) l = true) by (apply existsb_exists; exists x; split; [exact I|now apply text_eqb_eq]). congruence. }
      assert (S : forall i f, 0 <= i < 24 -> py_nth POSTPROC_FUNCS i = Ok f -> nth_error POSTPROC_FUNCS (Z.to_nat i) = Some f).
      { intros i f I H. unfold py_nth in H. change (Z.of_nat (length POSTPROC_FUNCS)) with 24 in H.
        replace (i <? 0) with false in H by (symmetry; apply Z.ltb_ge; lia). destruct (_ || _); [discriminate|].
        destruct (nth_error POSTPROC_FUNCS (Z.to_nat i)); [now injection H as ->|discriminate]. }
      pose proof (S j _ J PJ) as S1. pose proof (S k _ K PK) as S2.
      assert (E : Z.to_nat k = Z.to_nat j).
      { apply (proj1 (NoDup_nth_error POSTPROC_FUNCS) ND); [|congruence]. change (length POSTPROC_FUNCS) with 24%nat. lia. }
      lia. }
    destruct FN as (fn & FN & EN).
    assert (B : (exists n, build_from_params rd funcs target 400 c = Raise (ZeroB n)) \/ exists y, build_from_params rd funcs target 400 c = Ok y).
    { unfold build_from_params, ck_new. rewrite AB, IND. cbn [fst snd].
      assert (NEW : exists c0, cf_new (Nested (old_a r)) (Nested (old_b r)) true None None target false = Ok c0).
      { unfold cf_new. destruct (old_a r) as [|[|a0 p] a]; [contradiction|now contradiction HA|]. destruct (old_b r) as [|b0 b]; [contradiction|]. cbn. eexists; reflexivity. }
      destruct NEW as (c0 & NEW). rewrite NEW. cbn [bind].
      destruct (C08_only_zero_b rd _ _ _ _ _ _ [] c0 (Ok tt) 400 true NEW eq_refl) as [_ Z0].
      destruct (cf_gen0 rd 400 true c0) as [cf [[]|e]]; cbn [snd] in Z0.
      - right. rewrite FN. cbn [bind]. destruct (C79_mpf rd' sq j J) as (g & G & W). rewrite EN in G. injection G as <-. specialize (W (cf_result cf)). rewrite M in W.
        destruct W as (v & ->). cbn [bind]. eexists; reflexivity.
      - left. destruct Z0 as [Z0|(i & Z0)]; [discriminate|]. injection Z0 as ->. eexists; reflexivity. }
    destruct B as [(k & ->)|(y & ->)]; [eexists; reflexivity|].
    rewrite AB, IND. cbn [fst snd]. rewrite (first_coeffs_ok _ NA), (first_coeffs_ok _ NB). cbn [bind]. unfold ulcd_lhs_latex. cbn [snd bind].
    pose proof (latex_first (old_a r, old_b r)) as LF. cbn [fst snd] in LF. rewrite LF. cbn [bind]. rewrite FT. cbn [bind].
    pose proof (latex_entry j (ulcd_latex (ul_params (ck_obj c)) (known_target name)) (cf_text (icoef (old_a r) 0) (icoefs (old_a r) (old_b r) [1; 2; 3; 4])) J) as LE.
    rewrite PJ, LG in LE. destruct (d_get text_eqb POSTPROC_FUNCS_LATEX (power_name n)) as [g|]; [|contradiction].
    destruct LE as (t & T & ->). cbn [bind fst snd]. rewrite fmt_eqn. cbn [bind]. eexists; reflexivity.
  Qed.
  Lemma eqns_total : forall rs cs, Forall2 loaded rs cs ->
    Forall (fun r => hd [] (old_a r) <> [] /\ old_a r <> [] /\ old_b r <> [] /\ exists n, 1 <= n <= 5 /\ py_nth fs (old_func r) = Ok (power_name n)) rs ->
    exists es, snd (results_as_eqns rd ulcd_lhs_latex funcs target POSTPROC_FUNCS_LATEX name fs true 5 cs) = Ok es.
  Proof.
    intros rs cs F. induction F as [|r c rs cs L F IH]; intros G; cbn [results_as_eqns]; [eexists; reflexivity|].
    inversion G as [|? ? (G1 & G2 & G3 & n & N & P) G4]; subst. destruct (one_total _ _ _ L G1 G2 G3 N P) as (x & E).
    destruct (one c) as [o y]. cbn [snd] in E. subst y. destruct (IH G4) as (es & E2).
    destruct (results_as_eqns rd ulcd_lhs_latex funcs target POSTPROC_FUNCS_LATEX name fs true 5 cs) as [cs1 y]. cbn [snd] in *. subst y. eexists; reflexivity.
  Qed.
End One.

(** ---- the target ---- *)
Definition plain_targets : list (list ascii) := map chars ["pi"; "e"; "euler_masch"]%string.
Definition const_of (pt et t : text) : Q :=
  if text_eqb t (txt "pi") then pi_const pt else if text_eqb t (txt "e") then e_const et else euler_masch_const.
Lemma choose_plain pt et own t : In t plain_targets -> choose_gen pt et own t = Ok (Some (LPlain (GConst (const_of pt et t)))).
Proof. intros [<-|[<-|[<-|[]]]]; reflexivity. Qed.
Lemma len2 {A} (a b : A) l : 2 <? Z.of_nat (length (a :: b :: l)) = match l with [] => false | _ => true end.
Proof. destruct l; [reflexivity|]. cbn [length]. apply Z.ltb_lt. lia. Qed.
Lemma header_const_target pt et (given : option text) (more : list text) (first f1 t : text) : old_target given more = Some t ->
  (let* g0 := match given with Some ((_ :: _) as c) => choose_gen pt et false c | _ => Ok None end in header_const pt et given g0 (first :: f1 :: more)) =
  let* g := choose_gen pt et (match given with Some (_ :: _) => false | _ => true end) t in Ok (t, g).
Proof.
  assert (D : match more with [] => Some (chars "pi") | [_] => None | _ :: [] :: _ => Some (chars "pi") | _ :: t :: _ => Some t end = Some t ->
    (let* c3 := if 2 <? Z.of_nat (length (first :: f1 :: more)) then py_nth (first :: f1 :: more) 3 else Ok [] in
     match c3 with [] => Ok (txt "pi", Some (LPlain (GConst (pi_const pt)))) | _ => let* g := choose_gen pt et true c3 in Ok (c3, g) end) =
    let* g := choose_gen pt et true t in Ok (t, g)).
  { rewrite len2. destruct more as [|m1 [|m2 more]]; [|discriminate|].
    - intros H. injection H as <-. reflexivity.
    - change (first :: f1 :: m1 :: m2 :: more) with ([first; f1; m1; m2] ++ more). rewrite (py_nth_pre [first; f1; m1; m2] more 3 m2 eq_refl ltac:(lia)). cbn [bind].
      destruct m2; intros H; injection H as <-; reflexivity. }
  unfold old_target, header_const. destruct given as [[|c g]|]; intros H.
  - cbn [bind]. apply D. exact H.
  - injection H as <-. destruct (choose_gen pt et false (c :: g)); reflexivity.
  - cbn [bind]. apply D. exact H.
Qed.
(** The conversion with a target *)
Lemma convert_eq sq pt et path (first : text) (fs more titles : list text) rs (given : option text) (t : text) : fs <> [] -> Forall (fun f => In f POSTPROC_FUNCS) fs -> old_target given more = Some t ->
  forall g, choose_gen pt et (match given with Some (_ :: _) => false | _ => true end) t = Ok g ->
  exists funcs, header_eval sq (rnd (mp_prec (set_dps 50))) fs = Ok funcs /\
  old_enum_csv_to_pdf sq pt et path (old_file first fs more titles rs) given =
    match g with
    | None => Raise UnboundLocalError
    | Some g =>
        let (m, x) := load_rows g 0 (map old_row rs) (set_dps 50) in
        let* cs := x in
        let rd := rnd (mp_prec m) in
        let* eqns := snd (results_as_eqns rd ulcd_lhs_latex funcs (Some (rd (pi_const pt))) POSTPROC_FUNCS_LATEX t fs true 5 cs) in
        Ok (strip_set (txt ".csv") path, eqns)
    end.
Proof.
  intros N F T g G. destruct (header_eval_total sq (rnd (mp_prec (set_dps 50))) fs F) as (funcs & HE). exists funcs. split; [exact HE|].
  pose proof (header_const_target pt et given more first (list_str (map quoted fs)) t T) as HC. rewrite G in HC. cbn [bind] in HC.
  change (old_file first fs more titles rs) with ((first :: (list_str (map quoted fs) : text) :: more) :: titles :: map old_row rs). unfold old_enum_csv_to_pdf.
  assert (P1 : @py_nth text (first :: list_str (map quoted fs) :: more) 1 = @Ok text (list_str (map quoted fs))).
  { change (first :: list_str (map quoted fs) :: more) with ([first; list_str (map quoted fs)] ++ more). apply py_nth_pre; [reflexivity|lia]. }
  assert (K : forall row, row = first :: (list_str (map quoted fs) : text) :: more -> py_nth row 1 = Ok (list_str (map quoted fs) : text)) by (intros row ->; exact P1).
  remember (first :: (list_str (map quoted fs) : text) :: more) as row eqn:ER. specialize (K row eq_refl).
  destruct given as [[|c gg]|]; [|destruct (choose_gen pt et false (c :: gg)) as [g0|e]; [|discriminate HC]|]; cbn [bind] in HC |- *;
    rewrite K; cbn [bind]; rewrite (header_ok_post fs N F); cbv zeta; rewrite HE; cbn [bind]; rewrite HC; reflexivity.
Qed.
(** ---- C114: converting a file of old results ---- *)
(** One equation per result, in order, except for the fractions with a zero partial numerator among the first 400. Every
    equation has the expression of the target and the fraction under the right function, which is a power 1 to 5. *)
Theorem C114_equations : forall sq pt et path first fs more titles rs given t pdf eqns,
  fs <> [] -> Forall (fun f => In f POSTPROC_FUNCS) fs -> old_target given more = Some t -> In t plain_targets -> Forall proper rs ->
  old_enum_csv_to_pdf sq pt et path (old_file first fs more titles rs) given = Ok (pdf, eqns) ->
  exists os, eqns = somes os /\ Forall2 (fun r o =>
    match o with None => zero_b (old_b r) | Some eqn => ~ zero_b (old_b r) /\ old_equation (shown_name t) fs r eqn end) rs os.
Proof.
  intros sq pt et path first fs more titles rs given t pdf eqns N F T IT PR H.
  destruct (convert_eq sq pt et path first fs more titles rs given t N F T _ (choose_plain pt et _ t IT)) as (funcs & HE & E). rewrite E in H. clear E.
  destruct (rows_ok (const_of pt et t) (set_dps 50) rs 0 PR) as [R1 R2]. destruct (load_rows _ 0 (map old_row rs) (set_dps 50)) as [m x]. cbn [fst snd] in *. subst m.
  destruct x as [cs|e]; [|discriminate]. cbn [bind] in H. specialize (R2 cs eq_refl).
  destruct (results_as_eqns _ ulcd_lhs_latex funcs _ POSTPROC_FUNCS_LATEX t fs true 5 cs) as [cs' [es|e]] eqn:RE; cbn [bind snd] in H; [|discriminate]. injection H as _ <-.
  exact (eqns_old _ _ _ _ _ _ _ HE _ _ _ _ R2 RE).
Qed.
(** So a file with one result under any other function is not converted at all. *)
Theorem C114_other_function : forall sq pt et path first fs more titles rs given t r f,
  fs <> [] -> Forall (fun f => In f POSTPROC_FUNCS) fs -> old_target given more = Some t -> In t plain_targets -> Forall proper rs ->
  In r rs -> ~ zero_b (old_b r) -> py_nth fs (old_func r) = Ok f -> (forall n, 1 <= n <= 5 -> f <> power_name n) ->
  exists e, old_enum_csv_to_pdf sq pt et path (old_file first fs more titles rs) given = Raise e.
Proof.
  intros sq pt et path first fs more titles rs given t r f N F T IT PR I NZ FR NP.
  destruct (old_enum_csv_to_pdf _ _ _ _ _ _) as [[pdf eqns]|e] eqn:E; [|eauto]. exfalso.
  destruct (C114_equations _ _ _ _ _ _ _ _ _ _ _ _ _ N F T IT PR E) as (os & _ & F2).
  assert (X : exists o, match o with None => zero_b (old_b r) | Some eqn => ~ zero_b (old_b r) /\ old_equation (shown_name t) fs r eqn end).
  { clear -F2 I. induction F2 as [|r' o rs os H F2 IH]; [destruct I|]. destruct I as [<-|I]; [eauto|now apply IH]. }
  destruct X as ([eqn|] & X); [|contradiction]. destruct X as (_ & n & ex & B & P & _). pose proof (eq_trans (eq_sym FR) P) as P'. injection P' as P'. exact (NP n B P').
Qed.
(** A file of powers is converted. *)
Lemma dec_frac_pos t : Forall (fun c => Results_Model.is_digit c = true) t -> forall n d, 0 < n -> 0 < Qnum (dec_frac t n d).
Proof.
  induction 1 as [|c t D F IH]; intros n d P; cbn [dec_frac]; [exact P|]. apply IH. unfold dig. unfold Results_Model.is_digit in D.
  apply andb_true_iff in D as [D _]. apply Nat.leb_le in D. lia.
Qed.
Lemma head_pos (c : ascii) (s t : text) : forallb Results_Model.is_digit s = true -> Forall (fun c => Results_Model.is_digit c = true) t -> 0 < dig c -> char_eqb c "." = false ->
  (0 < dec_lit ((c :: "."%char :: s) ++ t) 0)%Q.
Proof.
  intros S T C D. cbn [app dec_lit]. unfold char_eqb in D. rewrite D. change (Ascii.eqb "." ".") with true. cbv iota.
  assert (P : 0 < Qnum (dec_frac (s ++ t) (10 * 0 + dig c) 1)).
  { apply dec_frac_pos; [|lia]. apply Forall_app. split; [|exact T]. apply Forall_forall. rewrite forallb_forall in S. exact S. }
  unfold Qlt. cbn [Qnum Qden]. lia.
Qed.
Definition is_digits (t : list ascii) : Prop := Forall (fun c => (48 <= nat_of_ascii c <= 57)%nat) t.
Lemma const_nonzero pt et t : is_digits pt -> is_digits et -> In t plain_targets -> ~ (rnd (mp_prec (set_dps 50)) (const_of pt et t) == 0)%Q.
Proof.
  intros DP DE I. assert (P1 : 1 <= mp_prec (set_dps 50)) by (vm_compute; discriminate). assert (P2 : 1 <= mp_prec import_ctx) by (vm_compute; discriminate).
  assert (D : forall t, is_digits t -> Forall (fun c => Results_Model.is_digit c = true) t).
  { intros s. apply Forall_impl. intros c [C1 C2]. unfold Results_Model.is_digit. apply andb_true_iff. now rewrite !Nat.leb_le. }
  rewrite rnd_zero_iff by exact P1.
  assert (K : forall x, (0 < x)%Q -> ~ (rnd (mp_prec import_ctx) x == 0)%Q).
  { intros x X E. apply (proj1 (rnd_zero_iff _ x P2)) in E. rewrite E in X. now apply Qlt_irrefl in X. }
  destruct I as [<-|[<-|[<-|[]]]]; cbn [const_of];
    [change (const_of pt et (chars "pi")) with (mpf_of (mp_prec import_ctx) (txt pi_head ++ pt)) 
    |change (const_of pt et (chars "e")) with (mpf_of (mp_prec import_ctx) (txt e_head ++ et))
    |change (const_of pt et (chars "euler_masch")) with (mpf_of (mp_prec import_ctx) (txt euler_masch_text))]; unfold mpf_of; apply K.
  - change (txt pi_head) with ("3"%char :: "."%char :: skipn 2 (txt pi_head)). apply head_pos; [vm_compute; reflexivity|now apply D|reflexivity|reflexivity].
  - change (txt e_head) with ("2"%char :: "."%char :: skipn 2 (txt e_head)). apply head_pos; [vm_compute; reflexivity|now apply D|reflexivity|reflexivity].
  - vm_compute. reflexivity.
Qed.
Theorem C114_powers : forall sq pt et path first fs more titles rs given t,
  is_digits pt -> is_digits et ->
  fs <> [] -> Forall (fun f => In f POSTPROC_FUNCS) fs -> old_target given more = Some t -> In t plain_targets -> Forall proper rs ->
  Forall (fun r => hd [] (old_a r) <> [] /\ old_l r <> 0 /\ old_d r <> 0 /\ exists n, 1 <= n <= 5 /\ py_nth fs (old_func r) = Ok (power_name n)) rs ->
  exists pdf eqns, old_enum_csv_to_pdf sq pt et path (old_file first fs more titles rs) given = Ok (pdf, eqns).
Proof.
  intros sq pt et path first fs more titles rs given t DP DE N F T IT PR PW.
  destruct (convert_eq sq pt et path first fs more titles rs given t N F T _ (choose_plain pt et _ t IT)) as (funcs & HE & ->).
  destruct (rows_total (const_of pt et t) (set_dps 50) (const_nonzero pt et t DP DE IT) rs 0 PR) as (cs & RT).
  { eapply Forall_impl; [|exact PW]. intros r (_ & L & D & _). split; assumption. }
  destruct (rows_ok (const_of pt et t) (set_dps 50) rs 0 PR) as [_ R2]. rewrite RT in R2 |- *. cbn [snd bind] in R2 |- *. specialize (R2 cs eq_refl).
  destruct (eqns_total (rnd (mp_prec (set_dps 50))) _ _ (Some (rnd (mp_prec (set_dps 50)) (pi_const pt))) t _ _ HE rs cs R2) as (es & E).
  { clear -PW PR. induction PW as [|r rs (A & _ & _ & P) _ IH]; [constructor|]. inversion PR as [|? ? (A1 & A2 & _) PR2]; subst. constructor; [|now apply IH]. now repeat split. }
  rewrite E. cbn [bind]. eauto.
Qed.
(** A file that is in the repository (results/OldResults/results_0117_050418.csv; the last columns are not looked at): it has
    one result, -pi/4 as the inverse of a fraction, which cannot be converted. *)
Definition repo_funcs : list (list ascii) := map chars ["safe_inverse"; "lambda x: x"; "lambda x: x**2"]%string.
Definition repo_result (i : Z) : old_result :=
  {| old_a := [[-1; -2; 0]]; old_b := [[0; 0; 1]]; old_func := i; old_u := 0; old_l := -2; old_c := 0; old_d := 2;
     old_flat_a := false; old_flat_b := false; old_rest := [chars "exp"] |}.
Definition repo_more : list (list ascii) := [chars "target_name"; chars "pi"].
Lemma repo_known : Forall (fun f => In f POSTPROC_FUNCS) repo_funcs.
Proof. constructor; [right; left; reflexivity|constructor; [left; reflexivity|constructor; [right; right; left; reflexivity|constructor]]]. Qed.
Lemma repo_proper i : proper (repo_result i).
Proof. repeat split; discriminate. Qed.
Lemma repo_nonzero i : ~ zero_b (old_b (repo_result i)).
Proof. intros (n & N & E). unfold icoef in E. cbn [repo_result old_b] in E. change (Z.of_nat (length [[0; 0; 1]])) with 1 in E. rewrite Z.mod_1_r in E.
  change (0 + n * (0 + n * (1 + n * 0)) = 0) in E. nia. Qed.
Theorem C114_repository_refuted : forall sq pt et path titles,
  In (old_row (repo_result 0)) [[chars "((-1, -2, 0),)"; chars "((0, 0, 1),)"; chars "0"; chars "0"; chars "-2"; chars "0"; chars "2"; chars "exp"]] /\
  proper (repo_result 0) /\ ~ zero_b (old_b (repo_result 0)) /\
  exists e, old_enum_csv_to_pdf sq pt et path (old_file (chars "postproc_funcs") repo_funcs repo_more titles [repo_result 0]) None = Raise e.
Proof.
  intros. split; [left; reflexivity|]. split; [apply repo_proper|]. split; [apply repo_nonzero|].
  apply (C114_other_function sq pt et path _ repo_funcs repo_more titles [repo_result 0] None (chars "pi") (repo_result 0) (chars "safe_inverse")).
  - discriminate.
  - exact repo_known.
  - reflexivity.
  - left. reflexivity.
  - constructor; [apply repo_proper|constructor].
  - left. reflexivity.
  - apply repo_nonzero.
  - reflexivity.
  - intros n N. unfold power_name. destruct (n =? 1); discriminate.
Qed.
(** The same result under the functions x and x**2 would be converted, with one equation each. *)
Example C114_ex : forall sq path titles,
  exists pdf e1 e2, old_enum_csv_to_pdf sq [] [] path (old_file (chars "postproc_funcs") repo_funcs repo_more titles [repo_result 1; repo_result 2]) None = Ok (pdf, [e1; e2]) /\
    old_equation (chars "\pi") repo_funcs (repo_result 1) e1 /\ old_equation (chars "\pi") repo_funcs (repo_result 2) e2.
Proof.
  intros. assert (PR : Forall proper [repo_result 1; repo_result 2]) by (repeat (constructor; [apply repo_proper|]); constructor).
  destruct (C114_powers sq [] [] path (chars "postproc_funcs") repo_funcs repo_more titles [repo_result 1; repo_result 2] None (chars "pi")) as (pdf & eqns & E).
  - constructor.
  - constructor.
  - discriminate.
  - exact repo_known.
  - reflexivity.
  - left. reflexivity.
  - exact PR.
  - repeat (constructor; [split; [discriminate|]; split; [discriminate|]; split; [discriminate|]|]); [exists 1|exists 2|constructor]; (split; [lia|reflexivity]).
  - destruct (C114_equations _ _ _ _ _ repo_funcs repo_more _ _ None (chars "pi") _ _ ltac:(discriminate) repo_known eq_refl ltac:(left; reflexivity) PR E) as (os & EO & F2).
    inversion F2 as [|? o1 ? os1 H1 F3]; subst. inversion F3 as [|? o2 ? os2 H2 F4]; subst. inversion F4; subst.
    destruct o1 as [e1|]; [|now contradiction (repo_nonzero 1)]. destruct o2 as [e2|]; [|now contradiction (repo_nonzero 2)].
    exists pdf, e1, e2. split; [exact E|]. split; [exact (proj2 H1)|exact (proj2 H2)].
Qed.

(** ---- C115: the name of the pdf file ---- *)
Lemma convert_name sq pt et path rows given pdf eqns : old_enum_csv_to_pdf sq pt et path rows given = Ok (pdf, eqns) -> pdf = strip_set (txt ".csv") path.
Proof.
  unfold old_enum_csv_to_pdf. destruct (match given with Some ((_ :: _) as c) => choose_gen pt et false c | _ => Ok None end) as [g0|e]; [|discriminate]. cbn [bind].
  destruct rows as [|row rest]; [discriminate|]. destruct (py_nth row 1) as [f1|e]; [|discriminate]. cbn [bind]. cbv zeta.
  destruct (header_eval _ _ _) as [fs|e]; [|discriminate]. cbn [bind]. destruct (header_const _ _ _ _ _) as [cg|e]; [|discriminate]. cbn [bind].
  destruct rest as [|r2 data]; [discriminate|]. destruct (snd cg) as [g|]; [|discriminate]. destruct (load_rows _ _ _ _) as [m [cs|e]]; [|discriminate]. cbn [bind].
  destruct (snd (results_as_eqns _ _ _ _ _ _ _ _ _ _)) as [es|e]; [|discriminate]. cbn [bind]. intros H. now injection H as <- _.
Qed.
(** Not the extension is taken off, but all of the characters '.', 'c', 's' and 'v' at both ends of the path. *)
Theorem C115_name : forall sq pt et path rows given pdf eqns,
  old_enum_csv_to_pdf sq pt et path rows given = Ok (pdf, eqns) -> trimmed (chars ".csv") path pdf.
Proof. intros * H. rewrite (convert_name _ _ _ _ _ _ _ _ H). apply strip_set_trimmed. Qed.
Theorem C115_right : forall sq pt et stem rows given pdf eqns,
  old_enum_csv_to_pdf sq pt et (stem ++ chars ".csv") rows given = Ok (pdf, eqns) -> stem <> [] ->
  (pdf = stem <-> (forall c r, stem = c :: r -> ~ In c (chars ".csv")) /\ (forall c r, stem = r ++ [c] -> ~ In c (chars ".csv"))).
Proof.
  intros * H N. rewrite (convert_name _ _ _ _ _ _ _ _ H). split.
  - intros E. destruct (strip_set_trimmed (txt ".csv") (stem ++ chars ".csv")) as (p & q & _ & _ & _ & A & B). rewrite E in A, B. split; [exact A|exact B].
  - intros [A B]. apply trimmed_strip. exists [], (chars ".csv"). split; [reflexivity|]. split; [constructor|]. split; [|split; [exact A|exact B]].
    apply Forall_forall. intros c I. exact I.
Qed.
(** Two files of results, and one name for their pdf files; a relative path becomes an absolute one. *)
Theorem C115_collision_refuted : forall sq pt et rows1 rows2 given pdf1 pdf2 e1 e2,
  old_enum_csv_to_pdf sq pt et (chars "result.csv") rows1 given = Ok (pdf1, e1) ->
  old_enum_csv_to_pdf sq pt et (chars "results.csv") rows2 given = Ok (pdf2, e2) -> pdf1 = pdf2 /\ pdf1 = chars "result".
Proof. intros * H1 H2. rewrite (convert_name _ _ _ _ _ _ _ _ H1), (convert_name _ _ _ _ _ _ _ _ H2). split; reflexivity. Qed.
Theorem C115_relative_refuted : forall sq pt et rows given pdf eqns,
  old_enum_csv_to_pdf sq pt et (chars "./pi.csv") rows given = Ok (pdf, eqns) -> pdf = chars "/pi".
Proof. intros * H. rewrite (convert_name _ _ _ _ _ _ _ _ H). reflexivity. Qed.
Definition empty_old : list (list (list ascii)) := old_file (chars "postproc_funcs") repo_funcs repo_more [] [].
Example C115_ex : old_enum_csv_to_pdf (fun q => q) [] [] (chars "results.csv") empty_old None = Ok (chars "result", []) /\
  old_enum_csv_to_pdf (fun q => q) [] [] (chars "./pi.csv") empty_old None = Ok (chars "/pi", []) /\
  old_enum_csv_to_pdf (fun q => q) [] [] (chars "out/pi.csv") empty_old None = Ok (chars "out/pi", []).
Proof. split; [|split]; vm_compute; reflexivity. Qed.

(** ---- C116: the targets ---- *)
Definition is_list (g : lgen) : Prop := exists l, g = LPlain (GList l) \/ g = LLoop (GList l) \/ exists i, g = LOwn (GList l) i.
Lemma chosen pt et own t g : choose_gen pt et own t = Ok (Some g) -> (In t plain_targets /\ g = LPlain (GConst (const_of pt et t))) \/ is_list g.
Proof.
  unfold choose_gen. destruct (d_get text_eqb (lgens pt et) t) as [b|] eqn:D.
  - intros H. injection H as <-. unfold lgens in D. cbn [map d_get] in D.
    destruct (text_eqb t (txt "e")) eqn:E1; [apply text_eqb_eq in E1; injection D as <-; subst t; left; split; [right; left|]; reflexivity|].
    destruct (text_eqb t (txt "pi")) eqn:E2; [apply text_eqb_eq in E2; injection D as <-; subst t; left; split; [left|]; reflexivity|].
    destruct (text_eqb t (txt "feig")); [injection D as <-; right; eexists; left; reflexivity|].
    destruct (text_eqb t (txt "euler_masch")) eqn:E4; [apply text_eqb_eq in E4; injection D as <-; subst t; left; split; [right; right; left|]; reflexivity|].
    destruct (text_eqb t (txt "percolation")); [injection D as <-; right; eexists; left; reflexivity|discriminate].
  - destruct (starts_with (txt "feig") t); [|destruct (starts_with (txt "percolation") t); [|discriminate]];
      (destruct (const_index t) as [i|e]; [|discriminate]); cbn [bind]; destruct own; intros H; injection H as <-; right; eexists; right; [right; eexists|left|right; eexists|left]; reflexivity.
Qed.
Lemma call_list g n m : is_list g -> exists m', call_lgen g n m = (m', Raise TypeError).
Proof. intros (l & [->|[->|(i & ->)]]); eexists; reflexivity. Qed.
Lemma row_list g n r m : is_list g -> proper r -> snd (load_row g n (old_row r) m) = Raise TypeError.
Proof.
  intros L (NA & NB & FA & FB). unfold load_row.
  assert (R0 : @py_nth text (old_row r) 0 = @Ok text (old_polys (old_flat_a r) (old_a r))) by (apply py_nth_pre; [reflexivity|lia]).
  assert (R1 : @py_nth text (old_row r) 1 = @Ok text (old_polys (old_flat_b r) (old_b r))) by (apply py_nth_pre; [reflexivity|lia]).
  rewrite R0, R1.
  destruct (polys_loaded _ _ NA FA) as (ja & A1 & A2). destruct (polys_loaded _ _ NB FB) as (jb & B1 & B2).
  cbn [bind]. rewrite A1. cbn [bind]. rewrite B1. cbn [bind]. rewrite A2. cbn [bind]. rewrite B2. cbn [bind].
  change (cut 3 7 (old_row r)) with [z_text (old_u r); z_text (old_l r); z_text (old_c r); z_text (old_d r)].
  cbn [mapM]. rewrite !py_int_text. cbn [bind]. destruct (call_list g n m L) as (m' & ->). reflexivity.
Qed.
(** A file with results is converted only for the targets pi, e and euler_masch: ... *)
Theorem C116_targets : forall sq pt et path (first : text) (fs more titles : list text) r rs (given : option text) (t : text),
  fs <> [] -> Forall (fun f => In f POSTPROC_FUNCS) fs -> proper r -> old_target given more = Some t -> ~ In t plain_targets ->
  exists e, old_enum_csv_to_pdf sq pt et path (old_file first fs more titles (r :: rs)) given = Raise e /\
    (e = TypeError \/ e = UnboundLocalError \/ exists own, choose_gen pt et own t = Raise e).
Proof.
  intros sq pt et path first fs more titles r rs given t N F PR T NI.
  destruct (choose_gen pt et (match given with Some (_ :: _) => false | _ => true end) t) as [g|e] eqn:G.
  - destruct (convert_eq sq pt et path first fs more titles (r :: rs) given t N F T g G) as (funcs & HE & ->).
    destruct g as [g|]; [|eexists; split; [reflexivity|]; now right; left].
    destruct (chosen _ _ _ _ _ G) as [[I _]|L]; [contradiction|]. cbn [map load_rows].
    pose proof (row_list g 0 r (set_dps 50) L PR) as RL. destruct (load_row g 0 (old_row r) (set_dps 50)) as [m x]. cbn [snd] in RL. subst x.
    eexists. split; [reflexivity|]. now left.
  - exists e. split; [|right; right; eauto].
    destruct (header_eval_total sq (rnd (mp_prec (set_dps 50))) fs F) as (funcs & HE).
    pose proof (header_const_target pt et given more first (list_str (map quoted fs)) t T) as HC. rewrite G in HC. cbn [bind] in HC.
    change (old_file first fs more titles (r :: rs)) with ((first :: (list_str (map quoted fs) : text) :: more) :: titles :: map old_row (r :: rs)). unfold old_enum_csv_to_pdf.
    assert (P1 : @py_nth text (first :: list_str (map quoted fs) :: more) 1 = @Ok text (list_str (map quoted fs))).
    { change (first :: list_str (map quoted fs) :: more) with ([first; list_str (map quoted fs)] ++ more). apply py_nth_pre; [reflexivity|lia]. }
    assert (K : forall row, row = first :: (list_str (map quoted fs) : text) :: more -> py_nth row 1 = Ok (list_str (map quoted fs) : text)) by (intros row ->; exact P1).
    remember (first :: (list_str (map quoted fs) : text) :: more) as row eqn:ER. specialize (K row eq_refl).
    destruct given as [[|c gg]|]; [| |]; cbn [bind] in HC |- *.
    + rewrite K; cbn [bind]; rewrite (header_ok_post fs N F); cbv zeta; rewrite HE; cbn [bind]. now rewrite HC.
    + destruct (choose_gen pt et false (c :: gg)) as [g0|e0]; cbn [bind] in HC |- *; [|now injection HC as ->].
      rewrite K; cbn [bind]; rewrite (header_ok_post fs N F); cbv zeta; rewrite HE; cbn [bind]. now rewrite HC.
    + rewrite K; cbn [bind]; rewrite (header_ok_post fs N F); cbv zeta; rewrite HE; cbn [bind]. now rewrite HC.
Qed.
(** ... the documented form of the others, a name and an index, is a TypeError in the first row, ... *)
Theorem C116_index_refuted : forall sq pt et path first fs third titles r rs name i,
  fs <> [] -> Forall (fun f => In f POSTPROC_FUNCS) fs -> proper r -> In name (map chars ["feig"; "percolation"]%string) ->
  let t := name ++ chars ", " ++ int_chars i in
  old_enum_csv_to_pdf sq pt et path (old_file first fs [third; t] titles (r :: rs)) None = Raise TypeError /\
  old_enum_csv_to_pdf sq pt et path (old_file first fs [third] titles (r :: rs)) (Some t) = Raise TypeError.
Proof.
  intros sq pt et path first fs third titles r rs name i N F PR I t.
  assert (T : exists c t', t = c :: t') by (destruct I as [<-|[<-|[]]]; eexists _, _; reflexivity). destruct T as (c & t' & ET).
  assert (X : strip (chars " " ++ z_text i) = z_text i).
  { change (chars " " ++ z_text i) with (" "%char :: z_text i). unfold strip. cbn [lstrip]. change (is_blank " ") with true. cbv iota.
    change (rev (lstrip (rev (lstrip (z_text i)))) = z_text i). apply (strip_id (z_text i)), z_text_blank. }
  assert (CI : const_index t = Ok i).
  { unfold const_index. assert (SP : py_split (txt ",") t = [name; chars " " ++ z_text i]).
    { unfold py_split, t. change (txt ",") with (","%char :: @nil ascii).
      assert (NC : Forall (fun c => char_eqb c ","%char = false) name) by (destruct I as [<-|[<-|[]]]; repeat constructor).
      assert (ND : Forall (fun c => char_eqb c ","%char = false) (chars " " ++ z_text i)).
      { constructor; [reflexivity|]. assert (D : forall c, Results_Model.is_digit c = true -> char_eqb c ","%char = false).
        { intros d H. unfold Results_Model.is_digit in H. apply andb_true_iff in H as [H _]. apply Nat.leb_le in H. apply Ascii.eqb_neq. intros ->. cbn in H. lia. }
        destruct i as [|p|p]; [repeat constructor| |rewrite z_text_neg; constructor; [reflexivity|]]; (eapply Forall_impl; [|apply z_text_nat; lia]); exact D. }
      change (chars ", " ++ int_chars i) with (","%char :: (chars " " ++ z_text i)). remember (chars " " ++ z_text i) as u eqn:EU. clear EU X ET.
      assert (G : forall s n acc, Forall (fun c => char_eqb c ","%char = false) s -> (length s + 1 + length u < n)%nat ->
        split_go n [","%char] (s ++ ","%char :: u) acc = [rev acc ++ s; u]).
      { clear -ND. induction s as [|c s IH]; intros n acc FS L; (destruct n as [|n]; [cbn in L; lia|]); cbn [app split_go strip_prefix].
        - change (char_eqb ","%char ","%char) with true. cbv iota. rewrite app_nil_r. f_equal. rewrite split_none; [reflexivity|exact ND|cbn [length] in L; lia].
        - inversion FS as [|? ? F1 F2]; subst. rewrite sym_eqb, F1. rewrite IH; [|exact F2|cbn [length] in L; lia]. cbn [rev]. now rewrite <- app_assoc. }
      rewrite G; [reflexivity|exact NC|]. rewrite app_length. cbn [length]. lia. }
    rewrite SP. change (py_nth [name; chars " " ++ z_text i] 1) with (@Ok text (chars " " ++ z_text i)). cbn [bind]. rewrite X. apply py_int_text. }
  assert (CG : forall own, exists g, choose_gen pt et own t = Ok (Some g) /\ is_list g).
  { intros own. unfold choose_gen. assert (D : d_get text_eqb (lgens pt et) t = None).
    { destruct I as [<-|[<-|[]]]; unfold t; cbn [app chars list_ascii_of_string]; reflexivity. }
    rewrite D. destruct I as [<-|[<-|[]]].
    - change (starts_with (txt "feig") t) with true. cbv iota zeta. rewrite CI. cbn [bind]. destruct own; eexists; (split; [reflexivity|]); eexists; right; [right; eexists|left]; reflexivity.
    - change (starts_with (txt "feig") t) with false. change (starts_with (txt "percolation") t) with true. cbv iota zeta. rewrite CI. cbn [bind].
      destruct own; eexists; (split; [reflexivity|]); eexists; right; [right; eexists|left]; reflexivity. }
  assert (E : forall given more, old_target given more = Some t -> old_enum_csv_to_pdf sq pt et path (old_file first fs more titles (r :: rs)) given = Raise TypeError).
  { intros given more T. destruct (CG (match given with Some (_ :: _) => false | _ => true end)) as (g & G & L).
    destruct (convert_eq sq pt et path first fs more titles (r :: rs) given t N F T _ G) as (funcs & HE & ->). cbn [map load_rows].
    pose proof (row_list g 0 r (set_dps 50) L PR) as RL. destruct (load_row g 0 (old_row r) (set_dps 50)) as [m x]. cbn [snd] in RL. subst x. reflexivity. }
  split; apply E; rewrite ET; reflexivity.
Qed.
(** ... and any other name is an UnboundLocalError, even without results; a header of three columns is an IndexError. *)
Theorem C116_unknown : forall sq pt et path first fs more titles rs given t,
  fs <> [] -> Forall (fun f => In f POSTPROC_FUNCS) fs -> old_target given more = Some t -> ~ In t plain_targets ->
  (forall s, t <> chars "feig" ++ s) -> (forall s, t <> chars "percolation" ++ s) ->
  old_enum_csv_to_pdf sq pt et path (old_file first fs more titles rs) given = Raise UnboundLocalError.
Proof.
  intros sq pt et path first fs more titles rs given t N F T NI NF NP.
  assert (S : forall p, (forall s, t <> p ++ s) -> starts_with p t = false).
  { intros p H. unfold starts_with. destruct (strip_prefix p t) as [s|] eqn:E; [|reflexivity]. apply strip_prefix_spec in E. now contradiction (H s). }
  assert (G : forall own, choose_gen pt et own t = Ok None).
  { intros own. unfold choose_gen. assert (D : d_get text_eqb (lgens pt et) t = None).
    { unfold lgens. cbn [map d_get].
      assert (K : forall k, t <> k -> text_eqb t k = false) by (intros k H; destruct (text_eqb t k) eqn:E; [apply text_eqb_eq in E; contradiction|reflexivity]).
      rewrite !K; try reflexivity; intros ->; try (apply NI; cbn; tauto); [apply (NP [])|apply (NF [])]; reflexivity. }
    rewrite D. rewrite (S (txt "feig") NF), (S (txt "percolation") NP). reflexivity. }
  destruct (convert_eq sq pt et path first fs more titles rs given t N F T _ (G _)) as (funcs & _ & ->). reflexivity.
Qed.
Theorem C116_three_columns : forall sq pt et path first fs third titles rs,
  fs <> [] -> Forall (fun f => In f POSTPROC_FUNCS) fs ->
  old_enum_csv_to_pdf sq pt et path (old_file first fs [third] titles rs) None = Raise IndexError.
Proof.
  intros sq pt et path first fs third titles rs N F. destruct (header_eval_total sq (rnd (mp_prec (set_dps 50))) fs F) as (funcs & HE).
  change (old_file first fs [third] titles rs) with ([first; (list_str (map quoted fs) : text); third] :: titles :: map old_row rs). unfold old_enum_csv_to_pdf.
  cbn [bind]. change (py_nth [first; (list_str (map quoted fs) : text); third] 1) with (@Ok text (list_str (map quoted fs))). cbn [bind].
  rewrite (header_ok_post fs N F). cbv zeta. rewrite HE. reflexivity.
Qed.
(** What the program exports today (enum_params.py:458: a header of target_name and the name) is a ValueError. *)
Theorem C116_current_export_refuted : forall sq pt et path name rows, In name (map chars ["e"; "pi"; "feig"; "euler_masch"; "percolation"; "zeta"; "phi"]%string) ->
  old_enum_csv_to_pdf sq pt et path ([chars "target_name"; name] :: rows) None = Raise ValueError.
Proof. intros sq pt et path name rows I. repeat (destruct I as [<-|I]; [vm_compute; reflexivity|]). destruct I. Qed.
Example C116_ex : old_target None [chars "target_name"; chars "percolation, 0"] = Some (chars "percolation, 0") /\
  ~ In (chars "percolation, 0") plain_targets /\ proper (repo_result 1) /\ chars "percolation, 0" = chars "percolation" ++ chars ", " ++ int_chars 0 /\
  ~ In (chars "euler") plain_targets /\ (forall s, chars "euler" <> chars "feig" ++ s) /\ (forall s, chars "euler" <> chars "percolation" ++ s).
Proof.
  split; [reflexivity|]. split; [intros [H|[H|[H|[]]]]; discriminate H|]. split; [apply repo_proper|]. split; [reflexivity|].
  split; [intros [H|[H|[H|[]]]]; discriminate H|]. split; intros s H; discriminate H.
Qed.

Print Assumptions C114_equations.
Print Assumptions C114_other_function.
Print Assumptions C114_powers.
Print Assumptions C114_repository_refuted.
Print Assumptions C115_name.
Print Assumptions C115_right.
Print Assumptions C115_collision_refuted.
Print Assumptions C115_relative_refuted.
Print Assumptions C116_targets.
Print Assumptions C116_index_refuted.
Print Assumptions C116_unknown.
Print Assumptions C116_three_columns.
Print Assumptions C116_current_export_refuted.

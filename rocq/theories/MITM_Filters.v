(** Proofs about the filters of the click list. *)
From Coq Require Import Ascii String ZArith QArith Qabs Qround List Bool Lia Lqa Permutation.
From Verif Require Import PyBase PyBase_Proofs Rnd Rnd_Proofs ContFrac_Model Hashtable_Model Hashtable_Proofs
  ULCD_Model ULCD_Proofs ULCD_Equiv Rational_Model MITM_Model Spec_MITM MITM_Build MITM_Build2 MITM_Clicks.
Import ListNotations.
Local Open Scope Z_scope.
Local Open Scope list_scope.

(** ---- the duplicate filter ---- *)
Section Firsts.
  Context {A : Type}.
  Variable test : A -> A -> res bool.
  Inductive firsts : list A -> list A -> list A -> Prop :=
  | fi_nil : forall seen, firsts seen [] []
  | fi_keep : forall seen c l r, Forall (fun u => test u c = Ok false) seen -> firsts (seen ++ [c]) l r -> firsts seen (c :: l) (c :: r)
  | fi_drop : forall seen c l r, Exists (fun u => test u c = Ok true) seen -> firsts seen l r -> firsts seen (c :: l) r.

  Lemma firsts_flags seen l r : firsts seen l r -> exists fs, length fs = length l /\ r = picks fs l /\
    forall k c, nth_error l k = Some c ->
    (nth_error fs k = Some true /\ Forall (fun u => test u c = Ok false) seen /\
     forall j u, (j < k)%nat -> nth_error fs j = Some true -> nth_error l j = Some u -> test u c = Ok false) \/
    (nth_error fs k = Some false /\ (Exists (fun u => test u c = Ok true) seen \/
     exists j u, (j < k)%nat /\ nth_error fs j = Some true /\ nth_error l j = Some u /\ test u c = Ok true)).
  Proof.
    induction 1 as [seen|seen c l r HF H (fs & L & -> & IH)|seen c l r HE H (fs & L & -> & IH)].
    - exists []. split; [reflexivity|]. split; [reflexivity|]. intros [|k] c HH; discriminate.
    - exists (true :: fs). split; [cbn; now rewrite L|]. split; [reflexivity|].
      intros [|k] d HN; cbn in HN.
      + inversion HN; subst d. left. split; [reflexivity|]. split; [exact HF|]. intros j u HJ; lia.
      + destruct (IH k d HN) as [(H1 & H2 & H3)|(H1 & H2)].
        * left. split; [exact H1|]. apply Forall_app in H2 as [H2 H4]. split; [exact H2|].
          intros [|j] u HJ HT HU; cbn in HT, HU.
          -- inversion HU; subst u. now inversion H4.
          -- apply (H3 j u); [lia|exact HT|exact HU].
        * right. split; [exact H1|]. destruct H2 as [H2|(j & u & HJ & HT & HU & HA)].
          -- apply Exists_app in H2 as [H2|H2]; [now left|]. right. exists 0%nat, c. split; [lia|]. split; [reflexivity|].
             split; [reflexivity|]. inversion H2 as [? ? HX|? ? HX]; [exact HX|inversion HX].
          -- right. exists (S j), u. split; [lia|]. auto.
    - exists (false :: fs). split; [cbn; now rewrite L|]. split; [reflexivity|].
      intros [|k] d HN; cbn in HN.
      + inversion HN; subst d. right. split; [reflexivity|]. now left.
      + destruct (IH k d HN) as [(H1 & H2 & H3)|(H1 & H2)].
        * left. split; [exact H1|]. split; [exact H2|]. intros [|j] u HJ HT HU; cbn in HT, HU; [discriminate|].
          apply (H3 j u); [lia|exact HT|exact HU].
        * right. split; [exact H1|]. destruct H2 as [H2|(j & u & HJ & HT & HU & HA)]; [now left|].
          right. exists (S j), u. split; [lia|]. auto.
  Qed.
  Lemma firsts_pairs seen l r : ForallOrdPairs (fun u c => test u c = Ok false) seen -> firsts seen l r ->
    ForallOrdPairs (fun u c => test u c = Ok false) (seen ++ r).
  Proof.
    assert (SN : forall (s : list A) c, ForallOrdPairs (fun u c => test u c = Ok false) s -> Forall (fun u => test u c = Ok false) s ->
              ForallOrdPairs (fun u c => test u c = Ok false) (s ++ [c])).
    { induction 1 as [|a s HA HS IH]; intros HF; cbn; [repeat constructor|]. inversion HF; subst. constructor; [|auto].
      apply Forall_app. split; [exact HA|]. repeat constructor. assumption. }
    intros HP H. induction H as [seen|seen c l r HF H IH|seen c l r HE H IH].
    - now rewrite app_nil_r.
    - specialize (IH (SN _ _ HP HF)). now rewrite <- app_assoc in IH.
    - auto.
  Qed.
End Firsts.

Section Uniq.
  Context {O : Type}.
  Variable cls : lhs_class O.
  (** [same]: the clicks differ at most in how the object is written *)
  Variable same : click O -> click O -> Prop.
  Variable good : click O -> Prop.
  Hypothesis same_refl : forall c, good c -> same c c.
  Hypothesis same_trans : forall a b c, same a b -> same b c -> same a c.
  Hypothesis same_good : forall a b, good a -> same a b -> good b.
  Hypothesis test_same : forall u u' c c', good u -> good c -> same u u' -> same c c' -> equiv_answer cls u c = equiv_answer cls u' c'.
  Hypothesis test_step : forall u c ou oc b, good u -> good c -> lc_equiv cls (ck3 u) (ck3 c) = ((ou, oc), Ok b) ->
    same u (ck_with u ou) /\ same c (ck_with c oc).

  Lemma ck3_eq (c : click O) : ck3 c = (ck_ab c, ck_obj c, ck_ind c).
  Proof. destruct c as [[[ab o] i] v]. reflexivity. Qed.
  Lemma answer_eq u c : equiv_answer cls u c = snd (lc_equiv cls (ck3 u) (ck3 c)).
  Proof. unfold equiv_answer. now rewrite !ck3_eq. Qed.

  Lemma uniq_scan_spec us : forall c us' c' b, Forall good us -> good c -> uniq_scan cls us c = ((us', c'), Ok b) ->
    Forall2 same us us' /\ same c c' /\
    (if b then Exists (fun u => equiv_answer cls u c = Ok true) us else Forall (fun u => equiv_answer cls u c = Ok false) us).
  Proof.
    induction us as [|u r IH]; intros c us' c' b HG HC H; cbn [uniq_scan] in H.
    - inversion H; subst. split; [constructor|]. split; [now apply same_refl|constructor].
    - inversion HG as [|? ? GU GR]; subst.
      destruct (lc_equiv cls (ck3 u) (ck3 c)) as [[ou oc] [x|e]] eqn:E; [|discriminate].
      assert (EA : equiv_answer cls u c = Ok x) by (rewrite answer_eq, E; reflexivity).
      destruct (test_step _ _ _ _ _ GU HC E) as [SU SC].
      assert (REFL : Forall2 same r r). { clear - same_refl GR. induction GR; constructor; auto. }
      destruct x.
      + inversion H; subst. split; [constructor; assumption|]. split; [exact SC|]. now left.
      + destruct (uniq_scan cls r (ck_with c oc)) as [[r' c2] y] eqn:ES. inversion H; subst.
        destruct (IH _ _ _ _ GR (same_good _ _ HC SC) ES) as (H1 & H2 & H3).
        assert (ANS : forall z, In z r -> equiv_answer cls z c = equiv_answer cls z (ck_with c oc)).
        { intros z Hz. rewrite Forall_forall in GR. apply test_same; auto. }
        split; [constructor; assumption|]. split; [eapply same_trans; eassumption|].
        destruct b.
        * apply Exists_cons_tl. apply Exists_exists in H3 as (z & Hz & HA). apply Exists_exists. exists z. split; [exact Hz|]. now rewrite ANS.
        * constructor; [exact EA|]. apply Forall_forall. intros z Hz. rewrite ANS by exact Hz. rewrite Forall_forall in H3. auto.
  Qed.
  Lemma uniq_scan_none us : forall c, Forall good us -> good c -> Forall (fun u => equiv_answer cls u c = Ok false) us ->
    exists us' c', uniq_scan cls us c = ((us', c'), Ok false).
  Proof.
    induction us as [|u r IH]; intros c HG HC HF; cbn [uniq_scan]; [eauto|].
    inversion HG as [|? ? GU GR]; subst. inversion HF as [|? ? FU FR]; subst.
    destruct (lc_equiv cls (ck3 u) (ck3 c)) as [[ou oc] x] eqn:E.
    assert (EX : x = Ok false) by (rewrite answer_eq, E in FU; exact FU). subst x.
    destruct (test_step _ _ _ _ _ GU HC E) as [SU SC].
    destruct (IH (ck_with c oc) GR (same_good _ _ HC SC)) as (us' & c' & E2).
    { apply Forall_forall. intros z Hz. rewrite Forall_forall in FR, GR.
      rewrite <- (test_same z z c (ck_with c oc)); auto. }
    rewrite E2. eauto.
  Qed.

  Lemma Forall2_trans : forall a b c, Forall2 same a b -> Forall2 same b c -> Forall2 same a c.
  Proof.
    intros a b c H. revert c. induction H as [|x y a b HXY H IH]; intros c HC; inversion HC; subst; constructor; eauto.
  Qed.
  Lemma Forall2_good a b : Forall good a -> Forall2 same a b -> Forall good b.
  Proof. intros HG H. induction H; inversion HG; subst; constructor; eauto. Qed.
  Lemma Forall_answer seen us c c' b : Forall good seen -> good c -> Forall2 same seen us -> same c c' ->
    (Forall (fun u => equiv_answer cls u c' = Ok b) us <-> Forall (fun u => equiv_answer cls u c = Ok b) seen) /\
    (Exists (fun u => equiv_answer cls u c' = Ok b) us <-> Exists (fun u => equiv_answer cls u c = Ok b) seen).
  Proof.
    intros HG HC HS SC. induction HS as [|u u' seen us HU HS IH]; [split; split; intros H; inversion H; constructor|].
    inversion HG as [|? ? GU GS]; subst. specialize (IH GS). destruct IH as [[I1 I2] [I3 I4]].
    pose proof (test_same u u' c c' GU HC HU SC) as ET.
    split; split; intros H; inversion H; subst; try (constructor; [congruence|auto]; fail); try (apply Exists_cons_hd; congruence); try (apply Exists_cons_tl; auto).
  Qed.

  Lemma uniq_loop_spec cs : forall seen us us', Forall good cs -> Forall good seen -> Forall2 same seen us ->
    uniq_loop cls us cs = (us', Ok tt) -> exists r, firsts (equiv_answer cls) seen cs r /\ Forall2 same (seen ++ r) us'.
  Proof.
    induction cs as [|c cs IH]; intros seen us us' HG HS HE H; cbn [uniq_loop] in H.
    - inversion H; subst. exists []. split; [constructor|]. now rewrite app_nil_r.
    - inversion HG as [|? ? GC GR]; subst.
      destruct (uniq_scan cls us c) as [[us1 c1] [b|e]] eqn:ES; [|discriminate].
      destruct (uniq_scan_spec _ _ _ _ _ (Forall2_good _ _ HS HE) GC ES) as (H1 & H2 & H3).
      destruct b.
      + destruct (IH seen us1 us') as (r & HR & HF); auto; [eapply Forall2_trans; eassumption|].
        exists r. split; [|exact HF]. apply fi_drop; [|exact HR].
        apply (proj2 (Forall_answer seen us c c true HS GC HE (same_refl _ GC))). exact H3.
      + destruct (IH (seen ++ [c]) (us1 ++ [c1]) us') as (r & HR & HF); auto.
        * apply Forall_app. split; [exact HS|]. repeat constructor. exact GC.
        * apply Forall2_app; [eapply Forall2_trans; eassumption|]. repeat constructor. exact H2.
        * exists (c :: r). split; [|now rewrite <- app_assoc in HF]. apply fi_keep; [|exact HR].
          apply (proj1 (Forall_answer seen us c c false HS GC HE (same_refl _ GC))). exact H3.
  Qed.
  Lemma uniq_loop_none cs : forall us, Forall good us -> Forall good cs ->
    ForallOrdPairs (fun u c => equiv_answer cls u c = Ok false) (us ++ cs) ->
    exists us', uniq_loop cls us cs = (us', Ok tt) /\ Forall2 same (us ++ cs) us'.
  Proof.
    induction cs as [|c cs IH]; intros us GU GC HP; cbn [uniq_loop].
    - exists us. split; [reflexivity|]. rewrite app_nil_r. clear - same_refl GU. induction GU; constructor; auto.
    - inversion GC as [|? ? G1 G2]; subst.
      assert (HF : Forall (fun u => equiv_answer cls u c = Ok false) us).
      { clear - HP. induction us as [|u us IH]; [constructor|]. cbn in HP. inversion HP as [|? ? HA HB]; subst.
        constructor; [|auto]. rewrite Forall_forall in HA. apply HA. apply in_or_app. right. now left. }
      destruct (uniq_scan_none us c GU G1 HF) as (us1 & c1 & ES). rewrite ES.
      destruct (uniq_scan_spec _ _ _ _ _ GU G1 ES) as (H1 & H2 & _).
      destruct (IH (us1 ++ [c1])) as (us' & HL & HS).
      + apply Forall_app. split; [exact (Forall2_good _ _ GU H1)|]. repeat constructor. eapply same_good; eassumption.
      + exact G2.
      + rewrite <- app_assoc. cbn [app].
        assert (SS : Forall2 same (us ++ c :: cs) (us1 ++ c1 :: cs)).
        { apply Forall2_app; [exact H1|]. constructor; [exact H2|]. clear - same_refl G2. induction G2; constructor; auto. }
        assert (GG : Forall good (us ++ c :: cs)) by (apply Forall_app; split; [exact GU|constructor; assumption]).
        revert SS GG HP. generalize (us ++ c :: cs) (us1 ++ c1 :: cs). clear - same_refl test_same same_good same_trans.
        intros a b SS. induction SS as [|x y a b HXY SS IH]; intros GG HP; [constructor|].
        inversion GG as [|? ? GX GA]; subst. inversion HP as [|? ? HA HB]; subst. constructor; [|auto].
        clear IH HB HP GG. revert GA HA. induction SS as [|z w a b HZ SS IH2]; intros GA HA; constructor.
        * inversion GA; inversion HA; subst. rewrite <- (test_same x y z w); auto.
        * inversion GA; inversion HA; subst. auto.
      + exists us'. split; [exact HL|]. eapply Forall2_trans; [|exact HS]. rewrite <- app_assoc. cbn.
        apply Forall2_app; [exact H1|]. constructor; [exact H2|]. clear - same_refl G2. induction G2; constructor; auto.
  Qed.

  Lemma filter_uniq_spec cs us : Forall good cs -> filter_uniq cls cs = (us, Ok tt) ->
    (exists fs, first_flags (equiv_answer cls) cs fs /\ Forall2 same (picks fs cs) us) /\
    ForallOrdPairs (fun u c => equiv_answer cls u c = Ok false) us /\ Forall good us /\
    exists us', filter_uniq cls us = (us', Ok tt) /\ Forall2 same us us'.
  Proof.
    intros HG H. unfold filter_uniq in H. destruct (uniq_loop cls [] cs) as [us0 [[]|e]] eqn:EL; [|discriminate]. inversion H; subst us0.
    destruct (uniq_loop_spec cs [] [] us HG (Forall_nil _) (Forall2_nil _) EL) as (r & HR & HS). cbn [app] in HS.
    pose proof (firsts_pairs _ [] cs r (FOP_nil _) HR) as HP. cbn [app] in HP.
    destruct (firsts_flags _ _ _ _ HR) as (fs & L & -> & HFL).
    assert (GP : Forall good (picks fs cs)).
    { clear - HG. revert fs. induction HG as [|c cs G HG IH]; intros [|[|] fs]; cbn; auto. }
    assert (GU : Forall good us) by (eapply Forall2_good; eassumption).
    split.
    - exists fs. split; [|exact HS]. split; [exact L|]. intros k c HN. destruct (HFL k c HN) as [(H1 & _ & H3)|(H1 & [H2|H2])]; [left|inversion H2|right]; auto.
    - assert (HP2 : ForallOrdPairs (fun u c => equiv_answer cls u c = Ok false) us).
      { revert HS GP HP. generalize (picks fs cs). clear - test_same. intros a SS.
        induction SS as [|x y a b HXY SS IH]; intros GG HP; [constructor|].
        inversion GG as [|? ? GX GA]; subst. inversion HP as [|? ? HA HB]; subst. constructor; [|auto].
        clear IH HB HP GG. revert GA HA. induction SS as [|z w a b HZ SS IH2]; intros GA HA; constructor.
        - inversion GA; inversion HA; subst. rewrite <- (test_same x y z w); auto.
        - inversion GA; inversion HA; subst. auto. }
      split; [exact HP2|]. split; [exact GU|].
      destruct (uniq_loop_none us [] (Forall_nil _) GU HP2) as (us' & E & S2). exists us'. unfold filter_uniq. rewrite E. split; [reflexivity|exact S2].
  Qed.
End Uniq.

(** ---- filterM ---- *)
Lemma filterM_iff {A B} (f : A -> res (option B)) l r :
  filterM f l = Ok r <-> selects (fun a b => f a = Ok (Some b)) (fun a => f a = Ok None) l r.
Proof.
  split.
  - revert r. induction l as [|x l IH]; intros r H; cbn in H.
    + inversion H. constructor.
    + destruct (f x) as [y|e] eqn:E; cbn in H; [|discriminate]. destruct (filterM f l) as [ys|e]; cbn in H; [|discriminate].
      inversion H. destruct y as [b|]; constructor; auto.
  - induction 1 as [|a b l r H HS IH|a l r H HS IH]; cbn; [reflexivity| |]; rewrite H; cbn; rewrite IH; reflexivity.
Qed.
Lemma selects_impl {A B} (k k' : A -> B -> Prop) (d d' : A -> Prop) l r :
  (forall a b, In a l -> k a b -> k' a b) -> (forall a, In a l -> d a -> d' a) -> selects k d l r -> selects k' d' l r.
Proof.
  intros HK HD H. induction H as [|a b l r H HS IH|a l r H HS IH]; constructor; try (apply HK || apply HD); try (now left); auto;
    apply IH; intros; try apply HK; try apply HD; try (now right); auto.
Qed.

Lemma atype_eqb_eq a b : atype_eqb a b = true <-> a = b.
Proof. destruct a, b; cbn; split; intros; try reflexivity; discriminate. Qed.
Lemma given_iff {A} (l : option (list A)) : given l = true <-> nonempty l.
Proof.
  unfold nonempty. destruct l as [[|x r]|]; cbn; split; intros H; try discriminate; try reflexivity; eauto;
    destruct H as (? & ? & H); discriminate.
Qed.
Lemma listed_iff t l : listed t l = true <-> member t l.
Proof.
  unfold member. destruct l as [l|]; cbn.
  - rewrite existsb_exists. split.
    + intros (x & HI & HE). apply atype_eqb_eq in HE. subst. eauto.
    + intros (r & HE & HI). inversion HE; subst. exists t. split; [exact HI|now apply atype_eqb_eq].
  - split; [discriminate|intros (r & HE & _); discriminate].
Qed.

(** The text of the left-hand side of a click can be made. *)
Lemma print_click_iff {O} eng (cls : lhs_class O) c : print_click eng cls c = Ok tt <-> printable eng cls c.
Proof.
  unfold print_click, printable. destruct (engv eng (lc_val cls (ck_obj c))) as [s|e]; cbn [bind]; split; eauto; try discriminate.
  intros (s & H). discriminate.
Qed.
Section Approach.
  Context {O : Type}.
  Variable eng : Q -> res text.
  Variable cls : lhs_class O.
  Variable est : contfrac -> res conv.
  Variable target : option Q.
  Variable w b : option (list atype).
  Definition ap_keep (c c' : click O) : Prop :=
    exists cf t p, fresh_cf target c cf /\ est cf = Ok (t, p) /\ wanted w b t /\ c' = with_conv c (t, p).
  Definition ap_drop (c : click O) : Prop :=
    exists cf, fresh_cf target c cf /\
      ((exists e, est cf = Raise e /\ e <> KeyboardInterrupt /\ printable eng cls c) \/ exists t p, est cf = Ok (t, p) /\ ~ wanted w b t).
  Lemma wanted_iff t : (given w && listed t w) || (given b && negb (listed t b)) = true <-> wanted w b t.
  Proof.
    unfold wanted. rewrite orb_true_iff, !andb_true_iff, negb_true_iff, !given_iff, listed_iff.
    split; (intros [H|[H H2]]; [now left|right; split; [exact H|]]).
    - intros HH. apply listed_iff in HH. congruence.
    - apply not_true_iff_false. intros HH. now apply listed_iff in HH.
  Qed.
  Lemma filter_approach_iff (cs r : list (click O)) : filter_approach eng cls est target w b cs = (r, Ok tt) <->
    (nonempty w /\ ~ nonempty b \/ ~ nonempty w /\ nonempty b) /\ selects ap_keep ap_drop cs r.
  Proof.
    unfold filter_approach.
    assert (PC : forall c, print_click eng cls c = Ok tt <-> printable eng cls c) by (intros; apply print_click_iff).
    set (step := fun c : click O => _).
    assert (SK : forall c c', step c = Ok (Some c') <-> ap_keep c c').
    { intros c c'. unfold step, ap_keep, fresh_cf, ck_new.
      destruct (cf_new _ _ true None None target false) as [cf|e]; cbn [bind].
      2:{ split; [discriminate|intros (cf & t & p & H & _); discriminate]. }
      destruct (est cf) as [[t p]|e] eqn:EE.
      - destruct (_ || _) eqn:EW.
        + apply wanted_iff in EW. split.
          * intros H. inversion H; subst. exists cf, t, p. split; [reflexivity|]. split; [exact EE|]. split; [exact EW|]. destruct c as [[[? ?] ?] ?]. reflexivity.
          * intros (cf' & t' & p' & H1 & H2 & H3 & ->). inversion H1; subst cf'. rewrite EE in H2. inversion H2; subst. destruct c as [[[? ?] ?] ?]. reflexivity.
        + split; [discriminate|]. intros (cf' & t' & p' & H1 & H2 & H3 & ->). inversion H1; subst cf'. rewrite EE in H2. inversion H2; subst.
          apply wanted_iff in H3. congruence.
      - split; [destruct e; try destruct (print_click eng cls c); discriminate|]. intros (cf' & t' & p' & H1 & H2 & _). inversion H1; subst. congruence. }
    assert (SD : forall c, step c = Ok None <-> ap_drop c).
    { intros c. unfold step, ap_drop, fresh_cf, ck_new.
      destruct (cf_new _ _ true None None target false) as [cf|e]; cbn [bind].
      2:{ split; [discriminate|intros (cf & H & _); discriminate]. }
      destruct (est cf) as [[t p]|e] eqn:EE.
      - destruct (_ || _) eqn:EW.
        + split; [discriminate|]. intros (cf' & H1 & [(e & H2 & _ & _)|(t' & p' & H2 & H3)]); inversion H1; subst cf'; [congruence|].
          rewrite EE in H2. inversion H2; subst. apply wanted_iff in EW. tauto.
        + split; [|reflexivity]. intros _. exists cf. split; [reflexivity|]. right. exists t, p. split; [exact EE|].
          intros HH. apply wanted_iff in HH. congruence.
      - split.
        + intros H. exists cf. split; [reflexivity|]. left. exists e. split; [exact EE|].
          assert (K : e <> KeyboardInterrupt) by (intros ->; discriminate). split; [exact K|]. apply PC.
          destruct (print_click eng cls c) as [[]|e0]; [reflexivity|]. destruct e; discriminate || now contradiction K.
        + intros (cf' & H1 & [(e' & H2 & H3 & H4)|(t' & p' & H2 & _)]); inversion H1; subst cf'; [|congruence].
          rewrite EE in H2. inversion H2; subst e'. apply PC in H4. rewrite H4. destruct e; try reflexivity. congruence. }
    assert (SL : forall l r0, selects (fun a b0 => step a = Ok (Some b0)) (fun a => step a = Ok None) l r0 <-> selects ap_keep ap_drop l r0).
    { intros l r0. split; apply selects_impl; intros; first [now apply SK|now apply SD]. }
    assert (FM : forall l r0, filterM step l = Ok r0 <-> selects ap_keep ap_drop l r0) by (intros; rewrite filterM_iff; apply SL).
    assert (FR : (match filterM step cs with Ok l => (l, Ok tt) | Raise e => (cs, Raise e) end = (r, Ok tt)) <-> selects ap_keep ap_drop cs r).
    { rewrite <- FM. destruct (filterM step cs); split; intros H; inversion H; reflexivity. }
    rewrite <- !given_iff. destruct (given w), (given b); cbn [negb orb andb].
    - split; [discriminate|]. intros [[[_ H]|[H _]] _]; exfalso; apply H; reflexivity.
    - rewrite FR. split; [intros H; split; [left; split; [reflexivity|discriminate]|exact H]|tauto].
    - rewrite FR. split; [intros H; split; [right; split; [discriminate|reflexivity]|exact H]|tauto].
    - split; [discriminate|]. intros [[[H _]|[_ H]] _]; discriminate.
  Qed.
  Lemma filter_approach_raise (cs r : list (click O)) e : filter_approach eng cls est target w b cs = (r, Raise e) -> r = cs /\
    ((nonempty w <-> nonempty b) /\ e = ValueError \/
     (exists c cf, In c cs /\ fresh_cf target c cf /\ est cf = Raise KeyboardInterrupt /\ e = KeyboardInterrupt) \/
     (exists c cf e', In c cs /\ fresh_cf target c cf /\ est cf = Raise e' /\ e' <> KeyboardInterrupt /\ engv eng (lc_val cls (ck_obj c)) = Raise e) \/
     (exists c, In c cs /\ cf_new (Nested (fst (ck_ab c))) (Nested (snd (ck_ab c))) true None None target false = Raise e)).
  Proof.
    unfold filter_approach. rewrite <- !given_iff.
    destruct (negb (given w || given b)) eqn:E1.
    { intros H; inversion H; subst. split; [reflexivity|]. left. split; [|reflexivity]. destruct (given w), (given b); try discriminate; tauto. }
    destruct (given w && given b) eqn:E2.
    { intros H; inversion H; subst. split; [reflexivity|]. left. split; [|reflexivity]. destruct (given w), (given b); try discriminate; tauto. }
    set (step := fun c : click O => _). destruct (filterM step cs) as [l|e'] eqn:EF; [discriminate|]. intros H; inversion H; subst. split; [reflexivity|].
    right. assert (exists c, In c r /\ step c = Raise e) as (c & HI & HS).
    { clear - EF. induction r as [|x r IH]; [discriminate|]. cbn in EF. destruct (step x) as [y|e1] eqn:EX; cbn in EF.
      - destruct (filterM step r); cbn in EF; [discriminate|]. inversion EF; subst. destruct IH as (c & HI & HS); [reflexivity|]. exists c. split; [now right|exact HS].
      - inversion EF; subst. exists x. split; [now left|exact EX]. }
    unfold step, ck_new in HS. destruct (cf_new _ _ true None None target false) as [cf|e1] eqn:EC; cbn [bind] in HS.
    - destruct (est cf) as [[t p]|e1] eqn:EE; [revert HS; destruct (given w && listed t w || given b && negb (listed t b)); intros HS; discriminate HS|].
      assert (K : e1 = KeyboardInterrupt \/ e1 <> KeyboardInterrupt) by (destruct e1; (left; reflexivity) || (right; discriminate)).
      destruct K as [->|K]; [left; inversion HS; subst; exists c, cf; auto|].
      right. left. exists c, cf, e1. split; [exact HI|]. split; [exact EC|]. split; [exact EE|]. split; [exact K|].
      assert (P : print_click eng cls c = Raise e).
      { destruct (print_click eng cls c) as [[]|e0]; destruct e1; cbn [bind] in HS; try discriminate HS; try (now contradiction K); congruence. }
      unfold print_click in P. destruct (engv eng (lc_val cls (ck_obj c))); cbn [bind] in P; [discriminate|congruence].
    - right. right. exists c. inversion HS; subst. auto.
  Qed.
End Approach.

(** ---- the root filter ---- *)
Lemma nearest_rne q : nearest_even q (rne q).
Proof. destruct (rne_spec q) as [H1 H2]. split; assumption. Qed.
Lemma nearest_unique q n : nearest_even q n -> n = rne q.
Proof. intros [H1 H2]. symmetry. apply rne_unique; assumption. Qed.

Lemma rnd_sub_rne p q : (rnd p q == q)%Q -> (rnd p (q - inject_Z (rne q)) == q - inject_Z (rne q))%Q.
Proof.
  intros HR. destruct (Qeq0_dec q) as [Z0|NZ].
  { assert (E : (q - inject_Z (rne q) == 0)%Q).
    { assert (rne q = 0).
      { symmetry. apply nearest_unique. split; rewrite Z0; cbn; [discriminate|intros HH; discriminate HH]. }
      rewrite H. rewrite Z0. reflexivity. }
    rewrite (rnd_0 p _ E). symmetry. exact E. }
  pose proof (rnd_nz p q NZ) as HR2. assert (HQ : (q == inject_Z (rne (q * two_p (- ulp_e p q))) * two_p (ulp_e p q))%Q).
  { rewrite <- HR at 1. rewrite HR2. apply Qred_correct. }
  clear HR HR2. set (e := ulp_e p q) in *. set (m := rne (q * two_p (- e))) in *.
  destruct (Z_le_gt_dec 0 e) as [He|He].
  { assert (E : (q == inject_Z (m * 2 ^ e))%Q) by (rewrite HQ, inject_Z_mult, <- two_p_Z by lia; reflexivity).
    assert (EF : (q - inject_Z (rne q) == 0)%Q).
    { assert (rne q = m * 2 ^ e).
      { symmetry. apply nearest_unique. split; rewrite E; setoid_replace (inject_Z (m * 2 ^ e) - inject_Z (m * 2 ^ e))%Q with 0%Q by ring; cbn; [discriminate|intros HH; discriminate HH]. }
      rewrite H, E. ring. }
    rewrite (rnd_0 p _ EF). symmetry. exact EF. }
  assert (EV : (q - inject_Z (rne q) == inject_Z (m - rne q * 2 ^ (- e)) * two_p e)%Q).
  { unfold Z.sub. rewrite inject_Z_plus, inject_Z_opp, inject_Z_mult, <- two_p_Z by lia.
    setoid_replace ((inject_Z m + - (inject_Z (rne q) * two_p (- e))) * two_p e)%Q
      with (inject_Z m * two_p e - inject_Z (rne q) * (two_p (- e) * two_p e))%Q by ring.
    rewrite two_p_opp_l, <- HQ. ring. }
  assert (AB : (Qabs (q - inject_Z (rne q)) <= Qabs q)%Q).
  { destruct (nearest_rne q) as [HN HN2]. destruct (Qlt_le_dec (Qabs q) (1 # 2)) as [HL|HL]; [|lra].
    assert (rne q = 0).
    { apply Qabs_Qlt_condition in HL. apply Qabs_le_iff in HN.
      assert (inject_Z (-1) < inject_Z (rne q))%Q by (change (inject_Z (-1)) with (-1)%Q; lra).
      assert (inject_Z (rne q) < inject_Z 1)%Q by (change (inject_Z 1) with 1%Q; lra).
      apply inject_Z_lt_inv in H, H0. lia. }
    rewrite H. setoid_replace (q - inject_Z 0)%Q with q by (change (inject_Z 0) with 0%Q; ring). apply Qle_refl. }
  rewrite (rnd_Qeq p _ _ EV). transitivity (inject_Z (m - rne q * 2 ^ (- e)) * two_p e)%Q; [|symmetry; exact EV].
  destruct (Qeq0_dec (inject_Z (m - rne q * 2 ^ (- e)) * two_p e)) as [Z1|N1]; [rewrite (rnd_0 p _ Z1); symmetry; exact Z1|].
  apply rnd_multiple. unfold ulp_e in *. assert (mag (inject_Z (m - rne q * 2 ^ (- e)) * two_p e) <= mag q); [|lia].
  apply mag_mono; [exact N1|]. rewrite <- EV. exact AB.
Qed.

Lemma int_root_iff re im : (fl re == re)%Q -> (int_root_flag (re, im) = true <-> int_root (fl (1 # 1000)) re im).
Proof.
  intros HF. unfold int_root_flag, int_root. cbn [fst snd]. rewrite !andb_true_iff, !qlt_iff.
  pose proof (rnd_sub_rne 53 re HF) as HS. fold (fl (re - inject_Z (rne re))) in HS. rewrite HS. split.
  - intros ((H1 & H2) & H3). split; [exact H1|]. split; [exact H3|]. exists (rne re). split; [apply nearest_rne|exact H2].
  - intros (H1 & H3 & n & HN & H2). apply nearest_unique in HN. subst n. auto.
Qed.

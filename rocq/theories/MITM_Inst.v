(** The search with the two kinds of left-hand sides. *)
From Coq Require Import Ascii String ZArith QArith Qabs Qround List Bool Lia Lqa Permutation.
From Verif Require Import PyBase PyBase_Proofs Rnd Rnd_Proofs ContFrac_Model Hashtable_Model Hashtable_Proofs
  ULCD_Model Spec_ULCD ULCD_Proofs ULCD_Equiv Rational_Model Spec_Rational Rational_Proofs Rational_Obj Rational_Canon
  MITM_Model Spec_MITM MITM_Build MITM_Build2 MITM_Clicks MITM_Filters.
Import ListNotations.
Local Open Scope Z_scope.
Local Open Scope list_scope.

(** ---- ULCD ---- *)
Lemma ulcd_equiv_total ab1 o1 i1 ab2 o2 i2 : okp (ul_params o1) -> okp (ul_params o2) ->
  exists b, ulcd_is_equiv (ab1, o1, i1) (ab2, o2, i2) = Ok b.
Proof.
  destruct o1 as [[[[u1 l1] c1] d1] x1 v1], o2 as [[[[u2 l2] c2] d2] x2 v2]. cbn [ul_params okp]. intros [L1 D1] [L2 D2].
  unfold ulcd_is_equiv. cbn [ul_params]. destruct (_ || _); [eauto|].
  destruct ab1 as [pa1 pb1], ab2 as [pa2 pb2]. destruct (negb _ || negb _); [eauto|].
  destruct (coeffs_eqb pb1 pb2 && _); [|eauto].
  match goal with |- exists b, (if ?g then _ else _) = _ => destruct g; [eauto|] end.
  destruct (Z.eqb_spec d2 0); [contradiction|].
  set (ratio := Qabs (fl (inject_Z d1 / inject_Z d2))).
  assert (NR : Qeq_bool ratio 0 = false).
  { apply Qeq_bool_false. unfold ratio. intros H.
    assert (H0 : (fl (inject_Z d1 / inject_Z d2) == 0)%Q).
    { assert (Qabs (fl (inject_Z d1 / inject_Z d2)) <= 0)%Q by lra. apply Qabs_le_iff in H0. lra. }
    unfold fl in H0. apply (proj1 (rnd_zero_iff 53 _ ltac:(lia))) in H0.
    assert (ND2 : ~ (inject_Z d2 == 0)%Q) by now rewrite injZ0.
    assert (inject_Z d1 == 0)%Q; [|now apply (proj1 (injZ0 d1)) in H1].
    rewrite <- (Qmult_div_r (inject_Z d1) (inject_Z d2) ND2), H0. ring. }
  rewrite NR. cbn [bind]. destruct (zq_eqb u1 _); cbn [bind].
  - destruct (_ && _); [eauto|]. destruct (zq_eqb u1 _); eauto.
  - destruct (zq_eqb u1 _); eauto.
Qed.

Lemma ulcd_uniq_total rd cs : Forall (fun c => okp (ul_params (ck_obj c))) cs ->
  exists us, filter_uniq (ulcd_class rd) cs = (us, Ok tt).
Proof.
  intros HG. unfold filter_uniq.
  assert (W : forall (c : click ulcd), ck_with c (ck_obj c) = c) by (intros [[[? ?] ?] ?]; reflexivity).
  assert (SC : forall us c, Forall (fun c => okp (ul_params (ck_obj c))) us -> okp (ul_params (ck_obj c)) ->
            exists b, uniq_scan (ulcd_class rd) us c = ((us, c), Ok b)).
  { induction us as [|u r IH]; intros c HU HC; cbn [uniq_scan]; [eauto|]. inversion HU as [|? ? H1 H2]; subst.
    destruct (ulcd_equiv_total (ck_ab u) (ck_obj u) (ck_ind u) (ck_ab c) (ck_obj c) (ck_ind c) H1 HC) as (b & HB).
    assert (lc_equiv (ulcd_class rd) (ck3 u) (ck3 c) = ((ck_obj u, ck_obj c), Ok b)) as ->.
    { rewrite !ck3_eq. cbn [lc_equiv ulcd_class fst snd]. f_equal. exact HB. }
    rewrite !W. destruct b; [eauto|]. destruct (IH c H2 HC) as (b & ->). eauto. }
  assert (LP : forall cs us, Forall (fun c => okp (ul_params (ck_obj c))) cs -> Forall (fun c => okp (ul_params (ck_obj c))) us ->
            exists us', uniq_loop (ulcd_class rd) us cs = (us', Ok tt)).
  { clear cs HG. induction cs as [|c cs IH]; intros us HC HU; cbn [uniq_loop]; [eauto|]. inversion HC as [|? ? H1 H2]; subst.
    destruct (SC us c HU H1) as (b & ->). apply IH; [exact H2|]. destruct b; [exact HU|]. apply Forall_app. auto. }
  destruct (LP cs [] HG (Forall_nil _)) as (us & ->). eauto.
Qed.
Lemma ulcd_uniq_spec rd cs us : filter_uniq (ulcd_class rd) cs = (us, Ok tt) ->
  (exists fs, first_flags (equiv_answer (ulcd_class rd)) cs fs /\ us = picks fs cs) /\
  ForallOrdPairs (fun u c => equiv_answer (ulcd_class rd) u c = Ok false) us /\
  filter_uniq (ulcd_class rd) us = (us, Ok tt).
Proof.
  intros H.
  assert (W : forall (c : click ulcd), ck_with c (ck_obj c) = c) by (intros [[[? ?] ?] ?]; reflexivity).
  assert (EQ : forall a b : list (click ulcd), Forall2 eq a b -> a = b) by (induction 1; congruence).
  destruct (filter_uniq_spec (ulcd_class rd) eq (fun _ => True)) with (cs := cs) (us := us) as ((fs & F & P) & HP & _ & us' & E & S); auto.
  - congruence.
  - congruence.
  - intros u c ou oc b _ _ E. rewrite !ck3_eq in E. cbn in E. inversion E; subst. now rewrite !W.
  - clear. induction cs; constructor; auto.
  - apply EQ in P, S. subst us'. split; [exists fs; auto|]. auto.
Qed.

Definition exq := fun q : Q => q.
Lemma ulcd_flip_val o o' l : faithful exq o -> lc_flip (ulcd_class exq) o = (o', Ok tt) -> lc_val (ulcd_class exq) o = Fin l ->
  faithful exq o' /\ exists l', lc_val (ulcd_class exq) o' = Fin l' /\ (l' == - l)%Q.
Proof.
  destruct o as [[[[u k] c] d] x v]. intros [D V] HF HL. cbn in HL. inversion HL; subst l. clear HL. cbn in HF. cbn [ul_params ul_const ul_val] in *.
  change (ulcd_assign exq (mkUlcd (u, k, c, d) x v) (u, k, c, d * -1) = (o', Ok tt)) in HF.
  apply assign_ok in HF as [D' ->]. cbn [ul_const] in *. split; [split; [exact D'|reflexivity]|].
  eexists. split; [reflexivity|]. cbn [ul_val]. rewrite V. cbn in *. destruct D as (X & L & DD). unfold exq. rewrite inject_Z_mult.
  change (inject_Z (-1)) with (-1)%Q. field. rewrite !injZ0. auto.
Qed.
Lemma ulcd_add_val o o' l n : faithful exq o -> lc_add (ulcd_class exq) n o = (o', Ok tt) -> lc_val (ulcd_class exq) o = Fin l ->
  faithful exq o' /\ exists l', lc_val (ulcd_class exq) o' = Fin l' /\ (l' == l + inject_Z n)%Q.
Proof.
  destruct o as [[[[u k] c] d] x v]. intros [D V] HF HL. cbn in HL. inversion HL; subst l. clear HL. cbn in HF. cbn [ul_params ul_const ul_val] in *.
  change (ulcd_assign exq (mkUlcd (u, k, c, d) x v) (u, k, c + d * n, d) = (o', Ok tt)) in HF.
  apply assign_ok in HF as [D' ->]. cbn [ul_const] in *. split; [split; [exact D'|reflexivity]|].
  eexists. split; [reflexivity|]. cbn [ul_val]. rewrite V. cbn in *. destruct D as (X & L & DD). unfold exq. rewrite inject_Z_plus, inject_Z_mult.
  field. rewrite !injZ0. auto.
Qed.

(** find_clicks with the generator that re-uses one object *)
Definition click_consumer rd eng trunc t (o : ulcd) (acc : list (click ulcd)) : (ulcd * list (click ulcd)) * res unit :=
  match click_body rd eng (ulcd_class rd) trunc t o with
  | Ok n => ((o, acc ++ n), Ok tt)
  | Raise e => ((o, acc), Raise e)
  end.
Lemma consumer_list rd eng trunc t en : ~ (ue_x en == 0)%Q ->
  exists ys o acc r, ugen_list rd en = Ok ys /\ ugen_for rd (click_consumer rd eng trunc t) en [] = Ok ((o, acc), r) /\
    find_clicks_loop rd eng (ulcd_class rd) trunc t (map (fun pv => mkUlcd (fst pv) (ue_x en) (snd pv)) ys, Ok tt) =
    match r with Ok _ => Ok acc | Raise e => Raise e end.
Proof.
  intros X. rewrite (ugen_list_ok rd en X). unfold ugen_for, ulcd_new.
  rewrite ulcd_calc_def by (cbn; repeat split; [exact X|discriminate|discriminate]). cbn [bind].
  set (o := mkUlcd _ _ _). set (ps := product4 _ _ _ _).
  assert (BC : forall o s, ul_const (fst (fst (click_consumer rd eng trunc t o s))) = ul_const o).
  { intros o1 s. unfold click_consumer. destruct (click_body rd eng (ulcd_class rd) trunc t o1); reflexivity. }
  pose proof (ugen_loop_ref rd _ BC ps o [] X) as G.
  destruct (ugen_loop rd (click_consumer rd eng trunc t) ps o []) as [[o1 s1] r] eqn:E.
  change (ul_const o) with (ue_x en) in G.
  eexists. exists o1, s1, r. split; [reflexivity|]. split; [reflexivity|].
  unfold find_clicks_loop. cbn [fst snd].
  assert (H : forall l s, foldM (fun acc o => let* n := click_body rd eng (ulcd_class rd) trunc t o in Ok (acc ++ n))
              (map (fun pv => mkUlcd (fst pv) (ue_x en) (snd pv)) (map (fun p => (p, ulcd_rval rd (ue_x en) p)) l)) s =
            match gen_ref rd (click_consumer rd eng trunc t) (ue_x en) l s with (a, Ok _) => Ok a | (_, Raise e) => Raise e end).
  { clear. induction l as [|p r IH]; intros s; cbn [map fst snd foldM gen_ref]; [reflexivity|].
    unfold click_consumer at 1. destruct (click_body rd eng (ulcd_class rd) trunc t (mkUlcd p (ue_x en) (ulcd_rval rd (ue_x en) p))); cbn [bind]; [apply IH|reflexivity]. }
  rewrite H, <- G. destruct r; reflexivity.
Qed.

(** ---- rational functions: the duplicate filter ---- *)
Section RatUniq.
  Variable rd : Q -> Q.
  Variable pgcd : list Z -> list Z -> list Z.
  Variable inv : list (Z * Z).
  Notation canonalize := (rf_canonalize KDecimal rd pgcd).

  (** the canonical form *)
  Definition ckey (o : rfun) : res (list Z * list Z * Z) :=
    match canonalize o with (o', Ok _) => Ok (rf_num o', rf_den o', rf_int o') | (_, Raise e) => Raise e end.
  Lemma ckey_visible o o1 : rf_inv o -> rf_inv o1 -> same_visible o o1 -> ckey o = ckey o1.
  Proof.
    intros I I1 (EN & ED & EI & _ & EC & _). unfold ckey.
    destruct (canonalize o) as [a ra] eqn:A. destruct (canonalize o1) as [b rb] eqn:B.
    destruct (canonalize_ok _ _ _ _ _ _ I A) as (_ & KA & MA). destruct (canonalize_ok _ _ _ _ _ _ I1 B) as (_ & KB & MB).
    rewrite EN, ED in MB.
    destruct (match poly2sympoly (rf_num o) with Ok P => _ | Raise e => _ end) as [[[num den] c]|e].
    - destruct MA as (A1 & A2 & A3 & _ & A4 & A5), MB as (B1 & B2 & B3 & _ & B4 & B5).
      unfold consistent in A4, B4. rewrite A1, A2, A3, KA in A4. rewrite B1, B2, B3, KB, EI, EC in B4. rewrite EI, EC in B5.
      destruct A5 as [ -> | (ea & -> & HA) ], B5 as [ -> | (eb & -> & HB) ].
      + rewrite A1, A2, A3, B1, B2, B3, EI. reflexivity.
      + rewrite (A4 eq_refl) in HB. discriminate.
      + rewrite (B4 eq_refl) in HA. discriminate.
      + congruence.
    - destruct MA as [ -> _ ], MB as [ -> _ ]. reflexivity.
  Qed.

  Definition answer_of ab1 i1 (k1 : res (list Z * list Z * Z)) ab2 i2 (k2 : res (list Z * list Z * Z)) : res bool :=
    let is_inverse := existsb (fun '(a, b) => (a =? i1) && (b =? i2)) inv in
    if negb is_inverse && negb (i1 =? i2) then Ok false
    else
      let* c1 := k1 in
      let* c2 := k2 in
      let* N1 := poly2sympoly (fst (fst c1)) in
      let* D1 := poly2sympoly (snd (fst c1)) in
      let* qr1 := rr_div N1 D1 in
      let* N2 := poly2sympoly (fst (fst c2)) in
      let* D2 := poly2sympoly (snd (fst c2)) in
      let* qr2 := if is_inverse : bool then rr_div D2 N2 else rr_div N2 D2 in
      Ok ((coeffs_eqb (snd ab1) (snd ab2) &&
           (coeffs_eqb (fst ab1) (fst ab2) || coeffs_eqb (fst ab1) (map (map Z.opp) (fst ab2)))) &&
          (poly_eqb (drop_free (fst qr1)) (drop_free (fst qr2)) && poly_eqb (snd qr1) (snd qr2))).

  Lemma rf_equiv_run (ab1 : abpair) o1 i1 (ab2 : abpair) o2 i2 o1' o2' r : rf_inv o1 -> rf_inv o2 ->
    rf_is_equiv KDecimal rd pgcd inv (ab1, o1, i1) (ab2, o2, i2) = ((o1', o2'), r) ->
    r = answer_of ab1 i1 (ckey o1) ab2 i2 (ckey o2) /\
    (forall b, r = Ok b -> (o1' = o1 /\ o2' = o2) \/
       exists c1 c2, canonalize o1 = (c1, Ok tt) /\ canonalize o2 = (c2, Ok tt) /\ same_visible c1 o1' /\ same_visible c2 o2' /\
         rf_inv o1' /\ rf_inv o2').
  Proof.
    intros I1 I2 H. unfold rf_is_equiv in H. unfold answer_of, ckey. set (isv := existsb _ inv) in *.
    destruct (negb isv && negb (i1 =? i2)).
    { inversion H; subst. split; [reflexivity|]. intros b _. now left. }
    destruct (canonalize o1) as [c1 [[]|e]] eqn:C1; [|inversion H; subst; split; [reflexivity|discriminate]].
    destruct (canonalize o2) as [c2 [[]|e]] eqn:C2; [|inversion H; subst; split; [reflexivity|discriminate]].
    pose proof (proj1 (canonalize_ok _ _ _ _ _ _ I1 C1)) as J1. pose proof (proj1 (canonalize_ok _ _ _ _ _ _ I2 C2)) as J2.
    destruct (rf_get_nsym c1) as [o1a n1] eqn:N1. destruct (rf_get_dsym o1a) as [o1b d1] eqn:D1.
    destruct (rf_get_nsym c2) as [o2a n2] eqn:N2. destruct (rf_get_dsym o2a) as [o2b d2] eqn:D2.
    destruct (get_nsym_ok _ _ _ J1 N1) as (E1 & V1 & K1). destruct (get_dsym_ok _ _ _ K1 D1) as (F1 & W1 & Z1).
    destruct (get_nsym_ok _ _ _ J2 N2) as (E2 & V2 & K2). destruct (get_dsym_ok _ _ _ K2 D2) as (F2 & W2 & Z2).
    assert (X1 : rf_den o1a = rf_den c1) by apply V1. assert (X2 : rf_den o2a = rf_den c2) by apply V2. rewrite X1 in F1. rewrite X2 in F2.
    inversion H; subst o1' o2'. split.
    - subst n1 d1 n2 d2. cbn [bind fst snd]. reflexivity.
    - intros b _. right. exists c1, c2. split; [reflexivity|]. split; [reflexivity|].
      split; [destruct V1 as (?&?&?&?&?&?&?), W1 as (?&?&?&?&?&?&?); repeat split; congruence|].
      split; [destruct V2 as (?&?&?&?&?&?&?), W2 as (?&?&?&?&?&?&?); repeat split; congruence|]. auto.
  Qed.

  Definition gcd_right (o : rfun) : Prop := is_zgcd (rf_num o) (rf_den o) (pgcd (znorm (rf_num o)) (znorm (rf_den o))).
  Definition good_rf (o : rfun) : Prop := rf_inv o /\ rf_num o <> [] /\ rf_den o <> [] /\ gcd_right o /\
    forall o', canonalize o = (o', Ok tt) -> gcd_right o'.
  Definition same_rf (o o' : rfun) : Prop := rf_const o' = rf_const o /\ ckey o' = ckey o /\ good_rf o'.
  Lemma gcd_right_visible o o1 : same_visible o o1 -> gcd_right o -> gcd_right o1.
  Proof. intros (EN & ED & _). unfold gcd_right. now rewrite EN, ED. Qed.
  Lemma good_canon o c o1 : good_rf o -> canonalize o = (c, Ok tt) -> same_visible c o1 -> rf_inv o1 -> same_rf o o1.
  Proof.
    intros (I & N & D & G & GC) C V I1.
    destruct G as (k1 & k2 & H1 & H2 & CP).
    destruct (canon_function rd pgcd o c I N D) as (_ & _ & IC & XC & _ & _ & NC & DC & _);
      [split; [exists k1|exists k2]; auto|exact C|].
    assert (G : gcd_right o) by (exists k1, k2; auto).
    destruct (canon_idem rd pgcd o c I N D G C (GC _ C)) as (c2 & CC & V2).
    assert (K1 : ckey c = ckey o).
    { unfold ckey. rewrite C, CC. destruct V2 as (E1 & E2 & E3 & _). now rewrite E1, E2, E3. }
    assert (K2 : ckey o1 = ckey c) by (symmetry; now apply ckey_visible).
    destruct V as (EN & ED & EI & EP & EC & EV & EF).
    split; [congruence|]. split; [congruence|]. split; [exact I1|]. split; [congruence|]. split; [congruence|].
    split; [unfold gcd_right; rewrite EN, ED; apply GC; exact C|].
    intros o' CO. assert (GR : gcd_right c) by (apply GC; exact C).
    assert (KO : ckey o1 = Ok (rf_num o', rf_den o', rf_int o')) by (unfold ckey; now rewrite CO).
    assert (KC : ckey o1 = Ok (rf_num c, rf_den c, rf_int c)).
    { rewrite K2. unfold ckey. rewrite CC. destruct V2 as (E1 & E2 & E3 & _). now rewrite E1, E2, E3. }
    rewrite KO in KC. injection KC as E1 E2 E3. unfold gcd_right. rewrite E1, E2. exact GR.
  Qed.

  Definition same_rc (c c' : click rfun) : Prop :=
    ck_ab c' = ck_ab c /\ ck_ind c' = ck_ind c /\ ck_conv c' = ck_conv c /\ same_rf (ck_obj c) (ck_obj c').
  Lemma rat_uniq_spec cs us : Forall (fun c => good_rf (ck_obj c)) cs ->
    filter_uniq (rat_class KDecimal rd pgcd inv) cs = (us, Ok tt) ->
    (exists fs, first_flags (equiv_answer (rat_class KDecimal rd pgcd inv)) cs fs /\ Forall2 same_rc (picks fs cs) us) /\
    ForallOrdPairs (fun u c => equiv_answer (rat_class KDecimal rd pgcd inv) u c = Ok false) us /\
    exists us', filter_uniq (rat_class KDecimal rd pgcd inv) us = (us', Ok tt) /\ Forall2 same_rc us us'.
  Proof.
    intros HG H.
    assert (REFL : forall o, good_rf o -> same_rf o o) by (intros o G; split; [reflexivity|split; [reflexivity|exact G]]).
    destruct (filter_uniq_spec (rat_class KDecimal rd pgcd inv) same_rc (fun c => good_rf (ck_obj c))) with (cs := cs) (us := us)
      as (H1 & H2 & _ & H3); auto.
    - intros c G. split; [reflexivity|]. split; [reflexivity|]. split; [reflexivity|]. auto.
    - intros a b c (A1 & A2 & A3 & A4 & A5 & A6) (B1 & B2 & B3 & B4 & B5 & B6).
      split; [congruence|]. split; [congruence|]. split; [congruence|]. split; [congruence|]. split; [congruence|exact B6].
    - intros a b _ (_ & _ & _ & _ & _ & G). exact G.
    - intros u u' c c' GU GC (A1 & A2 & A3 & A4 & A5 & A6) (B1 & B2 & B3 & B4 & B5 & B6).
      unfold equiv_answer. cbn [lc_equiv rat_class].
      destruct (rf_is_equiv KDecimal rd pgcd inv (ck_ab u, ck_obj u, ck_ind u) (ck_ab c, ck_obj c, ck_ind c)) as [[x1 x2] r] eqn:E1.
      destruct (rf_is_equiv KDecimal rd pgcd inv (ck_ab u', ck_obj u', ck_ind u') (ck_ab c', ck_obj c', ck_ind c')) as [[y1 y2] r'] eqn:E2.
      apply rf_equiv_run in E1 as [ -> _ ]; [|apply GU|apply GC]. apply rf_equiv_run in E2 as [ -> _ ]; [|apply A6|apply B6].
      cbn [snd]. rewrite A1, A2, A5, B1, B2, B5. reflexivity.
    - intros u c ou oc b GU GC E. rewrite !ck3_eq in E. cbn [lc_equiv rat_class] in E.
      apply rf_equiv_run in E as [_ E]; [|apply GU|apply GC].
      assert (S : same_rf (ck_obj u) ou /\ same_rf (ck_obj c) oc).
      { destruct (E b eq_refl) as [ [ -> -> ] | (c1 & c2 & C1 & C2 & V1 & V2 & I1 & I2) ]; [split; auto|].
        split; eapply good_canon; eassumption. }
      destruct S as [S1 S2]. destruct u as [[[? ?] ?] ?], c as [[[? ?] ?] ?]. cbn in *.
      split; (split; [reflexivity|]); (split; [reflexivity|]); (split; [reflexivity|]); assumption.
  Qed.
End RatUniq.

(** What the agreement of digits says about the numbers (C136). *)
From Coq Require Import Ascii String ZArith QArith Qabs Qround List Bool Lia Lqa.
From Verif Require Import Config_Model Consts_Model Spec_Main PyBase PyBase_Proofs Rnd Rnd_Proofs ContFrac_Model ContFrac_Proofs ContFrac_Hist ContFrac_Proofs2 Hashtable_Model Spec_Hashtable Hashtable_Proofs Hashtable_Dec
  ULCD_Model Spec_ULCD ULCD_Proofs MITM_Model Spec_MITM MITM_Build MITM_Build2 MITM_Clicks MITM_Inst Spec_Search
  Results_Model Main_Model Main_Proofs Properties_MITM2 Properties_Search Spec_Digits Digits_Proofs.
Import ListNotations.
Local Open Scope Z_scope.
Local Open Scope list_scope.

(** Decimals below 1 whose texts have the same first a+2 characters are less than 10^-a apart, or both are below 10^-6. *)
Theorem C136_numerals : forall a d1 d2, 0 <= a -> dec_normal d1 -> dec_normal d2 -> (0 <= dec_value d1 < 1)%Q -> (0 <= dec_value d2 < 1)%Q ->
  py_take (a + 2) (dec_eng d1) = py_take (a + 2) (dec_eng d2) ->
  (Qabs (dec_value d1 - dec_value d2) < ten_p (- a))%Q \/ (dec_value d1 < ten_p (-6) /\ dec_value d2 < ten_p (-6))%Q.
Proof.
  intros a d1 d2 Ha N1 N2 V1 V2 H. unfold py_take in H. rewrite (proj2 (Z.leb_le 0 (a + 2))) in H by lia.
  replace (Z.to_nat (a + 2)) with (S (S (Z.to_nat a))) in H by lia.
  replace a with (Z.of_nat (Z.to_nat a)) at 1 by lia. now apply numerals_close.
Qed.

(** ---- with rounding ---- *)
Lemma two_steps (u A L l : Q) : (0 <= u <= 1 # 16)%Q -> (Qabs (A - L) <= u * Qabs L)%Q -> (Qabs (l - A) <= u * Qabs A)%Q -> (Qabs (l - L) <= 3 * u * Qabs l)%Q.
Proof.
  intros HU H1 H2.
  assert (TA : (Qabs A <= Qabs (A - L) + Qabs L)%Q) by (eapply Qle_trans; [|apply Qabs_triangle]; apply Qle_lteq; right; apply Qabs_wd; ring).
  assert (TL : (Qabs L <= Qabs l + Qabs (l - L))%Q).
  { rewrite (Qabs_Qminus l L). eapply Qle_trans; [|apply Qabs_triangle]. apply Qle_lteq. right. apply Qabs_wd. ring. }
  assert (TT : (Qabs (l - L) <= Qabs (l - A) + Qabs (A - L))%Q) by (eapply Qle_trans; [|apply Qabs_triangle]; apply Qle_lteq; right; apply Qabs_wd; ring).
  pose proof (Qabs_nonneg L). pose proof (Qabs_nonneg l). pose proof (Qabs_nonneg A).
  set (t := Qabs (l - L)) in *. set (aL := Qabs L) in *. set (al := Qabs l) in *. set (aA := Qabs A) in *. set (x := Qabs (A - L)) in *. set (y := Qabs (l - A)) in *.
  clearbody t aL al aA x y.
  assert (B2 : (u * aL <= (1 # 16) * aL)%Q) by nra.
  assert (B0 : (u * aA <= u * ((17 # 16) * aL))%Q) by (assert (aA <= (17 # 16) * aL)%Q by lra; nra).
  assert (B1 : (t <= (33 # 16) * (u * aL))%Q) by lra.
  assert (B3 : (aL <= (256 # 223) * al)%Q) by lra.
  assert (B4 : (u * aL <= u * ((256 # 223) * al))%Q) by nra.
  assert (B5 : (0 <= u * al)%Q) by nra. lra.
Qed.
(** Numbers of the same sign whose absolute values have fractional parts at most [d] apart: minus any integer, their difference is at most [d]
    or at least 1 - [d]. *)
Lemma near_any (r l d : Q) n : (0 <= r * l)%Q -> (Qabs (frac (Qabs r) - frac (Qabs l)) <= d)%Q ->
  (Qabs (r - l - inject_Z n) <= d \/ 1 - d <= Qabs (r - l - inject_Z n))%Q.
Proof.
  intros HS HF.
  assert (exists (m : Z) (e : Q), (Qabs e <= d)%Q /\ (r - l - inject_Z n == inject_Z m + e)%Q) as (m & e & HE & E).
  { destruct (Qlt_le_dec r 0) as [Hr|Hr].
    - assert (Hl : (l <= 0)%Q) by (destruct (Qlt_le_dec 0 l); [nra|assumption]). apply Qlt_le_weak in Hr.
      exists (- Qfloor (- r) + Qfloor (- l) - n)%Z, (- (frac (Qabs r) - frac (Qabs l)))%Q. split; [now rewrite Qabs_opp|].
      rewrite (frac_comp _ _ (Qabs_neg r Hr)), (frac_comp _ _ (Qabs_neg l Hl)). unfold frac, Z.sub. rewrite !inject_Z_plus, !inject_Z_opp. ring.
    - destruct (Qlt_le_dec l 0) as [Hl|Hl].
      + assert (R0 : (r == 0)%Q) by nra. assert (Hr' : (r <= 0)%Q) by lra. apply Qlt_le_weak in Hl.
        exists (- Qfloor (- r) + Qfloor (- l) - n)%Z, (- (frac (Qabs r) - frac (Qabs l)))%Q. split; [now rewrite Qabs_opp|].
        rewrite (frac_comp _ _ (Qabs_neg r Hr')), (frac_comp _ _ (Qabs_neg l Hl)). unfold frac, Z.sub. rewrite !inject_Z_plus, !inject_Z_opp. ring.
      + exists (Qfloor r - Qfloor l - n)%Z, (frac (Qabs r) - frac (Qabs l))%Q. split; [exact HF|].
        rewrite (frac_comp _ _ (Qabs_pos r Hr)), (frac_comp _ _ (Qabs_pos l Hl)). unfold frac, Z.sub. rewrite !inject_Z_plus, !inject_Z_opp. ring. }
  rewrite E. apply Qabs_Qle_condition in HE. destruct (Z.eq_dec m 0) as [->|Hm].
  - left. apply Qabs_Qle_condition. change (inject_Z 0) with 0%Q. lra.
  - right. destruct (Z_lt_le_dec m 0) as [M|M].
    + assert (B : (inject_Z m <= inject_Z (-1))%Q) by (rewrite <- Zle_Qle; lia). change (inject_Z (-1)) with (-1)%Q in B.
      eapply Qle_trans; [|apply (Qle_Qabs (- (inject_Z m + e))) || (rewrite <- Qabs_opp; apply Qle_Qabs)]. lra.
    + assert (B : (inject_Z 1 <= inject_Z m)%Q) by (rewrite <- Zle_Qle; lia). change (inject_Z 1) with 1%Q in B.
      eapply Qle_trans; [|apply Qle_Qabs]. lra.
Qed.
Lemma faithful_rounded p o : 1 <= p -> faithful (rnd p) o -> (rnd p (ul_val o) == ul_val o)%Q.
Proof. intros Hp [_ ->]. destruct (ul_params o) as [[[u l] c] d]. unfold ulcd_rval. now apply rnd_idem. Qed.
Lemma flip_rounded p o o' : faithful (rnd p) o -> ulcd_flip_sign (rnd p) o = (o', Ok tt) ->
  faithful (rnd p) o' /\ ul_val o' = Qopp (ul_val o).
Proof.
  destruct o as [[[[u k] c] d] x v]. intros [D V] HF. cbn [ul_params ul_const ul_val] in *.
  change (ulcd_assign (rnd p) (mkUlcd (u, k, c, d) x v) (u, k, c, d * -1) = (o', Ok tt)) in HF.
  apply assign_ok in HF as [D' ->]. cbn [ul_const] in *. split; [split; [exact D'|reflexivity]|]. cbn [ul_val]. rewrite V. unfold ulcd_rval.
  rewrite <- rnd_opp. apply rnd_Qeq. rewrite inject_Z_mult. change (inject_Z (-1)) with (-1)%Q. destruct D as (_ & _ & DD). field. now rewrite injZ0.
Qed.
Lemma add_rounded p o o' n : 4 <= p -> faithful (rnd p) o -> ulcd_add_int (rnd p) n o = (o', Ok tt) ->
  faithful (rnd p) o' /\ (Qabs (ul_val o' - (ul_val o + inject_Z n)) <= 3 * two_p (- p) * (Qabs (ul_val o) + Qabs (ul_val o')))%Q.
Proof.
  intros Hp. destruct o as [[[[u k] c] d] x v]. intros [D V] HF. cbn [ul_params ul_const ul_val] in *.
  change (ulcd_assign (rnd p) (mkUlcd (u, k, c, d) x v) (u, k, c + d * n, d) = (o', Ok tt)) in HF.
  apply assign_ok in HF as [D' ->]. cbn [ul_const] in *. split; [split; [exact D'|reflexivity]|]. cbn [ul_val]. rewrite V. unfold ulcd_rval.
  destruct D as (_ & _ & DD). assert (ND : ~ (inject_Z d == 0)%Q) by now rewrite injZ0.
  set (S := rnd p (rnd p (inject_Z u / x) + rnd p (x / inject_Z k))%Q). clearbody S.
  assert (U : (0 <= two_p (- p) <= 1 # 16)%Q).
  { pose proof (two_p_pos (- p)). split; [lra|]. change (1 # 16)%Q with (two_p (-4)). apply two_p_le. lia. }
  assert (G : forall X, (Qabs (rnd p (rnd p X / inject_Z d) - X / inject_Z d) <= 3 * two_p (- p) * Qabs (rnd p (rnd p X / inject_Z d)))%Q).
  { intros X. apply (two_steps _ (rnd p X / inject_Z d)); [exact U| |apply rnd_err].
    setoid_replace (rnd p X / inject_Z d - X / inject_Z d)%Q with ((rnd p X - X) * / inject_Z d)%Q by (field; exact ND).
    unfold Qdiv. rewrite !Qabs_Qmult. pose proof (rnd_err p X). pose proof (Qabs_nonneg (/ inject_Z d)). 
    rewrite Qmult_assoc. apply Qmult_le_compat_r; assumption. }
  pose proof (G (S + inject_Z c)%Q) as G1. pose proof (G (S + inject_Z (c + d * n))%Q) as G2.
  match goal with |- (Qabs (?a - (?b + _)) <= _)%Q => set (l' := a) in *; set (l := b) in * end. clearbody l l'.
  setoid_replace (l' - (l + inject_Z n))%Q with ((l' - (S + inject_Z (c + d * n)) / inject_Z d) + - (l - (S + inject_Z c) / inject_Z d))%Q.
  2: { rewrite inject_Z_plus, inject_Z_mult. field. exact ND. }
  eapply Qle_trans; [apply Qabs_triangle|]. rewrite Qabs_opp. lra.
Qed.

(** A click that is kept: the fractional parts of the two sides agree to within 10^-a, or both are below 10^-6; so the right-hand side and the
    adjusted left-hand side, which is computed anew, are that close or almost 1 apart - up to the rounding. *)
Theorem C136_kept : forall p eng funcs ev a c c' r, 4 <= p -> 0 <= a -> decimal_texts eng -> faithful (rnd p) (ck_obj c) ->
  kept (rnd p) eng (ulcd_class (rnd p)) funcs true ev a c c' -> rhs_of funcs ev a c (Ok (Fin r)) -> (rnd p r == r)%Q ->
  let l := ul_val (ck_obj c) in let l' := ul_val (ck_obj c') in let err := (3 * two_p (- p) * (Qabs l + Qabs l'))%Q in
  faithful (rnd p) (ck_obj c') /\
  (Qabs (frac (Qabs r) - frac (Qabs l)) < ten_p (- a) \/ (frac (Qabs r) < ten_p (-6) /\ frac (Qabs l) < ten_p (-6)))%Q /\
  (Qabs (r - l') <= tolerance a + err \/ 1 - (tolerance a + err) <= Qabs (r - l'))%Q /\
  (Qabs (r - l') <= 1 + two_p (- p) * (Qabs r + Qabs l) + err)%Q.
Proof.
  intros p eng funcs ev a c c' r Hp Ha HE HG HK HR RR l l' err.
  destruct HK as (r0 & l0 & n & o1 & o2 & o3 & HR' & NZ & HL & (k1 & k2 & s1 & s2 & K1 & K2 & T1 & T2 & TT) & HF & HAd & HC & ->).
  pose proof (rhs_fun _ _ _ _ _ _ HR HR') as ER. inversion ER; subst r0. clear ER HR'. cbn [lc_val ulcd_class] in HL. inversion HL; subst l0. clear HL.
  cbn [lc_canon lc_add lc_flip ulcd_class] in HC, HAd, HF. inversion HC; subst o3. clear HC.
  pose proof (faithful_rounded p _ ltac:(lia) HG) as RL. fold l in RL, HF, K2.
  assert (CL : (Qabs (frac (Qabs r) - frac (Qabs l)) < ten_p (- a) \/ (frac (Qabs r) < ten_p (-6) /\ frac (Qabs l) < ten_p (-6)))%Q).
  { inversion K1; subst k1. inversion K2; subst k2. inversion T1 as [q1 t1 E1 Q1 S1|]; subst. inversion T2 as [q2 t2 E2 Q2 S2|]; subst.
    destruct (HE _ _ E1) as (d1 & N1 & -> & V1). destruct (HE _ _ E2) as (d2 & N2 & -> & V2).
    assert (RA : forall q, (rnd p q == q)%Q -> (rnd p (frac (Qabs q)) == frac (Qabs q))%Q).
    { intros q Hq. apply rnd_frac; [apply Qabs_nonneg|]. destruct (Qlt_le_dec q 0) as [L|L].
      - rewrite (rnd_Qeq p _ _ (Qabs_neg q (Qlt_le_weak _ _ L))), rnd_opp, Hq. symmetry. apply Qabs_neg. now apply Qlt_le_weak.
      - rewrite (rnd_Qeq p _ _ (Qabs_pos q L)), Hq. symmetry. now apply Qabs_pos. }
    rewrite (RA r RR) in V1. rewrite (RA l RL) in V2. pose proof (frac_bounds (Qabs r)). pose proof (frac_bounds (Qabs l)).
    destruct (C136_numerals a d1 d2 Ha N1 N2) as [C|C]; [rewrite V1; assumption|rewrite V2; assumption|exact TT| |].
    - left. now rewrite V1, V2 in C.
    - right. now rewrite V1, V2 in C. }
  assert (TOL : (Qabs (frac (Qabs r) - frac (Qabs l)) <= tolerance a)%Q).
  { unfold tolerance. destruct CL as [C|[C1 C2]].
    - eapply Qle_trans; [apply Qlt_le_weak; exact C|]. apply ten_p_mono. lia.
    - pose proof (frac_bounds (Qabs r)). pose proof (frac_bounds (Qabs l)). pose proof (ten_p_mono (-6) (- Z.min a 6) ltac:(lia)).
      apply Qabs_Qle_condition. lra. }
  assert (exists l1, ul_val o1 = l1 /\ faithful (rnd p) o1 /\ (0 <= r * l1)%Q /\ (Qabs l1 == Qabs l)%Q /\ whole (rnd p (r - l1)) n) as (l1 & EL1 & F1 & SG & AB & WH).
  { destruct HF as [(NEG & FL & W)|(POS & -> & W)].
    - destruct (flip_rounded p _ _ HG FL) as [F1 EV]. exists (- l)%Q. split; [exact EV|]. split; [exact F1|]. split; [nra|]. split; [apply Qabs_opp|exact W].
    - exists l. split; [reflexivity|]. split; [exact HG|]. split; [exact POS|]. split; [reflexivity|exact W]. }
  destruct (add_rounded p o1 o2 n Hp F1 HAd) as [F2 ERR]. rewrite EL1 in ERR. cbn [ck_obj fst snd] in l', err |- *. change (ul_val o2) with l' in ERR.
  split; [exact F2|]. split; [exact CL|].
  assert (EB : (Qabs (l' - (l1 + inject_Z n)) <= err)%Q) by (unfold err; rewrite <- AB; exact ERR).
  assert (ED : (r - l' == (r - l1 - inject_Z n) - (l' - (l1 + inject_Z n)))%Q) by ring.
  clearbody l' err. clear ERR.
  assert (TR : forall x y : Q, (Qabs (x - y) <= Qabs x + Qabs y)%Q) by (intros x y; unfold Qminus; eapply Qle_trans; [apply Qabs_triangle|]; rewrite Qabs_opp; lra).
  assert (TR2 : forall x y : Q, (Qabs x - Qabs y <= Qabs (x - y))%Q) by (intros; apply Qabs_triangle_reverse).
  split.
  - assert (TOL1 : (Qabs (frac (Qabs r) - frac (Qabs l1)) <= tolerance a)%Q) by (rewrite (frac_comp _ _ AB); exact TOL).
    rewrite ED. destruct (near_any r l1 (tolerance a) n SG TOL1) as [N|N]; [left|right].
    + eapply Qle_trans; [apply TR|]. lra.
    + eapply Qle_trans; [|apply TR2]. lra.
  - rewrite ED. eapply Qle_trans; [apply TR|].
    assert (W1 : (Qabs (rnd p (r - l1) - inject_Z n) <= 1)%Q).
    { apply Qabs_Qle_condition. destruct WH as [P N]. destruct (Qlt_le_dec (rnd p (r - l1)) 0) as [L|L]; [specialize (N (Qlt_le_weak _ _ L))|specialize (P L)]; lra. }
    assert (W2 : (Qabs (r - l1 - inject_Z n) <= 1 + two_p (- p) * (Qabs r + Qabs l))%Q).
    { setoid_replace (r - l1 - inject_Z n)%Q with ((rnd p (r - l1) - inject_Z n) - (rnd p (r - l1) - (r - l1)))%Q by ring.
      eapply Qle_trans; [apply TR|]. pose proof (rnd_err p (r - l1)) as RE. pose proof (TR r l1) as T3. rewrite AB in T3. pose proof (two_p_pos (- p)). nra. }
    lra.
Qed.

(** The right-hand sides of the search are rounded. *)
Lemma ev_rounded p req acc target n ab a info y : 1 <= p -> ev_conv (rnd p) req acc target n ab a info = Ok (Fin y) -> (rnd p y == y)%Q.
Proof.
  intros Hp. unfold ev_conv. destruct (cf_new _ _ _ _ _ _ _) as [c|e] eqn:E; cbn [bind]; [|discriminate].
  set (c1 := match info with Some (t, q) => set_approach c t q | None => c end).
  assert (G0 : forall m c2, cf_gen0 (rnd p) m true c1 = (c2, Ok tt) -> cf_result c2 = Fin y -> (rnd p y == y)%Q).
  { intros m c2 G R.
    assert (exists c3, cf_gen0 (rnd p) m true c = (c3, Ok tt) /\ cf_result c3 = cf_result c2) as (c3 & G3 & R3).
    { unfold c1 in G. destruct info as [[t q]|]; [|eauto]. rewrite Enum_Proofs2.gen0_approach in G.
      destruct (cf_gen0 (rnd p) m true c) as [c3 x]. cbn [fst snd] in G. injection G as <- ->. exists c3. split; reflexivity. }
    destruct (gen_state (rnd p) (fst ab) (snd ab) true false target c c m true c3 E (same_static_refl c) G3) as (_ & _ & _ & V).
    specialize (V eq_refl (or_introl eq_refl)). rewrite R3, R in V. unfold pq_value in V. destruct (Qeq_bool _ _); [discriminate|]. injection V as ->.
    unfold rdiv. now apply rnd_idem. }
  destruct (cf_gen (rnd p) req n (acc a) true c1) as [c2 [[]|e]] eqn:G; [|discriminate]. intros [= R].
  unfold cf_gen in G. destruct (cf_aparams c1) as [|b0 c0|b0 c0 d0].
  - eapply G0; eauto.
  - destruct (_ && _); [|eapply G0; eauto]. destruct (req _ _); [|discriminate]. eapply G0; eauto.
  - destruct (_ && _); [discriminate|]. eapply G0; eauto.
Qed.
Lemma funcs_rounded p sq f x y : 1 <= p -> (forall q, (rnd p (sq q) == sq q)%Q) -> (forall q, x = Fin q -> (rnd p q == q)%Q) ->
  In f (EVALUATED_POSTPROC_FUNCS (mpf_ops (rnd p) sq)) -> f x = Ok (Fin y) -> (rnd p y == y)%Q.
Proof.
  intros Hp HQ HX H. unfold EVALUATED_POSTPROC_FUNCS in H. apply in_map_iff in H as (t & <- & _). unfold eval_func. destruct (py_eval t) as [e|]; [|discriminate].
  revert y. induction e as [|n|m|g e IH]; intros y; cbn [eval_pexpr].
  - intros [= E]. now apply HX.
  - destruct x as [q|]; [|discriminate]. cbn [no_pow mpf_ops]. intros [= <-]. now apply rnd_idem.
  - destruct (text_eqb m (txt "sqrt")); [|discriminate]. destruct x as [q|]; [|discriminate]. cbn [no_sqrt mpf_ops]. intros [= <-]. apply HQ.
  - destruct (eval_pexpr _ e x) as [[z|]|]; cbn [bind]; [| |discriminate]; unfold call_global, safe_inverse, safe_sqrt;
      (destruct (text_eqb g (txt "safe_inverse")); [discriminate|]); (destruct (text_eqb g (txt "safe_sqrt")); [|discriminate]); cbn [no_neg mpf_ops bind].
    + destruct (Qlt_le_dec z 0); [discriminate|]. cbn [no_sqrt mpf_ops]. intros [= <-]. apply HQ.
    + discriminate.
Qed.
Lemma kept_faithful p eng funcs trunc ev a c c' : 4 <= p -> faithful (rnd p) (ck_obj c) -> kept (rnd p) eng (ulcd_class (rnd p)) funcs trunc ev a c c' ->
  faithful (rnd p) (ck_obj c') /\ ck_ab c' = ck_ab c /\ ck_ind c' = ck_ind c /\ ck_conv c' = ck_conv c.
Proof.
  intros Hp HG (r & l & n & o1 & o2 & o3 & _ & _ & _ & _ & HF & HA & HC & ->). cbn [lc_canon lc_add lc_flip ulcd_class] in *. inversion HC; subst o3.
  split; [|repeat split]. cbn [ck_obj fst snd]. assert (F1 : faithful (rnd p) o1).
  { destruct HF as [(_ & FL & _)|(_ & -> & _)]; [|exact HG]. exact (proj1 (flip_rounded p _ _ HG FL)). }
  exact (proj1 (add_rounded p _ _ _ Hp F1 HA)).
Qed.
Lemma py_nth_In {A} (l : list A) i x : py_nth l i = Ok x -> In x l.
Proof. unfold py_nth. destruct (_ || _); [discriminate|]. destruct (nth_error _ _) eqn:E; [|discriminate]. intros H. injection H as ->. eapply nth_error_In; eauto. Qed.
(** Every reported row of a whole search: the value of its post-processed fraction, computed for the last comparison, and the left-hand side of the
    row agree to 10^-a3, but not more than to 10^-6, or are almost 1 apart - up to the rounding. *)
Theorem C136_reported : forall p sq eng req acc target n1 n2 n3 a1 a2 a3 est roots c c', 4 <= p -> 0 <= a3 -> decimal_texts eng ->
  (forall q, (rnd p (sq q) == sq q)%Q) -> faithful (rnd p) (ck_obj c) ->
  let rd := rnd p in let funcs := EVALUATED_POSTPROC_FUNCS (mpf_ops rd sq) in let ev k := ev_conv rd req acc target k in
  reported rd eng (ulcd_class rd) funcs true (ev_const rd n1) (ev n2) (ev n3) a1 a2 a3 target est roots c c' ->
  exists d r, pass2 rd eng (ulcd_class rd) funcs true (ev_const rd n1) (ev n2) a1 a2 target est c d /\
    ck_ab c' = ck_ab c /\ ck_ind c' = ck_ind c /\ rhs_of funcs (ev n3) a3 c' (Ok (Fin r)) /\
    let l := ul_val (ck_obj d) in let l' := ul_val (ck_obj c') in let err := (3 * two_p (- p) * (Qabs l + Qabs l'))%Q in
    (Qabs (r - l') <= tolerance a3 + err \/ 1 - (tolerance a3 + err) <= Qabs (r - l') <= 1 + two_p (- p) * (Qabs r + Qabs l) + err)%Q.
Proof.
  intros p sq eng req acc target n1 n2 n3 a1 a2 a3 est roots c c' Hp Ha HE HQ HG rd funcs ev [(d & P2 & K3) _].
  pose proof P2 as (b & e & P1 & FA & K2).
  destruct (kept_faithful p _ _ _ _ _ _ _ Hp HG P1) as (G1 & B1 & I1 & _).
  destruct FA as (cf & t & q & _ & _ & _ & _ & ->).
  destruct (kept_faithful p _ _ _ _ _ _ _ Hp (G1 : faithful (rnd p) (ck_obj (with_conv b (t, q)))) K2) as (G2 & B2 & I2 & _).
  destruct (kept_faithful p _ _ _ _ _ _ _ Hp G2 K3) as (_ & B3 & I3 & V3).
  assert (exists r, rhs_of funcs (ev n3) a3 d (Ok (Fin r))) as (r & HR) by (destruct K3 as (r & l & n & o1 & o2 & o3 & HR & _); eauto).
  assert (RR : (rnd p r == r)%Q).
  { destruct HR as (f & NF & [(x & _ & X)|(v & EV & EF)]); [discriminate|]. symmetry in EF.
    eapply (funcs_rounded p sq f v); [lia|exact HQ| |eapply py_nth_In; exact NF|exact EF].
    intros z ->. eapply ev_rounded; [|exact EV]. lia. }
  exists d, r. split; [exact P2|]. split; [rewrite B3, B2; exact B1|]. split; [rewrite I3, I2; exact I1|]. split.
  { destruct HR as (f & NF & HR). exists f. rewrite B3, I3, V3. auto. }
  destruct (C136_kept p eng funcs (ev n3) a3 d c' r Hp Ha HE G2 K3 HR RR) as (_ & _ & [C|C] & U); [left; exact C|right; split; assumption].
Qed.

Lemma selects_from {A B} (keep : A -> B -> Prop) drop l r : selects keep drop l r -> forall y, In y r -> exists x, In x l /\ keep x y.
Proof.
  induction 1 as [|x y l r K S IH|x l r D S IH]; intros z I; [destruct I| |].
  - destruct I as [<-|I]; [exists x; cbn; auto|]. destruct (IH z I) as (w & A1 & B1). exists w. cbn. auto.
  - destruct (IH z I) as (w & A1 & B1). exists w. cbn. auto.
Qed.
(** So every row in the file of a whole run that searches a table of fractional parts for the values of a left-hand side of the ULCD kind. *)
Theorem C136_run : forall v c w w' p s b, run_with v c import_ctx w = (w', Some (Ok tt)) -> operation c "use" -> ~ table_only c ->
  table_path c p -> table_at w p = Some s -> table_ok (mi_table (unpickle s)) -> sv_gen s = CPlain b ->
  c_get c "lhs_type" = CLhs (txt "ulcd") -> v_irq v = None ->
  (forall q, calm (v_eng v q)) -> (forall q p, calm (v_req v q p)) ->
  (forall b re im, In (re, im) (v_roots v b) -> (ULCD_Model.fl re == re)%Q) ->
  let prec := mp_prec import_ctx in let rd := rnd prec in
  decimal_texts (v_eng v) -> (forall q, (rd (v_sq v q) == v_sq v q)%Q) -> mi_trunc (sv_mitm s) = true ->
  let funcs := EVALUATED_POSTPROC_FUNCS (mpf_ops rd (v_sq v)) in
  exists n3 a3 (cs : list (click ulcd)) rows,
    c_get c "third_filtering_max_num_of_iterations" = CInt n3 /\ c_get c "third_filtering_precision" = CInt a3 /\
    file_at w' (dir_of (v_t2 v) ++ txt "/results.csv") = Some (OCsv (mi_name (sv_mitm s), rows)) /\
    Forall2 (fun ck row => cr_ab row = ck_ab ck /\ cr_func row = ck_ind ck /\ engv (v_eng v) (Fin (ul_val (ck_obj ck))) = Ok (cr_val row) /\
      (0 <= a3 -> exists r l, rhs_of funcs (ev_conv rd (v_req v) (v_acc10 v) (v_target v) n3) a3 ck (Ok (Fin r)) /\
        let l' := ul_val (ck_obj ck) in let err := (3 * two_p (- prec) * (Qabs l + Qabs l'))%Q in
        (Qabs (r - l') <= tolerance a3 + err \/ 1 - (tolerance a3 + err) <= Qabs (r - l') <= 1 + two_p (- prec) * (Qabs r + Qabs l) + err)%Q)) cs rows.
Proof.
  intros v c w w' p s b H OU NT TP TA TOK GB LT NI CE CR RF prec rd HE HQ HT funcs.
  destruct (C122_run v c w w' p s b H OU NT TP TA TOK GB LT NI CE CR RF) as
    (y & rs & n1 & a1 & n2 & a2 & n3 & a3 & os & css & cs & rows & es & _ & _ & _ & _ & I5 & I6 & _ & _ & _ & CL & SEL & _ & FC & ROWS & _).
  exists n3, a3, cs, rows. split; [exact I5|]. split; [exact I6|]. split; [exact FC|].
  assert (FA : forall ck, In ck (List.concat css) -> faithful rd (ck_obj ck)).
  { clear - CL. induction CL as [|o l os css C _ IH]; intros ck I; [destruct I|]. cbn [List.concat] in I. apply in_app_iff in I as [I|I]; [|now apply IH].
    destruct C as [k s0 _ _ _|k s0 v0 o1 _ _ _ _|k s0 l0 o1 cs0 _ _ _ _ F2]; [destruct I|destruct I|].
    clear - F2 I. induction F2 as [|x c0 l1 cs1 CF _ IH]; [destruct I|]. destruct I as [<-|I]; [|now apply IH].
    destruct CF as (ab & i & o' & _ & CP & ->). cbn [ck_obj fst snd]. cbn [lc_copy ulcd_class] in CP. unfold ulcd_copy, ulcd_new in CP.
    destruct (ulcd_calc _ _ _) as [q|e] eqn:E; [|discriminate]. injection CP as <-. apply ulcd_calc_ok in E as [D ->]. split; [exact D|reflexivity]. }
  pose proof (selects_from _ _ _ _ SEL) as FROM. clear SEL CL. rewrite HT in FROM.
  clear - ROWS FROM FA HE HQ. revert FROM. induction ROWS as [|ck row cs rows R _ IH]; intros FROM; constructor.
  - destruct R as (R1 & R2 & _ & _ & R5 & _). split; [exact R1|]. split; [exact R2|]. split; [exact R5|]. intros Ha.
    destruct (FROM ck (or_introl eq_refl)) as (ck0 & I0 & REP).
    assert (P4 : 4 <= prec) by (vm_compute; discriminate).
    destruct (C136_reported prec (v_sq v) (v_eng v) (v_req v) (v_acc10 v) (v_target v) n1 n2 n3 a1 a2 a3 (v_est v) (v_roots v) ck0 ck P4 Ha HE HQ (FA _ I0) REP)
      as (d & r & _ & _ & _ & HR & C). exists r, (ul_val (ck_obj d)). split; [exact HR|exact C].
  - apply IH. intros ck' I. apply FROM. now right.
Qed.

(** The second case of C136_numerals does occur: for every number of digits there are Decimals with the same first a+2 characters that are
    farther apart than 10^-10, however many digits were asked for. *)
Theorem C136_small_refuted : forall a, 0 <= a -> exists d1 d2, dec_normal d1 /\ dec_normal d2 /\ (0 < dec_value d1 < 1)%Q /\ (0 < dec_value d2 < 1)%Q /\
  py_take (a + 2) (dec_eng d1) = py_take (a + 2) (dec_eng d2) /\ (ten_p (-10) < dec_value d1 - dec_value d2)%Q.
Proof.
  intros a Ha. set (k := Z.to_nat a). set (ones := fun n => repeat 1%nat n).
  assert (N : forall e, dec_normal (mkDec false (1%nat :: ones (S k)) e)).
  { intros e. split; [split; [discriminate|constructor; [lia|apply repeat_Forall; lia]]|]. right. cbn. lia. }
  assert (V : forall j, 0 <= j -> (dec_value (mkDec false (1%nat :: ones (S k)) (- (9 + j) - Z.of_nat (S k))) == (1 + fracv (ones (S k))) * ten_p (- (9 + j)))%Q).
  { intros j Hj. unfold dec_value. cbn [d_sign d_int d_exp]. 
    replace (- (9 + j) - Z.of_nat (S k)) with (- Z.of_nat (length (ones (S k))) + - (9 + j)) by (unfold ones; rewrite repeat_length; lia).
    rewrite ten_p_plus. pose proof (int_frac_digits [1%nat] (ones (S k))) as I. cbn [app] in I.
    change (inject_Z (Spec_Hashtable.digits_val [1%nat])) with 1%Q in I. rewrite <- I. ring. }
  assert (F : (0 <= fracv (ones (S k)) < 1)%Q) by (apply fracv_bounds, repeat_Forall; lia).
  assert (T : forall j, 0 <= j -> j mod 3 = 0 -> exists r, dec_eng (mkDec false (1%nat :: ones (S k)) (- (9 + j) - Z.of_nat (S k))) =
             "1"%char :: "."%char :: map digit_char (ones (S k)) ++ r).
  { intros j Hj HM. unfold dec_eng. cbn [d_sign d_int d_exp map length]. assert (LO : length (ones (S k)) = S k) by apply repeat_length. rewrite map_length, LO.
    replace (- (9 + j) - Z.of_nat (S k) + Z.of_nat (S (S k))) with (- (8 + j)) by lia.
    rewrite (proj2 (Z.ltb_ge (-6) (- (8 + j)))) by lia. rewrite andb_false_r.
    assert (X : text_eqb (digit_char 1 :: map digit_char (ones (S k))) (txt "0") = false) by reflexivity. rewrite X.
    replace ((- (8 + j) - 1) mod 3 + 1) with 1.
    2: { replace (- (8 + j) - 1) with (0 + (- (j / 3) - 3) * 3) by (pose proof (Z.div_mod j 3); lia). rewrite Z_mod_plus_full. reflexivity. }
    change (1 <=? 0) with false. rewrite (proj2 (Z.leb_gt (Z.of_nat (S (S k))) 1)) by lia. cbv iota. change (Z.to_nat 1) with 1%nat. cbn [firstn skipn app txt list_ascii_of_string].
    eexists. reflexivity. }
  destruct (T 0 ltac:(lia) eq_refl) as (r1 & T1). destruct (T 3 ltac:(lia) eq_refl) as (r2 & T2).
  pose proof (V 0 ltac:(lia)) as V1. pose proof (V 3 ltac:(lia)) as V2.
  exists (mkDec false (1%nat :: ones (S k)) (- (9 + 0) - Z.of_nat (S k))), (mkDec false (1%nat :: ones (S k)) (- (9 + 3) - Z.of_nat (S k))).
  split; [apply N|]. split; [apply N|].
  change (ten_p (- (9 + 0))) with (1 # 1000000000)%Q in V1. change (ten_p (- (9 + 3))) with (1 # 1000000000000)%Q in V2.
  split; [rewrite V1; lra|]. split; [rewrite V2; lra|]. split.
  - rewrite T1, T2. unfold py_take. rewrite (proj2 (Z.leb_le 0 (a + 2))) by lia.
    replace (Z.to_nat (a + 2)) with (S (S k)) by (unfold k; lia). cbn [firstn]. do 2 f_equal.
    rewrite !firstn_app, !map_length. unfold ones. rewrite repeat_length. replace (k - S k)%nat with 0%nat by lia. reflexivity.
  - rewrite V1, V2. change (ten_p (-10)) with (1 # 10000000000)%Q. lra.
Qed.

(** And the converse is false at every number of digits: numbers below 1 as close as one likes, whose texts differ in the first a+2 characters. *)
Theorem C136_close_refuted : forall a eps, 1 <= a -> (0 < eps)%Q -> exists d1 d2, dec_normal d1 /\ dec_normal d2 /\ (0 < dec_value d1 < 1)%Q /\ (0 < dec_value d2 < 1)%Q /\
  (Qabs (dec_value d1 - dec_value d2) < eps)%Q /\ py_take (a + 2) (dec_eng d1) <> py_take (a + 2) (dec_eng d2).
Proof.
  intros a eps Ha He.
  assert (exists k, (ten_p (- Z.of_nat k) < eps)%Q) as (k & Hk).
  { destruct eps as [n d]. assert (0 < n) by (unfold Qlt in He; cbn in He; lia). exists (Pos.to_nat d). rewrite ten_p_neg0 by lia. rewrite positive_nat_Z.
    assert (B : Z.pos d < 10 ^ Z.pos d) by (apply Z.pow_gt_lin_r; lia). pose proof (pow10_pos (Z.pos d) ltac:(lia)) as P.
    setoid_replace (/ inject_Z (10 ^ Z.pos d))%Q with (1 / inject_Z (10 ^ Z.pos d))%Q by (unfold Qdiv; ring).
    apply Qlt_shift_div_r; [change 0%Q with (inject_Z 0); now rewrite <- Zlt_Qlt|].
    unfold Qlt, Qmult, inject_Z. cbn [Qnum Qden]. rewrite Z.mul_1_l, Pos.mul_1_r. nia. }
  set (nines := repeat 9%nat k).
  assert (FN : (fracv nines == 1 - ten_p (- Z.of_nat k))%Q).
  { unfold nines. clear. induction k as [|k IH]; [reflexivity|]. cbn [repeat fracv]. rewrite IH. change (inject_Z (Z.of_nat 9)) with 9%Q.
    replace (- Z.of_nat (S k)) with (- Z.of_nat k + -1) by lia. rewrite ten_p_plus. change (ten_p (-1)) with (1 # 10)%Q. field. }
  assert (TP : (0 < ten_p (- Z.of_nat k) <= 1)%Q) by (split; [apply ten_p_pos|change 1%Q with (ten_p 0); apply ten_p_mono; lia]).
  set (d2 := mkDec false (4%nat :: nines) (- Z.of_nat (S k))).
  assert (V2 : (dec_value d2 == (4 + fracv nines) / 10)%Q).
  { unfold dec_value, d2. cbn [d_sign d_int d_exp]. rewrite ten_p_neg0 by lia. pose proof (frac_digits (4%nat :: nines)) as D. cbn [length] in D.
    unfold nines at 2 in D. rewrite repeat_length in D. rewrite <- Qmult_assoc, D. cbn [fracv]. change (inject_Z (Z.of_nat 4)) with 4%Q. ring. }
  exists (mkDec false [5%nat] (-1)), d2. change (dec_value (mkDec false [5%nat] (-1))) with (5 # 10)%Q. rewrite V2, FN.
  split; [split; [split; [discriminate|constructor; [lia|constructor]]|right; cbn; lia]|].
  split; [split; [split; [discriminate|constructor; [lia|apply repeat_Forall; lia]]|right; cbn; lia]|].
  split; [split; reflexivity|]. split; [split; [apply Qlt_shift_div_l; lra|apply Qlt_shift_div_r; lra]|]. split.
  - setoid_replace ((5 # 10) - (4 + (1 - ten_p (- Z.of_nat k))) / 10)%Q with ((1 # 10) * ten_p (- Z.of_nat k))%Q by field.
    rewrite Qabs_pos by nra. lra.
  - assert (T : dec_eng d2 = "0"%char :: "."%char :: "4"%char :: map digit_char nines).
    { unfold dec_eng, d2. cbn [d_sign d_int d_exp map length]. assert (LO : length nines = k) by apply repeat_length. rewrite map_length, LO.
      replace (- Z.of_nat (S k) + Z.of_nat (S k)) with 0 by lia. rewrite (proj2 (Z.leb_le (- Z.of_nat (S k)) 0)) by lia. cbn. now rewrite app_nil_r. }
    rewrite T. change (dec_eng (mkDec false [5%nat] (-1))) with (txt "0.5"). unfold py_take. rewrite (proj2 (Z.leb_le 0 (a + 2))) by lia.
    assert (exists n, Z.to_nat (a + 2) = S (S (S n))) as (n & ->) by (exists (Z.to_nat (a - 1)); lia). cbn. discriminate.
Qed.

(** The exact text of a binary number, as Decimal gives it (for numbers whose digits the function finds). *)
Fixpoint digs (fuel : nat) (n : Z) (acc : list nat) : list nat :=
  match fuel with
  | O => acc
  | S f => if n <? 10 then Z.to_nat n :: acc else digs f (n / 10) (Z.to_nat (n mod 10) :: acc)
  end.
Definition normal_b (d : pydec) : bool :=
  negb (match d_int d with [] => true | _ => false end) && forallb (fun n => (n <? 10)%nat) (d_int d) &&
  (match d_int d with [0%nat] => true | _ => negb (hd 1%nat (d_int d) =? 0)%nat end).
Definition eng_bin (q : Q) : res text :=
  let q := Qred q in
  let k := Z.log2 (Z.pos (Qden q)) in
  let n := Z.abs (Qnum q) * 5 ^ k in
  let d := mkDec (Qnum q <? 0) (digs (Z.to_nat (Z.log2 n + 1)) n []) (- k) in
  if normal_b d && Qeq_bool (dec_value d) q then Ok (dec_eng d) else Raise ValueError.
Lemma eng_bin_decimal : decimal_texts eng_bin.
Proof.
  intros q s. unfold eng_bin. set (d := mkDec _ _ _). destruct (normal_b d && _) eqn:E; [|discriminate]. intros [= <-].
  apply andb_true_iff in E as [N V]. apply Qeq_bool_iff in V. rewrite Qred_correct in V. exists d. split; [|split; [reflexivity|exact V]].
  clearbody d. unfold normal_b in N. apply andb_true_iff in N as [N L]. apply andb_true_iff in N as [N F]. split; [split|].
  - intros Z0. now rewrite Z0 in N.
  - apply Forall_forall. intros x I. rewrite forallb_forall in F. apply Nat.ltb_lt. auto.
  - destruct (d_int d) as [|[|x] [|y r]]; cbn in *; auto; try discriminate.
Qed.
(** The search of C122_ex with these texts reports the same row. *)
Definition env_bin : env := {| v_pi := []; v_e := []; v_fsqrt := Enum_Roots.isqrt53; v_ibinom := Properties_MITM.ib_ex; v_masks := fun l => l;
  v_order := fun _ l => l; v_target := None; v_eng := eng_bin; v_kind := Rational_Model.KMpf; v_pgcd := fun _ _ => [1];
  v_sq := rd_ex; v_est := fun _ => Ok (ATExp, APPair (5 # 2) 1); v_req := fun _ _ => Ok 40; v_acc10 := fun _ => 1%Q;
  v_roots := fun _ => [(1 # 2, 0%Q)]; v_upar := fun _ => []; v_rpar := fun _ => [];
  v_irq := None; v_t1 := txt "171126_0800"; v_t2 := txt "171126_0800"; v_pdf := Ok tt |}.
Definition fs_bin : list (mpfv -> res mpfv) := EVALUATED_POSTPROC_FUNCS (mpf_ops rd_ex rd_ex).
Example C136_ex : decimal_texts eng_bin /\ (forall q, (rnd 60 (rd_ex q) == rd_ex q)%Q) /\ faithful (rnd 60) lhs_ex /\
  (exists c c', In c found_ex /\ reported rd_ex eng_bin (ulcd_class rd_ex) fs_bin true (ev_const rd_ex 10) (ev_conv rd_ex (v_req env_bin) (v_acc10 env_bin) None 11)
     (ev_conv rd_ex (v_req env_bin) (v_acc10 env_bin) None 13) 3 3 3 None (v_est env_bin) (v_roots env_bin) c c').
Proof.
  split; [exact eng_bin_decimal|]. split; [intros q; apply rnd_idem; lia|]. split; [split; [vm_compute; repeat split; intros H; discriminate H|vm_compute; reflexivity]|].
  assert (G : (let '(cs, b) := match stages_in env_bin rd_ex (ulcd_class rd_ex) fs_bin true true 10 3 11 3 found_ex with
               | (cs2, Ok _) => match last_in env_bin rd_ex (ulcd_class rd_ex) fs_bin true 13 3 cs2 with (cs, Ok _) => (cs, true) | _ => ([], false) end
               | _ => ([], false) end in (b, length cs)) = (true, 1%nat)) by (vm_compute; reflexivity).
  destruct (stages_in env_bin rd_ex (ulcd_class rd_ex) fs_bin true true 10 3 11 3 found_ex) as [cs2 [[]|e]] eqn:E1; [|discriminate].
  destruct (last_in env_bin rd_ex (ulcd_class rd_ex) fs_bin true 13 3 cs2) as [cs [[]|e]] eqn:E2; [|discriminate].
  injection G as G. destruct cs as [|c' [|? ?]]; [discriminate G| |discriminate G].
  destruct (C122_pipeline env_bin rd_ex fs_bin true true 10 3 11 3 13 3 found_ex cs2 [c'] eq_refl) as [SEL _]; try assumption.
  - intros q. unfold env_bin, v_eng, eng_bin. destruct (_ && _); intros H; discriminate H.
  - intros q p H. discriminate H.
  - intros f x. apply calm_funcs.
  - intros b re im [[= <- _]|[]]. vm_compute. reflexivity.
  - destruct (selects_from _ _ _ _ SEL c' (or_introl eq_refl)) as (c & I & R). exists c, c'. split; [exact I|exact R].
Qed.

Print Assumptions C136_numerals.
Print Assumptions C136_kept.
Print Assumptions C136_reported.
Print Assumptions C136_run.
Print Assumptions C136_small_refuted.
Print Assumptions C136_close_refuted.

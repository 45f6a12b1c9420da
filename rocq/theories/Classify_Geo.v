(** The classification of results that approach their limit geometrically, and of results with large factors. *)
From Coq Require Import ZArith QArith Qabs Qpower Qfield List Bool Lia Lqa.
From Verif Require Import PyBase PyBase_Proofs Rnd Rnd_Proofs ContFrac_Model Classify_Model Spec_Classify Classify_Proofs.
Import ListNotations.
Open Scope Z_scope.

Lemma abs_one t : (t * t == 1)%Q -> (Qabs t == 1)%Q.
Proof.
  intros H. pose proof (Qabs_nonneg t) as P. assert (E : (Qabs t * Qabs t == 1)%Q) by (rewrite <- Qabs_Qmult, H; reflexivity).
  assert (F : ((Qabs t - 1) * (Qabs t + 1) == 0)%Q) by (transitivity (Qabs t * Qabs t - 1)%Q; [ring|rewrite E; ring]).
  apply Qmult_integral in F. destruct F; lra.
Qed.

Lemma sign_power s n : (s * s == 1)%Q -> (Qabs (Qpower s n) == 1)%Q.
Proof. intros H. apply abs_one. rewrite <- Qmult_power, H. apply Qpower_1. Qed.

Lemma py_min_eq a b r : (a == r)%Q -> (b == r)%Q -> (py_min a b == r)%Q.
Proof. intros A B. unfold py_min. destruct (negb _); assumption. Qed.

Section Geo.
  Variable rd : Q -> Q.
  Hypothesis RD : exact rd.
  Variables (dps : Z) (msqrt flog : Q -> Q) (linregress : list Q -> list mpfv -> mpfv * mpfv * mpfv).
  Hypothesis SQ : sqrt_exact msqrt.
  Variable x : Z -> option Q.
  Variables L c s r : Q.
  Hypothesis C0 : ~ (c == 0)%Q.
  Hypothesis S1 : (s * s == 1)%Q.
  Hypothesis R1 : (exp_threshold < r * r)%Q.
  Hypothesis R0 : (0 < r)%Q.

  Definition w : Q := (1 - Qpower r (-2))%Q.
  Definition g (i : Z) : Q := (Qabs c * Qpower r (- i) * w)%Q.

  Lemma rr1 : (1 < r * r)%Q.
  Proof. pose proof thr_val. lra. Qed.
  Lemma r_ne : ~ (r == 0)%Q. Proof. lra. Qed.
  Lemma rm2 : (Qpower r (-2) * (r * r) == 1)%Q.
  Proof. change (Qpower r (-2)) with (/ (r * r))%Q. field. exact r_ne. Qed.
  Lemma w_pos : (0 < w)%Q.
  Proof. unfold w. pose proof rr1. pose proof rm2. assert (0 < Qpower r (-2))%Q by (apply Qpower_0_lt; exact R0). nra. Qed.
  Lemma sr2 : (Qpower (s * r) (-2) == Qpower r (-2))%Q.
  Proof. change (/ ((s * r) * (s * r)) == / (r * r))%Q. assert (E : ((s * r) * (s * r) == r * r)%Q) by (rewrite <- (Qmult_1_l (r * r)), <- S1; ring). now rewrite E. Qed.
  Lemma sr_ne : ~ (s * r == 0)%Q.
  Proof. intros H. apply Qmult_integral in H. destruct H as [H|H]; [rewrite H in S1; discriminate S1|exact (r_ne H)]. Qed.
  Lemma g_pos i : (0 < g i)%Q.
  Proof.
    unfold g. apply Qmult_lt_0_compat; [apply Qmult_lt_0_compat|exact w_pos].
    - apply Qnot_le_lt. intros K. apply C0. apply Qabs_Qle_condition in K. lra.
    - apply Qpower_0_lt. exact R0.
  Qed.
  Lemma g_next i : (g (i + 2) * (r * r) == g i)%Q.
  Proof.
    unfold g. replace (- (i + 2)) with (- i + -2) by lia. rewrite (Qpower_plus _ _ _ r_ne).
    transitivity (Qabs c * Qpower r (- i) * w * (Qpower r (-2) * (r * r)))%Q; [ring|]. rewrite rm2. ring.
  Qed.

  Definition at_ok (i : Z) : Prop :=
    exists u v, x i = Some u /\ x (i + 2) = Some v /\ (u == L + c * Qpower (s * r) (- i))%Q /\ (v == L + c * Qpower (s * r) (- (i + 2)))%Q.

  Lemma gap_geo i : at_ok i -> exists d, gap x i = Some d /\ (d == g i)%Q.
  Proof.
    intros (u & v & E1 & E2 & U & V). unfold gap. rewrite E1, E2. eexists. split; [reflexivity|].
    assert (D : (v - u == - (c * Qpower (s * r) (- i) * w))%Q).
    { rewrite U, V. replace (- (i + 2)) with (- i + -2) by lia. rewrite (Qpower_plus _ _ _ sr_ne), sr2. unfold w. ring. }
    rewrite D, Qabs_opp, !Qabs_Qmult, (Qmult_power s r), Qabs_Qmult, (sign_power s _ S1).
    rewrite (Qabs_pos (Qpower r (- i))) by (apply Qpower_0_le; lra). rewrite (Qabs_pos w) by (pose proof w_pos; lra).
    unfold g. ring.
  Qed.

  Lemma shrink_geo i : at_ok i -> at_ok (i + 2) -> exists q, shrink x i = Some q /\ (q == r * r)%Q.
  Proof.
    intros A B. destruct (gap_geo i A) as (d & E1 & D). destruct (gap_geo _ B) as (e & E2 & E).
    unfold shrink. rewrite E1, E2. pose proof (g_pos i). pose proof (g_pos (i + 2)).
    destruct (Qeq_bool d 0) eqn:B1; [apply Qeq_bool_iff in B1; lra|].
    destruct (Qeq_bool e 0) eqn:B2; [apply Qeq_bool_iff in B2; lra|].
    eexists. split; [reflexivity|]. rewrite D, E, <- (g_next i). field. lra.
  Qed.

  Variable idx : list Z.
  Hypothesis G : geometric x L c s r idx.

  Lemma ok_at i k : In i idx -> 0 <= k <= 3 -> at_ok (i + k).
  Proof.
    intros I K. destruct (G i k I ltac:(lia)) as (u & E1 & U). destruct (G i (k + 2) I ltac:(lia)) as (v & E2 & V).
    exists u, v. replace (i + k + 2) with (i + (k + 2)) by lia. auto.
  Qed.

  Lemma shrinks (f : Z -> Z) (k : Z) l : (forall i, f i = i + k) -> 0 <= k <= 1 -> incl l idx ->
    length (somes (map (fun i => shrink x (f i)) l)) = length l /\ Forall (fun q => (q == r * r)%Q) (somes (map (fun i => shrink x (f i)) l)).
  Proof.
    intros FK K. induction l as [|i l IH]; intros I; [split; [reflexivity|constructor]|].
    assert (Ii : In i idx) by (apply I; now left).
    destruct (shrink_geo (i + k)) as (q & E & V); [apply ok_at; [exact Ii|lia]|replace (i + k + 2) with (i + (k + 2)) by lia; apply ok_at; [exact Ii|lia]|].
    destruct IH as [IH1 IH2]; [intros j J; apply I; now right|].
    cbn [map]. rewrite FK, E. cbn [somes length]. split; [congruence|constructor; assumption].
  Qed.
  Lemma evens_geo : length (evens_at x idx) = length idx /\ Forall (fun q => (q == r * r)%Q) (evens_at x idx).
  Proof.
    destruct (shrinks (fun i => i) 0 idx) as [A B]; [intros; lia|lia|apply incl_refl|]. split; assumption.
  Qed.
  Lemma odds_geo : length (odds_at x idx) = length idx /\ Forall (fun q => (q == r * r)%Q) (odds_at x idx).
  Proof. apply (shrinks (fun i => i + 1) 1 idx); [reflexivity|lia|apply incl_refl]. Qed.

  (** the differences themselves *)
  Definition tagged (ds : list (Z * mpfv)) : Prop := Forall (fun p => exists q, snd p = Fin q /\ (q == g (fst p))%Q) ds.

  Lemma tag_delta i k : In i idx -> 0 <= k <= 3 -> exists q, delta rd (mv (x (i + (k + 2)))) (mv (x (i + k))) = Fin q /\ (q == g (i + k))%Q.
  Proof.
    intros I K. destruct (gap_geo (i + k)) as (d & E & D); [apply ok_at; assumption|].
    pose proof (delta_gap rd RD x (i + k)) as M. rewrite E in M. inversion M as [p q Q E1 E2|]. subst.
    exists p. split; [|lra]. replace (i + (k + 2)) with (i + k + 2) by lia. congruence.
  Qed.

  Lemma pair_tagged : tagged (delta_pair rd (samples x idx)).
  Proof.
    unfold tagged, delta_pair, samples. apply Forall_forall. intros p I. apply in_flat_map in I. destruct I as (sa & I1 & I2).
    apply in_map_iff in I1. destruct I1 as (i & <- & I1). cbn [pair_of_sample six map nth] in I2.
    destruct I2 as [<-|[<-|[]]]; cbn [fst snd].
    - destruct (tag_delta i 0 I1 ltac:(lia)) as (q & E & V). exists q. split; [exact E|]. now rewrite Z.add_0_r in V.
    - exact (tag_delta i 2 I1 ltac:(lia)).
  Qed.
  Lemma odd_tagged : tagged (delta_odd rd (samples x idx)).
  Proof.
    unfold tagged, delta_odd, samples. apply Forall_forall. intros p I. apply in_flat_map in I. destruct I as (sa & I1 & I2).
    apply in_map_iff in I1. destruct I1 as (i & <- & I1). cbn [odd_of_sample six map nth] in I2.
    destruct I2 as [<-|[<-|[]]]; cbn [fst snd].
    - exact (tag_delta i 1 I1 ltac:(lia)).
    - exact (tag_delta i 3 I1 ltac:(lia)).
  Qed.

  Lemma coeff_geo b i d : (b == r)%Q -> (d == g i)%Q -> exists q, coeff_of rd b i d = Ok q /\ (q == Qabs c)%Q.
  Proof.
    intros B D. unfold coeff_of.
    assert (V2 : (rsub rd 1 (rd (Qpower b (-2))) == w)%Q).
    { unfold rsub. rewrite (RD (1 - rd (Qpower b (-2)))%Q). rewrite (RD (Qpower b (-2))). now rewrite B. }
    destruct (mdiv_ok rd RD (rmul rd d (rd (Qpower b i))) (rsub rd 1 (rd (Qpower b (-2))))) as (q & E & V); [rewrite V2; pose proof w_pos; lra|].
    rewrite E. cbn [bind]. eexists. split; [reflexivity|]. rewrite V, V2. unfold rmul. rewrite (RD (d * rd (Qpower b i))%Q), (RD (Qpower b i)), B, D.
    assert (X : (g i * Qpower r i / w == Qabs c)%Q).
    { unfold g. rewrite Qpower_opp. pose proof w_pos. assert (0 < Qpower r i)%Q by (apply Qpower_0_lt; exact R0). field. split; lra. }
    rewrite X. apply Qabs_pos, Qabs_nonneg.
  Qed.

  Lemma mean_coeff_geo b ds : (b == r)%Q -> tagged ds -> ds <> [] -> exists q, mean_coeff rd b ds = Ok q /\ (q == Qabs c)%Q.
  Proof.
    intros B T N. unfold mean_coeff.
    assert (M : exists l, mapM (fun p => coeff_of rd b (fst p) (snd p))
                (flat_map (fun p => match usable (snd p) with Some q => [(fst p, q)] | None => [] end) ds) = Ok l /\
                length l = length ds /\ Forall (fun q => (q == Qabs c)%Q) l).
    { clear N. induction T as [|[i d] ds (q & E & V) T IH]; [exists []; repeat split; constructor|].
      cbn [fst snd] in *. subst d. cbn [flat_map snd fst usable].
      destruct (Qeq_bool q 0) eqn:Z; [apply Qeq_bool_iff in Z; pose proof (g_pos i); lra|].
      destruct IH as (l & E & LL & F). destruct (coeff_geo b i q B V) as (k & EK & VK).
      exists (k :: l). cbn [app mapM fst snd]. rewrite EK. cbn [bind]. rewrite E. cbn [bind length]. split; [reflexivity|].
      split; [congruence|constructor; assumption]. }
    destruct M as (l & -> & LL & F). cbn [bind].
    assert (NL : l <> []) by (intros ->; symmetry in LL; apply length_zero_iff_nil in LL; contradiction).
    destruct (mmean_ok rd RD l NL) as (m & E & V). exists m. split; [exact E|].
    apply Qle_antisym.
    - eapply (mean_le rd RD); [exact E|]. eapply Forall_impl; [|exact F]. intros a H. cbn beta in H. lra.
    - eapply (mean_ge rd RD); [exact E|]. eapply Forall_impl; [|exact F]. intros a H. cbn beta in H. lra.
  Qed.

  Lemma spread_const m l y : (m == y)%Q -> Forall (fun q => (q == y)%Q) l -> l <> [] ->
    exists sp, mspread rd msqrt m l = Ok sp /\ (sp == 0)%Q.
  Proof.
    intros M F N. unfold mspread.
    destruct (mdiv_ok rd RD (msqrt (msum rd (map (fun r0 => let d := rsub rd r0 m in rmul rd d d) l))) (inject_Z (Z.of_nat (length l)))) as (q & E & V).
    { pose proof (len_pos l N). lra. }
    exists q. split; [exact E|]. rewrite V.
    assert (Z : (msum rd (map (fun r0 => let d := rsub rd r0 m in rmul rd d d) l) == 0 * 0)%Q).
    { rewrite (msum_exact rd RD). clear - F M RD. induction F as [|a l A F IH]; [reflexivity|]. cbn [map qsum fold_right] in *.
      fold (qsum (map (fun r0 => let d := rsub rd r0 m in rmul rd d d) l)) in *. rewrite IH. cbv zeta.
      assert (D : (rsub rd a m == 0)%Q) by (unfold rsub; rewrite (RD (a - m)%Q), A, M; ring).
      unfold rmul. rewrite (RD _), D. reflexivity. }
    rewrite (SQ 0%Q _ ltac:(lra) Z). unfold Qdiv. apply Qmult_0_l.
  Qed.

  Lemma mean_const l m y : mmean rd l = Ok m -> Forall (fun q => (q == y)%Q) l -> (m == y)%Q.
  Proof.
    intros E F. apply Qle_antisym.
    - eapply (mean_le rd RD); [exact E|]. eapply Forall_impl; [|exact F]. intros a H. cbn beta in H. lra.
    - eapply (mean_ge rd RD); [exact E|]. eapply Forall_impl; [|exact F]. intros a H. cbn beta in H. lra.
  Qed.

  Hypothesis LEN : (6 <= length idx)%nat.
  Theorem geometric_classified :
    exists b k, classify rd dps msqrt flog linregress (samples x idx) = Ok (ATExp, APPair b k) /\ (b == r)%Q /\ (k == Qabs c)%Q.
  Proof.
    destruct evens_geo as [LE FE]. destruct odds_geo as [LO FO].
    assert (NO : odds_at x idx <> []) by (destruct (odds_at x idx); [cbn in LO; lia|discriminate]).
    destruct (many rd RD dps msqrt flog linregress x idx ltac:(lia) NO (evens_pos x idx) (odds_pos x idx))
      as (m & o & rp & ro & EM & EO & PM & PO & (sp & ES & VS) & (so & ESO & VSO) & EC).
    assert (FE' : Forall (fun q => (q == r * r)%Q) (map snd (ratios rd (delta_pair rd (samples x idx))))).
    { eapply Forall2_map_snd; [|apply (ev_ratios rd RD x idx)|exact FE]. intros a b E P. now rewrite E. }
    assert (FO' : Forall (fun q => (q == r * r)%Q) (map snd (ratios rd (delta_odd rd (samples x idx))))).
    { eapply Forall2_map_snd; [|apply (od_ratios rd RD x idx)|exact FO]. intros a b E P. now rewrite E. }
    pose proof (mean_const _ _ _ EM FE') as VM. pose proof (mean_const _ _ _ EO FO') as VO.
    assert (NE1 : map snd (ratios rd (delta_pair rd (samples x idx))) <> []) by (intros K; rewrite K in EM; discriminate EM).
    assert (NO1 : map snd (ratios rd (delta_odd rd (samples x idx))) <> []) by (intros K; rewrite K in EO; discriminate EO).
    destruct (spread_const m _ _ VM FE' NE1) as (sp' & ES' & Z1). rewrite ES in ES'. injection ES' as <-.
    destruct (spread_const o _ _ VO FO' NO1) as (so' & ESO' & Z2). rewrite ESO in ESO'. injection ESO' as <-.
    rewrite Z1 in VS. rewrite Z2 in VSO. assert (RP : (rp == 0)%Q) by (rewrite VS; unfold Qdiv; ring). assert (RO : (ro == 0)%Q) by (rewrite VSO; unfold Qdiv; ring).
    assert (LP : Qle_bool rp half_f = true) by (apply Qle_bool_iff; rewrite RP; discriminate).
    assert (LO' : Qle_bool ro half_f = true) by (apply Qle_bool_iff; rewrite RO; discriminate).
    rewrite EC. unfold gtq at 1 2. rewrite LP, LO'. cbn [negb orb andb]. unfold second_type. cbn [orb].
    assert (G1 : gtq m exp_threshold = true) by (apply gtq_spec; rewrite VM; exact R1).
    assert (G2 : gtq o exp_threshold = true) by (apply gtq_spec; rewrite VO; exact R1).
    rewrite G1, G2. cbn [xorb andb]. unfold exp_params.
    assert (BX : (py_min (msqrt m) (msqrt o) == r)%Q) by (apply py_min_eq; apply SQ; first [lra|assumption]).
    destruct (mean_coeff_geo _ _ BX pair_tagged) as (cp & EP & VP).
    { intros K. rewrite K in NE1. apply NE1. reflexivity. }
    destruct (mean_coeff_geo _ _ BX odd_tagged) as (co & EO' & VO').
    { intros K. rewrite K in NO1. apply NO1. reflexivity. }
    cbv zeta. rewrite EP. cbn [bind]. rewrite EO'. cbn [bind].
    exists (py_min (msqrt m) (msqrt o)), (py_min cp co). split; [|split; [exact BX|apply py_min_eq; assumption]].
    destruct (first_type rd dps _ _) eqn:FT; try reflexivity.
    exfalso. apply (proj1 (first_not_exp rd dps (delta_pair rd (samples x idx)) (delta_odd rd (samples x idx)))). right. exact FT.
  Qed.
End Geo.

(** ---- large factors ---- *)
Section Large.
  Variable rd : Q -> Q.
  Hypothesis RD : exact rd.
  Variables (dps : Z) (msqrt flog : Q -> Q) (linregress : list Q -> list mpfv -> mpfv * mpfv * mpfv).
  Hypothesis SQ : sqrt_close msqrt.
  Variable x : Z -> option Q.
  Variable idx : list Z.
  Hypothesis LEN : (6 <= length (evens_at x idx))%nat.
  Hypothesis LO : odds_at x idx <> [].
  Hypothesis FE : Forall (fun q => (2 < q)%Q) (evens_at x idx).
  Hypothesis FO : Forall (fun q => (2 < q)%Q) (odds_at x idx).

  Lemma mean_coeff_ok b ds : (1 < b)%Q -> ratios rd ds <> [] -> exists k, mean_coeff rd b ds = Ok k /\ (0 <= k)%Q.
  Proof.
    intros B N. unfold mean_coeff. set (us := flat_map _ ds).
    assert (NU : us <> []).
    { subst us. revert N. clear. revert ds. enough (G : forall n ds, (length ds <= n)%nat -> ratios rd ds <> [] ->
        flat_map (fun p : Z * mpfv => match usable (snd p) with Some q => [(fst p, q)] | None => [] end) ds <> []) by (intros ds; apply (G (length ds)); lia).
      induction n as [|n IH]; intros ds Ln N; [destruct ds; [exact N|cbn in Ln; lia]|].
      destruct ds as [|[i d] [|[j e] r]]; [exact N|exact (False_ind _ (N eq_refl))|]. cbn [flat_map snd fst]. cbn [ratios] in N.
      destruct (usable d); [discriminate|]. cbn [app]. destruct (usable e); [discriminate|]. cbn [app].
      apply IH; [cbn in Ln; lia|exact N]. }
    assert (CO : forall i d, exists q, coeff_of rd b i d = Ok q /\ (0 <= q)%Q).
    { intros i d. unfold coeff_of.
      destruct (mdiv_ok rd RD (rmul rd d (rd (Qpower b i))) (rsub rd 1 (rd (Qpower b (-2))))) as (q & E & V).
      - unfold rsub. rewrite (RD (1 - rd (Qpower b (-2)))%Q), (RD (Qpower b (-2))).
        change (Qpower b (-2)) with (/ (b * b))%Q. intros K.
        assert (X : (/ (b * b) * (b * b) == 1)%Q) by (field; lra). assert (Y : (/ (b * b) == 1)%Q) by lra. rewrite Y in X. nra.
      - rewrite E. cbn [bind]. eexists. split; [reflexivity|]. apply Qabs_nonneg. }
    assert (M : exists l, mapM (fun p => coeff_of rd b (fst p) (snd p)) us = Ok l /\ length l = length us /\ Forall (fun q => (0 <= q)%Q) l).
    { clearbody us. clear NU. induction us as [|[i d] us IH]; [exists []; repeat split; constructor|].
      destruct IH as (l & E & Ll & F). destruct (CO i d) as (q & Eq & P). exists (q :: l). cbn [mapM fst snd].
      rewrite Eq. cbn [bind]. rewrite E. cbn [bind length]. split; [reflexivity|]. split; [congruence|constructor; assumption]. }
    destruct M as (l & -> & Ll & F). cbn [bind].
    assert (NL : l <> []) by (destruct l, us; cbn in *; congruence).
    destruct (mmean_ok rd RD l NL) as (m & E & V). exists m. split; [exact E|]. eapply (mean_ge rd RD); eassumption.
  Qed.

  Theorem large_classified :
    exists t b k, classify rd dps msqrt flog linregress (samples x idx) = Ok (t, APPair b k) /\ (t = ATExp \/ t = ATSuperExp) /\
      (1 < b)%Q /\ (0 <= k)%Q.
  Proof.
    destruct (many rd RD dps msqrt flog linregress x idx LEN LO (evens_pos x idx) (odds_pos x idx))
      as (m & o & rp & ro & EM & EO & PM & PO & _ & _ & EC).
    pose proof (ev_ratios rd RD x idx) as RE. pose proof (od_ratios rd RD x idx) as RO.
    assert (FE' : Forall (fun q => (2 < q)%Q) (map snd (ratios rd (delta_pair rd (samples x idx))))).
    { eapply Forall2_map_snd; [|exact RE|exact FE]. intros a b E P. now rewrite E. }
    assert (FO' : Forall (fun q => (2 < q)%Q) (map snd (ratios rd (delta_odd rd (samples x idx))))).
    { eapply Forall2_map_snd; [|exact RO|exact FO]. intros a b E P. now rewrite E. }
    assert (M2 : (2 <= m)%Q) by (eapply (mean_ge rd RD); [exact EM|]; eapply Forall_impl; [|exact FE']; intros a H; cbn beta in H; lra).
    assert (O2 : (2 <= o)%Q) by (eapply (mean_ge rd RD); [exact EO|]; eapply Forall_impl; [|exact FO']; intros a H; cbn beta in H; lra).
    assert (TA : tail_above_2 (ratios rd (delta_pair rd (samples x idx))) (ratios rd (delta_odd rd (samples x idx))) = true).
    { unfold tail_above_2, from_pos. rewrite forallb_app. apply andb_true_iff.
      assert (T : forall n l, Forall (fun q => (2 < q)%Q) (map snd l) -> forallb (fun p : Z * Q => gtq (snd p) 2) (skipn n l) = true).
      { clear. intros n l F. apply forallb_forall. intros p I. apply gtq_spec. rewrite Forall_forall in F. apply F. apply in_map.
        rewrite <- (firstn_skipn n l). apply in_or_app. now right. }
      split; apply T; assumption. }
    destruct thr_val as [_ TV].
    assert (G1 : gtq m exp_threshold = true) by (apply gtq_spec; lra).
    assert (G2 : gtq o exp_threshold = true) by (apply gtq_spec; lra).
    assert (B1 : (1 < py_min (msqrt m) (msqrt o))%Q).
    { assert (K : forall y, (2 <= y)%Q -> (1 < msqrt y)%Q).
      { intros y Y. destruct (SQ y ltac:(lra)) as (P & L & _). apply Qnot_le_lt. intros K. assert (msqrt y * msqrt y <= 1)%Q by nra. lra. }
      unfold py_min. destruct (negb _); auto. }
    assert (N1 : ratios rd (delta_pair rd (samples x idx)) <> []) by (intros K; rewrite K in EM; discriminate EM).
    assert (N2 : ratios rd (delta_odd rd (samples x idx)) <> []) by (intros K; rewrite K in EO; discriminate EO).
    destruct (mean_coeff_ok _ _ B1 N1) as (k1 & E1 & P1). destruct (mean_coeff_ok _ _ B1 N2) as (k2 & E2 & P2).
    assert (EX : exp_params rd msqrt m o (delta_pair rd (samples x idx)) (delta_odd rd (samples x idx)) =
      Ok (APPair (py_min (msqrt m) (msqrt o)) (py_min k1 k2))) by (unfold exp_params; cbv zeta; rewrite E1; cbn [bind]; rewrite E2; reflexivity).
    assert (K0 : (0 <= py_min k1 k2)%Q) by (unfold py_min; destruct (negb _); assumption).
    rewrite EC, TA. unfold second_type. rewrite G1, G2, EX. cbn [xorb andb bind].
    assert (BB : Qle_bool ro half_f && Qle_bool rp half_f = negb (gtq rp half_f || gtq ro half_f)).
    { unfold gtq. destruct (Qle_bool ro half_f), (Qle_bool rp half_f); reflexivity. }
    rewrite BB. destruct (gtq rp half_f || gtq ro half_f); cbn [negb orb].
    - exists ATSuperExp, (py_min (msqrt m) (msqrt o)), (py_min k1 k2). auto.
    - exists ATExp, (py_min (msqrt m) (msqrt o)), (py_min k1 k2).
      split; [|auto]. pose proof (proj1 (first_not_exp rd dps (delta_pair rd (samples x idx)) (delta_odd rd (samples x idx)))) as NF.
      unfold is_exp in NF. destruct (first_type rd dps _ _) eqn:FT; try reflexivity. exfalso. apply NF. now right.
  Qed.
End Large.

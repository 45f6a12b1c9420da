(** Property C121: the older classification of the speed of convergence. *)
From Coq Require Import ZArith QArith Qabs Qpower List Bool Lia Lqa.
From Verif Require Import PyBase PyBase_Proofs Rnd Rnd_Proofs Utils_Model Spec_Utils Utils_Proofs ContFrac_Model Spec_ContFrac ContFrac_Proofs
  ContFrac_Hist ContFrac_Proofs2 ContFrac_Fast ContFrac_Est Classify_Model Spec_Classify Classify_Proofs Classify_Geo Classify_Round Classify_Sample Legacy_Model.
From Verif Require Properties_ContFrac Properties_Classify.
Import ListNotations.
Open Scope Z_scope.

(** ---- what is sampled ---- *)
Theorem legacy_samples rd d is_zero msqrt flog lr a b av tg c0 iters cutoff step thr fp c :
  rel d rd -> (0 <= d < 1)%Q -> fresh a b av false tg c0 -> never_bad av b -> same_static c0 c -> 0 <= cutoff -> 5 <= step ->
  snd (is_poly_or_exp_approach rd is_zero msqrt flog lr iters cutoff step thr fp c) =
    legacy_classify rd is_zero msqrt flog lr thr fp (samples (convergent rd a b) (cutoff :: zrange_step (cutoff + step) (iters + 1) step)).
Proof.
  intros RD D0 HF NB S CU ST. unfold is_poly_or_exp_approach. destruct (res_gen rd d RD D0 a b av tg c0 HF NB cutoff c CU S) as (c1 & -> & A1).
  destruct (five_six rd d RD D0 a b av tg c0 HF NB cutoff c1 CU A1) as (c2 & -> & A2).
  unfold py_range3. destruct (Z.eqb_spec step 0); [lia|]. destruct (Z.gtb_spec step 0); [|lia].
  destruct (loop_samples rd d RD D0 a b av tg c0 HF NB step ST (zrange_step (cutoff + step) (iters + 1) step) cutoff c2 [(cutoff, map mv (six (convergent rd a b) cutoff))] CU A2) as (c' & E & S').
  { intros t T. destruct (nth_error (zrange_step (cutoff + step) (iters + 1) step) t) as [y|] eqn:NE; [|apply nth_error_None in NE; lia].
    apply (ULCD_Proofs.zrange_step_spec (cutoff + step) (iters + 1) step ltac:(lia) t y) in NE. f_equal. lia. }
  rewrite E. reflexivity.
Qed.
Lemma pair_len rd s : length (delta_pair rd s) = (2 * length s)%nat.
Proof. unfold delta_pair. induction s as [|[i l] s IH]; [reflexivity|]. cbn [flat_map pair_of_sample]. rewrite app_length, IH. cbn [length]. lia. Qed.

(** With numbers that have no is_zero, two samples are enough for a failure. *)
Theorem C121_no_is_zero_refuted : forall rd msqrt flog lr a b av tg c0 os c r iters cutoff step thr fp,
  accurate 0 rd -> fresh a b av false tg c0 -> never_bad av b -> cf_run rd os c0 = (c, r) -> 0 <= cutoff -> 5 <= step -> cutoff + step <= iters ->
  snd (is_poly_or_exp_approach rd (fun _ => Raise AttributeError) msqrt flog lr iters cutoff step thr fp c) = Raise AttributeError.
Proof.
  intros rd msqrt flog lr a b av tg c0 os c r iters cutoff step thr fp (d & D0 & RD & D1) HF NB HR CU ST IT.
  assert (D2 : (0 <= d < 1)%Q) by (change (inject_Z (1 + Z.of_nat 0)) with 1%Q in D1; lra).
  rewrite (legacy_samples rd d _ _ _ _ a b av tg c0 iters cutoff step thr fp c RD D2 HF NB (Properties_ContFrac.run_static_of _ _ _ _ _ HR) CU ST).
  unfold legacy_classify. cbv zeta. unfold legacy_diminish at 1. rewrite pair_len. unfold samples at 1. rewrite map_length.
  assert (L : (2 <= length (cutoff :: zrange_step (cutoff + step) (iters + 1) step))%nat).
  { cbn [length]. destruct (zrange_step (cutoff + step) (iters + 1) step) as [|y l] eqn:E; [|cbn; lia]. exfalso.
    pose proof (proj2 (ULCD_Proofs.zrange_step_spec (cutoff + step) (iters + 1) step ltac:(lia) 0%nat (cutoff + step)) ltac:(cbn; lia)) as N. rewrite E in N. discriminate N. }
  destruct (Z.ltb_spec 3 (Z.of_nat (2 * length (cutoff :: zrange_step (cutoff + step) (iters + 1) step)))) as [_|K]; [|lia].
  set (ds := delta_pair rd _). assert (LD : (4 <= length ds)%nat) by (unfold ds, samples; rewrite pair_len, map_length; lia). clearbody ds.
  assert (L3 : exists p q, last3 ds = p :: q).
  { destruct (last3 ds) as [|p q] eqn:E; [|eauto]. apply (f_equal (@length _)) in E. unfold last3 in E. rewrite skipn_length in E. cbn in E. lia. }
  destruct L3 as (p & q & ->). reflexivity.
Qed.

(** ---- with an is_zero that answers ---- *)
Section Total.
  Variable rd : Q -> Q.
  Hypothesis RD : exact rd.
  Variable is_zero : mpfv -> bool.
  Variables (msqrt flog : Q -> Q) (linregress : list Q -> list mpfv -> mpfv * mpfv * mpfv).
  Notation classify_old := (legacy_classify rd (fun v => Ok (is_zero v)) msqrt flog linregress).
  Definition finite (ds : list (Z * mpfv)) : Prop := Forall (fun p => exists q, snd p = Fin q) ds.
  Lemma diminish_total ds : exists b, legacy_diminish (fun v => Ok (is_zero v)) ds = Ok b.
  Proof.
    unfold legacy_diminish. destruct (3 <? _); [|eauto].
    assert (M : forall l : list (Z * mpfv), exists bs, mapM (fun p => Ok (is_zero (snd p))) l = Ok bs).
    { induction l as [|p l (bs & IH)]; [eexists; reflexivity|]. cbn [mapM bind]. rewrite IH. eexists. reflexivity. }
    destruct (M (last3 ds)) as [bs ->]. cbn [bind]. eauto.
  Qed.
  Lemma ratios_finite : forall n ds, (length ds <= n)%nat -> finite ds -> legacy_ratios rd ds = Ok (map (fun p => Fin (snd p)) (ratios rd ds)).
  Proof.
    induction n as [|n IH]; intros ds L F; [destruct ds; [reflexivity|cbn in L; lia]|].
    destruct ds as [|[i d] [|[j e] r]]; [reflexivity|reflexivity|]. cbn [legacy_ratios ratios]. inversion F as [|? ? [p Hp] F1]; subst. inversion F1 as [|? ? [q Hq] F2]; subst. cbn [snd] in *. subst d e.
    rewrite (IH r ltac:(cbn in L; lia) F2). cbn [nonzero usable vdiv]. destruct (Qeq_bool p 0); cbn [negb andb bind app]; [reflexivity|].
    destruct (Qeq_bool q 0); cbn [negb bind app]; reflexivity.
  Qed.
  Lemma sum_finite l : forall q, fold_left (vadd rd) (map Fin l) (Fin q) = Fin (fold_left (radd rd) l q).
  Proof. induction l as [|x l IH]; intros q; [reflexivity|]. cbn [map fold_left vadd]. apply IH. Qed.
  Lemma mean_finite l : vmean rd (map Fin l) = match mmean rd l with Ok m => Ok (Fin m) | Raise e => Raise e end.
  Proof.
    unfold vmean, mmean, mdiv, msum. rewrite map_length, sum_finite. destruct l as [|x l]; [reflexivity|].
    destruct (Z.eqb_spec (Z.of_nat (length (x :: l))) 0); [cbn in *; lia|]. cbn [vdiv]. destruct (Qeq_bool _ 0); reflexivity.
  Qed.
  (** no shrinking factor of the odd results is known: a division by zero, however many are known of the even ones *)
  Lemma odd_empty thr fp s pr : legacy_ratios rd (delta_pair rd s) = Ok pr -> pr <> [] -> (forall e, vmean rd pr <> Raise e) -> (forall m e, vmean rd (map (fun r => vdiff2 rd r m) pr) <> Raise e) ->
    legacy_ratios rd (delta_odd rd s) = Ok [] -> classify_old thr fp s = Raise ZeroDivisionError.
  Proof.
    intros EP NP M1 M2 EO. unfold legacy_classify. cbv zeta. destruct (diminish_total (delta_pair rd s)) as [b1 ->]. destruct (diminish_total (delta_odd rd s)) as [b2 ->]. cbn [bind].
    rewrite EP, EO. cbn [bind]. destruct pr as [|r0 pr]; [contradiction|]. destruct (vmean rd (r0 :: pr)) as [m|e] eqn:EM; [|now elim (M1 e)]. cbn [bind].
    destruct (vmean rd (map (fun r => vdiff2 rd r m) (r0 :: pr))) as [s0|e] eqn:ES; [|now elim (M2 m e)]. reflexivity.
  Qed.
End Total.

(** every sampled result is a number *)
Definition known (x : Z -> option Q) (idx : list Z) : Prop := forall i k, In i idx -> 0 <= k <= 5 -> x (i + k) <> None.
Lemma delta_known rd x y : x <> None -> y <> None -> exists q, delta rd (mv x) (mv y) = Fin q.
Proof. destruct x, y; try congruence. intros _ _. cbn. eauto. Qed.
Lemma pair_finite rd x idx : known x idx -> finite (delta_pair rd (samples x idx)) /\ finite (delta_odd rd (samples x idx)).
Proof.
  intros K. unfold finite, delta_pair, delta_odd, samples. split; apply Forall_forall; intros p I; apply in_flat_map in I; destruct I as (sa & I1 & I2);
    apply in_map_iff in I1; destruct I1 as (i & <- & I1); cbn [pair_of_sample odd_of_sample six map nth] in I2; destruct I2 as [<-|[<-|[]]]; cbn [snd]; apply delta_known; apply K; auto; lia.
Qed.
Theorem C121_geometric : forall rd is_zero msqrt flog linregress x L c s r idx fp,
  exact rd -> sqrt_exact msqrt -> ~ (c == 0)%Q -> (s * s == 1)%Q -> (0 < r)%Q -> (legacy_threshold < r * r)%Q -> geometric x L c s r idx -> idx <> [] ->
  exists b, legacy_classify rd (fun v => Ok (is_zero v)) msqrt flog linregress legacy_threshold fp (samples x idx) = Ok (ATExp, LRate b) /\ (b == r)%Q.
Proof.
  intros rd is_zero msqrt flog linregress x L c s r idx fp RD SQ C0 S1 R0 R1 G NI.
  assert (K : known x idx) by (intros i k I Hk; destruct (G i k I Hk) as (v & -> & _); discriminate).
  destruct (pair_finite rd x idx K) as [FP FO]. change legacy_threshold with exp_threshold in *.
  destruct (evens_geo x L c s r C0 S1 R1 R0 idx G) as [LE FE]. destruct (odds_geo x L c s r C0 S1 R1 R0 idx G) as [LO FOd].
  pose proof (ev_ratios rd RD x idx) as EV. pose proof (od_ratios rd RD x idx) as OD.
  pose proof (Forall2_len _ _ _ EV) as L1. pose proof (Forall2_len _ _ _ OD) as L2.
  assert (FE' : Forall (fun q => (q == r * r)%Q) (map snd (ratios rd (delta_pair rd (samples x idx))))).
  { eapply Forall2_map_snd; [|exact EV|exact FE]. intros a b E P. now rewrite E. }
  assert (FO' : Forall (fun q => (q == r * r)%Q) (map snd (ratios rd (delta_odd rd (samples x idx))))).
  { eapply Forall2_map_snd; [|exact OD|exact FOd]. intros a b E P. now rewrite E. }
  unfold legacy_classify. cbv zeta. destruct (diminish_total is_zero (delta_pair rd (samples x idx))) as [b1 ->]. destruct (diminish_total is_zero (delta_odd rd (samples x idx))) as [b2 ->]. cbn [bind].
  rewrite (ratios_finite rd _ _ (le_n _) FP), (ratios_finite rd _ _ (le_n _) FO). cbn [bind].
  rewrite <- !(map_map snd Fin). set (pr := map snd (ratios rd (delta_pair rd (samples x idx)))) in *. set (od := map snd (ratios rd (delta_odd rd (samples x idx)))) in *.
  assert (LP : length pr = length idx) by (unfold pr; rewrite map_length; congruence). assert (LOD : length od = length idx) by (unfold od; rewrite map_length; congruence).
  clearbody pr od. clear EV OD FP FO L1 L2 K.
  assert (NP : pr <> []) by (intros ->; symmetry in LP; apply length_zero_iff_nil in LP; contradiction). assert (NO : od <> []) by (intros ->; symmetry in LOD; apply length_zero_iff_nil in LOD; contradiction).
  assert (D2 : forall l m, map (fun r0 => vdiff2 rd r0 (Fin m)) (map Fin l) = map Fin (map (fun a => let d := rsub rd a m in rmul rd d d) l)) by (intros l m; rewrite !map_map; reflexivity).
  assert (ZS : forall l m, (m == r * r)%Q -> Forall (fun q => (q == r * r)%Q) l -> Forall (fun q => (q == 0)%Q) (map (fun a => let d := rsub rd a m in rmul rd d d) l)).
  { intros l m M F. rewrite Forall_map. eapply Forall_impl; [|exact F]. intros a A. cbv beta zeta. cbn beta in A. assert (D : (rsub rd a m == 0)%Q) by (unfold rsub; rewrite (RD (a - m)%Q), A, M; ring).
    unfold rmul. rewrite (RD _), D. reflexivity. }
  destruct (mmean_ok rd RD pr NP) as (m & EM & _). destruct (mmean_ok rd RD od NO) as (o & EO & _).
  pose proof (mean_const rd RD _ _ _ EM FE') as VM. pose proof (mean_const rd RD _ _ _ EO FO') as VO.
  pose proof (ZS pr m VM FE') as Z1. pose proof (ZS od o VO FO') as Z2. set (sp := map _ pr) in Z1. set (so := map _ od) in Z2.
  assert (N1 : sp <> []) by (unfold sp; destruct pr; [congruence|discriminate]). assert (N2 : so <> []) by (unfold so; destruct od; [congruence|discriminate]).
  destruct (mmean_ok rd RD sp N1) as (ep & EP & _). destruct (mmean_ok rd RD so N2) as (eo & EE & _).
  pose proof (mean_const rd RD _ _ _ EP Z1) as V1. pose proof (mean_const rd RD _ _ _ EE Z2) as V2.
  destruct pr as [|p0 pr']; [contradiction|]. change (map Fin (p0 :: pr')) with (Fin p0 :: map Fin pr') at 1. cbv iota.
  rewrite (mean_finite rd (p0 :: pr')), EM. cbn [bind]. rewrite D2. fold sp. rewrite (mean_finite rd sp), EP. cbn [bind].
  rewrite (mean_finite rd od), EO. cbn [bind]. rewrite D2. fold so. rewrite (mean_finite rd so), EE. cbn [bind vdiv].
  assert (RR : (1 < r * r)%Q) by (pose proof thr_val; lra).
  assert (Q1 : Qeq_bool m 0 = false) by (apply not_true_is_false; rewrite Qeq_bool_iff; lra). assert (Q2 : Qeq_bool o 0 = false) by (apply not_true_is_false; rewrite Qeq_bool_iff; lra).
  rewrite Q1, Q2. cbn [bind vgt].
  assert (H1 : (rdiv rd ep m == 0)%Q) by (unfold rdiv; rewrite (RD _), V1; unfold Qdiv; ring). assert (H2 : (rdiv rd eo o == 0)%Q) by (unfold rdiv; rewrite (RD _), V2; unfold Qdiv; ring).
  assert (LH1 : Qle_bool (rdiv rd ep m) half_f = true) by (apply Qle_bool_iff; rewrite H1; discriminate). assert (LH2 : Qle_bool (rdiv rd eo o) half_f = true) by (apply Qle_bool_iff; rewrite H2; discriminate).
  rewrite LH1, LH2. cbn [negb orb].
  assert (G1 : Qle_bool m exp_threshold = false) by (apply not_true_is_false; rewrite Qle_bool_iff, VM; now apply Qlt_not_le).
  assert (G2 : Qle_bool o exp_threshold = false) by (apply not_true_is_false; rewrite Qle_bool_iff, VO; now apply Qlt_not_le).
  rewrite G1, G2. cbn [negb xorb andb]. eexists. split; [reflexivity|]. apply py_min_eq; apply SQ; first [lra|assumption].
Qed.
(** 'fast' is answered only if not a single shrinking factor of the even results is known. *)
Theorem C121_fast : forall rd is_zero msqrt flog linregress x idx thr fp p, exact rd ->
  legacy_classify rd (fun v => Ok (is_zero v)) msqrt flog linregress thr fp (samples x idx) = Ok (ATFast, p) -> p = LZero /\ evens_at x idx = [].
Proof.
  intros rd is_zero msqrt flog linregress x idx thr fp p RD H. unfold legacy_classify in H. cbv zeta in H.
  destruct (diminish_total is_zero (delta_pair rd (samples x idx))) as [b1 E1]. destruct (diminish_total is_zero (delta_odd rd (samples x idx))) as [b2 E2]. rewrite E1, E2 in H. cbn [bind] in H.
  destruct (legacy_ratios rd (delta_pair rd (samples x idx))) as [pr|e] eqn:EP; [|discriminate]. cbn [bind] in H. destruct (legacy_ratios rd (delta_odd rd (samples x idx))) as [od|e]; [|discriminate]. cbn [bind] in H.
  destruct pr as [|p0 pr].
  - injection H as _ <-. split; [reflexivity|].
    assert (R : forall n ds, (length ds <= n)%nat -> legacy_ratios rd ds = Ok [] -> ratios rd ds = []).
    { clear. induction n as [|n IH]; intros ds L; [destruct ds; [reflexivity|cbn in L; lia]|]. destruct ds as [|[i d] [|[j e] r]]; [reflexivity|reflexivity|]. cbn [legacy_ratios ratios].
      specialize (IH r ltac:(cbn in L; lia)). destruct d as [p|], e as [q|]; cbn [nonzero usable vdiv]; try (destruct (Qeq_bool p 0)); try (destruct (Qeq_bool q 0)); cbn [negb andb bind app]; destruct (legacy_ratios rd r) as [rs|e']; cbn [bind app]; intros H; try discriminate; auto. }
    pose proof (ev_ratios rd RD x idx) as EV. rewrite (R _ _ (le_n _) EP) in EV. now inversion EV.
  - exfalso. destruct (vmean rd (p0 :: pr)) as [mp|]; [|discriminate]. cbn [bind] in H. destruct (vmean rd (map (fun r => vdiff2 rd r mp) (p0 :: pr))) as [ep|]; [|discriminate]. cbn [bind] in H.
    destruct (vmean rd od) as [mo|]; [|discriminate]. cbn [bind] in H. destruct (vmean rd (map (fun r => vdiff2 rd r mo) od)) as [eo|]; [|discriminate]. cbn [bind] in H.
    destruct (vdiv rd ep mp) as [rp|]; [|discriminate]. cbn [bind] in H. destruct (vdiv rd eo mo) as [ro|]; [|discriminate]. cbn [bind] in H.
    destruct (_ || _); [discriminate|]. destruct (xorb _ _); [discriminate|]. destruct (_ && _); [destruct mp, mo; discriminate|]. destruct fp; [destruct (legacy_poly _ _ _ _); discriminate|discriminate].
Qed.
(** 'fast' is the answer exactly if no factor of the even results is known and the last three distances of the even and of the odd results are zero. *)
Definition zero_test (is_zero : mpfv -> bool) : Prop := forall v, is_zero v = true <-> exists q, v = Fin q /\ (q == 0)%Q.
Definition still (x : Z -> option Q) (k : Z) : Prop := exists d, gap x k = Some d /\ (d == 0)%Q.
Lemma zero_still rd is_zero x k : exact rd -> zero_test is_zero -> is_zero (delta rd (mv (x (k + 2))) (mv (x k))) = true <-> still x k.
Proof.
  intros RD ZT. etransitivity; [apply ZT|]. unfold still, gap. destruct (x k) as [u|], (x (k + 2)) as [v|]; cbn [mv delta].
  - split; intros (q & E & Hq); injection E as <-; eexists; split; try reflexivity; unfold rsub in *; rewrite (RD (v - u)%Q) in *; exact Hq.
  - split; intros (q & E & _); discriminate.
  - split; intros (q & E & _); discriminate.
  - split; intros (q & E & _); discriminate.
Qed.
Lemma last3_two {A} (l : list A) a b c d : last3 (l ++ [a; b; c; d]) = [b; c; d].
Proof. unfold last3. rewrite app_length. cbn [length]. replace (length l + 4 - 3)%nat with (length (l ++ [a])) by (rewrite app_length; cbn; lia). change [a; b; c; d] with ([a] ++ [b; c; d]). rewrite app_assoc. rewrite skipn_app, skipn_all, Nat.sub_diag. reflexivity. Qed.
Lemma diminish_last rd is_zero x idx i j : exact rd -> zero_test is_zero ->
  (legacy_diminish (fun v => Ok (is_zero v)) (delta_pair rd (samples x (idx ++ [i; j]))) = Ok true <-> still x (i + 2) /\ still x j /\ still x (j + 2)) /\
  (legacy_diminish (fun v => Ok (is_zero v)) (delta_odd rd (samples x (idx ++ [i; j]))) = Ok true <-> still x (i + 3) /\ still x (j + 1) /\ still x (j + 3)).
Proof.
  intros RD ZT. unfold delta_pair, delta_odd, samples. rewrite map_app, !flat_map_app.
  cbn [map flat_map app pair_of_sample odd_of_sample six nth]. rewrite !Z.add_0_r.
  set (l1 := flat_map (pair_of_sample rd) _). set (l2 := flat_map (odd_of_sample rd) _). clearbody l1 l2. unfold legacy_diminish. rewrite !last3_two, !app_length. cbn [length].
  destruct (Z.ltb_spec 3 (Z.of_nat (length l1 + 4))); [|lia]. destruct (Z.ltb_spec 3 (Z.of_nat (length l2 + 4))); [|lia]. cbn [mapM bind snd forallb].
  pose proof (fun k => zero_still rd is_zero x k RD ZT) as S.
  split.
  - pose proof (S (i + 2)) as S1. pose proof (S j) as S2. pose proof (S (j + 2)) as S3. rewrite <- !Z.add_assoc in S1, S3. change (2 + 2) with 4 in *. rewrite <- S1, <- S2, <- S3.
    destruct (is_zero _), (is_zero _), (is_zero _); cbn [andb]; intuition congruence.
  - pose proof (S (i + 3)) as S1. pose proof (S (j + 1)) as S2. pose proof (S (j + 3)) as S3. rewrite <- !Z.add_assoc in S1, S2, S3. change (3 + 2) with 5 in *. change (1 + 2) with 3 in *. rewrite <- S1, <- S2, <- S3.
    destruct (is_zero _), (is_zero _), (is_zero _); cbn [andb]; intuition congruence.
Qed.
Theorem C121_fast_iff : forall rd is_zero msqrt flog linregress x idx thr fp, exact rd -> zero_test is_zero -> known x idx ->
  legacy_classify rd (fun v => Ok (is_zero v)) msqrt flog linregress thr fp (samples x idx) = Ok (ATFast, LZero) <->
  evens_at x idx = [] /\ exists idx' i j, idx = idx' ++ [i; j] /\ Forall (still x) [i + 2; j; j + 2; i + 3; j + 1; j + 3].
Proof.
  intros rd is_zero msqrt flog linregress x idx thr fp RD ZT K. destruct (pair_finite rd x idx K) as [FP FO].
  assert (T : evens_at x idx = [] -> forall b1 b2, legacy_diminish (fun v => Ok (is_zero v)) (delta_pair rd (samples x idx)) = Ok b1 -> legacy_diminish (fun v => Ok (is_zero v)) (delta_odd rd (samples x idx)) = Ok b2 ->
    legacy_classify rd (fun v => Ok (is_zero v)) msqrt flog linregress thr fp (samples x idx) = Ok (if xorb b1 b2 then ATUndefined else if b1 && b2 then ATFast else ATNone, LZero)).
  { intros E b1 b2 D1 D2. unfold legacy_classify. cbv zeta. rewrite D1, D2. cbn [bind]. rewrite (ratios_finite rd _ _ (le_n _) FP), (ratios_finite rd _ _ (le_n _) FO). cbn [bind].
    pose proof (ev_ratios rd RD x idx) as EV. rewrite E in EV. inversion EV. reflexivity. }
  destruct (diminish_total is_zero (delta_pair rd (samples x idx))) as [b1 D1]. destruct (diminish_total is_zero (delta_odd rd (samples x idx))) as [b2 D2].
  split.
  - intros H. destruct (C121_fast _ _ _ _ _ _ _ _ _ _ RD H) as [_ E]. split; [exact E|]. rewrite (T E b1 b2 D1 D2) in H.
    destruct b1, b2; try discriminate. clear H T.
    destruct idx as [|j l] using rev_ind; [discriminate|]. clear IHl. destruct l as [|i l] using rev_ind; [discriminate|]. clear IHl.
    rewrite <- app_assoc in D1, D2. cbn [app] in D1, D2. destruct (diminish_last rd is_zero x l i j RD ZT) as [A B]. apply A in D1. apply B in D2.
    exists l, i, j. split; [now rewrite <- app_assoc|]. repeat constructor; tauto.
  - intros (E & l & i & j & -> & F). destruct (diminish_last rd is_zero x l i j RD ZT) as [A B].
    assert (G : forall k, In k [i + 2; j; j + 2; i + 3; j + 1; j + 3] -> still x k) by (now apply Forall_forall).
    rewrite (T E true true); [reflexivity|apply A|apply B]; repeat split; apply G; cbn; tauto.
Qed.
(** One-sided information is a failure: some factor of the even results is known and none of the odd ones. *)
Theorem C121_one_sided_refuted : forall rd is_zero msqrt flog linregress x idx thr fp, exact rd -> known x idx -> evens_at x idx <> [] -> odds_at x idx = [] ->
  legacy_classify rd (fun v => Ok (is_zero v)) msqrt flog linregress thr fp (samples x idx) = Raise ZeroDivisionError.
Proof.
  intros rd is_zero msqrt flog linregress x idx thr fp RD K NE OE. destruct (pair_finite rd x idx K) as [FP FO].
  pose proof (ev_ratios rd RD x idx) as EV. pose proof (od_ratios rd RD x idx) as OD. rewrite OE in OD.
  pose proof (ratios_finite rd _ _ (le_n _) FP) as RP. pose proof (ratios_finite rd _ _ (le_n _) FO) as RO.
  assert (NR : map snd (ratios rd (delta_pair rd (samples x idx))) <> []) by (destruct EV; [congruence|discriminate]).
  rewrite <- (map_map snd Fin) in RP. eapply odd_empty; [exact RP|destruct (map snd _); [congruence|discriminate]| | |inversion OD as [E|]; rewrite RO, <- E; reflexivity].
  - intros e. rewrite mean_finite. destruct (mmean_ok rd RD _ NR) as (m & -> & _). discriminate.
  - intros m e. destruct m as [m|].
    + rewrite map_map. replace (map (fun a => vdiff2 rd (Fin a) (Fin m)) (map snd (ratios rd (delta_pair rd (samples x idx))))) with (map Fin (map (fun a => let d := rsub rd a m in rmul rd d d) (map snd (ratios rd (delta_pair rd (samples x idx))))))
        by (rewrite map_map; reflexivity). rewrite mean_finite.
      destruct (mmean_ok rd RD (map (fun a => let d := rsub rd a m in rmul rd d d) (map snd (ratios rd (delta_pair rd (samples x idx)))))) as (m' & -> & _); [|discriminate]. destruct (map snd _); [congruence|discriminate].
    + unfold vmean. rewrite !map_length. destruct (map snd (ratios rd (delta_pair rd (samples x idx)))) as [|q0 l] eqn:E; [congruence|]. apply (f_equal (@length _)) in E. rewrite map_length in E. rewrite E. cbn [length].
      destruct (Z.eqb_spec (Z.of_nat (S (length l))) 0); [lia|]. cbn [map vdiff2 fold_left vadd].
      assert (N : forall l, fold_left (vadd rd) l NaN = NaN) by (induction l0; [reflexivity|assumption]). rewrite N. discriminate.
Qed.
Definition C121_x (i : Z) : option Q := Some (if Z.even i then Qpower (2 # 1) (- i) else 1)%Q.
Example C121_fast_ex : zero_test (fun v => match v with Fin q => Qeq_bool q 0 | NaN => false end) /\
  known (fun i => Some (if i <? 2 then 1 # 2 else 1 # 3)%Q) [0; 6] /\ evens_at (fun i => Some (if i <? 2 then 1 # 2 else 1 # 3)%Q) [0; 6] = [] /\
  legacy_classify Qred (fun v => Ok (match v with Fin q => Qeq_bool q 0 | NaN => false end)) (fun q => q) (fun q => q) (fun _ _ => (NaN, NaN, NaN)) legacy_threshold true (samples (fun i => Some (if i <? 2 then 1 # 2 else 1 # 3)%Q) [0; 6]) = Ok (ATFast, LZero) /\
  legacy_classify Qred (fun v => Ok (match v with Fin q => Qeq_bool q 0 | NaN => false end)) (fun q => q) (fun q => q) (fun _ _ => (NaN, NaN, NaN)) legacy_threshold true (samples (fun i => Some (if i <? 8 then 1 # 2 else 1 # 3)%Q) [0; 6]) = Ok (ATNone, LZero).
Proof.
  split.
  { intros [q|]; [rewrite Qeq_bool_iff|]; split; try discriminate; [intros H; eauto|intros (q' & E & H); now injection E as ->|intros (q' & E & _); discriminate]. }
  split; [discriminate|]. split; [vm_compute; reflexivity|]. split; vm_compute; reflexivity.
Qed.
Example C121_ex : geometric Properties_Classify.C96_x 1 (1 # 2) (-1) (2 # 1) [0] /\ (legacy_threshold < (2 # 1) * (2 # 1))%Q /\
  legacy_classify Qred (fun v => Ok false) Properties_Classify.ex_sqrt_exact (fun q => q) (fun _ _ => (NaN, NaN, NaN)) legacy_threshold true (samples Properties_Classify.C96_x [0]) = Ok (ATExp, LRate 2) /\
  known C121_x [0; 6] /\ length (evens_at C121_x [0; 6]) = 2%nat /\ odds_at C121_x [0; 6] = [] /\
  (exists c0, fresh [[3]] [[-2]] true false None c0 /\
    snd (is_poly_or_exp_approach (rnd 53) (fun _ => Raise AttributeError) (fun q => q) (fun q => q) (fun _ _ => (NaN, NaN, NaN)) 12 2 6 legacy_threshold false c0) = Raise AttributeError).
Proof.
  split; [intros i k _ _; eexists; split; [reflexivity|reflexivity]|]. split; [vm_compute; reflexivity|]. split; [vm_compute; reflexivity|].
  split; [discriminate|]. split; [vm_compute; reflexivity|]. split; [vm_compute; reflexivity|]. eexists. split; [reflexivity|]. vm_compute. reflexivity.
Qed.

Print Assumptions C121_no_is_zero_refuted.
Print Assumptions C121_geometric.
Print Assumptions C121_fast.
Print Assumptions C121_fast_iff.
Print Assumptions C121_one_sided_refuted.

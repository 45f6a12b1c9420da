(** Property C121, continued: every answer of the older classification. *)
From Coq Require Import ZArith QArith Qabs Qpower List Bool Lia Lqa.
From Verif Require Import PyBase PyBase_Proofs Rnd ContFrac_Model Classify_Model Spec_Classify Classify_Proofs Legacy_Model Properties_Legacy3.
Import ListNotations.
Open Scope Z_scope.

(** ---- no factor of the even results is known ---- *)
(** the last three distances of the even (o = 0) or odd (o = 1) results are zero *)
Definition settled (x : Z -> option Q) (idx : list Z) (o : Z) : Prop :=
  exists idx' i j, idx = idx' ++ [i; j] /\ still x (i + o + 2) /\ still x (j + o) /\ still x (j + o + 2).
Lemma diminish_settled rd is_zero x idx b1 b2 : exact rd -> zero_test is_zero ->
  legacy_diminish (fun v => Ok (is_zero v)) (delta_pair rd (samples x idx)) = Ok b1 -> legacy_diminish (fun v => Ok (is_zero v)) (delta_odd rd (samples x idx)) = Ok b2 ->
  (b1 = true <-> settled x idx 0) /\ (b2 = true <-> settled x idx 1).
Proof.
  intros RD ZT. destruct idx as [|j l] using rev_ind.
  - intros D1 D2. injection D1 as <-. injection D2 as <-. split; (split; [discriminate|intros (l & i & j & E & _); destruct l; discriminate]).
  - clear IHl. destruct l as [|i l] using rev_ind.
    + intros D1 D2. injection D1 as <-. injection D2 as <-. split; (split; [discriminate|intros (l & i & j' & E & _); destruct l as [|? [|? ?]]; discriminate]).
    + clear IHl. rewrite <- app_assoc. cbn [app]. intros D1 D2. destruct (diminish_last rd is_zero x l i j RD ZT) as [A B]. rewrite D1 in A. rewrite D2 in B.
      assert (A' : b1 = true <-> still x (i + 2) /\ still x j /\ still x (j + 2)) by (rewrite <- A; split; [intros ->; reflexivity|congruence]).
      assert (B' : b2 = true <-> still x (i + 3) /\ still x (j + 1) /\ still x (j + 3)) by (rewrite <- B; split; [intros ->; reflexivity|congruence]).
      assert (U : forall o, settled x (l ++ [i; j]) o <-> still x (i + o + 2) /\ still x (j + o) /\ still x (j + o + 2)).
      { intros o. split; [|intros H; exists l, i, j; auto]. intros (l' & i' & j' & E & H). change [i; j] with ([i] ++ [j]) in E. change [i'; j'] with ([i'] ++ [j']) in E. rewrite !app_assoc in E.
        apply app_inj_tail in E as [E ->]. apply app_inj_tail in E as [-> ->]. exact H. }
      rewrite (U 0), (U 1), A', B'. rewrite !Z.add_0_r. replace (i + 1 + 2) with (i + 3) by lia. replace (j + 1 + 2) with (j + 3) by lia. tauto.
Qed.
Theorem C121_no_factor : forall rd is_zero msqrt flog linregress x idx thr fp, exact rd -> zero_test is_zero -> known x idx -> evens_at x idx = [] ->
  exists t, legacy_classify rd (fun v => Ok (is_zero v)) msqrt flog linregress thr fp (samples x idx) = Ok (t, LZero) /\
    ((settled x idx 0 /\ settled x idx 1 /\ t = ATFast) \/ (settled x idx 0 /\ ~ settled x idx 1 /\ t = ATUndefined) \/
     (~ settled x idx 0 /\ settled x idx 1 /\ t = ATUndefined) \/ (~ settled x idx 0 /\ ~ settled x idx 1 /\ t = ATNone)).
Proof.
  intros rd is_zero msqrt flog linregress x idx thr fp RD ZT K E. destruct (pair_finite rd x idx K) as [FP FO].
  destruct (diminish_total is_zero (delta_pair rd (samples x idx))) as [b1 D1]. destruct (diminish_total is_zero (delta_odd rd (samples x idx))) as [b2 D2].
  destruct (diminish_settled rd is_zero x idx b1 b2 RD ZT D1 D2) as [S1 S2].
  exists (if xorb b1 b2 then ATUndefined else if b1 && b2 then ATFast else ATNone). split.
  - unfold legacy_classify. cbv zeta. rewrite D1, D2. cbn [bind]. rewrite (ratios_finite rd _ _ (le_n _) FP), (ratios_finite rd _ _ (le_n _) FO). cbn [bind].
    pose proof (ev_ratios rd RD x idx) as EV. rewrite E in EV. inversion EV. reflexivity.
  - rewrite <- S1, <- S2. destruct b1, b2; cbn; intuition congruence.
Qed.

(** ---- factors of both are known ---- *)
Definition average (l : list Q) : Q := (fold_right Qplus 0 l / inject_Z (Z.of_nat (length l)))%Q.
(** the mean square distance to the average, relative to the average *)
Definition scatter (l : list Q) : Q := (average (map (fun q => (q - average l) * (q - average l)) l) / average l)%Q.
Definition noisy (l : list Q) : Prop := (1 # 2 < scatter l)%Q.
Definition least (p a b : Q) : Prop := ((p == a /\ a <= b) \/ (p == b /\ b <= a))%Q.
(** the sampled positions and distances: of the even results for o = 0, of the odd ones for o = 1 *)
Definition positions (idx : list Z) (o : Z) : list Z := flat_map (fun i => [i + o; i + o + 2]) idx.

Section Decide.
  Variable rd : Q -> Q.
  Hypothesis RD : exact rd.
  Variable is_zero : mpfv -> bool.
  Variables (msqrt flog : Q -> Q) (linregress : list Q -> list mpfv -> mpfv * mpfv * mpfv).
  Variables (x : Z -> option Q) (idx : list Z) (thr : Q).
  Notation answer := (fun fp => legacy_classify rd (fun v => Ok (is_zero v)) msqrt flog linregress thr fp (samples x idx)).

  Lemma average_of l l' : l <> [] -> Forall2 Qeq l l' -> exists m, vmean rd (map Fin l) = Ok (Fin m) /\ (m == average l')%Q.
  Proof.
    intros N F. rewrite mean_finite. destruct (mmean_ok rd RD l N) as (m & -> & V). exists m. split; [reflexivity|]. unfold average.
    assert (S : (qsum l == fold_right Qplus 0 l')%Q) by (clear - F; induction F as [|a b l l' E F IH]; [reflexivity|]; cbn [qsum fold_right]; fold (qsum l); now rewrite E, IH).
    rewrite <- S, <- V, (Forall2_len _ _ _ F). pose proof (len_pos l N) as P. rewrite (Forall2_len _ _ _ F) in P. field. lra.
  Qed.
  Lemma squares_of l l' m : Forall2 Qeq l l' -> (m == average l')%Q ->
    exists s, map (fun r => vdiff2 rd r (Fin m)) (map Fin l) = map Fin s /\ length s = length l /\ Forall2 Qeq s (map (fun q => (q - average l') * (q - average l')) l')%Q.
  Proof.
    intros F M. exists (map (fun a => let d := rsub rd a m in rmul rd d d) l). split; [rewrite !map_map; reflexivity|]. split; [apply map_length|].
    revert M. generalize (average l'). intros av M. induction F as [|a b l l' E F IH]; [constructor|]. cbn [map]. constructor; [|exact IH].
    unfold rmul, rsub. rewrite (RD _), (RD (a - m)%Q), E, M. reflexivity.
  Qed.
  Lemma average_pos l : l <> [] -> Forall (fun q => (0 < q)%Q) l -> (0 < average l)%Q.
  Proof.
    intros N F. unfold average. pose proof (len_pos l N) as P. apply Qlt_shift_div_l; [exact P|]. rewrite Qmult_0_l. destruct F as [|q l H F]; [congruence|]. cbn [fold_right].
    assert (0 <= fold_right Qplus 0 l)%Q; [|lra]. clear - F. induction F as [|p l P F IH]; cbn [fold_right]; lra.
  Qed.
  Definition ds := delta_pair rd (samples x idx).
  Definition dos := delta_odd rd (samples x idx).
  Lemma decision : known x idx -> evens_at x idx <> [] -> odds_at x idx <> [] ->
    exists mp mo rp ro, (mp == average (evens_at x idx))%Q /\ (mo == average (odds_at x idx))%Q /\ (rp == scatter (evens_at x idx))%Q /\ (ro == scatter (odds_at x idx))%Q /\
      forall fp, answer fp =
        (if vgt (Fin ro) half_f || vgt (Fin rp) half_f then Ok (ATUndefined, LZero)
         else if xorb (vgt (Fin mp) thr) (vgt (Fin mo) thr) then Ok (ATMixed, LZero)
         else if vgt (Fin mp) thr && vgt (Fin mo) thr then Ok (ATExp, LRate (py_min (msqrt mp) (msqrt mo)))
         else if fp then let* r := legacy_poly flog linregress ds dos in Ok (ATPoly, r) else Ok (ATPoly, LZero)).
  Proof.
    intros K NE NO. destruct (pair_finite rd x idx K) as [FP FO].
    pose proof (ev_ratios rd RD x idx) as EV. pose proof (od_ratios rd RD x idx) as OD.
    assert (EV' : Forall2 Qeq (map snd (ratios rd ds)) (evens_at x idx)) by (unfold ds; clear - EV; induction EV; cbn; constructor; auto).
    assert (OD' : Forall2 Qeq (map snd (ratios rd dos)) (odds_at x idx)) by (unfold dos; clear - OD; induction OD; cbn; constructor; auto).
    assert (NP : map snd (ratios rd ds) <> []) by (intros H; rewrite H in EV'; inversion EV'; congruence).
    assert (NQ : map snd (ratios rd dos) <> []) by (intros H; rewrite H in OD'; inversion OD'; congruence).
    destruct (average_of _ _ NP EV') as (mp & EM & VM). destruct (average_of _ _ NQ OD') as (mo & EO & VO).
    destruct (squares_of _ _ mp EV' VM) as (sp & ES & LS & FS). destruct (squares_of _ _ mo OD' VO) as (so & ESO & LSO & FSO).
    assert (NS : sp <> []) by (intros ->; symmetry in LS; apply length_zero_iff_nil in LS; contradiction). assert (NSO : so <> []) by (intros ->; symmetry in LSO; apply length_zero_iff_nil in LSO; contradiction).
    destruct (average_of _ _ NS FS) as (ep & EP & VP). destruct (average_of _ _ NSO FSO) as (eo & EE & VE).
    pose proof (average_pos _ NE (evens_pos x idx)) as P1. pose proof (average_pos _ NO (odds_pos x idx)) as P2.
    exists mp, mo, (rdiv rd ep mp), (rdiv rd eo mo). split; [exact VM|]. split; [exact VO|].
    split; [unfold rdiv, scatter; rewrite (RD _), VP, VM; reflexivity|]. split; [unfold rdiv, scatter; rewrite (RD _), VE, VO; reflexivity|].
    intros fp. unfold legacy_classify. cbv zeta. fold ds. fold dos.
    destruct (diminish_total is_zero ds) as [b1 ->]. destruct (diminish_total is_zero dos) as [b2 ->]. cbn [bind].
    rewrite (ratios_finite rd _ _ (le_n _) FP : legacy_ratios rd ds = _), (ratios_finite rd _ _ (le_n _) FO : legacy_ratios rd dos = _). cbn [bind]. rewrite <- !(map_map snd Fin).
    fold ds in *. fold dos in *.
    destruct (map snd (ratios rd ds)) as [|p0 pr] eqn:EPR; [contradiction|]. change (map Fin (p0 :: pr)) with (Fin p0 :: map Fin pr) at 1. cbv iota.
    rewrite EM. cbn [bind]. rewrite ES, EP. cbn [bind]. rewrite EO. cbn [bind]. rewrite ESO, EE. cbn [bind vdiv].
    assert (Q1 : Qeq_bool mp 0 = false) by (apply not_true_is_false; rewrite Qeq_bool_iff; lra). assert (Q2 : Qeq_bool mo 0 = false) by (apply not_true_is_false; rewrite Qeq_bool_iff; lra).
    rewrite Q1, Q2. cbn [bind]. reflexivity.
  Qed.
  Lemma vgt_iff a b : vgt (Fin a) b = true <-> (b < a)%Q.
  Proof. exact (gtq_spec a b). Qed.
  Lemma vgt_no a b : vgt (Fin a) b = false <-> (a <= b)%Q.
  Proof. exact (gtq_false a b). Qed.
  Lemma py_min_least a b : least (py_min a b) a b.
  Proof.
    unfold least, py_min. destruct (Qle_bool a b) eqn:E; cbn [negb]; [apply Qle_bool_iff in E; left; split; [reflexivity|exact E]|].
    right. split; [reflexivity|]. apply Qlt_le_weak, Qnot_le_lt. rewrite <- Qle_bool_iff. congruence.
  Qed.
End Decide.

(** The factors of one kind scatter too much: 'undefined'. *)
Theorem C121_undefined : forall rd is_zero msqrt flog linregress x idx thr fp, exact rd -> known x idx -> evens_at x idx <> [] -> odds_at x idx <> [] ->
  noisy (evens_at x idx) \/ noisy (odds_at x idx) ->
  legacy_classify rd (fun v => Ok (is_zero v)) msqrt flog linregress thr fp (samples x idx) = Ok (ATUndefined, LZero).
Proof.
  intros rd is_zero msqrt flog linregress x idx thr fp RD K NE NO H. destruct (decision rd RD is_zero msqrt flog linregress x idx thr K NE NO) as (mp & mo & rp & ro & _ & _ & R1 & R2 & A). cbv beta in A. rewrite A. clear A.
  unfold noisy in H. rewrite <- R1, <- R2 in H. rewrite <- !vgt_iff in H. change (1 # 2)%Q with half_f in H. destruct H as [H|H]; rewrite H; [rewrite orb_true_r|]; reflexivity.
Qed.
(** Otherwise the averages decide. *)
Theorem C121_exp : forall rd is_zero msqrt flog linregress x idx thr fp, exact rd -> known x idx -> evens_at x idx <> [] -> odds_at x idx <> [] ->
  ~ noisy (evens_at x idx) -> ~ noisy (odds_at x idx) -> (thr < average (evens_at x idx))%Q -> (thr < average (odds_at x idx))%Q ->
  exists a b r, (a == average (evens_at x idx))%Q /\ (b == average (odds_at x idx))%Q /\ least r (msqrt a) (msqrt b) /\
    legacy_classify rd (fun v => Ok (is_zero v)) msqrt flog linregress thr fp (samples x idx) = Ok (ATExp, LRate r).
Proof.
  intros rd is_zero msqrt flog linregress x idx thr fp RD K NE NO N1 N2 H1 H2. destruct (decision rd RD is_zero msqrt flog linregress x idx thr K NE NO) as (mp & mo & rp & ro & M1 & M2 & R1 & R2 & A). cbv beta in A. rewrite A. clear A.
  unfold noisy in N1, N2. rewrite <- R1 in N1. rewrite <- R2 in N2. rewrite <- vgt_iff in N1, N2. change (1 # 2)%Q with half_f in *. apply not_true_is_false in N1, N2. rewrite N1, N2. cbn [orb].
  rewrite <- M1 in H1. rewrite <- M2 in H2. apply vgt_iff in H1, H2. rewrite H1, H2. cbn [xorb andb]. exists mp, mo, (py_min (msqrt mp) (msqrt mo)).
  split; [exact M1|]. split; [exact M2|]. split; [apply py_min_least|reflexivity].
Qed.
Theorem C121_mixed : forall rd is_zero msqrt flog linregress x idx thr fp, exact rd -> known x idx -> evens_at x idx <> [] -> odds_at x idx <> [] ->
  ~ noisy (evens_at x idx) -> ~ noisy (odds_at x idx) ->
  (thr < average (evens_at x idx) /\ average (odds_at x idx) <= thr)%Q \/ (average (evens_at x idx) <= thr /\ thr < average (odds_at x idx))%Q ->
  legacy_classify rd (fun v => Ok (is_zero v)) msqrt flog linregress thr fp (samples x idx) = Ok (ATMixed, LZero).
Proof.
  intros rd is_zero msqrt flog linregress x idx thr fp RD K NE NO N1 N2 H. destruct (decision rd RD is_zero msqrt flog linregress x idx thr K NE NO) as (mp & mo & rp & ro & M1 & M2 & R1 & R2 & A). cbv beta in A. rewrite A. clear A.
  unfold noisy in N1, N2. rewrite <- R1 in N1. rewrite <- R2 in N2. rewrite <- vgt_iff in N1, N2. change (1 # 2)%Q with half_f in *. apply not_true_is_false in N1, N2. rewrite N1, N2. cbn [orb].
  rewrite <- M1, <- M2 in H. rewrite <- !vgt_iff, <- !vgt_no in H. destruct H as [[H1 H2]|[H1 H2]]; rewrite H1, H2; reflexivity.
Qed.
(** Both averages up to the threshold: polynomial; the parameters are the smaller slope and the smaller correlation of the two regressions of
    the logarithms of the distances on those of the positions. *)
Theorem C121_poly : forall rd is_zero msqrt flog linregress x idx thr, exact rd -> known x idx -> evens_at x idx <> [] -> odds_at x idx <> [] ->
  ~ noisy (evens_at x idx) -> ~ noisy (odds_at x idx) -> (average (evens_at x idx) <= thr)%Q -> (average (odds_at x idx) <= thr)%Q ->
  legacy_classify rd (fun v => Ok (is_zero v)) msqrt flog linregress thr false (samples x idx) = Ok (ATPoly, LZero) /\
  ((forall i, In i idx -> 0 < i) -> (forall k, In k (positions idx 0 ++ positions idx 1) -> exists d, gap x k = Some d /\ (Qpower (2 # 1) (-1075) < d)%Q) ->
    exists de dp, Forall2 (fun d k => exists g, gap x k = Some g /\ (d == g)%Q) de (positions idx 0) /\ Forall2 (fun d k => exists g, gap x k = Some g /\ (d == g)%Q) dp (positions idx 1) /\
      forall s i r s' i' r',
        linregress (map (fun k => flog (inject_Z k)) (positions idx 0)) (map (fun d => Fin (flog d)) de) = (Fin s, i, Fin r) ->
        linregress (map (fun k => flog (inject_Z k)) (positions idx 1)) (map (fun d => Fin (flog d)) dp) = (Fin s', i', Fin r') ->
        exists p q, legacy_classify rd (fun v => Ok (is_zero v)) msqrt flog linregress thr true (samples x idx) = Ok (ATPoly, LPoly (Fin p) (Fin q)) /\
          least (p + 1) (Qabs s) (Qabs s') /\ least q (r * r) (r' * r')).
Proof.
  intros rd is_zero msqrt flog linregress x idx thr RD K NE NO N1 N2 H1 H2. destruct (decision rd RD is_zero msqrt flog linregress x idx thr K NE NO) as (mp & mo & rp & ro & M1 & M2 & R1 & R2 & A). cbv beta in A. rewrite !A. clear A.
  unfold noisy in N1, N2. rewrite <- R1 in N1. rewrite <- R2 in N2. rewrite <- vgt_iff in N1, N2. change (1 # 2)%Q with half_f in *. apply not_true_is_false in N1, N2. rewrite N1, N2. cbn [orb].
  rewrite <- M1 in H1. rewrite <- M2 in H2. apply vgt_no in H1, H2. rewrite H1, H2. cbn [xorb andb]. split; [reflexivity|]. intros PI PG.
  assert (L : forall o (l : list (Z * mpfv)), 0 <= o <= 1 -> Forall2 (fun p k => fst p = k /\ exists d g, snd p = Fin d /\ gap x k = Some g /\ (d == g)%Q) l (positions idx o) -> (forall k, In k (positions idx o) -> 0 < k) ->
    (forall k, In k (positions idx o) -> exists d, gap x k = Some d /\ (Qpower (2 # 1) (-1075) < d)%Q) ->
    exists de, Forall2 (fun d k => exists g, gap x k = Some g /\ (d == g)%Q) de (positions idx o) /\
      regress flog linregress l = Ok (linregress (map (fun k => flog (inject_Z k)) (positions idx o)) (map (fun d => Fin (flog d)) de))).
  { intros o l _. generalize (positions idx o). clear - RD. intros ks F P G.
    enough (exists de, Forall2 (fun d k => exists g, gap x k = Some g /\ (d == g)%Q) de ks /\
      mapM (fun p => log_int flog (fst p)) l = Ok (map (fun k => flog (inject_Z k)) ks) /\ mapM (fun p => log_mpf flog (snd p)) l = Ok (map (fun d => Fin (flog d)) de)) as (de & F1 & E1 & E2).
    { exists de. split; [exact F1|]. unfold regress. rewrite E1. cbn [bind]. rewrite E2. reflexivity. }
    induction F as [|[i d] k l ks (E & d0 & g & E' & EG & V) F IH]; [exists []; repeat split; constructor|]. cbn [fst snd] in *. subst i d.
    destruct IH as (de & F1 & E1 & E2); [intros; apply P; now right|intros; apply G; now right|]. exists (d0 :: de). split; [constructor; eauto|].
    assert (PK : 0 < k) by (apply P; now left). destruct (G k (or_introl eq_refl)) as (g' & EG' & GT). rewrite EG in EG'. injection EG' as <-.
    cbn [mapM map fst snd]. unfold log_int at 1, log_mpf at 1. destruct (Z.leb_spec k 0); [lia|]. cbn [bind]. rewrite E1. cbn [bind]. split; [reflexivity|].
    destruct (Qle_bool d0 (Qpower (2 # 1) (-1075))) eqn:B; [apply Qle_bool_iff in B; rewrite V in B; exfalso; revert B; now apply Qlt_not_le|]. cbn [bind]. rewrite E2. reflexivity. }
  assert (DP : Forall2 (fun p k => fst p = k /\ exists d g, snd p = Fin d /\ gap x k = Some g /\ (d == g)%Q) (delta_pair rd (samples x idx)) (positions idx 0) /\
    Forall2 (fun p k => fst p = k /\ exists d g, snd p = Fin d /\ gap x k = Some g /\ (d == g)%Q) (delta_odd rd (samples x idx)) (positions idx 1)).
  { assert (S : forall k, x k <> None -> x (k + 2) <> None -> exists d g, delta rd (mv (x (k + 2))) (mv (x k)) = Fin d /\ gap x k = Some g /\ (d == g)%Q).
    { intros k H H'. unfold gap. destruct (x k) as [u|]; [|congruence]. destruct (x (k + 2)) as [v|]; [|congruence]. cbn [mv delta]. eexists _, _. split; [reflexivity|]. split; [reflexivity|]. unfold rsub. now rewrite (RD (v - u)%Q). }
    clear - K S. unfold delta_pair, delta_odd, samples, positions. induction idx as [|i is IH]; [split; constructor|].
    destruct IH as [I1 I2]; [intros j k I; apply K; now right|]. assert (X : forall k, 0 <= k <= 5 -> x (i + k) <> None) by (intros k Hk; apply K; [now left|exact Hk]).
    pose proof (X 0 ltac:(lia)) as X0. rewrite Z.add_0_r in X0. pose proof (X 1 ltac:(lia)) as X1. pose proof (X 2 ltac:(lia)) as X2. pose proof (X 3 ltac:(lia)) as X3. pose proof (X 4 ltac:(lia)) as X4. pose proof (X 5 ltac:(lia)) as X5.
    pose proof (S i X0 X2) as S0. pose proof (S (i + 1)) as S1. pose proof (S (i + 2)) as S2. pose proof (S (i + 3)) as S3. rewrite <- !Z.add_assoc in S1, S2, S3. change (1 + 2) with 3 in *. change (2 + 2) with 4 in *. change (3 + 2) with 5 in *.
    cbn [map flat_map app pair_of_sample odd_of_sample six nth]. rewrite !Z.add_0_r. replace (i + 1 + 2) with (i + 3) by lia. split; (constructor; [|constructor; [|assumption]]); cbn [fst snd]; auto. }
  destruct DP as [D1 D2].
  assert (PP : forall o k, 0 <= o <= 1 -> In k (positions idx o) -> 0 < k).
  { intros o k Ho I. apply in_flat_map in I. destruct I as (i & I & J). specialize (PI i I). destruct J as [<-|[<-|[]]]; lia. }
  destruct (L 0 _ ltac:(lia) D1) as (de & F1 & E1); [intros k; apply PP; lia|intros k I; apply PG; apply in_or_app; now left|].
  destruct (L 1 _ ltac:(lia) D2) as (dp & F2 & E2); [intros k; apply PP; lia|intros k I; apply PG; apply in_or_app; now right|].
  exists de, dp. split; [exact F1|]. split; [exact F2|]. intros s i r s' i' r' G1 G2. unfold legacy_poly. fold (ds rd x idx) in E1. fold (dos rd x idx) in E2. rewrite E1, E2, G1, G2. cbn [bind vabs vsqr vpred py_minv].
  eexists _, _. split; [reflexivity|]. split; [|apply py_min_least]. pose proof (py_min_least (Qabs s) (Qabs s')) as PL. unfold least in *. destruct PL as [[P1 P2]|[P1 P2]]; [left|right]; (split; [rewrite P1; ring|exact P2]).
Qed.

(** results at the positions 0 to 11, the even ones from e, the odd ones from o *)
Definition C121_seq (e o : list Z) (i : Z) : option Q := Some (inject_Z (nth (Z.to_nat (i / 2)) (if Z.even i then e else o) 0)).
Example C121_noisy_ex : let x := C121_seq [0; 2; 3; 0; 8; 9] [0; 2; 3; 0; 2; 3] in let idx := [0; 6] in
  known x idx /\ evens_at x idx <> [] /\ odds_at x idx <> [] /\ noisy (evens_at x idx) /\ ~ noisy (odds_at x idx) /\
  legacy_classify Qred (fun v => Ok false) (fun q => q) (fun q => q) (fun _ _ => (NaN, NaN, NaN)) legacy_threshold true (samples x idx) = Ok (ATUndefined, LZero).
Proof.
  cbv zeta. split; [discriminate|]. split; [discriminate|]. split; [discriminate|]. split; [vm_compute; reflexivity|]. split; [intros H; vm_compute in H; discriminate|vm_compute; reflexivity].
Qed.
Example C121_mixed_ex : let x := C121_seq [0; 2; 3; 0; 2; 3] [0; 1; 2; 0; 1; 2] in let idx := [0; 6] in
  known x idx /\ ~ noisy (evens_at x idx) /\ ~ noisy (odds_at x idx) /\ (legacy_threshold < average (evens_at x idx))%Q /\ (average (odds_at x idx) <= legacy_threshold)%Q /\
  legacy_classify Qred (fun v => Ok false) (fun q => q) (fun q => q) (fun _ _ => (NaN, NaN, NaN)) legacy_threshold true (samples x idx) = Ok (ATMixed, LZero).
Proof.
  cbv zeta. split; [discriminate|]. split; [intros H; vm_compute in H; discriminate|]. split; [intros H; vm_compute in H; discriminate|]. split; [vm_compute; reflexivity|].
  split; [vm_compute; discriminate|vm_compute; reflexivity].
Qed.
Example C121_poly_ex : let x := fun i => Some (inject_Z i) in let idx := [1; 7] in
  known x idx /\ ~ noisy (evens_at x idx) /\ ~ noisy (odds_at x idx) /\ (average (evens_at x idx) <= legacy_threshold)%Q /\ (average (odds_at x idx) <= legacy_threshold)%Q /\
  (forall k, In k (positions idx 0 ++ positions idx 1) -> exists d, gap x k = Some d /\ (Qpower (2 # 1) (-1075) < d)%Q) /\
  legacy_classify Qred (fun v => Ok false) (fun q => q) (fun q => q) (fun xs _ => (Fin (nth 0 xs 0%Q + 2), NaN, Fin (1 # 2))) legacy_threshold true (samples x idx) = Ok (ATPoly, LPoly (Fin 2) (Fin (1 # 4))).
Proof.
  cbv zeta. split; [discriminate|]. split; [intros H; vm_compute in H; discriminate|]. split; [intros H; vm_compute in H; discriminate|]. split; [vm_compute; discriminate|].
  split; [vm_compute; discriminate|]. split; [|vm_compute; reflexivity].
  intros k I. exists 2%Q. cbn in I. split; [decompose [or] I; try contradiction; subst k; reflexivity|]. vm_compute. reflexivity.
Qed.

Print Assumptions C121_no_factor.
Print Assumptions C121_undefined.
Print Assumptions C121_exp.
Print Assumptions C121_mixed.
Print Assumptions C121_poly.

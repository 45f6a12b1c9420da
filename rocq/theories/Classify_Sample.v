(** What the estimation samples from a fraction, and what it therefore reports. *)
From Coq Require Import ZArith QArith Qabs List Bool Lia Lqa.
From Verif Require Import PyBase PyBase_Proofs Rnd Rnd_Proofs Utils_Model Spec_Utils Utils_Proofs ContFrac_Model Spec_ContFrac ContFrac_Proofs
  ContFrac_Hist ContFrac_Proofs2 ContFrac_Fast ContFrac_Est Classify_Model Spec_Classify Classify_Proofs Classify_Round ULCD_Proofs.
Import ListNotations.
Open Scope Z_scope.

Lemma last3_app {A} (l : list A) a b c e : last3 (l ++ [a; b; c; e]) = [b; c; e].
Proof.
  unfold last3. rewrite app_length. cbn [length]. replace (length l + 4 - 3)%nat with (length l + 1)%nat by lia.
  rewrite skipn_app, skipn_all2 by lia. replace (length l + 1 - length l)%nat with 1%nat by lia. reflexivity.
Qed.

Lemma fast_any rd dps msqrt flog linregress s t p : classify rd dps msqrt flog linregress s = Ok (t, p) -> t = ATFast ->
  p = APNone /\ (length (ratios rd (delta_pair rd s)) < 6)%nat /\ diminishes rd dps (delta_pair rd s) = true /\ diminishes rd dps (delta_odd rd s) = true.
Proof.
  intros E ->. unfold classify in E. cbv zeta in E.
  destruct (Z.ltb_spec (Z.of_nat (length (ratios rd (delta_pair rd s)))) 6) as [L|L].
  - injection E as E1 <-. split; [reflexivity|]. split; [lia|]. unfold first_type in E1.
    destruct (diminishes rd dps (delta_pair rd s)), (diminishes rd dps (delta_odd rd s)); cbn in E1; try discriminate. auto.
  - exfalso.
    destruct (mmean rd _) as [m|] in E; [|discriminate]. cbn [bind] in E.
    destruct (mspread rd msqrt m _) as [sp|] in E; [|discriminate]. cbn [bind] in E.
    destruct (mmean rd _) as [o|] in E; [|discriminate]. cbn [bind] in E.
    destruct (mspread rd msqrt o _) as [so|] in E; [|discriminate]. cbn [bind] in E.
    destruct (mdiv rd sp m) as [rp|] in E; [|discriminate]. cbn [bind] in E.
    destruct (mdiv rd so o) as [ro|] in E; [|discriminate]. cbn [bind] in E.
    unfold second_type in E.
    assert (B : Qle_bool ro half_f && Qle_bool rp half_f = negb (gtq rp half_f || gtq ro half_f)).
    { unfold gtq. destruct (Qle_bool ro half_f), (Qle_bool rp half_f); reflexivity. }
    rewrite B in E. destruct (gtq rp half_f || gtq ro half_f); cbn [negb orb] in E.
    + destruct (tail_above_2 _ _); cbn [orb] in E; [|discriminate].
      destruct (gtq m exp_threshold), (gtq o exp_threshold); cbn [xorb andb] in E; try discriminate.
      * destruct (exp_params _ _ _ _ _ _) in E; discriminate.
      * destruct (poly_params _ _ _ _) in E; discriminate.
    + destruct (gtq m exp_threshold), (gtq o exp_threshold); cbn [xorb andb] in E; try discriminate.
      * destruct (exp_params _ _ _ _ _ _) in E; [|discriminate]. cbn [bind] in E. destruct (first_type _ _ _ _); discriminate.
      * destruct (poly_params _ _ _ _) in E; discriminate.
Qed.

(** ---- differences below the precision ---- *)
Section Dim.
  Variable rd : Q -> Q.
  Variable d : Q.
  Hypothesis RD : rel d rd.
  Hypothesis D0 : (0 <= d)%Q.
  Hypothesis D1 : (d <= 1 # 1000)%Q.
  Variable dps : Z.
  Variable x : Z -> option Q.
  Definition tiny (c : Q) (o : option Q) : Prop := exists q, o = Some q /\ (q <= c * Qpower (10 # 1) (- dps))%Q.

  Lemma T_pos : (0 < Qpower (10 # 1) (- dps))%Q.
  Proof. apply Qpower.Qpower_0_lt. reflexivity. Qed.

  Lemma below_tiny m o : rmeq d m o -> (match m with Fin q => negb (Qle_bool (effective_zero rd dps) (Qabs q)) | NaN => false end) = true ->
    tiny (101 # 100) o.
  Proof.
    intros [p q (N0 & N1 & N2)|]; [|discriminate]. intros H. exists q. split; [reflexivity|].
    assert (L : (Qabs p < effective_zero rd dps)%Q) by (apply Qnot_le_lt; intros K; apply Qle_bool_iff in K; rewrite K in H; discriminate).
    unfold effective_zero in L. pose proof T_pos as TP. destruct (rd_near rd d RD _ (Qlt_le_weak _ _ TP)) as (_ & _ & E2).
    pose proof (Qle_Qabs p). set (T := Qpower (10 # 1) (- dps)) in *. nra.
  Qed.
  Lemma tiny_below m o : rmeq d m o -> tiny (99 # 100) o ->
    (match m with Fin q => negb (Qle_bool (effective_zero rd dps) (Qabs q)) | NaN => false end) = true.
  Proof.
    intros [p q (N0 & N1 & N2)|] (q' & E & H); [|discriminate]. injection E as <-.
    apply negb_true_iff, not_true_iff_false. rewrite Qle_bool_iff. unfold effective_zero. pose proof T_pos as TP.
    destruct (rd_near rd d RD _ (Qlt_le_weak _ _ TP)) as (_ & E1 & _). set (T := Qpower (10 # 1) (- dps)) in *.
    assert (P : (0 <= p)%Q) by nra. rewrite (Qabs_pos p P). intros K. nra.
  Qed.

  Lemma dim_two pre i' i : delta_pair rd (samples x (pre ++ [i'; i])) = delta_pair rd (samples x pre) ++
      [(i', delta rd (mv (x (i' + 2))) (mv (x i'))); (i' + 2, delta rd (mv (x (i' + 4))) (mv (x (i' + 2))));
       (i, delta rd (mv (x (i + 2))) (mv (x i))); (i + 2, delta rd (mv (x (i + 4))) (mv (x (i + 2))))] /\
    delta_odd rd (samples x (pre ++ [i'; i])) = delta_odd rd (samples x pre) ++
      [(i' + 1, delta rd (mv (x (i' + 3))) (mv (x (i' + 1)))); (i' + 3, delta rd (mv (x (i' + 5))) (mv (x (i' + 3))));
       (i + 1, delta rd (mv (x (i + 3))) (mv (x (i + 1)))); (i + 3, delta rd (mv (x (i + 5))) (mv (x (i + 3))))].
  Proof. unfold delta_pair, delta_odd, samples. rewrite map_app, !flat_map_app. cbn [map flat_map app pair_of_sample odd_of_sample six nth]. rewrite !Z.add_0_r. split; reflexivity. Qed.

  Lemma dim_iff pre i' i (c : Q) (P : (forall m o, rmeq d m o -> (match m with Fin q => negb (Qle_bool (effective_zero rd dps) (Qabs q)) | NaN => false end) = true -> tiny c o)) :
    (diminishes rd dps (delta_pair rd (samples x (pre ++ [i'; i]))) = true -> tiny c (gap x (i' + 2)) /\ tiny c (gap x i) /\ tiny c (gap x (i + 2))) /\
    (diminishes rd dps (delta_odd rd (samples x (pre ++ [i'; i]))) = true -> tiny c (gap x (i' + 3)) /\ tiny c (gap x (i + 1)) /\ tiny c (gap x (i + 3))).
  Proof.
    destruct (dim_two pre i' i) as [-> ->]. unfold diminishes. rewrite !last3_app. split; intros H;
      apply andb_true_iff in H; destruct H as [_ H]; cbn [forallb snd] in H; rewrite !andb_true_iff in H; destruct H as (H1 & H2 & H3 & _);
      (split; [|split]); first [refine (P _ _ _ H1); apply (delta_near rd d RD); lia|refine (P _ _ _ H2); apply (delta_near rd d RD); lia|refine (P _ _ _ H3); apply (delta_near rd d RD); lia].
  Qed.

  Lemma dim_intro pre i' i :
    (tiny (99 # 100) (gap x (i' + 2)) /\ tiny (99 # 100) (gap x i) /\ tiny (99 # 100) (gap x (i + 2)) ->
      diminishes rd dps (delta_pair rd (samples x (pre ++ [i'; i]))) = true) /\
    (tiny (99 # 100) (gap x (i' + 3)) /\ tiny (99 # 100) (gap x (i + 1)) /\ tiny (99 # 100) (gap x (i + 3)) ->
      diminishes rd dps (delta_odd rd (samples x (pre ++ [i'; i]))) = true).
  Proof.
    destruct (dim_two pre i' i) as [-> ->]. unfold diminishes. rewrite !last3_app, !app_length. cbn [length].
    split; intros (H1 & H2 & H3); (apply andb_true_iff; split; [apply Z.ltb_lt; lia|]); cbn [forallb snd]; rewrite !andb_true_iff;
      (split; [|split; [|split; [|reflexivity]]]);
      first [refine (tiny_below _ _ _ H1); apply (delta_near rd d RD); lia|refine (tiny_below _ _ _ H2); apply (delta_near rd d RD); lia|refine (tiny_below _ _ _ H3); apply (delta_near rd d RD); lia].
  Qed.

  Lemma dim_short idx : (length idx < 2)%nat -> diminishes rd dps (delta_pair rd (samples x idx)) = false.
  Proof.
    intros H. destruct idx as [|i [|j idx]]; [reflexivity|reflexivity|cbn in H; lia].
  Qed.

  Lemma split_two (idx : list Z) : (2 <= length idx)%nat -> exists pre i' i, idx = pre ++ [i'; i].
  Proof.
    intros H. destruct (exists_last (l := idx)) as (l & i & ->); [intros ->; cbn in H; lia|].
    rewrite app_length in H. cbn [length] in H. destruct (exists_last (l := l)) as (pre & i' & ->); [intros ->; cbn in H; lia|].
    exists pre, i', i. rewrite <- app_assoc. reflexivity.
  Qed.
End Dim.

(** ---- the samples ---- *)
(** convergent number k of the fraction with the given coefficients, as computed with rounding rd *)
Definition convergent (rd : Q -> Q) (a b : list (list Z)) (k : Z) : option Q :=
  let ab := icoefs a b (map Z.of_nat (seq 1 (Z.to_nat k))) in
  if contQ ab =? 0 then None else Some (rd (rd (inject_Z (contP (icoef a 0) ab)) / rd (inject_Z (contQ ab))))%Q.

Section Sample.
  Variable rd : Q -> Q.
  Variable d : Q.
  Hypothesis RD : rel d rd.
  Hypothesis D0 : (0 <= d < 1)%Q.
  Variables a b : list (list Z).
  Variable av : bool.
  Variable tg : option Q.
  Variable c0 : contfrac.
  Hypothesis HF : fresh a b av false tg c0.
  Hypothesis NB : never_bad av b.
  Notation conv := (convergent rd a b).

  Lemma pq_conv k : pq_value rd (contP (icoef a 0) (icoefs a b (upto k))) (contQ (icoefs a b (upto k))) = mv (conv k).
  Proof.
    unfold convergent, pq_value. fold (upto k). set (q := contQ _). cbv zeta.
    assert (Z : Qeq_bool (rd (inject_Z q)) 0 = (q =? 0)).
    { apply eq_true_iff_eq. rewrite Qeq_bool_iff, Z.eqb_eq. pose proof (RD (inject_Z q)) as R. split.
      - intros H. rewrite H in R. destruct (Z.eq_dec q 0) as [|N]; [assumption|exfalso].
        assert (P : (0 < Qabs (inject_Z q))%Q).
        { apply Qnot_le_lt. intros K. apply Qabs_Qle_condition in K. destruct K as [K1 K2]. unfold Qle in K1, K2. cbn in K1, K2. lia. }
        assert (E : (Qabs (0 - inject_Z q) == Qabs (inject_Z q))%Q) by (rewrite <- Qabs_opp; apply Qabs_wd; ring).
        rewrite E in R. nra.
      - intros ->. change (inject_Z 0) with 0%Q in *. change (Qabs 0) with 0%Q in R. rewrite Qmult_0_r in R.
        apply Qabs_Qle_condition in R. lra. }
    rewrite Z. destruct (q =? 0); reflexivity.
  Qed.

  Definition at_res (k : Z) (c : contfrac) : Prop := at_iter a b c0 k c /\ cf_result c = mv (conv k).

  Lemma at_val k c c' : 0 <= k -> at_iter a b c0 k c' -> cf_log c' = [with_res rd (last (cf_log c) (cf_params c)) (cur_mat c')] -> cf_result c' = mv (conv k).
  Proof.
    intros K (_ & _ & M & _) L. unfold cf_result. rewrite L. cbn [last with_res pres]. rewrite <- pq_conv, M.
    destruct (fresh_inv _ _ _ _ _ _ HF) as (_ & _ & _ & _ & Hf & _). rewrite Hf, zrange_1. fold (upto k).
    destruct (msteps_contPQ (icoef a 0) (icoefs a b (upto k))) as [-> ->]. reflexivity.
  Qed.

  Lemma res_gen n c : 0 <= n -> same_static c0 c -> exists c', cf_gen0 rd n true c = (c', Ok tt) /\ at_res n c'.
  Proof.
    intros N S. pose proof (hinv_gen rd a b av false tg c0 c n true HF S) as G. rewrite find_never_bad in G by exact NB.
    destruct G as (c' & E & I & X). exists c'. split; [exact E|]. split; [exact I|]. destruct (X eq_refl) as [X1 _].
    eapply (at_val n c0 c' N I). rewrite X1.
    destruct (fresh_inv _ _ _ _ _ _ HF) as (_ & _ & _ & _ & _ & _ & _ & _ & Hl & _). rewrite Hl. reflexivity.
  Qed.
  Lemma res_add k n c : 0 <= k -> 0 <= n -> at_res k c -> exists c', cf_add rd n true c = (c', Ok tt) /\ at_res (k + n) c'.
  Proof.
    intros K N (A & _). pose proof (hinv_add rd a b av false tg c0 k (zrange 1 (1 + k)) c n true HF A) as G. rewrite find_never_bad in G by exact NB.
    destruct G as (c' & E & I & X). exists c'. split; [exact E|]. destruct (X eq_refl) as [X1 _].
    assert (A' : at_iter a b c0 (k + n) c') by (unfold at_iter; rewrite <- zrange_split by assumption; exact I).
    split; [exact A'|]. eapply at_val; [lia|exact A'|exact X1].
  Qed.

  Lemma five_vals n : forall k c acc, 0 <= k -> at_res k c ->
    exists c', five_res rd n c acc = (c', Ok (acc ++ map (fun j => mv (conv (k + Z.of_nat j))) (seq 0 (S n)))) /\ at_res (k + Z.of_nat n) c'.
  Proof.
    induction n as [|n IH]; intros k c acc K A; cbn [five_res].
    - exists c. rewrite (proj2 A). cbn [seq map Z.of_nat]. rewrite Z.add_0_r. auto.
    - destruct (res_add k 1 c K ltac:(lia) A) as (c1 & E & A1). rewrite E.
      destruct (IH (k + 1) c1 (acc ++ [cf_result c]) ltac:(lia) A1) as (c' & E' & A'). exists c'. rewrite E'. split.
      + do 2 f_equal. rewrite (proj2 A), <- app_assoc. f_equal. change (seq 0 (S (S n))) with (0%nat :: seq 1 (S n)). cbn [map app].
        rewrite Z.add_0_r. f_equal. rewrite <- (seq_shift (S n) 0), map_map. apply map_ext. intros j. do 2 f_equal. lia.
      + replace (k + Z.of_nat (S n)) with (k + 1 + Z.of_nat n) by lia. exact A'.
  Qed.
  Lemma five_six k c : 0 <= k -> at_res k c -> exists c', five_res rd 5 c [] = (c', Ok (map mv (six conv k))) /\ at_res (k + 5) c'.
  Proof. intros K A. destruct (five_vals 5 k c [] K A) as (c' & E & A'). exists c'. split; [exact E|exact A']. Qed.

  Lemma loop_samples step : 5 <= step -> forall idx k c acc, 0 <= k -> at_res (k + 5) c ->
    (forall t, (t < length idx)%nat -> nth_error idx t = Some (k + step + step * Z.of_nat t)) ->
    exists c', sample_loop rd idx step c acc = (c', Ok (acc ++ samples conv idx)) /\ same_static c0 c'.
  Proof.
    intros ST. induction idx as [|i idx IH]; intros k c acc K A AP; cbn [sample_loop].
    - exists c. unfold samples. cbn [map]. rewrite app_nil_r. split; [reflexivity|exact (proj1 (proj1 A))].
    - pose proof (AP 0%nat ltac:(cbn [length]; lia)) as A0. cbn [nth_error Z.of_nat] in A0. injection A0 as Ei.
      destruct (res_add (k + 5) (step - 5) c ltac:(lia) ltac:(lia) A) as (c1 & E1 & A1). rewrite E1.
      replace (k + 5 + (step - 5)) with i in A1 by lia.
      destruct (five_six i c1 ltac:(lia) A1) as (c2 & E2 & A2). rewrite E2.
      destruct (IH i c2 (acc ++ [(i, map mv (six conv i))]) ltac:(lia) A2) as (c' & E3 & A3).
      { intros t T. specialize (AP (S t) ltac:(cbn [length]; lia)). cbn [nth_error] in AP. rewrite AP. f_equal. lia. }
      exists c'. rewrite E3. split; [|exact A3]. do 2 f_equal. rewrite <- app_assoc. reflexivity.
  Qed.

  Theorem inner_samples cls iters cutoff step c : same_static c0 c -> 0 <= cutoff -> 5 <= step ->
    exists c', cf_inner_alg rd cls iters cutoff step c =
      (c', cls (samples conv (cutoff :: zrange_step (cutoff + step) (iters + 1) step))) /\ same_static c0 c'.
  Proof.
    intros S CU ST. unfold cf_inner_alg. destruct (res_gen cutoff c CU S) as (c1 & -> & A1).
    destruct (five_six cutoff c1 CU A1) as (c2 & -> & A2).
    unfold py_range3. destruct (Z.eqb_spec step 0); [lia|]. destruct (Z.gtb_spec step 0); [|lia].
    destruct (loop_samples step ST (zrange_step (cutoff + step) (iters + 1) step) cutoff c2 [(cutoff, map mv (six conv cutoff))] CU A2) as (c' & E & S').
    { intros t T. destruct (nth_error (zrange_step (cutoff + step) (iters + 1) step) t) as [y|] eqn:NE; [|apply nth_error_None in NE; lia].
      apply (ULCD_Proofs.zrange_step_spec (cutoff + step) (iters + 1) step ltac:(lia) t y) in NE. f_equal. lia. }
    exists c'. rewrite E. split; [reflexivity|exact S'].
  Qed.

  (** a first pass that is not classified 'fast' decides the estimate *)
  Theorem estimate_first cls fuel iters cutoff step c t p : same_static c0 c -> 0 <= cutoff -> 5 <= step ->
    cls (samples conv (cutoff :: zrange_step (cutoff + step) (iters + 1) step)) = Ok (t, p) -> t <> ATFast ->
    exists c', cf_estimate rd cls fuel iters cutoff step c = Some (c', Ok tt) /\ cf_atype c' = t /\ cf_aparams c' = p.
  Proof.
    intros S CU ST E N. destruct (inner_samples cls iters cutoff step c S CU ST) as (c1 & E1 & S1). unfold cf_estimate. rewrite E1, E.
    assert (L1 : forall f, est_loop1 rd cls f t p iters cutoff step c1 = Some (c1, Ok (t, p, cutoff))) by (intros [|f]; cbn [est_loop1]; destruct t; try congruence; reflexivity).
    assert (L2 : forall f k, est_loop2 rd cls f t p k cutoff c1 = Some (c1, Ok (t, p))) by (intros [|f] k; cbn [est_loop2]; destruct t; try congruence; reflexivity).
    rewrite L1. destruct (cutoff =? 0); rewrite ?L2; eexists; split; try reflexivity; split; reflexivity.
  Qed.

  Theorem estimate_raises cls fuel iters cutoff step c e : same_static c0 c -> 0 <= cutoff -> 5 <= step ->
    cls (samples conv (cutoff :: zrange_step (cutoff + step) (iters + 1) step)) = Raise e ->
    exists c', cf_estimate rd cls fuel iters cutoff step c = Some (c', Raise e).
  Proof.
    intros S CU ST E. destruct (inner_samples cls iters cutoff step c S CU ST) as (c1 & E1 & S1). unfold cf_estimate. rewrite E1, E. eauto.
  Qed.
End Sample.

(** The classification with rounded arithmetic: every operation has a relative error of at most d. *)
From Coq Require Import ZArith QArith Qabs Qpower Qfield List Bool Lia Lqa Psatz.
From Verif Require Import PyBase PyBase_Proofs Rnd Rnd_Proofs ContFrac_Model Classify_Model Spec_Classify Classify_Proofs.
Import ListNotations.
Open Scope Z_scope.

(** p is q up to a relative error e, both not negative *)
Definition near (e p q : Q) : Prop := (0 <= q /\ (1 - e) * q <= p <= (1 + e) * q)%Q.

Inductive rmeq (e : Q) : mpfv -> option Q -> Prop :=
| rmeq_fin p q : near e p q -> rmeq e (Fin p) (Some q)
| rmeq_nan : rmeq e NaN None.

Lemma near_zero e p q : (0 <= e < 1)%Q -> near e p q -> (p == 0)%Q <-> (q == 0)%Q.
Proof. intros E (Q0 & L & U). split; intros H; nra. Qed.
Lemma near_pos e p q : (0 <= e < 1)%Q -> near e p q -> (0 < q)%Q -> (0 < p)%Q.
Proof. intros E (Q0 & L & U) H. nra. Qed.

Section Rel.
  Variable rd : Q -> Q.
  Variable d : Q.
  Hypothesis RD : rel d rd.
  Hypothesis D0 : (0 <= d)%Q.
  Hypothesis D1 : (d <= 1 # 1000)%Q.

  Lemma rd_near q : (0 <= q)%Q -> near d (rd q) q.
  Proof.
    intros H. pose proof (RD q) as R. rewrite (Qabs_pos q H) in R. apply Qabs_Qle_condition in R. unfold near. split; [exact H|]. lra.
  Qed.
  Lemma rd_near_abs q : near d (Qabs (rd q)) (Qabs q).
  Proof.
    pose proof (Qabs_nonneg q) as P. split; [exact P|]. pose proof (RD q) as R.
    assert (A : (Qabs (rd q) <= Qabs (rd q - q) + Qabs q)%Q).
    { eapply Qle_trans; [|apply Qabs_triangle]. apply Qle_lteq. right. apply Qabs_wd. ring. }
    assert (B : (Qabs q <= Qabs (rd q - q) + Qabs (rd q))%Q).
    { eapply Qle_trans; [|rewrite <- (Qabs_opp (rd q - q)); apply Qabs_triangle]. apply Qle_lteq. right. apply Qabs_wd. ring. }
    lra.
  Qed.

  Variable x : Z -> option Q.

  Lemma delta_near i j : j = i + 2 -> rmeq d (delta rd (mv (x j)) (mv (x i))) (gap x i).
  Proof.
    intros ->. unfold delta, gap. destruct (x (i + 2)) as [v|], (x i) as [u|]; cbn [mv]; constructor.
    unfold rsub. apply rd_near_abs.
  Qed.

  Lemma usable_near m o : rmeq d m o ->
    match o with
    | Some q => if Qeq_bool q 0 then usable m = None else exists p, usable m = Some p /\ near d p q
    | None => usable m = None
    end.
  Proof.
    intros [p q E|]; cbn [usable]; [|reflexivity].
    assert (Z : Qeq_bool p 0 = Qeq_bool q 0) by (apply eq_true_iff_eq; rewrite !Qeq_bool_iff; apply (near_zero d); [lra|exact E]).
    rewrite Z. destruct (Qeq_bool q 0); [reflexivity|]. exists p. split; [reflexivity|exact E].
  Qed.

  Lemma div_near p q u v : near d p u -> near d q v -> (0 < u)%Q -> (0 < v)%Q -> near (5 * d) (rdiv rd p q) (u / v).
  Proof.
    intros P Q U V. pose proof (near_pos d p u ltac:(lra) P U) as P0. pose proof (near_pos d q v ltac:(lra) Q V) as Q0.
    assert (UV : (0 < u / v)%Q) by (apply Qlt_shift_div_l; lra).
    assert (PQ : (0 < p / q)%Q) by (apply Qlt_shift_div_l; lra).
    unfold rdiv. destruct (rd_near (p / q) ltac:(lra)) as (_ & L & H). destruct P as (_ & PL & PH). destruct Q as (_ & QL & QH).
    set (t := (u / v)%Q) in *. assert (EU : (u == t * v)%Q) by (unfold t; field; lra).
    set (w := (p / q)%Q) in *. assert (EP : (p == w * q)%Q) by (unfold w; field; lra).
    assert (A : (w * (1 - d) <= (1 + d) * t)%Q).
    { assert (X : (w * (1 - d) * v <= (1 + d) * t * v)%Q) by nra. apply Qmult_le_r in X; [exact X|exact V]. }
    assert (B : ((1 - d) * t <= w * (1 + d))%Q).
    { assert (X : ((1 - d) * t * v <= w * (1 + d) * v)%Q) by nra. apply Qmult_le_r in X; [exact X|exact V]. }
    assert (A' : (w <= (1 + 3 * d) * t)%Q).
    { assert (X : (w * (1 - d) <= (1 + 3 * d) * t * (1 - d))%Q) by nra. apply Qmult_le_r in X; [exact X|lra]. }
    assert (B' : ((1 - 3 * d) * t <= w)%Q).
    { assert (X : ((1 - 3 * d) * t * (1 + d) <= w * (1 + d))%Q) by nra. apply Qmult_le_r in X; [exact X|lra]. }
    split; [lra|]. split; nra.
  Qed.

  Definition rpaired (ds : list (Z * mpfv)) (is : list Z) : Prop :=
    exists l, ds = flat_map (fun t => [(fst (fst t), snd (fst t)); (fst (fst t) + 2, snd t)]) l /\
      Forall2 (fun t i => fst (fst t) = i /\ rmeq d (snd (fst t)) (gap x i) /\ rmeq d (snd t) (gap x (i + 2))) l is.

  Lemma ratios_near ds is : rpaired ds is ->
    Forall2 (fun p q => near (5 * d) (snd p) q) (ratios rd ds) (somes (map (shrink x) is)).
  Proof.
    intros (l & -> & F). induction F as [|[[i m] e] j l is (E & D2 & D3) F IH]; [constructor|].
    cbn [fst snd] in *. subst j. cbn [flat_map app ratios fst snd map somes]. unfold shrink.
    pose proof (usable_near _ _ D2) as U1. pose proof (usable_near _ _ D3) as U2.
    pose proof (gap_nonneg x i) as N1. pose proof (gap_nonneg x (i + 2)) as N2.
    destruct (gap x i) as [u|]; [|rewrite U1; exact IH].
    destruct (Qeq_bool u 0) eqn:B1; [rewrite U1; destruct (gap x (i + 2)); exact IH|]. destruct U1 as (p & -> & Ep).
    destruct (gap x (i + 2)) as [v|]; [|rewrite U2; exact IH].
    destruct (Qeq_bool v 0) eqn:B2; [rewrite U2; exact IH|]. destruct U2 as (q & -> & Eq).
    cbn [somes]. constructor; [|exact IH]. cbn [snd]. specialize (N1 _ eq_refl). specialize (N2 _ eq_refl).
    apply Qeq_bool_neq in B1. apply Qeq_bool_neq in B2.
    apply div_near; [exact Ep|exact Eq| |]; apply Qnot_le_lt; intros K; [apply B1|apply B2]; lra.
  Qed.

  Lemma pair_rpaired idx : rpaired (delta_pair rd (samples x idx)) idx.
  Proof.
    exists (map (fun i => ((i, delta rd (mv (x (i + 2))) (mv (x i))), delta rd (mv (x (i + 4))) (mv (x (i + 2))))) idx).
    split.
    - unfold delta_pair, samples. induction idx as [|i idx IH]; [reflexivity|]. cbn [map flat_map]. rewrite IH.
      unfold pair_of_sample, six. cbn [map nth fst snd]. rewrite Z.add_0_r. reflexivity.
    - induction idx as [|i idx IH]; [constructor|]. cbn [map]. constructor; [|exact IH]. cbn [fst snd].
      split; [reflexivity|]. split; apply delta_near; lia.
  Qed.
  Lemma odd_rpaired idx : rpaired (delta_odd rd (samples x idx)) (map (fun i => i + 1) idx).
  Proof.
    exists (map (fun i => ((i + 1, delta rd (mv (x (i + 3))) (mv (x (i + 1)))), delta rd (mv (x (i + 5))) (mv (x (i + 3))))) idx).
    split.
    - unfold delta_odd, samples. induction idx as [|i idx IH]; [reflexivity|]. cbn [map flat_map]. rewrite IH.
      unfold odd_of_sample, six. cbn [map nth fst snd]. replace (i + 1 + 2) with (i + 3) by lia. reflexivity.
    - induction idx as [|i idx IH]; [constructor|]. cbn [map]. constructor; [|exact IH]. cbn [fst snd].
      split; [reflexivity|]. split; [apply delta_near; lia|]. replace (i + 3) with (i + 1 + 2) by lia. apply delta_near; lia.
  Qed.
  Lemma ev_near idx : Forall2 (fun p q => near (5 * d) (snd p) q) (ratios rd (delta_pair rd (samples x idx))) (evens_at x idx).
  Proof. apply ratios_near, pair_rpaired. Qed.
  Lemma od_near idx : Forall2 (fun p q => near (5 * d) (snd p) q) (ratios rd (delta_odd rd (samples x idx))) (odds_at x idx).
  Proof. unfold odds_at. rewrite <- map_map. apply ratios_near, odd_rpaired. Qed.

  Lemma near_map (l : list (Z * Q)) l' (A B : Q) : Forall2 (fun p q => near (5 * d) (snd p) q) l l' -> (0 <= A)%Q ->
    Forall (fun q => A <= q <= B)%Q l' -> Forall (fun q => (1 - 5 * d) * A <= q <= (1 + 5 * d) * B)%Q (map snd l).
  Proof.
    intros F PA. induction F as [|p q l l' (N1 & N2 & N3) F IH]; intros H; [constructor|]. inversion_clear H as [|? ? H1 H2].
    cbn [map]. constructor; [|auto]. split; nra.
  Qed.

  (** ---- sums and means ---- *)
  Lemma msum_bounds l A B : (0 <= A)%Q -> Forall (fun q => A <= q <= B)%Q l -> (inject_Z (Z.of_nat (length l)) * d <= 1 # 1000)%Q ->
    let k := inject_Z (Z.of_nat (length l)) in
    (A * k * (1 - k * d) <= msum rd l <= B * k * (1 + 2 * (k * d)))%Q.
  Proof.
    intros PA. unfold msum. revert l. apply (rev_ind (fun l => Forall (fun q => A <= q <= B)%Q l -> (inject_Z (Z.of_nat (length l)) * d <= 1 # 1000)%Q ->
      let k := inject_Z (Z.of_nat (length l)) in (A * k * (1 - k * d) <= fold_left (radd rd) l 0 <= B * k * (1 + 2 * (k * d)))%Q)).
    - intros _ _. cbn [length fold_left]. change (inject_Z (Z.of_nat 0)) with 0%Q. cbv zeta. split; apply Qle_lteq; right; ring.
    - intros q l IH F K. rewrite fold_left_app. cbn [fold_left].
      apply Forall_app in F. destruct F as [F1 F2]. inversion_clear F2 as [|? ? [Q1 Q2] _].
      rewrite app_length in *. cbn [length] in *. rewrite Nat2Z.inj_add, inject_Z_plus in *. change (inject_Z (Z.of_nat 1)) with 1%Q in *.
      assert (KP : (0 <= inject_Z (Z.of_nat (length l)))%Q) by (change 0%Q with (inject_Z 0); rewrite <- Zle_Qle; lia).
      set (k := inject_Z (Z.of_nat (length l))) in *.
      destruct (IH F1 ltac:(nra)) as [I1 I2]. set (acc := fold_left (radd rd) l 0%Q) in *. cbv zeta.
      assert (KD : (0 <= k * d <= 1 # 1000)%Q) by (split; nra).
      assert (AC : (0 <= acc)%Q) by (assert (0 <= A * k)%Q by nra; nra).
      assert (B0 : (0 <= B)%Q) by lra.
      unfold radd. destruct (rd_near (acc + q) ltac:(lra)) as (_ & L & H). split.
      + eapply Qle_trans; [|exact L].
        assert (X : (A * (k + 1) - A * k * (k * d) <= acc + q)%Q) by lra.
        apply Qle_trans with ((1 - d) * (A * (k + 1) - A * k * (k * d)))%Q; [|apply Qmult_le_l; [lra|exact X]].
        assert (Y : (0 <= A * (k * d))%Q) by nra. assert (W : (0 <= A * (k * d) * (k * d))%Q) by nra.
        setoid_replace ((1 - d) * (A * (k + 1) - A * k * (k * d)))%Q with (A * (k + 1) * (1 - (k + 1) * d) + A * (k * d) + A * (k * d) * (k * d))%Q by ring. lra.
      + eapply Qle_trans; [exact H|].
        assert (X : (acc + q <= B * (k + 1) + B * k * (2 * (k * d)))%Q) by lra.
        apply Qle_trans with ((1 + d) * (B * (k + 1) + B * k * (2 * (k * d))))%Q; [apply Qmult_le_l; [lra|exact X]|].
        assert (Y : (0 <= B * (k * d))%Q) by nra. assert (W : (B * (k * d) * (k * d) <= B * (k * d))%Q) by nra.
        assert (V : (0 <= B * d)%Q) by nra.
        setoid_replace ((1 + d) * (B * (k + 1) + B * k * (2 * (k * d))))%Q
          with (B * (k + 1) + 2 * (B * k * (k * d)) + B * (k * d) + B * d + 2 * (B * (k * d) * (k * d)))%Q by ring.
        setoid_replace (B * (k + 1) * (1 + 2 * ((k + 1) * d)))%Q with (B * (k + 1) + 2 * (B * k * (k * d)) + 4 * (B * (k * d)) + 2 * (B * d))%Q by ring.
        lra.
  Qed.

  Lemma mdiv_near a b : (0 <= a)%Q -> (0 < b)%Q -> exists q, mdiv rd a b = Ok q /\ near d q (a / b).
  Proof.
    intros A B. unfold mdiv. destruct (Qeq_bool b 0) eqn:E; [apply Qeq_bool_iff in E; lra|].
    eexists. split; [reflexivity|]. unfold rdiv. apply rd_near. apply Qle_shift_div_l; lra.
  Qed.

  Lemma mmean_bounds l A B : l <> [] -> (0 <= A)%Q -> Forall (fun q => A <= q <= B)%Q l ->
    (inject_Z (Z.of_nat (length l)) * d <= 1 # 1000)%Q ->
    exists m, mmean rd l = Ok m /\ ((99 # 100) * A <= m <= (101 # 100) * B)%Q.
  Proof.
    intros N PA F K. pose proof (msum_bounds l A B PA F K) as [S1 S2]. pose proof (len_pos l N) as P.
    unfold mmean. set (k := inject_Z (Z.of_nat (length l))) in *. set (sm := msum rd l) in *.
    assert (KD : (0 <= k * d)%Q) by nra.
    assert (B0 : (0 <= B)%Q) by (destruct l as [|q l]; [congruence|]; inversion_clear F as [|? ? F1 F2]; lra).
    assert (SM : (0 <= sm)%Q) by (assert (0 <= A * k)%Q by nra; nra).
    destruct (mdiv_near sm k SM P) as (q & E & _ & L & H). exists q. split; [exact E|].
    set (t := (sm / k)%Q) in *. assert (ET : (sm == t * k)%Q) by (unfold t; field; lra).
    assert (T1 : (A * (1 - k * d) <= t)%Q).
    { assert (X : (A * (1 - k * d) * k <= t * k)%Q) by (rewrite <- ET; lra). apply Qmult_le_r in X; assumption. }
    assert (T2 : (t <= B * (1 + 2 * (k * d)))%Q).
    { assert (X : (t * k <= B * (1 + 2 * (k * d)) * k)%Q) by (rewrite <- ET; lra). apply Qmult_le_r in X; assumption. }
    split; nra.
  Qed.

  Lemma mspread_bounds msqrt l m W : sqrt_close msqrt -> l <> [] -> (0 <= W)%Q -> Forall (fun q => Qabs (q - m) <= W)%Q l ->
    (inject_Z (Z.of_nat (length l)) * d <= 1 # 1000)%Q ->
    exists s, mspread rd msqrt m l = Ok s /\ (0 <= s)%Q /\ (s * s <= (104 # 100) * (W * W))%Q.
  Proof.
    intros SQ N W0 F K. pose proof (len_pos l N) as P. unfold mspread.
    set (f := fun r => let d0 := rsub rd r m in rmul rd d0 d0).
    assert (FF : Forall (fun q => 0 <= q <= (101 # 100) * (W * W))%Q (map f l)).
    { apply Forall_forall. intros q I. apply in_map_iff in I. destruct I as (r & <- & I). rewrite Forall_forall in F. specialize (F r I).
      unfold f. cbv zeta. unfold rmul, rsub. destruct (rd_near_abs (r - m)) as (A1 & _ & A2). set (y := rd (r - m)) in *.
      assert (YY : (0 <= y * y <= (1002001 # 1000000) * (W * W))%Q).
      { assert (E : (y * y == Qabs y * Qabs y)%Q) by (rewrite <- Qabs_Qmult; symmetry; apply Qabs_pos; nra).
        rewrite E. pose proof (Qabs_nonneg y). assert (Qabs y <= (1001 # 1000) * W)%Q by nra. split; nra. }
      destruct (rd_near (y * y) ltac:(lra)) as (_ & B1 & B2). split; nra. }
    destruct (msum_bounds (map f l) 0 _ ltac:(lra) FF ltac:(rewrite map_length; exact K)) as [S1 S2]. rewrite map_length in *.
    set (k := inject_Z (Z.of_nat (length l))) in *. set (sm := msum rd (map f l)) in *.
    assert (KD : (0 <= k * d)%Q) by nra.
    assert (WW : (0 <= W * W)%Q) by nra.
    assert (S3 : (sm <= (102 # 100) * (k * (W * W)))%Q) by (assert (0 <= k * (W * W))%Q by nra; nra).
    assert (S0 : (0 <= sm)%Q) by lra.
    destruct (SQ sm S0) as (Q0 & _ & Q2). set (z := msqrt sm) in *.
    destruct (mdiv_near z k Q0 P) as (s & E & T0 & T1 & T2). exists s. split; [exact E|].
    set (t := (z / k)%Q) in *. assert (ET : (z == t * k)%Q) by (unfold t; field; lra).
    assert (K1 : (1 <= k)%Q).
    { unfold k. change 1%Q with (inject_Z 1). rewrite <- Zle_Qle. destruct l; [congruence|cbn [length]; lia]. }
    assert (TT : (t * t <= (1031 # 1000) * (W * W))%Q).
    { assert (X : (t * t * k <= (1031 # 1000) * (W * W) * k)%Q).
      { apply Qle_trans with (t * t * (k * k))%Q; [assert (0 <= t * t)%Q by nra; nra|].
        setoid_replace (t * t * (k * k))%Q with (z * z)%Q by (rewrite ET; ring). nra. }
      apply Qmult_le_r in X; assumption. }
    split; [nra|]. assert (s <= (1001 # 1000) * t)%Q by nra. assert (0 <= s)%Q by nra. nra.
  Qed.
End Rel.

Lemma somes_length {A} (l : list (option A)) : (length (somes l) <= length l)%nat.
Proof. induction l as [|[a|] l IH]; cbn [somes length]; lia. Qed.

(** the decision, once the means and spreads are known (no assumption on the arithmetic) *)
Lemma classify_eq rd dps msqrt flog linregress s m sp o so rp ro :
  (6 <= length (ratios rd (delta_pair rd s)))%nat ->
  mmean rd (map snd (ratios rd (delta_pair rd s))) = Ok m -> mspread rd msqrt m (map snd (ratios rd (delta_pair rd s))) = Ok sp ->
  mmean rd (map snd (ratios rd (delta_odd rd s))) = Ok o -> mspread rd msqrt o (map snd (ratios rd (delta_odd rd s))) = Ok so ->
  mdiv rd sp m = Ok rp -> mdiv rd so o = Ok ro ->
  classify rd dps msqrt flog linregress s =
    second_type rd msqrt flog linregress
      (if gtq rp half_f || gtq ro half_f
       then (if tail_above_2 (ratios rd (delta_pair rd s)) (ratios rd (delta_odd rd s)) then ATSuperExp else ATUndefined)
       else first_type rd dps (delta_pair rd s) (delta_odd rd s))
      (Qle_bool ro half_f && Qle_bool rp half_f) m o (delta_pair rd s) (delta_odd rd s).
Proof.
  intros H E1 E2 E3 E4 E5 E6. unfold classify. cbv zeta.
  replace (Z.of_nat (length (ratios rd (delta_pair rd s))) <? 6) with false by lia.
  rewrite E1. cbn [bind]. rewrite E2. cbn [bind]. rewrite E3. cbn [bind]. rewrite E4. cbn [bind]. rewrite E5. cbn [bind]. rewrite E6.
  reflexivity.
Qed.

Section DecideR.
  Variable rd : Q -> Q.
  Variable d : Q.
  Hypothesis RD : rel d rd.
  Hypothesis D0 : (0 <= d)%Q.
  Variables (dps : Z) (msqrt flog : Q -> Q) (linregress : list Q -> list mpfv -> mpfv * mpfv * mpfv).
  Hypothesis SQ : sqrt_close msqrt.
  Variable x : Z -> option Q.
  Variable idx : list Z.
  Hypothesis BUD : (inject_Z (1 + Z.of_nat (length idx)) * d <= 1 # 1000)%Q.
  Notation ds := (delta_pair rd (samples x idx)).
  Notation dos := (delta_odd rd (samples x idx)).
  Notation cl := (classify rd dps msqrt flog linregress (samples x idx)).

  Lemma lenZ n : (0 <= inject_Z (Z.of_nat n))%Q.
  Proof. change 0%Q with (inject_Z 0). rewrite <- Zle_Qle. lia. Qed.
  Lemma budget n : (n <= length idx)%nat -> (inject_Z (Z.of_nat n) * d <= 1 # 1000)%Q.
  Proof.
    intros H. eapply Qle_trans; [|exact BUD]. apply Qmult_le_compat_r; [|exact D0]. rewrite <- Zle_Qle. lia.
  Qed.
  Lemma d_small : (d <= 1 # 1000)%Q.
  Proof.
    eapply Qle_trans; [|exact BUD]. rewrite inject_Z_plus. pose proof (lenZ (length idx)). change (inject_Z 1) with 1%Q. nra.
  Qed.
  Let D1 := d_small.
  Let EV := ev_near rd d RD D0 d_small x idx.
  Let OD := od_near rd d RD D0 d_small x idx.

  Lemma ev_len : length (ratios rd ds) = length (evens_at x idx) /\ (length (evens_at x idx) <= length idx)%nat.
  Proof. split; [exact (Forall2_len _ _ _ EV)|]. unfold evens_at. eapply Nat.le_trans; [apply somes_length|]. rewrite map_length. lia. Qed.
  Lemma od_len : length (ratios rd dos) = length (odds_at x idx) /\ (length (odds_at x idx) <= length idx)%nat.
  Proof. split; [exact (Forall2_len _ _ _ OD)|]. unfold odds_at. eapply Nat.le_trans; [apply somes_length|]. rewrite map_length. lia. Qed.

  Lemma few_r : (length (evens_at x idx) < 6)%nat -> cl = Ok (first_type rd dps ds dos, APNone).
  Proof.
    intros H. unfold classify. cbv zeta. rewrite (proj1 ev_len).
    replace (Z.of_nat (length (evens_at x idx)) <? 6) with true by lia. reflexivity.
  Qed.

  (** bounds on all factors of a subsequence, whatever they are *)
  Lemma some_bounds l : l <> [] -> Forall (fun q => (0 < q)%Q) l -> exists A B, (0 < A)%Q /\ Forall (fun q => A <= q <= B)%Q l.
  Proof.
    intros N F. destruct l as [|q l]; [congruence|]. clear N. revert q F. induction l as [|p l IH]; intros q F.
    - inversion_clear F. exists q, q. split; [assumption|]. constructor; [lra|constructor].
    - inversion_clear F as [|? ? F1 F2]. destruct (IH p F2) as (A & B & PA & FA). 
      exists (Qminmax.Qmin q A), (Qminmax.Qmax q B).
      pose proof (Qminmax.Q.le_min_l q A). pose proof (Qminmax.Q.le_min_r q A). pose proof (Qminmax.Q.le_max_l q B). pose proof (Qminmax.Q.le_max_r q B).
      split; [apply Qminmax.Q.min_glb_lt; assumption|]. constructor; [lra|]. eapply Forall_impl; [|exact FA]. intros a Ha. cbn beta in Ha. lra.
  Qed.

  Lemma mean_pos (l : list (Z * Q)) l' : Forall2 (fun p q => near (5 * d) (snd p) q) l l' -> (length l' <= length idx)%nat -> l' <> [] -> Forall (fun q => (0 < q)%Q) l' ->
    exists m s r, mmean rd (map snd l) = Ok m /\ (0 < m)%Q /\ mspread rd msqrt m (map snd l) = Ok s /\ mdiv rd s m = Ok r.
  Proof.
    intros F L N P. destruct (some_bounds l' N P) as (A & B & PA & FA).
    pose proof (near_map d D0 d_small l l' A B F ltac:(lra) FA) as FM.
    assert (LL : length (map snd l) = length l') by (rewrite map_length; exact (Forall2_len _ _ _ F)).
    assert (NL : map snd l <> []) by (destruct (map snd l), l'; cbn in *; congruence).
    pose proof d_small as DS.
    destruct (mmean_bounds rd d RD D0 d_small (map snd l) ((1 - 5 * d) * A) ((1 + 5 * d) * B) NL ltac:(nra) FM ltac:(rewrite LL; apply budget; exact L)) as (m & EM & M1 & M2).
    assert (M0 : (0 < m)%Q) by nra.
    assert (B0 : (A <= B)%Q) by (destruct l' as [|q l']; [congruence|]; inversion_clear FA; lra).
    destruct (mspread_bounds rd d RD D0 d_small msqrt (map snd l) m (2 * B + m) SQ NL ltac:(lra)) as (s & ES & S0 & _).
    { eapply Forall_impl; [|exact FM]. intros a [H1 H2]. apply Qabs_Qle_condition. split; nra. }
    { rewrite LL. apply budget. exact L. }
    destruct (mdiv_near rd d RD s m S0 M0) as (r & ER & _).
    exists m, s, r. auto.
  Qed.

  Lemma no_odd_r : (6 <= length (evens_at x idx))%nat -> odds_at x idx = [] -> cl = Raise ZeroDivisionError.
  Proof.
    intros H O. unfold classify. cbv zeta. rewrite (proj1 ev_len).
    replace (Z.of_nat (length (evens_at x idx)) <? 6) with false by lia.
    destruct (mean_pos _ _ EV (proj2 ev_len)) as (m & s & r & -> & _ & ES & _).
    { intros K. rewrite K in H. cbn in H. lia. }
    { apply evens_pos. }
    cbn [bind]. rewrite ES. cbn [bind]. pose proof OD as OD'. rewrite O in OD'. inversion OD' as [E|]. rewrite <- ?E. reflexivity.
  Qed.

  (** the two means, the decision *)
  Lemma many_r : (6 <= length (evens_at x idx))%nat -> odds_at x idx <> [] ->
    exists m o rp ro, mmean rd (map snd (ratios rd ds)) = Ok m /\ mmean rd (map snd (ratios rd dos)) = Ok o /\
      (exists sp, mspread rd msqrt m (map snd (ratios rd ds)) = Ok sp /\ mdiv rd sp m = Ok rp) /\
      (exists so, mspread rd msqrt o (map snd (ratios rd dos)) = Ok so /\ mdiv rd so o = Ok ro) /\
      cl = second_type rd msqrt flog linregress
             (if gtq rp half_f || gtq ro half_f then (if tail_above_2 (ratios rd ds) (ratios rd dos) then ATSuperExp else ATUndefined)
              else first_type rd dps ds dos)
             (Qle_bool ro half_f && Qle_bool rp half_f) m o ds dos.
  Proof.
    intros H O.
    destruct (mean_pos _ _ EV (proj2 ev_len)) as (m & s & r & EM & _ & ES & ER); [intros K; rewrite K in H; cbn in H; lia|apply evens_pos|].
    destruct (mean_pos _ _ OD (proj2 od_len) O) as (o & s' & r' & EO & _ & ES' & ER'); [apply odds_pos|].
    exists m, o, r, r'. split; [exact EM|]. split; [exact EO|]. split; [eauto|]. split; [eauto|].
    eapply classify_eq; try eassumption. rewrite (proj1 ev_len). exact H.
  Qed.

  Lemma mean_big (l : list (Z * Q)) l' m : Forall2 (fun p q => near (5 * d) (snd p) q) l l' -> (length l' <= length idx)%nat -> Forall (fun q => (0 < q)%Q) l' ->
    mmean rd (map snd l) = Ok m -> (exp_threshold < m)%Q -> Exists (fun q => (108 # 100 < q)%Q) l'.
  Proof.
    intros F L P E M. destruct (existsb (fun q => negb (Qle_bool q (108 # 100))) l') eqn:B.
    - apply existsb_exists in B. destruct B as (q & I & B). apply Exists_exists. exists q. split; [exact I|].
      apply Qnot_le_lt. intros K. apply Qle_bool_iff in K. rewrite K in B. discriminate.
    - exfalso. assert (FA : Forall (fun q => 0 <= q <= 108 # 100)%Q l').
      { rewrite Forall_forall in *. intros q I. split; [specialize (P q I); lra|]. apply Qle_bool_iff. destruct (Qle_bool q (108 # 100)) eqn:K; [reflexivity|].
        assert (X : existsb (fun q => negb (Qle_bool q (108 # 100))) l' = true) by (apply existsb_exists; exists q; rewrite K; auto). congruence. }
      pose proof (near_map d D0 d_small l l' 0 (108 # 100) F ltac:(lra) FA) as FM.
      assert (LL : length (map snd l) = length l') by (rewrite map_length; exact (Forall2_len _ _ _ F)).
      assert (NL : map snd l <> []) by (intros K; rewrite K in E; discriminate E).
      destruct (mmean_bounds rd d RD D0 d_small (map snd l) ((1 - 5 * d) * 0) ((1 + 5 * d) * (108 # 100)) NL ltac:(nra) FM ltac:(rewrite LL; apply budget; exact L)) as (m' & EM & _ & M2).
      rewrite E in EM. injection EM as <-. pose proof d_small. destruct thr_val as [T _]. nra.
  Qed.

  Lemma exp_needs_r t p : cl = Ok (t, p) -> is_exp t ->
    (6 <= length (evens_at x idx))%nat /\ Exists (fun q => (108 # 100 < q)%Q) (evens_at x idx) /\
    Exists (fun q => (108 # 100 < q)%Q) (odds_at x idx).
  Proof.
    intros E T. destruct (Nat.lt_ge_cases (length (evens_at x idx)) 6) as [L|L].
    - rewrite few_r in E by exact L. injection E as E1 _. exfalso. subst t. exact (proj1 (first_not_exp rd dps _ _) T).
    - split; [exact L|]. destruct (list_eq_dec (fun p q : Q => ltac:(decide equality; [apply Pos.eq_dec|apply Z.eq_dec])) (odds_at x idx) []) as [O|O].
      + rewrite no_odd_r in E by assumption. discriminate.
      + destruct (many_r L O) as (m & o & rp & ro & EM & EO & _ & _ & EC). rewrite EC in E.
        apply (second_exp rd msqrt flog linregress) in E; [|destruct (_ || _); [destruct (tail_above_2 _ _); discriminate|]|exact T].
        2:{ intros H. apply (proj1 (first_not_exp rd dps ds dos)). left. exact H. }
        destruct E as [E1 E2]. split.
        * eapply mean_big; [exact EV|exact (proj2 ev_len)|apply evens_pos|exact EM|exact E1].
        * eapply mean_big; [exact OD|exact (proj2 od_len)|apply odds_pos|exact EO|exact E2].
  Qed.

  (** ---- the coefficient ---- *)
  Lemma coeff_ok b i q : (0 <= b)%Q -> (11 # 10 <= b * b)%Q -> exists k, coeff_of rd b i q = Ok k /\ (0 <= k)%Q.
  Proof.
    intros B0 B. unfold coeff_of. pose proof d_small as DS.
    assert (V : (/ (b * b) * (b * b) == 1)%Q) by (field; intros K; rewrite K in B; apply (Qlt_not_le 0 (11 # 10)); [reflexivity|]; lra).
    assert (V0 : (0 <= / (b * b))%Q) by (apply Qinv_le_0_compat; nra).
    assert (V1 : (/ (b * b) <= 10 # 11)%Q) by nra.
    destruct (rd_near rd d RD (Qpower b (-2)) V0) as (_ & L & H). change (Qpower b (-2)) with (/ (b * b))%Q in *.
    set (y := rd (/ (b * b))) in *.
    assert (Y : (y <= 95 # 100)%Q) by nra.
    destruct (rd_near rd d RD (1 - y) ltac:(lra)) as (_ & L' & _).
    assert (P : (0 < rsub rd 1 y)%Q) by (unfold rsub; nra).
    unfold mdiv. destruct (Qeq_bool (rsub rd 1 y) 0) eqn:E; [apply Qeq_bool_iff in E; lra|]. cbn [bind].
    eexists. split; [reflexivity|]. apply Qabs_nonneg.
  Qed.

  Lemma msum_nonneg l : Forall (fun q => (0 <= q)%Q) l -> (0 <= msum rd l)%Q.
  Proof.
    unfold msum. assert (G : forall acc, (0 <= acc)%Q -> Forall (fun q => (0 <= q)%Q) l -> (0 <= fold_left (radd rd) l acc)%Q).
    { induction l as [|q l IH]; intros acc A F; [exact A|]. inversion_clear F as [|? ? F1 F2]. cbn [fold_left]. apply IH; [|exact F2].
      unfold radd. destruct (rd_near rd d RD (acc + q) ltac:(lra)) as (_ & L & _). pose proof d_small. nra. }
    apply G. lra.
  Qed.

  Lemma mean_coeff_r b l : (0 <= b)%Q -> (11 # 10 <= b * b)%Q -> ratios rd l <> [] -> exists k, mean_coeff rd b l = Ok k /\ (0 <= k)%Q.
  Proof.
    intros B0 B N. unfold mean_coeff. set (us := flat_map _ l).
    assert (NU : us <> []).
    { subst us. revert N. clear. revert l. enough (G : forall n ds, (length ds <= n)%nat -> ratios rd ds <> [] ->
        flat_map (fun p : Z * mpfv => match usable (snd p) with Some q => [(fst p, q)] | None => [] end) ds <> []) by (intros l; apply (G (length l)); lia).
      induction n as [|n IH]; intros ds Ln N; [destruct ds; [exact N|cbn in Ln; lia]|].
      destruct ds as [|[i m] [|[j e] r]]; [exact N|exact (False_ind _ (N eq_refl))|]. cbn [flat_map snd fst]. cbn [ratios] in N.
      destruct (usable m); [discriminate|]. cbn [app]. destruct (usable e); [discriminate|]. cbn [app].
      apply IH; [cbn in Ln; lia|exact N]. }
    assert (M : exists ks, mapM (fun p => coeff_of rd b (fst p) (snd p)) us = Ok ks /\ length ks = length us /\ Forall (fun q => (0 <= q)%Q) ks).
    { clearbody us. clear NU. induction us as [|[i m] us IH]; [exists []; repeat split; constructor|].
      destruct IH as (ks & E & Ll & F). destruct (coeff_ok b i m B0 B) as (q & Eq & P). exists (q :: ks). cbn [mapM fst snd].
      rewrite Eq. cbn [bind]. rewrite E. cbn [bind length]. split; [reflexivity|]. split; [congruence|constructor; assumption]. }
    destruct M as (ks & -> & Ll & F). cbn [bind].
    assert (NL : ks <> []) by (destruct ks, us; cbn in *; congruence).
    unfold mmean. destruct (mdiv_near rd d RD (msum rd ks) (inject_Z (Z.of_nat (length ks))) (msum_nonneg ks F) (len_pos ks NL)) as (q & E & N0 & L & _).
    exists q. split; [exact E|]. pose proof d_small. nra.
  Qed.

  Lemma exp_params_r m o : (2 # 1 <= 2 * m)%Q -> (12 # 10 <= m * (103 # 100))%Q -> (12 # 10 <= o * (103 # 100))%Q ->
    ratios rd ds <> [] -> ratios rd dos <> [] ->
    exists b k, exp_params rd msqrt m o ds dos = Ok (APPair b k) /\ (0 <= b)%Q /\ (0 <= k)%Q /\
      ((99 # 100) * m <= b * b \/ (99 # 100) * o <= b * b)%Q /\ (b * b <= (101 # 100) * m /\ b * b <= (101 # 100) * o)%Q.
  Proof.
    intros _ M O N1 N2. destruct (SQ m ltac:(lra)) as (A0 & A1 & A2). destruct (SQ o ltac:(lra)) as (B0 & B1 & B2).
    unfold exp_params. cbv zeta. set (b := py_min (msqrt m) (msqrt o)).
    assert (BP : (0 <= b)%Q /\ ((99 # 100) * m <= b * b \/ (99 # 100) * o <= b * b)%Q /\ (b * b <= (101 # 100) * m /\ b * b <= (101 # 100) * o)%Q).
    { unfold b, py_min. destruct (Qle_bool (msqrt m) (msqrt o)) eqn:C; cbn [negb].
      - apply Qle_bool_iff in C. split; [exact A0|]. split; [left; lra|]. split; [lra|]. nra.
      - assert (C' : (msqrt o < msqrt m)%Q) by (apply Qnot_le_lt; intros K; apply Qle_bool_iff in K; congruence).
        split; [exact B0|]. split; [right; lra|]. split; [nra|lra]. }
    clearbody b. destruct BP as (BP & BL & BH).
    assert (BB : (11 # 10 <= b * b)%Q) by (destruct BL; lra).
    destruct (mean_coeff_r b ds BP BB N1) as (k1 & -> & K1). destruct (mean_coeff_r b dos BP BB N2) as (k2 & -> & K2). cbn [bind].
    exists b, (py_min k1 k2). split; [reflexivity|]. split; [exact BP|]. split; [unfold py_min; destruct (negb _); assumption|]. auto.
  Qed.

  (** ---- factors in a narrow interval ---- *)
  Lemma narrow (l : list (Z * Q)) l' A B : Forall2 (fun p q => near (5 * d) (snd p) q) l l' -> (length l' <= length idx)%nat -> l' <> [] ->
    (0 < A)%Q -> (B <= (14 # 10) * A)%Q -> Forall (fun q => A <= q <= B)%Q l' ->
    exists m s r, mmean rd (map snd l) = Ok m /\ mspread rd msqrt m (map snd l) = Ok s /\ mdiv rd s m = Ok r /\
      ((985 # 1000) * A <= m <= (1016 # 1000) * B)%Q /\ Qle_bool r half_f = true.
  Proof.
    intros F L N PA HB FA. pose proof d_small as DS.
    pose proof (near_map d D0 d_small l l' A B F ltac:(lra) FA) as FM.
    assert (LL : length (map snd l) = length l') by (rewrite map_length; exact (Forall2_len _ _ _ F)).
    assert (NL : map snd l <> []) by (destruct (map snd l), l'; cbn in *; congruence).
    assert (AB : (A <= B)%Q) by (destruct l' as [|q l']; [congruence|]; inversion_clear FA; lra).
    destruct (mmean_bounds rd d RD D0 d_small (map snd l) ((1 - 5 * d) * A) ((1 + 5 * d) * B) NL ltac:(nra) FM ltac:(rewrite LL; apply budget; exact L)) as (m & EM & M1 & M2).
    assert (M1' : ((985 # 1000) * A <= m)%Q) by nra. assert (M2' : (m <= (1016 # 1000) * B)%Q) by nra.
    destruct (mspread_bounds rd d RD D0 d_small msqrt (map snd l) m ((438 # 1000) * A) SQ NL ltac:(lra)) as (s & ES & S0 & S1).
    { eapply Forall_impl; [|exact FM]. intros a [H1 H2]. apply Qabs_Qle_condition. split; nra. }
    { rewrite LL. apply budget. exact L. }
    assert (M0 : (0 < m)%Q) by nra.
    destruct (mdiv_near rd d RD s m S0 M0) as (r & ER & R0 & _ & R2).
    exists m, s, r. split; [exact EM|]. split; [exact ES|]. split; [exact ER|]. split; [auto|].
    apply Qle_bool_iff. unfold half_f.
    assert (S2 : (s <= (48 # 100) * m)%Q).
    { apply Qnot_lt_le. intros K. assert (X : ((48 # 100) * m * ((48 # 100) * m) < s * s)%Q) by nra.
      assert (Y : ((985 # 1000) * A * ((985 # 1000) * A) <= m * m)%Q) by nra. assert (0 < A * A)%Q by nra. nra. }
    assert (T : (s / m <= 48 # 100)%Q) by (apply Qle_shift_div_r; lra). nra.
  Qed.

  Lemma narrow_both A B A' B' : (6 <= length (evens_at x idx))%nat -> odds_at x idx <> [] ->
    (0 < A)%Q -> (B <= (14 # 10) * A)%Q -> Forall (fun q => A <= q <= B)%Q (evens_at x idx) ->
    (0 < A')%Q -> (B' <= (14 # 10) * A')%Q -> Forall (fun q => A' <= q <= B')%Q (odds_at x idx) ->
    exists m o, ((985 # 1000) * A <= m <= (1016 # 1000) * B)%Q /\ ((985 # 1000) * A' <= o <= (1016 # 1000) * B')%Q /\
      ratios rd ds <> [] /\ ratios rd dos <> [] /\
      cl = second_type rd msqrt flog linregress (first_type rd dps ds dos) true m o ds dos.
  Proof.
    intros H O A0 AB FA A0' AB' FA'.
    destruct (narrow _ _ A B EV (proj2 ev_len) ltac:(intros K; rewrite K in H; cbn in H; lia) A0 AB FA) as (m & s & r & EM & ES & ER & MB & LR).
    destruct (narrow _ _ A' B' OD (proj2 od_len) O A0' AB' FA') as (o & s' & r' & EO & ES' & ER' & OB & LR').
    exists m, o. split; [exact MB|]. split; [exact OB|].
    split; [intros K; rewrite K in EM; discriminate EM|]. split; [intros K; rewrite K in EO; discriminate EO|].
    rewrite (classify_eq rd dps msqrt flog linregress (samples x idx) m s o s' r r'); try assumption; [|rewrite (proj1 ev_len); exact H].
    unfold gtq. rewrite LR, LR'. reflexivity.
  Qed.

  Theorem close_classified lo hi : (6 <= length (evens_at x idx))%nat -> odds_at x idx <> [] ->
    (12 # 10 <= lo)%Q -> (hi <= (14 # 10) * lo)%Q ->
    Forall (fun q => lo <= q <= hi)%Q (evens_at x idx) -> Forall (fun q => lo <= q <= hi)%Q (odds_at x idx) ->
    exists b k, cl = Ok (ATExp, APPair b k) /\ (0 <= b)%Q /\ (0 <= k)%Q /\ ((97 # 100) * lo <= b * b <= (103 # 100) * hi)%Q.
  Proof.
    intros H O L HI FE FO.
    destruct (narrow_both lo hi lo hi H O ltac:(lra) HI FE ltac:(lra) HI FO) as (m & o & MB & OB & N1 & N2 & EC).
    destruct (exp_params_r m o ltac:(lra) ltac:(lra) ltac:(lra) N1 N2) as (b & k & EP & B0 & K0 & BL & BH).
    exists b, k. split; [|split; [exact B0|split; [exact K0|destruct BL; lra]]].
    rewrite EC. unfold second_type. cbn [orb]. destruct thr_val as [_ _].
    assert (T : (exp_threshold < 1101 # 1000)%Q) by (vm_compute; reflexivity).
    assert (G1 : gtq m exp_threshold = true) by (apply gtq_spec; lra).
    assert (G2 : gtq o exp_threshold = true) by (apply gtq_spec; lra).
    rewrite G1, G2, EP. cbn [xorb andb bind].
    pose proof (proj1 (first_not_exp rd dps ds dos)) as NF. unfold is_exp in NF.
    destruct (first_type rd dps ds dos); try reflexivity. exfalso. auto.
  Qed.

  Theorem mixed_classified lo hi lo' hi' : (6 <= length (evens_at x idx))%nat -> odds_at x idx <> [] ->
    (0 < lo)%Q -> (hi <= (14 # 10) * lo)%Q -> (0 < lo')%Q -> (hi' <= (14 # 10) * lo')%Q ->
    Forall (fun q => lo <= q <= hi)%Q (evens_at x idx) -> Forall (fun q => lo' <= q <= hi')%Q (odds_at x idx) ->
    (12 # 10 <= lo /\ hi' <= 108 # 100 \/ hi <= 108 # 100 /\ 12 # 10 <= lo')%Q ->
    cl = Ok (ATMixed, APNone).
  Proof.
    intros H O L HI L' HI' FE FO C.
    destruct (narrow_both lo hi lo' hi' H O L HI FE L' HI' FO) as (m & o & MB & OB & _ & _ & EC).
    rewrite EC. unfold second_type. cbn [orb].
    assert (T : (exp_threshold < 1101 # 1000)%Q) by (vm_compute; reflexivity). destruct thr_val as [T' _].
    destruct C as [[C1 C2]|[C1 C2]].
    - assert (G1 : gtq m exp_threshold = true) by (apply gtq_spec; lra).
      assert (G2 : gtq o exp_threshold = false) by (apply gtq_false; lra). rewrite G1, G2. reflexivity.
    - assert (G1 : gtq m exp_threshold = false) by (apply gtq_false; lra).
      assert (G2 : gtq o exp_threshold = true) by (apply gtq_spec; lra). rewrite G1, G2. reflexivity.
  Qed.

  Theorem slow_classified lo hi : (6 <= length (evens_at x idx))%nat -> odds_at x idx <> [] ->
    (0 < lo)%Q -> (hi <= (14 # 10) * lo)%Q -> (hi <= 108 # 100)%Q ->
    Forall (fun q => lo <= q <= hi)%Q (evens_at x idx) -> Forall (fun q => lo <= q <= hi)%Q (odds_at x idx) ->
    cl = let* ps := poly_params flog linregress ds dos in Ok (ATPoly, ps).
  Proof.
    intros H O L HI C FE FO.
    destruct (narrow_both lo hi lo hi H O L HI FE L HI FO) as (m & o & MB & OB & _ & _ & EC).
    rewrite EC. unfold second_type. cbn [orb]. destruct thr_val as [T' _].
    assert (G1 : gtq m exp_threshold = false) by (apply gtq_false; lra).
    assert (G2 : gtq o exp_threshold = false) by (apply gtq_false; lra). rewrite G1, G2. reflexivity.
  Qed.

  (** ---- large factors ---- *)
  Lemma near_above (l : list (Z * Q)) l' : Forall2 (fun p q => near (5 * d) (snd p) q) l l' -> Forall (fun q => (21 # 10 <= q)%Q) l' ->
    Forall (fun p => (208 # 100 <= snd p)%Q) l.
  Proof.
    intros F. pose proof d_small as DS. induction F as [|p q l l' (N1 & N2 & N3) F IH]; intros H; [constructor|].
    inversion_clear H as [|? ? H1 H2]. constructor; [nra|auto].
  Qed.

  Lemma mean_above (l : list (Z * Q)) l' m : Forall2 (fun p q => near (5 * d) (snd p) q) l l' -> (length l' <= length idx)%nat -> l' <> [] ->
    Forall (fun q => (21 # 10 <= q)%Q) l' -> mmean rd (map snd l) = Ok m -> (2 <= m)%Q.
  Proof.
    intros F L N FA E. pose proof d_small as DS.
    assert (FP : Forall (fun q => (0 < q)%Q) l') by (eapply Forall_impl; [|exact FA]; intros a Ha; cbn beta in Ha; lra).
    destruct (some_bounds l' N FP) as (A0 & B & _ & FB).
    assert (FA' : Forall (fun q => 21 # 10 <= q <= B)%Q l').
    { rewrite Forall_forall in *. intros q I. specialize (FA q I). specialize (FB q I). lra. }
    pose proof (near_map d D0 d_small l l' (21 # 10) B F ltac:(lra) FA') as FM.
    assert (LL : length (map snd l) = length l') by (rewrite map_length; exact (Forall2_len _ _ _ F)).
    assert (NL : map snd l <> []) by (destruct (map snd l), l'; cbn in *; congruence).
    destruct (mmean_bounds rd d RD D0 d_small (map snd l) ((1 - 5 * d) * (21 # 10)) ((1 + 5 * d) * B) NL ltac:(nra) FM ltac:(rewrite LL; apply budget; exact L)) as (m' & EM & M1 & _).
    rewrite E in EM. injection EM as <-. nra.
  Qed.

  Theorem large_classified_r : (6 <= length (evens_at x idx))%nat -> odds_at x idx <> [] ->
    Forall (fun q => (21 # 10 <= q)%Q) (evens_at x idx) -> Forall (fun q => (21 # 10 <= q)%Q) (odds_at x idx) ->
    exists t b k, cl = Ok (t, APPair b k) /\ is_exp t /\ (1 < b)%Q /\ (0 <= k)%Q.
  Proof.
    intros H O FE FO. destruct (many_r H O) as (m & o & rp & ro & EM & EO & _ & _ & EC).
    assert (M2 : (2 <= m)%Q) by (eapply mean_above; [exact EV|exact (proj2 ev_len)|intros K; rewrite K in H; cbn in H; lia|exact FE|exact EM]).
    assert (O2 : (2 <= o)%Q) by (eapply mean_above; [exact OD|exact (proj2 od_len)|exact O|exact FO|exact EO]).
    assert (N1 : ratios rd ds <> []) by (intros K; rewrite K in EM; discriminate EM).
    assert (N2 : ratios rd dos <> []) by (intros K; rewrite K in EO; discriminate EO).
    assert (TA : tail_above_2 (ratios rd ds) (ratios rd dos) = true).
    { unfold tail_above_2, from_pos. rewrite forallb_app. apply andb_true_iff.
      assert (T : forall n l, Forall (fun p => (208 # 100 <= snd p)%Q) l -> forallb (fun p : Z * Q => gtq (snd p) 2) (skipn n l) = true).
      { clear. intros n l F. apply forallb_forall. intros p I. apply gtq_spec. rewrite Forall_forall in F.
        assert (J : In p l) by (rewrite <- (firstn_skipn n l); apply in_or_app; now right). specialize (F p J). lra. }
      split; apply T; [exact (near_above _ _ EV FE)|exact (near_above _ _ OD FO)]. }
    destruct (exp_params_r m o ltac:(lra) ltac:(lra) ltac:(lra) N1 N2) as (b & k & EP & B0 & K0 & BL & _).
    assert (B1 : (1 < b)%Q) by (apply Qnot_le_lt; intros K; assert (b * b <= 1)%Q by nra; destruct BL; lra).
    destruct thr_val as [_ TV].
    assert (G1 : gtq m exp_threshold = true) by (apply gtq_spec; lra).
    assert (G2 : gtq o exp_threshold = true) by (apply gtq_spec; lra).
    rewrite EC, TA. unfold second_type. rewrite G1, G2, EP. cbn [xorb andb bind].
    assert (BB : Qle_bool ro half_f && Qle_bool rp half_f = negb (gtq rp half_f || gtq ro half_f)).
    { unfold gtq. destruct (Qle_bool ro half_f), (Qle_bool rp half_f); reflexivity. }
    rewrite BB. destruct (gtq rp half_f || gtq ro half_f); cbn [negb orb].
    - exists ATSuperExp, b, k. unfold is_exp. auto.
    - exists ATExp, b, k. split; [|unfold is_exp; auto]. pose proof (proj1 (first_not_exp rd dps ds dos)) as NF. unfold is_exp in NF.
      destruct (first_type rd dps ds dos); try reflexivity. exfalso. auto.
  Qed.
End DecideR.

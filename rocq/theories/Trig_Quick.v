(** When the loop of dec_cos and dec_sin stops for small arguments; its result does not depend on the allowance; rounding of mpmath is nearest. *)
From Coq Require Import ZArith QArith Qabs Qpower Bool Lia Lqa Setoid.
From Verif Require Import PyBase Rnd Rnd_Proofs Trig_Model Spec_Trig Trig_Proofs Trig_Error Trig_Tail.
Open Scope Z_scope.

Section Small.
  Variables (d : nat) (x : Q).
  Hypothesis X1 : (x * x <= 1)%Q.
  Notation t := (series_term d x).
  Lemma halves k : (2 * Qabs (t (S k)) <= Qabs (t k))%Q.
  Proof.
    pose proof (term_next_abs d x k) as E. assert (P : (2 <= inject_Z (step d k))%Q) by (change 2%Q with (inject_Z 2); rewrite <- Zle_Qle; unfold step; nia).
    pose proof (Qabs_nonneg (t k)). pose proof (Qabs_nonneg (t (S k))). nra.
  Qed.
  Lemma abs_sum n : (series_abs d x n + Qabs (t n) <= 2 * Qabs (t 0))%Q.
  Proof. induction n as [|n IH]; cbn [series_abs]; [lra|]. pose proof (halves n). lra. Qed.
  Lemma sum_large n : ((1 # 2) * Qabs (t 0) <= Qabs (series d x n))%Q.
  Proof.
    destruct (alternating d x n 0) as (c & C & E).
    { assert (P : (1 <= inject_Z (step d 1))%Q) by (change 1%Q with (inject_Z 1); rewrite <- Zle_Qle; unfold step; nia). lra. }
    cbn [Nat.add series] in E. pose proof (halves 0) as H. pose proof (absQ_triangle (series d x n) (- (series d x n - t 0))) as TR. setoid_replace (series d x n + - (series d x n - t 0))%Q with (t 0) in TR by ring.
    rewrite Qabs_opp, E, Qabs_Qmult, (Qabs_pos c) in TR by lra. pose proof (Qabs_nonneg (t 1)). nra.
  Qed.
  Lemma term_small k : (inject_Z (factorial (2 * k)) * Qabs (t k) <= Qabs (t 0))%Q.
  Proof.
    induction k as [|k IH]; [change (inject_Z (factorial (2 * 0))) with 1%Q; lra|].
    replace (2 * S k)%nat with (S (S (2 * k))) by lia. rewrite factorial_2. pose proof (term_next_abs d x k) as E. rewrite inject_Z_mult.
    set (c := (Z.of_nat (2 * k) + 2) * (Z.of_nat (2 * k) + 2 - 1)). assert (C : (inject_Z c <= inject_Z (step d k))%Q) by (rewrite <- Zle_Qle; unfold c, step; nia).
    pose proof (fact_Q (2 * k)) as F. pose proof (Qabs_nonneg (t k)) as TP. pose proof (Qabs_nonneg (t (S k))) as TP'.
    assert (K : (inject_Z c * Qabs (t (S k)) <= Qabs (t k))%Q).
    { assert (inject_Z c * Qabs (t (S k)) <= inject_Z (step d k) * Qabs (t (S k)))%Q by (apply Qmult_le_compat_r; assumption). assert (x * x * Qabs (t k) <= 1 * Qabs (t k))%Q by (apply Qmult_le_compat_r; assumption). lra. }
    rewrite <- Qmult_assoc. eapply Qle_trans; [|exact IH]. apply Qmult_le_l; assumption.
  Qed.
End Small.

Section Quick.
  Variables (B p : Z) (rd : Q -> Q).
  Hypothesis HB : 2 <= B.
  Hypothesis HP : 2 <= p.
  Hypothesis N : nearest B p rd.
  Variables (x : Q) (d : nat) (s0 : Q).
  Hypothesis S0 : (s0 == series_term d x 0)%Q.
  Hypothesis X1 : (x * x <= 1)%Q.
  Notation u := (unit_err B p).
  Lemma quick k : (2 <= k)%nat -> (inject_Z (Z.of_nat (3 * k + 1)) * u <= 1 # 16)%Q -> 30 * B ^ p <= factorial (2 * k) -> (sums rd x d s0 k == before rd x d s0 k)%Q.
  Proof.
    intros K SM F. destruct k as [|k]; [lia|]. cbn [before sums]. unfold radd. pose proof (unit_pos B p HB) as UP.
    apply (rd_absorb B p rd HB ltac:(lia) N); [destruct k as [|k]; [lia|apply (sums_fl B p rd N)]|].
    pose proof (grow_small B p HB (3 * S k + 1) ltac:(lra)) as G. pose proof (grow_ge1 B p HB (3 * k + 1)) as G1.
    pose proof (grow_mono B p HB (3 * k + 1) (3 * S k + 1) ltac:(lia)) as GA. pose proof (grow_mono B p HB (2 * S k + 1) (3 * S k + 1) ltac:(lia)) as GB. pose proof (grow_ge1 B p HB (2 * S k + 1)) as G2.
    pose proof (sums_off B p rd HB HP N x d s0 k S0) as SO. pose proof (summand_off B p rd HB HP N x d (S k)) as TO. apply off_abs in TO.
    pose proof (abs_sum d x X1 k) as AS. pose proof (sum_large d x X1 k) as SL. pose proof (term_small d x X1 (S k)) as TS. pose proof (series_abs_nonneg x d k) as AN.
    set (t0 := Qabs (series_term d x 0)) in *. set (tk := Qabs (series_term d x (S k))) in *. set (A := series_abs d x k) in *.
    assert (T0 : (0 <= t0)%Q) by apply Qabs_nonneg. assert (TK : (0 <= tk)%Q) by apply Qabs_nonneg. pose proof (Qabs_nonneg (series_term d x k)) as TKK.
    assert (SS : ((1 # 4) * t0 <= Qabs (sums rd x d s0 k))%Q).
    { pose proof (absQ_triangle (series d x k - sums rd x d s0 k) (sums rd x d s0 k)) as TR. setoid_replace (series d x k - sums rd x d s0 k + sums rd x d s0 k)%Q with (series d x k) in TR by ring. rewrite (Qabs_sym (series d x k)) in TR.
      assert (A * (grow B p (3 * k + 1) - 1) <= (2 * t0) * (1 # 8))%Q by (apply Qmult_le_compat_nonneg; split; lra). lra. }
    assert (ST : (Qabs (summand rd x d (S k)) <= (9 # 8) * tk)%Q) by nra.
    unfold sep. pose proof (bp_opp B HB p) as BE. pose proof (bp_pos B HB (- p)) as BP. pose proof (bp_nat B p ltac:(lia)) as BN.
    assert (F' : (30 * Qpower (inject_Z B) p <= inject_Z (factorial (2 * S k)))%Q) by (rewrite BN; change 30%Q with (inject_Z 30); rewrite <- inject_Z_mult, <- Zle_Qle; exact F).
    set (b' := Qpower (inject_Z B) (- p)) in *. set (b := Qpower (inject_Z B) p) in *.
    assert (K1 : (30 * b * tk <= t0)%Q). { eapply Qle_trans; [|exact TS]. apply Qmult_le_compat_r; assumption. }
    assert (K2 : (30 * tk <= b' * t0)%Q). { setoid_replace (30 * tk)%Q with (b' * (30 * b * tk))%Q by (setoid_replace (b' * (30 * b * tk))%Q with (30 * (b' * b) * tk)%Q by ring; rewrite BE; ring). apply Qmult_le_l; assumption. }
    assert (K3 : (b' * ((1 # 4) * t0) <= b' * Qabs (sums rd x d s0 k))%Q) by (apply Qmult_le_l; assumption). lra.
  Qed.
End Quick.

(** the result does not depend on the allowance of rounds *)
Lemma taylor_more rd x : forall f f' i l s fact num sign r, (f <= f')%nat -> taylor rd x f i l s fact num sign = Some r -> taylor rd x f' i l s fact num sign = Some r.
Proof.
  induction f as [|f IH]; intros f' i l s fact num sign r H E.
  - cbn [taylor] in E. destruct f'; cbn [taylor]; destruct (Qeq_bool s l); congruence.
  - destruct f' as [|f']; [lia|]. cbn [taylor] in *. destruct (Qeq_bool s l); [exact E|]. apply (IH f'); [lia|exact E].
Qed.

(** rounding to the nearest number with p bits *)
Lemma rnd_nearest p : 1 <= p -> nearest 2 p (rnd p).
Proof.
  intros HP x. change (inject_Z 2) with (2 # 1)%Q. destruct (Qeq0_dec x) as [Z0|NZ].
  - rewrite (rnd_0 p x Z0). split.
    + exists 0, 0. split; [cbn; apply Z.pow_nonneg; lia|reflexivity].
    + intros y _. setoid_replace (0 - x)%Q with 0%Q by (rewrite Z0; ring). apply Qabs_nonneg.
  - assert (RV : (rnd p x == inject_Z (rne (x * two_p (- ulp_e p x))) * two_p (ulp_e p x))%Q) by (rewrite (rnd_nz p x NZ); apply Qred_correct). set (e := ulp_e p x) in *. set (z := (x * two_p (- e))%Q) in *. pose proof (two_p_pos e) as PE. pose proof (two_p_opp_l e) as EE.
    assert (XZ : (x == z * two_p e)%Q) by (unfold z; rewrite <- Qmult_assoc, EE; ring).
    destruct (mag_spec x NZ) as [M1 M2]. assert (ME : mag x + 1 = p + e) by (unfold e, ulp_e; lia).
    assert (AZ : (Qabs x == Qabs z * two_p e)%Q) by (rewrite XZ at 1; rewrite Qabs_Qmult, (Qabs_pos (two_p e)) by lra; reflexivity).
    assert (ZP : (Qabs z <= inject_Z (2 ^ p))%Q).
    { rewrite ME, two_p_plus, (two_p_Z p) in M2 by lia. rewrite AZ in M2. apply Qlt_le_weak. apply Qmult_lt_r in M2; assumption. }
    assert (RI : forall m, (Qabs (inject_Z (rne z) - z) <= Qabs (inject_Z m - z))%Q).
    { intros m. destruct (rne_spec z) as [R _]. rewrite Qabs_sym in R. destruct (Z.eq_dec m (rne z)) as [->|D]; [lra|].
      assert (D1 : (1 <= Qabs (inject_Z (m - rne z)))%Q) by (apply int_apart; lia). pose proof (absQ_triangle (inject_Z m - z) (z - inject_Z (rne z))) as TR. setoid_replace (inject_Z m - z + (z - inject_Z (rne z)))%Q with (inject_Z (m - rne z)) in TR by (unfold Z.sub; rewrite inject_Z_plus, inject_Z_opp; ring).
      rewrite (Qabs_sym z) in TR. lra. }
    assert (RM : forall m, (Qabs (inject_Z (rne z) * two_p e - x) <= Qabs (inject_Z m * two_p e - x))%Q).
    { intros m. setoid_replace (inject_Z (rne z) * two_p e - x)%Q with ((inject_Z (rne z) - z) * two_p e)%Q by (rewrite XZ at 1; ring). setoid_replace (inject_Z m * two_p e - x)%Q with ((inject_Z m - z) * two_p e)%Q by (rewrite XZ at 1; ring).
      rewrite !Qabs_Qmult. apply Qmult_le_compat_r; [apply RI|apply Qabs_nonneg]. }
    split.
    + exists (rne z), e. split; [|exact RV]. apply Qabs_le_iff in ZP as [Z1 Z2]. rewrite <- inject_Z_opp in Z1. apply rne_mono in Z1, Z2. rewrite rne_Z in Z1, Z2. lia.
    + intros y (m & k & Hm & EY). rewrite RV. change (Qpower (inject_Z 2) k) with (two_p k) in EY. destruct (Z_le_gt_dec e k) as [L|L].
      * replace k with ((k - e) + e) in EY by lia. rewrite two_p_plus, (two_p_Z (k - e)) in EY by lia. rewrite Qmult_assoc, <- inject_Z_mult in EY. rewrite EY. apply RM.
      * assert (YM : (Qabs y <= two_p (mag x))%Q).
        { rewrite EY, Qabs_Qmult, (Qabs_pos (two_p k)) by (apply Qlt_le_weak, two_p_pos). apply Qle_trans with (inject_Z (2 ^ p) * two_p k)%Q.
          - apply Qmult_le_compat_r; [change (Qabs (inject_Z m)) with (inject_Z (Z.abs m)); rewrite <- Zle_Qle; exact Hm|apply Qlt_le_weak, two_p_pos].
          - rewrite <- two_p_Z, <- two_p_plus by lia. apply two_p_le. lia. }
        assert (P1 : (two_p (mag x) == inject_Z (2 ^ (p - 1)) * two_p e)%Q) by (rewrite <- two_p_Z, <- two_p_plus by lia; replace (p - 1 + e) with (mag x) by lia; reflexivity).
        pose proof (absQ_triangle (x - y) y) as TR. setoid_replace (x - y + y)%Q with x in TR by ring. rewrite (Qabs_sym x y) in TR.
        destruct (Qlt_le_dec x 0) as [NG|PG].
        -- eapply Qle_trans; [apply (RM (- 2 ^ (p - 1)))|]. rewrite inject_Z_opp. setoid_replace (- inject_Z (2 ^ (p - 1)) * two_p e - x)%Q with (- (x + two_p (mag x)))%Q by (rewrite P1; ring).
           rewrite (Qabs_neg x) in * by lra. rewrite Qabs_opp, Qabs_neg by lra. lra.
        -- eapply Qle_trans; [apply (RM (2 ^ (p - 1)))|]. rewrite <- P1. rewrite (Qabs_pos x) in * by lra. rewrite Qabs_neg by lra. lra.
Qed.

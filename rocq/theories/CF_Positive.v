(** Continued fractions with positive coefficients, over the rational numbers. *)
From Coq Require Import ZArith QArith Qabs Qpower List Lia Lqa Psatz Arith.
Import ListNotations.
Open Scope Q_scope.

Lemma sq_nn x : 0 <= x * x.
Proof. destruct (Qlt_le_dec x 0); nra. Qed.

Section Pos.
  Variables A B P D : nat -> Q.
  Hypothesis HA : forall n, 0 < A (S n).
  Hypothesis HB : forall n, 0 < B (S n).
  Hypothesis P0 : P 0%nat == A 0%nat.
  Hypothesis D0 : D 0%nat == 1.
  Hypothesis P1 : P 1%nat == A 1%nat * A 0%nat + B 1%nat.
  Hypothesis D1 : D 1%nat == A 1%nat.
  Hypothesis PS : forall n, P (S (S n)) == A (S (S n)) * P (S n) + B (S (S n)) * P n.
  Hypothesis DS : forall n, D (S (S n)) == A (S (S n)) * D (S n) + B (S (S n)) * D n.
  Definition val (n : nat) : Q := P n / D n.
  Definition dif (n : nat) : Q := val (S n) - val n.
  Definition rat (n : nat) : Q := B (S (S n)) * D n / D (S (S n)).

  Lemma D_pos n : 0 < D n /\ 0 < D (S n).
  Proof.
    induction n as [|n [I1 I2]]; [split; [rewrite D0; reflexivity|rewrite D1; apply HA]|]. split; [exact I2|]. rewrite DS.
    pose proof (HA (S n)). pose proof (HB (S n)). nra.
  Qed.
  Lemma D_nz n : ~ D n == 0.
  Proof. intros E. pose proof (proj1 (D_pos n)) as H. rewrite E in H. discriminate H. Qed.
  Lemma dif_0 : dif 0 == B 1%nat / A 1%nat.
  Proof.
    unfold dif, val. rewrite P1, P0, D1, D0. field. pose proof (HA 0) as H. intros E. rewrite E in H. discriminate H.
  Qed.
  Lemma dif_S n : dif (S n) == - (rat n * dif n).
  Proof.
    unfold dif, val, rat. pose proof (D_nz n). pose proof (D_nz (S n)). pose proof (D_nz (S (S n))) as N2.
    assert (E : P (S (S n)) / D (S (S n)) == (A (S (S n)) * P (S n) + B (S (S n)) * P n) / D (S (S n))) by (rewrite PS; reflexivity).
    rewrite E. rewrite DS in *. field. auto.
  Qed.
  Lemma rat_in n : 0 < rat n < 1.
  Proof.
    unfold rat. pose proof (D_pos n) as [X Y]. pose proof (HA (S n)). pose proof (HB (S n)). pose proof (proj2 (D_pos (S n))) as Z.
    split; [apply Qlt_shift_div_l; [exact Z|nra]|apply Qlt_shift_div_r; [exact Z|rewrite DS; nra]].
  Qed.
  Lemma dif_sign n : 0 < (if Nat.even n then dif n else - dif n).
  Proof.
    induction n as [|n IH]; [cbn [Nat.even]; rewrite dif_0; apply Qlt_shift_div_l; [apply HA|pose proof (HB 0); lra]|].
    rewrite Nat.even_succ, <- Nat.negb_even. pose proof (rat_in n). pose proof (dif_S n) as E. destruct (Nat.even n); cbn [negb] in *; rewrite E; nra.
  Qed.
  Lemma dif_abs n : Qabs (dif n) == (if Nat.even n then dif n else - dif n).
  Proof. pose proof (dif_sign n) as H. destruct (Nat.even n); [apply Qabs_pos|apply Qabs_neg]; lra. Qed.
  Lemma abs_pos n : 0 < Qabs (dif n).
  Proof. rewrite dif_abs. apply dif_sign. Qed.
  Lemma abs_S n : Qabs (dif (S n)) == rat n * Qabs (dif n).
  Proof. rewrite dif_S, Qabs_opp, Qabs_Qmult. pose proof (rat_in n). rewrite (Qabs_pos (rat n)) by lra. reflexivity. Qed.
  Lemma abs_dec n : Qabs (dif (S n)) < Qabs (dif n).
  Proof. rewrite abs_S. pose proof (rat_in n). pose proof (abs_pos n). nra. Qed.
  Lemma abs_mono n k : Qabs (dif (n + k)) <= Qabs (dif n).
  Proof. induction k as [|k IH]; [rewrite Nat.add_0_r; lra|]. rewrite Nat.add_succ_r. pose proof (abs_dec (n + k)). lra. Qed.
  (** all later values lie between two consecutive ones *)
  Definition btw (x y z : Q) : Prop := x <= y <= z \/ z <= y <= x.
  Lemma bracket k : forall n, btw (val n) (val (n + k)) (val (S n)).
  Proof.
    induction k as [|k IH]; intros n.
    - rewrite Nat.add_0_r. unfold btw. lra.
    - rewrite Nat.add_succ_r. pose proof (IH (S n)) as I. cbn [Nat.add] in I. pose proof (dif_S n) as E. pose proof (rat_in n). unfold btw, dif in *.
      set (x := val n) in *. set (y := val (S n)) in *. set (z := val (S (S n))) in *. set (w := val (S (n + k))) in *. set (r := rat n) in *. clearbody x y z w r.
      destruct (Qlt_le_dec x y) as [L|L]; nra.
  Qed.
  Lemma bracket_abs n m : (n <= m)%nat -> Qabs (val m - val n) <= Qabs (dif n).
  Proof.
    intros H. pose proof (bracket (m - n) n) as K. replace (n + (m - n))%nat with m in K by lia. unfold btw, dif in *.
    destruct K as [K|K]; [rewrite !Qabs_pos|rewrite !Qabs_neg]; lra.
  Qed.
  (** the product of two consecutive quotients of differences *)
  Lemma two_steps n c : 0 <= c -> c * c * B (S (S (S n))) <= A (S (S n)) * A (S (S (S n))) -> (1 + 2 * c) * Qabs (dif (S (S n))) <= Qabs (dif n).
  Proof.
    intros Hc H. rewrite !abs_S. pose proof (abs_pos n) as E.
    assert (K : (1 + 2 * c) * (rat (S n) * rat n) <= 1).
    { unfold rat. pose proof (D_pos n) as [X Y]. pose proof (D_pos (S (S n))) as [Z W]. pose proof (HA (S n)) as A2. pose proof (HA (S (S n))) as A3. pose proof (HB (S n)) as B2. pose proof (HB (S (S n))) as B3.
      pose proof (DS n) as E2. pose proof (DS (S n)) as E3.
      set (a := A (S (S n))) in *. set (a' := A (S (S (S n)))) in *. set (b := B (S (S n))) in *. set (b' := B (S (S (S n)))) in *.
      set (x := D n) in *. set (y := D (S n)) in *. set (z := D (S (S n))) in *. set (w := D (S (S (S n)))) in *. clearbody a a' b b' x y z w.
      assert (Nz : ~ z == 0) by (intros G; rewrite G in Z; discriminate Z). assert (Nw : ~ w == 0) by (intros G; rewrite G in W; discriminate W).
      assert (EQ : (1 + 2 * c) * (b' * y / w * (b * x / z)) == (1 + 2 * c) * (b' * y * b * x) / (w * z)) by (field; auto). rewrite EQ. apply Qle_shift_div_r; [nra|]. rewrite Qmult_1_l.
      assert (F1 : 2 * c * b' * z * y <= a' * z * z + b' * a * y * y).
      { assert (G : 0 <= a' * (a' * z * z + b' * a * y * y - 2 * c * b' * z * y)).
        { assert (G1 : a' * (a' * z * z + b' * a * y * y - 2 * c * b' * z * y) == (a' * z - c * b' * y) * (a' * z - c * b' * y) + b' * y * y * (a * a' - c * c * b')) by ring.
          rewrite G1. pose proof (sq_nn (a' * z - c * b' * y)). assert (0 <= b' * y * y) by (assert (0 < b' * y) by nra; nra).
          assert (0 <= b' * y * y * (a * a' - c * c * b')) by (apply Qmult_le_0_compat; [assumption|lra]). lra. }
        destruct (Qlt_le_dec (a' * z * z + b' * a * y * y - 2 * c * b' * z * y) 0) as [L|L]; [exfalso; nra|lra]. }
      assert (F2 : b * x <= z) by (rewrite E2; nra).
      assert (F3 : 2 * c * b' * y * (b * x) <= 2 * c * b' * y * z).
      { assert (0 <= 2 * c * b' * y) by (assert (0 < b' * y) by nra; nra). nra. }
      assert (F4 : w * z == a' * z * z + b' * a * y * y + b' * b * x * y) by (assert (H1 : b' * y * z == b' * y * (a * y + b * x)) by (rewrite E2; reflexivity); setoid_replace (w * z) with (a' * z * z + b' * y * z) by (rewrite E3; ring); rewrite H1; ring).
      rewrite F4. nra. }
    nra.
  Qed.
  (** exponential convergence *)
  Fixpoint powQ (x : Q) (k : nat) : Q := match k with O => 1 | S k => x * powQ x k end.
  Lemma powQ_pos x k : 0 < x -> 0 < powQ x k.
  Proof. intros H. induction k as [|k IH]; cbn [powQ]; [reflexivity|nra]. Qed.
  Lemma expo c n : 0 <= c -> (forall i, (1 <= i)%nat -> c * c * B (S i) <= A i * A (S i)) -> forall k, powQ (1 + 2 * c) k * Qabs (dif (n + 2 * k)) <= Qabs (dif n).
  Proof.
    intros Hc H. induction k as [|k IH]; [cbn [powQ]; rewrite Nat.add_0_r; lra|]. replace (n + 2 * S k)%nat with (S (S (n + 2 * k))) by lia. cbn [powQ].
    pose proof (two_steps (n + 2 * k) c Hc (H (S (S (n + 2 * k))) ltac:(lia))) as T. pose proof (powQ_pos (1 + 2 * c) k ltac:(lra)). nra.
  Qed.
  (** convergence *)
  Fixpoint harm (k : nat) : Q := match k with O => 0 | S k => harm k + / inject_Z (Z.of_nat (S k)) end.
  Lemma inj_S k : 0 < inject_Z (Z.of_nat (S k)).
  Proof. unfold Qlt. cbn -[Z.of_nat]. lia. Qed.
  Lemma harm_half n k : (1 <= n)%nat -> (k <= n)%nat -> harm n + inject_Z (Z.of_nat k) * / (2 * inject_Z (Z.of_nat n)) <= harm (n + k).
  Proof.
    intros Hn. induction k as [|k IH]; intros Hk; [rewrite Nat.add_0_r; change (inject_Z (Z.of_nat 0)) with 0; lra|].
    rewrite Nat.add_succ_r. cbn [harm]. specialize (IH ltac:(lia)).
    assert (E : inject_Z (Z.of_nat (S k)) == inject_Z (Z.of_nat k) + 1) by (rewrite Nat2Z.inj_succ; unfold Z.succ; rewrite inject_Z_plus; reflexivity).
    assert (L : / (2 * inject_Z (Z.of_nat n)) <= / inject_Z (Z.of_nat (S (n + k)))).
    { destruct n as [|n]; [lia|]. pose proof (inj_S n). pose proof (inj_S (S n + k)).
      assert (G : inject_Z (Z.of_nat (S (S n + k))) <= 2 * inject_Z (Z.of_nat (S n))) by (change 2 with (inject_Z 2); rewrite <- inject_Z_mult; rewrite <- Zle_Qle; lia).
      apply Qle_shift_inv_l; [assumption|]. setoid_replace (/ (2 * inject_Z (Z.of_nat (S n))) * inject_Z (Z.of_nat (S (S n + k)))) with (inject_Z (Z.of_nat (S (S n + k))) / (2 * inject_Z (Z.of_nat (S n)))) by (unfold Qdiv; ring).
      apply Qle_shift_div_r; lra. }
    rewrite E. lra.
  Qed.
  Lemma harm_pow m : inject_Z (Z.of_nat m) * (1 # 2) <= harm (2 ^ m).
  Proof.
    induction m as [|m IH]; [vm_compute; discriminate|]. pose proof (Nat.pow_nonzero 2 m ltac:(lia)) as N.
    pose proof (harm_half (2 ^ m) (2 ^ m) ltac:(lia) ltac:(lia)) as H. replace (2 ^ m + 2 ^ m)%nat with (2 ^ S m)%nat in H by (cbn [Nat.pow]; lia).
    assert (E : inject_Z (Z.of_nat (2 ^ m)) * / (2 * inject_Z (Z.of_nat (2 ^ m))) == 1 # 2).
    { destruct (2 ^ m)%nat as [|j]; [lia|]. pose proof (inj_S j) as J. setoid_replace (1 # 2) with (/ 2) by reflexivity. field. intros G. rewrite G in J. discriminate J. }
    rewrite E in H. rewrite Nat2Z.inj_succ. unfold Z.succ. rewrite inject_Z_plus. change (inject_Z 1) with 1. lra.
  Qed.
  Lemma harm_nonneg k : 0 <= harm k.
  Proof. induction k as [|k IH]; cbn [harm]; [lra|]. pose proof (Qinv_lt_0_compat _ (inj_S k)). lra. Qed.
  Lemma slow c : 0 < c -> (forall i, (1 <= i)%nat -> c * c * B (S i) <= inject_Z (Z.of_nat i) * inject_Z (Z.of_nat i) * (A i * A (S i))) ->
    forall k, (1 + c * harm k) * Qabs (dif (2 * k)) <= Qabs (dif 0).
  Proof.
    intros Hc H. induction k as [|k IH]; [change (2 * 0)%nat with 0%nat; cbn [harm]; rewrite Qmult_0_r; lra|]. replace (2 * S k)%nat with (S (S (2 * k))) by lia.
    set (u := / inject_Z (Z.of_nat (S k))). assert (U : 0 < u) by (apply Qinv_lt_0_compat, inj_S).
    assert (T : (1 + 2 * (c * (u * (1 # 2)))) * Qabs (dif (S (S (2 * k)))) <= Qabs (dif (2 * k))).
    { apply two_steps; [nra|]. specialize (H (S (S (2 * k))) ltac:(lia)).
      assert (E : inject_Z (Z.of_nat (S (S (2 * k)))) == 2 * inject_Z (Z.of_nat (S k))) by (change 2 with (inject_Z 2); rewrite <- inject_Z_mult; replace (Z.of_nat (S (S (2 * k)))) with (2 * Z.of_nat (S k))%Z by lia; reflexivity).
      rewrite E in H. assert (EU : u * inject_Z (Z.of_nat (S k)) == 1) by (unfold u; field; pose proof (inj_S k) as J; intros G; rewrite G in J; discriminate J).
      set (N := inject_Z (Z.of_nat (S k))) in *. set (b' := B (S (S (S (2 * k))))) in *. set (aa := A (S (S (2 * k))) * A (S (S (S (2 * k))))) in *.
      setoid_replace (c * (u * (1 # 2)) * (c * (u * (1 # 2))) * b') with (u * u * (1 # 4) * (c * c * b')) by ring.
      setoid_replace aa with (u * u * (1 # 4) * (2 * N * (2 * N) * aa)) by (setoid_replace (u * u * (1 # 4) * (2 * N * (2 * N) * aa)) with ((u * N) * (u * N) * aa) by ring; rewrite EU; ring).
      apply Qmult_le_l; [nra|exact H]. }
    cbn [harm]. fold u. set (e := Qabs (dif (S (S (2 * k))))) in *. assert (0 <= e) by apply Qabs_nonneg. pose proof (harm_nonneg k) as HN. set (h := harm k) in *.
    assert (T' : (1 + c * h) * ((1 + c * u) * e) <= (1 + c * h) * Qabs (dif (2 * k))).
    { apply Qmult_le_l; [nra|]. lra. }
    assert (0 <= c * h * (c * u) * e). { assert (0 <= c * h) by nra. assert (0 <= c * u) by nra. apply Qmult_le_0_compat; [apply Qmult_le_0_compat; assumption|assumption]. }
    lra.
  Qed.
  Lemma conv c : 0 < c -> (forall i, (1 <= i)%nat -> c * c * B (S i) <= inject_Z (Z.of_nat i) * inject_Z (Z.of_nat i) * (A i * A (S i))) ->
    forall eps, 0 < eps -> exists N, forall m n, (N <= m)%nat -> (N <= n)%nat -> Qabs (val m - val n) < eps.
  Proof.
    intros Hc H eps He.
    assert (M : exists m : nat, Qabs (dif 0) < eps * (1 + c * (inject_Z (Z.of_nat m) * (1 # 2)))).
    { set (d := Qabs (dif 0) / (eps * c * (1 # 2))). exists (Z.to_nat (Qround.Qceiling d)).
      assert (Dn : 0 < d) by (unfold d; apply Qlt_shift_div_l; [nra|rewrite Qmult_0_l; apply abs_pos]).
      pose proof (Qround.Qle_ceiling d) as C. assert (C0 : (0 <= Qround.Qceiling d)%Z) by (apply (Qround.Qceiling_resp_le 0 d); lra).
      rewrite Z2Nat.id by exact C0. set (z := inject_Z (Qround.Qceiling d)) in *.
      assert (E : Qabs (dif 0) == d * (eps * c * (1 # 2))) by (unfold d; field; split; lra). rewrite E.
      assert (0 < eps * c * (1 # 2)) by nra. nra. }
    destruct M as [m HM]. exists (2 * 2 ^ m)%nat.
    assert (S0 : forall n k, (2 * 2 ^ m <= n)%nat -> (n <= k)%nat -> Qabs (val k - val n) < eps).
    { intros n k Hn Hk. eapply Qle_lt_trans; [apply bracket_abs; exact Hk|]. replace n with (2 * 2 ^ m + (n - 2 * 2 ^ m))%nat by lia.
      eapply Qle_lt_trans; [apply abs_mono|]. pose proof (slow c Hc H (2 ^ m)) as S1. pose proof (harm_pow m) as S2. set (e := Qabs (dif (2 * 2 ^ m))) in *. assert (0 <= e) by apply Qabs_nonneg.
      set (h := harm (2 ^ m)) in *. set (j := inject_Z (Z.of_nat m) * (1 # 2)) in *.
      destruct (Qlt_le_dec e eps) as [L|L]; [exact L|exfalso].
      assert (J : 0 <= j) by (unfold j; apply Qmult_le_0_compat; [change 0 with (inject_Z 0); rewrite <- Zle_Qle; lia|discriminate]).
      assert (eps * (1 + c * j) <= e * (1 + c * h)); [|lra].
      apply Qle_trans with (e * (1 + c * j)); [apply Qmult_le_r; [nra|exact L]|]. assert (0 <= e * c) by nra. nra. }
    intros k n Hk Hn. destruct (Nat.le_ge_cases n k) as [L|L]; [apply S0; assumption|]. rewrite Qabs_Qminus. apply S0; assumption.
  Qed.
End Pos.

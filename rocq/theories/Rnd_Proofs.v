From Coq Require Import ZArith QArith Qabs Qpower Qround Bool Lia Lqa Morphisms.
From Verif Require Import Rnd.
Open Scope Z_scope.

Lemma two_p_pos e : (0 < two_p e)%Q.
Proof. apply Qpower_0_lt. reflexivity. Qed.

Lemma two_p_plus a b : (two_p (a + b) == two_p a * two_p b)%Q.
Proof. apply Qpower_plus. discriminate. Qed.

Lemma two_p_opp_l e : (two_p (- e) * two_p e == 1)%Q.
Proof. rewrite <- two_p_plus. now replace (- e + e) with 0 by lia. Qed.

Lemma two_p_Z e : 0 <= e -> (two_p e == inject_Z (2 ^ e))%Q.
Proof.
  intros H. unfold two_p. rewrite <- (Z2Nat.id e) by lia.
  generalize (Z.to_nat e) as n. clear.
  induction n as [|n IH]; [reflexivity|].
  rewrite Nat2Z.inj_succ. unfold Z.succ. rewrite Qpower_plus by discriminate.
  rewrite IH, Z.pow_add_r by lia. rewrite inject_Z_mult. reflexivity.
Qed.

Lemma two_p_le a b : a <= b -> (two_p a <= two_p b)%Q.
Proof.
  intros H. replace b with (a + (b - a)) by lia. rewrite two_p_plus.
  rewrite (two_p_Z (b - a)) by lia.
  assert (1 <= inject_Z (2 ^ (b - a)))%Q.
  { change 1%Q with (inject_Z 1). rewrite <- Zle_Qle.
    assert (0 < 2 ^ (b - a)) by (apply Z.pow_pos_nonneg; lia). lia. }
  pose proof (two_p_pos a). nra.
Qed.

Lemma two_p_succ a : (two_p (a + 1) == 2 * two_p a)%Q.
Proof. rewrite two_p_plus. change (two_p 1) with (2 # 1)%Q. ring. Qed.

Lemma Qpos_num x : (0 < x)%Q <-> 0 < Qnum x.
Proof. unfold Qlt. cbn. lia. Qed.

Lemma Qnum_zero x : Qnum x = 0 <-> (x == 0)%Q.
Proof. unfold Qeq. cbn. lia. Qed.

(** ---- nearest integer ---- *)
Lemma rne_spec x :
  (Qabs (x - inject_Z (rne x)) <= 1 # 2)%Q /\
  ((Qabs (x - inject_Z (rne x)) == 1 # 2)%Q -> Z.even (rne x) = true).
Proof.
  unfold rne. destruct x as [n d]. cbn [Qnum Qden].
  set (q := n / Zpos d). set (r := n mod Zpos d).
  pose proof (Z.div_mod n (Zpos d) ltac:(lia)) as E. fold q r in E.
  pose proof (Z.mod_pos_bound n (Zpos d) ltac:(lia)) as B. fold r in B.
  assert (Hx : (n # d == inject_Z q + (r # d))%Q).
  { rewrite E. unfold Qeq, Qplus, inject_Z. cbn [Qnum Qden]. rewrite Pos2Z.inj_mul. ring. }
  assert (F : forall m, ((n # d) - inject_Z m == inject_Z (q - m) + (r # d))%Q).
  { intros m. rewrite Hx. unfold Z.sub. rewrite inject_Z_plus, inject_Z_opp. ring. }
  assert (A0 : (Qabs ((n # d) - inject_Z q) == r # d)%Q).
  { rewrite (F q), Z.sub_diag.
    setoid_replace (inject_Z 0 + (r # d))%Q with (r # d)%Q by ring.
    apply Qabs_pos. unfold Qle; cbn [Qnum Qden]; lia. }
  assert (A1 : (Qabs ((n # d) - inject_Z (q + 1)) == (Zpos d - r) # d)%Q).
  { rewrite (F (q + 1)).
    setoid_replace (inject_Z (q - (q + 1)) + (r # d))%Q with (- ((Zpos d - r) # d))%Q.
    2:{ replace (q - (q + 1)) with (-1) by lia. unfold Qeq, Qplus, Qopp, inject_Z. cbn [Qnum Qden]. rewrite Pos2Z.inj_mul. ring. }
    rewrite Qabs_opp. apply Qabs_pos. unfold Qle; cbn [Qnum Qden]; lia. }
  destruct (2 * r <? Zpos d) eqn:C1; [apply Z.ltb_lt in C1 | apply Z.ltb_ge in C1].
  - rewrite A0. split; [unfold Qle; cbn [Qnum Qden]; lia|]. unfold Qeq; cbn [Qnum Qden]; lia.
  - destruct (Zpos d <? 2 * r) eqn:C2; [apply Z.ltb_lt in C2 | apply Z.ltb_ge in C2].
    + rewrite A1. split; [unfold Qle; cbn [Qnum Qden]; lia|]. unfold Qeq; cbn [Qnum Qden]; lia.
    + destruct (Z.even q) eqn:C3.
      * rewrite A0. split; [unfold Qle; cbn [Qnum Qden]; lia|]. auto.
      * rewrite A1. split; [unfold Qle; cbn [Qnum Qden]; lia|]. intros _. rewrite Z.even_add, C3. reflexivity.
Qed.

Lemma Qabs_le_iff x y : (Qabs x <= y)%Q <-> (- y <= x <= y)%Q.
Proof. apply Qabs_Qle_condition. Qed.

Lemma inject_Z_lt_inv a b : (inject_Z a < inject_Z b)%Q -> a < b.
Proof. now rewrite <- Zlt_Qlt. Qed.

(** the nearest-even integer is unique *)
Lemma rne_unique x m :
  (Qabs (x - inject_Z m) <= 1 # 2)%Q ->
  ((Qabs (x - inject_Z m) == 1 # 2)%Q -> Z.even m = true) -> rne x = m.
Proof.
  intros H1 H2. destruct (rne_spec x) as [H3 H4]. set (k := rne x) in *.
  destruct (Z.eq_dec k m) as [|N]; [assumption|]. exfalso.
  pose proof (proj1 (Qabs_le_iff _ _) H1) as [B1 B2].
  pose proof (proj1 (Qabs_le_iff _ _) H3) as [B3 B4].
  assert (D : Z.abs (k - m) <= 1).
  { assert (k - m < 2). { apply inject_Z_lt_inv. unfold Z.sub. rewrite inject_Z_plus, inject_Z_opp. change (inject_Z 2) with 2%Q. lra. }
    assert (-2 < k - m). { apply inject_Z_lt_inv. unfold Z.sub. rewrite inject_Z_plus, inject_Z_opp. change (inject_Z (-2)) with (-2)%Q. lra. }
    lia. }
  assert (Ev : Z.even k = true /\ Z.even m = true).
  { assert (C : k = m + 1 \/ k = m - 1) by lia. destruct C as [C|C].
    - assert (E : (inject_Z k == inject_Z m + 1)%Q) by (rewrite C, inject_Z_plus; reflexivity).
      split.
      + apply H4. rewrite Qabs_neg by lra. lra.
      + apply H2. rewrite Qabs_pos by lra. lra.
    - assert (E : (inject_Z k == inject_Z m - 1)%Q) by (rewrite C; unfold Z.sub; rewrite inject_Z_plus; reflexivity).
      split.
      + apply H4. rewrite Qabs_pos by lra. lra.
      + apply H2. rewrite Qabs_neg by lra. lra. }
  destruct Ev as [E1 E2].
  apply Z.even_spec in E1 as [u ->]. apply Z.even_spec in E2 as [v ->]. lia.
Qed.

Global Instance rne_Proper : Proper (Qeq ==> eq) rne.
Proof.
  intros x y E. symmetry. destruct (rne_spec x) as [A B].
  apply rne_unique; rewrite <- E; assumption.
Qed.

Lemma rne_opp x : rne (- x) = - rne x.
Proof.
  destruct (rne_spec x) as [A B]. apply rne_unique.
  - rewrite inject_Z_opp. setoid_replace (- x - - inject_Z (rne x))%Q with (- (x - inject_Z (rne x)))%Q by ring.
    now rewrite Qabs_opp.
  - rewrite inject_Z_opp. setoid_replace (- x - - inject_Z (rne x))%Q with (- (x - inject_Z (rne x)))%Q by ring.
    rewrite Qabs_opp, Z.even_opp. assumption.
Qed.

Lemma rne_Z m : rne (inject_Z m) = m.
Proof.
  apply rne_unique; setoid_replace (inject_Z m - inject_Z m)%Q with 0%Q by ring; cbn; [discriminate|].
  intros H. discriminate H.
Qed.

Lemma rne_mono x y : (x <= y)%Q -> rne x <= rne y.
Proof.
  intros H. destruct (rne_spec x) as [A A']. destruct (rne_spec y) as [B B'].
  destruct (Z_le_gt_dec (rne x) (rne y)) as [|N]; [assumption|]. exfalso.
  pose proof (proj1 (Qabs_le_iff _ _) A) as [A1 A2].
  pose proof (proj1 (Qabs_le_iff _ _) B) as [B1 B2].
  assert (G : (inject_Z (rne y) + 1 <= inject_Z (rne x))%Q).
  { change 1%Q with (inject_Z 1). rewrite <- inject_Z_plus, <- Zle_Qle. lia. }
  assert (x == y)%Q by lra. rewrite H0 in N. lia.
Qed.

(** ---- magnitude ---- *)
Lemma Qabs_frac n d : (Qabs (n # d) == Z.abs n # d)%Q.
Proof. reflexivity. Qed.

Lemma mag_spec x : ~ (x == 0)%Q -> (two_p (mag x) <= Qabs x /\ Qabs x < two_p (mag x + 1))%Q.
Proof.
  intros Hx. rewrite <- Qnum_zero in Hx. destruct x as [n d]. cbn [Qnum] in Hx.
  unfold mag. cbn [Qnum Qden]. change (Qabs (n # d)) with (Z.abs n # d)%Q.
  set (N := Z.abs n). assert (HN : 0 < N) by (unfold N; lia).
  set (a := Z.log2 N). set (b := Z.log2 (Zpos d)). set (k := a - b).
  pose proof (Z.log2_spec N HN) as [L1 L2]. fold a in L1, L2.
  pose proof (Z.log2_spec (Zpos d) ltac:(lia)) as [L3 L4]. fold b in L3, L4.
  pose proof (Z.log2_nonneg N) as Na. fold a in Na. pose proof (Z.log2_nonneg (Zpos d)) as Nb. fold b in Nb.
  assert (X : (N # d == inject_Z N / inject_Z (Zpos d))%Q).
  { unfold Qeq, Qdiv, Qmult, Qinv, inject_Z. cbn. lia. }
  assert (Dp : (0 < inject_Z (Zpos d))%Q) by reflexivity.
  assert (U : forall e, (two_p e <= N # d)%Q <-> (two_p e * inject_Z (Zpos d) <= inject_Z N)%Q).
  { intros e. rewrite X. split; intros H.
    - rewrite <- (Qmult_le_r _ _ (inject_Z (Zpos d))) in H by assumption.
      rewrite (Qmult_comm (inject_Z N / _)), Qmult_div_r in H; [assumption | lra].
    - apply Qle_shift_div_l; assumption. }
  assert (V : forall e, (N # d < two_p e)%Q <-> (inject_Z N < two_p e * inject_Z (Zpos d))%Q).
  { intros e. split; intros H.
    - apply Qnot_le_lt. intros H'. apply U in H'. lra.
    - apply Qnot_le_lt. intros H'. apply U in H'. lra. }
  (* comparison performed by the code *)
  assert (W : forall j, (N * 2 ^ Z.max 0 (- j) <? Zpos d * 2 ^ Z.max 0 j = true) <-> (N # d < two_p j)%Q).
  { intros j. rewrite V, Z.ltb_lt.
    destruct (Z_le_gt_dec 0 j) as [P|P].
    - rewrite (Z.max_l 0 (- j)) by lia. rewrite (Z.max_r 0 j) by lia. rewrite Z.pow_0_r, Z.mul_1_r.
      rewrite two_p_Z by assumption. rewrite <- inject_Z_mult, <- Zlt_Qlt. lia.
    - rewrite (Z.max_r 0 (- j)) by lia. rewrite (Z.max_l 0 j) by lia. rewrite Z.pow_0_r, Z.mul_1_r.
      assert (I : (two_p j == / inject_Z (2 ^ (- j)))%Q).
      { rewrite <- two_p_Z by lia. pose proof (two_p_opp_l j). pose proof (two_p_pos (- j)).
        field_simplify_eq; [|lra]. rewrite <- H. ring. }
      rewrite I.
      assert (Pp : (0 < inject_Z (2 ^ (- j)))%Q) by (change 0%Q with (inject_Z 0); rewrite <- Zlt_Qlt; apply Z.pow_pos_nonneg; lia).
      rewrite <- (Qmult_lt_r (inject_Z N) _ (inject_Z (2 ^ (- j)))) by assumption.
      setoid_replace (/ inject_Z (2 ^ (- j)) * inject_Z (Zpos d) * inject_Z (2 ^ (- j)))%Q with (inject_Z (Zpos d)) by (field; lra).
      rewrite <- inject_Z_mult, <- Zlt_Qlt. lia. }
  assert (Low : (two_p (k - 1) <= N # d)%Q).
  { apply U. setoid_replace (inject_Z N) with (inject_Z N * 1)%Q by ring.
    assert (E : (two_p (k - 1) == two_p a * two_p (- (b + 1)))%Q) by (rewrite <- two_p_plus; unfold k; now replace (a + - (b + 1)) with (a - b - 1) by lia).
    rewrite E.
    assert (two_p a <= inject_Z N)%Q by (rewrite two_p_Z by lia; rewrite <- Zle_Qle; lia).
    assert (inject_Z (Zpos d) <= two_p (b + 1))%Q by (rewrite two_p_Z by lia; rewrite <- Zle_Qle; unfold Z.succ in L4; lia).
    pose proof (two_p_opp_l (b + 1)). pose proof (two_p_pos (- (b + 1))). pose proof (two_p_pos a).
    assert (two_p (- (b + 1)) * inject_Z (Zpos d) <= 1)%Q by (rewrite <- H1; apply Qmult_le_l; assumption).
    assert (0 < two_p (- (b + 1)) * inject_Z (Zpos d))%Q by (apply Qmult_lt_0_compat; [assumption|reflexivity]).
    setoid_replace (two_p a * two_p (- (b + 1)) * inject_Z (Zpos d))%Q with (two_p a * (two_p (- (b + 1)) * inject_Z (Zpos d)))%Q by ring.
    generalize dependent (two_p (- (b + 1)) * inject_Z (Zpos d))%Q. intros t **. nra. }
  assert (High : (N # d < two_p (k + 1))%Q).
  { apply V.
    assert (E : (two_p (k + 1) == two_p (a + 1) * two_p (- b))%Q) by (rewrite <- two_p_plus; unfold k; now replace (a + 1 + - b) with (a - b + 1) by lia).
    rewrite E.
    assert (inject_Z N < two_p (a + 1))%Q by (rewrite two_p_Z by lia; rewrite <- Zlt_Qlt; unfold Z.succ in L2; lia).
    assert (two_p b <= inject_Z (Zpos d))%Q by (rewrite two_p_Z by lia; rewrite <- Zle_Qle; lia).
    pose proof (two_p_opp_l b). pose proof (two_p_pos (- b)). pose proof (two_p_pos (a + 1)).
    assert (1 <= two_p (- b) * inject_Z (Zpos d))%Q by (rewrite <- H1; apply Qmult_le_l; assumption).
    setoid_replace (two_p (a + 1) * two_p (- b) * inject_Z (Zpos d))%Q with (two_p (a + 1) * (two_p (- b) * inject_Z (Zpos d)))%Q by ring.
    generalize dependent (two_p (- b) * inject_Z (Zpos d))%Q. intros t **. nra. }
  destruct (N * 2 ^ Z.max 0 (- k) <? Zpos d * 2 ^ Z.max 0 k) eqn:C.
  - apply W in C. replace (k - 1 + 1) with k by lia. split; assumption.
  - split; [|assumption]. apply Qnot_lt_le. intros C'. apply W in C'. congruence.
Qed.

Lemma two_p_lt_inv a b : (two_p a < two_p b)%Q -> a < b.
Proof. intros H. destruct (Z_lt_le_dec a b) as [|L]; [assumption|]. apply two_p_le in L. lra. Qed.

Lemma mag_unique x k : ~ (x == 0)%Q -> (two_p k <= Qabs x)%Q -> (Qabs x < two_p (k + 1))%Q -> mag x = k.
Proof.
  intros Hx A B. destruct (mag_spec x Hx) as [C D].
  assert (k < mag x + 1) by (apply two_p_lt_inv; lra).
  assert (mag x < k + 1) by (apply two_p_lt_inv; lra). lia.
Qed.

Lemma mag_Qeq x y : ~ (x == 0)%Q -> (x == y)%Q -> mag x = mag y.
Proof.
  intros Hx E. destruct (mag_spec y) as [A B]; [now rewrite <- E|].
  apply mag_unique; [assumption| |]; rewrite E; assumption.
Qed.

Lemma mag_opp x : mag (- x) = mag x.
Proof. unfold mag. cbn [Qopp Qnum Qden]. now rewrite Z.abs_opp. Qed.

Lemma mag_mono x y : ~ (x == 0)%Q -> (Qabs x <= Qabs y)%Q -> mag x <= mag y.
Proof.
  intros Hx H. assert (Hy : ~ (y == 0)%Q).
  { intros E. rewrite E in H. apply Hx. destruct (mag_spec x Hx). pose proof (two_p_pos (mag x)). cbn in H. lra. }
  destruct (mag_spec x Hx) as [A _]. destruct (mag_spec y Hy) as [_ B].
  assert (mag x < mag y + 1) by (apply two_p_lt_inv; lra). lia.
Qed.

(** ---- rounding ---- *)
Definition ulp_e (p : Z) (x : Q) : Z := mag x - p + 1.

Lemma rnd_nz p x : ~ (x == 0)%Q ->
  rnd p x = Qred (inject_Z (rne (x * two_p (- ulp_e p x))) * two_p (ulp_e p x)).
Proof.
  intros H. unfold rnd. destruct (Qnum x =? 0) eqn:E; [|reflexivity].
  apply Z.eqb_eq, Qnum_zero in E. contradiction.
Qed.

Lemma rnd_0 p x : (x == 0)%Q -> rnd p x = 0%Q.
Proof. intros H. apply Qnum_zero in H. unfold rnd. now rewrite H. Qed.

Lemma Qeq0_dec x : {(x == 0)%Q} + {~ (x == 0)%Q}.
Proof. apply Qeq_dec. Qed.

Lemma rnd_Qeq p x y : (x == y)%Q -> rnd p x = rnd p y.
Proof.
  intros E. destruct (Qeq0_dec x) as [Z0|NZ].
  - rewrite (rnd_0 p x Z0), (rnd_0 p y); [reflexivity|]. now rewrite <- E.
  - assert (NZ' : ~ (y == 0)%Q) by now rewrite <- E.
    rewrite !rnd_nz by assumption. unfold ulp_e. rewrite (mag_Qeq x y NZ E).
    now rewrite E.
Qed.

Global Instance rnd_Proper p : Proper (Qeq ==> Qeq) (rnd p).
Proof. intros x y E. now rewrite (rnd_Qeq p x y E). Qed.

Lemma rnd_opp p x : rnd p (- x) = Qopp (rnd p x).
Proof.
  destruct (Qeq0_dec x) as [Z0|NZ].
  - rewrite (rnd_0 p x Z0), (rnd_0 p (- x)); [reflexivity|]. rewrite Z0. reflexivity.
  - assert (NZ' : ~ (- x == 0)%Q). { intros H. apply NZ. rewrite <- (Qopp_involutive x), H. reflexivity. }
    rewrite !rnd_nz by assumption. unfold ulp_e. rewrite mag_opp.
    rewrite <- Qred_opp. apply Qred_complete.
    setoid_replace (- x * two_p (- (mag x - p + 1)))%Q with (- (x * two_p (- (mag x - p + 1))))%Q by ring.
    rewrite rne_opp, inject_Z_opp. ring.
Qed.

Lemma rnd_red p x : Qred (rnd p x) = rnd p x.
Proof.
  destruct (Qeq0_dec x) as [Z0|NZ].
  - rewrite (rnd_0 p x Z0). reflexivity.
  - rewrite rnd_nz by assumption. apply Qred_complete, Qred_correct.
Qed.

(** relative error at most 2^-p *)
Lemma rnd_err p x : (Qabs (rnd p x - x) <= two_p (- p) * Qabs x)%Q.
Proof.
  destruct (Qeq0_dec x) as [Z0|NZ].
  - rewrite (rnd_0 p x Z0), Z0. cbn. pose proof (two_p_pos (- p)). lra.
  - rewrite rnd_nz by assumption. rewrite Qred_correct.
    set (e := ulp_e p x). set (y := (x * two_p (- e))%Q).
    destruct (rne_spec y) as [A _]. destruct (mag_spec x NZ) as [B _].
    assert (X : (x == y * two_p e)%Q).
    { unfold y. rewrite <- Qmult_assoc, two_p_opp_l. ring. }
    rewrite X at 1. setoid_replace (inject_Z (rne y) * two_p e - y * two_p e)%Q with (- ((y - inject_Z (rne y)) * two_p e))%Q by ring.
    rewrite Qabs_opp, Qabs_Qmult. rewrite (Qabs_pos (two_p e)) by (apply Qlt_le_weak, two_p_pos).
    assert (E : (two_p e == 2 * (two_p (- p) * two_p (mag x)))%Q).
    { unfold e, ulp_e. replace (mag x - p + 1) with ((- p + mag x) + 1) by lia. rewrite two_p_succ, two_p_plus. ring. }
    assert (G : (two_p (- p) * two_p (mag x) <= two_p (- p) * Qabs x)%Q) by (apply Qmult_le_l; [apply two_p_pos|assumption]).
    pose proof (two_p_pos e).
    assert (Qabs (y - inject_Z (rne y)) * two_p e <= (1 # 2) * two_p e)%Q by (apply Qmult_le_r; assumption).
    lra.
Qed.

Lemma rnd_zero_iff p x : 1 <= p -> (rnd p x == 0)%Q <-> (x == 0)%Q.
Proof.
  intros Hp. split; intros H; [|now rewrite (rnd_0 p x H)].
  destruct (Qeq0_dec x) as [|NZ]; [assumption|]. exfalso.
  pose proof (rnd_err p x) as E. rewrite H in E.
  setoid_replace (0 - x)%Q with (- x)%Q in E by ring. rewrite Qabs_opp in E.
  destruct (mag_spec x NZ) as [B _]. pose proof (two_p_pos (mag x)).
  pose proof (two_p_le (- p) (-1) ltac:(lia)) as T. change (two_p (-1)) with (1 # 2)%Q in T.
  assert (two_p (- p) * Qabs x <= (1 # 2) * Qabs x)%Q by (apply Qmult_le_r; lra). lra.
Qed.

(** numbers with at most p significant bits are not changed *)
Lemma rnd_exact p x m k : 1 <= p -> Z.abs m <= 2 ^ p -> (x == inject_Z m * two_p k)%Q -> (rnd p x == x)%Q.
Proof.
  intros Hp Hm Hx. destruct (Qeq0_dec x) as [Z0|NZ].
  - rewrite (rnd_0 p x Z0). now rewrite Z0.
  - rewrite rnd_nz by assumption. rewrite Qred_correct.
    destruct (mag_spec x NZ) as [B C].
    assert (J : exists j, (x * two_p (- ulp_e p x) == inject_Z j)%Q).
    { set (e := ulp_e p x).
      assert (Ax : (Qabs x == inject_Z (Z.abs m) * two_p k)%Q).
      { rewrite Hx, Qabs_Qmult. rewrite (Qabs_pos (two_p k)) by (apply Qlt_le_weak, two_p_pos). reflexivity. }
      destruct (Z_le_gt_dec e k) as [L|L].
      - exists (m * 2 ^ (k - e)). rewrite Hx, inject_Z_mult, <- two_p_Z by lia.
        rewrite <- Qmult_assoc, <- two_p_plus. now replace (k + - e) with (k - e) by lia.
      - assert (M : 2 ^ p <= Z.abs m).
        { rewrite Zle_Qle, <- two_p_Z by lia.
          assert (T : (two_p (p + k) <= two_p (mag x))%Q) by (apply two_p_le; unfold e, ulp_e in L; lia).
          rewrite two_p_plus in T. pose proof (two_p_pos k).
          rewrite <- (Qmult_le_r _ _ (two_p k)) by assumption. lra. }
        assert (Em : Z.abs m = 2 ^ p) by lia.
        assert (Ek : mag x = p + k).
        { apply mag_unique; [assumption| |]; rewrite Ax, Em, <- two_p_Z, <- two_p_plus by lia.
          - apply Qle_refl.
          - rewrite two_p_succ. pose proof (two_p_pos (p + k)). lra. }
        exists (m / 2).
        assert (Ev : m = 2 * (m / 2)).
        { apply Z_div_exact_2; [lia|]. apply Z.mod_divide; [lia|]. apply Z.divide_abs_r. rewrite Em.
          exists (2 ^ (p - 1)). replace p with (p - 1 + 1) at 1 by lia. rewrite Z.pow_add_r by lia. reflexivity. }
        assert (Ee : - e = - k + -1) by (unfold e, ulp_e; lia).
        rewrite Hx, Ee, two_p_plus. rewrite Ev at 1. rewrite inject_Z_mult.
        change (two_p (-1)) with (1 # 2)%Q. change (inject_Z 2) with (2 # 1)%Q.
        pose proof (two_p_opp_l k). setoid_replace ((2 # 1) * inject_Z (m / 2) * two_p k * (two_p (- k) * (1 # 2)))%Q with (inject_Z (m / 2) * (two_p (- k) * two_p k))%Q by ring.
        rewrite H. ring. }
    destruct J as [j Hj]. rewrite Hj, rne_Z, <- Hj, <- Qmult_assoc, two_p_opp_l. ring.
Qed.

Lemma rnd_exact_Z p m : 1 <= p -> Z.abs m <= 2 ^ p -> (rnd p (inject_Z m) == inject_Z m)%Q.
Proof. intros Hp Hm. apply (rnd_exact p _ m 0 Hp Hm). change (two_p 0) with 1%Q. ring. Qed.

Lemma rnd_shape p x : exists m k, (rnd p x == inject_Z m * two_p k)%Q.
Proof.
  destruct (Qeq0_dec x) as [Z0|NZ].
  - exists 0, 0. rewrite (rnd_0 p x Z0). reflexivity.
  - exists (rne (x * two_p (- ulp_e p x))), (ulp_e p x). rewrite rnd_nz by assumption. apply Qred_correct.
Qed.

(** bounds by powers of two are preserved *)
Lemma rnd_ge_two_p p x k : 1 <= p -> (two_p k <= x)%Q -> (two_p k <= rnd p x)%Q.
Proof.
  intros Hp H. pose proof (two_p_pos k) as Pk.
  assert (NZ : ~ (x == 0)%Q) by (intros E; rewrite E in H; lra).
  rewrite rnd_nz by assumption. rewrite Qred_correct.
  destruct (mag_spec x NZ) as [B C]. rewrite Qabs_pos in B, C by lra.
  assert (K : k <= mag x) by (assert (k < mag x + 1) by (apply two_p_lt_inv; lra); lia).
  assert (R : 2 ^ (p - 1) <= rne (x * two_p (- ulp_e p x))).
  { rewrite <- (rne_Z (2 ^ (p - 1))). apply rne_mono. rewrite <- two_p_Z by lia.
    replace (p - 1) with (mag x + - ulp_e p x) by (unfold ulp_e; lia). rewrite two_p_plus.
    apply Qmult_le_r; [apply two_p_pos|assumption]. }
  apply Qle_trans with (two_p (mag x)); [now apply two_p_le|].
  replace (mag x) with ((p - 1) + ulp_e p x) at 1 by (unfold ulp_e; lia). rewrite (two_p_plus (p - 1) (ulp_e p x)).
  apply Qmult_le_r; [apply two_p_pos|]. rewrite two_p_Z by lia. rewrite <- Zle_Qle. assumption.
Qed.

Lemma rnd_le_two_p p x k : 1 <= p -> (0 <= x)%Q -> (x <= two_p k)%Q -> (rnd p x <= two_p k)%Q.
Proof.
  intros Hp H0 H. destruct (Qeq0_dec x) as [Z0|NZ].
  { rewrite (rnd_0 p x Z0). apply Qlt_le_weak, two_p_pos. }
  destruct (Qlt_le_dec x (two_p k)) as [L|L].
  - rewrite rnd_nz by assumption. rewrite Qred_correct.
    destruct (mag_spec x NZ) as [B C]. rewrite Qabs_pos in B, C by lra.
    assert (K : mag x + 1 <= k) by (assert (mag x < k) by (apply two_p_lt_inv; lra); lia).
    assert (R : rne (x * two_p (- ulp_e p x)) <= 2 ^ p).
    { rewrite <- (rne_Z (2 ^ p)). apply rne_mono. rewrite <- two_p_Z by lia.
      replace p with (mag x + 1 + - ulp_e p x) at 2 by (unfold ulp_e; lia). rewrite (two_p_plus (mag x + 1)).
      apply Qmult_le_r; [apply two_p_pos|lra]. }
    apply Qle_trans with (two_p (mag x + 1)); [|now apply two_p_le].
    replace (mag x + 1) with (p + ulp_e p x) by (unfold ulp_e; lia). rewrite (two_p_plus p (ulp_e p x)).
    apply Qmult_le_r; [apply two_p_pos|]. rewrite (two_p_Z p) by lia. rewrite <- Zle_Qle. assumption.
  - assert (E : (x == two_p k)%Q) by (apply Qle_antisym; assumption).
    rewrite (rnd_Qeq p _ _ E).
    rewrite (rnd_exact p (two_p k) 1 k Hp).
    + apply Qle_refl.
    + change (Z.abs 1) with 1. assert (0 < 2 ^ p) by (apply Z.pow_pos_nonneg; lia). lia.
    + ring.
Qed.

Lemma rnd_nonneg p x : 1 <= p -> (0 <= x)%Q -> (0 <= rnd p x)%Q.
Proof.
  intros Hp H. destruct (Qeq0_dec x) as [Z0|NZ].
  - rewrite (rnd_0 p x Z0). apply Qle_refl.
  - destruct (mag_spec x NZ) as [B _]. rewrite Qabs_pos in B by assumption.
    pose proof (rnd_ge_two_p p x _ Hp B). pose proof (two_p_pos (mag x)). lra.
Qed.

Lemma rnd_mono_pos p x y : 1 <= p -> (0 <= x)%Q -> (x <= y)%Q -> (rnd p x <= rnd p y)%Q.
Proof.
  intros Hp H0 H. destruct (Qeq0_dec x) as [Z0|NZ].
  { rewrite (rnd_0 p x Z0). apply rnd_nonneg; [assumption|lra]. }
  assert (NZy : ~ (y == 0)%Q) by (intros E; apply NZ; lra).
  destruct (mag_spec x NZ) as [B C]. destruct (mag_spec y NZy) as [B' C'].
  rewrite Qabs_pos in B, C, B', C' by lra.
  assert (M : mag x <= mag y) by (apply mag_mono; [assumption|]; rewrite !Qabs_pos by lra; assumption).
  destruct (Z.eq_dec (mag x) (mag y)) as [E|N].
  - rewrite !rnd_nz by assumption. rewrite !Qred_correct. unfold ulp_e. rewrite E.
    apply Qmult_le_r; [apply two_p_pos|]. rewrite <- Zle_Qle. apply rne_mono.
    apply Qmult_le_r; [apply two_p_pos|assumption].
  - apply Qle_trans with (two_p (mag x + 1)).
    + apply rnd_le_two_p; lra || assumption.
    + apply Qle_trans with (two_p (mag y)); [apply two_p_le; lia|]. apply rnd_ge_two_p; assumption.
Qed.

Lemma rnd_mono p x y : 1 <= p -> (x <= y)%Q -> (rnd p x <= rnd p y)%Q.
Proof.
  intros Hp H. destruct (Qlt_le_dec x 0) as [Lx|Lx].
  - destruct (Qlt_le_dec y 0) as [Ly|Ly].
    + assert (R : (rnd p (- y) <= rnd p (- x))%Q) by (apply rnd_mono_pos; lra || assumption).
      rewrite !rnd_opp in R. lra.
    + assert (0 <= rnd p (- x))%Q by (apply rnd_nonneg; lra || assumption).
      rewrite rnd_opp in H0. pose proof (rnd_nonneg p y Hp Ly). lra.
  - apply rnd_mono_pos; assumption.
Qed.

Lemma rnd_pos p x : 1 <= p -> (0 < x)%Q -> (0 < rnd p x)%Q.
Proof.
  intros Hp H. pose proof (rnd_nonneg p x Hp (Qlt_le_weak _ _ H)).
  assert (~ (rnd p x == 0)%Q). { rewrite rnd_zero_iff by assumption. lra. } 
  apply Qle_lteq in H0. destruct H0 as [|E]; [assumption|]. exfalso. apply H1. now symmetry.
Qed.

(** rounding twice changes nothing *)
Lemma rnd_idem p x : 1 <= p -> (rnd p (rnd p x) == rnd p x)%Q.
Proof.
  intros Hp. destruct (Qeq0_dec x) as [Z0|NZ]; [now rewrite (rnd_0 p x Z0)|].
  apply (rnd_exact p _ (rne (x * two_p (- ulp_e p x))) (ulp_e p x) Hp).
  - destruct (mag_spec x NZ) as [B C].
    assert (G : (Qabs (x * two_p (- ulp_e p x)) <= inject_Z (2 ^ p))%Q).
    { rewrite Qabs_Qmult, (Qabs_pos (two_p _)) by (apply Qlt_le_weak, two_p_pos). rewrite <- two_p_Z by lia.
      replace p with (mag x + 1 + - ulp_e p x) at 2 by (unfold ulp_e; lia). rewrite (two_p_plus (mag x + 1)).
      apply Qmult_le_r; [apply two_p_pos|lra]. }
    apply Qabs_le_iff in G as [G1 G2].
    apply rne_mono in G2. rewrite rne_Z in G2.
    apply rne_mono in G1. rewrite <- inject_Z_opp, rne_Z in G1. lia.
  - rewrite rnd_nz by assumption. apply Qred_correct.
Qed.

(** Continued fractions whose a_i are larger than their b_i, over the integers. *)
From Coq Require Import ZArith QArith Qabs List Lia Lqa Psatz Arith.
Open Scope Z_scope.

Lemma inj_abs z : (inject_Z (Z.abs z) == Qabs (inject_Z z))%Q.
Proof. unfold inject_Z, Qabs. reflexivity. Qed.

Section Dom.
  Variables a b P D : nat -> Z.
  Hypothesis NB : forall n, b (S n) <> 0.
  Hypothesis DOM : forall n, Z.abs (b (S n)) + 1 <= Z.abs (a (S n)).
  Hypothesis P0 : P 0%nat = a 0%nat.
  Hypothesis D0 : D 0%nat = 1.
  Hypothesis P1 : P 1%nat = a 1%nat * a 0%nat + b 1%nat.
  Hypothesis D1 : D 1%nat = a 1%nat.
  Hypothesis PS : forall n, P (S (S n)) = a (S (S n)) * P (S n) + b (S (S n)) * P n.
  Hypothesis DS : forall n, D (S (S n)) = a (S (S n)) * D (S n) + b (S (S n)) * D n.

  (** the product of |b_1| ... |b_n| *)
  Fixpoint pb (n : nat) : Z := match n with O => 1 | S n => Z.abs (b (S n)) * pb n end.
  Lemma pb_pos n : 1 <= pb n.
  Proof. induction n as [|n IH]; cbn [pb]; [lia|]. pose proof (NB n). nia. Qed.
  Lemma grow n : pb (S n) <= Z.abs (D (S n)) - Z.abs (D n).
  Proof.
    induction n as [|n IH]; [rewrite D0, D1; cbn [pb]; pose proof (DOM 0); lia|]. rewrite DS.
    pose proof (DOM (S n)) as H. pose proof (NB (S n)). pose proof (pb_pos (S n)) as B0. change (pb (S (S n))) with (Z.abs (b (S (S n))) * pb (S n)).
    set (x := D (S n)) in *. set (y := D n) in *. set (p := pb (S n)) in *. set (u := a (S (S n))) in *. set (w := b (S (S n))) in *. clearbody x y p u w.
    assert (T : Z.abs u * Z.abs x - Z.abs w * Z.abs y <= Z.abs (u * x + w * y)) by (rewrite <- !Z.abs_mul; lia).
    assert (M1 : (Z.abs w + 1) * Z.abs x <= Z.abs u * Z.abs x) by (apply Z.mul_le_mono_nonneg_r; lia). assert (M2 : Z.abs w * p <= Z.abs w * (Z.abs x - Z.abs y)) by (apply Z.mul_le_mono_nonneg_l; lia). rewrite Z.mul_add_distr_r in M1. rewrite Z.mul_sub_distr_l in M2. lia.
  Qed.
  Lemma low n : Z.of_nat n + 1 <= Z.abs (D n).
  Proof. induction n as [|n IH]; [rewrite D0; cbn; lia|]. pose proof (grow n). pose proof (pb_pos (S n)). lia. Qed.
  Lemma wron n : Z.abs (P (S n) * D n - P n * D (S n)) = pb (S n).
  Proof.
    induction n as [|n IH]; [rewrite P0, D0, P1, D1; cbn [pb]; replace ((a 1%nat * a 0%nat + b 1%nat) * 1 - a 0%nat * a 1%nat) with (b 1%nat) by ring; lia|].
    rewrite PS, DS. change (pb (S (S n))) with (Z.abs (b (S (S n))) * pb (S n)). rewrite <- IH, <- Z.abs_mul.
    replace ((a (S (S n)) * P (S n) + b (S (S n)) * P n) * D (S n) - P (S n) * (a (S (S n)) * D (S n) + b (S (S n)) * D n)) with (- (b (S (S n)) * (P (S n) * D n - P n * D (S n)))) by ring.
    apply Z.abs_opp.
  Qed.

  Definition vd (n : nat) : Q := (inject_Z (P n) / inject_Z (D n))%Q.
  Definition rd (n : nat) : Q := (/ inject_Z (Z.abs (D n)))%Q.
  Lemma Dq_pos n : (0 < inject_Z (Z.abs (D n)))%Q.
  Proof. pose proof (low n). change 0%Q with (inject_Z 0). rewrite <- Zlt_Qlt. lia. Qed.
  Lemma Dq_nz n : ~ (inject_Z (D n) == 0)%Q.
  Proof. intros E. pose proof (Dq_pos n) as H. rewrite inj_abs, E in H. discriminate H. Qed.
  Lemma rd_pos n : (0 < rd n)%Q.
  Proof. apply Qinv_lt_0_compat, Dq_pos. Qed.
  Lemma rd_le n : (rd n <= / inject_Z (Z.of_nat n + 1))%Q.
  Proof.
    unfold rd. pose proof (Dq_pos n) as H. assert (N : (0 < inject_Z (Z.of_nat n + 1))%Q) by (change 0%Q with (inject_Z 0); rewrite <- Zlt_Qlt; lia).
    apply Qle_shift_inv_l; [exact N|]. rewrite Qmult_comm. apply Qle_shift_div_r; [exact H|]. rewrite Qmult_1_l, <- Zle_Qle. apply low.
  Qed.
  Lemma step_le n : (Qabs (vd (S n) - vd n) <= rd n - rd (S n))%Q.
  Proof.
    pose proof (Dq_pos n) as H0. pose proof (Dq_pos (S n)) as H1. pose proof (Dq_nz n) as Z0. pose proof (Dq_nz (S n)) as Z1.
    assert (E : (vd (S n) - vd n == inject_Z (P (S n) * D n - P n * D (S n)) / inject_Z (D n * D (S n)))%Q).
    { unfold vd. unfold Z.sub. rewrite inject_Z_plus, inject_Z_opp, !inject_Z_mult. field. split; assumption. }
    rewrite E. unfold Qdiv. rewrite Qabs_Qmult, Qabs_Qinv, <- !inj_abs, wron, Z.abs_mul, inject_Z_mult. unfold rd.
    pose proof (grow n) as G. rewrite Zle_Qle in G. unfold Z.sub in G. rewrite inject_Z_plus, inject_Z_opp in G. revert H0 H1 G.
    generalize (inject_Z (Z.abs (D n))) (inject_Z (Z.abs (D (S n)))) (inject_Z (pb (S n))). intros x y p Hx Hy G. clear - Hx Hy G.
    setoid_replace (/ x - / y)%Q with ((y + - x) * / (x * y))%Q by (field; split; intros F; rewrite F in *; discriminate).
    apply Qmult_le_compat_r; [exact G|]. apply Qlt_le_weak, Qinv_lt_0_compat. nra.
  Qed.
  Lemma tele n k : (Qabs (vd (n + k) - vd n) <= rd n - rd (n + k))%Q.
  Proof.
    induction k as [|k IH]; [rewrite Nat.add_0_r; unfold Qminus at 1; rewrite Qplus_opp_r; cbn; lra|].
    rewrite Nat.add_succ_r. pose proof (step_le (n + k)) as S1.
    pose proof (Qabs_triangle (vd (S (n + k)) - vd (n + k)) (vd (n + k) - vd n)) as T.
    setoid_replace (vd (S (n + k)) - vd (n + k) + (vd (n + k) - vd n))%Q with (vd (S (n + k)) - vd n)%Q in T by ring. lra.
  Qed.

  (** ---- not rational ---- *)
  Section Rat.
    Variables p q : Z.
    Hypothesis HQ : 0 < q.
    Definition er (n : nat) : Z := q * P n - p * D n.
    Lemma er_S n : er (S (S n)) = a (S (S n)) * er (S n) + b (S (S n)) * er n.
    Proof. unfold er. rewrite PS, DS. ring. Qed.
    Lemma er_1 : er 1 = a 1%nat * er 0 + b 1%nat * q.
    Proof. unfold er. rewrite P0, D0, P1, D1. ring. Qed.
    Lemma er_nz n : ~ (er n = 0 /\ er (S n) = 0).
    Proof.
      induction n as [|n IH]; intros [E1 E2].
      - rewrite er_1, E1 in E2. pose proof (NB 0). nia.
      - rewrite er_S, E1 in E2. pose proof (NB (S n)). apply IH. split; [nia|exact E1].
    Qed.
    Hypothesis DOM2 : forall n, Z.abs (b (S n)) + 2 <= Z.abs (a (S n)).
    Lemma er_up n : Z.abs (er n) <= Z.abs (er (S n)) -> forall k, Z.abs (er (n + k)) <= Z.abs (er (S (n + k))) /\ Z.of_nat k + 1 <= Z.abs (er (S (n + k))).
    Proof.
      intros H. induction k as [|k [I1 I2]].
      - rewrite Nat.add_0_r. split; [exact H|]. pose proof (er_nz n). destruct (Z.eq_dec (er (S n)) 0) as [E|E]; [exfalso; apply H0; rewrite E in *; split; [lia|reflexivity]|lia].
      - rewrite Nat.add_succ_r. rewrite (er_S (n + k)). pose proof (DOM2 (S (n + k))) as M. revert I1 I2 M. generalize (er (S (n + k))) (er (n + k)) (a (S (S (n + k)))) (b (S (S (n + k)))). intros x y u w I1 I2 M.
        assert (T : Z.abs u * Z.abs x - Z.abs w * Z.abs y <= Z.abs (u * x + w * y)) by (rewrite <- !Z.abs_mul; lia).
        assert (M1 : (Z.abs w + 2) * Z.abs x <= Z.abs u * Z.abs x) by (apply Z.mul_le_mono_nonneg_r; lia). assert (M2 : Z.abs w * Z.abs y <= Z.abs w * Z.abs x) by (apply Z.mul_le_mono_nonneg_l; lia). rewrite Z.mul_add_distr_r in M1. lia.
    Qed.
    Lemma er_big : exists n, q < Z.abs (er n).
    Proof.
      assert (H : forall n, Z.abs (er n) + Z.of_nat n <= Z.abs (er 0) \/ exists m, q < Z.abs (er m)).
      { induction n as [|n [I|I]]; [left; lia| |right; exact I]. destruct (Z_le_dec (Z.abs (er n)) (Z.abs (er (S n)))) as [L|L]; [|left; lia].
        right. exists (S (n + Z.to_nat q)). pose proof (er_up n L (Z.to_nat q)) as [_ G]. lia. }
      destruct (H (S (Z.to_nat (Z.abs (er 0))))) as [G|G]; [lia|exact G].
    Qed.
    Lemma er_val n : (Qabs (vd n - inject_Z p / inject_Z q) == inject_Z (Z.abs (er n)) / inject_Z q * rd n)%Q.
    Proof.
      assert (Hq : (0 < inject_Z q)%Q) by (change 0%Q with (inject_Z 0); rewrite <- Zlt_Qlt; lia).
      assert (Nq : ~ (inject_Z q == 0)%Q) by (intros E; rewrite E in Hq; discriminate Hq). pose proof (Dq_nz n) as Nd.
      assert (E : (vd n - inject_Z p / inject_Z q == inject_Z (er n) / inject_Z q * / inject_Z (D n))%Q).
      { unfold vd, er, Z.sub. rewrite inject_Z_plus, inject_Z_opp, !inject_Z_mult. field. split; assumption. }
      rewrite E. unfold Qdiv. rewrite !Qabs_Qmult, !Qabs_Qinv, (Qabs_pos (inject_Z q)) by (apply Qlt_le_weak, Hq).
      unfold rd. rewrite !inj_abs. reflexivity.
    Qed.
    Lemma apart : exists N eps, (0 < eps)%Q /\ forall k, (eps <= Qabs (vd (N + k) - inject_Z p / inject_Z q))%Q.
    Proof.
      destruct er_big as [N HN]. exists N, (Qabs (vd N - inject_Z p / inject_Z q) - rd N)%Q. split.
      - rewrite er_val. pose proof (rd_pos N) as R. assert (Hq : (0 < inject_Z q)%Q) by (change 0%Q with (inject_Z 0); rewrite <- Zlt_Qlt; lia).
        assert (L : (1 < inject_Z (Z.abs (er N)) / inject_Z q)%Q) by (apply Qlt_shift_div_l; [exact Hq|]; rewrite Qmult_1_l, <- Zlt_Qlt; exact HN). nra.
      - intros k. pose proof (tele N k) as T. pose proof (rd_pos (N + k)). set (r := (inject_Z p / inject_Z q)%Q).
        pose proof (Qabs_triangle (vd (N + k) - r) (vd N - vd (N + k))) as U. setoid_replace (vd (N + k) - r + (vd N - vd (N + k)))%Q with (vd N - r)%Q in U by ring.
        rewrite (Qabs_Qminus (vd N) (vd (N + k))) in U. lra.
    Qed.
  End Rat.
End Dom.

(** ---- positive coefficients with b_i <= a_i ---- *)
Section PosRat.
  Variables a b P D : nat -> Z.
  Hypothesis HB : forall n, 0 < b (S n).
  Hypothesis HAB : forall n, b (S n) <= a (S n).
  Hypothesis P0 : P 0%nat = a 0%nat.
  Hypothesis D0 : D 0%nat = 1.
  Hypothesis P1 : P 1%nat = a 1%nat * a 0%nat + b 1%nat.
  Hypothesis D1 : D 1%nat = a 1%nat.
  Hypothesis PS : forall n, P (S (S n)) = a (S (S n)) * P (S n) + b (S (S n)) * P n.
  Hypothesis DS : forall n, D (S (S n)) = a (S (S n)) * D (S n) + b (S (S n)) * D n.
  Variables p q : Z.
  Hypothesis HQ : 0 < q.
  Let e (n : nat) : Z := er P D p q n.
  Lemma same_sign : exists n, 0 < e n * e (S n).
  Proof.
    assert (ES : forall n, e (S (S n)) = a (S (S n)) * e (S n) + b (S (S n)) * e n) by (intros n; unfold e; apply (er_S a b P D PS DS)).
    assert (NZ : forall n, ~ (e n = 0 /\ e (S n) = 0)) by (intros n; unfold e; apply (er_nz a b P D); auto; intros k; pose proof (HB k); lia).
    assert (N0 : forall n, e n <> 0 \/ exists m, 0 < e m * e (S m)).
    { intros n. destruct (Z.eq_dec (e n) 0) as [Z0|Z0]; [|left; exact Z0]. right. exists (S n). assert (e (S n) <> 0) by (intros F; apply (NZ n); auto).
      rewrite (ES n), Z0. pose proof (HB (S n)). pose proof (HAB (S n)). revert H H0 H1. generalize (e (S n)) (a (S (S n))) (b (S (S n))). intros x u w Hx Hw Hu.
      replace (x * (u * x + w * 0)) with (u * (x * x)) by ring. apply Z.mul_pos_pos; [lia|]. destruct (Z_lt_dec 0 x); [apply Z.mul_pos_pos; lia|apply Z.mul_neg_neg; lia]. }
    assert (CR : forall u w x y, 0 < w -> w <= u -> 0 < y -> x < 0 -> u * y + w * x < 0 -> y < - x).
    { intros u w x y Hw Hu Hy Hx H. assert (u * y < w * (- x)) by lia. assert (w * y <= u * y) by (apply Z.mul_le_mono_nonneg_r; lia). apply (Zmult_lt_reg_r _ _ w Hw). lia. }
    assert (OK : forall n, Z.abs (e (S n)) < Z.abs (e n) \/ exists m, 0 < e m * e (S m)).
    { intros n. destruct (N0 n) as [X|X]; [|right; exact X]. destruct (N0 (S n)) as [Y|Y]; [|right; exact Y]. destruct (N0 (S (S n))) as [Z0|Z0]; [|right; exact Z0].
      destruct (Z_lt_dec 0 (e n * e (S n))) as [L0|L0]; [right; exists n; exact L0|]. destruct (Z_lt_dec 0 (e (S n) * e (S (S n)))) as [L1|L1]; [right; exists (S n); exact L1|]. left.
      pose proof (ES n) as E2. pose proof (HB (S n)) as B2. pose proof (HAB (S n)) as A2. specialize (CR (a (S (S n))) (b (S (S n)))).
      revert L0 L1 X Y Z0 E2 B2 A2 CR. generalize (e n) (e (S n)) (e (S (S n))) (a (S (S n))) (b (S (S n))). clear. intros x y z u w L0 L1 X Y Z0 E2 B2 A2 CR.
      destruct (Z_lt_dec 0 y) as [S1|S1].
      - assert (x < 0) by (destruct (Z_lt_dec x 0); [assumption|exfalso; apply L0; apply Z.mul_pos_pos; lia]). assert (z < 0) by (destruct (Z_lt_dec z 0); [assumption|exfalso; apply L1; apply Z.mul_pos_pos; lia]).
        specialize (CR x y). lia.
      - assert (0 < x) by (destruct (Z_lt_dec 0 x); [assumption|exfalso; apply L0; apply Z.mul_neg_neg; lia]). assert (0 < z) by (destruct (Z_lt_dec 0 z); [assumption|exfalso; apply L1; apply Z.mul_neg_neg; lia]).
        specialize (CR (- x) (- y)). lia. }
    assert (H : forall n, Z.abs (e n) + Z.of_nat n <= Z.abs (e 0%nat) \/ exists m, 0 < e m * e (S m)).
    { induction n as [|n [I|I]]; [left; lia| |right; exact I]. destruct (OK n) as [L|L]; [left; lia|right; exact L]. }
    destruct (H (S (Z.to_nat (Z.abs (e 0%nat))))) as [G|G]; [lia|exact G].
  Qed.
End PosRat.

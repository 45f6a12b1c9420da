(** The integer-root test on linear and quadratic polynomials. *)
From Coq Require Import ZArith QArith Qabs List Bool Lia Lqa.
From Verif Require Import PyBase Rnd Rnd_Proofs Enum_Model Spec_Enum Enum_Proofs.
Import ListNotations.
Local Open Scope Z_scope.

Lemma isint_iff q : isint q = true <-> exists m, (q == inject_Z m)%Q.
Proof.
  unfold isint. rewrite Pos.eqb_eq. split.
  - intros H. exists (Qnum (Qred q)). rewrite <- (Qred_correct q) at 1. unfold Qeq. cbn. rewrite H. lia.
  - intros [m H]. apply Qred_complete in H. rewrite H. unfold inject_Z.
    change (Qden (Qred (m # 1)) = 1%positive).
    assert (E : Qred (m # 1) = (m # 1)).
    { unfold Qred. pose proof (Z.ggcd_gcd m 1) as G. pose proof (Z.ggcd_correct_divisors m 1) as D.
      destruct (Z.ggcd m 1) as [g [a b]]. cbn [fst] in G. rewrite Z.gcd_1_r in G. subst g. destruct D as [D1 D2].
      rewrite !Z.mul_1_l in *. subst. reflexivity. }
    now rewrite E.
Qed.

Lemma two_p_m53 : (two_p (- 53) == 1 # (2 ^ 53))%Q. Proof. reflexivity. Qed.

Lemma inject_Z_lt1 n : (Qabs (inject_Z n) < 1)%Q -> n = 0.
Proof. unfold Qlt, Qabs, inject_Z. cbn. lia. Qed.

Lemma isint_quot c0 c1 : c1 <> 0 -> Z.abs c0 < 2 ^ 53 ->
  isint (fl (inject_Z c0 / inject_Z c1)) = true <-> (c1 | c0).
Proof.
  intros H1 H0. rewrite isint_iff. unfold fl.
  assert (N1 : ~ (inject_Z c1 == 0)%Q) by (unfold Qeq; cbn; lia).
  split.
  - intros [m Hm]. pose proof (rnd_err 53 (inject_Z c0 / inject_Z c1)) as E. rewrite Hm, two_p_m53 in E.
    exists m. cut (m * c1 - c0 = 0); [lia|]. apply inject_Z_lt1.
    assert (A : (Qabs (inject_Z (m * c1 - c0)) == Qabs (inject_Z m - inject_Z c0 / inject_Z c1) * Qabs (inject_Z c1))%Q).
    { rewrite <- Qabs_Qmult. apply Qabs_wd. unfold Z.sub. rewrite inject_Z_plus, inject_Z_opp, inject_Z_mult. field. exact N1. }
    assert (B : (Qabs (inject_Z c0 / inject_Z c1) * Qabs (inject_Z c1) == Qabs (inject_Z c0))%Q).
    { rewrite <- Qabs_Qmult. apply Qabs_wd. field. exact N1. }
    rewrite A. apply Qle_lt_trans with ((1 # 2 ^ 53) * Qabs (inject_Z c0 / inject_Z c1) * Qabs (inject_Z c1))%Q.
    + apply Qmult_le_compat_r; [exact E|apply Qabs_nonneg].
    + rewrite <- Qmult_assoc, B. change (1 # 2 ^ 53)%Q with (1 # 9007199254740992)%Q.
      unfold Qlt, Qmult, Qabs, inject_Z. cbn [Qnum Qden]. lia.
  - intros [m ->]. exists m. assert (X : (inject_Z (m * c1) / inject_Z c1 == inject_Z m)%Q).
    { rewrite inject_Z_mult. field. exact N1. }
    rewrite (rnd_Qeq 53 _ _ X). apply rnd_exact_Z; [lia|]. rewrite Z.abs_mul in H0. nia.
Qed.

Lemma pval_zeros n p x : pval (repeat 0 n ++ p) x = x ^ Z.of_nat n * pval p x.
Proof.
  induction n as [|n IH]; cbn [repeat app pval].
  - change (Z.of_nat 0) with 0. rewrite Z.pow_0_r. ring.
  - rewrite IH, Nat2Z.inj_succ, Z.pow_succ_r by lia. ring.
Qed.
Lemma zeros_rest j : repeat 0 j = [] \/ exists s, repeat 0 j = 0 :: s.
Proof. destruct j; [now left|right; cbn; eauto]. Qed.
Lemma pval_trail p j x : pval (p ++ repeat 0 j) x = pval p x.
Proof.
  induction p as [|c p IH]; cbn [app pval]; [|now rewrite IH]. induction j as [|j IH]; cbn [repeat pval]; [reflexivity|rewrite IH; ring].
Qed.

Lemma linear_roots fsqrt k j c0 c1 : c0 <> 0 -> c1 <> 0 -> Z.abs c0 < 2 ^ 53 ->
  has_integer_roots fsqrt (repeat 0 k ++ [c0; c1] ++ repeat 0 j) = true <->
  exists x, 0 < x /\ pval (repeat 0 k ++ [c0; c1] ++ repeat 0 j) x = 0.
Proof.
  intros H0 H1 HB. unfold has_integer_roots. rewrite factor_out_run.
  2:{ repeat constructor; assumption. } 2: discriminate. 2: apply zeros_rest.
  rewrite andb_true_iff, isint_quot by assumption. rewrite negb_true_iff, eqb_false_iff.
  split.
  - intros [[m Hm] Hs]. exists (- m). split.
    + destruct (Z.gtb_spec c0 0), (Z.gtb_spec c1 0); try congruence; nia.
    + rewrite pval_zeros, pval_trail. cbn [pval]. replace (c0 + - m * (c1 + - m * 0)) with 0 by lia. ring.
  - intros (x & Hx & E). rewrite pval_zeros, pval_trail in E. cbn [pval] in E.
    apply Z.mul_eq_0 in E. destruct E as [E|E]; [exfalso; assert (0 < x ^ Z.of_nat k) by (apply Z.pow_pos_nonneg; lia); lia|].
    assert (E' : c0 = - x * c1) by lia. split; [exists (- x); exact E'|].
    destruct (Z.gtb_spec c0 0), (Z.gtb_spec c1 0); try congruence; nia.
Qed.

(** quadratic *)
Lemma Qabs_bound x b : (- b <= x)%Q -> (x <= b)%Q -> (Qabs x <= b)%Q.
Proof. intros. apply Qabs_le_iff. lra. Qed.
Lemma Qsq_le x b : (0 <= b)%Q -> (x * x <= b * b)%Q -> (x <= b)%Q.
Proof. intros H0 H. destruct (Qlt_le_dec b x) as [L|L]; [|exact L]. exfalso. nra. Qed.

Lemma quad_test_sound (d : Q) D c0 c1 : c0 <> 0 -> Z.abs c0 < 2 ^ 20 -> Z.abs c1 < 2 ^ 20 -> 0 <= D < 2 ^ 43 ->
  (inject_Z D * (1 - (1 # 2 ^ 51)) <= d * d)%Q -> (d * d <= inject_Z D * (1 + (1 # 2 ^ 51)))%Q ->
  isint (rdiv fl (rsub fl d (fl (inject_Z c1))) (fl (inject_Z (2 * c0)))) = true ->
  exists m, (2 * c0 * m + c1) * (2 * c0 * m + c1) = D.
Proof.
  intros N0 B0 B1 BD HL HU HI. apply isint_iff in HI. destruct HI as [m Hm].
  unfold rdiv, rsub, fl in Hm.
  set (y := (d - inject_Z c1)%Q).
  assert (Ey : rnd 53 (d - rnd 53 (inject_Z c1)) = rnd 53 y).
  { apply rnd_Qeq. unfold y. rewrite (rnd_exact_Z 53 c1) by lia. reflexivity. }
  rewrite Ey in Hm. clear Ey.
  set (y' := rnd 53 y) in *.
  assert (E2 : (rnd 53 (inject_Z (2 * c0)) == inject_Z (2 * c0))%Q) by (apply rnd_exact_Z; lia).
  set (t := inject_Z (2 * c0)) in *.
  assert (Nt : ~ (t == 0)%Q) by (unfold t, Qeq, inject_Z; cbn [Qnum Qden]; lia).
  rewrite (rnd_Qeq 53 _ (y' / t)%Q) in Hm by (rewrite E2; reflexivity).
  pose proof (rnd_err 53 (y' / t)) as R1. rewrite Hm, two_p_m53 in R1.
  pose proof (rnd_err 53 y) as R2. fold y' in R2. rewrite two_p_m53 in R2.
  assert (R1' : (Qabs (inject_Z m * t - y') <= (1 # 2 ^ 53) * Qabs y')%Q).
  { assert (A : (Qabs (inject_Z m * t - y') == Qabs (inject_Z m - y' / t) * Qabs t)%Q).
    { rewrite <- Qabs_Qmult. apply Qabs_wd. field. exact Nt. }
    assert (B : (Qabs (y' / t) * Qabs t == Qabs y')%Q).
    { rewrite <- Qabs_Qmult. apply Qabs_wd. field. exact Nt. }
    rewrite A, <- B, Qmult_assoc. apply Qmult_le_compat_r; [exact R1|apply Qabs_nonneg]. }
  (* bounds *)
  assert (QD : (0 <= inject_Z D)%Q /\ (inject_Z D <= inject_Z (2 ^ 43))%Q) by (split; rewrite <- ?Zle_Qle; [change 0%Q with (inject_Z 0); rewrite <- Zle_Qle|]; lia).
  destruct QD as [QD0 QD1]. change (inject_Z (2 ^ 43)) with (8796093022208 # 1)%Q in QD1.
  change (1 # 2 ^ 51)%Q with (1 # 2251799813685248)%Q in *. change (1 # 2 ^ 53)%Q with (1 # 9007199254740992)%Q in *.
  assert (D1 : (d <= 4194304)%Q) by (apply Qsq_le; lra).
  assert (D2 : (- d <= 4194304)%Q) by (apply Qsq_le; lra).
  assert (C1 : (- (1048576) <= inject_Z c1)%Q /\ (inject_Z c1 <= 1048576)%Q).
  { change (- (1048576))%Q with (inject_Z (- 2 ^ 20)). change 1048576%Q with (inject_Z (2 ^ 20)). rewrite <- !Zle_Qle. lia. }
  assert (Y : (Qabs y <= 8388608)%Q) by (apply Qabs_bound; unfold y; lra).
  assert (Y' : (Qabs y' <= 16777216)%Q).
  { apply Qle_trans with (Qabs (y' - y) + Qabs y)%Q.
    - setoid_replace y' with ((y' - y) + y)%Q at 1 by ring. apply Qabs_triangle.
    - lra. }
  assert (Z1 : (Qabs (inject_Z m * t - y) <= 1 # 268435456)%Q).
  { apply Qle_trans with (Qabs (inject_Z m * t - y') + Qabs (y' - y))%Q.
    - setoid_replace (inject_Z m * t - y)%Q with ((inject_Z m * t - y') + (y' - y))%Q by ring. apply Qabs_triangle.
    - lra. }
  exists m. set (N := 2 * c0 * m + c1).
  assert (EN : (inject_Z N == inject_Z m * t + inject_Z c1)%Q).
  { unfold N, t. rewrite inject_Z_plus, inject_Z_mult. ring. }
  assert (Z2 : (- (1 # 268435456) <= inject_Z N - d)%Q /\ (inject_Z N - d <= 1 # 268435456)%Q).
  { apply Qabs_le_iff in Z1. rewrite EN. unfold y in Z1. lra. }
  destruct Z2 as [Z2 Z3]. clear R1 R2 R1' Hm Y Y' Z1 EN. clearbody N.
  cut (N * N - D = 0); [lia|]. apply inject_Z_lt1.
  unfold Z.sub. rewrite inject_Z_plus, inject_Z_opp, inject_Z_mult.
  assert (W : (- (1 # 4) <= inject_Z N * inject_Z N - d * d <= 1 # 4)%Q).
  { set (e := (inject_Z N - d)%Q) in *. setoid_replace (inject_Z N * inject_Z N - d * d)%Q with (e * (e + 2 * d))%Q by (unfold e; ring).
    set (w := (e + 2 * d)%Q). assert (Hw : (- (8388609) <= w <= 8388609)%Q) by (unfold w; lra). clearbody w.
    split; nra. }
  apply Qle_lt_trans with (1 # 2)%Q; [|reflexivity]. apply Qabs_bound; lra.
Qed.

Lemma quad_test_complete (d : Q) c0 c1 m : c0 <> 0 -> Z.abs c0 < 2 ^ 20 -> Z.abs c1 < 2 ^ 20 ->
  Z.abs (2 * c0 * m) <= 2 ^ 53 ->
  (d == inject_Z (2 * c0 * m + c1))%Q ->
  isint (rdiv fl (rsub fl d (fl (inject_Z c1))) (fl (inject_Z (2 * c0)))) = true.
Proof.
  intros N0 B0 B1 Bm Hd. apply isint_iff. exists m. unfold rdiv, rsub, fl.
  assert (Nt : ~ (inject_Z (2 * c0) == 0)%Q) by (unfold Qeq, inject_Z; cbn [Qnum Qden]; lia).
  assert (E1 : (rnd 53 (d - rnd 53 (inject_Z c1)) == inject_Z (2 * c0 * m))%Q).
  { rewrite (rnd_Qeq 53 _ (inject_Z (2 * c0 * m))); [apply rnd_exact_Z; lia|].
    rewrite (rnd_exact_Z 53 c1) by lia. rewrite Hd, inject_Z_plus. ring. }
  rewrite (rnd_Qeq 53 _ (inject_Z m)); [apply rnd_exact_Z; nia|].
  rewrite E1, (rnd_exact_Z 53 (2 * c0)) by lia. rewrite inject_Z_mult. field. exact Nt.
Qed.

Lemma quadratic_roots fsqrt k j c0 c1 c2 : good_sqrt (2 ^ 43) fsqrt ->
  c0 <> 0 -> c1 <> 0 -> c2 <> 0 -> Z.abs c0 < 2 ^ 20 -> Z.abs c1 < 2 ^ 20 -> Z.abs c2 < 2 ^ 20 ->
  has_integer_roots fsqrt (repeat 0 k ++ [c0; c1; c2] ++ repeat 0 j) = true <->
  exists x, pval [c2; c1; c0] x = 0.
Proof.
  intros HS N0 N1 N2 B0 B1 B2. unfold has_integer_roots. rewrite factor_out_run.
  2:{ repeat constructor; assumption. } 2: discriminate. 2: apply zeros_rest.
  set (D := c1 ^ 2 - 4 * c0 * c2). cbv zeta.
  assert (ED : forall m, (2 * c0 * m + c1) * (2 * c0 * m + c1) = D + 4 * c0 * pval [c2; c1; c0] m).
  { intros m. unfold D. cbn [pval]. ring. }
  assert (BD : D < 2 ^ 43) by (unfold D; nia).
  clearbody D. destruct (Z.ltb_spec D 0) as [Hneg|Hpos].
  { split; [discriminate|]. intros [x Hx]. specialize (ED x). rewrite Hx in ED.
    pose proof (Z.square_nonneg (2 * c0 * x + c1)). lia. }
  destruct (HS D (conj Hpos BD)) as (S0 & (SL & SU) & SE).
  split.
  - intros H.
    assert (T : exists m, (2 * c0 * m + c1) * (2 * c0 * m + c1) = D).
    { destruct (isint (rdiv fl (rsub fl (fsqrt D) _) _)) eqn:T1.
      - apply (quad_test_sound (fsqrt D) D c0 c1); auto.
      - destruct (isint (rdiv fl (rsub fl (- fsqrt D) _) _)) eqn:T2; [|discriminate].
        apply (quad_test_sound (- fsqrt D)%Q D c0 c1); auto.
        + setoid_replace (- fsqrt D * - fsqrt D)%Q with (fsqrt D * fsqrt D)%Q by ring. exact SL.
        + setoid_replace (- fsqrt D * - fsqrt D)%Q with (fsqrt D * fsqrt D)%Q by ring. exact SU. }
    destruct T as [m Hm]. exists m. specialize (ED m). rewrite Hm in ED. nia.
  - intros [x Hx]. specialize (ED x). rewrite Hx in ED. set (r := 2 * c0 * x + c1) in *.
    assert (Hr : Z.abs r < 2 ^ 22) by nia.
    assert (SR : (fsqrt D == inject_Z (Z.abs r))%Q) by (apply SE; lia).
    assert (Bx : Z.abs (2 * c0 * x) <= 2 ^ 53) by (unfold r in Hr; lia).
    destruct (isint (rdiv fl (rsub fl (fsqrt D) _) _)) eqn:T1; [reflexivity|].
    destruct (Z.le_ge_cases 0 r) as [Pr|Pr].
    + exfalso. rewrite (quad_test_complete (fsqrt D) c0 c1 x) in T1; auto; [discriminate|].
      rewrite SR, Z.abs_eq by exact Pr. reflexivity.
    + rewrite (quad_test_complete (- fsqrt D)%Q c0 c1 x); auto.
      rewrite SR, Z.abs_neq by exact Pr. rewrite inject_Z_opp, Qopp_involutive. reflexivity.
Qed.

(** a square root meeting the assumptions *)
Definition isqrt53 (d : Z) : Q := rnd 53 (Z.sqrt (d * 4 ^ 100) # 2 ^ 100).
Lemma isqrt53_good : good_sqrt (2 ^ 43) isqrt53.
Proof.
  intros d Hd. unfold isqrt53. set (s := Z.sqrt (d * 4 ^ 100)).
  assert (Hs0 : 0 <= s) by apply Z.sqrt_nonneg.
  assert (Q0 : (0 <= s # 2 ^ 100)%Q) by (unfold Qle; cbn [Qnum Qden]; lia).
  split; [apply rnd_nonneg; [lia|exact Q0]|]. split.
  - assert (Hs : s * s <= d * 4 ^ 100 < (s + 1) * (s + 1)).
    { pose proof (Z.sqrt_spec (d * 4 ^ 100) ltac:(lia)) as H. fold s in H. cbv zeta in H. lia. }
    set (q := (s # 2 ^ 100)%Q) in *. set (v := rnd 53 q).
    pose proof (rnd_err 53 q) as E. fold v in E. rewrite (Qabs_pos q Q0), two_p_m53 in E. apply Qabs_le_iff in E.
    assert (QU : (q * q <= inject_Z d)%Q).
    { unfold q, Qle, Qmult, inject_Z. cbn [Qnum Qden]. change (Zpos (2 ^ 100 * 2 ^ 100)) with (4 ^ 100). lia. }
    assert (QL : (inject_Z d * (1 - (1 # 2 ^ 60)) <= q * q)%Q).
    { destruct (Z.eq_dec d 0) as [->|Nd].
      - setoid_replace (inject_Z 0 * (1 - (1 # 2 ^ 60)))%Q with 0%Q by reflexivity. nra.
      - assert (Sd : s <= d * 2 ^ 100) by nia.
        assert (K : d * 4 ^ 100 * (2 ^ 60 - 1) <= s * s * 2 ^ 60) by nia.
        unfold q, Qle, Qmult, inject_Z. change (1 - (1 # 2 ^ 60))%Q with ((2 ^ 60 - 1) # 2 ^ 60)%Q. cbn [Qnum Qden].
        change (Zpos (2 ^ 100 * 2 ^ 100)) with (4 ^ 100). change (Zpos (1 * 2 ^ 60)) with (2 ^ 60). lia. }
    assert (Dd : (0 <= inject_Z d)%Q) by (change 0%Q with (inject_Z 0); rewrite <- Zle_Qle; lia).
    set (e := (1 # 2 ^ 53)%Q) in *.
    assert (V1 : (q * (1 - e) <= v)%Q) by lra. assert (V2 : (v <= q * (1 + e))%Q) by lra.
    assert (V0 : (0 <= q * (1 - e))%Q) by (apply Qmult_le_0_compat; [exact Q0|discriminate]).
    assert (VV1 : ((q * q) * ((1 - e) * (1 - e)) <= v * v)%Q) by nra.
    assert (VV2 : (v * v <= (q * q) * ((1 + e) * (1 + e)))%Q) by nra.
    split.
    + apply Qle_trans with (inject_Z d * (1 - (1 # 2 ^ 60)) * ((1 - e) * (1 - e)))%Q.
      * rewrite <- Qmult_assoc. rewrite (Qmult_comm (inject_Z d)), (Qmult_comm (inject_Z d) (_ * _)).
        apply Qmult_le_compat_r; [|exact Dd]. unfold e. vm_compute. discriminate.
      * eapply Qle_trans; [|exact VV1]. apply Qmult_le_compat_r; [exact QL|]. vm_compute. discriminate.
    + apply Qle_trans with (inject_Z d * ((1 + e) * (1 + e)))%Q.
      * eapply Qle_trans; [exact VV2|]. apply Qmult_le_compat_r; [exact QU|]. vm_compute. discriminate.
      * rewrite (Qmult_comm (inject_Z d)), (Qmult_comm (inject_Z d) (1 + _)). apply Qmult_le_compat_r; [|exact Dd].
        vm_compute. discriminate.
  - intros r Hr ->. assert (Es : s = r * 2 ^ 100).
    { unfold s. replace (r * r * 4 ^ 100) with ((r * 2 ^ 100) * (r * 2 ^ 100)) by (change (4 ^ 100) with (2 ^ 100 * 2 ^ 100); ring).
      apply Z.sqrt_square. lia. }
    assert (Eq : ((s # 2 ^ 100) == inject_Z r)%Q) by (unfold Qeq, inject_Z; cbn [Qnum Qden]; rewrite Es; lia).
    rewrite (rnd_Qeq 53 _ _ Eq). apply rnd_exact_Z; [lia|]. nia.
Qed.

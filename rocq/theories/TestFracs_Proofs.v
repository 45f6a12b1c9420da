(** The continued fractions of the test suite: coefficients, recurrences, rates. *)
From Coq Require Import ZArith QArith Qabs List Bool Lia Lqa.
From Coq Require Reals Qreals Lra.
From Verif Require Import PyBase PyBase_Proofs Rnd Rnd_Proofs Utils_Model Spec_Utils ContFrac_Model Spec_ContFrac ContFrac_Proofs ContFrac_Hist ContFrac_Proofs2 Properties_ContFrac Errors_Model Errors_Proofs TestFracs_Model.
From Verif Require CF_Limits CF_Limits2 Spec_TestFracs.
Import ListNotations.
Open Scope Z_scope.

Ltac coef := cbn [test_a test_b]; rewrite icoef_one; cbn [poly_val]; ring.
Lemma ta1 i : icoef (test_a 1) i = 2. Proof. coef. Qed.
Lemma tb1 i : icoef (test_b 1) i = (2 * i - 1) * (2 * i - 1). Proof. coef. Qed.
Lemma ta2 i : icoef (test_a 2) i = 6. Proof. coef. Qed.
Lemma tb2 i : icoef (test_b 2) i = (2 * i - 1) * (2 * i - 1). Proof. coef. Qed.
Lemma ta3 i : icoef (test_a 3) i = 1 + 2 * i. Proof. coef. Qed.
Lemma tb3 i : icoef (test_b 3) i = i * i. Proof. coef. Qed.
Lemma ta4 i : icoef (test_a 4) i = 2 + i. Proof. coef. Qed.
Lemma tb4 i : icoef (test_b 4) i = - i. Proof. coef. Qed.
Lemma ta5 i : icoef (test_a 5) i = 1. Proof. coef. Qed.
Lemma tb5 i : icoef (test_b 5) i = 1. Proof. coef. Qed.
Lemma icoef_even c d m : icoef [c; d] (2 * m) = poly_val c (2 * m).
Proof. unfold icoef. cbn [length]. change (Z.of_nat 2) with 2. rewrite Z.mul_comm, Z.mod_mul by lia. reflexivity. Qed.
Lemma icoef_odd c d m : icoef [c; d] (2 * m + 1) = poly_val d (2 * m + 1).
Proof. unfold icoef. cbn [length]. change (Z.of_nat 2) with 2. replace (2 * m + 1) with (1 + m * 2) by ring. rewrite Z.mod_add by lia. reflexivity. Qed.
Lemma ta6e m : icoef (test_a 6) (2 * m) = 2.
Proof. cbn [test_a]. rewrite icoef_even. cbn [poly_val]. ring. Qed.
Lemma ta6o m : icoef (test_a 6) (2 * m + 1) = 12 * (2 * m + 1).
Proof. cbn [test_a]. rewrite icoef_odd. cbn [poly_val]. ring. Qed.
Lemma tb6e m : icoef (test_b 6) (2 * m) = 12 * m - 1.
Proof. cbn [test_b]. rewrite icoef_even. cbn [poly_val]. ring. Qed.
Lemma tb6o m : icoef (test_b 6) (2 * m + 1) = 12 * m + 1.
Proof. cbn [test_b]. rewrite icoef_odd. cbn [poly_val]. ring. Qed.
Lemma ab6_pos i : 0 <= i -> 0 < icoef (test_a 6) i /\ (1 <= i -> 0 < icoef (test_b 6) i).
Proof.
  intros H. destruct (Z.Even_or_Odd i) as [[m ->]|[m ->]]; [rewrite ta6e, tb6e|rewrite ta6o, tb6o]; lia.
Qed.
Lemma test_b_nz k i : (1 <= k <= 6)%nat -> 1 <= i -> icoef (test_b k) i <> 0.
Proof.
  intros Hk Hi. destruct k as [|[|[|[|[|[|[|k]]]]]]]; try lia; [rewrite tb1|rewrite tb2|rewrite tb3|rewrite tb4|rewrite tb5|pose proof (ab6_pos i)]; nia.
Qed.
(** the tails of the fourth fraction stay above k + 1 *)
Lemma nested_4 : forall j k, exists v, nested (inject_Z (icoef (test_a 4) (Z.of_nat k))) (toQ (icoefs (test_a 4) (test_b 4) (map Z.of_nat (seq (S k) j)))) = Some v /\
  (inject_Z (Z.of_nat k + 1) <= v)%Q.
Proof.
  induction j as [|j IH]; intros k.
  - eexists. split; [reflexivity|]. rewrite ta4. rewrite <- Zle_Qle. lia.
  - destruct (IH (S k)) as (v & E & V). unfold icoefs, toQ in *. cbn [seq map nested]. rewrite E.
    assert (P : (0 < v)%Q) by (eapply Qlt_le_trans; [|exact V]; apply injZ_pos; lia).
    assert (Z0 : Qeq_bool v 0 = false) by (destruct (Qeq_bool v 0) eqn:F; [apply Qeq_bool_eq in F; rewrite F in P; discriminate P|reflexivity]).
    rewrite Z0. eexists. split; [reflexivity|]. rewrite ta4, tb4.
    assert (D : (- (1) <= inject_Z (- Z.of_nat (S k)) / v)%Q).
    { apply Qle_shift_div_l; [exact P|]. rewrite inject_Z_opp. assert (inject_Z (Z.of_nat (S k)) <= inject_Z (Z.of_nat (S k) + 1))%Q by (rewrite <- Zle_Qle; lia). lra. }
    replace (2 + Z.of_nat k) with ((Z.of_nat k + 1) + 1) by lia. rewrite (inject_Z_plus (Z.of_nat k + 1) 1). change (inject_Z 1) with 1%Q. lra.
Qed.
Lemma test_nested k n : (1 <= k <= 6)%nat ->
  exists v, nested (inject_Z (icoef (test_a k) 0)) (toQ (icoefs (test_a k) (test_b k) (map Z.of_nat (seq 1 n)))) = Some v.
Proof.
  intros Hk. change 0 with (Z.of_nat 0). destruct k as [|[|[|[|[|[|[|k]]]]]]]; try lia.
  - destruct (nested_pos (test_a 1) (test_b 1) n 0) as (v & E & _); [intros i Hi; rewrite ta1; lia|intros i Hi; rewrite tb1; nia|]. eauto.
  - destruct (nested_pos (test_a 2) (test_b 2) n 0) as (v & E & _); [intros i Hi; rewrite ta2; lia|intros i Hi; rewrite tb2; nia|]. eauto.
  - destruct (nested_pos (test_a 3) (test_b 3) n 0) as (v & E & _); [intros i Hi; rewrite ta3; lia|intros i Hi; rewrite tb3; nia|]. eauto.
  - destruct (nested_4 n 0) as (v & E & _). eauto.
  - destruct (nested_pos (test_a 5) (test_b 5) n 0) as (v & E & _); [intros i Hi; rewrite ta5; lia|intros i Hi; rewrite tb5; lia|]. eauto.
  - destruct (nested_pos (test_a 6) (test_b 6) n 0) as (v & E & _); [intros i Hi; apply ab6_pos; lia|intros i Hi; apply ab6_pos; lia|]. eauto.
Qed.

(** ---- over the reals ---- *)
Import Reals Qreals Lra Spec_TestFracs.
Local Open Scope R_scope.
Definition tP (k n : nat) : R := IZR (nth_P (test_a k) (test_b k) n).
Definition tQ (k n : nat) : R := IZR (nth_Q (test_a k) (test_b k) n).
Lemma tPQ_rec k n : let i := Z.of_nat (S (S n)) in
  tP k (S (S n)) = IZR (icoef (test_a k) i) * tP k (S n) + IZR (icoef (test_b k) i) * tP k n /\
  tQ k (S (S n)) = IZR (icoef (test_a k) i) * tQ k (S n) + IZR (icoef (test_b k) i) * tQ k n.
Proof. cbn zeta. unfold tP, tQ. destruct (nth_PQ_rec (test_a k) (test_b k) n) as [E1 E2]. rewrite E1, E2, !plus_IZR, !mult_IZR. split; reflexivity. Qed.
Lemma test_R k n v : nested (inject_Z (icoef (test_a k) 0)) (toQ (icoefs (test_a k) (test_b k) (map Z.of_nat (seq 1 n)))) = Some v -> Q2R v = tP k n / tQ k n.
Proof.
  intros E. destruct (nested_cont _ _ _ E) as [Nq Ev]. rewrite (Qeq_eqR _ _ Ev), Q2R_div.
  - unfold tP, tQ, nth_P, nth_Q, Q2R. cbn. field. apply not_0_IZR. exact Nq.
  - intros G. apply Nq. unfold Qeq in G. cbn in G. lia.
Qed.
Ltac recs k a b := intros m; destruct (tPQ_rec k m) as [E1 E2]; rewrite ?E1, ?E2, a, b; rewrite ?opp_IZR, ?plus_IZR, ?mult_IZR, ?minus_IZR, ?mult_IZR, <- ?INR_IZR_INZ; cbn [pow]; ring.
Lemma test_rates k n : (1 <= k <= 6)%nat -> test_low k n <= Rabs (tP k n / tQ k n - test_limit k) /\ ((1 <= n)%nat -> Rabs (tP k n / tQ k n - test_limit k) <= test_high k n).
Proof.
  intros Hk. destruct k as [|[|[|[|[|[|[|k]]]]]]]; try lia; cbn [test_low test_high test_limit].
  - apply CF_Limits2.cf5_error; try reflexivity; recs 1%nat ta1 tb1.
  - assert (E : CF_Limits.U4 n / 2 <= Rabs (tP 2 n / tQ 2 n - (PI + 3)) <= CF_Limits.U4 n) by (apply CF_Limits.cf4_error; try reflexivity; recs 2%nat ta2 tb2).
    pose proof (pos_INR n). unfold CF_Limits.U4 in E. split; [|intros _; apply E]. eapply Rle_trans; [|apply E]. apply Req_le. field. repeat split; lra.
  - replace (n + 1)%nat with (S n) by lia. assert (E := CF_Limits.cf3_error (tP 3) (tQ 3)). 
    destruct (E ltac:(reflexivity) ltac:(reflexivity) ltac:(reflexivity) ltac:(reflexivity) ltac:(recs 3%nat ta3 tb3) ltac:(recs 3%nat ta3 tb3) n) as [A B]. split; [exact A|intros _; exact B].
  - assert (E : / (3 * INR (fact (n + 2))) <= tP 4 n / tQ 4 n - exp 1 / (exp 1 - 1) <= 5 / (4 * INR (fact (n + 2)))) by (apply CF_Limits2.cf6_error; try reflexivity; recs 4%nat ta4 tb4).
    assert (0 < / (3 * INR (fact (n + 2)))) by (apply Rinv_0_lt_compat, Rmult_lt_0_compat; [lra|apply CF_Limits.fact_pos]). rewrite Rabs_right by lra. split; [apply E|intros _; apply E].
  - assert (E : / CF_Limits2.gold ^ (2 * n + 1) <= Rabs (tP 5 n / tQ 5 n - CF_Limits2.gold) <= / CF_Limits2.gold ^ (2 * n)) by (apply CF_Limits2.cf7_error; try reflexivity; recs 5%nat ta5 tb5).
    split; [apply E|intros _; apply E].
  - assert (RE : forall f, f = tP 6 \/ f = tQ 6 -> forall m, f (2 * m + 2)%nat = 2 * f (2 * m + 1)%nat + (12 * INR m + 11) * f (2 * m)%nat).
    { intros f Hf m. destruct (tPQ_rec 6 (2 * m)) as [E1 E2]. replace (Z.of_nat (S (S (2 * m)))) with (2 * (Z.of_nat m + 1))%Z in * by lia. rewrite ta6e, tb6e in *.
      replace (2 * m + 2)%nat with (S (S (2 * m))) by lia. replace (2 * m + 1)%nat with (S (2 * m)) by lia.
      rewrite minus_IZR, mult_IZR, plus_IZR, <- INR_IZR_INZ in *. destruct Hf as [-> | ->]; [rewrite E1|rewrite E2]; ring. }
    assert (RO : forall f, f = tP 6 \/ f = tQ 6 -> forall m, f (2 * m + 3)%nat = 12 * (2 * INR m + 3) * f (2 * m + 2)%nat + (12 * INR m + 13) * f (2 * m + 1)%nat).
    { intros f Hf m. destruct (tPQ_rec 6 (2 * m + 1)) as [E1 E2]. replace (Z.of_nat (S (S (2 * m + 1)))) with (2 * (Z.of_nat m + 1) + 1)%Z in * by lia. rewrite ta6o, tb6o in *.
      replace (2 * m + 3)%nat with (S (S (2 * m + 1))) by lia. replace (2 * m + 2)%nat with (S (2 * m + 1)) by lia.
      rewrite mult_IZR, !plus_IZR, !mult_IZR, plus_IZR, <- INR_IZR_INZ in *. destruct Hf as [-> | ->]; [rewrite E1|rewrite E2]; ring. }
    assert (E : (/ 8) ^ n / 18 <= Rabs (tP 6 n / tQ 6 n - (CF_Limits2.root12 + 1)) <= (/ 4) ^ n / 9) by (apply CF_Limits2.cf8_error; try reflexivity; auto).
    split; [apply E|intros _; apply E].
Qed.
(** the bounds decrease *)
Lemma pow_mono x n m : 0 <= x <= 1 -> (n <= m)%nat -> x ^ m <= x ^ n.
Proof. intros Hx H. replace m with (n + (m - n))%nat by lia. rewrite pow_add. pose proof (pow_le x n ltac:(lra)). assert (x ^ (m - n) <= 1) by (rewrite <- (pow1 (m - n)); apply pow_incr; lra). nra. Qed.
Lemma half_small n : (80 <= n)%nat -> (/ 2) ^ n <= / 10 ^ 24.
Proof.
  intros H. apply Rle_trans with ((/ 2) ^ 80); [apply pow_mono; [lra|exact H]|]. replace 80%nat with (10 * 8)%nat by reflexivity. rewrite pow_mult.
  apply Rle_trans with ((/ 1000) ^ 8); [apply pow_incr; cbn; lra|]. cbn. lra.
Qed.
Lemma fact_2 n : 2 ^ n <= INR (fact (S n)).
Proof.
  induction n as [|n IH]; [cbn; lra|]. rewrite CF_Limits.fact_R, S_INR. cbn [pow]. pose proof (pos_INR n). pose proof (pow_le 2 n ltac:(lra)). nra.
Qed.
Lemma test_high_half k n : (3 <= k <= 6)%nat -> test_high k n <= (/ 2) ^ n.
Proof.
  intros Hk. pose proof (pos_INR n) as N. assert (P4 : 0 < (/ 4) ^ n) by (apply pow_lt; lra). assert (P42 : (/ 4) ^ n <= (/ 2) ^ n) by (apply pow_incr; lra).
  destruct k as [|[|[|[|[|[|[|k]]]]]]]; try lia; cbn [test_high].
  - apply Rle_trans with ((/ 4) ^ n * 1); [|lra]. apply Rmult_le_compat_l; [lra|]. rewrite <- Rinv_1. apply Rinv_le_contravar; lra.
  - pose proof (fact_2 (S n)) as F. replace (n + 2)%nat with (S (S n)) by lia. cbn [pow] in F. rewrite pow_inv. pose proof (pow_lt 2 n ltac:(lra)) as P2.
    set (f := INR (fact (S (S n)))) in *. set (h := 2 ^ n) in *. apply Rmult_le_reg_r with (4 * f * h); [apply Rmult_lt_0_compat; lra|].
    replace (5 / (4 * f) * (4 * f * h)) with (5 * h) by (field; lra). replace (/ h * (4 * f * h)) with (4 * f) by (field; lra). lra.
  - pose proof CF_Limits2.gold_bounds as G. unfold golden_ratio. fold CF_Limits2.gold. rewrite pow_mult, pow_inv. apply Rinv_le_contravar; [apply pow_lt; lra|]. apply pow_incr. cbn. nra.
  - unfold Rdiv. lra.
Qed.
Lemma PI_in : 1571 / 500 - 12 / 10000 <= PI <= 1571 / 500 + 10 / 10000.
Proof.
  pose proof (CF_Limits.alt_side CF_Limits.U4 _ CF_Limits.U4_dec CF_Limits.U4_cv CF_Limits.U4_lim 4) as A. pose proof (CF_Limits.alt_side CF_Limits.U4 _ CF_Limits.U4_dec CF_Limits.U4_cv CF_Limits.U4_lim 5) as B.
  unfold CF_Limits.asum, tg_alt in A, B. cbn [sum_f_R0 pow] in A, B. unfold CF_Limits.U4 in A, B. cbn [INR] in A, B. lra.
Qed.
Lemma test_limit_bounds k : (1 <= k <= 6)%nat -> 0 < test_limit k /\ test_limit k <= match k with 1%nat => 23 / 10 | 2%nat => 62 / 10 | _ => 21 / 10 end.
Proof.
  intros Hk. pose proof PI_in as P. assert (F : 0 < 4 / PI <= 13 / 10).
  { split; [apply Rdiv_lt_0_compat; lra|]. apply Rmult_le_reg_r with PI; [lra|]. replace (4 / PI * PI) with 4 by (field; lra). lra. }
  destruct k as [|[|[|[|[|[|[|k]]]]]]]; try lia; cbn [test_limit]; try lra.
  - pose proof CF_Limits.e_gt2 as E. split; [apply Rdiv_lt_0_compat; lra|]. apply Rmult_le_reg_r with (exp 1 - 1); [lra|]. replace (exp 1 / (exp 1 - 1) * (exp 1 - 1)) with (exp 1) by (field; lra). lra.
  - pose proof CF_Limits2.gold_bounds as G. unfold golden_ratio. fold CF_Limits2.gold. lra.
  - pose proof (CF_Limits2.odd_above 0) as O. pose proof CF_Limits2.root12_pos as R. unfold CF_Limits2.root12 in *. cbn in O. lra.
Qed.
Lemma test_within k n : (1 <= k <= 6)%nat -> (test_iters k <= n)%nat -> test_high k n <= Q2R (test_threshold k) - match k with 1%nat => / 10 ^ 5 | 2%nat => / 10 ^ 9 | _ => 999 / 10 ^ 18 end.
Proof.
  intros Hk Hn. pose proof PI_in as P. assert (C : (k = 1 \/ k = 2 \/ 3 <= k)%nat) by lia. destruct C as [-> | [-> | C]].
  - cbn [test_high test_threshold test_iters] in *. assert (N : 550 <= INR n) by (replace 550 with (INR 550) by (rewrite INR_IZR_INZ; reflexivity); apply le_INR; exact Hn).
    unfold Q2R. cbn [Qnum Qden]. replace (IZR (Z.pos (10 ^ 4))) with 10000 by reflexivity.
    apply Rle_trans with (4 / (PI * PI) / 550); [apply Rmult_le_compat_l; [apply Rlt_le, Rdiv_lt_0_compat; nra|apply Rinv_le_contravar; lra]|].
    apply Rmult_le_reg_r with (PI * PI * 550); [nra|]. replace (4 / (PI * PI) / 550 * (PI * PI * 550)) with 4 by (field; lra). cbn [pow]. nra.
  - cbn [test_high test_threshold test_iters] in *. assert (N : 500 <= INR n) by (replace 500 with (INR 500) by (rewrite INR_IZR_INZ; reflexivity); apply le_INR; exact Hn).
    unfold Q2R. cbn [Qnum Qden]. replace (IZR (Z.pos (10 ^ 8))) with 100000000 by reflexivity.
    apply Rle_trans with (/ (500 * 500 * 1000)); [|cbn [pow]; lra]. apply Rinv_le_contravar; [lra|]. assert (500 * 500 <= (INR n + 1) * (INR n + 2)) by nra. nra.
  - pose proof (test_high_half k n ltac:(lia)) as H. assert (N : (80 <= n)%nat) by (destruct k as [|[|[|[|[|[|[|k]]]]]]]; cbn [test_iters] in Hn; lia). pose proof (half_small n N) as S.
    assert (T : Q2R (test_threshold k) = / 10 ^ 15) by (destruct k as [|[|[|k]]]; try lia; unfold Q2R; cbn [test_threshold Qnum Qden]; rewrite pow_IZR; cbn; lra).
    rewrite T. eapply Rle_trans; [exact H|]. eapply Rle_trans; [exact S|]. destruct k as [|[|[|k]]]; try lia; cbn; lra.
Qed.

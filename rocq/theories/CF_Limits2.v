(** Limits of the further continued fractions of the test suite, over the real numbers. *)
From Coq Require Import Reals Lra Lia Arith.
From Verif Require Import CF_Limits.
Local Open Scope R_scope.

(** ---- 2 + 1/(2 + 9/(2 + 25/(2 + ...))) = 4/pi + 1 (Brouncker) ---- *)
(** If the differences of the terms of an alternating series decrease, the error is at most half the last term. *)
Lemma alt_half_upper U l n : Un_decreasing U -> Un_decreasing (fun k => U k - U (S k)) -> Un_cv U 0 -> Un_cv (asum U) l -> Rabs (asum U (S n) - l) <= U (S n) / 2.
Proof.
  intros D D2 C CL. pose proof (alt_half U l n D D2 C CL) as A. pose proof (alt_side U l D C CL n) as B. pose proof (alt_side U l D C CL (S n)) as B'.
  rewrite asum_S in *. cbn [pow] in *. destruct (m1_cases n) as [F|F]; rewrite F in *.
  - rewrite Rabs_right in A by lra. rewrite Rabs_left1; lra.
  - rewrite Rabs_left1 in A by lra. rewrite Rabs_right; lra.
Qed.
Lemma PI_dec : Un_decreasing PI_tg.
Proof. intros n. rewrite !PI_tg_R, S_INR. pose proof (pos_INR n). apply Rinv_le_contravar; lra. Qed.
Lemma PI_diff n : PI_tg n - PI_tg (S n) = 2 / ((2 * INR n + 1) * (2 * INR n + 3)).
Proof. rewrite !PI_tg_R, S_INR. pose proof (pos_INR n). field. lra. Qed.
Lemma PI_dec2 : Un_decreasing (fun k => PI_tg k - PI_tg (S k)).
Proof.
  intros n. cbn beta. rewrite !PI_diff, S_INR. pose proof (pos_INR n). unfold Rdiv. apply Rmult_le_compat_l; [lra|]. apply Rinv_le_contravar; nra.
Qed.
Lemma PI_cv0 : Un_cv PI_tg 0.
Proof. apply PI_tg_cv. Qed.
Section CF5.
Variable p q : nat -> R.
Hypothesis p0 : p 0%nat = 2.
Hypothesis p1 : p 1%nat = 5.
Hypothesis q0 : q 0%nat = 1.
Hypothesis q1 : q 1%nat = 2.
Hypothesis pS : forall n, p (S (S n)) = 2 * p (S n) + (2 * INR (S (S n)) - 1) ^ 2 * p n.
Hypothesis qS : forall n, q (S (S n)) = 2 * q (S n) + (2 * INR (S (S n)) - 1) ^ 2 * q n.
Lemma cf5_diff n : p n - q n = odd_fact (S n).
Proof.
  revert n. apply two_step; [rewrite p0, q0; cbn; ring|rewrite p1, q1; cbn; ring|]. intros n I1 I2.
  rewrite pS, qS. replace (p n) with (q n + odd_fact (S n)) by lra. replace (p (S n)) with (q (S n) + odd_fact (S (S n))) by lra.
  cbn [odd_fact]. rewrite !S_INR. ring.
Qed.
Lemma cf5_q n : q n = asum PI_tg n * odd_fact (S n).
Proof.
  rewrite <- psum_asum.
  apply (ratio_sum (fun n => 2) (fun n => (2 * INR n - 1) ^ 2) q (fun n => odd_fact (S n)) (fun k => (-1) ^ k * PI_tg k)); auto.
  - intros k. cbn [odd_fact]. rewrite !S_INR. ring.
  - intros k. cbn [odd_fact]. rewrite !PI_tg_R, !S_INR. cbn [pow]. pose proof (pos_INR k). field. lra.
  - rewrite q0, PI_tg_R. cbn. field.
  - rewrite q1, !PI_tg_R. cbn. field.
Qed.
Lemma cf5_s n : 2 / 3 <= asum PI_tg n <= 1.
Proof.
  assert (P : forall m, 2 / 3 <= asum PI_tg (2 * m) <= 1 /\ 2 / 3 <= asum PI_tg (S (2 * m)) <= 1).
  { assert (A0 : asum PI_tg 0 = 1) by (unfold asum, tg_alt; cbn [sum_f_R0 pow]; rewrite PI_tg_R; cbn; field).
    assert (A1 : asum PI_tg 1 = 2 / 3) by (rewrite asum_S, A0, PI_tg_R; cbn; field).
    assert (G : forall m, asum PI_tg (2 * m) <= 1 /\ 2 / 3 <= asum PI_tg (S (2 * m)) /\ asum PI_tg (S (2 * m)) <= asum PI_tg (2 * m)).
    { induction m as [|m (I1 & I2 & I3)].
      - change (2 * 0)%nat with 0%nat. rewrite A0, A1. lra.
      - replace (2 * S m)%nat with (S (S (2 * m))) by lia. rewrite !asum_S in *. cbn [pow] in *. rewrite m1_even in *.
        pose proof (PI_dec (S (2 * m))). pose proof (PI_dec (S (S (2 * m)))). assert (0 <= PI_tg (S (S (S (2 * m))))) by (rewrite PI_tg_R; pose proof (pos_INR (S (S (S (2 * m))))); apply Rlt_le, Rinv_0_lt_compat; lra).
        lra. }
    intros m. destruct (G m) as (A & B & C). lra. }
  destruct (Nat.Even_or_Odd n) as [[m ->]|[m ->]]; [apply P|replace (2 * m + 1)%nat with (S (2 * m)) by lia; apply P].
Qed.
Lemma cf5_q_pos n : 0 < q n.
Proof. rewrite cf5_q. pose proof (cf5_s n). pose proof (odd_fact_pos (S n)). apply Rmult_lt_0_compat; lra. Qed.
Lemma cf5_value n : p n / q n = 1 + / asum PI_tg n.
Proof.
  pose proof (cf5_q_pos n) as Q. pose proof (cf5_diff n) as D. pose proof (cf5_q n) as E. pose proof (cf5_s n) as S. pose proof (odd_fact_pos (Datatypes.S n)) as O.
  replace (p n) with (q n + odd_fact (Datatypes.S n)) by lra. rewrite E in Q |- *. field. split; lra.
Qed.
(** The error of the n-th convergent is 4/pi^2 divided by a number between n and n + 2. *)
Theorem cf5_error n : 4 / (PI * PI) / (INR n + 2) <= Rabs (p n / q n - (4 / PI + 1)) /\ ((1 <= n)%nat -> Rabs (p n / q n - (4 / PI + 1)) <= 4 / (PI * PI) / INR n).
Proof.
  pose proof (cf5_s n) as S. rewrite cf5_value. pose proof PI_RGT_0 as P. pose proof PI_4 as P4. pose proof (pos_INR n) as N.
  assert (PL : 2 < PI) by (pose proof PI2_1; lra).
  pose proof (alt_half PI_tg _ n PI_dec PI_dec2 PI_cv0 PI_lim) as L.
  assert (U : (1 <= n)%nat -> Rabs (asum PI_tg n - PI / 4) * (4 * INR n + 2) <= 1).
  { intros Hn. destruct n as [|n]; [lia|]. pose proof (alt_half_upper PI_tg _ n PI_dec PI_dec2 PI_cv0 PI_lim) as H. rewrite PI_tg_R in H.
    eapply Rle_trans; [apply Rmult_le_compat_r; [lra|exact H]|]. apply Req_le. field. lra. }
  set (s := asum PI_tg n) in *. rewrite PI_tg_R, S_INR in L.
  replace (1 + / s - (4 / PI + 1)) with ((PI / 4 - s) * (4 / (PI * s))) by (field; lra).
  rewrite Rabs_mult, (Rabs_right (4 / (PI * s))) by (apply Rle_ge, Rlt_le, Rdiv_lt_0_compat; [lra|apply Rmult_lt_0_compat; lra]). rewrite Rabs_minus_sym.
  set (d := Rabs (s - PI / 4)) in *. assert (D0 : 0 <= d) by apply Rabs_pos.
  assert (SB : PI / 4 - d <= s <= PI / 4 + d) by (unfold d, Rabs; destruct (Rcase_abs _); lra).
  assert (L' : 1 <= d * (4 * INR n + 6)).
  { replace 1 with (/ (2 * (INR n + 1) + 1) / 2 * (4 * INR n + 6)) at 1 by (field; lra). apply Rmult_le_compat_r; [lra|exact L]. }
  assert (PS : 0 < PI * s) by (apply Rmult_lt_0_compat; lra).
  split.
  - apply Rmult_le_reg_r with (PI * PI * s * (INR n + 2)); [apply Rmult_lt_0_compat; [|lra]; apply Rmult_lt_0_compat; nra|].
    replace (4 / (PI * PI) / (INR n + 2) * (PI * PI * s * (INR n + 2))) with (4 * s) by (field; lra).
    replace (d * (4 / (PI * s)) * (PI * PI * s * (INR n + 2))) with (PI * (d * (4 * INR n + 6)) + 2 * (PI * d)) by (field; lra). nra.
  - intros Hn. specialize (U Hn). assert (N1 : 1 <= INR n) by (change 1 with (INR 1); apply le_INR; exact Hn).
    apply Rmult_le_reg_r with (PI * PI * s * INR n); [apply Rmult_lt_0_compat; [|lra]; apply Rmult_lt_0_compat; nra|].
    replace (4 / (PI * PI) / INR n * (PI * PI * s * INR n)) with (4 * s) by (field; lra).
    replace (d * (4 / (PI * s)) * (PI * PI * s * INR n)) with (PI * (d * (4 * INR n + 2)) - 2 * (PI * d)) by (field; lra). nra.
Qed.
End CF5.

(** ---- 2 - 1/(3 - 2/(4 - 3/(5 - ...))) = e/(e-1) ---- *)
Fixpoint esum (n : nat) : R := match n with O => 1 | S k => esum k + / INR (fact (S k)) end.
Lemma esum_S n : esum (S n) = esum n + / INR (fact (S n)).
Proof. reflexivity. Qed.
Lemma esum_lim : Un_cv esum (exp 1).
Proof.
  unfold exp. destruct (exist_exp 1) as [x Hx]. cbn [proj1_sig]. unfold exp_in, infinite_sum in Hx. intros e He. destruct (Hx e He) as [N HN]. exists N. intros n Hn. specialize (HN n Hn).
  replace (esum n) with (sum_f_R0 (fun i => / INR (fact i) * 1 ^ i) n); [exact HN|]. clear.
  induction n as [|n IH]; [cbn; field|]. cbn [sum_f_R0 esum]. rewrite IH, pow1, Rmult_1_r. reflexivity.
Qed.
Lemma esum_grow : Un_growing esum.
Proof. intros n. rewrite esum_S. pose proof (Rinv_0_lt_compat _ (fact_pos (S n))). lra. Qed.
Lemma esum_below n : esum n <= exp 1.
Proof. apply growing_ineq; [exact esum_grow|exact esum_lim]. Qed.
Lemma esum_upper_dec n : esum (S (S n)) + / (INR (S (S n)) * INR (fact (S (S n)))) <= esum (S n) + / (INR (S n) * INR (fact (S n))).
Proof.
  rewrite (esum_S (S n)). rewrite (fact_R (S n)). pose proof (fact_pos (S n)) as F. set (f := INR (fact (S n))) in *. rewrite !S_INR. pose proof (pos_INR n) as N. set (x := INR n) in *.
  assert (E : / ((x + 1) * f) - / ((x + 1 + 1) * f) - / ((x + 1 + 1) * ((x + 1 + 1) * f)) = / ((x + 1) * (x + 2) * (x + 2) * f)) by (field; lra).
  assert (G : 0 < / ((x + 1) * (x + 2) * (x + 2) * f)) by (apply Rinv_0_lt_compat; repeat apply Rmult_lt_0_compat; lra). lra.
Qed.
Lemma esum_above n : exp 1 <= esum (S n) + / (INR (S n) * INR (fact (S n))).
Proof.
  assert (D : forall m, esum (S (n + m)) + / (INR (S (n + m)) * INR (fact (S (n + m)))) <= esum (S n) + / (INR (S n) * INR (fact (S n)))).
  { induction m as [|m IH]; [rewrite Nat.add_0_r; lra|]. replace (n + S m)%nat with (S (n + m)) by lia. eapply Rle_trans; [apply esum_upper_dec|exact IH]. }
  apply Rnot_lt_le. intros H. set (B := esum (S n) + / (INR (S n) * INR (fact (S n)))) in *.
  destruct (esum_lim (exp 1 - B) ltac:(lra)) as [N HN]. specialize (HN (S (n + N)) ltac:(lia)). unfold R_dist in HN.
  pose proof (D N) as DN. assert (0 < / (INR (S (n + N)) * INR (fact (S (n + N))))) by (apply Rinv_0_lt_compat, Rmult_lt_0_compat; [apply lt_0_INR; lia|apply fact_pos]).
  rewrite Rabs_left1 in HN by lra. lra.
Qed.
Section CF6.
Variable p q : nat -> R.
Hypothesis p0 : p 0%nat = 2.
Hypothesis p1 : p 1%nat = 5.
Hypothesis q0 : q 0%nat = 1.
Hypothesis q1 : q 1%nat = 3.
Hypothesis pS : forall n, p (S (S n)) = (2 + INR (S (S n))) * p (S n) - INR (S (S n)) * p n.
Hypothesis qS : forall n, q (S (S n)) = (2 + INR (S (S n))) * q (S n) - INR (S (S n)) * q n.
Lemma cf6_p n : p n = INR (fact (S n)) * esum (S n).
Proof.
  revert n. apply two_step; [rewrite p0; cbn; field|rewrite p1; cbn; field|]. intros n I1 I2. rewrite pS, I1, I2, (esum_S (S (S n))), (esum_S (S n)), (fact_R (S (S n))), (fact_R (S n)).
  pose proof (fact_pos (S n)). rewrite !S_INR. pose proof (pos_INR n). field. lra.
Qed.
Lemma cf6_q n : q n = INR (fact (S n)) * (esum (S n) - 1).
Proof.
  revert n. apply two_step; [rewrite q0; cbn; field|rewrite q1; cbn; field|]. intros n I1 I2. rewrite qS, I1, I2, (esum_S (S (S n))), (esum_S (S n)), (fact_R (S (S n))), (fact_R (S n)).
  pose proof (fact_pos (S n)). rewrite !S_INR. pose proof (pos_INR n). field. lra.
Qed.
(** The convergents decrease; the error of the n-th one is of the order of 1/(n+2)!. *)
Theorem cf6_error n : / (3 * INR (fact (n + 2))) <= p n / q n - exp 1 / (exp 1 - 1) <= 5 / (4 * INR (fact (n + 2))).
Proof.
  rewrite cf6_p, cf6_q. pose proof (fact_pos (S n)) as F. replace (n + 2)%nat with (S (S n)) by lia. rewrite (fact_R (S n)), S_INR.
  pose proof (esum_above n) as A. assert (B : esum (S n) + / ((INR n + 2) * INR (fact (S n))) <= exp 1).
  { pose proof (esum_below (S (S n))) as H. rewrite esum_S, (fact_R (S n)), S_INR in H. replace (INR n + 1 + 1) with (INR n + 2) in H by ring. exact H. }
  rewrite S_INR in A. pose proof (pos_INR n) as N.
  assert (E2 : 2 <= esum (S n)) by (clear - p0; induction n as [|n IH]; [cbn; lra|]; rewrite esum_S; pose proof (Rinv_0_lt_compat _ (fact_pos (S (S n)))); lra).
  assert (E3 : exp 1 <= 49 / 18) by (pose proof (esum_above 2) as H; cbn in H; lra).
  assert (E4 : 8 / 3 <= exp 1) by (pose proof (esum_below 3) as H; cbn in H; lra).
  set (f := INR (fact (S n))) in *. set (s := esum (S n)) in *. set (e := exp 1) in *. set (x := INR n) in *.
  replace (f * s / (f * (s - 1)) - e / (e - 1)) with ((e - s) / ((s - 1) * (e - 1))) by (field; lra).
  assert (SE : s <= e) by (assert (0 < / ((x + 2) * f)) by (apply Rinv_0_lt_compat, Rmult_lt_0_compat; lra); lra).
  assert (M : 5 / 3 <= (s - 1) * (e - 1) <= 3) by (split; nra).
  assert (IP : 0 < / ((s - 1) * (e - 1))) by (apply Rinv_0_lt_compat; lra).
  split.
  - apply Rle_trans with (/ ((x + 2) * f) * / ((s - 1) * (e - 1))).
    + rewrite <- Rinv_mult. apply Rinv_le_contravar; [repeat apply Rmult_lt_0_compat; lra|]. replace (3 * ((x + 1 + 1) * f)) with ((x + 2) * f * 3) by ring.
      apply Rmult_le_compat_l; [apply Rlt_le, Rmult_lt_0_compat; lra|lra].
    + apply Rmult_le_compat_r; lra.
  - apply Rle_trans with (/ ((x + 1) * f) * / ((s - 1) * (e - 1))); [apply Rmult_le_compat_r; lra|].
    apply Rle_trans with (/ ((x + 1) * f) * (3 / 5)).
    + apply Rmult_le_compat_l; [apply Rlt_le, Rinv_0_lt_compat, Rmult_lt_0_compat; lra|]. replace (3 / 5) with (/ (5 / 3)) by field. apply Rinv_le_contravar; lra.
    + apply Rmult_le_reg_r with (20 * ((x + 1) * (x + 2)) * f); [repeat apply Rmult_lt_0_compat; lra|].
      replace (/ ((x + 1) * f) * (3 / 5) * (20 * ((x + 1) * (x + 2)) * f)) with (12 * (x + 2)) by (field; lra).
      replace (5 / (4 * ((x + 1 + 1) * f)) * (20 * ((x + 1) * (x + 2)) * f)) with (25 * (x + 1)) by (field; lra). lra.
Qed.
End CF6.

(** ---- 1 + 1/(1 + 1/(1 + ...)) = (1 + sqrt 5)/2 ---- *)
Definition gold : R := (1 + sqrt 5) / 2.
Lemma gold_eq : gold * gold = gold + 1.
Proof. unfold gold. pose proof (sqrt_sqrt 5 ltac:(lra)). lra. Qed.
Lemma gold_bounds : 3 / 2 < gold < 2.
Proof.
  unfold gold. pose proof (sqrt_lt_1 4 5 ltac:(lra) ltac:(lra) ltac:(lra)) as A. pose proof (sqrt_lt_1 5 9 ltac:(lra) ltac:(lra) ltac:(lra)) as B.
  replace (sqrt 4) with 2 in A by (replace 4 with (2 * 2) by ring; rewrite sqrt_square; lra). replace (sqrt 9) with 3 in B by (replace 9 with (3 * 3) by ring; rewrite sqrt_square; lra). lra.
Qed.
Section CF7.
Variable p q : nat -> R.
Hypothesis p0 : p 0%nat = 1.
Hypothesis p1 : p 1%nat = 2.
Hypothesis q0 : q 0%nat = 1.
Hypothesis q1 : q 1%nat = 1.
Hypothesis pS : forall n, p (S (S n)) = p (S n) + p n.
Hypothesis qS : forall n, q (S (S n)) = q (S n) + q n.
Lemma cf7_p n : p n = gold * q n + (1 - gold) ^ S n.
Proof.
  pose proof gold_eq as G. revert n. apply two_step; [rewrite p0, q0; cbn; ring|rewrite p1, q1; cbn; lra|]. intros n I1 I2. rewrite pS, qS, I1, I2. cbn [pow].
  transitivity (gold * (q (S n) + q n) + (1 - gold) ^ n * ((1 - gold) * (2 - gold))); [ring|]. replace ((1 - gold) * (2 - gold)) with ((1 - gold) * ((1 - gold) * (1 - gold))) by nra. ring.
Qed.
Lemma cf7_q n : gold ^ n / gold <= q n <= gold ^ n.
Proof.
  pose proof gold_eq as G. pose proof gold_bounds as B. revert n. apply two_step.
  - rewrite q0. cbn. split; [|lra]. apply Rmult_le_reg_r with gold; [lra|]. replace (1 / gold * gold) with 1 by (field; lra). lra.
  - rewrite q1. cbn. replace (gold * 1 / gold) with 1 by (field; lra). lra.
  - intros n [A1 A2] [B1 B2]. rewrite qS. replace (gold ^ S (S n)) with (gold ^ S n + gold ^ n) by (cbn [pow]; transitivity (gold ^ n * (gold + 1)); [ring|rewrite <- G; ring]).
    unfold Rdiv in *. rewrite Rmult_plus_distr_r. lra.
Qed.
(** The error of the n-th convergent is between gold^-(2n+1) and gold^-2n. *)
Theorem cf7_error n : / gold ^ (2 * n + 1) <= Rabs (p n / q n - gold) <= / gold ^ (2 * n).
Proof.
  pose proof gold_eq as G. pose proof gold_bounds as B. pose proof (cf7_q n) as [Q1 Q2]. assert (GP : forall k, 0 < gold ^ k) by (intros k; apply pow_lt; lra).
  assert (Q0 : 0 < q n) by (eapply Rlt_le_trans; [|exact Q1]; apply Rdiv_lt_0_compat; [apply GP|lra]).
  rewrite cf7_p. replace ((gold * q n + (1 - gold) ^ S n) / q n - gold) with ((1 - gold) ^ S n * / q n) by (field; lra).
  assert (E : 1 - gold = - / gold) by (apply Rmult_eq_reg_r with gold; [|lra]; replace (- / gold * gold) with (-1) by (field; lra); lra).
  rewrite Rabs_mult, <- RPow_abs, E, Rabs_Ropp, !Rabs_right by (apply Rle_ge, Rlt_le, Rinv_0_lt_compat; lra).
  rewrite pow_inv. rewrite <- Rinv_mult. pose proof (GP n). pose proof (GP (S n)). split; apply Rinv_le_contravar.
  - apply Rmult_lt_0_compat; auto.
  - replace (gold ^ (2 * n + 1)) with (gold ^ S n * gold ^ n) by (rewrite <- pow_add; f_equal; lia). apply Rmult_le_compat_l; lra.
  - apply GP.
  - replace (gold ^ (2 * n)) with (gold ^ S n * (gold ^ n / gold)) by (replace (2 * n)%nat with (n + n)%nat by lia; rewrite pow_add; cbn [pow]; field; lra). apply Rmult_le_compat_l; lra.
Qed.
End CF7.

(** ---- 2 + 1/(12 + 11/(2 + 13/(36 + 23/(2 + 25/(60 + ...))))) = 2^(1/12) + 1 ---- *)
(** numerators and denominators of the convergents of (1+z)^(1/12), with an even and an odd index, and their derivatives *)
Record conv := { cE : R; cO : R; dE : R; dO : R }.
Definition cnext (m : nat) (z : R) (c : conv) : conv :=
  let b := 12 * INR m + 11 in let b' := 12 * INR m + 13 in let a' := 12 * (2 * INR m + 3) in
  let e := 2 * cO c + b * (z * cE c) in
  let de := 2 * dO c + b * (cE c + z * dE c) in
  {| cE := e; cO := a' * e + b' * (z * cO c); dE := de; dO := a' * de + b' * (cO c + z * dO c) |}.
Fixpoint cP (m : nat) (z : R) : conv := match m with O => {| cE := 1; cO := 12 + z; dE := 0; dO := 1 |} | S k => cnext k z (cP k z) end.
Fixpoint cQ (m : nat) (z : R) : conv := match m with O => {| cE := 1; cO := 12; dE := 0; dO := 0 |} | S k => cnext k z (cQ k z) end.
Lemma dlim_lin (f g : R -> R) (a b x df dg : R) : derivable_pt_lim f x df -> derivable_pt_lim g x dg ->
  derivable_pt_lim (fun z => a * f z + b * (z * g z)) x (a * df + b * (g x + x * dg)).
Proof.
  intros F G. pose proof (derivable_pt_lim_mult id g x 1 dg (derivable_pt_lim_id x) G) as H. 
  pose proof (derivable_pt_lim_plus _ _ _ _ _ (derivable_pt_lim_scal f a x df F) (derivable_pt_lim_scal _ b x _ H)) as K.
  replace (a * df + b * (g x + x * dg)) with (a * df + b * (1 * g x + id x * dg)) by (unfold id; ring). exact K.
Qed.
Lemma cP_deriv m x : derivable_pt_lim (fun z => cE (cP m z)) x (dE (cP m x)) /\ derivable_pt_lim (fun z => cO (cP m z)) x (dO (cP m x)).
Proof.
  induction m as [|m [I1 I2]].
  - cbn. split; [apply derivable_pt_lim_const|]. replace 1 with (0 + 1) by ring.
    apply (derivable_pt_lim_plus (fun _ => 12) (fun z => z)); [apply derivable_pt_lim_const|apply derivable_pt_lim_id].
  - cbn [cP cnext cE cO dE dO]. pose proof (dlim_lin _ _ 2 (12 * INR m + 11) x _ _ I2 I1) as H. split; [exact H|].
    exact (dlim_lin _ _ (12 * (2 * INR m + 3)) (12 * INR m + 13) x _ _ H I2).
Qed.
Lemma cQ_deriv m x : derivable_pt_lim (fun z => cE (cQ m z)) x (dE (cQ m x)) /\ derivable_pt_lim (fun z => cO (cQ m z)) x (dO (cQ m x)).
Proof.
  induction m as [|m [I1 I2]].
  - cbn. split; apply derivable_pt_lim_const.
  - cbn [cQ cnext cE cO dE dO]. pose proof (dlim_lin _ _ 2 (12 * INR m + 11) x _ _ I2 I1) as H. split; [exact H|].
    exact (dlim_lin _ _ (12 * (2 * INR m + 3)) (12 * INR m + 13) x _ _ H I2).
Qed.
(** the derivatives in terms of the convergents *)
Lemma cP_id m z : let c := cP m z in
  12 * (z * (1 + z) * dE c) = (12 * INR m + 1) * (z * cE c) - cO c + 12 * (2 * INR m + 1) * cE c /\
  (1 + z) * dO c = (INR m + 1) * cO c - (INR m + 1) * (12 * INR m + 11) * cE c.
Proof.
  induction m as [|m [I1 I2]]; [cbn; split; ring|]. cbn zeta in *. cbn [cP cnext cE cO dE dO]. rewrite S_INR. set (c := cP m z) in *. set (x := INR m) in *.
  assert (K : (1 + z) * (2 * dO c + (12 * x + 11) * (cE c + z * dE c)) = 2 * ((1 + z) * dO c) + (12 * x + 11) * ((1 + z) * cE c) + (12 * x + 11) / 12 * (12 * (z * (1 + z) * dE c))) by field.
  rewrite I1, I2 in K. split.
  - transitivity (12 * z * ((1 + z) * (2 * dO c + (12 * x + 11) * (cE c + z * dE c)))); [ring|]. rewrite K. field.
  - transitivity (12 * (2 * x + 3) * ((1 + z) * (2 * dO c + (12 * x + 11) * (cE c + z * dE c))) + (12 * x + 13) * ((1 + z) * cO c + z * ((1 + z) * dO c))); [ring|].
    rewrite K, I2. field.
Qed.
Lemma cQ_id m z : let c := cQ m z in
  12 * (z * (1 + z) * dE c) = 12 * INR m * (z * cE c) - cO c + 12 * (2 * INR m + 1) * cE c /\
  (1 + z) * dO c = (INR m + 11 / 12) * cO c - (INR m + 1) * (12 * INR m + 11) * cE c.
Proof.
  induction m as [|m [I1 I2]]; [cbn; split; field|]. cbn zeta in *. cbn [cQ cnext cE cO dE dO]. rewrite S_INR. set (c := cQ m z) in *. set (x := INR m) in *.
  assert (K : (1 + z) * (2 * dO c + (12 * x + 11) * (cE c + z * dE c)) = 2 * ((1 + z) * dO c) + (12 * x + 11) * ((1 + z) * cE c) + (12 * x + 11) / 12 * (12 * (z * (1 + z) * dE c))) by field.
  rewrite I1, I2 in K. split.
  - transitivity (12 * z * ((1 + z) * (2 * dO c + (12 * x + 11) * (cE c + z * dE c)))); [ring|]. rewrite K. field.
  - transitivity (12 * (2 * x + 3) * ((1 + z) * (2 * dO c + (12 * x + 11) * (cE c + z * dE c))) + (12 * x + 13) * ((1 + z) * cO c + z * ((1 + z) * dO c))); [ring|].
    rewrite K, I2. field.
Qed.
Definition cdet (m : nat) (z : R) : R := cO (cP m z) * cE (cQ m z) - cE (cP m z) * cO (cQ m z).
Lemma cdet_0 z : cdet 0 z = z.
Proof. unfold cdet. cbn. ring. Qed.
Lemma cdet_S m z : cdet (S m) z = (12 * INR m + 13) * (12 * INR m + 11) * (z * z) * cdet m z.
Proof. unfold cdet. cbn [cP cQ cnext cE cO]. ring. Qed.
Lemma cdet_mid m z : cE (cP (S m) z) * cO (cQ m z) - cO (cP m z) * cE (cQ (S m) z) = - ((12 * INR m + 11) * z * cdet m z).
Proof. unfold cdet. cbn [cP cQ cnext cE cO]. ring. Qed.
Lemma cdet_pos m z : 0 < z -> 0 < cdet m z.
Proof. intros H. induction m as [|m IH]; [rewrite cdet_0; exact H|]. rewrite cdet_S. pose proof (pos_INR m). repeat apply Rmult_lt_0_compat; lra. Qed.
Lemma cP_pos m z : 0 <= z -> 0 < cE (cP m z) /\ 0 < cO (cP m z).
Proof.
  intros H. induction m as [|m [I1 I2]]; [cbn; lra|]. cbn [cP cnext cE cO]. pose proof (pos_INR m). set (c := cP m z) in *.
  assert (0 <= (12 * INR m + 11) * (z * cE c)) by (apply Rmult_le_pos; [lra|apply Rmult_le_pos; lra]). assert (0 <= (12 * INR m + 13) * (z * cO c)) by (apply Rmult_le_pos; [lra|apply Rmult_le_pos; lra]).
  split; [lra|]. apply Rplus_lt_le_0_compat; [apply Rmult_lt_0_compat; lra|assumption].
Qed.
Lemma cQ_pos m z : 0 <= z -> 0 < cE (cQ m z) /\ 0 < cO (cQ m z).
Proof.
  intros H. induction m as [|m [I1 I2]]; [cbn; lra|]. cbn [cQ cnext cE cO]. pose proof (pos_INR m). set (c := cQ m z) in *.
  assert (0 <= (12 * INR m + 11) * (z * cE c)) by (apply Rmult_le_pos; [lra|apply Rmult_le_pos; lra]). assert (0 <= (12 * INR m + 13) * (z * cO c)) by (apply Rmult_le_pos; [lra|apply Rmult_le_pos; lra]).
  split; [lra|]. apply Rplus_lt_le_0_compat; [apply Rmult_lt_0_compat; lra|assumption].
Qed.
Lemma cPQ_0 m : cE (cP m 0) = cE (cQ m 0) /\ cO (cP m 0) = cO (cQ m 0).
Proof. induction m as [|m [I1 I2]]; [cbn; split; ring|]. cbn [cP cQ cnext cE cO]. rewrite I1, I2. split; reflexivity. Qed.
Definition root12 : R := Rpower 2 (1 / 12).
(** a quotient f/g of positive functions with f(0) = g(0), compared with the root of 1 + z at z = 1 *)
Lemma root_compare (f g df dg : R -> R) (s : R) : f 0 = g 0 -> (forall z, 0 <= z <= 1 -> 0 < f z /\ 0 < g z /\ derivable_pt_lim f z (df z) /\ derivable_pt_lim g z (dg z)) ->
  (forall z, 0 < z < 1 -> 0 <= s * (12 * (1 + z) * (df z * g z - f z * dg z) - f z * g z)) -> 0 <= s * (ln (f 1 / g 1) - ln root12).
Proof.
  intros E0 H S.
  set (h := fun z => ln (f z) - ln (g z) - 1 / 12 * ln (1 + z)). set (h' := fun z => / f z * df z - / g z * dg z - 1 / 12 * (/ (1 + z) * 1)).
  assert (D : forall z, 0 <= z <= 1 -> derivable_pt_lim h z (h' z)).
  { intros z Hz. destruct (H z Hz) as (F & G & DF & DG). unfold h, h'.
    apply (derivable_pt_lim_minus (fun z => ln (f z) - ln (g z)) (fun z => 1 / 12 * ln (1 + z))).
    - apply (derivable_pt_lim_minus (fun z => ln (f z)) (fun z => ln (g z))).
      + apply (derivable_pt_lim_comp f ln); [exact DF|apply derivable_pt_lim_ln; exact F].
      + apply (derivable_pt_lim_comp g ln); [exact DG|apply derivable_pt_lim_ln; exact G].
    - apply (derivable_pt_lim_scal (fun z => ln (1 + z))). apply (derivable_pt_lim_comp (fun z => 1 + z) ln); [|apply derivable_pt_lim_ln; lra].
      pose proof (derivable_pt_lim_plus (fun _ => 1) (fun z => z) z 0 1 (derivable_pt_lim_const 1 z) (derivable_pt_lim_id z)) as K. rewrite Rplus_0_l in K. exact K. }
  destruct (MVT_cor2 h h' 0 1 ltac:(lra) D) as (c & E & Hc).
  destruct (H 1 ltac:(lra)) as (F1 & G1 & _). destruct (H c ltac:(lra)) as (F & G & _).
  assert (X : ln (f 1 / g 1) - ln root12 = h' c).
  { unfold root12, Rpower. rewrite ln_exp. unfold Rdiv at 1. rewrite ln_mult, ln_Rinv; [|exact G1|exact F1|apply Rinv_0_lt_compat; exact G1].
    unfold h in E. rewrite E0, Rplus_0_r, ln_1 in E. replace (1 + 1) with 2 in E by ring. lra. }
  rewrite X. unfold h'. specialize (S c Hc).
  replace (s * (/ f c * df c - / g c * dg c - 1 / 12 * (/ (1 + c) * 1))) with (s * (12 * (1 + c) * (df c * g c - f c * dg c) - f c * g c) * / (12 * (1 + c) * (f c * g c))) by (field; repeat split; lra).
  apply Rmult_le_pos; [exact S|]. apply Rlt_le, Rinv_0_lt_compat. repeat apply Rmult_lt_0_compat; lra.
Qed.
Lemma ln_le_le x y : 0 < x -> 0 < y -> ln x <= ln y -> x <= y.
Proof. intros X Y H. destruct (Rle_or_lt x y) as [|G]; [assumption|]. pose proof (ln_increasing y x Y G). lra. Qed.
Lemma root12_pos : 0 < root12.
Proof. unfold root12, Rpower. apply exp_pos. Qed.
Lemma even_below m : cE (cP m 1) / cE (cQ m 1) <= root12.
Proof.
  pose proof (root_compare (fun z => cE (cP m z)) (fun z => cE (cQ m z)) (fun z => dE (cP m z)) (fun z => dE (cQ m z)) (-1)) as C.
  destruct (cP_pos m 1 ltac:(lra)) as [P1 _]. destruct (cQ_pos m 1 ltac:(lra)) as [Q1 _].
  apply ln_le_le; [apply Rdiv_lt_0_compat; assumption|apply root12_pos|]. cbn beta in C.
  enough (0 <= -1 * (ln (cE (cP m 1) / cE (cQ m 1)) - ln root12)) by lra. apply C; [apply cPQ_0| |].
  - intros z Hz. destruct (cP_pos m z ltac:(lra)). destruct (cQ_pos m z ltac:(lra)). destruct (cP_deriv m z). destruct (cQ_deriv m z). auto.
  - intros z Hz. destruct (cP_id m z) as [I1 _]. destruct (cQ_id m z) as [J1 _]. cbn zeta in I1, J1. pose proof (cdet_pos m z ltac:(lra)) as DP.
    apply Rmult_le_reg_l with z; [lra|]. rewrite Rmult_0_r.
    replace (z * (-1 * (12 * (1 + z) * (dE (cP m z) * cE (cQ m z) - cE (cP m z) * dE (cQ m z)) - cE (cP m z) * cE (cQ m z))))
      with (- (12 * (z * (1 + z) * dE (cP m z)) * cE (cQ m z) - cE (cP m z) * (12 * (z * (1 + z) * dE (cQ m z))) - z * (cE (cP m z) * cE (cQ m z)))) by ring.
    rewrite I1, J1. replace (- _) with (cdet m z) by (unfold cdet; ring). lra.
Qed.
Lemma odd_above m : root12 <= cO (cP m 1) / cO (cQ m 1).
Proof.
  pose proof (root_compare (fun z => cO (cP m z)) (fun z => cO (cQ m z)) (fun z => dO (cP m z)) (fun z => dO (cQ m z)) 1) as C.
  destruct (cP_pos m 1 ltac:(lra)) as [_ P1]. destruct (cQ_pos m 1 ltac:(lra)) as [_ Q1].
  apply ln_le_le; [apply root12_pos|apply Rdiv_lt_0_compat; assumption|]. cbn beta in C.
  enough (0 <= 1 * (ln (cO (cP m 1) / cO (cQ m 1)) - ln root12)) by lra. apply C; [apply cPQ_0| |].
  - intros z Hz. destruct (cP_pos m z ltac:(lra)). destruct (cQ_pos m z ltac:(lra)). destruct (cP_deriv m z). destruct (cQ_deriv m z). auto.
  - intros z Hz. destruct (cP_id m z) as [_ I1]. destruct (cQ_id m z) as [_ J1]. cbn zeta in I1, J1. pose proof (cdet_pos m z ltac:(lra)) as DP. pose proof (pos_INR m).
    replace (1 * (12 * (1 + z) * (dO (cP m z) * cO (cQ m z) - cO (cP m z) * dO (cQ m z)) - cO (cP m z) * cO (cQ m z)))
      with (12 * ((1 + z) * dO (cP m z) * cO (cQ m z) - cO (cP m z) * ((1 + z) * dO (cQ m z))) - cO (cP m z) * cO (cQ m z)) by ring.
    rewrite I1, J1. replace (_ - _) with (12 * (INR m + 1) * (12 * INR m + 11) * cdet m z) by (unfold cdet; field). apply Rlt_le. repeat apply Rmult_lt_0_compat; lra.
Qed.

(** the denominators at z = 1 and the distances of neighbouring convergents *)
Definition qE (m : nat) : R := cE (cQ m 1).
Definition qO (m : nat) : R := cO (cQ m 1).
Lemma qE_S m : qE (S m) = 2 * qO m + (12 * INR m + 11) * qE m.
Proof. unfold qE, qO. cbn [cQ cnext cE cO]. ring. Qed.
Lemma qO_S m : qO (S m) = 12 * (2 * INR m + 3) * qE (S m) + (12 * INR m + 13) * qO m.
Proof. unfold qE, qO. cbn [cQ cnext cE cO]. ring. Qed.
Lemma qEO_pos m : 0 < qE m /\ 0 < qO m.
Proof. apply cQ_pos. lra. Qed.
Lemma qO_bounds m : 12 * (2 * INR m + 1) * qE m <= qO m <= (30 * INR m + 25 / 2) * qE m.
Proof.
  destruct m as [|m]; [unfold qE, qO; cbn; lra|]. destruct (qEO_pos m) as [A B]. rewrite qO_S. pose proof (qE_S m) as E. pose proof (pos_INR m) as N. set (x := INR m) in *. rewrite S_INR. fold x.
  assert (O2 : 2 * qO m <= qE (S m)) by (rewrite E; assert (0 <= (12 * x + 11) * qE m) by (apply Rmult_le_pos; lra); lra).
  split; [nra|]. assert ((12 * x + 13) * (2 * qO m) <= (12 * x + 13) * qE (S m)) by (apply Rmult_le_compat_l; lra). lra.
Qed.
Definition gu (m : nat) : R := cdet m 1 / (qE m * qO m).
Definition gv (m : nat) : R := (12 * INR m + 11) * cdet m 1 / (qO m * qE (S m)).
Lemma gu_0 : gu 0 = 1 / 12.
Proof. unfold gu, qE, qO. rewrite cdet_0. cbn. field. Qed.
Lemma gu_pos m : 0 < gu m.
Proof. unfold gu. destruct (qEO_pos m). apply Rdiv_lt_0_compat; [apply cdet_pos; lra|apply Rmult_lt_0_compat; assumption]. Qed.
Lemma gv_gu m : gv m * (2 * qO m + (12 * INR m + 11) * qE m) = (12 * INR m + 11) * qE m * gu m.
Proof. unfold gv, gu. rewrite <- qE_S. destruct (qEO_pos m). destruct (qEO_pos (S m)). field. lra. Qed.
Lemma gu_gv m : gu (S m) * (12 * (2 * INR m + 3) * qE (S m) + (12 * INR m + 13) * qO m) = (12 * INR m + 13) * qO m * gv m.
Proof. unfold gv, gu. rewrite <- qO_S, cdet_S. destruct (qEO_pos m). destruct (qEO_pos (S m)). field. lra. Qed.
Lemma gv_bounds m : gu m / 6 <= gv m /\ gv m * (60 * INR m + 35) <= (12 * INR m + 11) * gu m.
Proof.
  pose proof (gv_gu m) as E. destruct (qEO_pos m) as [A B]. pose proof (qO_bounds m) as [L U]. pose proof (gu_pos m) as G. pose proof (pos_INR m) as N. set (x := INR m) in *. set (e := qE m) in *. set (o := qO m) in *. set (u := gu m) in *. set (v := gv m) in *. clearbody x e o u v.
  assert (D : 0 < 2 * o + (12 * x + 11) * e) by (apply Rplus_lt_le_0_compat; [lra|apply Rmult_le_pos; lra]).
  assert (V : 0 < v) by (apply Rmult_lt_reg_r with (2 * o + (12 * x + 11) * e); [exact D|]; rewrite Rmult_0_l, E; repeat apply Rmult_lt_0_compat; lra).
  split.
  - apply Rmult_le_reg_r with (2 * o + (12 * x + 11) * e); [exact D|]. rewrite E.
    apply Rle_trans with (u / 6 * ((72 * x + 36) * e)); [apply Rmult_le_compat_l; lra|]. assert (0 < e * u) by (apply Rmult_lt_0_compat; lra). nra.
  - apply Rmult_le_reg_r with e; [exact A|]. replace ((12 * x + 11) * u * e) with ((12 * x + 11) * e * u) by ring. rewrite <- E.
    rewrite Rmult_assoc. apply Rmult_le_compat_l; lra.
Qed.
Lemma gu_bounds m : gv m / 10 <= gu (S m) /\ gu (S m) * (60 * INR m + 85) <= (12 * INR m + 13) * gv m.
Proof.
  pose proof (gu_gv m) as E. destruct (qEO_pos m) as [A B]. pose proof (qO_bounds m) as [L U]. pose proof (qE_S m) as S1. pose proof (gu_pos (S m)) as G. pose proof (pos_INR m) as N.
  set (x := INR m) in *. set (e := qE m) in *. set (o := qO m) in *. set (e' := qE (S m)) in *. set (u := gu (S m)) in *. set (v := gv m) in *. clearbody x e o e' u v.
  assert (E1 : 2 * o <= e') by (rewrite S1; assert (0 <= (12 * x + 11) * e) by (apply Rmult_le_pos; lra); lra).
  assert (E2 : 12 * e' <= 35 * o) by (rewrite S1; nra).
  assert (D : 0 < 12 * (2 * x + 3) * e' + (12 * x + 13) * o) by (apply Rplus_lt_0_compat; repeat apply Rmult_lt_0_compat; lra).
  assert (V : 0 < v).
  { apply Rmult_lt_reg_l with ((12 * x + 13) * o); [apply Rmult_lt_0_compat; lra|]. rewrite Rmult_0_r, <- E. apply Rmult_lt_0_compat; assumption. }
  split.
  - apply Rmult_le_reg_r with (12 * (2 * x + 3) * e' + (12 * x + 13) * o); [exact D|]. rewrite E.
    apply Rle_trans with (v / 10 * ((82 * x + 118) * o)); [apply Rmult_le_compat_l; [lra|]; nra|]. assert (0 < v * o) by (apply Rmult_lt_0_compat; lra). nra.
  - apply Rmult_le_reg_r with o; [exact B|]. replace ((12 * x + 13) * v * o) with ((12 * x + 13) * o * v) by ring. rewrite <- E. rewrite Rmult_assoc. apply Rmult_le_compat_l; [lra|]. nra.
Qed.
Lemma gv_pos m : 0 < gv m.
Proof. pose proof (gv_bounds m) as [A _]. pose proof (gu_pos m). lra. Qed.
Lemma gv_third m : gv m <= gu m / 3.
Proof. pose proof (gv_bounds m) as [_ A]. pose proof (gu_pos m). pose proof (pos_INR m). pose proof (gv_pos m). apply Rmult_le_reg_r with (60 * INR m + 35); [lra|]. nra. Qed.
Lemma gu_fifth m : gu (S m) <= gv m / 5.
Proof. pose proof (gu_bounds m) as [_ A]. pose proof (gu_pos (S m)). pose proof (pos_INR m). pose proof (gv_pos m). apply Rmult_le_reg_r with (60 * INR m + 85); [lra|]. nra. Qed.
Lemma gu_rate m : (/ 60) ^ m / 12 <= gu m <= (/ 16) ^ m / 12.
Proof.
  induction m as [|m [I1 I2]]; [rewrite gu_0; cbn; lra|]. pose proof (gv_bounds m) as [A1 A2]. pose proof (gu_bounds m) as [B1 B2]. cbn [pow]. split; [lra|].
  pose proof (gu_pos m) as G. pose proof (pos_INR m) as N. set (x := INR m) in *.
  enough (gu (S m) * 16 <= gu m) by lra.
  apply Rmult_le_reg_r with ((60 * x + 85) * (60 * x + 35)); [apply Rmult_lt_0_compat; lra|].
  apply Rle_trans with (16 * ((12 * x + 13) * (12 * x + 11)) * gu m).
  - replace (gu (S m) * 16 * ((60 * x + 85) * (60 * x + 35))) with (16 * (60 * x + 35) * (gu (S m) * (60 * x + 85))) by ring.
    apply Rle_trans with (16 * (60 * x + 35) * ((12 * x + 13) * gv m)); [apply Rmult_le_compat_l; lra|].
    replace (16 * (60 * x + 35) * ((12 * x + 13) * gv m)) with (16 * (12 * x + 13) * (gv m * (60 * x + 35))) by ring.
    apply Rle_trans with (16 * (12 * x + 13) * ((12 * x + 11) * gu m)); [apply Rmult_le_compat_l; lra|]. apply Req_le. ring.
  - rewrite Rmult_comm. apply Rmult_le_compat_l; [lra|]. nra.
Qed.
Definition xE (m : nat) : R := cE (cP m 1) / qE m.
Definition xO (m : nat) : R := cO (cP m 1) / qO m.
Lemma xO_xE m : xO m - xE m = gu m.
Proof. unfold xO, xE, gu, cdet. fold (qE m) (qO m). destruct (qEO_pos m). field. lra. Qed.
Lemma xO_xE' m : xO m - xE (S m) = gv m.
Proof.
  unfold xO, xE, gv. pose proof (cdet_mid m 1) as E. fold (qE (S m)) (qO m) in E. destruct (qEO_pos m). destruct (qEO_pos (S m)).
  replace ((12 * INR m + 11) * cdet m 1) with (cO (cP m 1) * qE (S m) - cE (cP (S m) 1) * qO m) by lra. field. lra.
Qed.
Lemma xE_err m : (/ 64) ^ m / 18 <= root12 - xE m <= (/ 16) ^ m / 9.
Proof.
  pose proof (even_below (S m)) as A. pose proof (odd_above m) as B. fold (qE (S m)) (xE (S m)) (qO m) (xO m) in *. pose proof (xO_xE m). pose proof (xO_xE' m). pose proof (gu_rate m) as [R1 R2]. pose proof (gv_third m) as T.
  assert ((/ 64) ^ m <= (/ 60) ^ m) by (apply pow_incr; lra). assert (0 < (/ 16) ^ m) by (apply pow_lt; lra). fold (qE m) in *. lra.
Qed.
Lemma xO_err m : (/ 64) ^ m / 144 <= xO m - root12 <= (/ 16) ^ m / 36.
Proof.
  pose proof (even_below (S m)) as A. pose proof (odd_above (S m)) as B. fold (qE (S m)) (xE (S m)) (qO (S m)) (xO (S m)) in *. pose proof (xO_xE (S m)). pose proof (xO_xE' m). pose proof (gu_rate m) as [R1 R2]. pose proof (gv_third m) as T. pose proof (gu_fifth m). pose proof (gv_bounds m) as [V _].
  assert ((/ 64) ^ m <= (/ 60) ^ m) by (apply pow_incr; lra). assert (0 < (/ 64) ^ m) by (apply pow_lt; lra). lra.
Qed.
Section CF8.
Variable p q : nat -> R.
Hypothesis p0 : p 0%nat = 2.
Hypothesis p1 : p 1%nat = 25.
Hypothesis q0 : q 0%nat = 1.
Hypothesis q1 : q 1%nat = 12.
Hypothesis pE : forall m, p (2 * m + 2)%nat = 2 * p (2 * m + 1)%nat + (12 * INR m + 11) * p (2 * m)%nat.
Hypothesis qEv : forall m, q (2 * m + 2)%nat = 2 * q (2 * m + 1)%nat + (12 * INR m + 11) * q (2 * m)%nat.
Hypothesis pO : forall m, p (2 * m + 3)%nat = 12 * (2 * INR m + 3) * p (2 * m + 2)%nat + (12 * INR m + 13) * p (2 * m + 1)%nat.
Hypothesis qOd : forall m, q (2 * m + 3)%nat = 12 * (2 * INR m + 3) * q (2 * m + 2)%nat + (12 * INR m + 13) * q (2 * m + 1)%nat.
Lemma cf8_q m : q (2 * m)%nat = qE m /\ q (2 * m + 1)%nat = qO m.
Proof.
  induction m as [|m [I1 I2]]; [unfold qE, qO; cbn; rewrite q0, q1; split; reflexivity|]. replace (2 * S m)%nat with (2 * m + 2)%nat by lia. replace (2 * m + 2 + 1)%nat with (2 * m + 3)%nat by lia.
  rewrite qOd, qEv, I1, I2. rewrite qO_S, qE_S. split; reflexivity.
Qed.
Lemma cf8_p m : p (2 * m)%nat = cE (cP m 1) + qE m /\ p (2 * m + 1)%nat = cO (cP m 1) + qO m.
Proof.
  induction m as [|m [I1 I2]]; [unfold qE, qO; cbn; rewrite p0, p1; split; ring|]. replace (2 * S m)%nat with (2 * m + 2)%nat by lia. replace (2 * m + 2 + 1)%nat with (2 * m + 3)%nat by lia.
  rewrite pO, pE, I1, I2. rewrite qO_S, qE_S. cbn [cP cnext cE cO]. split; ring.
Qed.
Theorem cf8_error n : (/ 8) ^ n / 18 <= Rabs (p n / q n - (root12 + 1)) <= (/ 4) ^ n / 9.
Proof.
  destruct (Nat.Even_or_Odd n) as [[m ->]|[m ->]]; destruct (cf8_p m) as [P1 P2]; destruct (cf8_q m) as [Q1 Q2]; destruct (qEO_pos m) as [A B].
  - rewrite P1, Q1. rewrite !pow_mult. replace ((/ 8) ^ 2) with (/ 64) by (cbn; field). replace ((/ 4) ^ 2) with (/ 16) by (cbn; field).
    replace ((cE (cP m 1) + qE m) / qE m - (root12 + 1)) with (- (root12 - xE m)) by (unfold xE; field; lra). rewrite Rabs_Ropp. pose proof (xE_err m) as H. assert (0 < (/ 64) ^ m) by (apply pow_lt; lra). rewrite Rabs_right by lra. exact H.
  - rewrite P2, Q2. rewrite !pow_add, !pow_mult, !pow_1. replace ((/ 8) ^ 2) with (/ 64) by (cbn; field). replace ((/ 4) ^ 2) with (/ 16) by (cbn; field).
    replace ((cO (cP m 1) + qO m) / qO m - (root12 + 1)) with (xO m - root12) by (unfold xO; field; lra). pose proof (xO_err m) as H. assert (0 < (/ 64) ^ m) by (apply pow_lt; lra). rewrite Rabs_right by lra. lra.
Qed.
End CF8.

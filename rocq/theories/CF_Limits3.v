(** The continued fraction of the Apery sanity check: 2 + 2/(23 + 192/(82 + ...)) = 5 / (2 zeta(3)), over the real numbers. *)
From Coq Require Import Reals Lra Lia Arith.
From Verif Require Import CF_Limits Spec_Consts.
Local Open Scope R_scope.

(** k!^2 j! / (2k + j)! *)
Definition ap (k j : nat) : R := INR (fact k) * INR (fact k) * INR (fact j) / INR (fact (2 * k + j)).
Lemma ap_pos k j : 0 < ap k j.
Proof. unfold ap. pose proof (fact_pos k). pose proof (fact_pos j). pose proof (fact_pos (2 * k + j)). apply Rdiv_lt_0_compat; [|assumption]. repeat apply Rmult_lt_0_compat; assumption. Qed.
Lemma ap_0 j : ap 0 j = 1.
Proof. unfold ap. cbn [fact Nat.mul Nat.add]. pose proof (fact_pos j). cbn [INR]. field. lra. Qed.
Lemma ap_kS k j : ap (S k) j = ap k j * ((INR k + 1) * (INR k + 1)) / ((2 * INR k + INR j + 1) * (2 * INR k + INR j + 2)).
Proof.
  unfold ap. replace (2 * S k + j)%nat with (S (S (2 * k + j))) by lia. rewrite !fact_R, !S_INR, !plus_INR, mult_INR. cbn [INR].
  pose proof (fact_pos k). pose proof (fact_pos j). pose proof (fact_pos (2 * k + j)). pose proof (pos_INR k). pose proof (pos_INR j). field. repeat split; lra.
Qed.
Lemma ap_jS k j : ap k (S j) = ap k j * (INR j + 1) / (2 * INR k + INR j + 1).
Proof.
  unfold ap. replace (2 * k + S j)%nat with (S (2 * k + j)) by lia. rewrite !fact_R, !plus_INR, mult_INR. cbn [INR].
  pose proof (fact_pos k). pose proof (fact_pos j). pose proof (fact_pos (2 * k + j)). pose proof (pos_INR k). pose proof (pos_INR j). field. repeat split; lra.
Qed.
Lemma ap_small k j : ap (S k) j <= / (INR k + INR j + 2).
Proof.
  induction k as [|k IH].
  - rewrite ap_kS, ap_0. cbn [INR]. pose proof (pos_INR j). apply Rmult_le_reg_r with ((INR j + 1) * (INR j + 2)); [nra|].
    replace (1 * ((0 + 1) * (0 + 1)) / ((2 * 0 + INR j + 1) * (2 * 0 + INR j + 2)) * ((INR j + 1) * (INR j + 2))) with 1 by (field; lra).
    replace (/ (0 + INR j + 2) * ((INR j + 1) * (INR j + 2))) with (INR j + 1) by (field; lra). lra.
  - rewrite ap_kS, S_INR. pose proof (pos_INR j) as J. pose proof (pos_INR k) as K. set (x := INR k) in *. set (y := INR j) in *.
    assert (D : 0 < (2 * (x + 1) + y + 1) * (2 * (x + 1) + y + 2)) by nra.
    apply Rmult_le_reg_r with ((2 * (x + 1) + y + 1) * (2 * (x + 1) + y + 2)); [exact D|].
    replace (ap (S k) j * ((x + 1 + 1) * (x + 1 + 1)) / ((2 * (x + 1) + y + 1) * (2 * (x + 1) + y + 2)) * ((2 * (x + 1) + y + 1) * (2 * (x + 1) + y + 2))) with (ap (S k) j * ((x + 2) * (x + 2))) by (field; lra).
    apply Rle_trans with (/ (x + y + 2) * ((x + 2) * (x + 2))); [apply Rmult_le_compat_r; [nra|exact IH]|].
    apply Rmult_le_reg_r with ((x + y + 2) * (x + 1 + y + 2)); [nra|].
    replace (/ (x + y + 2) * ((x + 2) * (x + 2)) * ((x + y + 2) * (x + 1 + y + 2))) with ((x + 2) * (x + 2) * (x + y + 3)) by (field; lra).
    replace (/ (x + 1 + y + 2) * ((2 * (x + 1) + y + 1) * (2 * (x + 1) + y + 2)) * ((x + y + 2) * (x + 1 + y + 2))) with ((x + y + 2) * ((2 * x + y + 3) * (2 * x + y + 4))) by (field; lra).
    assert (x + y + 3 <= 2 * x + y + 3) by lra. assert ((x + 2) * (x + 2) <= (x + y + 2) * (2 * x + y + 4)) by nra. 
    apply Rle_trans with ((x + y + 2) * (2 * x + y + 4) * (2 * x + y + 3)); [|apply Req_le; ring]. apply Rmult_le_compat; nra.
Qed.

(** ---- sums ---- *)
Lemma psum_ext f g n : (forall k, (1 <= k <= n)%nat -> f k = g k) -> psum f n = psum g n.
Proof. induction n as [|n IH]; intros H; [reflexivity|]. cbn [psum]. rewrite IH, (H (S n)) by (try intros; try apply H; lia). reflexivity. Qed.
Lemma psum_minus f g n : psum (fun k => f k - g k) n = psum f n - psum g n.
Proof. induction n as [|n IH]; cbn [psum]; [lra|]. rewrite IH. lra. Qed.
Lemma psum_abs f g n : (forall k, (1 <= k <= n)%nat -> Rabs (f k) <= g k) -> Rabs (psum f n) <= psum g n.
Proof.
  induction n as [|n IH]; intros H; cbn [psum]; [rewrite Rabs_R0; lra|]. eapply Rle_trans; [apply Rabs_triang|]. apply Rplus_le_compat; [apply IH; intros; apply H; lia|apply H; lia].
Qed.
Lemma psum_scal c f n : psum (fun k => c * f k) n = c * psum f n.
Proof. induction n as [|n IH]; cbn [psum]; [ring|]. rewrite IH. ring. Qed.
Definition sgn (k : nat) : R := - (-1) ^ k.
Lemma sgn_S k : sgn (S k) = (-1) ^ k.
Proof. unfold sgn. cbn [pow]. ring. Qed.
Definition zsum (N : nat) : R := psum (fun k => / INR k ^ 3) N.
Definition dterm (N k : nat) : R := sgn k * (ap k (N - k) / (2 * INR k ^ 3)).
Definition dsum (N : nat) : R := psum (dterm N) N.
Lemma INR_S_pos n : 0 < INR (S n).
Proof. apply lt_0_INR. lia. Qed.
(** the telescoping sum *)
Lemma tele N K : (K <= N)%nat -> / INR (S N) ^ 3 + psum (fun k => dterm (S N) k - dterm N k) K = (-1) ^ K * (ap K (N - K) / (INR (S N) ^ 2 * (INR N + INR K + 1))).
Proof.
  induction K as [|K IH]; intros H.
  - cbn [psum pow]. rewrite ap_0. pose proof (INR_S_pos N). rewrite S_INR in *. cbn [INR]. field. lra.
  - cbn [psum]. rewrite <- Rplus_assoc, IH by lia. destruct (Nat.le_exists_sub (S K) N H) as (j & -> & _).
    unfold dterm. rewrite sgn_S. replace (j + S K - K)%nat with (S j) by lia. replace (S (j + S K) - S K)%nat with (S j) by lia. replace (j + S K - S K)%nat with j by lia.
    rewrite !ap_jS, !ap_kS. rewrite !S_INR, !plus_INR, !S_INR. cbn [pow]. pose proof (pos_INR K). pose proof (pos_INR j). field. repeat split; lra.
Qed.
Lemma apery_finite N : zsum N + dsum N = psum (fun k => sgn k * (5 / 2 * (ap k 0 / INR k ^ 3))) N.
Proof.
  induction N as [|N IH]; [unfold zsum, dsum; cbn [psum]; lra|].
  unfold zsum, dsum in *. cbn [psum]. rewrite <- IH. pose proof (tele N N (le_n N)) as T. rewrite psum_minus, Nat.sub_diag in T.
  assert (E : / INR (S N) ^ 3 + psum (dterm (S N)) N = psum (dterm N) N + (-1) ^ N * (ap N 0 / (INR (S N) ^ 2 * (INR N + INR N + 1)))) by lra.
  assert (L : dterm (S N) (S N) = (-1) ^ N * (ap (S N) 0 / (2 * INR (S N) ^ 3))) by (unfold dterm; rewrite sgn_S, Nat.sub_diag; reflexivity).
  rewrite L, sgn_S.
  assert (F : ap N 0 / (INR (S N) ^ 2 * (INR N + INR N + 1)) + ap (S N) 0 / (2 * INR (S N) ^ 3) = 5 / 2 * (ap (S N) 0 / INR (S N) ^ 3)).
  { rewrite ap_kS. rewrite !S_INR. cbn [INR]. pose proof (pos_INR N). field. repeat split; lra. }
  rewrite <- F. lra.
Qed.
Lemma zsum_R0 n : zsum (S n) = sum_f_R0 (fun k => / INR (S k) ^ 3) n.
Proof. unfold zsum. induction n as [|n IH]; [cbn; lra|]. cbn [psum sum_f_R0] in *. rewrite <- IH. reflexivity. Qed.
Lemma zsum_grow : Un_growing (fun n => zsum (S n)).
Proof. intros n. unfold zsum. cbn [psum]. assert (0 < / INR (S (S n)) ^ 3) by (apply Rinv_0_lt_compat, pow_lt, INR_S_pos). lra. Qed.
Lemma zsum_cv z : is_zeta 3 z -> Un_cv (fun n => zsum (S n)) z.
Proof. intros H e He. destruct (H e He) as [M HM]. exists M. intros n Hn. rewrite zsum_R0. apply HM; exact Hn. Qed.
Lemma zsum_le z n : is_zeta 3 z -> zsum (S n) <= z.
Proof. intros H. apply (growing_ineq _ _ zsum_grow (zsum_cv z H)). Qed.
Lemma zeta3_ge1 z : is_zeta 3 z -> 1 <= z.
Proof. intros H. pose proof (zsum_le z 0 H) as G. unfold zsum in G. cbn [psum INR pow] in G. lra. Qed.
Lemma dsum_small z n : is_zeta 3 z -> Rabs (dsum (S n)) <= z / INR (S n).
Proof.
  intros H. pose proof (zsum_le z n H) as G. pose proof (INR_S_pos n) as P. unfold dsum.
  eapply Rle_trans; [apply (psum_abs _ (fun k => / INR (S n) * / INR k ^ 3))|].
  - intros k Hk. unfold dterm, sgn. rewrite Rabs_mult, Rabs_Ropp, pow_1_abs, Rmult_1_l. destruct k as [|k]; [lia|].
    pose proof (ap_pos (S k) (S n - S k)) as A. pose proof (ap_small k (S n - S k)) as B. pose proof (INR_S_pos k) as K. assert (K3 : 0 < INR (S k) ^ 3) by (apply pow_lt; exact K).
    rewrite Rabs_right by (apply Rle_ge, Rlt_le, Rdiv_lt_0_compat; lra).
    assert (B' : ap (S k) (S n - S k) <= / INR (S n)).
    { eapply Rle_trans; [exact B|]. apply Rinv_le_contravar; [exact P|]. rewrite minus_INR by lia. rewrite !S_INR. lra. }
    unfold Rdiv. rewrite Rinv_mult. assert (0 < / INR (S k) ^ 3) by (apply Rinv_0_lt_compat; exact K3). assert (0 < / INR (S n)) by (apply Rinv_0_lt_compat; exact P). nra.
  - rewrite psum_scal. fold (zsum (S n)). unfold Rdiv. rewrite Rmult_comm. apply Rmult_le_compat_r; [apply Rlt_le, Rinv_0_lt_compat; exact P|exact G].
Qed.
Lemma dsum_cv z : is_zeta 3 z -> Un_cv (fun n => dsum (S n)) 0.
Proof.
  intros H e He. pose proof (zeta3_ge1 z H) as Z1. destruct (archimed (z / e)) as [A _]. set (M := Z.to_nat (up (z / e))).
  exists M. intros n Hn. unfold R_dist. rewrite Rminus_0_r. eapply Rle_lt_trans; [apply (dsum_small z n H)|].
  assert (UP : 0 < z / e) by (apply Rdiv_lt_0_compat; lra).
  assert (N : z / e < INR (S n)).
  { eapply Rlt_le_trans; [exact A|]. assert (U0 : (0 <= up (z / e))%Z) by (apply le_IZR; lra). rewrite <- (Z2Nat.id _ U0). rewrite <- INR_IZR_INZ. apply le_INR. unfold M in Hn. lia. }
  pose proof (INR_S_pos n) as P. apply Rmult_lt_reg_r with (INR (S n)); [exact P|]. replace (z / INR (S n) * INR (S n)) with z by (field; lra).
  apply Rmult_lt_reg_r with (/ e); [apply Rinv_0_lt_compat; exact He|]. replace (e * INR (S n) * / e) with (INR (S n)) by (field; lra). exact N.
Qed.

(** ---- the series 1/2 - 1/48 + ... with terms 1/((k+1)^3 C(2k+2, k+1)) ---- *)
Definition U9 (k : nat) : R := ap (S k) 0 / INR (S k) ^ 3.
Lemma U9_pos k : 0 < U9 k.
Proof. unfold U9. apply Rdiv_lt_0_compat; [apply ap_pos|apply pow_lt, INR_S_pos]. Qed.
Lemma U9_S k : U9 (S k) = U9 k * (INR k + 1) ^ 3 / (2 * (INR k + 2) ^ 2 * (2 * INR k + 3)).
Proof. unfold U9. rewrite (ap_kS (S k)). rewrite !S_INR. cbn [INR pow]. pose proof (pos_INR k). field. repeat split; lra. Qed.
Lemma U9_quarter k : 4 * U9 (S k) <= U9 k.
Proof.
  rewrite U9_S. pose proof (pos_INR k) as K. pose proof (U9_pos k) as U. set (x := INR k) in *. set (u := U9 k) in *. assert (D : 0 < (x + 2) ^ 2 * (2 * x + 3)) by (cbn [pow]; nra).
  apply Rmult_le_reg_r with (2 * ((x + 2) ^ 2 * (2 * x + 3))); [lra|].
  replace (4 * (u * (x + 1) ^ 3 / (2 * (x + 2) ^ 2 * (2 * x + 3))) * (2 * ((x + 2) ^ 2 * (2 * x + 3)))) with (u * (4 * (x + 1) ^ 3)) by (field; lra).
  apply Rmult_le_compat_l; [lra|]. assert (0 <= x * x) by nra. assert (0 <= x * x * x) by nra. cbn [pow]. nra.
Qed.
Lemma U9_dec : Un_decreasing U9.
Proof. intros k. pose proof (U9_quarter k). pose proof (U9_pos (S k)). lra. Qed.
Lemma U9_cv : Un_cv U9 0.
Proof.
  apply inv_cv0. intros n. split; [apply Rlt_le, U9_pos|]. unfold U9. pose proof (ap_small n 0) as A. pose proof (ap_pos (S n) 0) as B. pose proof (INR_S_pos n) as P.
  assert (I : 1 <= INR (S n)) by (change 1 with (INR 1); apply le_INR; lia). assert (C : 1 <= INR (S n) ^ 3) by (apply pow_R1_Rle; exact I).
  apply Rle_trans with (ap (S n) 0).
  - apply Rmult_le_reg_r with (INR (S n) ^ 3); [lra|]. replace (ap (S n) 0 / INR (S n) ^ 3 * INR (S n) ^ 3) with (ap (S n) 0) by (field; lra). nra.
  - eapply Rle_trans; [exact A|]. apply Rinv_le_contravar; [exact P|]. rewrite S_INR. cbn [INR]. lra.
Qed.
Lemma apery_sum n : psum (fun k => sgn k * (5 / 2 * (ap k 0 / INR k ^ 3))) (S n) = 5 / 2 * asum U9 n.
Proof.
  induction n as [|n IH].
  - cbn [psum]. rewrite sgn_S. unfold asum, tg_alt, U9. cbn [sum_f_R0 pow]. lra.
  - rewrite asum_S, Rmult_plus_distr_l, <- IH. cbn [psum]. rewrite (sgn_S (S n)). unfold U9. ring.
Qed.
Lemma U9_lim z : is_zeta 3 z -> Un_cv (asum U9) (2 / 5 * z).
Proof.
  intros H. assert (C := CV_plus _ _ _ _ (zsum_cv z H) (dsum_cv z H)). rewrite Rplus_0_r in C.
  intros e He. destruct (C (5 / 2 * e) ltac:(lra)) as [M HM]. exists M. intros n Hn. specialize (HM n Hn). unfold R_dist in *. rewrite apery_finite, apery_sum in HM.
  replace (asum U9 n - 2 / 5 * z) with (2 / 5 * (5 / 2 * asum U9 n - z)) by field. rewrite Rabs_mult, (Rabs_right (2 / 5)) by lra. lra.
Qed.
Lemma U9_0 : U9 0 = 1 / 2.
Proof. unfold U9, ap. cbn. field. Qed.
Lemma U9_1 : U9 1 = 1 / 48.
Proof. rewrite U9_S, U9_0. cbn. field. Qed.
Lemma asum9_bounds n : 23 / 48 <= asum U9 n <= 1 / 2.
Proof.
  assert (A0 : asum U9 0 = 1 / 2) by (unfold asum, tg_alt; cbn [sum_f_R0 pow]; rewrite U9_0; field).
  assert (A1 : asum U9 1 = 23 / 48) by (rewrite asum_S, A0, U9_1; cbn [pow]; field).
  assert (G : forall m, asum U9 (2 * m) <= 1 / 2 /\ 23 / 48 <= asum U9 (S (2 * m)) /\ asum U9 (S (2 * m)) <= asum U9 (2 * m)).
  { induction m as [|m (I1 & I2 & I3)].
    - change (2 * 0)%nat with 0%nat. rewrite A0, A1. lra.
    - replace (2 * S m)%nat with (S (S (2 * m))) by lia. rewrite !asum_S in *. cbn [pow] in *. rewrite m1_even in *.
      pose proof (U9_dec (S (2 * m))). pose proof (U9_dec (S (S (2 * m)))). pose proof (U9_pos (S (S (S (2 * m))))). lra. }
  destruct (Nat.Even_or_Odd n) as [[m ->]|[m ->]]; [|replace (2 * m + 1)%nat with (S (2 * m)) by lia]; destruct (G m) as (A & B & C); lra.
Qed.
(** 2 zeta(3) / 5 lies between any two consecutive partial sums *)
Lemma zeta3_bounds z : is_zeta 3 z -> 23 / 48 <= 2 / 5 * z <= 1 / 2.
Proof.
  intros H. pose proof (alt_side U9 _ U9_dec U9_cv (U9_lim z H)) as S. pose proof (S 0%nat) as S0. pose proof (S 1%nat) as S1. pose proof (asum9_bounds 0). pose proof (asum9_bounds 1). cbn [pow] in *.
  assert (A0 : asum U9 0 = 1 / 2) by (unfold asum, tg_alt; cbn [sum_f_R0 pow]; rewrite U9_0; field).
  assert (A1 : asum U9 1 = 23 / 48) by (rewrite asum_S, A0, U9_1; cbn [pow]; field). lra.
Qed.

(** ---- the continued fraction ---- *)
Fixpoint Y9 (n : nat) : R := match n with O => 2 | S k => 2 * (INR k + 2) ^ 2 * (2 * INR k + 3) * Y9 k end.
Lemma Y9_pos n : 0 < Y9 n.
Proof. induction n as [|n IH]; cbn [Y9]; [lra|]. pose proof (pos_INR n). apply Rmult_lt_0_compat; [|exact IH]. cbn [pow]. nra. Qed.
Definition a9 (x : R) : R := 3 * x ^ 3 + 10 * x ^ 2 + 8 * x + 2.
Definition b9 (x : R) : R := 4 * x ^ 6 - 2 * x ^ 5.
Section CF9.
Variable p q : nat -> R.
Hypothesis p0 : p 0%nat = 2.
Hypothesis p1 : p 1%nat = 48.
Hypothesis q0 : q 0%nat = 1.
Hypothesis q1 : q 1%nat = 23.
Hypothesis pS : forall n, p (S (S n)) = a9 (INR (S (S n))) * p (S n) + b9 (INR (S (S n))) * p n.
Hypothesis qS : forall n, q (S (S n)) = a9 (INR (S (S n))) * q (S n) + b9 (INR (S (S n))) * q n.
Lemma cf9_p n : p n = Y9 n.
Proof.
  revert n. apply two_step; [rewrite p0; reflexivity|rewrite p1; cbn; ring|]. intros n I1 I2. rewrite pS, I1, I2. cbn [Y9]. unfold a9, b9. rewrite !S_INR. ring.
Qed.
Lemma cf9_q n : q n = asum U9 n * Y9 n.
Proof.
  rewrite <- psum_asum. apply (ratio_sum (fun n => a9 (INR n)) (fun n => b9 (INR n)) q Y9 (fun k => (-1) ^ k * U9 k)); auto.
  - intros k. cbn [Y9]. unfold a9, b9. rewrite !S_INR. ring.
  - intros k. rewrite (U9_S (S k)). cbn [Y9]. unfold b9. rewrite !S_INR. cbn [pow]. pose proof (pos_INR k). field. lra.
  - rewrite q0, U9_0. cbn. field.
  - rewrite q1, U9_0, U9_1. cbn. field.
Qed.
Lemma cf9_q_pos n : 0 < q n.
Proof. rewrite cf9_q. pose proof (asum9_bounds n). pose proof (Y9_pos n). apply Rmult_lt_0_compat; lra. Qed.
Lemma cf9_value n : p n / q n = / asum U9 n.
Proof. rewrite cf9_p, cf9_q. pose proof (asum9_bounds n). pose proof (Y9_pos n). field. split; lra. Qed.
(** The error of the n-th convergent. *)
Theorem cf9_error z n : is_zeta 3 z -> 3 * U9 (S n) <= Rabs (p n / q n - 5 / (2 * z)) <= 9 / 2 * U9 (S n).
Proof.
  intros H. pose proof (zeta3_ge1 z H) as Z1. pose proof (asum9_bounds n) as S. pose proof (zeta3_bounds z H) as Z. pose proof (alt_upper U9 _ n U9_dec U9_cv (U9_lim z H)) as U. pose proof (alt_lower U9 _ n U9_dec U9_cv (U9_lim z H)) as L.
  pose proof (U9_quarter (Datatypes.S n)) as Q. pose proof (U9_pos (Datatypes.S n)) as P. rewrite cf9_value. set (s := asum U9 n) in *. set (l := 2 / 5 * z) in *.
  replace (5 / (2 * z)) with (/ l) by (unfold l; field; lra).
  replace (/ s - / l) with ((l - s) * / (s * l)) by (field; lra). assert (B : 23 / 48 * (23 / 48) <= s * l <= 1 / 2 * (1 / 2)) by (split; apply Rmult_le_compat; lra).
  rewrite Rabs_mult, (Rabs_right (/ (s * l))) by (apply Rle_ge, Rlt_le, Rinv_0_lt_compat; lra). rewrite Rabs_minus_sym. set (d := Rabs (s - l)) in *. set (m := s * l) in *.
  assert (I : 4 <= / m <= 9 / 2).
  { split; [replace 4 with (/ (1 / 4)) by field|replace (9 / 2) with (/ (2 / 9)) by field]; apply Rinv_le_contravar; lra. }
  split; nra.
Qed.
End CF9.
Lemma U9_fact n : U9 (S n) = INR (fact (n + 2)) * INR (fact (n + 2)) / (INR (n + 2) ^ 3 * INR (fact (2 * n + 4))).
Proof.
  unfold U9, ap. replace (n + 2)%nat with (S (S n)) by lia. replace (2 * S (S n) + 0)%nat with (2 * n + 4)%nat by lia. pose proof (INR_S_pos (S n)). pose proof (fact_pos (2 * n + 4)). pose proof (fact_pos (S (S n))).
  change (INR (fact 0)) with 1. field. split; [|lra]. lra.
Qed.
Lemma U9_exp n : U9 n <= (/ 4) ^ n / 2.
Proof. induction n as [|n IH]; [rewrite U9_0; cbn; lra|]. pose proof (U9_quarter n). cbn [pow]. lra. Qed.

(** Limits of some continued fractions with polynomial coefficients, over the real numbers. *)
From Coq Require Import Reals Lra Lia Arith.
Local Open Scope R_scope.

(** ---- three-term recurrences ---- *)
Fixpoint psum (d : nat -> R) (n : nat) : R := match n with O => 0 | S k => psum d k + d (S k) end.
Lemma two_step (P : nat -> Prop) : P 0%nat -> P 1%nat -> (forall n, P n -> P (S n) -> P (S (S n))) -> forall n, P n.
Proof. intros H0 H1 HS n. enough (P n /\ P (S n)) by tauto. induction n as [|n [IH1 IH2]]; auto. Qed.
(** A quotient of two solutions is a sum. *)
Lemma ratio_sum (A B X Y d : nat -> R) (s : R) :
  (forall n, X (S (S n)) = A (S (S n)) * X (S n) + B (S (S n)) * X n) ->
  (forall n, Y (S (S n)) = A (S (S n)) * Y (S n) + B (S (S n)) * Y n) ->
  (forall n, d (S (S n)) * Y (S (S n)) = - (B (S (S n)) * Y n * d (S n))) ->
  X 0%nat = s * Y 0%nat -> X 1%nat = (s + d 1%nat) * Y 1%nat -> forall n, X n = (s + psum d n) * Y n.
Proof.
  intros HX HY HD H0 H1. apply two_step; [cbn; rewrite H0; ring|cbn; rewrite H1; ring|].
  intros n I1 I2. rewrite HX, I1, I2. cbn [psum].
  transitivity ((s + psum d n + d (S n)) * (A (S (S n)) * Y (S n) + B (S (S n)) * Y n) + - (B (S (S n)) * Y n * d (S n))); [ring|].
  rewrite <- HY, <- HD. ring.
Qed.

(** ---- alternating series ---- *)
(** If the terms decrease to zero, the error lies between the difference of the next two terms and the next term. *)
Definition asum (U : nat -> R) (n : nat) : R := sum_f_R0 (tg_alt U) n.
Lemma asum_S U n : asum U (S n) = asum U n + (-1) ^ S n * U (S n).
Proof. reflexivity. Qed.
Lemma m1_even n : (-1) ^ (2 * n) = 1.
Proof. apply pow_1_even. Qed.
Lemma m1_odd n : (-1) ^ S (2 * n) = -1.
Proof. apply pow_1_odd. Qed.
Lemma m1_cases n : (-1) ^ n = 1 \/ (-1) ^ n = -1.
Proof. induction n as [|n [E|E]]; cbn [pow]; [now left|right; rewrite E; ring|left; rewrite E; ring]. Qed.
Lemma alt_side U l : Un_decreasing U -> Un_cv U 0 -> Un_cv (asum U) l -> forall n, 0 <= (-1) ^ n * (asum U n - l).
Proof.
  intros D C CL n. destruct (Nat.Even_or_Odd n) as [[k ->]|[k ->]].
  - rewrite m1_even. pose proof (alternated_series_ineq U l k D C CL) as [_ H]. fold (asum U (2 * k)) in H. lra.
  - replace (2 * k + 1)%nat with (S (2 * k)) by lia. rewrite m1_odd. pose proof (alternated_series_ineq U l k D C CL) as [H _]. fold (asum U (S (2 * k))) in H. lra.
Qed.
Lemma alt_upper U l n : Un_decreasing U -> Un_cv U 0 -> Un_cv (asum U) l -> Rabs (asum U n - l) <= U (S n).
Proof.
  intros D C CL. pose proof (alt_side U l D C CL n) as A. pose proof (alt_side U l D C CL (S n)) as B. rewrite asum_S in B. cbn [pow] in B.
  destruct (m1_cases n) as [E|E]; rewrite E in A, B; [rewrite Rabs_right by lra|rewrite Rabs_left1 by lra]; lra.
Qed.
Lemma alt_lower U l n : Un_decreasing U -> Un_cv U 0 -> Un_cv (asum U) l -> U (S n) - U (S (S n)) <= Rabs (asum U n - l).
Proof.
  intros D C CL. pose proof (alt_side U l D C CL n) as A. pose proof (alt_side U l D C CL (S (S n))) as B. rewrite !asum_S in B. cbn [pow] in B.
  destruct (m1_cases n) as [E|E]; rewrite E in A, B; [rewrite Rabs_right by lra|rewrite Rabs_left1 by lra]; lra.
Qed.
(** If moreover the differences decrease, the error is at least half the next term. *)
Lemma alt_half U l n : Un_decreasing U -> Un_decreasing (fun k => U k - U (S k)) -> Un_cv U 0 -> Un_cv (asum U) l -> U (S n) / 2 <= Rabs (asum U n - l).
Proof.
  intros D D2 C CL. set (V := fun k => (U k - U (S k)) / 2).
  assert (DV : Un_decreasing V) by (intros k; pose proof (D2 k) as H; cbn beta in H; unfold V; lra).
  assert (E : forall k, asum V k = (asum U k + asum U (S k)) / 2 - U 0%nat / 2).
  { induction k as [|k IH]; [unfold asum, V, tg_alt; cbn [sum_f_R0 pow]; lra|]. rewrite asum_S, IH, !asum_S. unfold V. cbn [pow]. lra. }
  assert (CS : forall W w, Un_cv W w -> Un_cv (fun k => W (S k)) w).
  { intros W w H e He. destruct (H e He) as [N HN]. exists N. intros k Hk. apply HN. lia. }
  assert (CV : Un_cv V 0).
  { pose proof (CV_minus _ _ _ _ C (CS _ _ C)) as H. intros e He. destruct (H e He) as [N HN]. exists N. intros k Hk. specialize (HN k Hk). unfold R_dist, V in *.
    replace ((U k - U (S k)) / 2 - 0) with ((U k - U (S k) - (0 - 0)) * / 2) by field. rewrite Rabs_mult, (Rabs_right (/ 2)) by lra. pose proof (Rabs_pos (U k - U (S k) - (0 - 0))). lra. }
  assert (CVL : Un_cv (asum V) (l - U 0%nat / 2)).
  { pose proof (CV_plus _ _ _ _ CL (CS _ _ CL)) as H. intros e He. destruct (H e He) as [N HN]. exists N. intros k Hk. specialize (HN k Hk). unfold R_dist in *. rewrite E.
    replace ((asum U k + asum U (S k)) / 2 - U 0%nat / 2 - (l - U 0%nat / 2)) with ((asum U k + asum U (S k) - (l + l)) * / 2) by field.
    rewrite Rabs_mult, (Rabs_right (/ 2)) by lra. pose proof (Rabs_pos (asum U k + asum U (S k) - (l + l))). lra. }
  pose proof (alt_side V _ DV CV CVL n) as A. rewrite E, asum_S in A. cbn [pow] in A. pose proof (alt_side U l D C CL n) as B.
  destruct (m1_cases n) as [F|F]; rewrite F in A, B; [rewrite Rabs_right by lra|rewrite Rabs_left1 by lra]; lra.
Qed.
Lemma inv_cv0 (U : nat -> R) : (forall n, 0 <= U n <= / INR (S n)) -> Un_cv U 0.
Proof.
  intros H e He. destruct (archimed_cor1 e He) as (N & HN & HN0). exists N. intros n Hn. unfold R_dist. rewrite Rminus_0_r, Rabs_right; [|apply Rle_ge, H].
  eapply Rle_lt_trans; [apply H|]. eapply Rle_lt_trans; [|exact HN]. apply Rinv_le_contravar; [apply lt_0_INR; lia|apply le_INR; lia].
Qed.

(** ---- 2 + 4/(4 + 8/(6 + 12/(8 + ...))) = 1/(e/2 - 1) ---- *)
Lemma fact_R n : INR (fact (S n)) = (INR n + 1) * INR (fact n).
Proof. rewrite fact_simpl, mult_INR, S_INR. reflexivity. Qed.
Lemma fact_pos n : 0 < INR (fact n).
Proof. apply lt_0_INR, lt_O_fact. Qed.
Lemma fact_pos1 n : 1 <= INR (fact n).
Proof. change 1 with (INR 1). apply le_INR. pose proof (lt_O_fact n). lia. Qed.
Definition U1 (k : nat) : R := 2 / INR (fact (k + 3)).
Lemma U1_S k : U1 (S k) = U1 k / (INR k + 4).
Proof.
  unfold U1. replace (S k + 3)%nat with (S (k + 3)) by lia. rewrite fact_R, plus_INR. cbn [INR]. pose proof (fact_pos (k + 3)). pose proof (pos_INR k). field. lra.
Qed.
Lemma U1_pos k : 0 < U1 k.
Proof. unfold U1. pose proof (fact_pos (k + 3)). apply Rdiv_lt_0_compat; lra. Qed.
Lemma U1_dec : Un_decreasing U1.
Proof.
  intros k. rewrite U1_S. pose proof (U1_pos k). pose proof (pos_INR k). apply Rmult_le_reg_r with (INR k + 4); [lra|].
  unfold Rdiv. rewrite Rmult_assoc, Rinv_l by lra. nra.
Qed.
Lemma U1_cv : Un_cv U1 0.
Proof.
  apply inv_cv0. intros n. pose proof (U1_pos n) as P. split; [lra|]. clear P. unfold U1. replace (n + 3)%nat with (S (S (S n))) by lia. rewrite (fact_R (S (S n))), (fact_R (S n)), (fact_R n), !S_INR. pose proof (fact_pos1 n) as F. pose proof (pos_INR n) as N.
  replace (/ (INR n + 1)) with (2 * / (2 * (INR n + 1))) by (field; lra). unfold Rdiv. apply Rmult_le_compat_l; [lra|]. apply Rinv_le_contravar; [lra|].
  assert (H1 : INR n + 1 <= (INR n + 1) * INR (fact n)) by nra. assert (H2 : INR n + 1 <= (INR n + 1 + 1) * ((INR n + 1) * INR (fact n))) by nra. nra.
Qed.
Lemma U1_lim : Un_cv (asum U1) (1 - 2 * exp (-1)).
Proof.
  assert (E : forall n, asum U1 n = 1 - 2 * sum_f_R0 (fun i => / INR (fact i) * (-1) ^ i) (n + 3)).
  { induction n as [|n IH].
    - unfold asum, U1, tg_alt. cbn. field.
    - rewrite asum_S, IH. replace (S n + 3)%nat with (S (n + 3)) by lia. cbn [sum_f_R0]. unfold U1. replace (S n + 3)%nat with (S (n + 3)) by lia.
      replace ((-1) ^ S (n + 3)) with (- (-1) ^ S n); [pose proof (fact_pos (S (n + 3))); field; lra|].
      replace (S (n + 3)) with (S n + 3)%nat by lia. rewrite pow_add. cbn [pow]. ring. }
  assert (C : Un_cv (fun n => sum_f_R0 (fun i => / INR (fact i) * (-1) ^ i) n) (exp (-1))).
  { unfold exp. destruct (exist_exp (-1)) as [l H]. cbn. exact H. }
  intros e He. destruct (C (e / 2)) as [N HN]; [lra|]. exists N. intros n Hn. specialize (HN (n + 3)%nat ltac:(lia)). unfold R_dist in *. rewrite E.
  match goal with |- Rabs (1 - 2 * ?s - (1 - 2 * ?x)) < _ => replace (1 - 2 * s - (1 - 2 * x)) with ((-2) * (s - x)) by ring end.
  rewrite Rabs_mult, (Rabs_left (-2)) by lra. lra.
Qed.
Definition Y1 (n : nat) : R := 2 ^ n * (INR n + 3) * INR (fact (S n)).
Lemma Y1_pos n : 0 < Y1 n.
Proof. unfold Y1. pose proof (pow_lt 2 n). pose proof (fact_pos (S n)). pose proof (pos_INR n). apply Rmult_lt_0_compat; [apply Rmult_lt_0_compat|]; lra. Qed.
Lemma Y1_rec n : Y1 (S (S n)) = (2 + 2 * INR (S (S n))) * Y1 (S n) + 4 * INR (S (S n)) * Y1 n.
Proof. unfold Y1. rewrite (fact_R (S (S n))), (fact_R (S n)), !S_INR. cbn [pow]. ring. Qed.
Lemma psum_asum U n : U 0%nat + psum (fun k => (-1) ^ k * U k) n = asum U n.
Proof. induction n as [|n IH]; [unfold asum, tg_alt; cbn; ring|]. rewrite asum_S, <- IH. cbn [psum]. ring. Qed.
Section CF1.
Variable p q : nat -> R.
Hypothesis p0 : p 0%nat = 2.
Hypothesis p1 : p 1%nat = 12.
Hypothesis q0 : q 0%nat = 1.
Hypothesis q1 : q 1%nat = 4.
Hypothesis pS : forall n, p (S (S n)) = (2 + 2 * INR (S (S n))) * p (S n) + 4 * INR (S (S n)) * p n.
Hypothesis qS : forall n, q (S (S n)) = (2 + 2 * INR (S (S n))) * q (S n) + 4 * INR (S (S n)) * q n.
Lemma cf1_sum n : p n + q n = Y1 n.
Proof.
  revert n. apply two_step.
  - rewrite p0, q0. unfold Y1. cbn. ring.
  - rewrite p1, q1. unfold Y1. cbn. ring.
  - intros n I1 I2. rewrite pS, qS, Y1_rec, <- I1, <- I2. ring.
Qed.
Lemma cf1_q n : q n = asum U1 n * Y1 n.
Proof.
  rewrite <- psum_asum. apply (ratio_sum (fun n => 2 + 2 * INR n) (fun n => 4 * INR n)); auto using Y1_rec.
  - clear n. intros n. rewrite (U1_S (S n)), (U1_S n). unfold Y1. rewrite (fact_R (S (S n))), (fact_R (S n)), !S_INR. cbn [pow].
    pose proof (pos_INR n). field. lra.
  - rewrite q0. unfold U1, Y1. cbn. field.
  - rewrite q1. unfold U1, Y1. cbn. field.
Qed.
Lemma cf1_s_bounds n : 1 / 4 <= asum U1 n <= 1 / 3.
Proof.
  assert (Z0 : asum U1 0 = 1 / 3) by (unfold asum, U1, tg_alt; cbn; field).
  assert (Z1 : asum U1 1 = 1 / 4) by (unfold asum, U1, tg_alt; cbn; field).
  assert (H : forall k, (asum U1 1 <= asum U1 (2 * k) <= asum U1 0) /\ (asum U1 1 <= asum U1 (S (2 * k)) <= asum U1 0)).
  { induction k as [|k [[I1 I2] [I3 I4]]]; [cbn [Nat.mul Nat.add]; lra|].
    replace (2 * S k)%nat with (S (S (2 * k))) by lia.
    pose proof (asum_S U1 (S (2 * k))) as A. pose proof (asum_S U1 (2 * k)) as B. pose proof (asum_S U1 (S (S (2 * k)))) as C.
    assert (E1 : (-1) ^ S (2 * k) = -1) by apply m1_odd. change ((-1) ^ S (S (S (2 * k)))) with (-1 * (-1 * (-1) ^ S (2 * k))) in C.
    change ((-1) ^ S (S (2 * k))) with (-1 * (-1) ^ S (2 * k)) in A. rewrite E1 in A, B, C.
    pose proof (U1_dec (S (2 * k))). pose proof (U1_dec (S (S (2 * k)))). pose proof (U1_pos (S (S (2 * k)))). pose proof (U1_pos (S (S (S (2 * k))))). lra. }
  destruct (Nat.Even_or_Odd n) as [[k ->]|[k ->]]; [destruct (H k)|replace (2 * k + 1)%nat with (S (2 * k)) by lia; destruct (H k)]; lra.
Qed.
Lemma cf1_q_pos n : 0 < q n.
Proof. rewrite cf1_q. pose proof (Y1_pos n). pose proof (cf1_s_bounds n). nra. Qed.
Lemma cf1_value n : p n / q n = 1 / asum U1 n - 1.
Proof.
  pose proof (cf1_sum n) as E. pose proof (cf1_q n) as Q. pose proof (Y1_pos n). pose proof (cf1_s_bounds n).
  replace (p n) with (Y1 n - q n) by lra. rewrite Q. field. nra.
Qed.
Lemma e_gt2 : 2 < exp 1.
Proof. pose proof (exp_ineq1 1). lra. Qed.
Lemma cf1_limit_bounds : 1 / 4 <= 1 - 2 * exp (-1) <= 1 / 3.
Proof.
  split.
  - pose proof (alt_side U1 _ U1_dec U1_cv U1_lim 1) as H. assert (asum U1 1 = 1 / 4) by (unfold asum, U1, tg_alt; cbn; field). cbn [pow] in H. lra.
  - pose proof (alt_side U1 _ U1_dec U1_cv U1_lim 0) as H. assert (asum U1 0 = 1 / 3) by (unfold asum, U1, tg_alt; cbn; field). cbn [pow] in H. lra.
Qed.
Theorem cf1_error n : 14 / INR (fact (n + 4)) <= Rabs (p n / q n - 1 / (exp 1 / 2 - 1)) <= 32 / INR (fact (n + 4)).
Proof.
  pose proof (cf1_s_bounds n) as B. pose proof cf1_limit_bounds as L. pose proof e_gt2 as E2.
  pose proof (alt_upper U1 _ n U1_dec U1_cv U1_lim) as HU. pose proof (alt_lower U1 _ n U1_dec U1_cv U1_lim) as HL.
  rewrite cf1_value. set (s := asum U1 n) in *. set (l := 1 - 2 * exp (-1)) in *.
  assert (EL : 1 / (exp 1 / 2 - 1) = 1 / l - 1).
  { unfold l in *. replace (-1) with (- (1)) in * by ring. rewrite exp_Ropp in *. field. lra. }
  rewrite EL. replace (1 / s - 1 - (1 / l - 1)) with ((l - s) * (/ s * / l)) by (field; lra).
  rewrite Rabs_mult, (Rabs_right (/ s * / l)); [|apply Rle_ge, Rlt_le, Rmult_lt_0_compat; apply Rinv_0_lt_compat; lra].
  rewrite Rabs_minus_sym. assert (S1 : 3 <= / s <= 4) by (split; [replace 3 with (/ (1 / 3)) by field|replace 4 with (/ (1 / 4)) by field]; apply Rinv_le_contravar; lra).
  assert (S2 : 3 <= / l <= 4) by (split; [replace 3 with (/ (1 / 3)) by field|replace 4 with (/ (1 / 4)) by field]; apply Rinv_le_contravar; lra).
  assert (M : 9 <= / s * / l <= 16) by nra. rewrite (U1_S (S n)) in HL. rewrite S_INR in HL. pose proof (pos_INR n) as N.
  assert (U1 (S n) = 2 / INR (fact (n + 4))) as EU by (unfold U1; replace (S n + 3)%nat with (n + 4)%nat by lia; reflexivity).
  pose proof (U1_pos (S n)) as UP. pose proof (Rabs_pos (s - l)) as AP.
  assert (U1 (S n) / (INR n + 1 + 4) <= U1 (S n) / 5).
  { unfold Rdiv. apply Rmult_le_compat_l; [lra|]. apply Rinv_le_contravar; lra. }
  split.
  - replace (14 / INR (fact (n + 4))) with (7 * U1 (S n)) by (rewrite EU; field; apply Rgt_not_eq, fact_pos). nra.
  - replace (32 / INR (fact (n + 4))) with (16 * U1 (S n)) by (rewrite EU; field; apply Rgt_not_eq, fact_pos). nra.
Qed.
End CF1.

(** ---- 6 + 1/(6 + 9/(6 + 25/(6 + ...))) = pi + 3 ---- *)
Definition U4 (k : nat) : R := / ((INR k + 1) * (INR k + 2) * (2 * INR k + 3)).
Lemma U4_pos k : 0 < U4 k.
Proof. unfold U4. pose proof (pos_INR k). apply Rinv_0_lt_compat. repeat apply Rmult_lt_0_compat; lra. Qed.
Lemma U4_dec : Un_decreasing U4.
Proof.
  intros k. unfold U4. rewrite S_INR. pose proof (pos_INR k) as N. apply Rinv_le_contravar; [repeat apply Rmult_lt_0_compat; lra|].
  apply Rmult_le_compat; [apply Rmult_le_pos; lra|lra|apply Rmult_le_compat; lra|lra].
Qed.
Lemma U4_diff k : U4 k - U4 (S k) = 6 / ((INR k + 1) * (INR k + 3) * (2 * INR k + 3) * (2 * INR k + 5)).
Proof. unfold U4. rewrite S_INR. pose proof (pos_INR k). field. repeat split; lra. Qed.
Lemma U4_dec2 : Un_decreasing (fun k => U4 k - U4 (S k)).
Proof.
  intros k. cbn beta. rewrite !U4_diff, S_INR. pose proof (pos_INR k) as N. unfold Rdiv. apply Rmult_le_compat_l; [lra|].
  apply Rinv_le_contravar; [repeat apply Rmult_lt_0_compat; lra|].
  repeat (apply Rmult_le_compat; [repeat apply Rmult_le_pos; lra|lra| |lra]). lra.
Qed.
Lemma U4_cv : Un_cv U4 0.
Proof.
  apply inv_cv0. intros n. split; [apply Rlt_le, U4_pos|]. unfold U4. rewrite S_INR. pose proof (pos_INR n) as N. apply Rinv_le_contravar; [lra|].
  assert (INR n + 1 <= (INR n + 1) * (INR n + 2)) by nra. nra.
Qed.
Lemma PI_lim : Un_cv (asum PI_tg) (PI / 4).
Proof.
  rewrite <- Alt_PI_eq. unfold Alt_PI. destruct exist_PI as [l H]. replace (4 * l / 4) with l by field. exact H.
Qed.
Lemma PI_tg_R k : PI_tg k = / (2 * INR k + 1).
Proof. unfold PI_tg. rewrite plus_INR, mult_INR. cbn. reflexivity. Qed.
Lemma U4_lim : Un_cv (asum U4) (PI - 3).
Proof.
  assert (E : forall n, asum U4 n = -3 + 4 * asum PI_tg (S n) + (-1) ^ n / (INR n + 2)).
  { induction n as [|n IH].
    - unfold asum, tg_alt. cbn [sum_f_R0 pow]. rewrite !PI_tg_R. unfold U4. cbn [INR]. field.
    - rewrite asum_S, IH. rewrite (asum_S PI_tg (S n)), PI_tg_R. unfold U4. rewrite !S_INR. cbn [pow]. pose proof (pos_INR n). field. repeat split; lra. }
  assert (C0 : Un_cv (fun n => (-1) ^ n / (INR n + 2)) 0).
  { intros e He. destruct (archimed_cor1 e He) as (N & HN & HN0). exists N. intros n Hn. unfold R_dist. rewrite Rminus_0_r. unfold Rdiv. rewrite Rabs_mult.
    replace (Rabs ((-1) ^ n)) with 1 by (destruct (m1_cases n) as [F|F]; rewrite F; [rewrite Rabs_right|rewrite Rabs_left]; lra).
    pose proof (pos_INR n). assert (INR N <= INR n) by (apply le_INR; lia). assert (0 < INR N) by (apply lt_0_INR; lia).
    rewrite Rmult_1_l, Rabs_right by (apply Rle_ge, Rlt_le, Rinv_0_lt_compat; lra). eapply Rle_lt_trans; [|exact HN]. apply Rinv_le_contravar; lra. }
  intros e He. destruct (PI_lim (e / 8)) as [N1 H1]; [lra|]. destruct (C0 (e / 2)) as [N2 H2]; [lra|]. exists (max N1 N2). intros n Hn.
  specialize (H1 (S n) ltac:(lia)). specialize (H2 n ltac:(lia)). unfold R_dist in *. rewrite E.
  replace (-3 + 4 * asum PI_tg (S n) + (-1) ^ n / (INR n + 2) - (PI - 3)) with (4 * (asum PI_tg (S n) - PI / 4) + ((-1) ^ n / (INR n + 2) - 0)) by (generalize ((-1) ^ n / (INR n + 2)); intros; field).
  eapply Rle_lt_trans; [apply Rabs_triang|]. rewrite Rabs_mult, (Rabs_right 4) by lra. lra.
Qed.
(** odd double factorial: 1 * 3 * ... * (2n - 1) *)
Fixpoint odd_fact (n : nat) : R := match n with O => 1 | S k => (2 * INR k + 1) * odd_fact k end.
Lemma odd_fact_pos n : 0 < odd_fact n.
Proof. induction n as [|n IH]; cbn [odd_fact]; [lra|]. pose proof (pos_INR n). apply Rmult_lt_0_compat; lra. Qed.
Section CF4.
Variable p q : nat -> R.
Hypothesis p0 : p 0%nat = 6.
Hypothesis p1 : p 1%nat = 37.
Hypothesis q0 : q 0%nat = 1.
Hypothesis q1 : q 1%nat = 6.
Hypothesis pS : forall n, p (S (S n)) = 6 * p (S n) + (2 * INR (S (S n)) - 1) ^ 2 * p n.
Hypothesis qS : forall n, q (S (S n)) = 6 * q (S n) + (2 * INR (S (S n)) - 1) ^ 2 * q n.
Lemma cf4_q n : q n = (INR n + 1) * odd_fact (S n).
Proof.
  revert n. apply two_step; [rewrite q0; cbn; ring|rewrite q1; cbn; ring|]. intros n I1 I2. rewrite qS, I1, I2. cbn [odd_fact]. rewrite !S_INR. ring.
Qed.
Lemma cf4_q_pos n : 0 < q n.
Proof. rewrite cf4_q. pose proof (pos_INR n). pose proof (odd_fact_pos (S n)). apply Rmult_lt_0_compat; lra. Qed.
Lemma cf4_value n : p (S n) / q (S n) = 6 + asum U4 n.
Proof.
  set (d := fun k => match k with O => 0 | S j => (-1) ^ j * U4 j end).
  assert (E : p (S n) = (6 + psum d (S n)) * q (S n)).
  { apply (ratio_sum (fun n => 6) (fun n => (2 * INR n - 1) ^ 2)); auto.
    - intros k. rewrite !cf4_q. unfold d, U4. cbn [odd_fact]. rewrite !S_INR. cbn [pow]. pose proof (pos_INR k). field. repeat split; lra.
    - rewrite p0, q0. ring.
    - rewrite p1, q1. unfold d, U4. cbn. field. }
  rewrite E. replace (psum d (S n)) with (asum U4 n); [field; apply Rgt_not_eq, cf4_q_pos|].
  clear E. induction n as [|n IH]; [unfold asum, tg_alt; cbn; ring|]. rewrite asum_S, IH. cbn [psum]. unfold d. reflexivity.
Qed.
Theorem cf4_error n : U4 n / 2 <= Rabs (p n / q n - (PI + 3)) <= U4 n.
Proof.
  destruct n as [|n].
  - rewrite p0, q0. pose proof (alt_side U4 _ U4_dec U4_cv U4_lim 0) as A. pose proof (alt_side U4 _ U4_dec U4_cv U4_lim 1) as B.
    unfold asum, tg_alt in A, B. cbn [sum_f_R0 pow] in A, B. unfold U4 in *. cbn [INR] in *. replace (6 / 1) with 6 by field.
    assert (E : / ((0 + 1) * (0 + 2) * (2 * 0 + 3)) = 1 / 6) by field. assert (F : / ((1 + 1) * (1 + 2) * (2 * 1 + 3)) = 1 / 30) by field. rewrite E, ?F in *.
    rewrite Rabs_left1; lra.
  - rewrite cf4_value. replace (6 + asum U4 n - (PI + 3)) with (asum U4 n - (PI - 3)) by ring.
    split; [apply alt_half|apply alt_upper]; auto using U4_dec, U4_dec2, U4_cv, U4_lim.
Qed.
End CF4.

(** ---- 1 + 1/(4 - 2/(7 - 9/(10 - ...))) = 4/pi ---- *)
(** Euler's transformation of Leibniz' series *)
Fixpoint ET (n k : nat) : R := match n with O => / (2 * INR k + 1) | S m => ET m k * (2 * INR m + 2) / (2 * INR k + 2 * INR m + 3) end.
Lemma ET_shift n : forall k, ET n (S k) = ET n k * (2 * INR k + 1) / (2 * INR k + 2 * INR n + 3).
Proof.
  induction n as [|n IH]; intros k; cbn [ET].
  - rewrite S_INR. cbn [INR]. pose proof (pos_INR k). field. lra.
  - rewrite IH, !S_INR. pose proof (pos_INR k). pose proof (pos_INR n). field. lra.
Qed.
Lemma ET_pos n k : 0 < ET n k.
Proof.
  induction n as [|n IH]; cbn [ET]; pose proof (pos_INR k).
  - apply Rinv_0_lt_compat. lra.
  - pose proof (pos_INR n). apply Rdiv_lt_0_compat; [apply Rmult_lt_0_compat|]; lra.
Qed.
Lemma ET_diff n k : ET n k - ET n (S k) = ET (S n) k.
Proof. rewrite ET_shift. cbn [ET]. pose proof (pos_INR k). pose proof (pos_INR n). field. lra. Qed.
Lemma ET_dec n : Un_decreasing (ET n).
Proof. intros k. pose proof (ET_diff n k). pose proof (ET_pos (S n) k). lra. Qed.
Lemma ET_le n k : ET n k <= / (2 * INR k + 1).
Proof.
  induction n as [|n IH]; [cbn; lra|]. eapply Rle_trans; [|exact IH]. pose proof (ET_diff n k). pose proof (ET_pos n (S k)). lra.
Qed.
Lemma ET_cv n : Un_cv (ET n) 0.
Proof.
  apply inv_cv0. intros k. split; [apply Rlt_le, ET_pos|]. eapply Rle_trans; [apply ET_le|]. rewrite S_INR. pose proof (pos_INR k). apply Rinv_le_contravar; lra.
Qed.
Lemma ET_asum n K : asum (ET n) K = ET n 0 / 2 + asum (ET (S n)) K / 2 + (-1) ^ K * ET n (S K) / 2.
Proof.
  induction K as [|K IH].
  - unfold asum, tg_alt. cbn [sum_f_R0 pow]. rewrite <- (ET_diff n 0). field.
  - rewrite !asum_S, IH. rewrite <- (ET_diff n (S K)). cbn [pow]. field.
Qed.
(** k!/(1 * 3 * ... * (2k + 1)) *)
Definition t2 (k : nat) : R := INR (fact k) / odd_fact (S k).
Lemma ET_0 n : ET n 0 = 2 ^ n * t2 n.
Proof.
  unfold t2. induction n as [|n IH]; cbn [ET]; [cbn; field|]. rewrite IH, fact_R. cbn [odd_fact pow]. rewrite !S_INR. cbn [INR]. pose proof (pos_INR n). pose proof (odd_fact_pos n). field. lra.
Qed.
Fixpoint t2sum (n : nat) : R := match n with O => 0 | S k => t2sum k + t2 k end.
Lemma ET_lim n : Un_cv (asum (ET n)) (2 ^ n * (PI / 4 - t2sum n / 2)).
Proof.
  induction n as [|n IH].
  - cbn [t2sum pow]. replace (1 * (PI / 4 - 0 / 2)) with (PI / 4) by field. intros e He. destruct (PI_lim e He) as [N HN]. exists N. intros k Hk. specialize (HN k Hk).
    replace (asum (ET 0) k) with (asum PI_tg k); [exact HN|]. clear. induction k as [|k IH]; [unfold asum, tg_alt; cbn [sum_f_R0]; rewrite PI_tg_R; reflexivity|].
    rewrite !asum_S, IH, PI_tg_R. reflexivity.
  - intros e He. destruct (IH (e / 4)) as [N1 H1]; [lra|]. destruct (ET_cv n (e / 4)) as [N2 H2]; [lra|]. exists (max N1 N2). intros k Hk.
    specialize (H1 k ltac:(lia)). specialize (H2 (S k) ltac:(lia)). unfold R_dist in *. pose proof (ET_asum n k) as E. rewrite ET_0 in E.
    replace (asum (ET (S n)) k) with (2 * asum (ET n) k - 2 ^ n * t2 n - (-1) ^ k * ET n (S k)) by lra.
    replace (2 * asum (ET n) k - 2 ^ n * t2 n - (-1) ^ k * ET n (S k) - 2 ^ S n * (PI / 4 - t2sum (S n) / 2))
      with (2 * (asum (ET n) k - 2 ^ n * (PI / 4 - t2sum n / 2)) + - ((-1) ^ k * ET n (S k))) by (cbn [pow t2sum]; field).
    eapply Rle_lt_trans; [apply Rabs_triang|]. rewrite Rabs_mult, (Rabs_right 2), Rabs_Ropp, Rabs_mult by lra.
    replace (Rabs ((-1) ^ k)) with 1 by (destruct (m1_cases k) as [F|F]; rewrite F; [rewrite Rabs_right|rewrite Rabs_left]; lra).
    replace (ET n (S k)) with (ET n (S k) - 0) by ring. lra.
Qed.
Lemma t2sum_bounds n : 0 <= PI / 4 - t2sum n / 2 <= (/ 2) ^ n.
Proof.
  pose proof (alt_side _ _ (ET_dec n) (ET_cv n) (ET_lim n) 0) as A. pose proof (alt_side _ _ (ET_dec n) (ET_cv n) (ET_lim n) 1) as B.
  unfold asum, tg_alt in A, B. cbn [sum_f_R0 pow] in A, B. pose proof (ET_dec n 0%nat) as D. pose proof (ET_le n 0%nat) as L. cbn [INR] in L. replace (/ (2 * 0 + 1)) with 1 in L by field.
  pose proof (pow_lt 2 n ltac:(lra)) as P2. set (y := PI / 4 - t2sum n / 2) in *. rewrite pow_inv.
  split; [apply Rmult_le_reg_l with (2 ^ n); lra|]. apply Rmult_le_reg_l with (2 ^ n); [lra|]. rewrite Rinv_r by lra. lra.
Qed.
Definition r2 (n : nat) : R := INR n * INR n + 3 * INR n + 1.
Lemma r2_pos n : 1 <= r2 n.
Proof. unfold r2. pose proof (pos_INR n). nra. Qed.
Definition tau2 (k : nat) : R := INR (fact k) / (odd_fact k * r2 k * r2 (pred k)).
Lemma tau2_pos k : 0 < tau2 k.
Proof.
  unfold tau2. pose proof (fact_pos k). pose proof (odd_fact_pos k). pose proof (r2_pos k). pose proof (r2_pos (pred k)).
  apply Rdiv_lt_0_compat; [lra|]. apply Rmult_lt_0_compat; [apply Rmult_lt_0_compat|]; lra.
Qed.
Lemma tau2_half k : 2 * tau2 (S (S k)) <= tau2 (S k).
Proof.
  unfold tau2. cbn [pred]. pose proof (fact_pos (S k)) as F. pose proof (odd_fact_pos (S k)) as O. pose proof (r2_pos k) as R0. pose proof (r2_pos (S k)) as R1. pose proof (r2_pos (S (S k))) as R2.
  pose proof (pos_INR k) as N. rewrite (fact_R (S k)). change (odd_fact (S (S k))) with ((2 * INR (S k) + 1) * odd_fact (S k)). 
  assert (K : 2 * (INR (S k) + 1) * r2 k <= (2 * INR (S k) + 1) * r2 (S (S k))) by (unfold r2; rewrite !S_INR; nra).
  set (f := INR (fact (S k))) in *. set (o := odd_fact (S k)) in *. set (x := INR (S k)) in *. assert (0 <= x) by apply pos_INR.
  replace (2 * ((x + 1) * f / ((2 * x + 1) * o * r2 (S (S k)) * r2 (S k)))) with ((f / (o * r2 (S k) * r2 k)) * ((2 * (x + 1) * r2 k) / ((2 * x + 1) * r2 (S (S k))))) by (field; repeat split; lra).
  rewrite <- (Rmult_1_r (f / (o * r2 (S k) * r2 k))) at 2. apply Rmult_le_compat_l.
  - apply Rlt_le, Rdiv_lt_0_compat; [lra|]. apply Rmult_lt_0_compat; [apply Rmult_lt_0_compat|]; lra.
  - apply Rmult_le_reg_r with ((2 * x + 1) * r2 (S (S k))); [apply Rmult_lt_0_compat; lra|]. unfold Rdiv. rewrite Rmult_assoc, Rinv_l; [lra|]. apply Rgt_not_eq, Rmult_lt_0_compat; lra.
Qed.
Definition s2 (n : nat) : R := 1 + psum (fun k => - tau2 k) n.
Lemma s2_closed n : s2 n = t2sum (S n) / 2 + (INR n + 1) * (INR n + 1) / (2 * r2 n) * t2 n.
Proof.
  unfold s2. induction n as [|n IH].
  - cbn [t2sum psum]. unfold t2, r2. cbn. field.
  - cbn [psum]. rewrite <- Rplus_assoc, IH. cbn [t2sum]. unfold t2, tau2. cbn [pred]. rewrite !fact_R. cbn [odd_fact]. pose proof (odd_fact_pos n) as O. pose proof (fact_pos n) as F. pose proof (pos_INR n) as N.
    pose proof (r2_pos n) as R0. pose proof (r2_pos (S n)) as R1. rewrite !S_INR in *. unfold r2 in *. rewrite !S_INR in *. field. repeat split; nra.
Qed.
Lemma t2_small n : 0 < t2 n <= / INR (S n).
Proof.
  pose proof (ET_0 n) as E. pose proof (ET_pos n 0%nat) as P. pose proof (ET_le n 0%nat) as L. cbn [INR] in L. replace (/ (2 * 0 + 1)) with 1 in L by field.
  assert (0 < t2 n) by (unfold t2; apply Rdiv_lt_0_compat; [apply fact_pos|apply odd_fact_pos]). split; [assumption|].
  rewrite E in L. assert (G : INR (S n) <= 2 ^ n).
  { clear. induction n as [|n IH]; [cbn; lra|]. rewrite S_INR. cbn [pow]. pose proof (pos_INR n). rewrite S_INR in *. lra. }
  assert (0 < INR (S n)) by (apply lt_0_INR; lia). apply Rmult_le_reg_l with (INR (S n)); [assumption|]. rewrite Rinv_r by lra. nra.
Qed.
Lemma t2_cv : Un_cv t2 0.
Proof. apply inv_cv0. intros n. destruct (t2_small n). lra. Qed.
Lemma half_cv : Un_cv (fun n => (/ 2) ^ n) 0.
Proof.
  apply inv_cv0. intros n. split; [apply pow_le; lra|]. rewrite pow_inv. apply Rinv_le_contravar; [apply lt_0_INR; lia|].
  induction n as [|n IH]; [cbn; lra|]. rewrite S_INR. cbn [pow]. pose proof (pos_INR n). rewrite S_INR in *. lra.
Qed.
Lemma s2_lim : Un_cv s2 (PI / 4).
Proof.
  intros e He. destruct (half_cv (e / 2)) as [N1 H1]; [lra|]. destruct (t2_cv (e / 2)) as [N2 H2]; [lra|]. exists (max N1 N2). intros n Hn.
  specialize (H1 (S n) ltac:(lia)). specialize (H2 n ltac:(lia)). unfold R_dist in *. rewrite Rminus_0_r in H1, H2. rewrite s2_closed.
  pose proof (t2sum_bounds (S n)) as [B1 B2]. pose proof (t2_small n) as [T1 _]. rewrite Rabs_right in H1 by (apply Rle_ge, pow_le; lra). rewrite Rabs_right in H2 by lra.
  assert (W : 0 <= (INR n + 1) * (INR n + 1) / (2 * r2 n) <= 1).
  { pose proof (pos_INR n). pose proof (r2_pos n) as R1. split; [apply Rmult_le_pos; [nra|apply Rlt_le, Rinv_0_lt_compat; lra]|].
    apply Rmult_le_reg_r with (2 * r2 n); [lra|]. unfold Rdiv. rewrite Rmult_assoc, Rinv_l by lra. unfold r2. nra. }
  set (w := (INR n + 1) * (INR n + 1) / (2 * r2 n)) in *. assert (0 <= w * t2 n <= t2 n) by nra. apply Rabs_def1; lra.
Qed.
Lemma s2_step n : s2 (S n) = s2 n - tau2 (S n).
Proof. unfold s2. cbn [psum]. ring. Qed.
Lemma s2_err n : tau2 (S n) <= s2 n - PI / 4 <= 2 * tau2 (S n).
Proof.
  split.
  - assert (D : Un_decreasing s2) by (intros k; rewrite s2_step; pose proof (tau2_pos (S k)); lra).
    pose proof (decreasing_ineq s2 _ D s2_lim (S n)) as H. rewrite s2_step in H. lra.
  - set (w := fun k => s2 k - 2 * tau2 (S k)).
    assert (G : Un_growing w) by (intros k; unfold w; rewrite s2_step; pose proof (tau2_half k); lra).
    assert (C : Un_cv w (PI / 4)).
    { assert (T : Un_cv (fun k => s2 k - s2 (S k)) (PI / 4 - PI / 4)) by (apply CV_minus; [apply s2_lim|]; intros e He; destruct (s2_lim e He) as [N HN]; exists N; intros k Hk; apply HN; lia).
      pose proof (CV_minus _ _ _ _ s2_lim (CV_plus _ _ _ _ T T)) as V. intros e He. destruct (V e He) as [N HN]. exists N. intros k Hk. specialize (HN k Hk). unfold R_dist, w in *.
      rewrite s2_step in HN. replace (s2 k - 2 * tau2 (S k) - PI / 4) with (s2 k - (s2 k - (s2 k - tau2 (S k)) + (s2 k - (s2 k - tau2 (S k)))) - (PI / 4 - (PI / 4 - PI / 4 + (PI / 4 - PI / 4)))) by ring. exact HN. }
    pose proof (growing_ineq w _ G C n) as H. unfold w in H. lra.
Qed.
Lemma fact_odd_sq k : let g := INR (fact (S k)) / odd_fact (S k) * 2 ^ S k in (2 * INR (S k) + 1) <= g * g <= 4 * INR (S k).
Proof.
  cbn zeta. induction k as [|k [I1 I2]]; [cbn; lra|]. rewrite (fact_R (S k)). change (odd_fact (S (S k))) with ((2 * INR (S k) + 1) * odd_fact (S k)). change (2 ^ S (S k)) with (2 * 2 ^ S k).
  pose proof (odd_fact_pos (S k)) as O. assert (X : 1 <= INR (S k)) by (change 1 with (INR 1); apply le_INR; lia).
  rewrite (S_INR (S k)). set (x := INR (S k)) in *. set (f := INR (fact (S k))) in *. set (o := odd_fact (S k)) in *. set (h := 2 ^ S k) in *.
  replace ((x + 1) * f / ((2 * x + 1) * o) * (2 * h)) with ((2 * x + 2) / (2 * x + 1) * (f / o * h)) by (field; lra). set (g := f / o * h) in *.
  replace ((2 * x + 2) / (2 * x + 1) * g * ((2 * x + 2) / (2 * x + 1) * g)) with (((2 * x + 2) * (2 * x + 2) / ((2 * x + 1) * (2 * x + 1))) * (g * g)) by (field; lra).
  set (c := (2 * x + 2) * (2 * x + 2) / ((2 * x + 1) * (2 * x + 1))) in *. assert (Y : 0 < (2 * x + 1) * (2 * x + 1)) by nra.
  assert (C0 : 0 < c) by (apply Rdiv_lt_0_compat; nra).
  assert (C1 : 2 * (x + 1) + 1 <= c * (2 * x + 1)).
  { replace (c * (2 * x + 1)) with ((2 * x + 2) * (2 * x + 2) / (2 * x + 1)) by (unfold c; field; lra). apply Rmult_le_reg_r with (2 * x + 1); [lra|]. unfold Rdiv. rewrite Rmult_assoc, Rinv_l by lra. nra. }
  assert (C2 : c * (4 * x) <= 4 * (x + 1)).
  { apply Rmult_le_reg_r with ((2 * x + 1) * (2 * x + 1)); [lra|]. replace (c * (4 * x) * ((2 * x + 1) * (2 * x + 1))) with ((2 * x + 2) * (2 * x + 2) * (4 * x)) by (unfold c; field; lra). nra. }
  split; [apply Rle_trans with (c * (2 * x + 1)); [lra|]; apply Rmult_le_compat_l; lra|]. apply Rle_trans with (c * (4 * x)); [apply Rmult_le_compat_l; lra|lra].
Qed.
Lemma fact_odd k : sqrt (2 * INR k + 3) * (/ 2) ^ S k <= INR (fact (S k)) / odd_fact (S k) <= 2 * sqrt (INR k + 1) * (/ 2) ^ S k.
Proof.
  pose proof (fact_odd_sq k) as [A B]. cbn zeta in A, B. rewrite S_INR in A, B. pose proof (pow_lt 2 (S k) ltac:(lra)) as P. pose proof (pos_INR k) as N.
  set (w := INR (fact (S k)) / odd_fact (S k)) in *. assert (W : 0 < w) by (apply Rdiv_lt_0_compat; [apply fact_pos|apply odd_fact_pos]). rewrite pow_inv. set (h := 2 ^ S k) in *.
  assert (G : 0 <= w * h) by nra. assert (E : w = w * h * / h) by (field; lra). assert (H : 0 < / h) by (apply Rinv_0_lt_compat; lra).
  split; [rewrite E|rewrite E at 1]; apply Rmult_le_compat_r; try lra.
  - rewrite <- (sqrt_square (w * h) G). apply sqrt_le_1_alt. lra.
  - rewrite <- (sqrt_square (w * h) G). replace 2 with (sqrt (2 * 2)) by (apply sqrt_square; lra). rewrite <- sqrt_mult by lra. apply sqrt_le_1_alt. lra.
Qed.
Section CF2.
Variable p q : nat -> R.
Hypothesis p0 : p 0%nat = 1.
Hypothesis p1 : p 1%nat = 5.
Hypothesis q0 : q 0%nat = 1.
Hypothesis q1 : q 1%nat = 4.
Hypothesis pS : forall n, p (S (S n)) = (1 + 3 * INR (S (S n))) * p (S n) + INR (S (S n)) * (3 - 2 * INR (S (S n))) * p n.
Hypothesis qS : forall n, q (S (S n)) = (1 + 3 * INR (S (S n))) * q (S n) + INR (S (S n)) * (3 - 2 * INR (S (S n))) * q n.
Lemma cf2_p n : p n = odd_fact n * r2 n.
Proof.
  revert n. apply two_step; [rewrite p0; unfold r2; cbn; ring|rewrite p1; unfold r2; cbn; ring|]. intros n I1 I2. rewrite pS, I1, I2. unfold r2. cbn [odd_fact]. rewrite !S_INR. ring.
Qed.
Lemma cf2_q n : q n = s2 n * p n.
Proof.
  unfold s2. apply (ratio_sum (fun n => 1 + 3 * INR n) (fun n => INR n * (3 - 2 * INR n))); auto.
  - clear n. intros n. rewrite !cf2_p. unfold tau2. cbn [pred]. rewrite (fact_R (S n)). cbn [odd_fact]. pose proof (odd_fact_pos n) as O. pose proof (fact_pos (S n)) as F. pose proof (pos_INR n) as N.
    pose proof (r2_pos n) as R0. pose proof (r2_pos (S n)) as R1. pose proof (r2_pos (S (S n))) as R2. rewrite !S_INR in *. field. repeat split; lra.
  - rewrite q0, p0. ring.
  - rewrite q1, p1. unfold tau2, r2. cbn. field.
Qed.
Lemma cf2_p_pos n : 0 < p n.
Proof. rewrite cf2_p. pose proof (odd_fact_pos n). pose proof (r2_pos n). apply Rmult_lt_0_compat; lra. Qed.
Lemma s2_bounds n : 3 / 4 <= s2 n <= 1.
Proof.
  pose proof (s2_err n) as [A _]. pose proof (tau2_pos (S n)). pose proof PI2_3_2 as P3. split; [lra|].
  induction n as [|n IH]; [unfold s2; cbn; lra|]. rewrite s2_step. pose proof (s2_err n) as [A' _]. specialize (IH A' (tau2_pos _)). pose proof (tau2_pos (S n)). lra.
Qed.
Lemma cf2_q_pos n : 0 < q n.
Proof. rewrite cf2_q. pose proof (cf2_p_pos n). pose proof (s2_bounds n). nra. Qed.
Theorem cf2_error n : sqrt (2 * INR n + 3) * (/ 2) ^ S n / (r2 (S n) * r2 n) <= 4 / PI - p n / q n <= 8 * sqrt (INR n + 1) * (/ 2) ^ S n / (r2 (S n) * r2 n).
Proof.
  pose proof (s2_bounds n) as B. pose proof (s2_err n) as [E1 E2]. pose proof PI2_3_2 as P3. assert (P4 : PI <= 4) by apply PI_4. pose proof (cf2_p_pos n) as PP.
  rewrite (cf2_q n). replace (p n / (s2 n * p n)) with (/ s2 n) by (field; lra). replace (4 / PI) with (/ (PI / 4)) by (field; lra).
  replace (/ (PI / 4) - / s2 n) with ((s2 n - PI / 4) * (/ (PI / 4) * / s2 n)) by (field; lra).
  assert (S1 : 1 <= / s2 n <= 4 / 3) by (split; [replace 1 with (/ 1) by field|replace (4 / 3) with (/ (3 / 4)) by field]; apply Rinv_le_contravar; lra).
  assert (S2 : 1 <= / (PI / 4) <= 4 / 3) by (split; [replace 1 with (/ 1) by field|replace (4 / 3) with (/ (3 / 4)) by field]; apply Rinv_le_contravar; lra).
  assert (M : 1 <= / (PI / 4) * / s2 n <= 2) by nra. pose proof (tau2_pos (S n)) as TP. pose proof (fact_odd n) as [F1 F2]. pose proof (r2_pos n) as R0. pose proof (r2_pos (S n)) as R1.
  pose proof (odd_fact_pos (S n)) as O.
  assert (ET2 : tau2 (S n) = INR (fact (S n)) / odd_fact (S n) * / (r2 (S n) * r2 n)) by (unfold tau2; cbn [pred]; field; lra).
  assert (RI : 0 < / (r2 (S n) * r2 n)) by (apply Rinv_0_lt_compat, Rmult_lt_0_compat; lra). split.
  - apply Rle_trans with (tau2 (S n)); [rewrite ET2; unfold Rdiv at 1; apply Rmult_le_compat_r; lra|]. nra.
  - apply Rle_trans with (4 * tau2 (S n)); [nra|]. rewrite ET2. unfold Rdiv at 2. set (ri := / (r2 (S n) * r2 n)) in *. rewrite <- Rmult_assoc. apply Rmult_le_compat_r; lra.
Qed.
End CF2.

(** ---- 1 + 1/(3 + 4/(5 + 9/(7 + ...))) = 4/pi ---- *)
(** numerators and denominators of the fraction of the arctangent, as functions of x, and their derivatives *)
Fixpoint fB (n : nat) (x : R) : R * R :=
  match n with O => (1, 1) | S k => let '(u, v) := fB k x in (v, (2 * INR k + 3) * v + (INR k + 1) * (INR k + 1) * (x * x) * u) end.
Fixpoint fA (n : nat) (x : R) : R * R :=
  match n with O => (0, x) | S k => let '(u, v) := fA k x in (v, (2 * INR k + 3) * v + (INR k + 1) * (INR k + 1) * (x * x) * u) end.
Definition bB n x := fst (fB n x).
Definition aA n x := fst (fA n x).
Lemma bB_S n x : bB (S (S n)) x = (2 * INR n + 3) * bB (S n) x + (INR n + 1) * (INR n + 1) * (x * x) * bB n x.
Proof. unfold bB. cbn [fB]. destruct (fB n x) as [u v]. reflexivity. Qed.
Lemma aA_S n x : aA (S (S n)) x = (2 * INR n + 3) * aA (S n) x + (INR n + 1) * (INR n + 1) * (x * x) * aA n x.
Proof. unfold aA. cbn [fA]. destruct (fA n x) as [u v]. reflexivity. Qed.
Fixpoint dfB (n : nat) (x : R) : R * R :=
  match n with O => (0, 0) | S k => let '(u, v) := dfB k x in (v, (2 * INR k + 3) * v + (INR k + 1) * (INR k + 1) * (2 * x * bB k x + x * x * u)) end.
Fixpoint dfA (n : nat) (x : R) : R * R :=
  match n with O => (0, 1) | S k => let '(u, v) := dfA k x in (v, (2 * INR k + 3) * v + (INR k + 1) * (INR k + 1) * (2 * x * aA k x + x * x * u)) end.
Definition dB n x := fst (dfB n x).
Definition dA n x := fst (dfA n x).
Lemma dB_S n x : dB (S (S n)) x = (2 * INR n + 3) * dB (S n) x + (INR n + 1) * (INR n + 1) * (2 * x * bB n x + x * x * dB n x).
Proof. unfold dB. cbn [dfB]. destruct (dfB n x) as [u v]. reflexivity. Qed.
Lemma dA_S n x : dA (S (S n)) x = (2 * INR n + 3) * dA (S n) x + (INR n + 1) * (INR n + 1) * (2 * x * aA n x + x * x * dA n x).
Proof. unfold dA. cbn [dfA]. destruct (dfA n x) as [u v]. reflexivity. Qed.
Lemma dlim_ext f g x l : (forall y, f y = g y) -> derivable_pt_lim f x l -> derivable_pt_lim g x l.
Proof. intros E D e He. destruct (D e He) as [d Hd]. exists d. intros h H1 H2. rewrite <- !E. apply Hd; assumption. Qed.
Lemma dlim_step (f g : R -> R) (a b x df dg : R) : derivable_pt_lim f x df -> derivable_pt_lim g x dg ->
  derivable_pt_lim (fun y => a * g y + b * (y * y) * f y) x (a * dg + b * (2 * x * f x + x * x * df)).
Proof.
  intros Hf Hg. assert (H2 : derivable_pt_lim (fun y => b * (y * y)) x (b * (2 * x))).
  { apply (derivable_pt_lim_scal (fun y => y * y) b x (2 * x)). apply (dlim_ext (id * id)%F); [reflexivity|].
    replace (2 * x) with (1 * id x + id x * 1) by (unfold id; ring). apply derivable_pt_lim_mult; apply derivable_pt_lim_id. }
  pose proof (derivable_pt_lim_mult _ _ _ _ _ H2 Hf) as H3. pose proof (derivable_pt_lim_scal g a x dg Hg) as H4.
  pose proof (derivable_pt_lim_plus _ _ _ _ _ H4 H3) as H5. cbn beta in H5.
  replace (a * dg + b * (2 * x * f x + x * x * df)) with (a * dg + (b * (2 * x) * f x + b * (x * x) * df)) by ring. exact H5.
Qed.
Lemma bB_deriv n x : derivable_pt_lim (bB n) x (dB n x).
Proof.
  revert n. apply two_step.
  - apply (dlim_ext (fct_cte 1)); [reflexivity|]. apply derivable_pt_lim_const.
  - apply (dlim_ext (fct_cte 1)); [reflexivity|]. apply derivable_pt_lim_const.
  - intros n I1 I2. rewrite dB_S. apply (dlim_ext (fun y => (2 * INR n + 3) * bB (S n) y + (INR n + 1) * (INR n + 1) * (y * y) * bB n y)); [intros y; symmetry; apply bB_S|].
    apply dlim_step; assumption.
Qed.
Lemma aA_deriv n x : derivable_pt_lim (aA n) x (dA n x).
Proof.
  revert n. apply two_step.
  - apply (dlim_ext (fct_cte 0)); [reflexivity|]. apply derivable_pt_lim_const.
  - apply (dlim_ext id); [reflexivity|]. apply derivable_pt_lim_id.
  - intros n I1 I2. rewrite dA_S. apply (dlim_ext (fun y => (2 * INR n + 3) * aA (S n) y + (INR n + 1) * (INR n + 1) * (y * y) * aA n y)); [intros y; symmetry; apply aA_S|].
    apply dlim_step; assumption.
Qed.
Lemma dB_id x n : (1 + x * x) * dB (S n) x = (INR n + 1) * x * (bB (S n) x - (INR n + 1) * bB n x).
Proof.
  revert n. apply two_step.
  - unfold dB, bB. cbn. ring.
  - rewrite dB_S, bB_S. unfold dB, bB. cbn. ring.
  - intros n I1 I2. rewrite (dB_S (S n)), (bB_S (S n)).
    replace ((1 + x * x) * ((2 * INR (S n) + 3) * dB (S (S n)) x + (INR (S n) + 1) * (INR (S n) + 1) * (2 * x * bB (S n) x + x * x * dB (S n) x)))
      with ((2 * INR (S n) + 3) * ((1 + x * x) * dB (S (S n)) x) + (INR (S n) + 1) * (INR (S n) + 1) * (2 * x * (1 + x * x) * bB (S n) x + x * x * ((1 + x * x) * dB (S n) x))) by ring.
    rewrite I1, I2, (bB_S n), !S_INR. ring.
Qed.
Lemma dA_id x n : (1 + x * x) * dA (S n) x = (INR n + 1) * x * (aA (S n) x - (INR n + 1) * aA n x) + bB (S n) x.
Proof.
  revert n. apply two_step.
  - unfold dA, aA, bB. cbn. ring.
  - rewrite dA_S, aA_S. unfold dA, aA, bB. cbn. ring.
  - intros n I1 I2. rewrite (dA_S (S n)), (aA_S (S n)), (bB_S (S n)).
    replace ((1 + x * x) * ((2 * INR (S n) + 3) * dA (S (S n)) x + (INR (S n) + 1) * (INR (S n) + 1) * (2 * x * aA (S n) x + x * x * dA (S n) x)))
      with ((2 * INR (S n) + 3) * ((1 + x * x) * dA (S (S n)) x) + (INR (S n) + 1) * (INR (S n) + 1) * (2 * x * (1 + x * x) * aA (S n) x + x * x * ((1 + x * x) * dA (S n) x))) by ring.
    rewrite I1, I2, (aA_S n), (bB_S n), !S_INR. ring.
Qed.
Lemma AB_det x n : aA (S n) x * bB n x - aA n x * bB (S n) x = (-1) ^ n * (INR (fact n) * INR (fact n)) * (x * (x * x) ^ n).
Proof.
  induction n as [|n IH]; [unfold aA, bB; cbn; ring|]. rewrite aA_S, bB_S, fact_R. cbn [pow].
  transitivity (- (INR n + 1) * (INR n + 1) * (x * x) * (aA (S n) x * bB n x - aA n x * bB (S n) x)); [ring|]. rewrite IH. ring.
Qed.
Lemma bB_pos x n : 0 < bB n x.
Proof.
  revert n. apply two_step; [unfold bB; cbn; lra|unfold bB; cbn; lra|]. intros n I1 I2. rewrite bB_S. pose proof (pos_INR n).
  apply Rplus_lt_le_0_compat; [apply Rmult_lt_0_compat; lra|]. apply Rmult_le_pos; [|lra]. apply Rmult_le_pos; [apply Rmult_le_pos; lra|apply Rle_0_sqr].
Qed.
Lemma atan_side n : 0 <= (-1) ^ n * (aA (S n) 1 / bB (S n) 1 - PI / 4).
Proof.
  set (f := fun y => aA (S n) y / bB (S n) y - atan y).
  set (f' := fun y => (-1) ^ n * ((INR (fact (S n)) * INR (fact (S n))) * (y * y) ^ S n / ((1 + y * y) * (bB (S n) y * bB (S n) y)))).
  assert (D : forall y, 0 <= y <= 1 -> derivable_pt_lim f y (f' y)).
  { intros y _. pose proof (bB_pos y (S n)) as BP.
    pose proof (derivable_pt_lim_div _ _ y _ _ (aA_deriv (S n) y) (bB_deriv (S n) y) (Rgt_not_eq _ _ BP)) as H1.
    pose proof (derivable_pt_lim_minus _ _ _ _ _ H1 (derivable_pt_lim_atan y)) as H2. cbn beta in H2.
    match type of H2 with derivable_pt_lim _ _ ?d => replace (f' y) with d; [exact H2|] end. unfold f'.
    assert (Y : 1 + y * y <> 0) by (pose proof (Rle_0_sqr y) as Q; unfold Rsqr in Q; lra).
    assert (E1 : dA (S n) y = ((INR n + 1) * y * (aA (S n) y - (INR n + 1) * aA n y) + bB (S n) y) / (1 + y * y)) by (rewrite <- dA_id; field; exact Y).
    assert (E2 : dB (S n) y = ((INR n + 1) * y * (bB (S n) y - (INR n + 1) * bB n y)) / (1 + y * y)) by (rewrite <- dB_id; field; exact Y).
    rewrite E1, E2. pose proof (AB_det y n) as DT. rewrite fact_R. cbn [pow].
    replace ((-1) ^ n * ((INR n + 1) * INR (fact n) * ((INR n + 1) * INR (fact n)) * (y * y * (y * y) ^ n) / ((1 + y * y) * (bB (S n) y * bB (S n) y))))
      with ((INR n + 1) * (INR n + 1) * y * ((-1) ^ n * (INR (fact n) * INR (fact n)) * (y * (y * y) ^ n)) / ((1 + y * y) * (bB (S n) y * bB (S n) y))) by (field; split; [lra|exact Y]).
    rewrite <- DT. unfold Rsqr. field. split; [lra|exact Y]. }
  destruct (MVT_cor2 f f' 0 1 ltac:(lra) D) as (c & E & Hc). unfold f in E. rewrite atan_0, atan_1 in E.
  replace (aA (S n) 0 / bB (S n) 0 - 0) with 0 in E.
  2:{ replace (aA (S n) 0) with 0; [field; apply Rgt_not_eq, bB_pos|]. clear. revert n. apply two_step; [reflexivity|rewrite aA_S; unfold aA; cbn; ring|]. intros n I1 I2. rewrite aA_S, <- I2. ring. }
  replace (aA (S n) 1 / bB (S n) 1 - PI / 4) with (f' c) by lra. unfold f'. rewrite <- Rmult_assoc.
  replace ((-1) ^ n * (-1) ^ n) with 1 by (destruct (m1_cases n) as [F|F]; rewrite F; ring). rewrite Rmult_1_l.
  pose proof (bB_pos c (S n)) as BP. pose proof (fact_pos (S n)) as FP. apply Rmult_le_pos; [apply Rmult_le_pos; [nra|apply pow_le; nra]|]. apply Rlt_le, Rinv_0_lt_compat. nra.
Qed.
Definition b3 (n : nat) : R := bB (S n) 1.
Definition s3 (n : nat) : R := aA (S n) 1 / bB (S n) 1.
Lemma b3_pos n : 0 < b3 n.
Proof. apply bB_pos. Qed.
Lemma b3_S n : b3 (S (S n)) = (2 * INR n + 5) * b3 (S n) + (INR n + 2) * (INR n + 2) * b3 n.
Proof. unfold b3. rewrite bB_S, S_INR. ring. Qed.
Lemma s3_step n : s3 (S n) - s3 n = - (-1) ^ n * (INR (fact (S n)) * INR (fact (S n))) / (b3 n * b3 (S n)).
Proof.
  unfold s3. pose proof (AB_det 1 (S n)) as D. cbn [pow] in D. rewrite !Rmult_1_r, pow1, !Rmult_1_r in D. fold (b3 n) (b3 (S n)) in *. pose proof (b3_pos n). pose proof (b3_pos (S n)).
  replace (- (-1) ^ n * (INR (fact (S n)) * INR (fact (S n)))) with (aA (S (S n)) 1 * b3 n - aA (S n) 1 * b3 (S n)) by (rewrite D; ring). field. lra.
Qed.
Lemma s3_upper n : Rabs (s3 n - PI / 4) <= INR (fact (S n)) * INR (fact (S n)) / (b3 n * b3 (S n)).
Proof.
  pose proof (atan_side n) as A. pose proof (atan_side (S n)) as B. fold (s3 n) in A. fold (s3 (S n)) in B. pose proof (s3_step n) as E. cbn [pow] in B.
  unfold Rdiv in E. rewrite <- Ropp_mult_distr_l, <- Ropp_mult_distr_l, Rmult_assoc in E. fold (INR (fact (S n)) * INR (fact (S n)) / (b3 n * b3 (S n))) in E. set (w := INR (fact (S n)) * INR (fact (S n)) / (b3 n * b3 (S n))) in *.
  destruct (m1_cases n) as [F|F]; rewrite F in *; [rewrite Rabs_right by lra|rewrite Rabs_left1 by lra]; lra.
Qed.
Lemma s3_lower n : (2 * INR n + 5) * (INR (fact (S n)) * INR (fact (S n))) / (b3 n * b3 (S (S n))) <= Rabs (s3 n - PI / 4).
Proof.
  pose proof (atan_side n) as A. pose proof (atan_side (S (S n))) as B. fold (s3 n) in A. fold (s3 (S (S n))) in B. cbn [pow] in B.
  assert (E : s3 n - s3 (S (S n)) = (-1) ^ n * ((2 * INR n + 5) * (INR (fact (S n)) * INR (fact (S n))) / (b3 n * b3 (S (S n))))).
  { pose proof (s3_step n) as E1. pose proof (s3_step (S n)) as E2. rewrite (fact_R (S n)), (S_INR n) in E2. cbn [pow] in E2.
    pose proof (b3_pos n). pose proof (b3_pos (S n)). pose proof (b3_pos (S (S n))) as P2. pose proof (b3_S n) as R.
    assert (R' : (2 * INR n + 5) * b3 (S n) = b3 (S (S n)) - (INR n + 2) * (INR n + 2) * b3 n) by lra.
    replace ((2 * INR n + 5) * (INR (fact (S n)) * INR (fact (S n))) / (b3 n * b3 (S (S n))))
      with ((2 * INR n + 5) * b3 (S n) * (INR (fact (S n)) * INR (fact (S n))) / (b3 n * b3 (S n) * b3 (S (S n)))) by (field; lra).
    rewrite R'. replace (s3 n - s3 (S (S n))) with (- (s3 (S (S n)) - s3 (S n)) - (s3 (S n) - s3 n)) by ring. rewrite E1, E2. field. lra. }
  set (w := (2 * INR n + 5) * (INR (fact (S n)) * INR (fact (S n))) / (b3 n * b3 (S (S n)))) in *.
  destruct (m1_cases n) as [F|F]; rewrite F in *; [rewrite Rabs_right by lra|rewrite Rabs_left1 by lra]; lra.
Qed.
Lemma b3_bounds n : 2 ^ n * INR (fact (S n)) <= b3 n <= (5 / 2) ^ n * INR (fact (S n)).
Proof.
  revert n. apply two_step; [unfold b3, bB; cbn; lra|unfold b3, bB; cbn; lra|]. intros n [I1 I2] [I3 I4]. rewrite b3_S. rewrite (fact_R (S (S n))), (fact_R (S n)), !S_INR in *. cbn [pow] in *.
  pose proof (fact_pos (S n)) as F. pose proof (pos_INR n) as N. set (f := INR (fact (S n))) in *. set (x := INR n) in *.
  split.
  - pose proof (pow_lt 2 n ltac:(lra)) as P. set (w := 2 ^ n) in *.
    apply Rle_trans with ((2 * x + 5) * (2 * w * ((x + 1 + 1) * f)) + (x + 2) * (x + 2) * (w * f)).
    + replace ((2 * x + 5) * (2 * w * ((x + 1 + 1) * f)) + (x + 2) * (x + 2) * (w * f)) with (w * f * (x + 2) * (5 * x + 12)) by ring.
      replace (2 * (2 * w) * ((x + 1 + 1 + 1) * ((x + 1 + 1) * f))) with (w * f * (x + 2) * (4 * x + 12)) by ring.
      apply Rmult_le_compat_l; [repeat apply Rmult_le_pos; lra|lra].
    + apply Rplus_le_compat; apply Rmult_le_compat_l; try lra. nra.
  - pose proof (pow_lt (5 / 2) n ltac:(lra)) as P. set (w := (5 / 2) ^ n) in *.
    apply Rle_trans with ((2 * x + 5) * (5 / 2 * w * ((x + 1 + 1) * f)) + (x + 2) * (x + 2) * (w * f)).
    + apply Rplus_le_compat; apply Rmult_le_compat_l; try lra. nra.
    + replace ((2 * x + 5) * (5 / 2 * w * ((x + 1 + 1) * f)) + (x + 2) * (x + 2) * (w * f)) with (w * f * (x + 2) * (6 * x + 29 / 2)) by field.
      replace (5 / 2 * (5 / 2 * w) * ((x + 1 + 1 + 1) * ((x + 1 + 1) * f))) with (w * f * (x + 2) * (25 / 4 * x + 75 / 4)) by field.
      apply Rmult_le_compat_l; [repeat apply Rmult_le_pos; lra|lra].
Qed.
Section CF3.
Variable p q : nat -> R.
Hypothesis p0 : p 0%nat = 1.
Hypothesis p1 : p 1%nat = 4.
Hypothesis q0 : q 0%nat = 1.
Hypothesis q1 : q 1%nat = 3.
Hypothesis pS : forall n, p (S (S n)) = (1 + 2 * INR (S (S n))) * p (S n) + INR (S (S n)) * INR (S (S n)) * p n.
Hypothesis qS : forall n, q (S (S n)) = (1 + 2 * INR (S (S n))) * q (S n) + INR (S (S n)) * INR (S (S n)) * q n.
Lemma cf3_p n : p n = b3 n.
Proof.
  revert n. apply two_step; [rewrite p0; unfold b3, bB; cbn; ring|rewrite p1; unfold b3, bB; cbn; ring|]. intros n I1 I2. rewrite pS, I1, I2, b3_S, !S_INR. ring.
Qed.
Lemma cf3_q n : q n = aA (S n) 1.
Proof.
  revert n. apply two_step; [rewrite q0; unfold aA; cbn; ring|rewrite q1; unfold aA; cbn; ring|]. intros n I1 I2. rewrite qS, I1, I2, (aA_S (S n)), !S_INR. ring.
Qed.
Lemma cf3_q_pos n : 0 < q n.
Proof.
  revert n. apply two_step; [rewrite q0; lra|rewrite q1; lra|]. intros n I1 I2. rewrite qS. pose proof (pos_INR (S (S n))). nra.
Qed.
Lemma s3_err n : (2 * INR n + 5) / ((INR n + 2) * (INR n + 3)) * (4 / 25) ^ S n <= Rabs (s3 n - PI / 4) <= (/ 4) ^ n / (2 * (INR n + 2)).
Proof.
  pose proof (b3_bounds n) as [L0 U0]. pose proof (b3_bounds (S n)) as [L1 _]. pose proof (b3_bounds (S (S n))) as [_ U2].
  pose proof (s3_upper n) as HU. pose proof (s3_lower n) as HL. pose proof (b3_pos n) as P0. pose proof (b3_pos (S n)) as P1. pose proof (b3_pos (S (S n))) as P2.
  rewrite (fact_R (S (S n))), (fact_R (S n)), !S_INR in *. pose proof (fact_pos (S n)) as F. pose proof (pos_INR n) as N. set (f := INR (fact (S n))) in *. set (x := INR n) in *.
  split.
  - eapply Rle_trans; [|exact HL]. pose proof (pow_lt (5 / 2) n ltac:(lra)) as P. cbn [pow] in U2.
    apply Rle_trans with ((2 * x + 5) * (f * f) / ((5 / 2) ^ n * f * (5 / 2 * (5 / 2 * (5 / 2) ^ n) * ((x + 1 + 1 + 1) * ((x + 1 + 1) * f))))).
    + apply Req_le. replace ((4 / 25) ^ S n) with (4 / 25 * (/ ((5 / 2) ^ n * (5 / 2) ^ n))).
      * field. repeat split; lra.
      * cbn [pow]. f_equal. rewrite <- Rpow_mult_distr, <- pow_inv. f_equal. field.
    + unfold Rdiv at 1 4. apply Rmult_le_compat_l; [apply Rmult_le_pos; nra|]. apply Rinv_le_contravar; [apply Rmult_lt_0_compat; lra|]. apply Rmult_le_compat; lra.
  - eapply Rle_trans; [exact HU|]. pose proof (pow_lt 2 n ltac:(lra)) as P. cbn [pow] in L1.
    apply Rle_trans with (f * f / (2 ^ n * f * (2 * 2 ^ n * ((x + 1 + 1) * f)))).
    + unfold Rdiv. apply Rmult_le_compat_l; [nra|]. assert (W1 : 0 < 2 ^ n * f) by nra. assert (W2 : 0 < 2 * 2 ^ n * ((x + 1 + 1) * f)) by (apply Rmult_lt_0_compat; nra).
      apply Rinv_le_contravar; [apply Rmult_lt_0_compat; assumption|]. apply Rmult_le_compat; lra.
    + apply Req_le. replace ((/ 4) ^ n) with (/ (2 ^ n * 2 ^ n)).
      * field. repeat split; lra.
      * rewrite <- Rpow_mult_distr, <- pow_inv. f_equal.
Qed.
Theorem cf3_error n : (2 * INR n + 5) / ((INR n + 2) * (INR n + 3)) * (4 / 25) ^ S n <= Rabs (p n / q n - 4 / PI) <= (/ 4) ^ n / (INR n + 2).
Proof.
  pose proof (s3_err n) as [E1 E2]. pose proof PI2_3_2 as P3. assert (P4 : PI <= 4) by apply PI_4. pose proof (pos_INR n) as N.
  assert (B : 7 / 10 <= s3 n <= 1).
  { destruct n as [|n]; [unfold s3, aA, bB; cbn; lra|]. assert (W : Rabs (s3 (S n) - PI / 4) <= 1 / 24).
    - eapply Rle_trans; [exact E2|]. rewrite S_INR in *. pose proof (pos_INR n). cbn [pow]. assert (Q : 0 < (/ 4) ^ n <= 1).
      { split; [apply pow_lt; lra|]. rewrite <- (pow1 n). apply pow_incr. lra. }
      apply Rmult_le_reg_r with (2 * (INR n + 1 + 2)); [lra|]. unfold Rdiv. rewrite Rmult_assoc, Rinv_l by lra. nra.
    - pose proof (atan_side 1) as A1. pose proof (atan_side 2) as A2. unfold aA, bB in A1, A2. cbn in A1, A2.
      assert (E4 : 3 * 1 / 4 = 3 / 4) by field. assert (PI / 4 <= 19 / 24) by lra.
      pose proof (Rle_abs (s3 (S n) - PI / 4)). pose proof (Rle_abs (- (s3 (S n) - PI / 4))) as Z. rewrite Rabs_Ropp in Z. lra. }
  rewrite cf3_p, cf3_q. pose proof (b3_pos n) as BP. replace (b3 n / aA (S n) 1) with (/ s3 n).
  2:{ unfold s3. fold (b3 n). pose proof (cf3_q_pos n) as QP. rewrite cf3_q in QP. field. lra. }
  replace (4 / PI) with (/ (PI / 4)) by (field; lra). replace (/ s3 n - / (PI / 4)) with (- ((s3 n - PI / 4) * (/ (PI / 4) * / s3 n))) by (field; lra).
  assert (S1 : 1 <= / s3 n <= 10 / 7) by (split; [replace 1 with (/ 1) by field|replace (10 / 7) with (/ (7 / 10)) by field]; apply Rinv_le_contravar; lra).
  assert (S2 : 1 <= / (PI / 4) <= 4 / 3) by (split; [replace 1 with (/ 1) by field|replace (4 / 3) with (/ (3 / 4)) by field]; apply Rinv_le_contravar; lra).
  assert (M : 1 <= / (PI / 4) * / s3 n <= 2) by nra. rewrite Rabs_Ropp, Rabs_mult, (Rabs_right (/ (PI / 4) * / s3 n)) by lra. pose proof (Rabs_pos (s3 n - PI / 4)) as AP.
  split; [nra|]. replace ((/ 4) ^ n / (INR n + 2)) with (2 * ((/ 4) ^ n / (2 * (INR n + 2)))) by (field; lra). nra.
Qed.
End CF3.

(** Limits of the continued fractions of the stored results, over the real numbers. *)
From Coq Require Import Reals Lra Lia Arith.
From Verif Require Import CF_Limits CF_Limits2.
Local Open Scope R_scope.

(** ---- limits ---- *)
Lemma cv_inv U u : Un_cv U u -> u <> 0 -> Un_cv (fun n => / U n) (/ u).
Proof. intros H N. apply (continuity_seq (fun x => / x) U u); [|exact H]. apply (continuity_pt_inv id); [apply derivable_continuous_pt, derivable_pt_id|exact N]. Qed.
Lemma cv_div U V u v : Un_cv U u -> Un_cv V v -> v <> 0 -> Un_cv (fun n => U n / V n) (u / v).
Proof. intros HU HV N. apply CV_mult; [exact HU|apply cv_inv; assumption]. Qed.
Lemma cv_ext U V l : (forall n, U n = V n) -> Un_cv U l -> Un_cv V l.
Proof. intros E H e He. destruct (H e He) as [N HN]. exists N. intros n Hn. rewrite <- E. apply HN. exact Hn. Qed.
Lemma cv_const c : Un_cv (fun _ => c) c.
Proof. intros e He. exists 0%nat. intros n _. unfold R_dist. rewrite Rminus_eq_0, Rabs_R0. exact He. Qed.
Lemma cv_shift U l k : Un_cv U l -> Un_cv (fun n => U (n + k)%nat) l.
Proof. intros H e He. destruct (H e He) as [N HN]. exists N. intros n Hn. apply HN. lia. Qed.
Lemma cv_S U l : Un_cv U l -> Un_cv (fun n => U (S n)) l.
Proof. intros H. apply (cv_ext (fun n => U (n + 1)%nat)); [intros n; f_equal; lia|apply cv_shift; exact H]. Qed.
Lemma cv_unS U l : Un_cv (fun n => U (S n)) l -> Un_cv U l.
Proof. intros H e He. destruct (H e He) as [N HN]. exists (S N). intros n Hn. destruct n as [|n]; [lia|]. apply HN. lia. Qed.
Lemma cv_double U l : Un_cv U l -> Un_cv (fun n => U (2 * n + 2)%nat) l.
Proof. intros H e He. destruct (H e He) as [N HN]. exists N. intros n Hn. apply HN. lia. Qed.
Lemma cv_squeeze0 U V : (forall n, Rabs (U n) <= V n) -> Un_cv V 0 -> Un_cv U 0.
Proof.
  intros E H e He. destruct (H e He) as [N HN]. exists N. intros n Hn. specialize (HN n Hn). unfold R_dist in *. rewrite Rminus_0_r in *.
  pose proof (E n). pose proof (Rle_abs (V n)). lra.
Qed.

(** ---- numerators and denominators ---- *)
Definition convs (A B p q : nat -> R) : Prop :=
  p 0%nat = A 0%nat /\ q 0%nat = 1 /\ p 1%nat = A 1%nat * A 0%nat + B 1%nat /\ q 1%nat = A 1%nat /\
  (forall n, p (S (S n)) = A (S (S n)) * p (S n) + B (S (S n)) * p n) /\ (forall n, q (S (S n)) = A (S (S n)) * q (S n) + B (S (S n)) * q n).
Lemma convs_unique A B p q X Y : convs A B p q -> convs A B X Y -> forall n, p n = X n /\ q n = Y n.
Proof.
  intros (p0 & q0 & p1 & q1 & pS & qS) (x0 & y0 & x1 & y1 & xS & yS). apply two_step; [split; congruence|split; congruence|].
  intros n [E1 E2] [E3 E4]. rewrite pS, qS, xS, yS, E1, E2, E3, E4. auto.
Qed.
Lemma quot_cancel y a b : y <> 0 -> (y * a) / (y * b) = a / b.
Proof. intros N. unfold Rdiv. rewrite Rinv_mult. replace (y * a * (/ y * / b)) with ((y * / y) * (a * / b)) by ring. rewrite Rinv_r by exact N. ring. Qed.
Lemma base A B p q y x z x0 z0 : convs A B p q -> convs A B (fun n => y n * x n) (fun n => y n * z n) -> (forall n, y n <> 0) ->
  Un_cv x x0 -> Un_cv z z0 -> z0 <> 0 -> Un_cv (fun n => p n / q n) (x0 / z0).
Proof.
  intros HP HX N Hx Hz N0. apply (cv_ext (fun n => x n / z n)); [|apply cv_div; assumption].
  intros n. destruct (convs_unique _ _ _ _ _ _ HP HX n) as [-> ->]. symmetry. apply quot_cancel, N.
Qed.
Ltac convs_tac := unfold convs; cbn beta; repeat split; [| | | |intros n|intros n].

(** ---- sums of (-1)^k / k! ---- *)
Fixpoint dsum (n : nat) : R := match n with O => 1 | S k => dsum k + (-1) ^ S k / INR (fact (S k)) end.
Lemma dsum_S n : dsum (S n) = dsum n + (-1) ^ S n / INR (fact (S n)).
Proof. reflexivity. Qed.
Lemma dsum_lim : Un_cv dsum (exp (-1)).
Proof.
  unfold exp. destruct (exist_exp (-1)) as [l H]. cbn. apply (cv_ext (fun n => sum_f_R0 (fun i => / INR (fact i) * (-1) ^ i) n)); [|exact H].
  induction n as [|n IH]; [cbn; field|]. cbn [sum_f_R0]. rewrite IH, dsum_S. unfold Rdiv. ring.
Qed.
Lemma exp_m1 : exp (-1) = / exp 1.
Proof. replace (-1) with (- (1)) by ring. apply exp_Ropp. Qed.
Lemma exp_m1_bounds : 0 < exp (-1) < / 2.
Proof. rewrite exp_m1. pose proof e_gt2. split; [apply Rinv_0_lt_compat; lra|apply Rinv_lt_contravar; lra]. Qed.
Ltac dpow := cbn [pow]; repeat match goal with |- context [dsum ?n] => is_var n; generalize (dsum n); intro end.
Ltac ffield n := repeat rewrite fact_R; rewrite ?S_INR; pose proof (fact_pos n); pose proof (pos_INR n); field; repeat split; try lra.
Ltac num := rewrite ?dsum_S; cbn; try field.

Lemma E1_cv p q : convs (fun n => 3 + INR n) (fun n => - INR n) p q -> Un_cv (fun n => p n / q n) (exp 1 / 1).
Proof.
  intros H. apply (base _ _ _ _ (fun n => (INR n + 1) * INR (fact (S n))) (fun n => esum (S n) + / ((INR n + 1) * INR (fact (S n)))) (fun _ => 1) _ _ H).
  - convs_tac; try (cbn; field); rewrite ?esum_S; ffield n.
  - intros n. pose proof (fact_pos (S n)). pose proof (pos_INR n). nra.
  - replace (exp 1) with (exp 1 + 0) by ring. apply CV_plus; [apply cv_S, esum_lim|]. apply inv_cv0. intros n. pose proof (fact_pos1 (S n)). pose proof (pos_INR n).
    split; [apply Rlt_le, Rinv_0_lt_compat; nra|]. rewrite S_INR. apply Rinv_le_contravar; nra.
  - apply cv_const.
  - lra.
Qed.
Lemma E4_cv p q : convs (fun n => 1 + INR n) (fun n => INR n) p q -> Un_cv (fun n => p n / q n) (exp (-1) / (1 - 2 * exp (-1))).
Proof.
  intros H. pose proof exp_m1_bounds. apply (base _ _ _ _ (fun n => (INR n + 3) * INR (fact (S n))) (fun n => dsum (n + 3)) (fun n => 1 - 2 * dsum (n + 3)) _ _ H).
  - convs_tac; try (cbn; field); replace (S (S n) + 3)%nat with (S (S (n + 3))) by lia; replace (S n + 3)%nat with (S (n + 3)) by lia; replace (n + 3)%nat with (S (S (S n))) by lia; rewrite (dsum_S (S (S (S (S n))))), (dsum_S (S (S (S n)))); cbn [pow]; ffield n.
  - intros n. pose proof (fact_pos (S n)). pose proof (pos_INR n). nra.
  - apply cv_shift, dsum_lim.
  - apply CV_minus; [apply cv_const|apply CV_mult; [apply cv_const|apply cv_shift, dsum_lim]].
  - lra.
Qed.
Lemma E6_cv p q : convs (fun n => INR n) (fun n => INR n) p q -> Un_cv (fun n => p n / q n) (exp (-1) / (1 - exp (-1))).
Proof.
  intros H. pose proof exp_m1_bounds. apply (base _ _ _ _ (fun n => INR (fact (S n))) (fun n => dsum (S n)) (fun n => 1 - dsum (S n)) _ _ H).
  - convs_tac; try (cbn; field); rewrite (dsum_S (S (S n))), (dsum_S (S n)); cbn [pow]; ffield n.
  - intros n. pose proof (fact_pos (S n)). lra.
  - apply cv_S, dsum_lim.
  - apply CV_minus; [apply cv_const|apply cv_S, dsum_lim].
  - lra.
Qed.
Lemma E5_cv p q : convs (fun n => 1 + INR n) (fun n => 1 + INR n) p q -> Un_cv (fun n => p n / q n) ((1 - exp (-1)) / exp (-1)).
Proof.
  intros H. pose proof exp_m1_bounds. apply (base _ _ _ _ (fun n => INR (fact (S (S n)))) (fun n => 1 - dsum (S (S n))) (fun n => dsum (S (S n))) _ _ H).
  - convs_tac; try (cbn; field); rewrite (dsum_S (S (S (S n)))), (dsum_S (S (S n))); cbn [pow]; ffield n.
  - intros n. pose proof (fact_pos (S (S n))). lra.
  - apply CV_minus; [apply cv_const|apply (cv_S (fun n => dsum (S n))), cv_S, dsum_lim].
  - apply (cv_S (fun n => dsum (S n))), cv_S, dsum_lim.
  - lra.
Qed.
Lemma E3_cv p q : convs (fun n => 2 + INR n) (fun n => 2 + INR n) p q -> Un_cv (fun n => p n / q n) (exp (-1) / ((1 - 2 * exp (-1)) / 2)).
Proof.
  intros H. pose proof exp_m1_bounds. apply (base _ _ _ _ (fun n => INR (fact (S (S (S n))))) (fun n => dsum (n + 3)) (fun n => (1 - 2 * dsum (n + 3)) / 2) _ _ H).
  - convs_tac; try (cbn; field); replace (S (S n) + 3)%nat with (S (S (n + 3))) by lia; replace (S n + 3)%nat with (S (n + 3)) by lia; replace (n + 3)%nat with (S (S (S n))) by lia; rewrite (dsum_S (S (S (S (S n))))), (dsum_S (S (S (S n)))); cbn [pow]; ffield n.
  - intros n. pose proof (fact_pos (S (S (S n)))). lra.
  - apply cv_shift, dsum_lim.
  - apply CV_mult; [|apply cv_const]. apply CV_minus; [apply cv_const|apply CV_mult; [apply cv_const|apply cv_shift, dsum_lim]].
  - lra.
Qed.
Lemma E7_cv p q : convs (fun n => 4 * INR n * INR n + 2 * INR n - 1) (fun n => 6 * INR n - 4 * INR n * INR n) p q -> Un_cv (fun n => p n / q n) (- exp (-1) / (1 - exp (-1))).
Proof.
  intros H. pose proof exp_m1_bounds. apply (base _ _ _ _ (fun n => 2 * (INR n + 1) * INR (fact (2 * n))) (fun n => - dsum (2 * n + 2)) (fun n => 1 - dsum (2 * n + 2)) _ _ H).
  - convs_tac; try (cbn; field);
    replace (2 * S (S n) + 2)%nat with (S (S (S (S (S (S (2 * n))))))) by lia; replace (2 * S n + 2)%nat with (S (S (S (S (2 * n))))) by lia; replace (2 * n + 2)%nat with (S (S (2 * n))) by lia;
    replace (2 * S (S n))%nat with (S (S (S (S (2 * n))))) by lia; replace (2 * S n)%nat with (S (S (2 * n))) by lia;
    rewrite (dsum_S (S (S (S (S (S (2 * n))))))), (dsum_S (S (S (S (S (2 * n)))))), (dsum_S (S (S (S (2 * n))))), (dsum_S (S (S (2 * n)))); cbn [pow]; rewrite m1_even;
    repeat rewrite fact_R; rewrite ?S_INR, mult_INR; change (INR 2) with 2; pose proof (fact_pos (2 * n)); pose proof (pos_INR n); generalize (dsum (S (S (2 * n)))); intro; field; repeat split; lra.
  - intros n. pose proof (fact_pos (2 * n)). pose proof (pos_INR n). nra.
  - apply CV_opp, cv_double, dsum_lim.
  - apply CV_minus; [apply cv_const|apply cv_double, dsum_lim].
  - lra.
Qed.

(** ---- with pi ---- *)
Lemma t2sum_lim : Un_cv t2sum (PI / 2).
Proof.
  assert (H : Un_cv (fun n => PI / 4 - t2sum n / 2) 0) by (apply cv_squeeze0 with (fun n => (/ 2) ^ n); [|apply half_cv]; intros n; pose proof (t2sum_bounds n); rewrite Rabs_right; lra).
  apply (cv_ext (fun n => PI / 2 - 2 * (PI / 4 - t2sum n / 2))); [intros n; field|]. replace (PI / 2) with (PI / 2 - 2 * 0) at 1 by ring.
  apply CV_minus; [apply cv_const|apply CV_mult; [apply cv_const|exact H]].
Qed.
Lemma t2sum_S n : t2sum (S n) = t2sum n + t2 n.
Proof. reflexivity. Qed.
Lemma odd_S n : odd_fact (S n) = (2 * INR n + 1) * odd_fact n.
Proof. reflexivity. Qed.
Ltac ofield n := unfold t2; repeat rewrite t2sum_S; unfold t2; repeat rewrite odd_S; repeat rewrite fact_R; rewrite ?S_INR; pose proof (fact_pos n); pose proof (odd_fact_pos n); pose proof (pos_INR n); field; repeat split; try lra.
Definition fo (n : nat) : R := INR (fact n) / odd_fact n.
Lemma fo_small n : 0 < fo n <= 2 * / INR (S n).
Proof.
  assert (P : forall n, 0 < fo n) by (intros k; unfold fo; apply Rdiv_lt_0_compat; [apply fact_pos|apply odd_fact_pos]).
  split; [apply P|]. destruct n as [|n]; [unfold fo; cbn; lra|]. induction n as [|n IH]; [unfold fo; cbn; lra|].
  assert (E : fo (S (S n)) = fo (S n) * ((INR n + 2) / (2 * INR n + 3))) by (unfold fo; ofield n).
  rewrite E. rewrite !S_INR in *. pose proof (pos_INR n) as N. pose proof (P (S n)) as P1.
  apply Rle_trans with (2 * / (INR n + 1 + 1) * ((INR n + 2) / (2 * INR n + 3))).
  - apply Rmult_le_compat_r; [apply Rlt_le, Rdiv_lt_0_compat; lra|exact IH].
  - replace (2 * / (INR n + 1 + 1) * ((INR n + 2) / (2 * INR n + 3))) with (2 * / (2 * INR n + 3)) by (field; lra). apply Rmult_le_compat_l; [lra|]. apply Rinv_le_contravar; lra.
Qed.
Lemma fo_cv : Un_cv fo 0.
Proof.
  assert (H : Un_cv (fun n => fo n / 2) 0) by (apply inv_cv0; intros n; pose proof (fo_small n); lra).
  apply (cv_ext (fun n => 2 * (fo n / 2))); [intros n; field|]. replace 0 with (2 * 0) by ring. apply CV_mult; [apply cv_const|exact H].
Qed.
Lemma s3_lim : Un_cv s3 (PI / 4).
Proof.
  assert (H : Un_cv (fun n => s3 n - PI / 4) 0).
  { apply cv_squeeze0 with (fun n => (/ 2) ^ n); [|apply half_cv]. intros n. destruct (s3_err n) as [_ U]. eapply Rle_trans; [exact U|]. pose proof (pos_INR n).
    assert (0 < (/ 4) ^ n) by (apply pow_lt; lra). assert ((/ 4) ^ n <= (/ 2) ^ n) by (apply pow_incr; lra).
    apply Rle_trans with ((/ 4) ^ n * 1); [|lra]. apply Rmult_le_compat_l; [lra|]. rewrite <- Rinv_1. apply Rinv_le_contravar; lra. }
  apply (cv_ext (fun n => PI / 4 + (s3 n - PI / 4))); [intros n; ring|]. replace (PI / 4) with (PI / 4 + 0) at 1 by ring. apply CV_plus; [apply cv_const|exact H].
Qed.
Lemma b3_0 : b3 0 = 1. Proof. unfold b3. cbn. ring. Qed.
Lemma b3_1 : b3 1 = 4. Proof. unfold b3. rewrite bB_S. cbn. ring. Qed.
Definition a3 (n : nat) : R := aA (S n) 1.
Lemma a3_0 : a3 0 = 1. Proof. unfold a3. cbn. ring. Qed.
Lemma a3_1 : a3 1 = 3. Proof. unfold a3. rewrite aA_S. cbn. ring. Qed.
Lemma a3_S n : a3 (S (S n)) = (2 * INR n + 5) * a3 (S n) + (INR n + 2) * (INR n + 2) * a3 n.
Proof. unfold a3. rewrite aA_S, S_INR. ring. Qed.
Lemma a3_s3 n : a3 n = b3 n * s3 n.
Proof. unfold a3, s3. fold (b3 n). pose proof (b3_pos n). field. lra. Qed.
Lemma P1_cv p q : convs (fun n => 1 + 2 * INR n) (fun n => INR n * INR n) p q -> Un_cv (fun n => p n / q n) (1 / (PI / 4)).
Proof.
  intros H. pose proof PI_RGT_0. apply (base _ _ _ _ b3 (fun _ => 1) s3 _ _ H).
  - convs_tac; rewrite <- ?a3_s3, ?Rmult_1_r, ?b3_0, ?b3_1, ?a3_0, ?a3_1, ?b3_S, ?a3_S, ?S_INR; cbn; ring.
  - intros n. pose proof (b3_pos n). lra.
  - apply cv_const.
  - apply s3_lim.
  - lra.
Qed.
Lemma P2_cv p q : convs (fun n => 1 + 3 * INR n) (fun n => 3 * INR n - 2 * INR n * INR n) p q -> Un_cv (fun n => p n / q n) (1 / (PI / 4)).
Proof.
  intros H. pose proof PI_RGT_0. destruct H as (p0 & q0 & p1 & q1 & pS & qS). cbn in p0, p1, q1.
  assert (PS : forall n, p (S (S n)) = (1 + 3 * INR (S (S n))) * p (S n) + INR (S (S n)) * (3 - 2 * INR (S (S n))) * p n) by (intros n; rewrite pS; ring).
  assert (QS : forall n, q (S (S n)) = (1 + 3 * INR (S (S n))) * q (S n) + INR (S (S n)) * (3 - 2 * INR (S (S n))) * q n) by (intros n; rewrite qS; ring).
  assert (p0' : p 0%nat = 1) by lra. assert (p1' : p 1%nat = 5) by lra. assert (q1' : q 1%nat = 4) by lra.
  apply (cv_ext (fun n => 1 / s2 n)); [|apply cv_div; [apply cv_const|apply s2_lim|lra]].
  intros n. rewrite (cf2_q p q p0' p1' q0 q1' PS QS n). pose proof (cf2_p_pos p p0' p1' PS n). replace (p n / (s2 n * p n)) with ((p n * 1) / (p n * s2 n)) by (f_equal; ring). symmetry. apply quot_cancel. lra.
Qed.
Lemma P3_cv p q : convs (fun n => 1 + 3 * INR n) (fun n => INR n - 2 * INR n * INR n) p q -> Un_cv (fun n => p n / q n) (1 / (PI / 2)).
Proof.
  intros H. pose proof PI_RGT_0. apply (base _ _ _ _ (fun n => odd_fact (S n)) (fun _ => 1) (fun n => t2sum (S n)) _ _ H).
  - convs_tac; try (unfold t2sum, t2; cbn; field); ofield n.
  - intros n. pose proof (odd_fact_pos (S n)). lra.
  - apply cv_const.
  - apply cv_S, t2sum_lim.
  - lra.
Qed.
Lemma PI_gt2 : 2 < PI.
Proof. pose proof PI2_1. unfold PI2 in *. lra. Qed.
Lemma t2_frac_cv : Un_cv (fun n => (INR n + 1) / (INR n + 2) * t2 n) 0.
Proof.
  apply cv_squeeze0 with t2; [|apply t2_cv]. intros n. pose proof (t2_small n). pose proof (pos_INR n).
  assert (0 <= (INR n + 1) / (INR n + 2) <= 1).
  { split; [apply Rlt_le, Rdiv_lt_0_compat; lra|]. apply Rmult_le_reg_r with (INR n + 2); [lra|]. replace ((INR n + 1) / (INR n + 2) * (INR n + 2)) with (INR n + 1) by (field; lra). lra. }
  rewrite Rabs_right; nra.
Qed.
Lemma P4_cv p q : convs (fun n => 2 + 3 * INR n) (fun n => INR n - 2 * INR n * INR n) p q -> Un_cv (fun n => p n / q n) (1 / (PI / 2 - 1 + 0)).
Proof.
  intros H. pose proof PI_gt2. apply (base _ _ _ _ (fun n => (INR n + 2) * odd_fact (S n)) (fun _ => 1) (fun n => t2sum (S n) - 1 + (INR n + 1) / (INR n + 2) * t2 n) _ _ H).
  - convs_tac; try (unfold t2sum, t2; cbn; field); ofield n.
  - intros n. pose proof (odd_fact_pos (S n)). pose proof (pos_INR n). nra.
  - apply cv_const.
  - apply CV_plus; [|apply t2_frac_cv]. apply CV_minus; [apply cv_S, t2sum_lim|apply cv_const].
  - lra.
Qed.
Lemma P5_cv p q : convs (fun n => 3 + 3 * INR n) (fun n => 1 - INR n - 2 * INR n * INR n) p q -> Un_cv (fun n => p n / q n) ((1 + PI / 2 + 0) / 1).
Proof.
  intros H. apply (base _ _ _ _ (fun n => (INR n + 1) * odd_fact (S n)) (fun n => 1 + t2sum (S n) + t2 n) (fun _ => 1) _ _ H).
  - convs_tac; try (unfold t2sum, t2; cbn; field); ofield n.
  - intros n. pose proof (odd_fact_pos (S n)). pose proof (pos_INR n). nra.
  - apply CV_plus; [|apply t2_cv]. apply CV_plus; [apply cv_const|apply cv_S, t2sum_lim].
  - apply cv_const.
  - lra.
Qed.
Lemma mix_cv : Un_cv (fun n => (a3 (S n) + (INR n + 2) * a3 n) / (b3 (S n) + (INR n + 2) * b3 n)) (PI / 4).
Proof.
  assert (H : Un_cv (fun n => (a3 (S n) + (INR n + 2) * a3 n) / (b3 (S n) + (INR n + 2) * b3 n) - PI / 4) 0).
  { apply cv_squeeze0 with (fun n => Rabs (s3 (S n) - PI / 4) + Rabs (s3 n - PI / 4)).
    - intros n. pose proof (b3_pos n) as B0. pose proof (b3_pos (S n)) as B1. pose proof (pos_INR n) as N. rewrite !a3_s3.
      set (u := b3 (S n)) in *. set (v := (INR n + 2) * b3 n). assert (V : 0 < v) by (unfold v; nra).
      replace ((u * s3 (S n) + (INR n + 2) * (b3 n * s3 n)) / (u + v) - PI / 4) with (u / (u + v) * (s3 (S n) - PI / 4) + v / (u + v) * (s3 n - PI / 4)) by (unfold v in *; field; lra).
      assert (W1 : 0 <= u / (u + v) <= 1) by (split; [apply Rlt_le, Rdiv_lt_0_compat; lra|apply Rmult_le_reg_r with (u + v); [lra|]; replace (u / (u + v) * (u + v)) with u by (field; lra); lra]).
      assert (W2 : 0 <= v / (u + v) <= 1) by (split; [apply Rlt_le, Rdiv_lt_0_compat; lra|apply Rmult_le_reg_r with (u + v); [lra|]; replace (v / (u + v) * (u + v)) with v by (field; lra); lra]).
      eapply Rle_trans; [apply Rabs_triang|]. rewrite !Rabs_mult, (Rabs_right (u / (u + v))), (Rabs_right (v / (u + v))) by lra.
      pose proof (Rabs_pos (s3 (S n) - PI / 4)). pose proof (Rabs_pos (s3 n - PI / 4)). nra.
    - assert (Z : Un_cv (fun n => Rabs (s3 n - PI / 4)) 0).
      { rewrite <- Rabs_R0. apply cv_cvabs. replace 0 with (PI / 4 - PI / 4) by ring. apply CV_minus; [apply s3_lim|apply cv_const]. }
      replace 0 with (0 + 0) by ring. apply CV_plus; [apply (cv_S (fun n => Rabs (s3 n - PI / 4))), Z|exact Z]. }
  apply (cv_ext (fun n => PI / 4 + ((a3 (S n) + (INR n + 2) * a3 n) / (b3 (S n) + (INR n + 2) * b3 n) - PI / 4))); [intros n; ring|].
  replace (PI / 4) with (PI / 4 + 0) at 1 by ring. apply CV_plus; [apply cv_const|exact H].
Qed.
Lemma P6_cv p q : convs (fun n => 3 + 2 * INR n) (fun n => 2 * INR n + INR n * INR n) p q -> Un_cv (fun n => p n / q n) (1 / (PI / 4 - / 2)).
Proof.
  intros H. pose proof PI_gt2. apply (base _ _ _ _ (fun n => (b3 (S n) + (INR n + 2) * b3 n) / 2) (fun _ => 1) (fun n => (a3 (S n) + (INR n + 2) * a3 n) / (b3 (S n) + (INR n + 2) * b3 n) - / 2) _ _ H).
  - assert (E : forall n, (b3 (S n) + (INR n + 2) * b3 n) / 2 * ((a3 (S n) + (INR n + 2) * a3 n) / (b3 (S n) + (INR n + 2) * b3 n) - / 2) = (a3 (S n) + (INR n + 2) * a3 n) / 2 - (b3 (S n) + (INR n + 2) * b3 n) / 4).
    { intros n. pose proof (b3_pos n). pose proof (b3_pos (S n)). pose proof (pos_INR n). field. nra. }
    convs_tac; rewrite ?E; rewrite ?(b3_S (S n)), ?(a3_S (S n)), ?(b3_S n), ?(a3_S n), ?(b3_S 0), ?(a3_S 0), ?b3_0, ?b3_1, ?a3_0, ?a3_1, ?S_INR; cbn [INR]; field.
  - intros n. pose proof (b3_pos n). pose proof (b3_pos (S n)). pose proof (pos_INR n). nra.
  - apply cv_const.
  - apply CV_minus; [apply mix_cv|apply cv_const].
  - lra.
Qed.
Lemma P7_cv p q : convs (fun n => 3 * INR n - 1) (fun n => 3 * INR n - 2 * INR n * INR n) p q -> Un_cv (fun n => p n / q n) (-1 / (2 + PI / 2 - 0)).
Proof.
  intros H. pose proof PI_gt2. apply (base _ _ _ _ odd_fact (fun _ => -1) (fun n => 2 + t2sum n - fo n) _ _ H).
  - convs_tac; unfold fo; try (unfold t2sum, t2; cbn; field); ofield n.
  - intros n. pose proof (odd_fact_pos n). lra.
  - apply cv_const.
  - apply CV_minus; [|apply fo_cv]. apply CV_plus; [apply cv_const|apply t2sum_lim].
  - lra.
Qed.
Lemma P8_cv p q : convs (fun n => 3 * INR n) (fun n => 3 * INR n - 2 * INR n * INR n) p q -> Un_cv (fun n => p n / q n) (1 / (1 + PI / 2 + 0)).
Proof.
  intros H. pose proof PI_gt2.
  assert (HX : convs (fun n => 3 * INR n) (fun n => 3 * INR n - 2 * INR n * INR n) (fun n => INR n * odd_fact n) (fun n => INR n * odd_fact n * (1 + t2sum n) + INR (fact n))).
  { convs_tac; try (unfold t2sum, t2; cbn; field); ofield n. }
  apply cv_unS. apply (cv_ext (fun n => 1 / (1 + t2sum (S n) + t2 n))).
  - intros n. destruct (convs_unique _ _ _ _ _ _ H HX (S n)) as [-> ->]. cbn beta.
    pose proof (odd_fact_pos (S n)) as O. pose proof (pos_INR n) as N. rewrite <- (quot_cancel (INR (S n) * odd_fact (S n))) by (rewrite S_INR; nra). f_equal; [ring|].
    rewrite S_INR. unfold t2. rewrite fact_R. field. lra.
  - apply cv_div; [apply cv_const| |lra]. apply CV_plus; [|apply t2_cv]. apply CV_plus; [apply cv_const|apply cv_S, t2sum_lim].
Qed.

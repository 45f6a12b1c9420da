(** Real numbers: pi, e and sums of alternating series to many digits, by integer arithmetic. *)
From Coq Require Import Reals Lra Lia ZArith List.
From Coq Require Import Ratan Machin.
From Verif Require Import CF_Limits.
Local Open Scope R_scope.

(** ---- floor division ---- *)
Lemma IZR_div (t k : Z) : (0 < k)%Z -> IZR t / IZR k - 1 <= IZR (t / k) <= IZR t / IZR k.
Proof.
  intros Hk. pose proof (Z.div_mod t k ltac:(lia)) as E. pose proof (Z.mod_pos_bound t k Hk) as B. assert (K : 0 < IZR k) by (apply IZR_lt; exact Hk).
  set (q := (t / k)%Z) in *. set (r := (t mod k)%Z) in *. assert (E' : IZR t = IZR k * IZR q + IZR r) by (rewrite E at 1; rewrite plus_IZR, mult_IZR; reflexivity).
  assert (R1 : 0 <= IZR r) by (apply IZR_le; lia). assert (R2 : IZR r <= IZR k) by (apply IZR_le; lia).
  rewrite E'. replace ((IZR k * IZR q + IZR r) / IZR k) with (IZR q + IZR r / IZR k) by (field; lra).
  assert (0 <= IZR r / IZR k <= 1) by (split; [apply Rmult_le_pos; [lra|left; now apply Rinv_0_lt_compat]|apply (Rmult_le_reg_r (IZR k)); [lra|]; unfold Rdiv; rewrite Rmult_assoc, Rinv_l; lra]). lra.
Qed.
(** y is about t: from above, by at most 2 *)
Definition near (y : R) (t : Z) : Prop := 0 <= y - IZR t <= 2.
Lemma near_div y t k : near y t -> (2 <= k)%Z -> near (y / IZR k) (t / k).
Proof.
  intros [A B] Hk. pose proof (IZR_div t k ltac:(lia)) as [C D]. assert (K : 2 <= IZR k) by (apply IZR_le; exact Hk).
  assert (E : y / IZR k = IZR t / IZR k + (y - IZR t) / IZR k) by (field; lra). assert (F : 0 <= (y - IZR t) / IZR k <= 1).
  { split; [apply Rmult_le_pos; [lra|left; apply Rinv_0_lt_compat; lra]|]. apply (Rmult_le_reg_r (IZR k)); [lra|]. unfold Rdiv. rewrite Rmult_assoc, Rinv_l by lra. lra. }
  unfold near. lra.
Qed.

(** ---- the arc tangent of 1/q ---- *)
Fixpoint atan_loop (n : nat) (q2 k t : Z) : Z :=
  match n with O => 0%Z | S m => (t / k - atan_loop m q2 (k + 2) (t / q2))%Z end.
(** the alternating sum y/k - y/q^2/(k+2) + ... *)
Fixpoint atan_sum (n : nat) (q2 k y : R) : R :=
  match n with O => 0 | S m => y / k - atan_sum m q2 (k + 2) (y / q2) end.
Lemma atan_loop_near n : forall q2 k t y, (2 <= q2)%Z -> (1 <= k)%Z -> near y t -> Rabs (atan_sum n (IZR q2) (IZR k) y - IZR (atan_loop n q2 k t)) <= 3 * INR n.
Proof.
  induction n as [|n IH]; intros q2 k t y Hq Hk H; [cbn [atan_sum atan_loop INR]; rewrite Rminus_0_r, Rabs_R0; lra|].
  cbn [atan_sum atan_loop]. rewrite minus_IZR, S_INR. replace (IZR k + 2) with (IZR (k + 2)) by (rewrite plus_IZR; reflexivity).
  pose proof (IH q2 (k + 2)%Z (t / q2)%Z (y / IZR q2) Hq ltac:(lia) (near_div _ _ _ H Hq)) as I.
  assert (F : Rabs (y / IZR k - IZR (t / k)) <= 3).
  { destruct (Z.eq_dec k 1) as [->|N]; [rewrite Z.div_1_r; destruct H; unfold Rdiv; rewrite Rinv_1, Rmult_1_r; apply Rabs_le; lra|].
    destruct (near_div y t k H ltac:(lia)). apply Rabs_le; lra. }
  revert I F. set (u := atan_sum _ _ _ _). set (v := IZR (atan_loop _ _ _ _)). set (a := y / IZR k). set (b := IZR (t / k)). intros I F.
  replace (a - u - (b - v)) with ((a - b) + - (u - v)) by ring. eapply Rle_trans; [apply Rabs_triang|]. rewrite Rabs_Ropp. lra.
Qed.
Lemma asum_first U n : asum U (S n) = U 0%nat - asum (fun k => U (S k)) n.
Proof.
  induction n as [|n IH]; [unfold asum; cbn [sum_f_R0]; unfold tg_alt; simpl; ring|]. rewrite (asum_S U (S n)), (asum_S (fun k => U (S k)) n), IH. cbn [pow]. ring.
Qed.
Lemma atan_sum_asum n : forall q2 k y, q2 <> 0 -> atan_sum (S n) q2 k y = asum (fun j => y / q2 ^ j / (k + 2 * INR j)) n.
Proof.
  induction n as [|n IH]; intros q2 k y Hq.
  - cbn [atan_sum]. unfold asum. cbn [sum_f_R0]. unfold tg_alt. cbn [pow INR]. replace (k + 2 * 0) with k by ring. unfold Rdiv. rewrite Rinv_1. ring.
  - rewrite asum_first. change (atan_sum (S (S n)) q2 k y) with (y / k - atan_sum (S n) q2 (k + 2) (y / q2)). rewrite IH by exact Hq.
    replace (y / q2 ^ 0 / (k + 2 * INR 0)) with (y / k) by (cbn [pow INR]; replace (k + 2 * 0) with k by ring; unfold Rdiv; rewrite Rinv_1; ring). apply f_equal.
    unfold asum. apply sum_eq. intros i _. unfold tg_alt. apply f_equal. rewrite S_INR. replace (k + 2 + 2 * INR i) with (k + 2 * (INR i + 1)) by ring. apply (f_equal (fun z => z / _)).
    cbn [pow]. field. split; [|exact Hq]. apply pow_nonzero. exact Hq.
Qed.
Lemma Ratan_form q n : 0 < q -> Ratan_seq (/ q) n = / q / (q * q) ^ n / (1 + 2 * INR n).
Proof.
  intros H. unfold Ratan_seq. rewrite plus_INR, mult_INR. cbn [INR]. rewrite pow_add, pow_mult. cbn [pow]. rewrite !Rmult_1_r. rewrite <- Rinv_mult.
  rewrite pow_inv. unfold Rdiv. rewrite (Rplus_comm ((1 + 1) * INR n) 1). replace (1 + 1) with 2 by ring. ring.
Qed.
Lemma atan_bound (q : Z) (D : Z) (n : nat) : (2 <= q)%Z -> (0 < D)%Z ->
  Rabs (IZR D * atan (/ IZR q) - IZR (atan_loop (S n) (q * q) 1 (D / q))) <= 3 * INR (S n) + IZR D * ((/ IZR q) ^ (2 * n + 3)).
Proof.
  intros Hq HD. assert (Q : 2 <= IZR q) by (apply IZR_le; exact Hq). assert (DP : 0 < IZR D) by (apply IZR_lt; exact HD).
  assert (NR : near (IZR D / IZR q) (D / q)) by (pose proof (IZR_div D q ltac:(lia)); unfold near; lra).
  pose proof (atan_loop_near (S n) (q * q) 1 (D / q) (IZR D / IZR q) ltac:(nia) ltac:(lia) NR) as A.
  rewrite mult_IZR, atan_sum_asum in A by nra.
  assert (IQ : 0 < / IZR q < 1) by (split; [apply Rinv_0_lt_compat; lra|rewrite <- Rinv_1; apply Rinv_1_lt_contravar; lra]).
  assert (C : Un_cv (asum (Ratan_seq (/ IZR q))) (atan (/ IZR q))).
  { rewrite (atan_eq_ps_atan _ IQ). unfold ps_atan. destruct (in_int (/ IZR q)) as [h|h]; [|exfalso; apply h; lra]. destruct (ps_atan_exists_1 _ h) as [l Hl]. exact Hl. }
  pose proof (alt_upper _ _ n (Ratan_seq_decreasing (/ IZR q) ltac:(lra)) (Ratan_seq_converging (/ IZR q) ltac:(lra)) C) as B.
  assert (E : asum (fun j => IZR D / IZR q / (IZR q * IZR q) ^ j / (1 + 2 * INR j)) n = IZR D * asum (Ratan_seq (/ IZR q)) n).
  { unfold asum. rewrite scal_sum. apply sum_eq. intros i _. unfold tg_alt. rewrite (Ratan_form (IZR q) i) by lra. unfold Rdiv. ring. }
  rewrite E in A. assert (UB : Ratan_seq (/ IZR q) (S n) <= (/ IZR q) ^ (2 * n + 3)).
  { unfold Ratan_seq. replace (2 * S n + 1)%nat with (2 * n + 3)%nat by lia. assert (P : 0 <= (/ IZR q) ^ (2 * n + 3)) by (apply pow_le; lra).
    assert (I1 : 1 <= INR (2 * n + 3)) by (replace 1 with (INR 1) by reflexivity; apply le_INR; lia).
    unfold Rdiv. rewrite <- (Rmult_1_r ((/ IZR q) ^ (2 * n + 3))) at 2. apply Rmult_le_compat_l; [exact P|]. rewrite <- Rinv_1. apply Rinv_le_contravar; lra. }
  set (a := atan (/ IZR q)) in *. set (s := asum (Ratan_seq (/ IZR q)) n) in *. set (z := IZR (atan_loop _ _ _ _)) in *.
  replace (IZR D * a - z) with ((IZR D * s - z) + - (IZR D * (s - a))) by ring. eapply Rle_trans; [apply Rabs_triang|]. rewrite Rabs_Ropp, Rabs_mult, (Rabs_right (IZR D)) by lra.
  assert (IZR D * Rabs (s - a) <= IZR D * (/ IZR q) ^ (2 * n + 3)) by (apply Rmult_le_compat_l; lra). change (IZR 1) with 1 in A. lra.
Qed.

(** ---- exp(-1) ---- *)
Fixpoint exp_loop (n : nat) (k t : Z) : Z := match n with O => 0%Z | S m => (t - exp_loop m (k + 1) (t / k))%Z end.
Fixpoint exp_sum (n : nat) (k y : R) : R := match n with O => 0 | S m => y - exp_sum m (k + 1) (y / k) end.
Lemma exp_loop_near n : forall k t y, (1 <= k)%Z -> near y t -> Rabs (exp_sum n (IZR k) y - IZR (exp_loop n k t)) <= 3 * INR n.
Proof.
  induction n as [|n IH]; intros k t y Hk H; [cbn [exp_sum exp_loop INR]; rewrite Rminus_0_r, Rabs_R0; lra|].
  cbn [exp_sum exp_loop]. rewrite minus_IZR, S_INR. replace (IZR k + 1) with (IZR (k + 1)) by (rewrite plus_IZR; reflexivity).
  assert (H' : near (y / IZR k) (t / k)).
  { destruct (Z.eq_dec k 1) as [->|N]; [rewrite Z.div_1_r; unfold Rdiv; rewrite Rinv_1, Rmult_1_r; exact H|]. apply near_div; [exact H|lia]. }
  pose proof (IH (k + 1)%Z (t / k)%Z (y / IZR k) ltac:(lia) H') as I. assert (F : Rabs (y - IZR t) <= 3) by (destruct H; apply Rabs_le; lra).
  revert I F. set (u := exp_sum _ _ _). set (v := IZR (exp_loop _ _ _)). set (b := IZR t). intros I F.
  replace (y - u - (b - v)) with ((y - b) + - (u - v)) by ring. eapply Rle_trans; [apply Rabs_triang|]. rewrite Rabs_Ropp. lra.
Qed.
Fixpoint rise (j : nat) (k : R) : R := match j with O => 1 | S i => k * rise i (k + 1) end.
Lemma rise_last j : forall k, rise (S j) k = rise j k * (k + INR j).
Proof. induction j as [|j IH]; intros k; [cbn; ring|]. change (rise (S (S j)) k) with (k * rise (S j) (k + 1)). rewrite IH, S_INR. cbn [rise]. ring. Qed.
Lemma rise_fact j : rise j 1 = INR (fact j).
Proof. induction j as [|j IH]; [reflexivity|]. rewrite rise_last, IH, fact_R. ring. Qed.
Lemma exp_sum_asum n : forall k y, 0 < k -> exp_sum (S n) k y = asum (fun j => y / rise j k) n.
Proof.
  induction n as [|n IH]; intros k y Hk.
  - cbn [exp_sum]. unfold asum. cbn [sum_f_R0]. unfold tg_alt. cbn [pow rise]. unfold Rdiv. rewrite Rinv_1. ring.
  - rewrite asum_first. change (exp_sum (S (S n)) k y) with (y - exp_sum (S n) (k + 1) (y / k)). rewrite IH by lra. f_equal; [cbn [rise]; unfold Rdiv; rewrite Rinv_1; ring|].
    unfold asum. apply sum_eq. intros i _. unfold tg_alt. f_equal. cbn [rise]. assert (P : forall j x, 0 < x -> 0 < rise j x).
    { clear. induction j as [|j IH]; intros x Hx; cbn [rise]; [lra|]. apply Rmult_lt_0_compat; [exact Hx|]. apply IH. lra. }
    specialize (P i (k + 1) ltac:(lra)). field. lra.
Qed.
Lemma exp_m1_cv : Un_cv (asum (fun k => / INR (fact k))) (exp (-1)).
Proof.
  unfold exp. destruct (exist_exp (-1)) as [l Hl]. cbn [proj1_sig]. unfold exp_in, infinite_sum in Hl. intros eps He. destruct (Hl eps He) as [N HN]. exists N. intros n Hn.
  replace (asum (fun k => / INR (fact k)) n) with (sum_f_R0 (fun i => / INR (fact i) * (-1) ^ i) n); [apply HN; exact Hn|].
  unfold asum. apply sum_eq. intros i _. unfold tg_alt. ring.
Qed.
Lemma exp_bound (D : Z) (n : nat) : (0 < D)%Z -> Rabs (IZR D * exp (-1) - IZR (exp_loop (S n) 1 D)) <= 3 * INR (S n) + IZR D / INR (fact (S n)).
Proof.
  intros HD. assert (DP : 0 < IZR D) by (apply IZR_lt; exact HD). pose proof (exp_loop_near (S n) 1 D (IZR D) ltac:(lia) ltac:(unfold near; lra)) as A.
  rewrite exp_sum_asum in A by lra.
  assert (DEC : Un_decreasing (fun k => / INR (fact k))).
  { intros k. apply Rinv_le_contravar; [apply fact_pos|]. rewrite fact_R. pose proof (fact_pos k). pose proof (pos_INR k). nra. }
  assert (CV : Un_cv (fun k => / INR (fact k)) 0).
  { intros eps He. destruct (cv_speed_pow_fact 1 eps He) as [N HN]. exists N. intros n0 Hn. specialize (HN n0 Hn). unfold R_dist in *. rewrite pow1 in HN. unfold Rdiv in HN. rewrite Rmult_1_l in HN. exact HN. }
  pose proof (alt_upper _ _ n DEC CV exp_m1_cv) as B.
  assert (E : asum (fun j => IZR D / rise j (IZR 1)) n = IZR D * asum (fun k => / INR (fact k)) n).
  { unfold asum. rewrite scal_sum. apply sum_eq. intros i _. unfold tg_alt. rewrite (rise_fact i). unfold Rdiv. ring. }
  rewrite E in A. set (a := exp (-1)) in *. set (s := asum _ n) in *. set (z := IZR (exp_loop _ _ _)) in *.
  replace (IZR D * a - z) with ((IZR D * s - z) + - (IZR D * (s - a))) by ring. eapply Rle_trans; [apply Rabs_triang|]. rewrite Rabs_Ropp, Rabs_mult, (Rabs_right (IZR D)) by lra.
  assert (IZR D * Rabs (s - a) <= IZR D * / INR (fact (S n))) by (apply Rmult_le_compat_l; lra). unfold Rdiv. lra.
Qed.

(** ---- pi and e to 200 digits ---- *)
Lemma Rabs_Z (x : R) (z e : Z) : Rabs (x - IZR z) <= IZR e -> IZR (z - e) <= x <= IZR (z + e).
Proof. intros H. rewrite minus_IZR, plus_IZR. pose proof (Rle_abs (x - IZR z)). pose proof (Rle_abs (- (x - IZR z))) as G. rewrite Rabs_Ropp in G. lra. Qed.
Lemma small_pow (q D : Z) n : (0 < q)%Z -> (0 < D)%Z -> (D <= q ^ Z.of_nat n)%Z -> IZR D * (/ IZR q) ^ n <= 1.
Proof.
  intros Hq HD H. apply IZR_le in H. rewrite <- pow_IZR in H. rewrite pow_inv. assert (P : 0 < IZR q ^ n) by (apply pow_lt, IZR_lt; exact Hq).
  apply (Rmult_le_reg_r (IZR q ^ n)); [exact P|]. rewrite Rmult_assoc, Rinv_l by lra. lra.
Qed.
Lemma atan_Z (q D : Z) (n : nat) : (2 <= q)%Z -> (0 < D)%Z -> (D <= q ^ Z.of_nat (2 * n + 3))%Z ->
  IZR (atan_loop (S n) (q * q) 1 (D / q) - (3 * Z.of_nat n + 4)) <= IZR D * atan (/ IZR q) <= IZR (atan_loop (S n) (q * q) 1 (D / q) + (3 * Z.of_nat n + 4)).
Proof.
  intros Hq HD H. apply Rabs_Z. eapply Rle_trans; [apply (atan_bound q D n Hq HD)|]. pose proof (small_pow q D (2 * n + 3) ltac:(lia) HD H).
  rewrite plus_IZR, mult_IZR, <- INR_IZR_INZ, S_INR. lra.
Qed.
Definition scale : Z := 10 ^ 206.
Definition pi_fixed : Z := 16 * atan_loop 148 25 1 (scale / 5) - 4 * atan_loop 45 57121 1 (scale / 239).
Lemma pi_bounds : IZR (pi_fixed - 7800) <= IZR scale * PI <= IZR (pi_fixed + 7800).
Proof.
  assert (P : (0 < scale)%Z) by (unfold scale; apply Z.pow_pos_nonneg; lia).
  pose proof (atan_Z 5 scale 147 ltac:(lia) P) as A. pose proof (atan_Z 239 scale 44 ltac:(lia) P) as B.
  change (5 * 5)%Z with 25%Z in A. change (239 * 239)%Z with 57121%Z in B.
  assert (A' : (scale <= 5 ^ Z.of_nat (2 * 147 + 3))%Z) by (apply Z.leb_le; vm_compute; reflexivity).
  assert (B' : (scale <= 239 ^ Z.of_nat (2 * 44 + 3))%Z) by (apply Z.leb_le; vm_compute; reflexivity).
  specialize (A A'). specialize (B B'). clear A' B'.
  pose proof Machin_4_5_239 as M. unfold pi_fixed. revert A B. generalize (atan_loop 148 25 1 (scale / 5)) (atan_loop 45 57121 1 (scale / 239)). intros u v A B.
  assert (E : IZR scale * PI = 16 * (IZR scale * atan (/ 5)) - 4 * (IZR scale * atan (/ 239))).
  { replace PI with (4 * (PI / 4)) by field. rewrite M. ring. }
  rewrite E. change (3 * Z.of_nat 147 + 4)%Z with 445%Z in A. change (3 * Z.of_nat 44 + 4)%Z with 136%Z in B. rewrite !minus_IZR, !plus_IZR, ?minus_IZR, ?mult_IZR in *. lra.
Qed.
Definition em1_fixed : Z := exp_loop 130 1 scale.
Lemma em1_bounds : IZR (em1_fixed - 400) <= IZR scale * exp (-1) <= IZR (em1_fixed + 400).
Proof.
  apply Rabs_Z. eapply Rle_trans; [apply (exp_bound scale 129); unfold scale; apply Z.pow_pos_nonneg; lia|].
  assert (F : IZR scale <= INR (fact 130)).
  { assert (G : forall n, INR (fact n) = IZR (fold_right Z.mul 1%Z (map Z.of_nat (seq 1 n)))).
    { induction n as [|n IH]; [reflexivity|]. rewrite fact_R, IH, seq_S, map_app, fold_right_app. cbn [map fold_right]. 
      assert (X : forall l a, fold_right Z.mul a l = (fold_right Z.mul 1 l * a)%Z) by (induction l as [|x l IL]; intros a; cbn [fold_right]; [lia|rewrite IL; lia]).
      rewrite (X _ (_ * 1)%Z), mult_IZR, Z.mul_1_r, <- INR_IZR_INZ. change (1 + n)%nat with (S n). rewrite S_INR. ring. }
    rewrite G. apply IZR_le. apply Z.leb_le. vm_compute. reflexivity. }
  assert (FP : 0 < INR (fact 130)) by apply fact_pos. assert (S1 : IZR scale / INR (fact 130) <= 1) by (apply (Rmult_le_reg_r (INR (fact 130))); [exact FP|]; unfold Rdiv; rewrite Rmult_assoc, Rinv_l by lra; lra).
  replace (INR (S 129)) with 130 by (rewrite INR_IZR_INZ; reflexivity). lra.
Qed.

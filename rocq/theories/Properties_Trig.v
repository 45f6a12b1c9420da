(** C133: the Taylor series of postprocfuncs.py (dec_cos and dec_sin), with a context at hand. *)
From Coq Require Import ZArith QArith Qabs Qpower Lia.
From Coq Require Import Reals Qreals Lra.
From Verif Require Import PyBase Rnd Rnd_Proofs Trig_Model Spec_Trig Trig_Proofs Trig_Error Trig_Tail Trig_Real Trig_Quick.
Open Scope R_scope.

Lemma cos_loop rd x fuel : taylor rd x fuel 0 0 1 1 1 1 = loop_from rd x 0 1 0 fuel 0 (nums rd x 0 0).
Proof. reflexivity. Qed.
Lemma sin_loop rd x fuel : taylor rd x fuel 1 0 x 1 x 1 = loop_from rd x 1 x 0 fuel 0 (nums rd x 1 0).
Proof. reflexivity. Qed.
Lemma cos_t0 x : (1 == series_term 0 x 0)%Q.
Proof. reflexivity. Qed.
Lemma sin_t0 x : (x == series_term 1 x 0)%Q.
Proof. change (x == 1 * x / 1)%Q. unfold Qdiv. change (/ 1)%Q with 1%Q. ring. Qed.

(** the loop gives the sum at which it stops *)
Lemma loop_ends B p rd x d s0 : (2 <= B)%Z -> (2 <= p)%Z -> nearest B p rd ->
  exists n s, forall fuel, (n <= fuel)%nat -> loop_from rd x d s0 0 fuel 0 (nums rd x d 0) = Some s.
Proof.
  intros HB HP N. destruct (some_round B p rd HB HP N x d s0) as (n & N1 & E). destruct (loop_stops rd x d s0 n 0 n ltac:(lia) ltac:(lia) (Qeq_eq_bool _ _ E)) as (s & H). exists n, s. intros fuel F. exact (taylor_more _ _ _ _ _ _ _ _ _ _ _ F H).
Qed.
(** With a context at hand both functions always finish, with one result, and leave the precision of the context as it was. *)
Theorem C133_ends : forall B prec rdp x, (2 <= B)%Z -> (0 <= prec)%Z -> nearest B (prec + 2) (rdp (prec + 2)%Z) ->
  (exists n r, forall fuel, (n <= fuel)%nat -> dec_cos rdp (Some prec) x fuel = Some (Some prec, Ok r)) /\
  (exists n r, forall fuel, (n <= fuel)%nat -> dec_sin rdp (Some prec) x fuel = Some (Some prec, Ok r)).
Proof.
  intros B prec rdp x HB HP N. assert (E : (prec + 2 - 2 = prec)%Z) by lia. split.
  - destruct (loop_ends B (prec + 2)%Z _ x 0 1 HB ltac:(lia) N) as (n & s & H). exists n, (rdp prec s). intros fuel F. unfold dec_cos. rewrite cos_loop, (H fuel F), E. reflexivity.
  - destruct (loop_ends B (prec + 2)%Z _ x 1 x HB ltac:(lia) N) as (n & s & H). exists n, (rdp prec s). intros fuel F. unfold dec_sin. rewrite sin_loop, (H fuel F), E. reflexivity.
Qed.

Lemma unit_R B p : (2 <= B)%Z -> (1 <= p)%Z -> Q2R (unit_err B p) = / IZR (B ^ (p - 1)).
Proof.
  intros HB HP. assert (P : (0 < B ^ (p - 1))%Z) by (apply Z.pow_pos_nonneg; lia).
  pose proof (bp_opp B HB (p - 1)) as E. rewrite (bp_nat B (p - 1)) in E by lia. replace (- (p - 1))%Z with (1 - p)%Z in E by lia. fold (unit_err B p) in E.
  apply Qeq_eqR in E. rewrite Q2R_mult, Q2R_inj in E. replace (Q2R 1) with 1 in E by (unfold Q2R; cbn; lra). apply IZR_lt in P. field_simplify_eq; [lra|lra].
Qed.
Lemma IZR_nat n : IZR (Z.of_nat n) = INR n.
Proof. symmetry. apply INR_IZR_INZ. Qed.
(** before the last rounding *)
Lemma loop_near B p rd x d s0 fuel s l : (2 <= B)%Z -> (2 <= p)%Z -> nearest B p rd -> (s0 == series_term d x 0)%Q -> (0 < Qabs (series_term d x 0))%Q ->
  (8 * (3 * Z.of_nat fuel + 1) <= B ^ (p - 1))%Z -> Un_cv (fun n => Q2R (series d x n)) l -> loop_from rd x d s0 0 fuel 0 (nums rd x d 0) = Some s ->
  Rabs (Q2R s - l) <= INR (6 * fuel + 4) / IZR (B ^ (p - 1)) * exp (Rabs (Q2R x)).
Proof.
  intros HB HP N S0 NZ SM CV H. destruct (loop_result _ _ _ _ _ _ _ H) as (n & NF & -> & E & _).
  assert (N1 : (1 <= n)%nat). { destruct n as [|n]; [|lia]. exfalso. cbn [sums before] in E. rewrite <- S0, E in NZ. discriminate. }
  assert (BP : (0 < B ^ (p - 1))%Z) by (apply Z.pow_pos_nonneg; lia).
  assert (U : (inject_Z (Z.of_nat (3 * n + 1)) * unit_err B p <= 1 # 8)%Q).
  { apply Rle_Qle. rewrite Q2R_mult, unit_R, Q2R_inj by lia. assert (K : (8 * Z.of_nat (3 * n + 1) <= B ^ (p - 1))%Z) by lia. apply IZR_le in K. rewrite mult_IZR in K. apply IZR_lt in BP.
    replace (Q2R (1 # 8)) with (/ 8) by (unfold Q2R; cbn; lra). apply (Rmult_le_reg_r (IZR (B ^ (p - 1)))); [exact BP|]. rewrite Rmult_assoc, Rinv_l by lra. lra. }
  apply (limit_bound _ l _ _ n CV). intros j. pose proof (stopped B p rd HB HP N x d s0 S0 NZ n N1 U E j) as ST. apply Qle_Rle in ST. rewrite Q2R_absv, Q2R_minus, !Q2R_mult, Q2R_inj, unit_R, IZR_nat in ST by lia.
  eapply Rle_trans; [exact ST|]. apply IZR_lt in BP. assert (IP : 0 < / IZR (B ^ (p - 1))) by (apply Rinv_0_lt_compat; exact BP).
  apply Rmult_le_compat; [apply Rmult_le_pos; [apply pos_INR|lra]| |apply Rmult_le_compat_r; [lra|apply le_INR; lia]|apply series_abs_exp].
  rewrite <- RMicromega.Q2R_0. apply Qle_Rle. apply series_abs_nonneg.
Qed.
Lemma last_rounding B prec rd s c dl : (2 <= B)%Z -> (1 <= prec)%Z -> nearest B prec rd -> Rabs (Q2R s - c) <= dl -> Rabs (Q2R (rd s) - c) <= Rabs c / IZR (B ^ (prec - 1)) + 2 * dl.
Proof.
  intros HB HP N H. pose proof (Qle_Rle _ _ (rd_err B prec rd HB HP N s)) as E. rewrite Q2R_mult, !Q2R_absv, Q2R_minus, unit_R in E by lia.
  assert (B1 : (1 <= B ^ (prec - 1))%Z) by (assert (0 < B ^ (prec - 1))%Z by (apply Z.pow_pos_nonneg; lia); lia). apply IZR_le in B1. set (i := / IZR (B ^ (prec - 1))) in *. assert (I : 0 <= i <= 1). { split; [apply Rlt_le, Rinv_0_lt_compat; lra|]. unfold i. rewrite <- Rinv_1. apply Rinv_le_contravar; lra. }
  unfold Rdiv. fold i. replace (Q2R (rd s) - c) with ((Q2R (rd s) - Q2R s) + (Q2R s - c)) by ring. pose proof (Rabs_triang (Q2R (rd s) - Q2R s) (Q2R s - c)) as T1. pose proof (Rabs_triang (Q2R s - c) c) as T2. replace (Q2R s - c + c) with (Q2R s) in T2 by ring.
  pose proof (Rabs_pos (Q2R s - c)). pose proof (Rabs_pos c). nra.
Qed.
Lemma join B prec c f e : (2 <= B)%Z -> (1 <= prec)%Z ->
  Rabs c / IZR (B ^ (prec - 1)) + 2 * (INR (6 * f + 4) / IZR (B ^ (prec + 2 - 1)) * e) = (Rabs c + INR (12 * f + 8) / IZR (B ^ 2) * e) / IZR (B ^ (prec - 1)).
Proof.
  intros HB HP. replace (prec + 2 - 1)%Z with (2 + (prec - 1))%Z by lia. rewrite Z.pow_add_r, mult_IZR by lia. assert (P : (0 < B ^ (prec - 1))%Z) by (apply Z.pow_pos_nonneg; lia). assert (P2 : (0 < B ^ 2)%Z) by (apply Z.pow_pos_nonneg; lia). apply IZR_lt in P, P2.
  replace (12 * f + 8)%nat with (2 * (6 * f + 4))%nat by lia. rewrite (mult_INR 2). change (INR 2) with 2. field. lra.
Qed.
(** How far the result is from the cosine: the rounding to [prec] digits, plus (12 rounds + 8) / B^2 units of it times e^|x|. *)
Theorem C133_cos : forall B prec rdp x fuel ctx r, (2 <= B)%Z -> (1 <= prec)%Z -> nearest B prec (rdp prec) -> nearest B (prec + 2) (rdp (prec + 2)%Z) ->
  (8 * (3 * Z.of_nat fuel + 1) <= B ^ (prec + 1))%Z -> dec_cos rdp (Some prec) x fuel = Some (ctx, Ok r) ->
  Rabs (Q2R r - cos (Q2R x)) <= (Rabs (cos (Q2R x)) + INR (12 * fuel + 8) / IZR (B ^ 2) * exp (Rabs (Q2R x))) / IZR (B ^ (prec - 1)).
Proof.
  intros B prec rdp x fuel ctx r HB HP N1 N2 SM H. unfold dec_cos in H. rewrite cos_loop in H. destruct (loop_from _ _ _ _ _ _ _ _) as [s|] eqn:L; [|discriminate]. replace (prec + 2 - 2)%Z with prec in H by lia. injection H as _ <-.
  rewrite <- join by assumption. apply (last_rounding B prec); [exact HB|exact HP|exact N1|]. apply (loop_near B (prec + 2) (rdp (prec + 2)%Z) x 0 1); try assumption; [lia|apply cos_t0|reflexivity|replace (prec + 2 - 1)%Z with (prec + 1)%Z by lia; exact SM|apply cos_limit].
Qed.
(** ... and from the sine *)
Theorem C133_sin : forall B prec rdp x fuel ctx r, (2 <= B)%Z -> (1 <= prec)%Z -> nearest B prec (rdp prec) -> nearest B (prec + 2) (rdp (prec + 2)%Z) ->
  (8 * (3 * Z.of_nat fuel + 1) <= B ^ (prec + 1))%Z -> dec_sin rdp (Some prec) x fuel = Some (ctx, Ok r) ->
  Rabs (Q2R r - sin (Q2R x)) <= (Rabs (sin (Q2R x)) + INR (12 * fuel + 8) / IZR (B ^ 2) * exp (Rabs (Q2R x))) / IZR (B ^ (prec - 1)).
Proof.
  intros B prec rdp x fuel ctx r HB HP N1 N2 SM H. unfold dec_sin in H. rewrite sin_loop in H. destruct (loop_from _ _ _ _ _ _ _ _) as [s|] eqn:L; [|discriminate]. replace (prec + 2 - 2)%Z with prec in H by lia. injection H as _ <-.
  rewrite <- join by assumption. apply (last_rounding B prec); [exact HB|exact HP|exact N1|]. destruct (Qeq_bool x 0) eqn:Z0.
  - apply Qeq_bool_iff in Z0. assert (S : s = x). { destruct fuel; unfold loop_from in L; cbn [taylor sums before] in L; rewrite (Qeq_eq_bool _ _ Z0) in L; congruence. }
    subst s. rewrite (Qeq_eqR _ _ Z0), RMicromega.Q2R_0, sin_0, Rminus_0_r, Rabs_R0. apply Rmult_le_pos; [|apply Rlt_le, exp_pos]. apply Rmult_le_pos; [apply pos_INR|]. apply Rlt_le, Rinv_0_lt_compat. apply IZR_lt. apply Z.pow_pos_nonneg; lia.
  - apply Qeq_bool_neq in Z0. apply (loop_near B (prec + 2) (rdp (prec + 2)%Z) x 1 x); try assumption; [lia|apply sin_t0| |replace (prec + 2 - 1)%Z with (prec + 1)%Z by lia; exact SM|apply sin_limit].
    rewrite <- (sin_t0 x). pose proof (Qabs_nonneg x) as G. destruct (Qle_lt_or_eq _ _ G) as [P|E]; [exact P|]. exfalso. apply Z0. apply abs_zero. rewrite <- E. apply Qle_refl.
Qed.

(** Arguments between -1 and 1: k rounds suffice if (2k)! is at least 30 B^(prec+2). *)
Theorem C133_small : forall B prec rdp x k fuel, (2 <= B)%Z -> (1 <= prec)%Z -> nearest B prec (rdp prec) -> nearest B (prec + 2) (rdp (prec + 2)%Z) ->
  (Qabs x <= 1)%Q -> (2 <= k)%nat -> (30 * B ^ (prec + 2) <= factorial (2 * k))%Z -> (16 * (3 * Z.of_nat k + 1) <= B ^ (prec + 1))%Z -> (k <= fuel)%nat ->
  (exists c, dec_cos rdp (Some prec) x fuel = Some (Some prec, Ok c) /\
     Rabs (Q2R c - cos (Q2R x)) <= (Rabs (cos (Q2R x)) + 3 * INR (12 * k + 8) / IZR (B ^ 2)) / IZR (B ^ (prec - 1))) /\
  (exists s, dec_sin rdp (Some prec) x fuel = Some (Some prec, Ok s) /\
     Rabs (Q2R s - sin (Q2R x)) <= (Rabs (sin (Q2R x)) + 3 * INR (12 * k + 8) / IZR (B ^ 2)) / IZR (B ^ (prec - 1))).
Proof.
  intros B prec rdp x k fuel HB HP N1 N2 X1 K2 F SM KF. set (rd := rdp (prec + 2)%Z) in *.
  assert (XX : (x * x <= 1)%Q). { rewrite <- Qabs_sq, Qabs_Qmult. pose proof (Qabs_nonneg x) as G. setoid_replace 1%Q with (1 * 1)%Q by ring. apply Qmult_le_compat_nonneg; split; assumption. }
  assert (BP : (0 < B ^ (prec + 1))%Z) by (apply Z.pow_pos_nonneg; lia).
  assert (U : (inject_Z (Z.of_nat (3 * k + 1)) * unit_err B (prec + 2) <= 1 # 16)%Q).
  { apply Rle_Qle. rewrite Q2R_mult, unit_R, Q2R_inj by lia. replace (prec + 2 - 1)%Z with (prec + 1)%Z by lia. assert (K : (16 * Z.of_nat (3 * k + 1) <= B ^ (prec + 1))%Z) by lia. apply IZR_le in K. rewrite mult_IZR in K. apply IZR_lt in BP.
    replace (Q2R (1 # 16)) with (/ 16) by (unfold Q2R; cbn; lra). apply (Rmult_le_reg_r (IZR (B ^ (prec + 1)))); [exact BP|]. rewrite Rmult_assoc, Rinv_l by lra. lra. }
  assert (EX : exp (Rabs (Q2R x)) <= 3). { apply Rle_trans with (exp 1); [|apply exp_le_3]. rewrite <- Q2R_absv. apply Qle_Rle in X1. replace (Q2R 1) with 1 in X1 by (unfold Q2R; cbn; lra). destruct X1 as [L|L]; [left; apply exp_increasing; exact L|rewrite L; right; reflexivity]. }
  assert (FIN : forall c, Rabs c / IZR (B ^ (prec - 1)) + INR (12 * k + 8) / IZR (B ^ 2) * exp (Rabs (Q2R x)) / IZR (B ^ (prec - 1)) <= (Rabs c + 3 * INR (12 * k + 8) / IZR (B ^ 2)) / IZR (B ^ (prec - 1))).
  { intros c. unfold Rdiv. rewrite <- Rmult_plus_distr_r. assert (P : (0 < B ^ (prec - 1))%Z) by (apply Z.pow_pos_nonneg; lia). assert (P2 : (0 < B ^ 2)%Z) by (apply Z.pow_pos_nonneg; lia). apply IZR_lt in P, P2. apply Rmult_le_compat_r; [apply Rlt_le, Rinv_0_lt_compat; exact P|]. apply Rplus_le_compat_l.
    replace (3 * INR (12 * k + 8) * / IZR (B ^ 2)) with (INR (12 * k + 8) * / IZR (B ^ 2) * 3) by ring. apply Rmult_le_compat_l; [|exact EX]. apply Rmult_le_pos; [apply pos_INR|apply Rlt_le, Rinv_0_lt_compat; exact P2]. }
  assert (E2 : (prec + 2 - 2 = prec)%Z) by lia. split.
  - pose proof (quick B (prec + 2) rd HB ltac:(lia) N2 x 0 1 (cos_t0 x) XX k K2 U F) as Q. destruct (loop_stops rd x 0 1 k 0 k ltac:(lia) ltac:(lia) (Qeq_eq_bool _ _ Q)) as (s & H).
    assert (R : dec_cos rdp (Some prec) x k = Some (Some prec, Ok (rdp prec s))) by (unfold dec_cos; rewrite cos_loop; fold rd; rewrite H, E2; reflexivity).
    exists (rdp prec s). split.
    + unfold dec_cos. fold rd. rewrite cos_loop. unfold loop_from in *. rewrite (taylor_more _ _ _ _ _ _ _ _ _ _ _ KF H), E2. reflexivity.
    + eapply Rle_trans; [apply (C133_cos B prec rdp x k (Some prec)); try assumption; lia|]. rewrite Rdiv_plus_distr. apply FIN.
  - pose proof (quick B (prec + 2) rd HB ltac:(lia) N2 x 1 x (sin_t0 x) XX k K2 U F) as Q. destruct (loop_stops rd x 1 x k 0 k ltac:(lia) ltac:(lia) (Qeq_eq_bool _ _ Q)) as (s & H).
    assert (R : dec_sin rdp (Some prec) x k = Some (Some prec, Ok (rdp prec s))) by (unfold dec_sin; rewrite sin_loop; fold rd; rewrite H, E2; reflexivity).
    exists (rdp prec s). split.
    + unfold dec_sin. fold rd. rewrite sin_loop. unfold loop_from in *. rewrite (taylor_more _ _ _ _ _ _ _ _ _ _ _ KF H), E2. reflexivity.
    + eapply Rle_trans; [apply (C133_sin B prec rdp x k (Some prec)); try assumption; lia|]. rewrite Rdiv_plus_distr. apply FIN.
Qed.

(** Numbers of mpmath with 20 bits (22 in the loop): 8 rounds for the cosine and the sine of 1/2. *)
Example C133_ex : nearest 2 20 (rnd 20) /\ nearest 2 22 (rnd (20 + 2)) /\ (30 * 2 ^ 22 <= factorial (2 * 8))%Z /\ (16 * (3 * 8 + 1) <= 2 ^ 21)%Z /\
  dec_cos rnd (Some 20%Z) (1 # 2) 8 = Some (Some 20%Z, Ok (230053 # 262144)%Q) /\ dec_sin rnd (Some 20%Z) (1 # 2) 8 = Some (Some 20%Z, Ok (251357 # 524288)%Q).
Proof. split; [apply rnd_nearest; lia|]. split; [apply rnd_nearest; lia|]. repeat split; vm_compute; congruence. Qed.

Print Assumptions C133_ends.
Print Assumptions C133_cos.
Print Assumptions C133_sin.
Print Assumptions C133_small.

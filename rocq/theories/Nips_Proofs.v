(** gen_errors_for_nips.py as a whole: the measured errors against the true ones. *)
From Coq Require Import Ascii String ZArith QArith Qabs Qreals Reals Lra Lia List Bool.
From Verif Require Import PyBase PyBase_Proofs Rnd Rnd_Proofs ContFrac_Model Spec_ContFrac ContFrac_Proofs ContFrac_Hist ContFrac_Proofs2 Consts_Model Consts_Proofs Spec_Consts Hashtable_Model Errors_Model Errors_Proofs CF_Limits Spec_Errors Spec_Nips.
Import ListNotations.
Local Open Scope R_scope.

(** ---- the constants: only the modelled digits matter ---- *)
Lemma rnd_red p x q : (rnd p x == q)%Q -> q = Qred q -> rnd p x = q.
Proof.
  intros E R. assert (F : Qred (rnd p x) = rnd p x).
  { unfold rnd. destruct (Qnum x =? 0)%Z; [reflexivity|]. apply Qred_complete, Qred_correct. }
  rewrite <- F, R. apply Qred_complete, E.
Qed.
Lemma pi_rounded tail : Forall is_digit tail -> pi_const tail = pi_502.
Proof.
  intros H. unfold pi_const, mpf_of. rewrite import_prec. apply rnd_red; [|vm_compute; reflexivity].
  apply (head_rounded pi_head pi_h); [apply pi_lit|exact H|vm_compute; reflexivity|vm_compute; reflexivity].
Qed.
Lemma e_rounded tail : Forall is_digit tail -> e_const tail = e_502.
Proof.
  intros H. unfold e_const, mpf_of. rewrite import_prec. apply rnd_red; [|vm_compute; reflexivity].
  apply (head_rounded e_head e_h); [apply e_lit|exact H|vm_compute; reflexivity|vm_compute; reflexivity].
Qed.
Lemma consts_eq pt et : Forall is_digit pt -> Forall is_digit et ->
  nips_consts pt et = (set_dps 100, Ok (rnd 336 pi_502, rnd 336 e_502)).
Proof.
  intros H1 H2. unfold nips_consts. rewrite (pi_rounded pt H1), (e_rounded et H2). unfold call_gen, call_body, set_precision. cbn [tl].
  change (100 =? 0)%Z with false. cbv iota. replace (mp_prec (set_dps 100)) with 336%Z by (vm_compute; reflexivity). reflexivity.
Qed.
Definition nt (k : nat) : Q := nips_target (rnd 336) (rnd 336 pi_502) (rnd 336 e_502) k.
Definition nt1 : Q := Eval vm_compute in nt 1.
Definition nt2 : Q := Eval vm_compute in nt 2.
Definition nt4 : Q := Eval vm_compute in nt 4.
Lemma nt_eq : nt 1 = nt1 /\ nt 2 = nt2 /\ nt 3 = nt2 /\ nt 4 = nt4.
Proof. split; [|split; [|split]]; vm_compute; reflexivity. Qed.

(** ---- the targets ---- *)
Lemma bracket (t lo hi tau : Q) (K : R) : Q2R lo <= K <= Q2R hi -> Qle_bool (t - tau) lo = true -> Qle_bool hi (t + tau) = true -> Rabs (Q2R t - K) <= Q2R tau.
Proof.
  intros [A B] C D. apply Qle_bool_iff, Qle_Rle in C, D. rewrite Q2R_minus in C. rewrite Q2R_plus in D. apply Rabs_le. lra.
Qed.
Definition plo : Q := (pi_h # (10 ^ 200)%positive).
Definition phi' : Q := (pi_h + 1 # (10 ^ 200)%positive).
Definition elo : Q := (e_h # (10 ^ 200)%positive).
Definition ehi : Q := (e_h + 1 # (10 ^ 200)%positive).
Lemma pi_in : Q2R plo <= PI <= Q2R phi'.
Proof. unfold plo, phi'. rewrite !frac200. apply pi_lit. Qed.
Lemma e_in : Q2R elo <= exp 1 <= Q2R ehi.
Proof. unfold elo, ehi. rewrite !frac200. apply e_lit. Qed.
Lemma over (c : R) (x y z : Q) (K : R) : 0 <= c -> Qle_bool (1#2) x = true -> Q2R x <= K <= Q2R y -> c / Q2R y <= c / K <= c / Q2R x.
Proof.
  intros C X [A B]. apply Qle_bool_iff, Qle_Rle in X. assert (H : 0 < Q2R x) by (unfold Q2R at 1 in X; cbn in X; lra).
  split; apply Rmult_le_compat_l; try exact C; apply Rinv_le_contravar; lra.
Qed.
Lemma Q2R_4 : Q2R 4 = 4. Proof. unfold Q2R. cbn. lra. Qed.
Lemma Q2R_1 : Q2R 1 = 1. Proof. unfold Q2R. cbn. lra. Qed.
Lemma Q2R_2 : Q2R 2 = 2. Proof. unfold Q2R. cbn. lra. Qed.
Lemma Q2R_3 : Q2R 3 = 3. Proof. unfold Q2R. cbn. lra. Qed.
Definition tau1 : Q := 14 # (10 ^ 102).
Definition tau23 : Q := 27 # (10 ^ 103).
Definition tau4 : Q := 32 # (10 ^ 102).
Lemma qnz x : Qle_bool (1#2) x = true -> ~ (x == 0)%Q.
Proof. intros H E. apply Qle_bool_iff in H. rewrite E in H. apply H. reflexivity. Qed.
Lemma target23 : Rabs (Q2R nt2 - 4 / PI) <= Q2R tau23.
Proof.
  apply (bracket nt2 (4 / phi') (4 / plo) tau23); [|vm_compute; reflexivity|vm_compute; reflexivity].
  rewrite !Q2R_div, Q2R_4 by (apply qnz; vm_compute; reflexivity). apply over; [exact 0%Q|lra|vm_compute; reflexivity|exact pi_in].
Qed.
Lemma target1 : Rabs (Q2R nt1 - 1 / (exp 1 / 2 - 1)) <= Q2R tau1.
Proof.
  apply (bracket nt1 (1 / (ehi / 2 - 1)) (1 / (elo / 2 - 1)) tau1); [|vm_compute; reflexivity|vm_compute; reflexivity].
  pose proof e_in as [A B].
  assert (E1 : 0 < Q2R (elo / 2 - 1)). { assert (X : (1#4 <= elo / 2 - 1)%Q) by (apply Qle_bool_iff; vm_compute; reflexivity). apply Qle_Rle in X. unfold Q2R at 1 in X. cbn in X. lra. }
  assert (N1 : ~ (elo / 2 - 1 == 0)%Q) by (apply Qeq_bool_neq; vm_compute; reflexivity). assert (N2 : ~ (ehi / 2 - 1 == 0)%Q) by (apply Qeq_bool_neq; vm_compute; reflexivity).
  rewrite !(Q2R_div 1), Q2R_1 by assumption. rewrite !Q2R_minus, !Q2R_div, !Q2R_1, !Q2R_2 in * by (intros H; discriminate H).
  split; apply Rmult_le_compat_l; try lra; apply Rinv_le_contravar; lra.
Qed.
Lemma target4 : Rabs (Q2R nt4 - (PI + 3)) <= Q2R tau4.
Proof.
  apply (bracket nt4 (plo + 3) (phi' + 3) tau4); [|vm_compute; reflexivity|vm_compute; reflexivity].
  rewrite !Q2R_plus, Q2R_3. pose proof pi_in. lra.
Qed.

(** ---- the measured error against the true one ---- *)
Definition u336 : Q := two_p (-336).
Lemma noise (x v t tau V D : Q) (K : R) : approx x v (4 * two_p (- (336))) -> Rabs (Q2R t - K) <= Q2R tau -> Rabs (Q2R v) <= Q2R V -> Rabs (Q2R v - K) <= Q2R D ->
  Rabs (Q2R (Qabs (rnd 336 (x - t))) - Rabs (Q2R v - K)) <= Q2R (tau + 4 * u336 * V + u336 * (D + tau + 4 * u336 * V)).
Proof.
  intros HA HT HV HD. unfold approx in HA. apply Qle_Rle in HA. change (- (336))%Z with (-336)%Z in HA. fold u336 in HA.
  rewrite !Q2R_abs, !Q2R_minus, !Q2R_mult, Q2R_abs, Q2R_4 in HA.
  pose proof (Qle_Rle _ _ (rnd_err 336 (x - t))) as HR. change (- (336))%Z with (-336)%Z in HR. fold u336 in HR. rewrite Q2R_mult, !Q2R_abs, !Q2R_minus in HR.
  assert (U : 0 <= Q2R u336). { rewrite <- RMicromega.Q2R_0. apply Qle_Rle. apply Qlt_le_weak, two_p_pos. }
  rewrite !Q2R_plus, !Q2R_mult, !Q2R_plus, !Q2R_mult, Q2R_4, Q2R_abs. generalize dependent (Q2R (rnd 336 (x - t))). intros r HR.
  set (u := Q2R u336) in *. set (X := Q2R x) in *. set (W := Q2R v) in *. set (T := Q2R t) in *. set (tt := Q2R tau) in *. set (VV := Q2R V) in *. set (DD := Q2R D) in *.
  assert (B1 : Rabs (X - W) <= 4 * u * VV) by (eapply Rle_trans; [exact HA|]; apply Rmult_le_compat_l; [lra|exact HV]).
  assert (B2 : Rabs (X - T) <= DD + tt + 4 * u * VV).
  { replace (X - T) with ((X - W) + (W - K) + - (T - K)) by ring. eapply Rle_trans; [apply Rabs_triang|]. rewrite Rabs_Ropp. pose proof (Rabs_triang (X - W) (W - K)). lra. }
  assert (B3 : Rabs (r - (X - T)) <= u * (DD + tt + 4 * u * VV)) by (eapply Rle_trans; [exact HR|]; apply Rmult_le_compat_l; [exact U|exact B2]).
  eapply Rle_trans; [apply Rabs_triang_inv2|]. replace (r - (W - K)) with ((r - (X - T)) + (X - W) + - (T - K)) by ring.
  eapply Rle_trans; [apply Rabs_triang|]. rewrite Rabs_Ropp. pose proof (Rabs_triang (r - (X - T)) (X - W)). lra.
Qed.
Definition cutn (k n : nat) : option Q := nested (inject_Z (icoef (nips_a k) 0)) (toQ (icoefs (nips_a k) (nips_b k) (map Z.of_nat (seq 1 n)))).
Lemma errv_fin k n v t : cutn k n = Some v -> exists x, errv (rnd 336) (nips_a k) (nips_b k) t (Z.of_nat n) = Fin (Qabs (rnd 336 (x - t))) /\ approx x v (4 * two_p (- (336))).
Proof.
  intros E. unfold cutn in E. destruct (nested_cont _ _ _ E) as [NQ EV]. destruct (pq_value_err 336 (contP (icoef (nips_a k) 0) (icoefs (nips_a k) (nips_b k) (map Z.of_nat (seq 1 n)))) _ ltac:(lia) NQ) as (x & Ex & Ax).
  exists x. split; [|unfold approx in *; rewrite EV; exact Ax]. unfold errv, upto. rewrite Nat2Z.id, Ex. reflexivity.
Qed.

(** ---- bounds of the true errors inside the windows ---- *)
Lemma rat_low (q : Q) (n d : Z) : (0 < d)%Z -> Qle_bool q (n # Z.to_pos d) = true -> Q2R q <= IZR n / IZR d.
Proof. intros H A. apply Qle_bool_iff, Qle_Rle in A. unfold Q2R at 2 in A. cbn [Qnum Qden] in A. rewrite Z2Pos.id in A by exact H. exact A. Qed.
Lemma rat_high (q : Q) (n d : Z) : (0 < d)%Z -> Qle_bool (n # Z.to_pos d) q = true -> IZR n / IZR d <= Q2R q.
Proof. intros H A. apply Qle_bool_iff, Qle_Rle in A. unfold Q2R at 1 in A. cbn [Qnum Qden] in A. rewrite Z2Pos.id in A by exact H. exact A. Qed.
Fixpoint zfact (n : nat) : Z := match n with O => 1 | S m => (Z.of_nat (S m) * zfact m)%Z end.
Lemma zfact_R n : INR (fact n) = IZR (zfact n).
Proof. induction n as [|n IH]; [reflexivity|]. cbn [zfact]. rewrite mult_IZR, <- IH, <- INR_IZR_INZ, <- mult_INR. reflexivity. Qed.
Lemma zfact_pos n : (0 < zfact n)%Z.
Proof. induction n; cbn [zfact]; lia. Qed.
Definition err (k n : nat) : R := Rabs (rP k n / rQ k n - limit_of k).
Definition low1 : Q := 8 # (10 ^ 98).
Lemma err1_low n : (n <= 65)%nat -> Q2R low1 <= err 1 n.
Proof.
  intros H. unfold err. cbn [limit_of]. eapply Rle_trans; [|apply nips1_error].
  apply Rle_trans with (14 / INR (fact 69)).
  - rewrite zfact_R. apply (rat_low low1 14 (zfact 69)); [apply zfact_pos|vm_compute; reflexivity].
  - apply Rmult_le_compat_l; [lra|]. apply Rinv_le_contravar; [apply INR_fact_lt_0|]. apply le_INR, fact_le. lia.
Qed.

Lemma rP2 n : rP 2 n / rQ 2 n = / s2 n.
Proof.
  assert (Q : rQ 2 n = s2 n * rP 2 n) by (apply cf2_q; try reflexivity; intros m; destruct (rPQ_rec 2 m) as [E1 E2]; rewrite ?E1, ?E2, nips_a2, nips_b2, plus_IZR, !mult_IZR, minus_IZR, !mult_IZR, <- INR_IZR_INZ; reflexivity).
  assert (P : 0 < rP 2 n) by (apply cf2_p_pos; try reflexivity; intros m; destruct (rPQ_rec 2 m) as [E1 E2]; rewrite ?E1, ?E2, nips_a2, nips_b2, plus_IZR, !mult_IZR, minus_IZR, !mult_IZR, <- INR_IZR_INZ; reflexivity).
  rewrite Q. pose proof (s2_bounds n). field. lra.
Qed.
Lemma s2_dec n m : (n <= m)%nat -> s2 m <= s2 n.
Proof. induction 1 as [|m _ IH]; [lra|]. rewrite s2_step. pose proof (tau2_pos (S m)). lra. Qed.
Lemma s2_above n : PI / 4 < s2 n.
Proof. pose proof (s2_err n) as [A _]. pose proof (tau2_pos (S n)). lra. Qed.
Lemma err2_eq n : err 2 n = 4 / PI - / s2 n.
Proof.
  unfold err. cbn [limit_of]. rewrite rP2, Rabs_minus_sym, Rabs_right; [reflexivity|]. pose proof (s2_above n). pose proof PI_RGT_0.
  replace (4 / PI) with (/ (PI / 4)) by (field; lra). assert (/ s2 n <= / (PI / 4)) by (apply Rinv_le_contravar; lra). lra.
Qed.
Lemma err2_dec n m : (n <= m)%nat -> err 2 m <= err 2 n.
Proof.
  intros H. rewrite !err2_eq. pose proof (s2_dec n m H). pose proof (s2_bounds m). assert (/ s2 n <= / s2 m) by (apply Rinv_le_contravar; lra). lra.
Qed.
Definition low2 : Q := 7 # (10 ^ 100).
Lemma err2_low n : (n <= 300)%nat -> Q2R low2 <= err 2 n.
Proof.
  intros H. eapply Rle_trans; [|apply (err2_dec n 300 H)]. rewrite err2_eq, <- rP2. pose proof (nips2_error 300) as [A _]. eapply Rle_trans; [|exact A].
  assert (S : 24 <= sqrt (2 * INR 300 + 3)).
  { replace 24 with (sqrt (24 * 24)) by (apply sqrt_square; lra). apply sqrt_le_1_alt. rewrite INR_IZR_INZ. change (Z.of_nat 300) with 300%Z. lra. }
  assert (R : r2 301 * r2 300 = IZR (91505 * 90901)). { unfold r2. rewrite !INR_IZR_INZ. change (Z.of_nat 300) with 300%Z. change (Z.of_nat 301) with 301%Z. rewrite mult_IZR. lra. }
  rewrite R. rewrite pow_inv, (pow_Z 2 301).
  apply Rle_trans with (24 * / IZR (2 ^ Z.of_nat 301) / IZR (91505 * 90901)).
  - replace (24 * / IZR (2 ^ Z.of_nat 301) / IZR (91505 * 90901)) with (IZR 24 / IZR (2 ^ Z.of_nat 301 * (91505 * 90901))).
    + apply rat_low; [vm_compute; reflexivity|vm_compute; reflexivity].
    + rewrite (mult_IZR (2 ^ Z.of_nat 301)). field. split; apply not_0_IZR; vm_compute; discriminate.
  - unfold Rdiv. apply Rmult_le_compat_r; [left; apply Rinv_0_lt_compat, IZR_lt; reflexivity|]. apply Rmult_le_compat_r; [left; apply Rinv_0_lt_compat, IZR_lt; vm_compute; reflexivity|exact S].
Qed.

(** fraction 3 *)
Definition d3 (n : nat) : R := Rabs (s3 n - PI / 4).
Lemma rec3 : forall m, rP 3 (S (S m)) = (1 + 2 * INR (S (S m))) * rP 3 (S m) + INR (S (S m)) * INR (S (S m)) * rP 3 m.
Proof. intros m. destruct (rPQ_rec 3 m) as [E1 E2]. rewrite E1, nips_a3, nips_b3, plus_IZR, !mult_IZR, <- INR_IZR_INZ. reflexivity. Qed.
Lemma rec3' : forall m, rQ 3 (S (S m)) = (1 + 2 * INR (S (S m))) * rQ 3 (S m) + INR (S (S m)) * INR (S (S m)) * rQ 3 m.
Proof. intros m. destruct (rPQ_rec 3 m) as [E1 E2]. rewrite E2, nips_a3, nips_b3, plus_IZR, !mult_IZR, <- INR_IZR_INZ. reflexivity. Qed.
Lemma rP3 n : rP 3 n = b3 n.
Proof. apply cf3_p; try reflexivity. exact rec3. Qed.
Lemma rPQ3 n : rP 3 n / rQ 3 n = / s3 n.
Proof.
  assert (Q : rQ 3 n = aA (S n) 1) by (apply cf3_q; try reflexivity; exact rec3').
  assert (P : 0 < rQ 3 n) by (apply cf3_q_pos; try reflexivity; exact rec3').
  rewrite rP3, Q. rewrite Q in P. unfold s3. fold (b3 n). pose proof (b3_pos n). field. lra.
Qed.
Lemma s3_bounds n : 7 / 10 <= s3 n <= 1.
Proof.
  pose proof PI2_3_2 as P3. assert (P4 : PI <= 4) by apply PI_4. pose proof (s3_err n) as [E1 E2].
  destruct n as [|n]; [unfold s3, aA, bB; cbn; lra|]. assert (W : Rabs (s3 (S n) - PI / 4) <= 1 / 24).
  - eapply Rle_trans; [exact E2|]. rewrite S_INR in *. pose proof (pos_INR n). cbn [pow]. assert (Q : 0 < (/ 4) ^ n <= 1).
    { split; [apply pow_lt; lra|]. rewrite <- (pow1 n). apply pow_incr. lra. }
    apply Rmult_le_reg_r with (2 * (INR n + 1 + 2)); [lra|]. unfold Rdiv. rewrite Rmult_assoc, Rinv_l by lra. nra.
  - pose proof (atan_side 1) as A1. pose proof (atan_side 2) as A2. unfold aA, bB in A1, A2. cbn in A1, A2.
    assert (PI / 4 <= 19 / 24) by lra. pose proof (Rle_abs (s3 (S n) - PI / 4)). pose proof (Rle_abs (- (s3 (S n) - PI / 4))) as Z. rewrite Rabs_Ropp in Z. lra.
Qed.
Lemma err3_d3 n : 127 / 100 * d3 n <= err 3 n <= 2 * d3 n.
Proof.
  unfold err, d3. cbn [limit_of]. rewrite rPQ3. pose proof (s3_bounds n) as B. pose proof PI2_3_2 as P3.
  assert (P4 : PI <= 3142 / 1000). { pose proof pi_in as [_ A]. eapply Rle_trans; [exact A|]. change (3142 / 1000) with (Q2R (3142 # 1000)). apply Qle_Rle, Qle_bool_iff. vm_compute. reflexivity. }
  replace (4 / PI) with (/ (PI / 4)) by (field; lra). replace (/ s3 n - / (PI / 4)) with (- ((s3 n - PI / 4) * (/ (PI / 4) * / s3 n))) by (field; lra).
  assert (S1 : 1 <= / s3 n <= 10 / 7) by (split; [replace 1 with (/ 1) by field|replace (10 / 7) with (/ (7 / 10)) by field]; apply Rinv_le_contravar; lra).
  assert (S2 : 127 / 100 <= / (PI / 4) <= 4 / 3) by (split; [replace (127 / 100) with (/ (100 / 127)) by field|replace (4 / 3) with (/ (3 / 4)) by field]; apply Rinv_le_contravar; lra).
  assert (M : 127 / 100 <= / (PI / 4) * / s3 n <= 2) by nra. rewrite Rabs_Ropp, Rabs_mult, (Rabs_right (/ (PI / 4) * / s3 n)) by lra. pose proof (Rabs_pos (s3 n - PI / 4)) as AP. nra.
Qed.
Lemma b3_grow n : (2 * INR n + 3) * b3 n <= b3 (S n).
Proof.
  destruct n as [|n]; [unfold b3, bB; cbn; lra|]. rewrite b3_S, S_INR. pose proof (b3_pos n). pose proof (pos_INR n). pose proof (b3_pos (S n)). nra.
Qed.
Lemma d3_step n : d3 (S n) <= d3 n.
Proof.
  unfold d3. eapply Rle_trans; [apply s3_upper|]. eapply Rle_trans; [|apply s3_lower]. rewrite (fact_R (S n)), S_INR.
  pose proof (b3_pos n) as P0. pose proof (b3_pos (S n)) as P1. pose proof (b3_pos (S (S n))) as P2. pose proof (b3_grow n) as G. pose proof (fact_pos (S n)) as F. pose proof (pos_INR n) as N.
  set (f := INR (fact (S n))) in *. set (x := INR n) in *.
  apply (Rmult_le_reg_r (b3 n * b3 (S n) * b3 (S (S n)))); [repeat apply Rmult_lt_0_compat; assumption|].
  replace ((x + 1 + 1) * f * ((x + 1 + 1) * f) / (b3 (S n) * b3 (S (S n))) * (b3 n * b3 (S n) * b3 (S (S n)))) with (f * f * ((x + 2) * (x + 2) * b3 n)) by (field; lra).
  replace ((2 * x + 5) * (f * f) / (b3 n * b3 (S (S n))) * (b3 n * b3 (S n) * b3 (S (S n)))) with (f * f * ((2 * x + 5) * b3 (S n))) by (field; lra).
  apply Rmult_le_compat_l; [nra|]. apply Rle_trans with ((2 * x + 5) * ((2 * x + 3) * b3 n)); [|apply Rmult_le_compat_l; lra].
  rewrite <- Rmult_assoc. apply Rmult_le_compat_r; [lra|]. nra.
Qed.
Lemma d3_dec n m : (n <= m)%nat -> d3 m <= d3 n.
Proof. induction 1 as [|m _ IH]; [lra|]. pose proof (d3_step m). lra. Qed.
Definition zP3 (n : nat) : Z := nth_P (nips_a 3) (nips_b 3) n.
Lemma zP3_R n : b3 n = IZR (zP3 n).
Proof. rewrite <- rP3. reflexivity. Qed.
Lemma d3_low_Z n : IZR ((2 * Z.of_nat n + 5) * (zfact (S n) * zfact (S n))) / IZR (zP3 n * zP3 (S (S n))) <= d3 n.
Proof.
  eapply Rle_trans; [|apply s3_lower]. rewrite !zP3_R, zfact_R, INR_IZR_INZ, !mult_IZR, plus_IZR, mult_IZR. apply Rle_refl.
Qed.
Lemma d3_high_Z n : d3 n <= IZR (zfact (S n) * zfact (S n)) / IZR (zP3 n * zP3 (S n)).
Proof.
  eapply Rle_trans; [apply s3_upper|]. rewrite !zP3_R, zfact_R, !mult_IZR. apply Rle_refl.
Qed.
Lemma zP3_pos n : (0 < zP3 n)%Z.
Proof. apply lt_IZR. rewrite <- zP3_R. apply b3_pos. Qed.
Definition dlow3 : Q := 378 # (10 ^ 102).
Lemma d3_low : Q2R dlow3 <= d3 129.
Proof. refine (Rle_trans _ _ _ (rat_low dlow3 _ _ _ _) (d3_low_Z 129)); [apply Z.mul_pos_pos; apply zP3_pos|vm_compute; reflexivity]. Qed.
Definition dhigh3 : Q := 14 # (10 ^ 102).
Lemma d3_high : d3 131 <= Q2R dhigh3.
Proof. refine (Rle_trans _ _ _ (d3_high_Z 131) (rat_high dhigh3 _ _ _ _)); [apply Z.mul_pos_pos; apply zP3_pos|vm_compute; reflexivity]. Qed.
Definition low3 : Q := 48 # (10 ^ 101).
Lemma err3_low n : (n <= 129)%nat -> Q2R low3 <= err 3 n.
Proof.
  intros H. eapply Rle_trans; [|apply err3_d3]. pose proof (d3_dec n 129 H) as A. pose proof d3_low as B.
  apply Rle_trans with (Q2R (127 # 100) * Q2R dlow3); [rewrite <- Q2R_mult; apply Qle_Rle, Qle_bool_iff; vm_compute; reflexivity|]. change (127 / 100) with (Q2R (127 # 100)). apply Rmult_le_compat_l; [unfold Q2R; cbn; lra|lra].
Qed.
Lemma err3_high n : (131 <= n)%nat -> err 3 n <= Q2R (2 * dhigh3).
Proof. intros H. rewrite Q2R_mult, Q2R_2. pose proof (err3_d3 n) as [_ A]. pose proof (d3_dec 131 n H) as B. pose proof d3_high as C. lra. Qed.

(** fraction 4 *)
Definition low4 : Q := 1 # (10 ^ 8).
Lemma err4_low n : (n <= 130)%nat -> Q2R low4 <= err 4 n.
Proof.
  intros H. unfold err. cbn [limit_of]. eapply Rle_trans; [|apply nips4_error]. unfold U4. apply le_INR in H. pose proof (pos_INR n) as N. rewrite (INR_IZR_INZ 130) in H. change (Z.of_nat 130) with 130%Z in H.
  set (x := INR n) in *. apply Rle_trans with (/ (131 * 132 * 263) / 2); [unfold Q2R, low4; cbn; lra|]. apply Rmult_le_compat_r; [lra|].
  apply Rinv_le_contravar; [repeat apply Rmult_lt_0_compat; lra|]. apply Rmult_le_compat; try nra. 
Qed.

(** sizes *)
Lemma size1 n : err 1 n <= Q2R (2 # 1).
Proof.
  unfold err. cbn [limit_of]. eapply Rle_trans; [apply nips1_error|]. apply Rle_trans with (32 / INR (fact 4)).
  - apply Rmult_le_compat_l; [lra|]. apply Rinv_le_contravar; [apply INR_fact_lt_0|]. apply le_INR, fact_le. lia.
  - rewrite zfact_R. change (zfact 4) with 24%Z. unfold Q2R. cbn. lra.
Qed.
Lemma size2 n : err 2 n <= Q2R (1 # 3) /\ Rabs (rP 2 n / rQ 2 n) <= Q2R (4 # 3).
Proof.
  rewrite err2_eq, rP2. pose proof (s2_bounds n) as B. pose proof PI2_3_2 as P3.
  assert (S1 : 1 <= / s2 n <= 4 / 3) by (split; [replace 1 with (/ 1) by field|replace (4 / 3) with (/ (3 / 4)) by field]; apply Rinv_le_contravar; lra).
  assert (S2 : 4 / PI <= 4 / 3) by (apply Rmult_le_compat_l; [lra|]; apply Rinv_le_contravar; lra).
  rewrite Rabs_right by lra. unfold Q2R; cbn. lra.
Qed.
Lemma size3 n : err 3 n <= Q2R (1 # 2) /\ Rabs (rP 3 n / rQ 3 n) <= Q2R (10 # 7).
Proof.
  pose proof (s3_bounds n) as B. pose proof PI2_3_2 as P3. assert (P4 : PI <= 4) by apply PI_4.
  assert (S1 : 1 <= / s3 n <= 10 / 7) by (split; [replace 1 with (/ 1) by field|replace (10 / 7) with (/ (7 / 10)) by field]; apply Rinv_le_contravar; lra).
  assert (S2 : 1 <= / (PI / 4) <= 4 / 3) by (split; [replace 1 with (/ 1) by field|replace (4 / 3) with (/ (3 / 4)) by field]; apply Rinv_le_contravar; lra).
  unfold err. cbn [limit_of]. rewrite rPQ3. replace (4 / PI) with (/ (PI / 4)) by (field; lra). rewrite (Rabs_right (/ s3 n)) by lra.
  split; [|unfold Q2R; cbn; lra]. unfold Q2R; cbn. apply Rabs_le. lra.
Qed.
Lemma size4 n : err 4 n <= Q2R (1 # 6).
Proof.
  unfold err. cbn [limit_of]. eapply Rle_trans; [apply nips4_error|]. unfold U4. pose proof (pos_INR n) as N. apply Rle_trans with (/ 6); [|unfold Q2R; cbn; lra].
  apply Rinv_le_contravar; [lra|]. set (x := INR n) in *. assert (2 <= (x + 1) * (x + 2)) by nra. nra.
Qed.

(** ---- the points ---- *)
(** the measured error is within a tenth of the true one *)
Definition good (k n : nat) : Prop := exists e v, errv (rnd 336) (nips_a k) (nips_b k) (nt k) (Z.of_nat n) = Fin e /\ cutn k n = Some v /\
  Rabs (Q2R e - Rabs (Q2R v - limit_of k)) <= Rabs (Q2R v - limit_of k) / 10 /\ above (effective_zero 100) (Fin e) = true.
Definition nbound (tau V D : Q) : Q := tau + 4 * u336 * V + u336 * (D + tau + 4 * u336 * V).
Lemma above_iff eps e : (0 <= e)%Q -> (above eps (Fin e) = true <-> (eps < e)%Q).
Proof.
  intros H. cbn [above]. destruct (Qle_bool (Qabs e) eps) eqn:F; cbn [negb].
  - apply Qle_bool_iff in F. rewrite (Qabs_pos e H) in F. split; [discriminate|]. intros G. exfalso. apply (Qlt_not_le _ _ G F).
  - split; [intros _|reflexivity]. apply Qnot_le_lt. intros G. rewrite <- (Qabs_pos e H) in G. apply Qle_bool_iff in G. congruence.
Qed.


Lemma point k n (tau V D lam : Q) : (1 <= k <= 4)%nat -> Rabs (Q2R (nt k) - limit_of k) <= Q2R tau -> Rabs (rP k n / rQ k n) <= Q2R V -> err k n <= Q2R D -> Q2R lam <= err k n ->
  Qle_bool (10 * nbound tau V D) lam = true -> Qle_bool (1 # (10 ^ 100)) (lam * (8 # 10)) = true -> Qle_bool (1 # (10 ^ 200)) lam = true -> good k n.
Proof.
  intros Hk HT HV HD HL C1 C2 C3. destruct (nips_nested k n Hk) as [v E]. pose proof (nested_R k n v E) as ER. destruct (errv_fin k n v (nt k) E) as (x & Ex & Ax).
  exists (Qabs (rnd 336 (x - nt k))), v. split; [exact Ex|]. split; [exact E|]. unfold err in *. rewrite <- ER in *.
  pose proof (noise x v (nt k) tau V D (limit_of k) Ax HT HV HD) as N. fold (nbound tau V D) in N. apply Qle_bool_iff, Qle_Rle in C1. rewrite Q2R_mult in C1. replace (Q2R 10) with 10 in C1 by (unfold Q2R; cbn; lra).
  set (w := Rabs (Q2R v - limit_of k)) in *. split; [lra|]. apply above_iff; [apply Qabs_nonneg|]. apply Qle_bool_iff, Qle_Rle in C2. rewrite Q2R_mult in C2. unfold effective_zero.
  apply Qle_bool_iff, Qle_Rle in C3. assert (L0 : 0 < Q2R lam) by (eapply Rlt_le_trans; [|exact C3]; rewrite <- RMicromega.Q2R_0; apply Qlt_Rlt; reflexivity).
  replace (Q2R (8 # 10)) with (8 / 10) in C2 by (unfold Q2R; cbn; lra). apply Qreals.Rlt_Qlt. pose proof (Rle_abs (- (Q2R (Qabs (rnd 336 (x - nt k))) - w))) as N'. rewrite Rabs_Ropp in N'. lra.
Qed.
Lemma size_v k n K D V : Rabs (limit_of k) <= Q2R K -> err k n <= Q2R D -> Qle_bool (K + D) V = true -> Rabs (rP k n / rQ k n) <= Q2R V.
Proof.
  intros A B C. apply Qle_bool_iff, Qle_Rle in C. rewrite Q2R_plus in C. unfold err in B. replace (rP k n / rQ k n) with ((rP k n / rQ k n - limit_of k) + limit_of k) by ring.
  eapply Rle_trans; [apply Rabs_triang|]. lra.
Qed.
Lemma near_le (t tau K : Q) (L : R) : Rabs (Q2R t - L) <= Q2R tau -> Qle_bool (Qabs t + tau) K = true -> Rabs L <= Q2R K.
Proof.
  intros A C. apply Qle_bool_iff, Qle_Rle in C. rewrite Q2R_plus, Q2R_abs in C. replace L with (Q2R t + - (Q2R t - L)) by ring. eapply Rle_trans; [apply Rabs_triang|]. rewrite Rabs_Ropp. lra.
Qed.
Lemma good1 n : (n <= 65)%nat -> good 1 n.
Proof.
  intros H. assert (T : Rabs (Q2R (nt 1) - limit_of 1) <= Q2R tau1) by (destruct nt_eq as (E & _); rewrite E; exact target1).
  apply (point 1 n tau1 5 (2 # 1) low1); [lia|exact T| |apply size1|apply err1_low; exact H|vm_compute; reflexivity|vm_compute; reflexivity|vm_compute; reflexivity].
  apply (size_v 1 n 3 (2 # 1) 5); [|apply size1|reflexivity]. apply (near_le nt1 tau1 3); [exact target1|vm_compute; reflexivity].
Qed.
Lemma good2 n : (n <= 300)%nat -> good 2 n.
Proof.
  intros H. assert (T : Rabs (Q2R (nt 2) - limit_of 2) <= Q2R tau23) by (destruct nt_eq as (_ & E & _); rewrite E; exact target23).
  apply (point 2 n tau23 (4 # 3) (1 # 3) low2); [lia|exact T|apply size2|apply size2|apply err2_low; exact H|vm_compute; reflexivity|vm_compute; reflexivity|vm_compute; reflexivity].
Qed.
Lemma target3 : Rabs (Q2R (nt 3) - limit_of 3) <= Q2R tau23.
Proof. destruct nt_eq as (_ & _ & E & _). rewrite E. exact target23. Qed.
Lemma good3 n : (n <= 129)%nat -> good 3 n.
Proof.
  intros H. apply (point 3 n tau23 (10 # 7) (1 # 2) low3); [lia|exact target3|apply size3|apply size3|apply err3_low; exact H|vm_compute; reflexivity|vm_compute; reflexivity|vm_compute; reflexivity].
Qed.
Lemma good4 n : (n <= 130)%nat -> good 4 n.
Proof.
  intros H. assert (T : Rabs (Q2R (nt 4) - limit_of 4) <= Q2R tau4) by (destruct nt_eq as (_ & _ & _ & E); rewrite E; exact target4).
  apply (point 4 n tau4 7 (1 # 6) low4); [lia|exact T| |apply size4|apply err4_low; exact H|vm_compute; reflexivity|vm_compute; reflexivity|vm_compute; reflexivity].
  apply (size_v 4 n (62 # 10) (1 # 6) 7); [|apply size4|reflexivity]. apply (near_le nt4 tau4 (62 # 10)); [exact target4|vm_compute; reflexivity].
Qed.
(** The last point of the window of fraction 3 is just above the threshold; the general bound does not settle it. *)
Definition e130 : Q := Eval vm_compute in match errv (rnd 336) (nips_a 3) (nips_b 3) nt2 130 with Fin q => q | NaN => 0%Q end.
Definition zQ3 (n : nat) : Z := nth_Q (nips_a 3) (nips_b 3) n.
Definition c130 : Q := Eval vm_compute in (zP3 130 # Z.to_pos (zQ3 130)).
Lemma c_eq n c : (0 < zQ3 n)%Z -> (zP3 n # Z.to_pos (zQ3 n)) = c -> rP 3 n / rQ 3 n = Q2R c.
Proof. intros H <-. unfold Q2R. cbn [Qnum Qden]. rewrite Z2Pos.id by exact H. reflexivity. Qed.
Lemma good3_130 : good 3 130.
Proof.
  destruct (nips_nested 3 130 ltac:(lia)) as [v E]. pose proof (nested_R 3 130 v E) as ER. exists e130, v. destruct nt_eq as (_ & _ & N & _). rewrite N.
  split; [vm_compute; reflexivity|]. split; [exact E|]. split; [|vm_compute; reflexivity]. cbn [limit_of].
  assert (EC : rP 3 130 / rQ 3 130 = Q2R c130).
  { apply c_eq; vm_compute; reflexivity. }
  rewrite ER, EC.
  assert (B : 4 / Q2R phi' <= 4 / PI <= 4 / Q2R plo) by (apply over; [exact 0%Q|lra|vm_compute; reflexivity|exact pi_in]).
  rewrite <- !Q2R_4, <- !Q2R_div in B by (apply qnz; vm_compute; reflexivity). rewrite Q2R_4 in B.
  assert (C1 : Qle_bool (10 * e130) (11 * (4 / phi' - c130)) = true) by (vm_compute; reflexivity). assert (C2 : Qle_bool (9 * (4 / plo - c130)) (10 * e130) = true) by (vm_compute; reflexivity).
  assert (C3 : Qle_bool c130 (4 / phi') = true) by (vm_compute; reflexivity).
  apply Qle_bool_iff, Qle_Rle in C1, C2, C3. rewrite !Q2R_mult, !Q2R_minus in C1, C2. replace (Q2R 10) with 10 in * by (unfold Q2R; cbn; lra). replace (Q2R 11) with 11 in * by (unfold Q2R; cbn; lra). replace (Q2R 9) with 9 in * by (unfold Q2R; cbn; lra).
  rewrite (Rabs_left1 (Q2R c130 - 4 / PI)) by lra. apply Rabs_le. lra.
Qed.
(** beyond it everything is below the threshold *)
Lemma lost3 n : (131 <= n)%nat -> exists e, errv (rnd 336) (nips_a 3) (nips_b 3) (nt 3) (Z.of_nat n) = Fin e /\ above (effective_zero 100) (Fin e) = false.
Proof.
  intros H. destruct (nips_nested 3 n ltac:(lia)) as [v E]. pose proof (nested_R 3 n v E) as ER. destruct (errv_fin 3 n v (nt 3) E) as (x & Ex & Ax). exists (Qabs (rnd 336 (x - nt 3))). split; [exact Ex|].
  pose proof (size3 n) as [HD HV]. pose proof (err3_high n H) as HH. unfold err in *. rewrite <- ER in *. pose proof (noise x v (nt 3) tau23 (10 # 7) (1 # 2) (limit_of 3) Ax target3 HV HD) as N. fold (nbound tau23 (10 # 7) (1 # 2)) in N.
  assert (C : Qle_bool (2 * dhigh3 + nbound tau23 (10 # 7) (1 # 2)) (1 # (10 ^ 100)) = true) by (vm_compute; reflexivity). apply Qle_bool_iff, Qle_Rle in C. rewrite Q2R_plus in C.
  destruct (above _ _) eqn:F; [|reflexivity]. apply above_iff in F; [|apply Qabs_nonneg]. unfold effective_zero in F. apply Qlt_Rlt in F. pose proof (Rle_abs (Q2R (Qabs (rnd 336 (x - nt 3))) - Rabs (Q2R v - limit_of 3))). lra.
Qed.
Lemma good_all k n : (1 <= k <= 4)%nat -> (n <= snd (window_of k))%nat -> good k n.
Proof.
  intros Hk Hn. destruct k as [|[|[|[|[|k]]]]]; try lia; cbn [window_of snd] in Hn.
  - apply good1; exact Hn.
  - apply good2; exact Hn.
  - destruct (Nat.eq_dec n 130) as [->|Ne]; [exact good3_130|apply good3; lia].
  - apply good4; exact Hn.
Qed.

(** ---- the lists ---- *)
Section Lists.
Local Open Scope Z_scope.
Context (f : Z -> mpfv) (eps : Q).
Lemma slice_map lo hi n : 0 <= lo <= hi -> hi <= n -> py_slice lo hi (map (fun i => (i, f i)) (zrange 1 (n + 1))) = map (fun i => (i, f i)) (zrange (lo + 1) (hi + 1)).
Proof.
  intros H1 H2. unfold py_slice. rewrite map_length, zrange_length. replace (Z.of_nat (Z.to_nat (n + 1 - 1))) with n by lia.
  destruct (Z.ltb_spec hi 0); [lia|]. destruct (Z.ltb_spec lo 0); [lia|]. rewrite !Z.min_l by lia.
  rewrite (zrange_app 1 (lo + 1) (n + 1)), (zrange_app (lo + 1) (hi + 1) (n + 1)), !map_app by lia.
  rewrite skipn_app, (skipn_all2 (map _ (zrange 1 (lo + 1)))) by (rewrite map_length, zrange_length; lia). rewrite map_length, zrange_length.
  replace (Z.to_nat lo - Z.to_nat (lo + 1 - 1))%nat with O by lia. cbn [app skipn]. rewrite firstn_app, map_length, zrange_length.
  replace (Z.to_nat (hi - lo) - Z.to_nat (hi + 1 - (lo + 1)))%nat with O by lia. cbn [firstn]. rewrite app_nil_r. apply firstn_all2. rewrite map_length, zrange_length. lia.
Qed.
Lemma filter_keep (l : list Z) : (forall i, In i l -> above eps (f i) = true) -> filter (fun p => above eps (snd p)) (map (fun i => (i, f i)) l) = map (fun i => (i, f i)) l.
Proof.
  induction l as [|i l IH]; intros H; [reflexivity|]. cbn [map filter snd]. rewrite (H i (or_introl eq_refl)), IH; [reflexivity|]. intros; apply H; now right.
Qed.
Lemma filter_drop (l : list Z) : (forall i, In i l -> above eps (f i) = false) -> filter (fun p => above eps (snd p)) (map (fun i => (i, f i)) l) = [].
Proof.
  induction l as [|i l IH]; intros H; [reflexivity|]. cbn [map filter snd]. rewrite (H i (or_introl eq_refl)), IH; [reflexivity|]. intros; apply H; now right.
Qed.
Lemma slice_filter hi n : 0 <= hi <= n -> (forall i, 1 <= i <= hi -> above eps (f i) = true) ->
  py_slice 0 hi (filter (fun p => above eps (snd p)) (map (fun i => (i, f i)) (zrange 1 (n + 1)))) = map (fun i => (i, f i)) (zrange 1 (hi + 1)).
Proof.
  intros H A. rewrite (zrange_app 1 (hi + 1) (n + 1)), map_app, filter_app, filter_keep by (try (intros i Hi; apply in_zrange in Hi; apply A); lia).
  set (r := filter _ _). unfold py_slice. rewrite app_length, map_length, zrange_length. destruct (Z.ltb_spec hi 0); [lia|]. cbn [Z.ltb Z.compare]. rewrite !Z.min_l by lia.
  cbn [skipn Z.to_nat]. rewrite firstn_app, map_length, zrange_length. replace (Z.to_nat (hi - 0) - Z.to_nat (hi + 1 - 1))%nat with O by lia. cbn [firstn]. rewrite app_nil_r.
  apply firstn_all2. rewrite map_length, zrange_length. lia.
Qed.
End Lists.
Lemma above_mono a b v : (b <= a)%Q -> above a v = true -> above b v = true.
Proof.
  intros H A. destruct v as [q|]; [|discriminate]. cbn [above] in *. apply negb_true_iff in A. apply negb_true_iff. destruct (Qle_bool (Qabs q) b) eqn:F; [|reflexivity]. apply Qle_bool_iff in F.
  assert (G : (Qabs q <= a)%Q) by (eapply Qle_trans; eassumption). apply Qle_bool_iff in G. congruence.
Qed.
Definition nips_errors (k : nat) (lo hi : Z) : list (Z * mpfv) := map (fun i => (i, errv (rnd 336) (nips_a k) (nips_b k) (nt k) i)) (zrange lo (hi + 1)).
(** the object of the script *)
Lemma new_fresh k : (1 <= k <= 4)%nat -> exists c, cf_new (Nested (nips_a k)) (Nested (nips_b k)) true None None (Some (nt k)) true = Ok c /\ fresh (nips_a k) (nips_b k) true true (Some (nt k)) c.
Proof.
  intros Hk. destruct k as [|[|[|[|[|k]]]]]; try lia; (eexists; split; [reflexivity|]; reflexivity).
Qed.
Lemma run_errors k c n : (1 <= k <= 4)%nat -> fresh (nips_a k) (nips_b k) true true (Some (nt k)) c -> (0 <= n)%Z -> snd (build_contfrac_errors (rnd 336) n c) = Ok (nips_errors k 1 n).
Proof.
  intros Hk HF Hn. pose proof (build_errors_spec (rnd 336) _ _ _ _ _ c c n HF (same_static_refl _) Hn) as B. rewrite find_bad_none in B by (intros _ i Hi; apply nips_b_nz; [exact Hk|lia]).
  destruct B as (c' & B & _). rewrite B. reflexivity.
Qed.
Lemma analyze_eq k c lo hi : (1 <= k <= 4)%nat -> fresh (nips_a k) (nips_b k) true true (Some (nt k)) c -> (0 <= lo <= hi)%Z -> (forall i, (1 <= i <= hi)%Z -> above (effective_zero 140) (errv (rnd 336) (nips_a k) (nips_b k) (nt k) i) = true) ->
  snd (analyze_contfrac (rnd 336) lo hi c) = Ok (filter (fun p => above (effective_zero 100) (snd p)) (nips_errors k (lo + 1) hi), nips_errors k 1 hi).
Proof.
  intros Hk HF H A. unfold analyze_contfrac. set (n := if (hi >? 2000)%Z then hi else 2000%Z).
  assert (Hn : (hi <= n)%Z /\ (0 <= n)%Z) by (unfold n; destruct (Z.gtb_spec hi 2000); lia).
  pose proof (run_errors k c n Hk HF (proj2 Hn)) as R. destruct (build_contfrac_errors (rnd 336) n c) as [c' r]. cbn [snd] in R. subst r. cbn [snd]. unfold fit_points, plot_points, nips_errors.
  rewrite slice_map by lia. rewrite (slice_filter _ _ hi n) by (try exact A; lia). reflexivity.
Qed.
Lemma run_eq pt et k : Forall is_digit pt -> Forall is_digit et -> (1 <= k <= 4)%nat ->
  nips_run pt et k = Ok (nips_errors k (Z.of_nat (fst (window_of k))) (Z.of_nat (snd (window_of k))), nips_errors k 1 (Z.of_nat (snd (window_of k)))).
Proof.
  intros H1 H2 Hk. unfold nips_run. rewrite (consts_eq pt et H1 H2). cbn [bind]. replace (mp_prec (set_dps 100)) with 336%Z by (vm_compute; reflexivity). fold (nt k).
  destruct (new_fresh k Hk) as (c & E & F). rewrite E. cbn [bind].
  assert (W : nips_window k = ((Z.of_nat (fst (window_of k)) - 1)%Z, Z.of_nat (snd (window_of k)))) by (destruct k as [|[|[|[|[|k]]]]]; reflexivity || lia). rewrite W.
  assert (G : forall i, (1 <= i <= Z.of_nat (snd (window_of k)))%Z -> above (effective_zero 100) (errv (rnd 336) (nips_a k) (nips_b k) (nt k) i) = true).
  { intros i Hi. destruct (good_all k (Z.to_nat i) Hk ltac:(lia)) as (e & v & E1 & _ & _ & E2). rewrite Z2Nat.id in E1 by lia. rewrite E1. exact E2. }
  assert (B : (1 <= fst (window_of k) <= snd (window_of k))%nat) by (destruct k as [|[|[|[|[|k]]]]]; cbn; lia).
  rewrite (analyze_eq k c (Z.of_nat (fst (window_of k)) - 1) (Z.of_nat (snd (window_of k))) Hk F ltac:(lia)).
  - f_equal. f_equal. replace (Z.of_nat (fst (window_of k)) - 1 + 1)%Z with (Z.of_nat (fst (window_of k))) by lia. unfold nips_errors. apply filter_keep. intros i Hi. apply in_zrange in Hi. apply G. lia.
  - intros i Hi. apply (above_mono (effective_zero 100)); [|apply G; exact Hi]. apply Qle_bool_iff. vm_compute. reflexivity.
Qed.

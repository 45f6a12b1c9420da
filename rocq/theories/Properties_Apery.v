(** Claim C131, continued (the limit of the fraction that the sanity check for Apery's constant looks for). *)
From Coq Require Import ZArith QArith Qabs List Bool Lia Lqa.
From Coq Require Reals Qreals Lra.
From Verif Require Import PyBase PyBase_Proofs Rnd Rnd_Proofs Utils_Model Spec_Utils ContFrac_Model Spec_ContFrac ContFrac_Proofs ContFrac_Hist ContFrac_Proofs2 Properties_ContFrac Errors_Model Errors_Proofs TestFracs_Model.
From Verif Require Import TestFracs_Proofs Properties_Errors Properties_TestFracs.
From Verif Require CF_Limits CF_Limits3 Spec_Consts Zeta_Limits.
Import ListNotations.
Open Scope Z_scope.

Definition ap_a : coeffs := [[2; 8; 10; 3]].
Definition ap_b : coeffs := [[0; 0; 0; 0; 0; -2; 4]].
Lemma ap_acoef i : icoef ap_a i = 3 * (i * i * i) + 10 * (i * i) + 8 * i + 2.
Proof. unfold ap_a. rewrite icoef_one. cbn [poly_val]. ring. Qed.
Lemma ap_bcoef i : icoef ap_b i = 2 * (i * i * i * i * i) * (2 * i - 1).
Proof. unfold ap_b. rewrite icoef_one. cbn [poly_val]. ring. Qed.
Lemma ap_a_pos i : 0 <= i -> 0 < icoef ap_a i.
Proof. intros H. rewrite ap_acoef. assert (0 <= i * i) by nia. assert (0 <= i * i * i) by nia. lia. Qed.
Lemma ap_b_pos i : 1 <= i -> 0 < icoef ap_b i.
Proof. intros H. rewrite ap_bcoef. assert (0 < i * i) by nia. assert (0 < i * i * i) by nia. assert (0 < i * i * i * i) by nia. assert (0 < i * i * i * i * i) by nia. nia. Qed.
Lemma ap_nested n : exists v, nested (inject_Z (icoef ap_a 0)) (toQ (icoefs ap_a ap_b (map Z.of_nat (seq 1 n)))) = Some v.
Proof.
  change 0 with (Z.of_nat 0). destruct (nested_pos ap_a ap_b n 0) as (v & E & _); [intros i Hi; apply ap_a_pos; lia|intros i Hi; apply ap_b_pos; lia|]. eauto.
Qed.

Import Reals Qreals Lra Spec_Consts.
Local Open Scope R_scope.
Lemma ap_R n v : nested (inject_Z (icoef ap_a 0)) (toQ (icoefs ap_a ap_b (map Z.of_nat (seq 1 n)))) = Some v -> Q2R v = IZR (nth_P ap_a ap_b n) / IZR (nth_Q ap_a ap_b n).
Proof.
  intros E. destruct (nested_cont _ _ _ E) as [Nq Ev]. rewrite (Qeq_eqR _ _ Ev), Q2R_div.
  - unfold nth_P, nth_Q, Q2R. cbn. field. apply not_0_IZR. exact Nq.
  - intros G. apply Nq. unfold Qeq in G. cbn in G. lia.
Qed.
(** The distance of the n-th convergent to the limit is about 4 times this. *)
Definition apery_scale (n : nat) : R := INR (fact (n + 2)) * INR (fact (n + 2)) / (INR (n + 2) ^ 3 * INR (fact (2 * n + 4))).
Lemma ap_error z n : is_zeta 3 z -> 3 * apery_scale n <= Rabs (IZR (nth_P ap_a ap_b n) / IZR (nth_Q ap_a ap_b n) - 5 / (2 * z)) <= 9 / 2 * apery_scale n.
Proof.
  intros H. unfold apery_scale. rewrite <- CF_Limits3.U9_fact.
  apply (CF_Limits3.cf9_error (fun n => IZR (nth_P ap_a ap_b n)) (fun n => IZR (nth_Q ap_a ap_b n))); try exact H; try (vm_compute; lra).
  - intros m. destruct (nth_PQ_rec ap_a ap_b m) as [E _]. rewrite E, ap_acoef, ap_bcoef. unfold CF_Limits3.a9, CF_Limits3.b9. rewrite INR_IZR_INZ, !plus_IZR, !mult_IZR, !plus_IZR, minus_IZR, !mult_IZR. ring.
  - intros m. destruct (nth_PQ_rec ap_a ap_b m) as [_ E]. rewrite E, ap_acoef, ap_bcoef. unfold CF_Limits3.a9, CF_Limits3.b9. rewrite INR_IZR_INZ, !plus_IZR, !mult_IZR, !plus_IZR, minus_IZR, !mult_IZR. ring.
Qed.
(** C131: 2 + 2/(23 + 192/(82 + 2430/(...))) with the coefficients 3n^3 + 10n^2 + 8n + 2 and 4n^6 - 2n^5 approaches 5/(2 zeta(3)). *)
Theorem C131_apery_limit : forall prec lg c n z, (3 <= prec)%Z -> is_zeta 3 z -> stands_for prec [[2; 8; 10; 3]%Z] [[0; 0; 0; 0; 0; -2; 4]%Z] lg c ->
  exists c' v, cf_gen0 (rnd prec) (Z.of_nat n) true c = (c', Ok tt) /\ cut [[2; 8; 10; 3]%Z] [[0; 0; 0; 0; 0; -2; 4]%Z] (Z.of_nat n) = Some v /\
    3 * apery_scale n <= Rabs (Q2R v - 5 / (2 * z)) <= 9 / 2 * apery_scale n /\
    (lg = false \/ (1 <= n)%nat -> exists x, cf_result c' = Fin x /\ approx x v (4 * two_p (- prec))).
Proof.
  intros prec lg c n z Hp HZ HS. destruct (ap_nested n) as [v E].
  assert (E' : cut ap_a ap_b (Z.of_nat n) = Some v) by (unfold cut; rewrite Nat2Z.id; exact E).
  destruct (stands_gen prec ap_a ap_b lg c (Z.of_nat n) Hp) with (v := v) as (c' & G & X); auto.
  - discriminate.
  - discriminate.
  - lia.
  - intros i Hi. pose proof (ap_b_pos i Hi). lia.
  - exists c', v. split; [exact G|]. split; [exact E'|]. split; [rewrite (ap_R n v E); apply ap_error; exact HZ|]. intros HL. apply X. destruct HL; [left; assumption|right; lia].
Qed.
(** The convergence is exponential: each step makes the error at least four times smaller, up to the factor 9/6. *)
Theorem C131_apery_rate : forall n, 0 < apery_scale n <= / (48 * 4 ^ n) /\ 4 * apery_scale (S n) <= apery_scale n.
Proof.
  assert (E : forall n, apery_scale n = CF_Limits3.U9 (S n)) by (intros n; unfold apery_scale; now rewrite CF_Limits3.U9_fact).
  assert (U : forall n, CF_Limits3.U9 (S n) <= / (48 * 4 ^ n)).
  { induction n as [|n IH]; [rewrite CF_Limits3.U9_1; cbn [pow]; lra|]. pose proof (CF_Limits3.U9_quarter (S n)) as Q. cbn [pow].
    assert (P : 0 < 4 ^ n) by (apply pow_lt; lra). replace (/ (48 * (4 * 4 ^ n))) with (/ 4 * / (48 * 4 ^ n)) by (field; lra). lra. }
  intros n. rewrite !E. split; [split; [apply CF_Limits3.U9_pos|apply U]|apply CF_Limits3.U9_quarter].
Qed.
Definition ap_obj : contfrac := match cf_new (Nested ap_a) (Nested ap_b) true None None None false with Ok c => c | Raise _ => exc end.
Example C131_ex : (exists z, is_zeta 3 z) /\ stands_for 53 ap_a ap_b false ap_obj /\ cut ap_a ap_b 2 = Some (4320 # 2078)%Q.
Proof.
  split; [apply (Zeta_Limits.zsum_exists 3); lia|]. split; [|vm_compute; reflexivity].
  left. exists true, None, ap_obj, [], (Ok tt). split; reflexivity.
Qed.

Print Assumptions C131_apery_limit.
Print Assumptions C131_apery_rate.

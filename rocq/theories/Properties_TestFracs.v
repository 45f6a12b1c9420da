(** Claims C125-C129 (the continued fractions of tests/test_cont_fracs.py). *)
From Coq Require Import ZArith QArith Qabs List Bool Lia Lqa.
From Coq Require Reals Qreals Lra.
From Verif Require Import PyBase PyBase_Proofs Rnd Rnd_Proofs Utils_Model Spec_Utils ContFrac_Model Spec_ContFrac ContFrac_Proofs ContFrac_Hist ContFrac_Proofs2 Properties_ContFrac Errors_Model Errors_Proofs TestFracs_Model.
From Verif Require Import TestFracs_Proofs Properties_Errors.
From Verif Require CF_Limits2 Spec_TestFracs.
Import ListNotations.
Open Scope Z_scope.

(** An object that stands for the fraction with coefficients a, b: one made with them and used in any way, or one made
    with other coefficients and used in any way on which then reinitialize(a, b) was called. *)
Definition stands_for (prec : Z) (a b : coeffs) (lg : bool) (c : contfrac) : Prop :=
  (exists av tg c0 os r, fresh a b av lg tg c0 /\ cf_run (rnd prec) os c0 = (c, r)) \/
  (exists av tg a' b' c0 os c1 r, fresh a' b' av lg tg c0 /\ cf_run (rnd prec) os c0 = (c1, r) /\ cf_reinitialize (Some a) (Some b) None c1 = (c, Ok tt)).
Lemma stands_gen prec a b lg c n : 3 <= prec -> hd [] a <> [] -> b <> [] -> stands_for prec a b lg c -> 0 <= n -> (forall i, 1 <= i -> icoef b i <> 0) ->
  forall v, cut a b n = Some v ->
  exists c', cf_gen0 (rnd prec) n true c = (c', Ok tt) /\ (lg = false \/ 1 <= n -> exists x, cf_result c' = Fin x /\ approx x v (4 * two_p (- prec))).
Proof.
  intros Hp Na Nb HS Hn HB v HV.
  assert (G : forall av tg c0 os c r, fresh a b av lg tg c0 -> cf_run (rnd prec) os c0 = (c, r) ->
    exists c', cf_gen0 (rnd prec) n true c = (c', Ok tt) /\ (lg = false \/ 1 <= n -> exists x, cf_result c' = Fin x /\ approx x v (4 * two_p (- prec)))).
  { clear c HS. intros av tg c0 os c r HF HR. pose proof (gen_outcome (rnd prec) _ _ _ _ _ _ _ n true HF (run_static_of _ _ _ _ _ HR)) as O. unfold upto in O. rewrite <- zrange_1 in O.
    replace (1 + n) with (n + 1) in O by lia. rewrite find_bad_none in O by (intros _ i Hi; apply HB; lia).
    destruct (cf_gen0 (rnd prec) n true c) as [c' rr] eqn:E. cbn in O. subst rr. exists c'. split; [reflexivity|].
    destruct (C06_convergent prec _ _ _ _ _ _ _ _ _ _ _ v Hp HF HR Hn E HV) as (P & Q & _ & _ & _ & X). exact X. }
  destruct HS as [(av & tg & c0 & os & r & HF & HR)|(av & tg & a' & b' & c0 & os & c1 & r & HF & HR & HI)]; [eauto|].
  assert (F1 : exists c2, fresh a b av lg tg c2).
  { unfold fresh, cf_new. destruct a as [|[|a00 a0] a]; [cbn in Na; congruence|cbn in Na; congruence|]. destruct b as [|b0 b]; [congruence|]. cbn. eauto. }
  destruct F1 as [c2 F2]. destruct (C65_reinitialize_then_gen _ _ _ _ _ _ _ _ _ _ _ _ _ _ n true HF HR F2 HI) as [A B]. cbn zeta in A, B.
  destruct (G av tg c2 [] c2 (Ok tt) F2 eq_refl) as (c' & E & X). rewrite E in A, B. cbn [fst snd] in A, B.
  exists (set_approach c' ATUndefined APNone). split; [destruct (cf_gen0 (rnd prec) n true c); cbn in A, B; congruence|]. exact X.
Qed.

Import Reals Qreals Lra Spec_TestFracs.
Local Open Scope R_scope.
Lemma test_api k : (1 <= k <= 6)%nat -> forall prec lg c n, (3 <= prec)%Z -> stands_for prec (test_a k) (test_b k) lg c ->
  exists c' v, cf_gen0 (rnd prec) (Z.of_nat n) true c = (c', Ok tt) /\ cut (test_a k) (test_b k) (Z.of_nat n) = Some v /\
    (test_low k n <= Rabs (Q2R v - test_limit k) /\ ((1 <= n)%nat -> Rabs (Q2R v - test_limit k) <= test_high k n)) /\
    (lg = false \/ (1 <= n)%nat -> exists x, cf_result c' = Fin x /\ approx x v (4 * two_p (- prec))).
Proof.
  intros Hk prec lg c n Hp HS. destruct (test_nested k n Hk) as [v E].
  assert (E' : cut (test_a k) (test_b k) (Z.of_nat n) = Some v) by (unfold cut; rewrite Nat2Z.id; exact E).
  destruct (stands_gen prec (test_a k) (test_b k) lg c (Z.of_nat n) Hp) with (v := v) as (c' & G & X); auto.
  - destruct k as [|[|[|[|[|[|[|k]]]]]]]; try lia; discriminate.
  - destruct k as [|[|[|[|[|[|[|k]]]]]]]; try lia; discriminate.
  - lia.
  - intros i Hi. apply test_b_nz; assumption.
  - exists c', v. split; [exact G|]. split; [exact E'|]. split; [rewrite (test_R k n v E); apply test_rates; exact Hk|]. intros HL. apply X. destruct HL; [left; assumption|right; lia].
Qed.
(** C125: 2 + 1/(2 + 9/(2 + 25/(2 + ...))) approaches 4/pi + 1; the error is 4/pi^2 divided by a number from n to n + 2. *)
Theorem C125_brouncker : forall prec lg c n, (3 <= prec)%Z -> stands_for prec [[2%Z]] [[1; -4; 4]%Z] lg c ->
  exists c' v, cf_gen0 (rnd prec) (Z.of_nat n) true c = (c', Ok tt) /\ cut [[2%Z]] [[1; -4; 4]%Z] (Z.of_nat n) = Some v /\
    (4 / (PI * PI) / (INR n + 2) <= Rabs (Q2R v - (4 / PI + 1)) /\ ((1 <= n)%nat -> Rabs (Q2R v - (4 / PI + 1)) <= 4 / (PI * PI) / INR n)) /\
    (lg = false \/ (1 <= n)%nat -> exists x, cf_result c' = Fin x /\ approx x v (4 * two_p (- prec))).
Proof. exact (test_api 1 ltac:(lia)). Qed.
(** The number of iterations that the threshold 8E-4 of the test needs. *)
Theorem C125_threshold : forall n v, cut [[2%Z]] [[1; -4; 4]%Z] (Z.of_nat n) = Some v ->
  ((507 <= n)%nat -> Rabs (Q2R v - (4 / PI + 1)) < 8 / 10000) /\ ((n <= 504)%nat -> 8 / 10000 < Rabs (Q2R v - (4 / PI + 1))).
Proof.
  intros n v E. unfold cut in E. rewrite Nat2Z.id in E. pose proof (test_R 1 n v E) as R. pose proof (test_rates 1 n ltac:(lia)) as [L U]. rewrite <- R in L, U. cbn [test_low test_high test_limit] in L, U.
  pose proof PI_in as P. pose proof (pos_INR n) as N. assert (P2 : 4 / (988 / 100) <= 4 / (PI * PI) <= 4 / (9862 / 1000)).
  { split; apply Rmult_le_compat_l; try lra; apply Rinv_le_contravar; nra. }
  split; intros H.
  - eapply Rle_lt_trans; [apply U; lia|]. assert (507 <= INR n) by (replace 507 with (INR 507) by (rewrite INR_IZR_INZ; reflexivity); apply le_INR; exact H).
    apply Rmult_lt_reg_r with (INR n); [lra|]. replace (4 / (PI * PI) / INR n * INR n) with (4 / (PI * PI)) by (field; nra). lra.
  - eapply Rlt_le_trans; [|exact L]. assert (INR n <= 504) by (replace 504 with (INR 504) by (rewrite INR_IZR_INZ; reflexivity); apply le_INR; exact H).
    apply Rmult_lt_reg_r with (INR n + 2); [lra|]. replace (4 / (PI * PI) / (INR n + 2) * (INR n + 2)) with (4 / (PI * PI)) by (field; nra). lra.
Qed.
(** C126: 2 - 1/(3 - 2/(4 - 3/(5 - ...))) approaches e/(e-1) with an error of the order of 1/(n+2)!. *)
Theorem C126_factorial : forall prec lg c n, (3 <= prec)%Z -> stands_for prec [[2; 1]%Z] [[0; -1]%Z] lg c ->
  exists c' v, cf_gen0 (rnd prec) (Z.of_nat n) true c = (c', Ok tt) /\ cut [[2; 1]%Z] [[0; -1]%Z] (Z.of_nat n) = Some v /\
    (/ (3 * INR (fact (n + 2))) <= Rabs (Q2R v - exp 1 / (exp 1 - 1)) /\ ((1 <= n)%nat -> Rabs (Q2R v - exp 1 / (exp 1 - 1)) <= 5 / (4 * INR (fact (n + 2))))) /\
    (lg = false \/ (1 <= n)%nat -> exists x, cf_result c' = Fin x /\ approx x v (4 * two_p (- prec))).
Proof. exact (test_api 4 ltac:(lia)). Qed.
(** C127: 1 + 1/(1 + 1/(1 + ...)) approaches the golden ratio g with an error between g^-(2n+1) and g^-2n. *)
Theorem C127_golden : forall prec lg c n, (3 <= prec)%Z -> stands_for prec [[1%Z]] [[1%Z]] lg c ->
  exists c' v, cf_gen0 (rnd prec) (Z.of_nat n) true c = (c', Ok tt) /\ cut [[1%Z]] [[1%Z]] (Z.of_nat n) = Some v /\
    (/ ((1 + sqrt 5) / 2) ^ (2 * n + 1) <= Rabs (Q2R v - (1 + sqrt 5) / 2) /\ ((1 <= n)%nat -> Rabs (Q2R v - (1 + sqrt 5) / 2) <= / ((1 + sqrt 5) / 2) ^ (2 * n))) /\
    (lg = false \/ (1 <= n)%nat -> exists x, cf_result c' = Fin x /\ approx x v (4 * two_p (- prec))).
Proof. exact (test_api 5 ltac:(lia)). Qed.
(** C128: the interlaced fraction 2 + 1/(12 + 11/(2 + 13/(36 + 23/(2 + ...)))) approaches 2^(1/12) + 1 exponentially. *)
Theorem C128_interlaced : forall prec lg c n, (3 <= prec)%Z -> stands_for prec [[2]; [0; 12]]%Z [[-1; 6]; [-5; 6]]%Z lg c ->
  exists c' v, cf_gen0 (rnd prec) (Z.of_nat n) true c = (c', Ok tt) /\ cut [[2]; [0; 12]]%Z [[-1; 6]; [-5; 6]]%Z (Z.of_nat n) = Some v /\
    ((/ 8) ^ n / 18 <= Rabs (Q2R v - (Rpower 2 (1 / 12) + 1)) /\ ((1 <= n)%nat -> Rabs (Q2R v - (Rpower 2 (1 / 12) + 1)) <= (/ 4) ^ n / 9)) /\
    (lg = false \/ (1 <= n)%nat -> exists x, cf_result c' = Fin x /\ approx x v (4 * two_p (- prec))).
Proof. exact (test_api 6 ltac:(lia)). Qed.

(** C129: the six cases of the test *)
Theorem C129_test_cases : forall k prec lg c n, (1 <= k <= 6)%nat -> (53 <= prec)%Z -> stands_for prec (test_a k) (test_b k) lg c -> (test_iters k <= n)%nat ->
  exists c' x, cf_gen0 (rnd prec) (Z.of_nat n) true c = (c', Ok tt) /\ cf_result c' = Fin x /\ Rabs (Q2R x - test_limit k) < Q2R (test_threshold k).
Proof.
  intros k prec lg c n Hk Hp HS Hn. destruct (test_api k Hk prec lg c n ltac:(lia) HS) as (c' & v & G & E & [_ U] & X).
  assert (N1 : (1 <= n)%nat) by (destruct k as [|[|[|[|[|[|[|k]]]]]]]; try lia; cbn [test_iters] in Hn; lia).
  destruct (X (or_intror N1)) as (x & Ex & A). exists c', x. split; [exact G|]. split; [exact Ex|]. specialize (U N1).
  pose proof (test_within k n Hk Hn) as W. pose proof (test_limit_bounds k Hk) as [L0 LB].
  assert (AR : Rabs (Q2R x - Q2R v) <= 444089209850063 / 1000000000000000000000000000000 * Rabs (Q2R v)).
  { unfold approx in A. assert (T : (two_p (- prec) <= two_p (-53))%Q) by (apply two_p_le; lia).
    assert (T4 : (4 * two_p (-53) <= 444089209850063 # 1000000000000000000000000000000)%Q) by (vm_compute; discriminate).
    assert (A' : (Qabs (x - v) <= (444089209850063 # 1000000000000000000000000000000) * Qabs v)%Q).
    { eapply Qle_trans; [exact A|]. apply Qmult_le_compat_r; [|apply Qabs_nonneg]. eapply Qle_trans; [|exact T4]. apply Qmult_le_l; [reflexivity|exact T]. }
    apply Qle_Rle in A'. rewrite Q2R_mult in A'.
    assert (QA : forall z, Q2R (Qabs z) = Rabs (Q2R z)).
    { intros z. apply Qabs_case; intros Hz; apply Qle_Rle in Hz; replace (Q2R 0) with 0 in Hz by (unfold Q2R; cbn; lra); [rewrite Rabs_right by lra; reflexivity|rewrite Rabs_left1 by lra; apply Q2R_opp]. }
    rewrite !QA, Q2R_minus in A'. replace (Q2R (444089209850063 # 1000000000000000000000000000000)) with (444089209850063 / 1000000000000000000000000000000) in A'; [exact A'|].
    reflexivity. }
  assert (D : Rabs (Q2R x - test_limit k) <= Rabs (Q2R x - Q2R v) + Rabs (Q2R v - test_limit k)) by (replace (Q2R x - test_limit k) with ((Q2R x - Q2R v) + (Q2R v - test_limit k)) by ring; apply Rabs_triang).
  assert (V : Rabs (Q2R v) <= test_limit k + Rabs (Q2R v - test_limit k)) by (replace (Q2R v) with (test_limit k + (Q2R v - test_limit k)) at 1 by ring; eapply Rle_trans; [apply Rabs_triang|]; rewrite (Rabs_right (test_limit k)) by lra; lra).
  assert (T : Q2R (test_threshold k) = match k with 1%nat => 8 / 10000 | 2%nat => 1 / 100000000 | _ => 1 / 1000000000000000 end) by (destruct k as [|[|[|k]]]; reflexivity).
  rewrite T in *. destruct k as [|[|[|[|[|[|[|k]]]]]]]; try lia; cbn [pow] in *; lra.
Qed.
Definition test_obj (k : nat) : contfrac := fst (cf_reinitialize (Some (test_a k)) (Some (test_b k)) None (match cf_new (Nested [[1%Z]]) (Nested [[1%Z]]) true None None None false with Ok c => c | Raise _ => exc end)).
Lemma test_obj_stands k prec : (1 <= k <= 6)%nat -> stands_for prec (test_a k) (test_b k) false (test_obj k).
Proof.
  intros Hk. right. exists true, None, [[1%Z]], [[1%Z]]. destruct k as [|[|[|[|[|[|[|k]]]]]]]; try lia; eexists; exists []; eexists; eexists; (split; [reflexivity|]); (split; [reflexivity|]); reflexivity.
Qed.
Example C125_ex : stands_for 53 [[2%Z]] [[1; -4; 4]%Z] false (test_obj 1) /\ cut [[2%Z]] [[1; -4; 4]%Z] 2 = Some (28 # 13)%Q.
Proof. split; [exact (test_obj_stands 1 53 ltac:(lia))|]. vm_compute. reflexivity. Qed.
Example C126_ex : stands_for 53 [[2; 1]%Z] [[0; -1]%Z] false (test_obj 4) /\ cut [[2; 1]%Z] [[0; -1]%Z] 2 = Some (16 # 10)%Q.
Proof. split; [exact (test_obj_stands 4 53 ltac:(lia))|]. vm_compute. reflexivity. Qed.
Example C127_ex : stands_for 53 [[1%Z]] [[1%Z]] false (test_obj 5) /\ cut [[1%Z]] [[1%Z]] 4 = Some (8 # 5)%Q.
Proof. split; [exact (test_obj_stands 5 53 ltac:(lia))|]. vm_compute. reflexivity. Qed.
Example C128_ex : stands_for 53 [[2]; [0; 12]]%Z [[-1; 6]; [-5; 6]]%Z false (test_obj 6) /\ cut [[2]; [0; 12]]%Z [[-1; 6]; [-5; 6]]%Z 2 = Some (72 # 35)%Q.
Proof. split; [exact (test_obj_stands 6 53 ltac:(lia))|]. vm_compute. reflexivity. Qed.
Example C129_ex : (forall k, (1 <= k <= 6)%nat -> stands_for 53 (test_a k) (test_b k) false (test_obj k)) /\ test_iters 3 = 200%nat /\ test_threshold 1 = (8 # 10000)%Q.
Proof. split; [intros k Hk; apply test_obj_stands; exact Hk|]. split; reflexivity. Qed.

Print Assumptions C125_brouncker.
Print Assumptions C125_threshold.
Print Assumptions C126_factorial.
Print Assumptions C127_golden.
Print Assumptions C128_interlaced.
Print Assumptions C129_test_cases.

(** Claims C104-C109 (gen_errors_for_nips.py, process_and_compare.build_contfrac_errors, cont_fracs.eval_contfrac_by_polys). *)
From Coq Require Import ZArith QArith Qabs List Bool Lia Lqa.
From Coq Require Reals Qreals Lra.
From Verif Require Import PyBase PyBase_Proofs Rnd Rnd_Proofs Utils_Model Spec_Utils ContFrac_Model Spec_ContFrac ContFrac_Proofs ContFrac_Hist ContFrac_Proofs2 Properties_ContFrac Errors_Model Errors_Proofs.
From Verif Require CF_Limits Spec_Errors.
Import ListNotations.
Open Scope Z_scope.

(** C104 *)
(** the fraction with coefficients a, b cut after n levels *)
Definition cut (a b : coeffs) (n : Z) : option Q := nested (inject_Z (icoef a 0)) (toQ (icoefs a b (map Z.of_nat (seq 1 (Z.to_nat n))))).
Theorem C104_errors : forall prec a b av lg t c0 os c r n,
  3 <= prec -> fresh a b av lg (Some t) c0 -> cf_run (rnd prec) os c0 = (c, r) -> 0 <= n ->
  (av = true -> forall i, 1 <= i <= n -> icoef b i <> 0) ->
  exists c' l, build_contfrac_errors (rnd prec) n c = (c', Ok l) /\
    map fst l = map Z.of_nat (seq 1 (Z.to_nat n)) /\
    cf_gen0 (rnd prec) 0 true c0 = (c', Ok tt) /\
    (forall i ci, 1 <= i <= n -> cf_gen0 (rnd prec) i true c0 = (ci, Ok tt) -> exists e, cf_compare (rnd prec) None true ci = Ok e /\ In (i, e) l) /\
    (forall i v, 1 <= i <= n -> cut a b i = Some v -> exists x, approx x v (4 * two_p (- prec)) /\ In (i, Fin (Qabs (rnd prec (x - t)))) l) /\
    (forall i, 1 <= i <= n -> contQ (icoefs a b (map Z.of_nat (seq 1 (Z.to_nat i)))) = 0 -> In (i, NaN) l).
Proof.
  intros prec a b av lg t c0 os c r n Hp HF HR Hn Hb. pose proof (run_static_of _ _ _ _ _ HR) as HS.
  pose proof (build_errors_spec (rnd prec) a b av lg t c0 c n HF HS Hn) as B. rewrite (find_bad_none av b n Hb) in B. destruct B as (c' & B1 & B2).
  exists c'. eexists. split; [exact B1|]. split.
  { rewrite map_map. cbn [fst]. rewrite map_id. replace (n + 1) with (1 + n) by lia. apply zrange_1. }
  split; [exact B2|]. split; [|split].
  - intros i ci Hi E. eexists. split; [exact (compare_errv _ a b av lg t c0 c0 i ci HF (same_static_refl _) ltac:(lia) E)|]. apply in_build. exact Hi.
  - intros i v Hi E. destruct (nested_cont _ _ _ E) as [NQ EV]. destruct (pq_value_err prec (contP (icoef a 0) (icoefs a b (upto i))) (contQ (icoefs a b (upto i))) Hp NQ) as (x & Ex & Ax).
    exists x. split; [unfold approx in *; rewrite EV; exact Ax|]. pose proof (in_build (rnd prec) a b t n i Hi) as I. unfold errv in I at 1. rewrite Ex in I. exact I.
  - intros i Hi E. pose proof (in_build (rnd prec) a b t n i Hi) as I. unfold errv in I at 1.
    assert (N : pq_value (rnd prec) (contP (icoef a 0) (icoefs a b (upto i))) (contQ (icoefs a b (upto i))) = NaN) by (apply pq_value_nan; [apply rnd_rd_ok; lia|exact E]).
    rewrite N in I. exact I.
Qed.
Theorem C104_zero_b : forall rd a b lg t c0 os c r n i,
  fresh a b true lg (Some t) c0 -> cf_run rd os c0 = (c, r) -> 0 <= n ->
  (snd (build_contfrac_errors rd n c) = Raise (ZeroB i) <-> 1 <= i <= n /\ icoef b i = 0 /\ (forall j, 1 <= j < i -> icoef b j <> 0)).
Proof.
  intros rd a b lg t c0 os c r n i HF HR Hn. pose proof (run_static_of _ _ _ _ _ HR) as HS.
  pose proof (build_errors_spec rd a b true lg t c0 c n HF HS Hn) as B. rewrite <- (C08_zero_b_exact rd a b lg (Some t) c0 os c r n true i HF HR).
  rewrite (gen_outcome rd _ _ _ _ _ _ _ n true HF HS). unfold upto. rewrite <- zrange_1. replace (1 + n) with (n + 1) by lia.
  destruct (find (bad_index true b) (zrange 1 (n + 1))) as [k|]; [rewrite B; split; congruence|].
  destruct B as (c' & B & _). rewrite B. cbn. split; discriminate.
Qed.
Example C104_ex : let l := snd (build_contfrac_errors (rnd 53) 4 exc) in
  l = Ok [(1, Fin (3 # 2)); (2, Fin (13 # 8)); (3, Fin (7229462559726323 # 4503599627370496)); (4, Fin (7242275076447149 # 4503599627370496))] /\
  cut exa exb 3 = Some (53 # 38)%Q /\
  snd (build_contfrac_errors (rnd 53) 4 (match cf_new (Nested [[1; 1]]) (Nested [[-3; 1]]) true None None (Some 3%Q) true with Ok c => c | Raise _ => exc end)) = Raise (ZeroB 3).
Proof. vm_compute. repeat split. Qed.

(** C109 *)
Definition pyval (x : pynum) : Q := match x with PInt z => inject_Z z | PFlt q => q end.
Lemma py_steps : forall l r x, (forall a b, In (a, b) l -> Z.abs a <= 2 ^ 53 /\ Z.abs b <= 2 ^ 53) -> (pyval r == x)%Q ->
  match foldM (eval_step (rnd 53)) (map (fun '(a, b) => (inject_Z a, inject_Z b)) l) x with
  | Ok y => exists z, foldM py_step l r = Ok z /\ (pyval z == y)%Q
  | Raise e => foldM py_step l r = Raise e
  end.
Proof.
  induction l as [|[a b] l IH]; intros r x HL E; cbn [map foldM eval_step py_step].
  - exists r. split; [reflexivity|exact E].
  - destruct (HL a b (or_introl eq_refl)) as [Ha Hb]. assert (EA : (rnd 53 (inject_Z a) == inject_Z a)%Q) by (apply rnd_exact_Z; lia). assert (EB : (rnd 53 (inject_Z b) == inject_Z b)%Q) by (apply rnd_exact_Z; lia).
    assert (Z0 : Qeq_bool x 0 = Qeq_bool (pyval r) 0).
    { destruct (Qeq_bool x 0) eqn:F; symmetry; [apply Qeq_eq_bool; rewrite E; apply Qeq_bool_eq; exact F|].
      destruct (Qeq_bool (pyval r) 0) eqn:G; [|reflexivity]. apply Qeq_bool_eq in G. rewrite E in G. apply Qeq_bool_neq in F. contradiction. }
    assert (HL' : forall a b, In (a, b) l -> Z.abs a <= 2 ^ 53 /\ Z.abs b <= 2 ^ 53) by (intros; apply HL; right; assumption).
    rewrite Z0. destruct r as [z|q]; cbn [pyval] in *.
    + replace (Qeq_bool (inject_Z z) 0) with (z =? 0) by (unfold Qeq_bool; cbn; rewrite Z.mul_1_r; unfold Zeq_bool; destruct (Z.eqb_spec z 0) as [->|Hz]; [reflexivity|]; destruct (Z.compare_spec z 0); lia || reflexivity).
      destruct (z =? 0); cbn [bind]; [reflexivity|]. apply IH; [exact HL'|]. cbn [pyval]. unfold radd, rdiv. rewrite (rnd_Qeq 53 (inject_Z b / x) (inject_Z b / inject_Z z)) by (rewrite E; reflexivity).
      rewrite (rnd_Qeq 53 _ _ (Qplus_comp _ _ EA _ _ (Qeq_refl (rnd 53 (inject_Z b / inject_Z z))))). reflexivity.
    + destruct (Qeq_bool q 0); cbn [bind]; [reflexivity|]. apply IH; [exact HL'|]. cbn [pyval]. unfold radd, rdiv. rewrite (rnd_Qeq 53 (inject_Z b / x) (rnd 53 (inject_Z b) / q)) by (rewrite E, EB; reflexivity).
      rewrite (rnd_Qeq 53 _ _ (Qplus_comp _ _ EA _ _ (Qeq_refl (rnd 53 (rnd 53 (inject_Z b) / q))))). reflexivity.
Qed.
Lemma mapM_coef l is : l <> [] -> mapM (coef_at l) is = Ok (map (icoef l) is).
Proof. intros H. induction is as [|i is IH]; [reflexivity|]. cbn [mapM map]. rewrite (coef_at_ok l i H). cbn [bind]. rewrite IH. reflexivity. Qed.
(** With integer coefficients the function computes in doubles, whatever the working precision; the value is that of the same
    evaluation in 53-bit arithmetic. *)
Theorem C109_double_arithmetic : forall a b n, a <> [] -> b <> [] -> 0 <= n ->
  (forall i, 0 <= i <= n -> Z.abs (icoef a i) <= 2 ^ 53 /\ Z.abs (icoef b i) <= 2 ^ 53) ->
  match eval_contfrac (rnd 53) (map (fun i => inject_Z (icoef a (Z.of_nat i))) (seq 0 (Z.to_nat n + 1))) (Some (map (fun i => inject_Z (icoef b (Z.of_nat i))) (seq 1 (Z.to_nat n)))) with
  | Ok x => exists y, eval_contfrac_by_polys (Nested a) (Nested b) (n + 1) = Ok y /\ (pyval y == x)%Q
  | Raise e => eval_contfrac_by_polys (Nested a) (Nested b) (n + 1) = Raise e
  end.
Proof.
  intros a b n Na Nb Hn HB. unfold eval_contfrac_by_polys. destruct a as [|a0 a']; [contradiction|]. destruct b as [|b0 b']; [contradiction|]. cbn [norm_coeffs bind].
  set (a := a0 :: a') in *. set (b := b0 :: b') in *. rewrite !mapM_coef by (subst a b; discriminate). cbn [bind].
  assert (E0 : zrange 0 (n + 1) = map Z.of_nat (seq 0 (Z.to_nat n + 1))) by (unfold zrange; replace (Z.to_nat (n + 1 - 0)) with (Z.to_nat n + 1)%nat by lia; reflexivity).
  assert (E1 : zrange 1 (n + 1) = map Z.of_nat (seq 1 (Z.to_nat n))) by (replace (n + 1) with (1 + n) by lia; apply zrange_1).
  rewrite E0, E1, !map_map. unfold eval_contfrac_int, eval_contfrac. rewrite !map_length, !seq_length.
  replace (Nat.eqb (Z.to_nat n + 1) (Z.to_nat n)) with false by (symmetry; apply Nat.eqb_neq; lia). rewrite Nat.eqb_refl.
  replace (Z.to_nat n + 1)%nat with (S (Z.to_nat n)) by lia. rewrite !(seq_S _ 0), !map_app. cbn [map]. rewrite !removelast_last, !last_last.
  set (A := map (fun x => icoef a (Z.of_nat x)) (seq 0 (Z.to_nat n))). set (B := map (fun x => icoef b (Z.of_nat x)) (seq 1 (Z.to_nat n))).
  replace (map (fun i => inject_Z (icoef a (Z.of_nat i))) (seq 0 (Z.to_nat n))) with (map inject_Z A) by (unfold A; now rewrite map_map).
  replace (map (fun i => inject_Z (icoef b (Z.of_nat i))) (seq 1 (Z.to_nat n))) with (map inject_Z B) by (unfold B; now rewrite map_map).
  rewrite <- !map_rev.
  assert (CM : forall l1 l2, combine (map inject_Z l1) (map inject_Z l2) = map (fun '(a, b) => (inject_Z a, inject_Z b)) (combine l1 l2)).
  { induction l1 as [|x l1 IH]; intros [|y l2]; cbn; try reflexivity. now rewrite IH. }
  rewrite CM. apply py_steps; [|reflexivity].
  intros x y HI. split.
  - apply in_combine_l in HI. apply in_rev in HI. unfold A in HI. apply in_map_iff in HI as (k & <- & Hk). apply in_seq in Hk. apply HB. lia.
  - apply in_combine_r in HI. apply in_rev in HI. unfold B in HI. apply in_map_iff in HI as (k & <- & Hk). apply in_seq in Hk. apply HB. lia.
Qed.
(** So it does not have the accuracy of eval_dec_contfrac_by_polys at the working precision of 150 digits. *)
Theorem C109_working_precision_refuted : exists a b n v w, eval_dec_contfrac_by_polys (rnd 502) (Nested a) (Nested b) (n + 1) = Ok v /\
  eval_contfrac_by_polys (Nested a) (Nested b) (n + 1) = Ok (PFlt w) /\ ~ approx w v (two_p (-60)) /\ cut a b n = Some (8 # 5)%Q.
Proof.
  exists [[1]], [[1]], 4. do 2 eexists. split; [vm_compute; reflexivity|]. split; [vm_compute; reflexivity|]. split; [|reflexivity].
  unfold approx. vm_compute. intros H. apply H. reflexivity.
Qed.
Example C109_ex : eval_contfrac_by_polys (Nested exa) (Nested exb) 5 = Ok (PFlt (6268523805664339 # 4503599627370496)) /\
  eval_contfrac_by_polys (Nested [[3]]) (Nested exb) 1 = Ok (PInt 3) /\ eval_contfrac_by_polys (Nested [[0]]) (Nested exb) 2 = Raise ZeroDivisionError /\
  (forall i, 0 <= i <= 4 -> Z.abs (icoef exa i) <= 2 ^ 53 /\ Z.abs (icoef exb i) <= 2 ^ 53).
Proof.
  split; [vm_compute; reflexivity|]. split; [reflexivity|]. split; [reflexivity|]. intros i Hi.
  assert (C : i = 0 \/ i = 1 \/ i = 2 \/ i = 3 \/ i = 4) by lia. destruct C as [-> | [-> | [-> | [-> | ->]]]]; vm_compute; split; discriminate.
Qed.

(** C105-C108 *)
Import Reals Qreals Lra Spec_Errors.
Local Open Scope R_scope.
Lemma nips_rates k n : (1 <= k <= 4)%nat -> err_low k n <= Rabs (rP k n / rQ k n - limit_of k) <= err_high k n.
Proof.
  intros Hk. pose proof (pos_INR n) as N. destruct k as [|[|[|[|[|k]]]]]; try lia; cbn [err_low err_high limit_of].
  - apply nips1_error.
  - pose proof (nips2_error n) as [A B]. unfold CF_Limits.r2 in A, B. rewrite S_INR in A, B. replace (n + 1)%nat with (S n) by lia.
    replace ((INR n * INR n + 5 * INR n + 5) * (INR n * INR n + 3 * INR n + 1)) with (((INR n + 1) * (INR n + 1) + 3 * (INR n + 1) + 1) * (INR n * INR n + 3 * INR n + 1)) by ring.
    rewrite Rabs_minus_sym, Rabs_right; [split; assumption|]. apply Rle_ge. eapply Rle_trans; [|exact A].
    apply Rmult_le_pos; [apply Rmult_le_pos; [apply sqrt_pos|apply pow_le; lra]|]. apply Rlt_le, Rinv_0_lt_compat, Rmult_lt_0_compat; nra.
  - replace (n + 1)%nat with (S n) by lia. apply nips3_error.
  - pose proof (nips4_error n) as [A B]. unfold CF_Limits.U4 in A, B. split; [|exact B]. eapply Rle_trans; [|exact A]. apply Req_le. field. repeat split; lra.
Qed.
Lemma nips_api k : (1 <= k <= 4)%nat -> forall prec av lg tg c0 os c r n,
  (3 <= prec)%Z -> fresh (nips_a k) (nips_b k) av lg tg c0 -> cf_run (rnd prec) os c0 = (c, r) ->
  exists c' v, cf_gen0 (rnd prec) (Z.of_nat n) true c = (c', Ok tt) /\ cut (nips_a k) (nips_b k) (Z.of_nat n) = Some v /\
    err_low k n <= Rabs (Q2R v - limit_of k) <= err_high k n /\
    (lg = false \/ (1 <= n)%nat -> exists x, cf_result c' = Fin x /\ approx x v (4 * two_p (- prec))).
Proof.
  intros Hk prec av lg tg c0 os c r n Hp HF HR. destruct (nips_nested k n Hk) as [v E].
  pose proof (gen_outcome (rnd prec) _ _ _ _ _ _ _ (Z.of_nat n) true HF (run_static_of _ _ _ _ _ HR)) as O. unfold upto in O. rewrite <- zrange_1 in O.
  replace (1 + Z.of_nat n)%Z with (Z.of_nat n + 1)%Z in O by lia. rewrite find_bad_none in O by (intros _ i Hi; apply nips_b_nz; [exact Hk|lia]).
  destruct (cf_gen0 (rnd prec) (Z.of_nat n) true c) as [c' rr] eqn:G. cbn in O. subst rr. exists c', v. split; [reflexivity|].
  assert (E' : cut (nips_a k) (nips_b k) (Z.of_nat n) = Some v) by (unfold cut; rewrite Nat2Z.id; exact E). split; [exact E'|].
  rewrite (nested_R k n v E). split; [apply nips_rates; exact Hk|]. intros HL.
  destruct (C06_convergent prec _ _ _ _ _ _ _ _ _ _ _ v Hp HF HR (Nat2Z.is_nonneg n) G E') as (P & Q & _ & _ & _ & X). apply X. destruct HL; [left; assumption|right; lia].
Qed.
(** Fraction 1: 2 + 4/(4 + 8/(6 + ...)) approaches 1/(e/2 - 1) with error of the order of 1/(n+4)!. *)
Theorem C105_super_exponential : forall prec av lg tg c0 os c r n,
  (3 <= prec)%Z -> fresh (nips_a 1) (nips_b 1) av lg tg c0 -> cf_run (rnd prec) os c0 = (c, r) ->
  exists c' v, cf_gen0 (rnd prec) (Z.of_nat n) true c = (c', Ok tt) /\ cut (nips_a 1) (nips_b 1) (Z.of_nat n) = Some v /\
    14 / INR (fact (n + 4)) <= Rabs (Q2R v - 1 / (exp 1 / 2 - 1)) <= 32 / INR (fact (n + 4)) /\
    (lg = false \/ (1 <= n)%nat -> exists x, cf_result c' = Fin x /\ approx x v (4 * two_p (- prec))).
Proof. exact (nips_api 1 ltac:(lia)). Qed.
(** Fraction 2: 1 + 1/(4 - 2/(7 - 9/(10 - ...))) approaches 4/pi with error of the order of 2^-n n^-3.5. *)
Theorem C106_exponential : forall prec av lg tg c0 os c r n,
  (3 <= prec)%Z -> fresh (nips_a 2) (nips_b 2) av lg tg c0 -> cf_run (rnd prec) os c0 = (c, r) ->
  exists c' v, cf_gen0 (rnd prec) (Z.of_nat n) true c = (c', Ok tt) /\ cut (nips_a 2) (nips_b 2) (Z.of_nat n) = Some v /\
    err_low 2 n <= Rabs (Q2R v - 4 / PI) <= err_high 2 n /\
    (lg = false \/ (1 <= n)%nat -> exists x, cf_result c' = Fin x /\ approx x v (4 * two_p (- prec))).
Proof. exact (nips_api 2 ltac:(lia)). Qed.
(** Fraction 3: 1 + 1/(3 + 4/(5 + 9/(7 + ...))) approaches 4/pi exponentially. *)
Theorem C107_exponential : forall prec av lg tg c0 os c r n,
  (3 <= prec)%Z -> fresh (nips_a 3) (nips_b 3) av lg tg c0 -> cf_run (rnd prec) os c0 = (c, r) ->
  exists c' v, cf_gen0 (rnd prec) (Z.of_nat n) true c = (c', Ok tt) /\ cut (nips_a 3) (nips_b 3) (Z.of_nat n) = Some v /\
    err_low 3 n <= Rabs (Q2R v - 4 / PI) <= err_high 3 n /\
    (lg = false \/ (1 <= n)%nat -> exists x, cf_result c' = Fin x /\ approx x v (4 * two_p (- prec))).
Proof. exact (nips_api 3 ltac:(lia)). Qed.
(** Fraction 4: 6 + 1/(6 + 9/(6 + 25/(6 + ...))) approaches pi + 3 with error of the order of n^-3. *)
Theorem C108_polynomial : forall prec av lg tg c0 os c r n,
  (3 <= prec)%Z -> fresh (nips_a 4) (nips_b 4) av lg tg c0 -> cf_run (rnd prec) os c0 = (c, r) ->
  exists c' v, cf_gen0 (rnd prec) (Z.of_nat n) true c = (c', Ok tt) /\ cut (nips_a 4) (nips_b 4) (Z.of_nat n) = Some v /\
    / (2 * (INR n + 1) * (INR n + 2) * (2 * INR n + 3)) <= Rabs (Q2R v - (PI + 3)) <= / ((INR n + 1) * (INR n + 2) * (2 * INR n + 3)) /\
    (lg = false \/ (1 <= n)%nat -> exists x, cf_result c' = Fin x /\ approx x v (4 * two_p (- prec))).
Proof. exact (nips_api 4 ltac:(lia)). Qed.
Definition nips_obj (k : nat) : contfrac := match cf_new (Nested (nips_a k)) (Nested (nips_b k)) true None None (Some 1%Q) true with Ok c => c | Raise _ => exc end.
Example C105_ex : fresh (nips_a 1) (nips_b 1) true true (Some 1%Q) (nips_obj 1) /\ cut (nips_a 1) (nips_b 1) 3 = Some (848 # 304)%Q /\ (exists c, cf_gen0 (rnd 336) 3 true (nips_obj 1) = (c, Ok tt)).
Proof. split; [reflexivity|]. split; [vm_compute; reflexivity|]. eexists. vm_compute. reflexivity. Qed.
Example C106_ex : fresh (nips_a 2) (nips_b 2) true true (Some 1%Q) (nips_obj 2) /\ cut (nips_a 2) (nips_b 2) 3 = Some (285 # 224)%Q.
Proof. split; [reflexivity|]. vm_compute. reflexivity. Qed.
Example C107_ex : fresh (nips_a 3) (nips_b 3) true true (Some 1%Q) (nips_obj 3) /\ cut (nips_a 3) (nips_b 3) 3 = Some (204 # 160)%Q.
Proof. split; [reflexivity|]. vm_compute. reflexivity. Qed.
Example C108_ex : fresh (nips_a 4) (nips_b 4) true true (Some 1%Q) (nips_obj 4) /\ cut (nips_a 4) (nips_b 4) 3 = Some (2581 # 420)%Q.
Proof. split; [reflexivity|]. vm_compute. reflexivity. Qed.

Print Assumptions C104_errors.
Print Assumptions C104_zero_b.
Print Assumptions C109_double_arithmetic.
Print Assumptions C109_working_precision_refuted.
Print Assumptions C105_super_exponential.
Print Assumptions C106_exponential.
Print Assumptions C107_exponential.
Print Assumptions C108_polynomial.

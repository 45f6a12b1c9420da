(** Claims C139 (fractions whose a_i are larger than their b_i) and C140 (fractions that are not rational). *)
From Coq Require Import ZArith QArith Qabs Qminmax List Bool Lia Lqa Psatz Arith.
From Verif Require Import PyBase PyBase_Proofs Rnd Rnd_Proofs Utils_Model Spec_Utils ContFrac_Model Spec_ContFrac ContFrac_Proofs ContFrac_Hist ContFrac_Proofs2 Properties_ContFrac Errors_Model Errors_Proofs Properties_Errors.
From Verif Require Import Properties_TestFracs CF_Positive Spec_Positive Positive_Proofs Properties_Positive CF_Dominant Spec_Dominant.
Import ListNotations.
Open Scope Z_scope.

(** C139 *)
Lemma dom_mono d d' a b : d' <= d -> dominates d a b -> dominates d' a b.
Proof. intros L H i Hi. destruct (H i Hi). split; [assumption|lia]. Qed.
(** the tail that begins with a_k is larger than |b_k| *)
Lemma nested_dom a b : dominates 1 a b -> forall j k, (1 <= k)%nat ->
  exists v, nested (inject_Z (icoef a (Z.of_nat k))) (toQ (icoefs a b (map Z.of_nat (seq (S k) j)))) = Some v /\ (inject_Z (Z.abs (icoef b (Z.of_nat k))) < Qabs v)%Q.
Proof.
  intros H. induction j as [|j IH]; intros k Hk; destruct (H (Z.of_nat k) ltac:(lia)) as [NB DM].
  - eexists. split; [reflexivity|]. rewrite <- inj_abs, <- Zlt_Qlt. lia.
  - destruct (IH (S k) ltac:(lia)) as (v & E & V). unfold icoefs, toQ in *. cbn [seq map nested]. rewrite E.
    assert (B0 : (0 <= inject_Z (Z.abs (icoef b (Z.of_nat (S k)))))%Q) by (change 0%Q with (inject_Z 0); rewrite <- Zle_Qle; lia).
    assert (VP : (0 < Qabs v)%Q) by (eapply Qle_lt_trans; [exact B0|exact V]).
    assert (Z0 : Qeq_bool v 0 = false) by (destruct (Qeq_bool v 0) eqn:F; [apply Qeq_bool_eq in F; rewrite F in VP; discriminate VP|reflexivity]).
    rewrite Z0. eexists. split; [reflexivity|]. set (x := icoef a (Z.of_nat k)) in *. set (y := icoef b (Z.of_nat (S k))) in *.
    assert (T : (Qabs (inject_Z y / v) < 1)%Q).
    { unfold Qdiv. rewrite Qabs_Qmult, Qabs_Qinv, <- inj_abs. apply Qlt_shift_div_r; [exact VP|]. rewrite Qmult_1_l. exact V. }
    pose proof (Qabs_triangle (inject_Z x + inject_Z y / v) (- (inject_Z y / v))) as U. rewrite Qabs_opp in U.
    setoid_replace (inject_Z x + inject_Z y / v + - (inject_Z y / v))%Q with (inject_Z x)%Q in U by ring. rewrite <- inj_abs in U.
    rewrite Zle_Qle, inject_Z_plus in DM. change (inject_Z 1) with 1%Q in DM. lra.
Qed.
Lemma cut_dom a b n : dominates 1 a b -> exists v, cut a b (Z.of_nat n) = Some v /\ (v == vd (nth_P a b) (nth_Q a b) n)%Q.
Proof.
  intros H. assert (E : exists v, cut a b (Z.of_nat n) = Some v).
  { rewrite cut_nat. destruct n as [|n]; [eexists; reflexivity|]. destruct (nested_dom a b H n 1 ltac:(lia)) as (v & E & V). unfold icoefs, toQ in *. cbn [seq map nested]. rewrite E.
    assert (B0 : (0 <= inject_Z (Z.abs (icoef b (Z.of_nat 1))))%Q) by (change 0%Q with (inject_Z 0); rewrite <- Zle_Qle; lia).
    assert (Z0 : Qeq_bool v 0 = false) by (destruct (Qeq_bool v 0) eqn:F; [apply Qeq_bool_eq in F; rewrite F in V; exfalso; apply (Qlt_not_le _ _ V); exact B0|reflexivity]).
    rewrite Z0. eexists. reflexivity. }
  destruct E as [v E]. exists v. split; [exact E|]. rewrite cut_nat in E. apply cut_val in E. exact E.
Qed.
Definition za (a : list (list Z)) (n : nat) : Z := icoef a (Z.of_nat n).
Lemma dom_facts a b d : dominates d a b ->
  (forall n, za b (S n) <> 0) /\ (forall n, Z.abs (za b (S n)) + d <= Z.abs (za a (S n))) /\
  nth_P a b 0 = za a 0 /\ nth_Q a b 0 = 1 /\ nth_P a b 1 = za a 1 * za a 0 + za b 1 /\ nth_Q a b 1 = za a 1 /\
  (forall n, nth_P a b (S (S n)) = za a (S (S n)) * nth_P a b (S n) + za b (S (S n)) * nth_P a b n) /\
  (forall n, nth_Q a b (S (S n)) = za a (S (S n)) * nth_Q a b (S n) + za b (S (S n)) * nth_Q a b n).
Proof.
  intros H. pose proof (nth_init a b) as (I1 & I2 & I3 & I4). split; [intros n; apply H; lia|]. split; [intros n; apply H; lia|].
  split; [exact I1|]. split; [exact I2|]. split; [exact I3|]. split; [exact I4|]. split; intros n; apply (nth_PQ_rec a b n).
Qed.

(** All finite fractions exist, lie within 1 of a_0, and after n levels all further ones lie within 1/(n+1). *)
Theorem C139_close : forall a b n m, dominates 1 a b -> (n <= m)%nat ->
  exists v w, cut a b (Z.of_nat n) = Some v /\ cut a b (Z.of_nat m) = Some w /\
    (Qabs (w - v) < / inject_Z (Z.of_nat n + 1))%Q /\ (Qabs (w - inject_Z (icoef a 0)) < 1)%Q.
Proof.
  intros a b n m H L. destruct (cut_dom a b n H) as (v & E1 & V1). destruct (cut_dom a b m H) as (w & E2 & V2). exists v, w. split; [exact E1|]. split; [exact E2|].
  destruct (dom_facts a b 1 H) as (F1 & F2 & F3 & F4 & F5 & F6 & F7 & F8). rewrite V1, V2.
  pose proof (rd_pos _ _ _ F1 F2 F4 F6 F8 m) as R. split.
  - pose proof (tele _ _ _ _ F1 F2 F3 F4 F5 F6 F7 F8 n (m - n)) as T. replace (n + (m - n))%nat with m in T by lia. pose proof (rd_le _ _ _ F1 F2 F4 F6 F8 n) as B. lra.
  - pose proof (tele _ _ _ _ F1 F2 F3 F4 F5 F6 F7 F8 0 m) as T. cbn [Nat.add] in T.
    assert (R0 : (rd (nth_Q a b) 0 == 1)%Q) by (unfold rd; rewrite F4; reflexivity). assert (VV : (vd (nth_P a b) (nth_Q a b) 0 == inject_Z (icoef a 0))%Q) by (unfold vd; rewrite F3, F4; unfold za; cbn [Z.of_nat]; field).
    rewrite VV, R0 in T. lra.
Qed.
(** So the fraction converges. *)
Theorem C139_converges : forall a b, dominates 1 a b -> settles (fun n => cut a b (Z.of_nat n)).
Proof.
  intros a b H eps He. destruct (Qarchimedean (/ eps)) as [N HN]. exists (Pos.to_nat N + Pos.to_nat N)%nat. intros m n Hm Hn.
  assert (G : exists u v w, cut a b (Z.of_nat (Pos.to_nat N + Pos.to_nat N)) = Some u /\ cut a b (Z.of_nat m) = Some v /\ cut a b (Z.of_nat n) = Some w /\
    (Qabs (v - u) < / inject_Z (Z.of_nat (Pos.to_nat N + Pos.to_nat N) + 1))%Q /\ (Qabs (w - u) < / inject_Z (Z.of_nat (Pos.to_nat N + Pos.to_nat N) + 1))%Q).
  { destruct (C139_close a b _ m H Hm) as (u & v & A1 & A2 & A3 & _). destruct (C139_close a b _ n H Hn) as (u' & w & B1 & B2 & B3 & _). rewrite A1 in B1. injection B1 as <-. exists u, v, w. auto. }
  destruct G as (u & v & w & E0 & E1 & E2 & D1 & D2). exists v, w. split; [exact E1|]. split; [exact E2|].
  replace (Z.of_nat (Pos.to_nat N + Pos.to_nat N) + 1) with (2 * Zpos N + 1) in * by lia.
  assert (K : (/ inject_Z (2 * Zpos N + 1) < eps * (1 # 2))%Q).
  { assert (NP : (0 < inject_Z (2 * Zpos N + 1))%Q) by (apply posQ; lia). apply Qlt_shift_inv_r; [exact NP|]. rewrite inject_Z_plus, inject_Z_mult. change (inject_Z 2) with 2%Q. change (inject_Z 1) with 1%Q.
    change (inject_Z (Zpos N)) with (Zpos N # 1)%Q. assert (G : (1 < (Zpos N # 1) * eps)%Q) by (setoid_replace 1%Q with (/ eps * eps)%Q by (field; lra); apply Qmult_lt_compat_r; assumption).
    revert G. generalize (Zpos N # 1)%Q. intros t G. setoid_replace (eps * (1 # 2) * (2 * t + 1))%Q with (t * eps + (1 # 2) * eps)%Q by ring. lra. }
  pose proof (Qabs_triangle (v - u) (u - w)) as T. setoid_replace (v - u + (u - w))%Q with (v - w)%Q in T by ring. rewrite (Qabs_Qminus u w) in T. revert D1 D2 K T. generalize (/ inject_Z (2 * Zpos N + 1))%Q. intros h D1 D2 K T. lra.
Qed.
(** What objects say: every computation succeeds, and two results differ by at most 1/(n+1) and the rounding. *)
Theorem C139_results : forall prec a b lg c n m,
  3 <= prec -> hd [] a <> [] -> b <> [] -> dominates 1 a b -> stands_for prec a b lg c -> (1 <= n)%nat -> (n <= m)%nat ->
  exists c1 c2 x1 x2,
    cf_gen0 (rnd prec) (Z.of_nat n) true c = (c1, Ok tt) /\ cf_result c1 = Fin x1 /\
    cf_gen0 (rnd prec) (Z.of_nat m) true c = (c2, Ok tt) /\ cf_result c2 = Fin x2 /\
    (Qabs (x2 - x1) <= / inject_Z (Z.of_nat n + 1) + 8 * two_p (- prec) * inject_Z (Z.abs (icoef a 0) + 1))%Q.
Proof.
  intros prec a b lg c n m Hp Na Nb H HS Hn Hm.
  assert (G : exists v w, cut a b (Z.of_nat n) = Some v /\ cut a b (Z.of_nat m) = Some w /\ (Qabs (w - v) < / inject_Z (Z.of_nat n + 1))%Q /\
    (Qabs (v - inject_Z (icoef a 0)) < 1)%Q /\ (Qabs (w - inject_Z (icoef a 0)) < 1)%Q).
  { destruct (C139_close a b n m H Hm) as (v & w & A1 & A2 & A3 & A4). destruct (C139_close a b n n H ltac:(lia)) as (v' & v'' & B1 & B2 & _ & B4). rewrite A1 in B2. injection B2 as <-. exists v, w. auto. }
  destruct G as (v & w & E1 & E2 & D & V & W). assert (NZ : forall i, 1 <= i -> icoef b i <> 0) by (intros i Hi; apply (H i Hi)).
  destruct (stands_gen prec a b lg c (Z.of_nat n) Hp Na Nb HS ltac:(lia) NZ v E1) as (c1 & G1 & X1). destruct (X1 ltac:(right; lia)) as (x1 & R1 & A1).
  destruct (stands_gen prec a b lg c (Z.of_nat m) Hp Na Nb HS ltac:(lia) NZ w E2) as (c2 & G2 & X2). destruct (X2 ltac:(right; lia)) as (x2 & R2 & A2).
  exists c1, c2, x1, x2. do 4 (split; [assumption|]). unfold approx in *. pose proof (two_p_pos (- prec)) as U. rewrite (inject_Z_plus (Z.abs (icoef a 0)) 1), (inj_abs (icoef a 0)). change (inject_Z 1) with 1%Q.
  revert D V W U A1 A2. generalize (two_p (- prec)) (inject_Z (icoef a 0)) (/ inject_Z (Z.of_nat n + 1))%Q. intros u t h D V W U A1 A2.
  assert (BV : forall y, (Qabs (y - t) < 1 -> Qabs y <= Qabs t + 1)%Q).
  { intros y Hy. pose proof (Qabs_triangle (y - t) t) as T. setoid_replace (y - t + t)%Q with y in T by ring. lra. }
  apply BV in V. apply BV in W. assert (M : forall y z, (y <= z -> u * y <= u * z)%Q) by (intros y z Hyz; apply Qmult_le_l; assumption). apply M in V. apply M in W.
  pose proof (Qabs_triangle (x2 - w) (w - v + (v - x1))) as T1. pose proof (Qabs_triangle (w - v) (v - x1)) as T2. rewrite (Qabs_Qminus v x1) in T2.
  setoid_replace (x2 - w + (w - v + (v - x1)))%Q with (x2 - x1)%Q in T1 by ring. lra.
Qed.
(** With |b_i| equal to |a_i| this fails: 1 - 1/(1 - 1/1) has no value. *)
Theorem C139_equal_refuted : exists a b, dominates 0 a b /\ exists n, cut a b n = None.
Proof. exists [[1]], [[-1]]. split; [intros i Hi; rewrite !icoef_one; cbn [poly_val]; lia|]. exists 2. vm_compute. reflexivity. Qed.

(** 1 - 1/(3 - 1/(5 - 1/(7 - ...))), the fraction of the cotangent of 1 *)
Example C139_ex : dominates 1 [[1; 2]] [[-1]] /\ dominates 2 [[1; 2]] [[-1]] /\
  cut [[1; 2]] [[-1]] 2 = Some (9 # 14)%Q /\ cut [[1; 2]] [[-1]] 3 = Some (61 # 95)%Q /\
  exists lg c, stands_for 53 [[1; 2]] [[-1]] lg c.
Proof.
  split; [intros i Hi; rewrite !icoef_one; cbn [poly_val]; lia|]. split; [intros i Hi; rewrite !icoef_one; cbn [poly_val]; lia|].
  split; [vm_compute; reflexivity|]. split; [vm_compute; reflexivity|]. exists false. unfold stands_for. eexists. left. exists true, None. eexists. exists [], (Ok tt). split; [reflexivity|reflexivity].
Qed.

(** C140 *)
Lemma ratio_of (r : Q) : exists p q, 0 < q /\ (r == inject_Z p / inject_Z q)%Q.
Proof. exists (Qnum r), (Zpos (Qden r)). split; [lia|]. destruct r. apply Qmake_Qdiv. Qed.
(** If |a_i| is at least |b_i| + 2, the limit is not a rational number. *)
Theorem C140_dominant : forall a b r, dominates 2 a b -> stays_away (fun n => cut a b (Z.of_nat n)) r.
Proof.
  intros a b r H. pose proof (dom_mono 2 1 a b ltac:(lia) H) as H1. destruct (ratio_of r) as (p & q & Hq & Er).
  destruct (dom_facts a b 1 H1) as (F1 & F2 & F3 & F4 & F5 & F6 & F7 & F8). destruct (dom_facts a b 2 H) as (_ & G2 & _).
  destruct (apart _ _ _ _ F1 F2 F3 F4 F5 F6 F7 F8 p q Hq G2) as (N & eps & He & HN). exists eps, N. split; [exact He|]. intros n Hn.
  destruct (cut_dom a b n H1) as (v & E & V). exists v. split; [exact E|]. rewrite V, Er. specialize (HN (n - N)%nat). replace (N + (n - N))%nat with n in HN by lia. exact HN.
Qed.
(** If all coefficients are positive and b_i is at most a_i, the limit is not a rational number. *)
Theorem C140_positive : forall a b r, positive a b -> (forall i, 1 <= i -> icoef b i <= icoef a i) -> stays_away (fun n => cut a b (Z.of_nat n)) r.
Proof.
  intros a b r H HL. destruct (ratio_of r) as (p & q & Hq & Er). pose proof (nth_init a b) as (I1 & I2 & I3 & I4).
  destruct (same_sign (za a) (za b) (nth_P a b) (nth_Q a b)) with (p := p) (q := q) as [N HN]; try assumption.
  - intros n. apply H. lia.
  - intros n. apply HL. lia.
  - intros n. apply (nth_PQ_rec a b n).
  - intros n. apply (nth_PQ_rec a b n).
  - destruct (C138_enclosed a b N N H ltac:(lia)) as (v & v' & _ & E1 & E2 & _ & _ & _).
    assert (DP : forall n, (0 < inject_Z (nth_Q a b n))%Q). { intros n. destruct (pos_facts a b H) as (K1 & K2 & _ & K4 & _ & K6 & _ & K8). apply (D_pos _ _ _ K1 K2 K4 K6 K8 n). }
    assert (EV : forall n x, cut a b (Z.of_nat n) = Some x -> (x - r == inject_Z (er (nth_P a b) (nth_Q a b) p q n) / (inject_Z q * inject_Z (nth_Q a b n)))%Q).
    { intros n x E. rewrite cut_nat in E. apply cut_val in E. rewrite E, Er. unfold val, qP, qD, er, Z.sub. rewrite inject_Z_plus, inject_Z_opp, !inject_Z_mult. pose proof (DP n) as K. pose proof (posQ q Hq). field. split; intros F; rewrite F in *; discriminate. }
    assert (SG : (0 < (v - r) * (v' - r))%Q).
    { rewrite (EV N v E1), (EV (S N) v' E2). pose proof (DP N) as K1. pose proof (DP (S N)) as K2. pose proof (posQ q Hq) as K3.
      rewrite Zlt_Qlt, inject_Z_mult in HN. change (inject_Z 0) with 0%Q in HN. revert HN K1 K2 K3.
      generalize (inject_Z (er (nth_P a b) (nth_Q a b) p q N)) (inject_Z (er (nth_P a b) (nth_Q a b) p q (S N))) (inject_Z (nth_Q a b N)) (inject_Z (nth_Q a b (S N))) (inject_Z q). clear. intros x y d d' k HN K1 K2 K3.
      setoid_replace (x / (k * d) * (y / (k * d')))%Q with ((x * y) / ((k * d) * (k * d')))%Q by (field; repeat split; intros F; rewrite F in *; discriminate).
      apply Qlt_shift_div_l; [|lra]. assert (0 < k * d)%Q by nra. assert (0 < k * d')%Q by nra. nra. }
    assert (V1 : (0 < Qabs (v - r))%Q) by (destruct (Qlt_le_dec 0 (Qabs (v - r))) as [G|G]; [exact G|]; pose proof (Qabs_nonneg (v - r)); assert (Z0 : (Qabs (v - r) == 0)%Q) by lra; assert ((v - r) * (v' - r) <= 0)%Q by (assert (Y : (v - r == 0)%Q) by (pose proof (Qle_Qabs (v - r)); pose proof (Qle_Qabs (- (v - r))) as Y2; rewrite Qabs_opp in Y2; lra); rewrite Y; lra); lra).
    assert (V2 : (0 < Qabs (v' - r))%Q) by (destruct (Qlt_le_dec 0 (Qabs (v' - r))) as [G|G]; [exact G|]; pose proof (Qabs_nonneg (v' - r)); assert (Z0 : (Qabs (v' - r) == 0)%Q) by lra; assert ((v - r) * (v' - r) <= 0)%Q by (assert (Y : (v' - r == 0)%Q) by (pose proof (Qle_Qabs (v' - r)); pose proof (Qle_Qabs (- (v' - r))) as Y2; rewrite Qabs_opp in Y2; lra); rewrite Y; lra); lra).
    exists (Qmin (Qabs (v - r)) (Qabs (v' - r)))%Q, N. split; [apply Q.min_glb_lt; assumption|]. intros n Hn.
    destruct (C138_enclosed a b N n H Hn) as (w1 & w2 & w & D1 & D2 & D3 & B & _). rewrite E1 in D1. injection D1 as <-. rewrite E2 in D2. injection D2 as <-. exists w. split; [exact D3|].
    pose proof (Q.le_min_l (Qabs (v - r)) (Qabs (v' - r))) as M1. pose proof (Q.le_min_r (Qabs (v - r)) (Qabs (v' - r))) as M2.
    unfold between in B. destruct (Qlt_le_dec 0 (v - r)) as [P1|P1].
    + assert (P2 : (0 < v' - r)%Q) by (destruct (Qlt_le_dec 0 (v' - r)) as [G|G]; [exact G|]; exfalso; nra). rewrite (Qabs_pos (w - r)) by (destruct B; lra). rewrite (Qabs_pos (v - r)) in * by lra. rewrite (Qabs_pos (v' - r)) in * by lra. destruct B; lra.
    + assert (P2 : (v' - r <= 0)%Q) by (destruct (Qlt_le_dec 0 (v' - r)) as [G|G]; [|exact G]; exfalso; nra). rewrite (Qabs_neg (w - r)) by (destruct B; lra). rewrite (Qabs_neg (v - r)) in * by lra. rewrite (Qabs_neg (v' - r)) in * by lra. destruct B; lra.
Qed.
(** Objects with enough precision and enough iterations therefore keep a distance from every given rational number. *)
Theorem C140_results : forall a b r, hd [] a <> [] -> b <> [] ->
  dominates 2 a b \/ (positive a b /\ (forall i, 1 <= i -> icoef b i <= icoef a i)) ->
  exists eps p0 N, (0 < eps)%Q /\ forall prec lg c n, p0 <= prec -> (N <= n)%nat -> stands_for prec a b lg c ->
    exists c' x, cf_gen0 (rnd prec) (Z.of_nat n) true c = (c', Ok tt) /\ cf_result c' = Fin x /\ (eps <= Qabs (x - r))%Q.
Proof.
  intros a b r Na Nb H. assert (SA : stays_away (fun n => cut a b (Z.of_nat n)) r) by (destruct H as [H|[H HL]]; [apply C140_dominant; exact H|apply C140_positive; assumption]).
  assert (NZ : forall i, 1 <= i -> icoef b i <> 0) by (intros i Hi; destruct H as [H|[H _]]; [apply (H i Hi)|pose proof (proj2 (H i Hi)); lia]).
  destruct SA as (eps & N & He & HN).
  assert (BD : exists K, (0 < K)%Q /\ forall n v, cut a b (Z.of_nat n) = Some v -> (Qabs v <= K)%Q).
  { destruct H as [H|[H HL]].
    - exists (Qabs (inject_Z (icoef a 0)) + 1)%Q. pose proof (Qabs_nonneg (inject_Z (icoef a 0))). split; [lra|]. intros n v E.
      destruct (C139_close a b 0 n (dom_mono 2 1 a b ltac:(lia) H) ltac:(lia)) as (_ & w & _ & E2 & _ & W). rewrite E in E2. injection E2 as <-.
      pose proof (Qabs_triangle (v - inject_Z (icoef a 0)) (inject_Z (icoef a 0))) as T. setoid_replace (v - inject_Z (icoef a 0) + inject_Z (icoef a 0))%Q with v in T by ring. lra.
    - destruct (C138_enclosed a b 0 0 H ltac:(lia)) as (v0 & v1 & _ & E0 & E1 & _). exists (Qabs v0 + Qabs v1 + 1)%Q. pose proof (Qabs_nonneg v0). pose proof (Qabs_nonneg v1). split; [lra|]. intros n v E.
      destruct (C138_enclosed a b 0 n H ltac:(lia)) as (w0 & w1 & w & D0 & D1 & D2 & B & _). rewrite E0 in D0. injection D0 as <-. rewrite E1 in D1. injection D1 as <-. rewrite E in D2. injection D2 as <-.
      pose proof (Qle_Qabs v0). pose proof (Qle_Qabs v1). pose proof (Qle_Qabs (- v0)) as N1. pose proof (Qle_Qabs (- v1)) as N2. rewrite Qabs_opp in N1, N2. apply Qabs_Qle_condition. unfold between in B. destruct B; lra. }
  destruct BD as (K & K0 & HK). destruct (Qarchimedean (8 * K / eps)) as [k Hk].
  exists (eps * (1 # 2))%Q, (Zpos k + 3), (S N). split; [lra|]. intros prec lg c n Hp Hn HS. destruct (HN n ltac:(lia)) as (v & E & V). specialize (HK n v E).
  destruct (stands_gen prec a b lg c (Z.of_nat n) ltac:(lia) Na Nb HS ltac:(lia) NZ v E) as (c' & G & X). destruct (X ltac:(right; lia)) as (x & R & A).
  exists c', x. split; [exact G|]. split; [exact R|]. unfold approx in A.
  assert (U : (8 * K * two_p (- prec) <= eps)%Q).
  { apply Qle_trans with (8 * K * / (Zpos k # 1))%Q.
    - apply Qmult_le_l; [lra|]. assert (IV : (two_p (- prec) == / two_p prec)%Q) by (pose proof (two_p_opp_l prec) as O; pose proof (two_p_pos prec) as O2; setoid_replace (two_p (- prec)) with (two_p (- prec) * two_p prec / two_p prec)%Q by (field; lra); rewrite O; field; lra). rewrite IV. assert (L : (Zpos k # 1 <= two_p prec)%Q).
      { rewrite two_p_Z by lia. change (Zpos k # 1)%Q with (inject_Z (Zpos k)). rewrite <- Zle_Qle. pose proof (Z.pow_gt_lin_r 2 (Zpos k) ltac:(lia) ltac:(lia)). pose proof (Z.pow_le_mono_r 2 (Zpos k) prec ltac:(lia) ltac:(lia)). lia. }
      apply Qle_shift_inv_l; [reflexivity|]. rewrite Qmult_comm. apply Qle_shift_div_r; [apply two_p_pos|]. lra.
    - assert (Hk2 : (8 * K < (Zpos k # 1) * eps)%Q).
      { setoid_replace (8 * K)%Q with (8 * K / eps * eps)%Q by (field; lra). apply Qmult_lt_compat_r; assumption. }
      change (8 * K * / (Zpos k # 1))%Q with (8 * K / (Zpos k # 1))%Q. apply Qle_shift_div_r; [reflexivity|]. lra. }
  pose proof (two_p_pos (- prec)) as UP. revert A U UP. generalize (two_p (- prec)). intros u A U UP.
  assert (M : (u * Qabs v <= u * K)%Q) by (apply Qmult_le_l; assumption).
  pose proof (Qabs_triangle (x - r) (v - x)) as T. setoid_replace (x - r + (v - x))%Q with (v - r)%Q in T by ring. rewrite (Qabs_Qminus v x) in T. lra.
Qed.
(** With a smaller distance between a_i and b_i the limit can be rational: 2 - 1/(2 - 1/(2 - ...)) is 1 and
    1 + 2/(1 + 2/(1 + ...)) is 2. *)
Theorem C140_bounds_refuted :
  (exists a b r, dominates 1 a b /\ tends_to (fun n => cut a b (Z.of_nat n)) r) /\
  (exists a b r, positive a b /\ (forall i, 1 <= i -> icoef b i <= icoef a i + 1) /\ tends_to (fun n => cut a b (Z.of_nat n)) r).
Proof.
  assert (AR : forall eps, (0 < eps)%Q -> exists N : nat, (/ inject_Z (Z.of_nat N + 1) < eps)%Q).
  { intros eps He. destruct (Qarchimedean (/ eps)) as [k Hk]. exists (Pos.to_nat k). rewrite positive_nat_Z. assert (P : (0 < inject_Z (Zpos k + 1))%Q) by (apply posQ; lia).
    apply Qlt_shift_inv_r; [exact P|]. rewrite inject_Z_plus. change (inject_Z 1) with 1%Q. change (inject_Z (Zpos k)) with (Zpos k # 1)%Q.
    assert (G : (1 < (Zpos k # 1) * eps)%Q) by (setoid_replace 1%Q with (/ eps * eps)%Q by (field; lra); apply Qmult_lt_compat_r; assumption). lra. }
  assert (MON : forall N z, Z.of_nat N + 1 <= z -> (/ inject_Z z <= / inject_Z (Z.of_nat N + 1))%Q).
  { intros N z Hz. assert (P : (0 < inject_Z (Z.of_nat N + 1))%Q) by (apply posQ; lia). assert (P2 : (0 < inject_Z z)%Q) by (apply posQ; lia).
    apply Qle_shift_inv_l; [exact P|]. rewrite Qmult_comm. apply Qle_shift_div_r; [exact P2|]. rewrite Qmult_1_l, <- Zle_Qle. exact Hz. }
  split.
  - exists [[2]], [[-1]], 1%Q. assert (DM : dominates 1 [[2]] [[-1]]) by (intros i Hi; rewrite !icoef_one; cbn [poly_val]; lia). split; [exact DM|].
    destruct (dom_facts _ _ 1 DM) as (F1 & F2 & F3 & F4 & F5 & F6 & F7 & F8).
    assert (Y : forall n, nth_Q [[2]] [[-1]] n = Z.of_nat n + 1 /\ nth_Q [[2]] [[-1]] (S n) = Z.of_nat n + 2 /\ nth_P [[2]] [[-1]] n = Z.of_nat n + 2 /\ nth_P [[2]] [[-1]] (S n) = Z.of_nat n + 3).
    { induction n as [|n (A1 & A2 & A3 & A4)]; [vm_compute; auto|]. rewrite F7, F8, A1, A2, A3, A4. unfold za. rewrite !icoef_one. cbn [poly_val]. lia. }
    intros eps He. destruct (AR eps He) as [N HN]. exists N. intros n Hn. destruct (cut_dom _ _ n DM) as (v & E & V). exists v. split; [exact E|]. rewrite V. unfold vd. destruct (Y n) as (A1 & _ & A3 & _). rewrite A1, A3.
    assert (P : (0 < inject_Z (Z.of_nat n + 1))%Q) by (apply posQ; lia). replace (Z.of_nat n + 2) with (Z.of_nat n + 1 + 1) by lia. rewrite (inject_Z_plus (Z.of_nat n + 1) 1). change (inject_Z 1) with 1%Q.
    pose proof (MON N (Z.of_nat n + 1) ltac:(lia)) as M. revert P M. generalize (inject_Z (Z.of_nat n + 1)). intros t P M. setoid_replace ((t + 1) / t - 1)%Q with (/ t)%Q by (field; intros F; rewrite F in P; discriminate).
    rewrite Qabs_pos by (apply Qlt_le_weak, Qinv_lt_0_compat, P). eapply Qle_lt_trans; [exact M|exact HN].
  - exists [[1]], [[2]], 2%Q. assert (DM : positive [[1]] [[2]]) by (intros i Hi; rewrite !icoef_one; cbn [poly_val]; lia). split; [exact DM|]. split; [intros i Hi; rewrite !icoef_one; cbn [poly_val]; lia|].
    pose proof (nth_PQ_rec [[1]] [[2]]) as RC. cbn zeta in RC.
    assert (Y : forall n, Z.of_nat n <= nth_Q [[1]] [[2]] n /\ 1 <= nth_Q [[1]] [[2]] n /\ Z.of_nat n + 1 <= nth_Q [[1]] [[2]] (S n) /\ (nth_P [[1]] [[2]] n = 2 * nth_Q [[1]] [[2]] n - 1 /\ nth_P [[1]] [[2]] (S n) = 2 * nth_Q [[1]] [[2]] (S n) + 1 \/
       nth_P [[1]] [[2]] n = 2 * nth_Q [[1]] [[2]] n + 1 /\ nth_P [[1]] [[2]] (S n) = 2 * nth_Q [[1]] [[2]] (S n) - 1)).
    { induction n as [|n (A1 & A2 & A3 & A4)]; [split; [vm_compute; discriminate|split; [vm_compute; discriminate|split; [vm_compute; discriminate|left; vm_compute; auto]]]|].
      destruct (RC n) as [R1 R2]. rewrite R1, R2. rewrite !icoef_one. cbn [poly_val]. lia. }
    intros eps He. destruct (AR eps He) as [N HN]. exists (S N). intros n Hn. destruct (cut_pos _ _ n DM) as (v & E & V). exists v. split; [exact E|]. rewrite V. unfold val, qP, qD. destruct (Y n) as (A1 & A2 & _ & A4).
    pose proof (MON N (nth_Q [[1]] [[2]] n) ltac:(lia)) as M. revert A1 A2 A4 M. generalize (nth_Q [[1]] [[2]] n) (nth_P [[1]] [[2]] n). intros q p A1 A2 A4 M.
    assert (P : (0 < inject_Z q)%Q) by (apply posQ; lia). assert (NZ : ~ (inject_Z q == 0)%Q) by (intros F; rewrite F in P; discriminate).
    assert (X : (Qabs (inject_Z p / inject_Z q - 2) == / inject_Z q)%Q).
    { assert (IP : (0 <= / inject_Z q)%Q) by (apply Qlt_le_weak, Qinv_lt_0_compat, P). destruct A4 as [[-> _]|[-> _]].
      - unfold Z.sub. rewrite inject_Z_plus, inject_Z_mult. change (inject_Z 2) with 2%Q. change (inject_Z (-(1))) with (-1)%Q. setoid_replace ((2 * inject_Z q + -1) / inject_Z q - 2)%Q with (- / inject_Z q)%Q by (field; exact NZ). rewrite Qabs_opp. apply Qabs_pos, IP.
      - rewrite inject_Z_plus, inject_Z_mult. change (inject_Z 2) with 2%Q. change (inject_Z 1) with 1%Q. setoid_replace ((2 * inject_Z q + 1) / inject_Z q - 2)%Q with (/ inject_Z q)%Q by (field; exact NZ). apply Qabs_pos, IP. }
    rewrite X. eapply Qle_lt_trans; [exact M|exact HN].
Qed.

(** 1 - 1/(3 - 1/(5 - ...)) and the golden ratio's 1 + 1/(1 + 1/(1 + ...)) *)
Example C140_ex : dominates 2 [[1; 2]] [[-1]] /\
  (positive [[1]] [[1]] /\ (forall i, 1 <= i -> icoef [[1]] i <= icoef [[1]] i)) /\
  stays_away (fun n => cut [[1]] [[1]] (Z.of_nat n)) (1618 # 1000)%Q /\ (exists lg c, stands_for 53 [[1]] [[1]] lg c).
Proof.
  assert (PP : positive [[1]] [[1]]) by (intros i Hi; rewrite !icoef_one; cbn [poly_val]; lia).
  split; [intros i Hi; rewrite !icoef_one; cbn [poly_val]; lia|]. split; [split; [exact PP|intros; lia]|]. split; [apply C140_positive; [exact PP|intros; lia]|].
  exists false. unfold stands_for. eexists. left. exists true, None. eexists. exists [], (Ok tt). split; [reflexivity|reflexivity].
Qed.

Print Assumptions C139_close.
Print Assumptions C139_converges.
Print Assumptions C139_results.
Print Assumptions C139_equal_refuted.
Print Assumptions C140_dominant.
Print Assumptions C140_positive.
Print Assumptions C140_results.
Print Assumptions C140_bounds_refuted.

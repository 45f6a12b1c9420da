(** Claim C138 (fractions with positive coefficients). *)
From Coq Require Import ZArith QArith Qabs Qpower List Bool Lia Lqa Psatz Arith.
From Verif Require Import PyBase PyBase_Proofs Rnd Rnd_Proofs Utils_Model Spec_Utils ContFrac_Model Spec_ContFrac ContFrac_Proofs ContFrac_Hist ContFrac_Proofs2 Properties_ContFrac Errors_Model Errors_Proofs Properties_Errors.
From Verif Require Import Properties_TestFracs CF_Positive Spec_Positive Positive_Proofs.
Import ListNotations.
Open Scope Z_scope.

(** C138 *)
Lemma cut_nat a b n : cut a b (Z.of_nat n) = nested (inject_Z (icoef a 0)) (toQ (icoefs a b (map Z.of_nat (seq 1 n)))).
Proof. unfold cut. rewrite Nat2Z.id. reflexivity. Qed.
Lemma cut_pos a b n : positive a b -> exists v, cut a b (Z.of_nat n) = Some v /\ (v == val (qP a b) (qD a b) n)%Q.
Proof. intros H. rewrite cut_nat. destruct (nested_positive a b n H) as [v E]. exists v. split; [exact E|apply cut_val; exact E]. Qed.

(** Two consecutive finite fractions enclose all later ones; the even ones lie below, the odd ones above. *)
Theorem C138_enclosed : forall a b n m, positive a b -> (n <= m)%nat ->
  exists v v' w, cut a b (Z.of_nat n) = Some v /\ cut a b (Z.of_nat (S n)) = Some v' /\ cut a b (Z.of_nat m) = Some w /\
    between v w v' /\ (if Nat.even n then v < v' else v' < v)%Q.
Proof.
  intros a b n m H L. destruct (cut_pos a b n H) as (v & E1 & V1). destruct (cut_pos a b (S n) H) as (v' & E2 & V2). destruct (cut_pos a b m H) as (w & E3 & V3).
  exists v, v', w. split; [exact E1|]. split; [exact E2|]. split; [exact E3|]. destruct (pos_facts a b H) as (F1 & F2 & F3 & F4 & F5 & F6 & F7 & F8).
  pose proof (bracket _ _ _ _ F1 F2 F4 F6 F7 F8 (m - n) n) as B. replace (n + (m - n))%nat with m in B by lia.
  pose proof (dif_sign _ _ _ _ F1 F2 F3 F4 F5 F6 F7 F8 n) as S. unfold dif in S. unfold btw in B. unfold between. revert V1 V2 V3 B S. generalize (val (qP a b) (qD a b) n) (val (qP a b) (qD a b) (S n)) (val (qP a b) (qD a b) m). intros x y z V1 V2 V3 B S.
  clear - V1 V2 V3 B S. split; [destruct B; [left|right]; lra|]. destruct (Nat.even n); lra.
Qed.
(** What an object says after n and after n + 1 iterations bounds everything it says after more iterations. *)
Theorem C138_estimate : forall prec a b lg c n m,
  3 <= prec -> hd [] a <> [] -> b <> [] -> positive a b -> stands_for prec a b lg c -> (1 <= n)%nat -> (n <= m)%nat ->
  exists c1 c2 c3 x1 x2 x3 v v',
    cf_gen0 (rnd prec) (Z.of_nat n) true c = (c1, Ok tt) /\ cf_result c1 = Fin x1 /\
    cf_gen0 (rnd prec) (Z.of_nat (S n)) true c = (c2, Ok tt) /\ cf_result c2 = Fin x2 /\
    cf_gen0 (rnd prec) (Z.of_nat m) true c = (c3, Ok tt) /\ cf_result c3 = Fin x3 /\
    cut a b (Z.of_nat n) = Some v /\ cut a b (Z.of_nat (S n)) = Some v' /\
    (Qabs (x3 - x1) <= Qabs (x2 - x1) + 12 * two_p (- prec) * (Qabs v + Qabs v'))%Q.
Proof.
  intros prec a b lg c n m Hp Na Nb H HS Hn Hm. destruct (C138_enclosed a b n m H Hm) as (v & v' & w & E1 & E2 & E3 & B & _).
  assert (NZ : forall i, 1 <= i -> icoef b i <> 0) by (intros i Hi; pose proof (proj2 (H i Hi)); lia).
  destruct (stands_gen prec a b lg c (Z.of_nat n) Hp Na Nb HS ltac:(lia) NZ v E1) as (c1 & G1 & X1). destruct (X1 ltac:(right; lia)) as (x1 & R1 & A1).
  destruct (stands_gen prec a b lg c (Z.of_nat (S n)) Hp Na Nb HS ltac:(lia) NZ v' E2) as (c2 & G2 & X2). destruct (X2 ltac:(right; lia)) as (x2 & R2 & A2).
  destruct (stands_gen prec a b lg c (Z.of_nat m) Hp Na Nb HS ltac:(lia) NZ w E3) as (c3 & G3 & X3). destruct (X3 ltac:(right; lia)) as (x3 & R3 & A3).
  exists c1, c2, c3, x1, x2, x3, v, v'. do 8 (split; [assumption|]). unfold approx in *. pose proof (two_p_pos (- prec)) as U. set (u := two_p (- prec)) in *. clearbody u.
  assert (W : (Qabs w <= Qabs v + Qabs v')%Q).
  { pose proof (Qle_Qabs v). pose proof (Qle_Qabs v'). pose proof (Qle_Qabs (- v)) as N1. pose proof (Qle_Qabs (- v')) as N2. rewrite Qabs_opp in N1, N2. pose proof (Qabs_nonneg v). pose proof (Qabs_nonneg v').
    apply Qabs_Qle_condition. unfold between in B. destruct B as [B|B]; lra. }
  assert (WV : (Qabs (w - v) <= Qabs (v' - v))%Q) by (unfold between in B; destruct B as [B|B]; [rewrite !Qabs_pos|rewrite !Qabs_neg]; lra).
  assert (T1 : (Qabs (x3 - x1) <= Qabs (x3 - w) + Qabs (w - v) + Qabs (x1 - v))%Q).
  { setoid_replace (x3 - x1)%Q with ((x3 - w) + (w - v) + (v - x1))%Q by ring. eapply Qle_trans; [apply Qabs_triangle|]. rewrite (Qabs_Qminus x1 v). pose proof (Qabs_triangle (x3 - w) (w - v)). lra. }
  assert (T2 : (Qabs (v' - v) <= Qabs (x2 - v') + Qabs (x2 - x1) + Qabs (x1 - v))%Q).
  { setoid_replace (v' - v)%Q with ((v' - x2) + (x2 - x1) + (x1 - v))%Q by ring. eapply Qle_trans; [apply Qabs_triangle|]. rewrite (Qabs_Qminus x2 v'). pose proof (Qabs_triangle (v' - x2) (x2 - x1)). lra. }
  pose proof (Qabs_nonneg v). pose proof (Qabs_nonneg v'). assert (Z1 : (u * Qabs w <= u * (Qabs v + Qabs v'))%Q) by (apply Qmult_le_l; assumption).
  assert (0 <= u * Qabs v)%Q by nra. assert (0 <= u * Qabs v')%Q by nra. lra.
Qed.
(** If c^2 b_(i+1) <= a_i a_(i+1), every two further iterations divide the distance of consecutive finite fractions by
    at least 1 + 2c; the distance to all later ones is then at most that distance. *)
Theorem C138_exponential : forall a b c n k v v' w w', positive a b -> (0 <= c)%Q ->
  (forall i, 1 <= i -> (c * c * inject_Z (icoef b (i + 1)) <= inject_Z (icoef a i * icoef a (i + 1)))%Q) ->
  cut a b (Z.of_nat n) = Some v -> cut a b (Z.of_nat (S n)) = Some v' ->
  cut a b (Z.of_nat (n + 2 * k)) = Some w -> cut a b (Z.of_nat (S (n + 2 * k))) = Some w' ->
  ((1 + 2 * c) ^ Z.of_nat k * Qabs (w' - w) <= Qabs (v' - v))%Q.
Proof.
  intros a b c n k v v' w w' H Hc G E1 E2 E3 E4. rewrite cut_nat in *. apply cut_val in E1, E2, E3, E4. destruct (pos_facts a b H) as (F1 & F2 & F3 & F4 & F5 & F6 & F7 & F8).
  pose proof (expo _ _ _ _ F1 F2 F3 F4 F5 F6 F7 F8 c n Hc) as X. rewrite E1, E2, E3, E4. unfold dif in X.
  assert (P : forall x j, (x ^ Z.of_nat j == powQ x j)%Q).
  { intros x j. induction j as [|j IH]; [reflexivity|]. cbn [powQ]. rewrite <- IH. destruct j as [|j]; [cbn; ring|].
    rewrite (Nat2Z.inj_succ (S j)). unfold Z.succ. rewrite Z.add_comm, Qpower_plus' by lia. cbn [Qpower]. reflexivity. }
  rewrite P. apply X. intros i Hi. specialize (G (Z.of_nat i) ltac:(lia)). unfold qa. rewrite Nat2Z.inj_succ. unfold Z.succ. rewrite inject_Z_mult in G. exact G.
Qed.
(** Degree of b at most 2 (degree of a) + 2: the fraction converges. *)
Theorem C138_converges : forall a b p q, a <> [] -> b <> [] -> positive a b ->
  (forall f, In f a -> degree_at_least p f) -> (forall f, In f b -> degree_at_most q f) -> (q <= 2 * p + 2)%nat ->
  settles (fun n => cut a b (Z.of_nat n)).
Proof.
  intros a b p q Na Nb H HA HB Hq eps He. destruct (growth a b p q Na Nb H HA HB Hq) as (K & K1 & HK). destruct (pos_facts a b H) as (F1 & F2 & F3 & F4 & F5 & F6 & F7 & F8).
  assert (KQ : (0 < inject_Z K)%Q) by (apply posQ; lia). assert (NK : ~ (inject_Z K == 0)%Q) by (intros G; rewrite G in KQ; discriminate KQ).
  destruct (conv _ _ _ _ F1 F2 F3 F4 F5 F6 F7 F8 (/ inject_Z K)%Q) with (eps := eps) as [N HN]; [apply Qinv_lt_0_compat; exact KQ| |exact He|].
  - intros i Hi. specialize (HK (Z.of_nat i) ltac:(lia)). unfold qa. rewrite Nat2Z.inj_succ. unfold Z.succ. rewrite Zle_Qle in HK. rewrite !inject_Z_mult in HK. revert HK.
    generalize (inject_Z (icoef b (Z.of_nat i + 1))) (inject_Z (Z.of_nat i) * inject_Z (Z.of_nat i) * (inject_Z (icoef a (Z.of_nat i)) * inject_Z (icoef a (Z.of_nat i + 1))))%Q. intros x y HK.
    setoid_replace (/ inject_Z K * / inject_Z K * x)%Q with (x / (inject_Z K * inject_Z K))%Q by (field; exact NK). apply Qle_shift_div_r; [nra|]. lra.
  - exists N. intros m n Hm Hn. destruct (cut_pos a b m H) as (v & E1 & V1). destruct (cut_pos a b n H) as (w & E2 & V2). exists v, w.
    split; [exact E1|]. split; [exact E2|]. rewrite V1, V2. apply HN; assumption.
Qed.
(** Without the bound on the degrees this fails: 1 + 12/(1 + 72/(1 + ...)) with b_n = n (n+1)^2 (n+2). *)
Fixpoint wX (n : nat) : Q * Q :=
  match n with O => (1 # 2, 1 # 12)%Q | S n => let '(x, y) := wX n in (y, x + y / (inject_Z (Z.of_nat n + 3) * inject_Z (Z.of_nat n + 4)))%Q end.
Definition xX (n : nat) : Q := fst (wX n).
Lemma xX_rec n : xX (S (S n)) = (xX n + xX (S n) / (inject_Z (Z.of_nat n + 3) * inject_Z (Z.of_nat n + 4)))%Q.
Proof. unfold xX. cbn [wX]. destruct (wX n) as [x y]. cbn [fst snd]. reflexivity. Qed.
Lemma nQ n z : inject_Z (Z.of_nat n + z) = (inject_Z (Z.of_nat n) + inject_Z z)%Q.
Proof. apply inject_Z_plus. Qed.
Lemma n_nn n : (0 <= inject_Z (Z.of_nat n))%Q.
Proof. change 0%Q with (inject_Z 0). rewrite <- Zle_Qle. lia. Qed.
Lemma xX_in n : (0 < xX n /\ xX n <= 1 - / (inject_Z (Z.of_nat n + 2)))%Q /\ (0 < xX (S n) /\ xX (S n) <= 1 - / (inject_Z (Z.of_nat (S n) + 2)))%Q.
Proof.
  induction n as [|n [I1 I2]]; [vm_compute; repeat split; discriminate|]. split; [exact I2|]. rewrite xX_rec.
  replace (Z.of_nat (S (S n)) + 2) with (Z.of_nat n + 4) by lia. replace (Z.of_nat (S n) + 2) with (Z.of_nat n + 3) in I2 by lia. rewrite !nQ in *.
  pose proof (n_nn n) as N0. set (t := inject_Z (Z.of_nat n)) in *. set (x := xX n) in *. set (y := xX (S n)) in *. clearbody t x y.
  change (inject_Z 2) with 2%Q in *. change (inject_Z 3) with 3%Q in *. change (inject_Z 4) with 4%Q in *.
  assert (W : (0 < (t + 3) * (t + 4))%Q) by nra. assert (Y1 : (0 < y / ((t + 3) * (t + 4)))%Q) by (apply Qlt_shift_div_l; [exact W|lra]).
  pose proof (Qinv_lt_0_compat (t + 3)%Q ltac:(lra)) as Q3.
  assert (Y2 : (y / ((t + 3) * (t + 4)) <= / ((t + 3) * (t + 4)))%Q).
  { unfold Qdiv. setoid_replace (/ ((t + 3) * (t + 4)))%Q with (1 * / ((t + 3) * (t + 4)))%Q at 2 by ring. apply Qmult_le_compat_r; [lra|]. apply Qlt_le_weak, Qinv_lt_0_compat. exact W. }
  split; [lra|].
  assert (D : (/ (t + 2) - / (t + 4) - / ((t + 3) * (t + 4)) == (t + 4) / ((t + 2) * ((t + 3) * (t + 4))))%Q) by (field; repeat split; nra).
  assert (D0 : (0 < (t + 4) / ((t + 2) * ((t + 3) * (t + 4))))%Q) by (apply Qlt_shift_div_l; nra). lra.
Qed.
Lemma xX_1 n : (0 < xX n /\ xX n <= 1)%Q.
Proof. pose proof (proj1 (xX_in n)) as [A B]. split; [exact A|]. pose proof (Qinv_lt_0_compat (inject_Z (Z.of_nat n + 2)) ltac:(apply posQ; lia)). lra. Qed.
Definition wide_a : list (list Z) := [[1]].
Definition wide_b : list (list Z) := [[0; 2; 5; 4; 1]].
Lemma wide_coef i : icoef wide_b i = i * ((i + 1) * (i + 1)) * (i + 2).
Proof. unfold wide_b. rewrite icoef_one. cbn [poly_val]. ring. Qed.
Lemma wide_positive : positive wide_a wide_b.
Proof. intros i Hi. unfold wide_a. rewrite wide_coef, icoef_one. cbn [poly_val]. split; [lia|]. nia. Qed.
Fixpoint wW (n : nat) : Q := match n with O => 2 | S n => inject_Z (Z.of_nat n + 2) * inject_Z (Z.of_nat n + 3) * wW n end%Q.
Lemma wW_pos n : (0 < wW n)%Q.
Proof. induction n as [|n IH]; [reflexivity|]. cbn [wW]. rewrite !nQ. pose proof (n_nn n). change (inject_Z 2) with 2%Q. change (inject_Z 3) with 3%Q. set (t := inject_Z (Z.of_nat n)) in *. assert (0 < (t + 2) * (t + 3))%Q by nra. nra. Qed.
Lemma wide_D n : (qD wide_a wide_b n == wW n * xX n)%Q /\ (qD wide_a wide_b (S n) == wW (S n) * xX (S n))%Q.
Proof.
  destruct (pos_facts _ _ wide_positive) as (_ & _ & _ & D0 & _ & D1 & _ & DS).
  induction n as [|n [I1 I2]]; [split; [rewrite D0; reflexivity|rewrite D1; reflexivity]|]. split; [exact I2|]. rewrite DS, I1, I2, xX_rec. cbn [wW]. unfold qa. rewrite wide_coef. unfold wide_a at 1. rewrite icoef_one. cbn [poly_val].
  rewrite !inject_Z_mult. replace (Z.of_nat (S (S n)) + 1) with (Z.of_nat n + 3) by lia. replace (Z.of_nat (S (S n)) + 2) with (Z.of_nat n + 4) by lia. replace (Z.of_nat (S (S n))) with (Z.of_nat n + 2) by lia.
  replace (Z.of_nat (S n) + 2) with (Z.of_nat n + 3) by lia. replace (Z.of_nat (S n) + 3) with (Z.of_nat n + 4) by lia.
  replace (1 + (Z.of_nat n + 2) * 0) with 1 by lia. rewrite !nQ. change (inject_Z 1) with 1%Q. change (inject_Z 2) with 2%Q. change (inject_Z 3) with 3%Q. change (inject_Z 4) with 4%Q.
  pose proof (n_nn n). field. split; nra.
Qed.
Lemma wide_dif n : (Qabs (dif (qP wide_a wide_b) (qD wide_a wide_b) n) * (2 * xX n * xX (S n)) == 1)%Q.
Proof.
  destruct (pos_facts _ _ wide_positive) as (F1 & F2 & F3 & F4 & F5 & F6 & F7 & F8).
  induction n as [|n IH].
  - assert (E0 : (Qabs (dif (qP wide_a wide_b) (qD wide_a wide_b) 0) == 12)%Q) by (rewrite (dif_0 _ _ _ _ F1 F3 F4 F5 F6); vm_compute; reflexivity). rewrite E0. reflexivity.
  - rewrite (abs_S _ _ _ _ F1 F2 F4 F6 F7 F8). unfold rat. rewrite (proj1 (wide_D n)), (proj1 (wide_D (S (S n)))). unfold qa. rewrite wide_coef, !inject_Z_mult. cbn [wW].
    replace (Z.of_nat (S (S n)) + 1) with (Z.of_nat n + 3) by lia. replace (Z.of_nat (S (S n)) + 2) with (Z.of_nat n + 4) by lia. replace (Z.of_nat (S (S n))) with (Z.of_nat n + 2) by lia.
    replace (Z.of_nat (S n) + 2) with (Z.of_nat n + 3) by lia. replace (Z.of_nat (S n) + 3) with (Z.of_nat n + 4) by lia.
    pose proof (xX_1 n) as [X0 _]. pose proof (xX_1 (S n)) as [X1 _]. pose proof (xX_1 (S (S n))) as [X2 _]. pose proof (wW_pos n) as W.
    transitivity (Qabs (dif (qP wide_a wide_b) (qD wide_a wide_b) n) * (2 * xX n * xX (S n)))%Q; [|exact IH].
    rewrite !nQ. change (inject_Z 2) with 2%Q. change (inject_Z 3) with 3%Q. change (inject_Z 4) with 4%Q. pose proof (n_nn n). set (t := inject_Z (Z.of_nat n)) in *. field. repeat split; intros G; try (rewrite G in *; lra); nra.
Qed.
Theorem C138_any_degree_refuted : exists a b, positive a b /\
  forall n, exists v w, cut a b (Z.of_nat n) = Some v /\ cut a b (Z.of_nat (S n)) = Some w /\ (1 # 2 <= Qabs (w - v))%Q.
Proof.
  exists wide_a, wide_b. split; [exact wide_positive|]. intros n. destruct (cut_pos _ _ n wide_positive) as (v & E1 & V1). destruct (cut_pos _ _ (S n) wide_positive) as (w & E2 & V2).
  exists v, w. split; [exact E1|]. split; [exact E2|]. rewrite V1, V2. pose proof (wide_dif n) as D. unfold dif in D. pose proof (xX_1 n) as [A1 A2]. pose proof (xX_1 (S n)) as [B1 B2].
  set (e := Qabs (val (qP wide_a wide_b) (qD wide_a wide_b) (S n) - val (qP wide_a wide_b) (qD wide_a wide_b) n)) in *. assert (0 <= e)%Q by apply Qabs_nonneg. clearbody e.
  set (x := xX n) in *. set (y := xX (S n)) in *. clearbody x y. assert (x * y <= 1)%Q by nra. nra.
Qed.

(** 1 + 1/(1 + 2/(1 + 3/(1 + ...))), with b of degree 1, and the interlaced 2 + 1/(12 + 11/(2 + 13/(36 + ...))) *)
Example C138_ex :
  (positive [[1]] [[0; 1]] /\ (forall f, In f [[1]] -> degree_at_least 0 f) /\ (forall f, In f [[0; 1]] -> degree_at_most 1 f)) /\
  (positive [[2]; [0; 12]] [[-1; 6]; [-5; 6]] /\ (forall f, In f [[2]; [0; 12]] -> degree_at_least 0 f) /\ (forall f, In f [[-1; 6]; [-5; 6]] -> degree_at_most 1 f)) /\
  cut [[1]] [[0; 1]] 2 = Some (4 # 3)%Q /\ cut [[1]] [[0; 1]] 3 = Some (10 # 6)%Q /\ between (4 # 3) (29 # 19) (10 # 6) /\
  (exists lg c, stands_for 53 [[1]] [[0; 1]] lg c) /\
  (forall i, 1 <= i -> (1 * 1 * inject_Z (icoef [[0; 1]]%Z (i + 1)) <= inject_Z (icoef [[0; 1]]%Z i * icoef [[0; 1]]%Z (i + 1)))%Q).
Proof.
  split; [|split; [|split; [vm_compute; reflexivity|split; [vm_compute; reflexivity|split; [left; split; vm_compute; discriminate|split]]]]].
  - split; [intros i Hi; rewrite !icoef_one; cbn [poly_val]; lia|]. split; intros f [<-|[]]; [exists [], 1; split; [reflexivity|split; [lia|cbn; lia]]|unfold degree_at_most; cbn; lia].
  - split; [intros i Hi; exact (conj (proj1 (TestFracs_Proofs.ab6_pos i ltac:(lia))) (proj2 (TestFracs_Proofs.ab6_pos i ltac:(lia)) Hi))|].
    split; intros f HF; [destruct HF as [<-|[<-|[]]]; [exists [], 2|exists [0], 12]; (split; [reflexivity|split; [lia|cbn; lia]])|destruct HF as [<-|[<-|[]]]; unfold degree_at_most; cbn; lia].
  - exists false. unfold stands_for. eexists. left. exists true, None. eexists. exists [], (Ok tt). split; [reflexivity|reflexivity].
  - intros i Hi. rewrite !icoef_one. cbn [poly_val]. rewrite !Z.mul_0_r, !Z.add_0_r. rewrite !Z.mul_1_r. cbn [Z.add]. rewrite !Qmult_1_l, <- Zle_Qle. nia.
Qed.

Print Assumptions C138_enclosed.
Print Assumptions C138_estimate.
Print Assumptions C138_exponential.
Print Assumptions C138_converges.
Print Assumptions C138_any_degree_refuted.

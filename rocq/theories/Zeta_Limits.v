(** Real numbers: the values of the zeta function to many digits. The alternating series of a completely monotone
    sequence is summed by Euler's transformation, in integer arithmetic. *)
From Coq Require Import Reals Lra Lia ZArith List.
From Verif Require Import CF_Limits Consts_Limits.
Local Open Scope R_scope.
Import ListNotations.

(** ---- differences and complete monotonicity ---- *)
Definition dif (a : nat -> R) : nat -> R := fun k => a k - a (S k).
Definition shf (a : nat -> R) : nat -> R := fun k => a (S k).
Fixpoint dm (m : nat) (a : nat -> R) : nat -> R := match m with O => a | S m => dm m (dif a) end.
(** the differences of order up to m are not negative *)
Fixpoint CM (m : nat) (a : nat -> R) : Prop := (forall k, 0 <= a k) /\ match m with O => True | S m => CM m (dif a) end.
Lemma CM_nonneg m a : CM m a -> forall k, 0 <= a k.
Proof. destruct m; intros [H _]; exact H. Qed.
Lemma CM_ext m : forall a b, (forall k, a k = b k) -> CM m a -> CM m b.
Proof.
  induction m as [|m IH]; intros a b E [A B]; (split; [intros k; rewrite <- E; apply A|]); [exact I|].
  eapply IH; [|exact B]. intros k. unfold dif. now rewrite !E.
Qed.
Lemma CM_weak m : forall a, CM (S m) a -> CM m a.
Proof. induction m as [|m IH]; intros a [A B]; (split; [exact A|]); [exact I|]. apply IH. exact B. Qed.
Lemma CM_shf m : forall a, CM m a -> CM m (shf a).
Proof.
  induction m as [|m IH]; intros a [A B]; (split; [intros k; apply A|]); [exact I|]. exact (IH _ B).
Qed.
Lemma CM_plus m : forall a b, CM m a -> CM m b -> CM m (fun k => a k + b k).
Proof.
  induction m as [|m IH]; intros a b [A1 A2] [B1 B2]; (split; [intros k; specialize (A1 k); specialize (B1 k); lra|]); [exact I|].
  eapply CM_ext; [|exact (IH _ _ A2 B2)]. intros k. unfold dif. ring.
Qed.
Lemma CM_mult m : forall a b, CM m a -> CM m b -> CM m (fun k => a k * b k).
Proof.
  induction m as [|m IH]; intros a b HA HB; (split; [intros k; apply Rmult_le_pos; eapply CM_nonneg; eassumption|]); [exact I|].
  eapply CM_ext; [|apply (CM_plus m (fun k => dif a k * b k) (fun k => shf a k * dif b k))].
  - intros k. unfold dif, shf. ring.
  - apply IH; [apply HA|now apply CM_weak].
  - apply IH; [apply CM_shf; now apply CM_weak|apply HB].
Qed.
Lemma CM_inv m : forall c, 0 < c -> CM m (fun k => / (INR k + c)).
Proof.
  assert (P : forall c k, 0 < c -> 0 < INR k + c) by (intros c k Hc; pose proof (pos_INR k); lra).
  induction m as [|m IH]; intros c Hc; (split; [intros k; left; apply Rinv_0_lt_compat; auto|]); [exact I|].
  eapply CM_ext; [|apply (CM_mult m _ _ (IH c Hc) (IH (c + 1) ltac:(lra)))].
  intros k. unfold dif. rewrite S_INR. pose proof (P c k Hc). field. lra.
Qed.
Lemma CM_const m : forall c, 0 <= c -> CM m (fun _ => c).
Proof.
  induction m as [|m IH]; intros c Hc; (split; [intros _; exact Hc|]); [exact I|]. eapply CM_ext; [|apply (IH 0); lra]. intros k. unfold dif. ring.
Qed.
Lemma CM_pow m n : CM m (fun k => / INR (S k) ^ n).
Proof.
  induction n as [|n IH].
  - eapply CM_ext; [|apply (CM_const m 1); lra]. intros k. cbn [pow]. now rewrite Rinv_1.
  - eapply CM_ext; [|apply (CM_mult m _ _ (CM_inv m 1 ltac:(lra)) IH)]. intros k. cbn beta. rewrite <- S_INR. cbn [pow]. rewrite Rinv_mult. reflexivity.
Qed.
Lemma dm_dif m : forall a k, dm m (dif a) k = dm m a k - dm m a (S k).
Proof. induction m as [|m IH]; intros a k; cbn [dm]; [reflexivity|]. apply IH. Qed.
Lemma dm_ext m : forall a b, (forall k, a k = b k) -> forall k, dm m a k = dm m b k.
Proof. induction m as [|m IH]; intros a b E k; cbn [dm]; [apply E|]. apply IH. intros j. unfold dif. now rewrite !E. Qed.
Lemma dm_shf m : forall a k, dm m (shf a) k = dm m a (S k).
Proof. induction m as [|m IH]; intros a k; cbn [dm]; [reflexivity|]. exact (IH (dif a) k). Qed.
(** lattice paths *)
Fixpoint cc (m : nat) : nat -> R :=
  match m with O => fun _ => 1 | S p => fix g (k : nat) : R := match k with O => 1 | S j => cc p (S j) + g j end end.
Lemma cc_S m k : cc (S m) (S k) = cc m (S k) + cc (S m) k.
Proof. reflexivity. Qed.
Lemma cc_0 m : cc m 0 = 1.
Proof. destruct m; reflexivity. Qed.
Lemma cc_fact m : forall k, cc m k * (INR (fact m) * INR (fact k)) = INR (fact (m + k)).
Proof.
  induction m as [|m IH]; [intros k; cbn [cc fact Nat.add]; change (INR 1) with 1; ring|].
  induction k as [|k IK].
  - rewrite cc_0, Nat.add_0_r. change (INR (fact 0)) with 1. ring.
  - rewrite cc_S. specialize (IH (S k)). replace (m + S k)%nat with (m + k + 1)%nat in IH by lia. replace (S m + k)%nat with (m + k + 1)%nat in IK by lia.
    replace (S m + S k)%nat with (S (m + k + 1)) by lia. rewrite (fact_R (m + k + 1)), (fact_R m), (fact_R k) in *.
    rewrite !plus_INR. change (INR 1) with 1. set (F := INR (fact (m + k + 1))) in *. revert IH IK. generalize (cc m (S k)) (cc (S m) k). intros c d IH IK.
    transitivity ((INR m + 1) * F + (INR k + 1) * F); [rewrite <- IH at 1; rewrite <- IK; ring|ring].
Qed.
Lemma cc_bound m : forall k a, CM m a -> CM (S m) a -> cc m k * dm m a k <= a 0%nat.
Proof.
  induction m as [|m IH].
  - intros k a _ [_ H]. cbn [cc dm]. rewrite Rmult_1_l. induction k as [|k IK]; [lra|]. pose proof (CM_nonneg _ _ H k) as P. unfold dif in P. lra.
  - induction k as [|k IK]; intros a HA HB.
    + rewrite cc_0. cbn [dm]. pose proof (IH 0%nat (dif a) ltac:(now apply CM_weak, HB) (proj2 HB)) as G. rewrite cc_0 in G. unfold dif in G at 2. pose proof (CM_nonneg _ _ HA 1%nat). lra.
    + rewrite cc_S, Rmult_plus_distr_r. pose proof (IH (S k) (dif a) ltac:(now apply CM_weak, HB) (proj2 HB)) as G. pose proof (IK (shf a) (CM_shf _ _ HA) (CM_shf _ _ HB)) as G'.
      rewrite dm_shf in G'. change (dm (S m) a (S k)) with (dm m (dif a) (S k)) in *. unfold dif at 2 in G. unfold shf in G'. lra.
Qed.

(** ---- Euler's transformation ---- *)
Fixpoint eul (m : nat) (a : nat -> R) : R := match m with O => 0 | S m => (a 0%nat + eul m (dif a)) / 2 end.
Fixpoint est (K m : nat) (a : nat -> R) : R := match K with O => eul m a | S K => a 0%nat - est K m (shf a) end.
Lemma cv_dif a : Un_cv a 0 -> Un_cv (dif a) 0.
Proof.
  intros H. replace 0 with (0 - 0) by ring. apply CV_minus; [exact H|]. intros e He. destruct (H e He) as [N HN]. exists N. intros n Hn. apply HN. lia.
Qed.
Lemma cv_shf a l : Un_cv a l -> Un_cv (shf a) l.
Proof. intros H e He. destruct (H e He) as [N HN]. exists N. intros n Hn. apply HN. lia. Qed.
Lemma CM_dec a : CM 1 a -> Un_decreasing a.
Proof. intros [_ [H _]] k. specialize (H k). unfold dif in H. lra. Qed.
Lemma asum_dif a n : asum (dif a) n = asum a n + asum a (S n) - a 0%nat.
Proof.
  induction n as [|n IH]; [unfold asum, dif, tg_alt; cbn [sum_f_R0 pow]; ring|]. rewrite (asum_S (dif a)), IH, !asum_S. unfold dif. cbn [pow]. ring.
Qed.
Lemma cv_asum_dif a l : Un_cv (asum a) l -> Un_cv (asum (dif a)) (2 * l - a 0%nat).
Proof.
  intros H. pose proof (cv_shf _ _ H) as H'. pose proof (CV_plus _ _ _ _ H H') as P. intros e He. destruct (P e He) as [N HN]. exists N. intros n Hn. specialize (HN n Hn).
  unfold R_dist, shf in *. rewrite asum_dif. replace (asum a n + asum a (S n) - a 0%nat - (2 * l - a 0%nat)) with (asum a n + asum a (S n) - (l + l)) by ring. exact HN.
Qed.
Lemma cv_asum_shf a l : Un_cv (asum a) l -> Un_cv (asum (shf a)) (a 0%nat - l).
Proof.
  intros H e He. destruct (cv_shf _ _ H e He) as [N HN]. exists N. intros n Hn. specialize (HN n Hn). unfold shf in HN at 1. rewrite asum_first in HN. unfold R_dist in *.
  change (fun k => a (S k)) with (shf a) in HN. replace (asum (shf a) n - (a 0%nat - l)) with (- (a 0%nat - asum (shf a) n - l)) by ring. rewrite Rabs_Ropp. exact HN.
Qed.
Lemma eul_err m : forall a l, CM (S m) a -> Un_cv a 0 -> Un_cv (asum a) l -> 0 <= l - eul m a <= dm m a 0%nat / 2 ^ m.
Proof.
  induction m as [|m IH]; intros a l HC H0 HL.
  - cbn [eul dm pow]. pose proof (alt_side a l (CM_dec _ HC) H0 HL 0) as A. pose proof (alt_side a l (CM_dec _ HC) H0 HL 1) as B.
    unfold asum, tg_alt in A, B. cbn [sum_f_R0 pow] in A, B. pose proof (CM_dec _ HC 0%nat).
    (* l between a0 - a1 and a0 *)
    pose proof (CM_nonneg _ _ HC 1%nat). unfold Rdiv. rewrite Rinv_1. lra.
  - destruct HC as [HN HC]. specialize (IH (dif a) (2 * l - a 0%nat) HC (cv_dif _ H0) (cv_asum_dif _ _ HL)).
    cbn [eul dm pow]. replace (dm m (dif a) 0%nat / (2 * 2 ^ m)) with (dm m (dif a) 0%nat / 2 ^ m / 2) by (field; apply pow_nonzero; lra). lra.
Qed.
Lemma est_err K m : forall a l, CM (S m) a -> Un_cv a 0 -> Un_cv (asum a) l -> Rabs (l - est K m a) <= dm m a K / 2 ^ m.
Proof.
  induction K as [|K IH]; intros a l HC H0 HL.
  - cbn [est]. pose proof (eul_err m a l HC H0 HL) as [A B]. rewrite Rabs_right; lra.
  - cbn [est]. specialize (IH (shf a) _ (CM_shf _ _ HC) (cv_shf _ _ H0) (cv_asum_shf _ _ HL)). rewrite dm_shf in IH.
    replace (l - (a 0%nat - est K m (shf a))) with (- (a 0%nat - l - est K m (shf a))) by ring. rewrite Rabs_Ropp. exact IH.
Qed.

(** ---- the same in integers ---- *)
Fixpoint zdif (l : list Z) : list Z := match l with x :: (y :: _) as r => (x - y)%Z :: zdif r | _ => [] end.
(** 2^m times eul *)
Fixpoint zeul (m : nat) (l : list Z) : Z := match m with O => 0%Z | S m => (2 ^ Z.of_nat m * hd 0 l + zeul m (zdif l))%Z end.
(** the weights with which the elements enter *)
Fixpoint wnext (p : Z) (w : list Z) : list Z := match w with [] => [p] | x :: r => (p + x)%Z :: wnext x r end.
Fixpoint wrow (m : nat) (p : Z) (w : list Z) : list Z := match m with O => w | S m => wrow m (2 * p) (wnext p w) end.
Fixpoint dot (w l : list Z) : Z := match w, l with x :: w, y :: l => (x * y - dot w l)%Z | _, _ => 0%Z end.
Fixpoint zest (K : nat) (w : list Z) (q : Z) (l : list Z) : Z := match K with O => (dot w l / q)%Z | S K => (hd 0 l - zest K w q (tl l))%Z end.
Definition appr (e : R) (a : nat -> R) (l : list Z) : Prop := forall k, (k < length l)%nat -> Rabs (a k - IZR (nth k l 0%Z)) <= e.
Lemma zdif_length l : length (zdif l) = pred (length l).
Proof. induction l as [|x [|y r] IH]; [reflexivity..|]. cbn [zdif length pred] in *. now rewrite IH. Qed.
Lemma zdif_nth l : forall k, (S k < length l)%nat -> nth k (zdif l) 0%Z = (nth k l 0 - nth (S k) l 0)%Z.
Proof.
  induction l as [|x [|y r] IH]; intros k Hk; cbn [length] in Hk; [lia..|]. destruct k as [|k]; [reflexivity|]. cbn [zdif nth]. rewrite IH by (cbn [length]; lia). reflexivity.
Qed.
Lemma appr_dif e a l : appr e a l -> appr (2 * e) (dif a) (zdif l).
Proof.
  intros H k Hk. rewrite zdif_length in Hk. rewrite zdif_nth by lia. unfold dif. rewrite minus_IZR. pose proof (H k ltac:(lia)) as A. pose proof (H (S k) ltac:(lia)) as B.
  replace (a k - a (S k) - (IZR (nth k l 0%Z) - IZR (nth (S k) l 0%Z))) with ((a k - IZR (nth k l 0%Z)) - (a (S k) - IZR (nth (S k) l 0%Z))) by ring.
  eapply Rle_trans; [apply Rabs_triang|]. rewrite Rabs_Ropp. lra.
Qed.
Lemma zeul_near m : forall e a l, appr e a l -> (m <= length l)%nat -> Rabs (2 ^ m * eul m a - IZR (zeul m l)) <= 2 ^ m * (INR m * e / 2).
Proof.
  induction m as [|m IH]; intros e a l H L.
  - cbn [eul zeul INR pow]. rewrite Rmult_0_r, Rminus_0_r, Rabs_R0. lra.
  - cbn [eul zeul]. destruct l as [|x r]; [cbn [length] in L; lia|]. pose proof (H 0%nat ltac:(cbn [length]; lia)) as A. cbn [nth hd] in *.
    specialize (IH _ _ _ (appr_dif _ _ _ H) ltac:(rewrite zdif_length; cbn [length pred] in *; lia)).
    set (z := zeul m (zdif (x :: r))) in *. rewrite plus_IZR, mult_IZR, <- pow_IZR, S_INR. cbn [pow]. set (u := eul m (dif a)) in *. assert (P : 0 < 2 ^ m) by (apply pow_lt; lra). set (t := 2 ^ m) in *.
    replace (2 * t * ((a 0%nat + u) / 2) - (t * IZR x + IZR z)) with (t * (a 0%nat - IZR x) + (t * u - IZR z)) by field.
    eapply Rle_trans; [apply Rabs_triang|]. rewrite Rabs_mult, (Rabs_right t) by lra. assert (t * Rabs (a 0%nat - IZR x) <= t * e) by (apply Rmult_le_compat_l; lra). lra.
Qed.
Lemma dot_dif w : forall l, (length w < length l)%nat -> dot w (zdif l) = (dot w l - dot w (tl l))%Z.
Proof.
  induction w as [|x w IH]; intros l L; [reflexivity|]. destruct l as [|y [|y' l]]; cbn [length] in L; [lia..|].
  change (zdif (y :: y' :: l)) with ((y - y')%Z :: zdif (y' :: l)). change (dot (x :: w) ((y - y')%Z :: zdif (y' :: l))) with (x * (y - y') - dot w (zdif (y' :: l)))%Z.
  rewrite IH by (cbn [length]; lia). cbn [dot tl]. ring.
Qed.
Lemma dot_wnext w : forall p l, (length w < length l)%nat -> dot (wnext p w) l = (p * hd 0 l + dot w l - dot w (tl l))%Z.
Proof.
  induction w as [|x w IH]; intros p l L.
  - destruct l as [|y l]; cbn [length] in L; [lia|]. cbn [wnext dot hd tl]. destruct l; ring.
  - destruct l as [|y [|y' l]]; cbn [length] in L; [lia..|]. change (wnext p (x :: w)) with ((p + x)%Z :: wnext x w). change (dot ((p + x)%Z :: wnext x w) (y :: y' :: l)) with ((p + x) * y - dot (wnext x w) (y' :: l))%Z.
    rewrite IH by (cbn [length]; lia). cbn [dot hd tl]. ring.
Qed.
Lemma wnext_length w : forall p, length (wnext p w) = S (length w).
Proof. induction w as [|x w IH]; intros p; cbn [wnext length]; [reflexivity|]. now rewrite IH. Qed.
Lemma wrow_dot m : forall j w, length w = j -> (forall l, (j <= length l)%nat -> dot w l = zeul j l) -> forall l, (m + j <= length l)%nat -> dot (wrow m (2 ^ Z.of_nat j) w) l = zeul (m + j) l.
Proof.
  induction m as [|m IH]; intros j w W E l L; [apply E; exact L|]. cbn [wrow]. replace (2 * 2 ^ Z.of_nat j)%Z with (2 ^ Z.of_nat (S j))%Z by (rewrite Nat2Z.inj_succ, Z.pow_succ_r by lia; reflexivity).
  rewrite IH.
  - f_equal. lia.
  - now rewrite wnext_length, W.
  - intros l' L'. rewrite dot_wnext by lia. cbn [zeul]. rewrite <- E by (rewrite zdif_length; lia). rewrite dot_dif by lia. ring.
  - lia.
Qed.
Lemma zest_near K m : forall e a l, 0 <= e -> appr e a l -> (K + m <= length l)%nat -> Rabs (est K m a - IZR (zest K (wrow m 1 []) (2 ^ Z.of_nat m) l)) <= INR K * e + INR m * e / 2 + 1.
Proof.
  set (w := wrow m 1 []). induction K as [|K IH]; intros e a l He H L.
  - cbn [est zest INR]. pose proof (zeul_near m e a l H L) as A. assert (W : dot w l = zeul m l).
    { unfold w. change 1%Z with (2 ^ Z.of_nat 0)%Z. rewrite (wrow_dot m 0 []); [now rewrite Nat.add_0_r|reflexivity|reflexivity|]. cbn [Nat.add] in L. lia. }
    rewrite W. pose proof (IZR_div (zeul m l) (2 ^ Z.of_nat m) ltac:(apply Z.pow_pos_nonneg; lia)) as [C D]. rewrite <- pow_IZR in C, D. assert (P : 0 < 2 ^ m) by (apply pow_lt; lra).
    set (t := 2 ^ m) in *. set (z := zeul m l) in *. set (q := IZR (z / _)) in *.
    assert (B : Rabs (eul m a - IZR z / t) <= INR m * e / 2).
    { apply (Rmult_le_reg_l t); [exact P|]. rewrite <- (Rabs_right t) at 1 by lra. rewrite <- Rabs_mult. replace (t * (eul m a - IZR z / t)) with (t * eul m a - IZR z) by (field; lra). exact A. }
    replace (eul m a - q) with ((eul m a - IZR z / t) + (IZR z / t - q)) by ring. eapply Rle_trans; [apply Rabs_triang|]. rewrite (Rabs_right (IZR z / t - q)) by lra. lra.
  - cbn [est zest]. destruct l as [|x r]; [cbn [length] in L; lia|]. pose proof (H 0%nat ltac:(cbn [length]; lia)) as A. cbn [nth hd tl] in *.
    assert (H' : appr e (shf a) r) by (intros k Hk; apply (H (S k)); cbn [length]; lia).
    specialize (IH e _ _ He H' ltac:(cbn [length] in L; lia)). rewrite minus_IZR, S_INR. set (z := zest K w _ r) in *.
    replace (a 0%nat - est K m (shf a) - (IZR x - IZR z)) with ((a 0%nat - IZR x) - (est K m (shf a) - IZR z)) by ring.
    eapply Rle_trans; [apply Rabs_triang|]. rewrite Rabs_Ropp. lra.
Qed.

(** ---- powers of 1/(k+1) ---- *)
Fixpoint divs (k : Z) (l : list Z) : list Z := match l with [] => [] | x :: r => (x / k)%Z :: divs (k + 1) r end.
Lemma divs_length l : forall k, length (divs k l) = length l.
Proof. induction l as [|x r IH]; intros k; cbn [divs length]; [reflexivity|]. now rewrite IH. Qed.
Lemma divs_nth l : forall k i, (i < length l)%nat -> nth i (divs k l) 0%Z = (nth i l 0 / (k + Z.of_nat i))%Z.
Proof.
  induction l as [|x r IH]; intros k i Hi; cbn [length] in Hi; [lia|]. destruct i as [|i]; cbn [divs nth]; [now rewrite Z.add_0_r|].
  rewrite IH by lia. f_equal. lia.
Qed.
Definition prow (N : nat) (D : Z) (n : nat) : list Z := Nat.iter n (divs 1) (repeat D N).
Lemma prow_length N D n : length (prow N D n) = N.
Proof. induction n as [|n IH]; [apply repeat_length|]. change (prow N D (S n)) with (divs 1 (prow N D n)). rewrite divs_length. exact IH. Qed.
Lemma near_div1 y t k : near y t -> (1 <= k)%Z -> near (y / IZR k) (t / k).
Proof.
  intros H Hk. destruct (Z.eq_dec k 1) as [->|]; [|apply near_div; [exact H|lia]]. rewrite Z.div_1_r. unfold Rdiv. rewrite Rinv_1, Rmult_1_r. exact H.
Qed.
Lemma prow_near N D n : forall i, (i < N)%nat -> near (IZR D / INR (S i) ^ n) (nth i (prow N D n) 0%Z).
Proof.
  induction n as [|n IH]; intros i Hi.
  - change (prow N D 0) with (repeat D N). cbn [pow]. rewrite (nth_indep _ 0%Z D) by (rewrite repeat_length; exact Hi). rewrite nth_repeat. unfold near, Rdiv. rewrite Rinv_1. lra.
  - change (prow N D (S n)) with (divs 1 (prow N D n)). rewrite divs_nth by (rewrite prow_length; exact Hi). specialize (IH i Hi). apply (near_div1 _ _ (1 + Z.of_nat i)) in IH; [|lia].
    replace (IZR D / INR (S i) ^ S n) with (IZR D / INR (S i) ^ n / IZR (1 + Z.of_nat i)); [exact IH|].
    replace (IZR (1 + Z.of_nat i)) with (INR (S i)) by (rewrite INR_IZR_INZ; f_equal; lia). cbn [pow]. assert (INR (S i) <> 0) by (apply not_0_INR; lia). field. split; [apply pow_nonzero|]; assumption.
Qed.

(** ---- the zeta function ---- *)
Definition zterm (n k : nat) : R := / INR (S k) ^ n.
Definition zsum (n N : nat) : R := sum_f_R0 (zterm n) N.
Lemma zterm_pos n k : 0 < zterm n k.
Proof. apply Rinv_0_lt_compat, pow_lt, lt_0_INR. lia. Qed.
Lemma zsum_exists n : (2 <= n)%nat -> exists z, Un_cv (zsum n) z.
Proof.
  intros Hn. assert (G : Un_growing (zsum n)) by (intros k; unfold zsum; cbn [sum_f_R0]; pose proof (zterm_pos n (S k)); lra).
  assert (B : forall k, zsum n k <= 2 - / INR (S k)).
  { induction k as [|k IH].
    - unfold zsum, zterm. cbn [sum_f_R0]. change (INR 1) with 1. rewrite pow1, Rinv_1. lra.
    - unfold zsum in *. cbn [sum_f_R0]. assert (T : zterm n (S k) <= / INR (S k) - / INR (S (S k))); [|lra].
      assert (P : 1 <= INR (S k)) by (rewrite S_INR; pose proof (pos_INR k); lra). unfold zterm. rewrite (S_INR (S k)). set (x := INR (S k)) in *.
      apply Rle_trans with (/ (x + 1) ^ 2).
      + apply Rinv_le_contravar; [apply pow_lt; lra|]. apply Rle_pow; [lra|exact Hn].
      + replace (/ x - / (x + 1)) with (/ (x * (x + 1))) by (field; lra). apply Rinv_le_contravar; [nra|]. nra. }
  destruct (growing_cv (zsum n) G) as [z Hz]; [|now exists z]. exists 2. intros x [k ->]. pose proof (B k). assert (0 < / INR (S k)) by (apply Rinv_0_lt_compat, lt_0_INR; lia). lra.
Qed.
Lemma zterm_cv n z : Un_cv (zsum n) z -> Un_cv (zterm n) 0.
Proof.
  intros H. pose proof (CV_minus _ _ _ _ (cv_shf _ _ H) H) as P. intros e He. destruct (P e He) as [N HN]. exists (S N). intros k Hk. destruct k as [|k]; [lia|].
  specialize (HN k ltac:(lia)). unfold R_dist, shf, zsum in *. cbn [sum_f_R0] in HN. replace (zterm n (S k) - 0) with (sum_f_R0 (zterm n) k + zterm n (S k) - sum_f_R0 (zterm n) k - (z - z)) by ring. exact HN.
Qed.
Lemma eta_rel n N : asum (zterm n) (2 * N + 1) = zsum n (2 * N + 1) - 2 * / 2 ^ n * zsum n N.
Proof.
  assert (T : forall j, zterm n (2 * j + 1) = / 2 ^ n * zterm n j).
  { intros j. unfold zterm. rewrite <- Rinv_mult, <- Rpow_mult_distr. f_equal. f_equal. rewrite !S_INR, plus_INR, mult_INR. change (INR 1) with 1. change (INR 2) with 2. ring. }
  induction N as [|N IH].
  - unfold asum, zsum, tg_alt. cbn [Nat.mul Nat.add sum_f_R0 pow]. pose proof (T 0%nat) as E. cbn [Nat.mul Nat.add] in E. lra.
  - replace (2 * S N + 1)%nat with (S (S (2 * N + 1))) by lia. rewrite !asum_S, IH. unfold zsum in *. cbn [sum_f_R0]. pose proof (T (S N)) as E. replace (2 * S N + 1)%nat with (S (S (2 * N + 1))) in E by lia.
    rewrite E. replace (S (2 * N + 1)) with (2 * S N)%nat by lia. change ((-1) ^ S (2 * S N)) with (-1 * (-1) ^ (2 * S N)). rewrite m1_even. ring.
Qed.
Lemma eta_cv n z : Un_cv (zsum n) z -> Un_cv (asum (zterm n)) (z - 2 * / 2 ^ n * z).
Proof.
  intros H. pose proof (zterm_cv n z H) as H0. assert (DEC : Un_decreasing (zterm n)) by (apply CM_dec; apply (CM_pow 1 n)).
  destruct (alternated_series (zterm n) DEC H0) as [l Hl]. change (Un_cv (asum (zterm n)) l) in Hl.
  assert (E : l = z - 2 * / 2 ^ n * z); [|now rewrite <- E].
  apply (UL_sequence (fun N => asum (zterm n) (2 * N + 1))).
  - intros e He. destruct (Hl e He) as [N HN]. exists N. intros k Hk. apply HN. lia.
  - intros e He. assert (S1 : Un_cv (fun N => zsum n (2 * N + 1)) z) by (intros e' He'; destruct (H e' He') as [N HN]; exists N; intros k Hk; apply HN; lia).
    assert (S2 : Un_cv (fun _ : nat => 2 * / 2 ^ n) (2 * / 2 ^ n)) by (intros e' He'; exists 0%nat; intros k _; unfold R_dist; rewrite Rminus_diag_eq by reflexivity; rewrite Rabs_R0; exact He').
    destruct (CV_minus _ _ _ _ S1 (CV_mult _ _ _ _ S2 H) e He) as [N HN]. exists N. intros k Hk. rewrite eta_rel. apply HN. exact Hk.
Qed.
Lemma asum_scale c a n : asum (fun k => c * a k) n = c * asum a n.
Proof. induction n as [|n IH]; [unfold asum, tg_alt; cbn [sum_f_R0 pow]; ring|]. rewrite !asum_S, IH. ring. Qed.
Lemma cv_scale c u l : Un_cv u l -> Un_cv (fun k => c * u k) (c * l).
Proof.
  intros H. apply CV_mult; [|exact H]. intros e He. exists 0%nat. intros k _. unfold R_dist. rewrite Rminus_diag_eq by reflexivity. rewrite Rabs_R0. exact He.
Qed.
Lemma zeta_fixed (D : Z) (K m n : nat) z : (0 < D)%Z -> Un_cv (zsum n) z ->
  IZR D * (INR (fact m) * INR (fact K)) <= 2 ^ m * INR (fact (m + K)) ->
  Rabs (IZR D * (z - 2 * / 2 ^ n * z) - IZR (zest K (wrow m 1 []) (2 ^ Z.of_nat m) (prow (K + m) D n))) <= 2 * INR K + INR m + 2.
Proof.
  intros HD HZ HB. assert (DP : 0 < IZR D) by (apply IZR_lt; exact HD). set (a := fun k => IZR D * zterm n k).
  assert (C : forall j, CM j a) by (intros j; apply (CM_mult j (fun _ => IZR D) (zterm n)); [apply CM_const; lra|apply (CM_pow j n)]).
  assert (A0 : Un_cv a 0) by (rewrite <- (Rmult_0_r (IZR D)); apply cv_scale; exact (zterm_cv n z HZ)).
  assert (AL : Un_cv (asum a) (IZR D * (z - 2 * / 2 ^ n * z))).
  { intros e He. destruct (cv_scale (IZR D) _ _ (eta_cv n z HZ) e He) as [N HN]. exists N. intros k Hk. specialize (HN k Hk). unfold a. rewrite asum_scale. exact HN. }
  pose proof (est_err K m a _ (C (S m)) A0 AL) as E1.
  assert (AP : appr 2 a (prow (K + m) D n)).
  { intros k Hk. rewrite prow_length in Hk. destruct (prow_near (K + m) D n k Hk) as [P Q]. unfold a, zterm. fold (IZR D / INR (S k) ^ n). rewrite Rabs_right; lra. }
  pose proof (zest_near K m 2 a _ ltac:(lra) AP ltac:(rewrite prow_length; lia)) as E2.
  assert (E3 : dm m a K / 2 ^ m <= 1).
  { pose proof (cc_bound m K a (C m) (C (S m))) as B. assert (Z0 : a 0%nat = IZR D) by (unfold a, zterm; change (INR 1) with 1; rewrite pow1, Rinv_1; ring). rewrite Z0 in B.
    pose proof (cc_fact m K) as F. pose proof (fact_pos m) as F1. pose proof (fact_pos K) as F2. assert (T : 0 < 2 ^ m) by (apply pow_lt; lra).
    assert (F3 : 0 < INR (fact m) * INR (fact K)) by (apply Rmult_lt_0_compat; assumption). rewrite <- F in HB. set (g := INR (fact m) * INR (fact K)) in *.
    assert (H1 : IZR D <= 2 ^ m * cc m K) by (apply (Rmult_le_reg_r g); [exact F3|]; lra).
    assert (CP : 0 < cc m K) by (apply (Rmult_lt_reg_r g); [exact F3|]; rewrite Rmult_0_l, F; apply fact_pos).
    apply (Rmult_le_reg_r (2 ^ m)); [exact T|]. unfold Rdiv. rewrite Rmult_assoc, Rinv_l, Rmult_1_r, Rmult_1_l by lra.
    apply (Rmult_le_reg_l (cc m K)); [exact CP|]. lra. }
  set (t := IZR D * (z - 2 * / 2 ^ n * z)) in *. replace (t - IZR (zest K (wrow m 1 []) (2 ^ Z.of_nat m) (prow (K + m) D n))) with ((t - est K m a) + (est K m a - IZR (zest K (wrow m 1 []) (2 ^ Z.of_nat m) (prow (K + m) D n)))) by ring.
  eapply Rle_trans; [apply Rabs_triang|]. lra.
Qed.

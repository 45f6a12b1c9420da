(** Lemmas for C138: growth of polynomials that are positive at the positive integers, and finite fractions with
    positive coefficients. *)
From Coq Require Import ZArith QArith Qabs List Bool Lia Lqa Psatz Arith.
From Verif Require Import PyBase Rnd Utils_Model Spec_Utils ContFrac_Model Spec_ContFrac ContFrac_Proofs Errors_Model Errors_Proofs CF_Positive Spec_Positive.
Import ListNotations.
Open Scope Z_scope.

(** ---- polynomials ---- *)
Definition zpow (n : Z) (k : nat) : Z := n ^ Z.of_nat k.
Lemma zpow_S n k : zpow n (S k) = n * zpow n k.
Proof. unfold zpow. rewrite Nat2Z.inj_succ, Z.pow_succ_r by lia. reflexivity. Qed.
Lemma zpow_pos n k : 1 <= n -> 1 <= zpow n k.
Proof. intros H. induction k as [|k IH]; [unfold zpow; cbn; lia|]. rewrite zpow_S. nia. Qed.
Lemma zpow_le n k j : 1 <= n -> (k <= j)%nat -> zpow n k <= zpow n j.
Proof. intros H L. induction L as [|j L IH]; [lia|]. rewrite zpow_S. pose proof (zpow_pos n j H). nia. Qed.
Lemma zpow_base n m k : 1 <= n <= m -> zpow n k <= zpow m k.
Proof. intros H. induction k as [|k IH]; [unfold zpow; cbn; lia|]. rewrite !zpow_S. pose proof (zpow_pos n k). nia. Qed.
Lemma zpow_mul n m k : zpow (n * m) k = zpow n k * zpow m k.
Proof. unfold zpow. apply Z.pow_mul_l. Qed.
Lemma zpow_add n k j : zpow n (k + j) = zpow n k * zpow n j.
Proof. unfold zpow. rewrite Nat2Z.inj_add. apply Z.pow_add_r; lia. Qed.
Fixpoint asumZ (f : list Z) : Z := match f with [] => 0 | c :: r => Z.abs c + asumZ r end.
Lemma asumZ_nn f : 0 <= asumZ f.
Proof. induction f; cbn [asumZ]; lia. Qed.
Lemma poly_app r x n : poly_val (r ++ [x]) n = poly_val r n + x * zpow n (length r).
Proof. induction r as [|c r IH]; cbn [app poly_val length]; [unfold zpow; cbn; lia|]. rewrite IH, zpow_S. ring. Qed.
Lemma poly_bound f n : 1 <= n -> Z.abs (poly_val f n) * n <= asumZ f * zpow n (length f).
Proof.
  intros H. induction f as [|c f IH]; cbn [poly_val asumZ length]; [cbn; lia|]. rewrite zpow_S. pose proof (zpow_pos n (length f) H). pose proof (asumZ_nn f).
  assert (Z.abs (c + n * poly_val f n) <= Z.abs c + n * Z.abs (poly_val f n)) by lia.
  assert (n <= n * zpow n (length f)) by nia. nia.
Qed.
(** the polynomial is positive at the indices of one residue class *)
Lemma lower_class (f : list Z) (d : nat) (k j : Z) : 0 < k -> 0 <= j < k -> degree_at_least d f -> (forall n, 1 <= n -> n mod k = j -> 0 < poly_val f n) ->
  exists K, 1 <= K /\ forall n, 1 <= n -> n mod k = j -> zpow n d <= K * poly_val f n.
Proof.
  intros Hk Hj (r & x & -> & Nx & Ld) HP. set (S := asumZ r). assert (S0 : 0 <= S) by apply asumZ_nn.
  assert (X : 1 <= x).
  { destruct (Z_le_gt_dec x 0) as [L|L]; [exfalso|lia]. set (n := j + k * (S + 1)). assert (Nn : 1 <= n) by (unfold n; nia).
    assert (M : n mod k = j) by (unfold n; rewrite Z.mul_comm, Z.mod_add by lia; apply Z.mod_small; lia).
    specialize (HP n Nn M). rewrite poly_app in HP. pose proof (poly_bound r n Nn) as B. fold S in B. pose proof (zpow_pos n (length r) Nn) as Z1.
    assert (n > S) by (unfold n; nia). set (w := zpow n (length r)) in *. set (y := poly_val r n) in *. assert (w < y + 1) by nia.
    assert (y * n <= S * w) by nia. nia. }
  exists (2 + zpow (2 * S + 1) (length r)). pose proof (zpow_pos (2 * S + 1) (length r) ltac:(lia)) as Z0. split; [lia|]. intros n Hn M. specialize (HP n Hn M).
  apply Z.le_trans with (zpow n (length r)); [apply zpow_le; assumption|].
  destruct (Z_le_gt_dec n (2 * S)) as [L|L].
  - assert (zpow n (length r) <= zpow (2 * S + 1) (length r)) by (apply zpow_base; lia). nia.
  - rewrite poly_app in *. pose proof (poly_bound r n Hn) as B. fold S in B. pose proof (zpow_pos n (length r) Hn). set (w := zpow n (length r)) in *. set (y := poly_val r n) in *.
    assert (2 * Z.abs y <= w).
    { assert (2 * (Z.abs y * n) <= w * n) by nia. nia. }
    assert (w <= 2 * (y + x * w)) by nia. nia.
Qed.
Lemma upper_succ (f : list Z) (d : nat) : degree_at_most d f -> forall n, 1 <= n -> poly_val f (n + 1) <= (1 + asumZ f * zpow 2 d) * zpow n d.
Proof.
  intros L n Hn. unfold degree_at_most in L. pose proof (poly_bound f (n + 1) ltac:(lia)) as B.
  assert (Z1 : zpow (n + 1) (length f) <= zpow (n + 1) (d + 1)) by (apply zpow_le; lia). rewrite Nat.add_1_r, zpow_S in Z1. pose proof (asumZ_nn f) as S0.
  assert (Z2 : zpow (n + 1) d <= zpow 2 d * zpow n d) by (rewrite <- zpow_mul; apply zpow_base; lia). pose proof (zpow_pos n d Hn). pose proof (zpow_pos 2 d ltac:(lia)). pose proof (zpow_pos (n + 1) d ltac:(lia)).
  set (y := poly_val f (n + 1)) in *. set (S := asumZ f) in *. set (w := zpow (n + 1) d) in *.
  assert (A : Z.abs y * (n + 1) <= S * w * (n + 1)) by nia. assert (Z.abs y <= S * w) by nia. nia.
Qed.
(** interlaced polynomials *)
Lemma common_K (Pr : nat -> Z -> Prop) : (forall j K K', Pr j K -> K <= K' -> Pr j K') -> forall m, (forall j, (j < m)%nat -> exists K, 1 <= K /\ Pr j K) -> exists K, 1 <= K /\ forall j, (j < m)%nat -> Pr j K.
Proof.
  intros Mo. induction m as [|m IH]; intros H; [exists 1; split; [lia|intros j Hj; lia]|].
  destruct IH as (K & K1 & HK); [intros j Hj; apply H; lia|]. destruct (H m ltac:(lia)) as (L & L1 & HL). exists (K + L). split; [lia|].
  intros j Hj. destruct (Nat.eq_dec j m) as [->|N]; [apply (Mo m L); [exact HL|lia]|apply (Mo j K); [apply HK; lia|lia]].
Qed.
Lemma lower_all a d : a <> [] -> (forall f, In f a -> degree_at_least d f) -> (forall i, 1 <= i -> 0 < icoef a i) -> exists K, 1 <= K /\ forall n, 1 <= n -> zpow n d <= K * icoef a n.
Proof.
  intros Na HD HP. assert (L : 0 < Z.of_nat (length a)) by (destruct a; [congruence|cbn; lia]).
  destruct (common_K (fun j K => forall n, 1 <= n -> n mod Z.of_nat (length a) = Z.of_nat j -> zpow n d <= K * icoef a n)) with (m := length a) as (K & K1 & HK).
  - intros j K K' H LK n Hn M. specialize (H n Hn M). specialize (HP n Hn). nia.
  - intros j Hj. destruct (lower_class (nth j a []) d (Z.of_nat (length a)) (Z.of_nat j)) as (K & K1 & HK); [lia|lia|apply HD, nth_In; exact Hj| |].
    + intros n Hn M. specialize (HP n Hn). unfold icoef in HP. rewrite M, Nat2Z.id in HP. exact HP.
    + exists K. split; [exact K1|]. intros n Hn M. specialize (HK n Hn M). unfold icoef. rewrite M, Nat2Z.id. exact HK.
  - exists K. split; [exact K1|]. intros n Hn. pose proof (Z.mod_pos_bound n _ L). apply (HK (Z.to_nat (n mod Z.of_nat (length a)))); [lia|exact Hn|rewrite Z2Nat.id; lia].
Qed.
Lemma upper_all b d : b <> [] -> (forall f, In f b -> degree_at_most d f) -> exists M, 1 <= M /\ forall n, 1 <= n -> icoef b (n + 1) <= M * zpow n d.
Proof.
  intros Nb HD. assert (L : 0 < Z.of_nat (length b)) by (destruct b; [congruence|cbn; lia]).
  destruct (common_K (fun j K => forall n, 1 <= n -> (n + 1) mod Z.of_nat (length b) = Z.of_nat j -> icoef b (n + 1) <= K * zpow n d)) with (m := length b) as (K & K1 & HK).
  - intros j K K' H LK n Hn M. specialize (H n Hn M). pose proof (zpow_pos n d Hn). nia.
  - intros j Hj. exists (1 + asumZ (nth j b []) * zpow 2 d). pose proof (asumZ_nn (nth j b [])). pose proof (zpow_pos 2 d ltac:(lia)). split; [nia|].
    intros n Hn M. unfold icoef. rewrite M, Nat2Z.id. apply upper_succ; [apply HD, nth_In; exact Hj|exact Hn].
  - exists K. split; [exact K1|]. intros n Hn. pose proof (Z.mod_pos_bound (n + 1) _ L). apply (HK (Z.to_nat ((n + 1) mod Z.of_nat (length b)))); [lia|exact Hn|rewrite Z2Nat.id; lia].
Qed.
Lemma growth a b p q : a <> [] -> b <> [] -> positive a b -> (forall f, In f a -> degree_at_least p f) -> (forall f, In f b -> degree_at_most q f) -> (q <= 2 * p + 2)%nat ->
  exists K, 1 <= K /\ forall n, 1 <= n -> icoef b (n + 1) <= K * K * (n * n * (icoef a n * icoef a (n + 1))).
Proof.
  intros Na Nb HP HA HB Hq. destruct (lower_all a p Na HA) as (K & K1 & HK); [intros i Hi; apply HP; exact Hi|]. destruct (upper_all b q Nb HB) as (M & M1 & HM).
  exists (K * M). split; [nia|]. intros n Hn. specialize (HM n Hn). pose proof (HK n Hn) as X. pose proof (HK (n + 1) ltac:(lia)) as Y.
  assert (Y' : zpow n p <= K * icoef a (n + 1)) by (eapply Z.le_trans; [apply (zpow_base n (n + 1)); lia|exact Y]).
  assert (W : zpow n q <= n * n * (zpow n p * zpow n p)).
  { eapply Z.le_trans; [apply (zpow_le n q (2 + (p + p)) Hn); lia|]. rewrite !zpow_add. unfold zpow at 1. cbn [Z.of_nat]. change (Z.pos (Pos.of_succ_nat 1)) with 2. lia. }
  pose proof (zpow_pos n p Hn) as Z1. set (w := zpow n p) in *. set (u := icoef a n) in *. set (v := icoef a (n + 1)) in *.
  assert (W2 : w * w <= (K * u) * (K * v)) by nia.
  assert (W3 : n * n * (w * w) <= n * n * ((K * u) * (K * v))) by nia.
  assert (W4 : icoef b (n + 1) <= M * (n * n * ((K * u) * (K * v)))) by nia.
  assert (W5 : 0 <= n * n * ((K * u) * (K * v))) by nia. nia.
Qed.

(** ---- the finite fractions ---- *)
Lemma nested_positive a b n : positive a b -> exists v, nested (inject_Z (icoef a 0)) (toQ (icoefs a b (map Z.of_nat (seq 1 n)))) = Some v.
Proof.
  intros H. destruct n as [|n]; [eexists; reflexivity|]. destruct (nested_pos a b n 1) as (v & E & V); [intros i Hi; apply H; lia|intros i Hi; apply H; lia|].
  unfold icoefs, toQ in *. cbn [seq map nested]. rewrite E.
  assert (Z0 : Qeq_bool v 0 = false) by (destruct (Qeq_bool v 0) eqn:F; [apply Qeq_bool_eq in F; rewrite F in V; discriminate V|reflexivity]).
  rewrite Z0. eexists. reflexivity.
Qed.
Definition qa (a : list (list Z)) (n : nat) : Q := inject_Z (icoef a (Z.of_nat n)).
Definition qP (a b : list (list Z)) (n : nat) : Q := inject_Z (nth_P a b n).
Definition qD (a b : list (list Z)) (n : nat) : Q := inject_Z (nth_Q a b n).
Lemma posQ z : 0 < z -> (0 < inject_Z z)%Q.
Proof. intros H. unfold Qlt. cbn. lia. Qed.
Lemma nth_init a b : nth_P a b 0 = icoef a 0 /\ nth_Q a b 0 = 1 /\ nth_P a b 1 = icoef a 1 * icoef a 0 + icoef b 1 /\ nth_Q a b 1 = icoef a 1.
Proof. unfold nth_P, nth_Q, contP, contQ. cbn -[icoef]. lia. Qed.
Lemma pos_facts a b : positive a b ->
  (forall n, (0 < qa a (S n))%Q) /\ (forall n, (0 < qa b (S n))%Q) /\ (qP a b 0 == qa a 0)%Q /\ (qD a b 0 == 1)%Q /\ (qP a b 1 == qa a 1 * qa a 0 + qa b 1)%Q /\ (qD a b 1 == qa a 1)%Q /\
  (forall n, (qP a b (S (S n)) == qa a (S (S n)) * qP a b (S n) + qa b (S (S n)) * qP a b n)%Q) /\ (forall n, (qD a b (S (S n)) == qa a (S (S n)) * qD a b (S n) + qa b (S (S n)) * qD a b n)%Q).
Proof.
  intros H. pose proof (nth_init a b) as (I1 & I2 & I3 & I4).
  split; [intros n; apply posQ, H; lia|]. split; [intros n; apply posQ, H; lia|]. unfold qP, qD, qa. rewrite I1, I2, I3, I4.
  split; [reflexivity|]. split; [reflexivity|]. split; [rewrite inject_Z_plus, inject_Z_mult; reflexivity|]. split; [reflexivity|].
  split; intros n; pose proof (nth_PQ_rec a b n) as [E1 E2]; cbn zeta in E1, E2; [rewrite E1|rewrite E2]; rewrite inject_Z_plus, !inject_Z_mult; reflexivity.
Qed.
Lemma cut_val a b n v : nested (inject_Z (icoef a 0)) (toQ (icoefs a b (map Z.of_nat (seq 1 n)))) = Some v -> (v == val (qP a b) (qD a b) n)%Q.
Proof. intros E. destruct (nested_cont _ _ _ E) as [_ EV]. exact EV. Qed.

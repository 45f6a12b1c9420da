(** Facts about coefficient lists over Z and Q: identity theorem, products, sympy's divisions. *)
From Coq Require Import ZArith QArith Qabs Qround Qpower Qfield List Bool Lia Lqa.
From Verif Require Import PyBase Spec_Utils Rational_Model.
Import ListNotations.
Local Open Scope Z_scope.
Local Open Scope list_scope.

Notation inj := (map inject_Z).

(** ---- evaluation ---- *)
Global Instance poly_valQ_proper l : Proper (Qeq ==> Qeq) (poly_valQ l).
Proof. intros a b H. induction l as [|c l IH]; cbn; [reflexivity|]. now rewrite IH, H. Qed.

Lemma poly_val_inj p n : (poly_valQ (inj p) (inject_Z n) == inject_Z (poly_val p n))%Q.
Proof. induction p as [|c p IH]; cbn; [reflexivity|]. rewrite IH, inject_Z_plus, inject_Z_mult. reflexivity. Qed.

Fixpoint xpow (x : Q) (j : nat) : Q := match j with O => 1%Q | S k => (x * xpow x k)%Q end.
Lemma xpow_Qpower x j : (x ^ Z.of_nat j == xpow x j)%Q.
Proof.
  induction j as [|j IH]; [reflexivity|]. cbn [xpow]. rewrite <- IH, Nat2Z.inj_succ. unfold Z.succ.
  rewrite Z.add_comm, Qpower_plus' by lia. reflexivity.
Qed.

Lemma valQ_shift j p x : (poly_valQ (repeat 0%Q j ++ p) x == xpow x j * poly_valQ p x)%Q.
Proof. induction j as [|j IH]; cbn [repeat app poly_valQ xpow]; [ring|]. rewrite IH. ring. Qed.
Lemma valQ_qterm c j p x : (poly_valQ (qterm c j p) x == c * xpow x j * poly_valQ p x)%Q.
Proof.
  unfold qterm. rewrite valQ_shift.
  assert (E : (poly_valQ (map (fun a => Qred (c * a)) p) x == c * poly_valQ p x)%Q).
  { induction p as [|a p IH]; cbn [map poly_valQ]; [ring|]. rewrite IH, Qred_correct. ring. }
  rewrite E. ring.
Qed.
Lemma valQ_qadd p : forall q x, (poly_valQ (qadd p q) x == poly_valQ p x + poly_valQ q x)%Q.
Proof.
  induction p as [|a p IH]; intros [|b q] x; cbn [qadd poly_valQ]; try ring. rewrite IH, Qred_correct. ring.
Qed.
Lemma valQ_qmul p q x : (poly_valQ (qmul p q) x == poly_valQ p x * poly_valQ q x)%Q.
Proof.
  induction p as [|a p IH]; cbn [qmul poly_valQ]; [ring|]. rewrite valQ_qadd, valQ_qterm. cbn [poly_valQ xpow].
  rewrite IH. ring.
Qed.
Lemma valQ_qnorm p x : (poly_valQ (qnorm p) x == poly_valQ p x)%Q.
Proof.
  induction p as [|a p IH]; [reflexivity|]. cbn [qnorm poly_valQ]. rewrite <- IH. destruct (qnorm p) as [|b r].
  - destruct (Qeq_bool a 0) eqn:E; cbn [poly_valQ]; [apply Qeq_bool_iff in E; rewrite E|]; ring.
  - reflexivity.
Qed.
Lemma val_zsub p : forall q x, poly_val (zsub p q) x = poly_val p x - poly_val q x.
Proof.
  induction p as [|a p IH]; intros q x; cbn [zsub].
  - cbn [poly_val]. induction q as [|b q IHq]; cbn [map poly_val]; [reflexivity|]. rewrite IHq. ring.
  - destruct q as [|b q]; cbn [poly_val]; [ring|]. rewrite IH. ring.
Qed.
Fixpoint zpow (x : Z) (j : nat) : Z := match j with O => 1 | S k => x * zpow x k end.
Lemma val_zterm c j p x : poly_val (zterm c j p) x = c * zpow x j * poly_val p x.
Proof.
  unfold zterm. induction j as [|j IH]; cbn [repeat app zpow poly_val].
  - induction p as [|a p IH]; cbn [map poly_val]; [ring|]. rewrite IH. ring.
  - rewrite IH. ring.
Qed.
Lemma val_znorm p x : poly_val (znorm p) x = poly_val p x.
Proof.
  induction p as [|a p IH]; [reflexivity|]. cbn [znorm poly_val]. rewrite <- IH. destruct (znorm p) as [|b r].
  - destruct (Z.eqb_spec a 0) as [->|]; cbn [poly_val]; ring.
  - reflexivity.
Qed.

(** ---- normal forms ---- *)
Definition znormal (p : list Z) : Prop := p = [] \/ last p 0 <> 0.
Definition qnormal (p : list Q) : Prop := p = [] \/ ~ (last p 0%Q == 0)%Q.
Lemma last_cons {A} (a b : A) r d : last (a :: b :: r) d = last (b :: r) d.
Proof. reflexivity. Qed.
Lemma znorm_normal p : znormal (znorm p).
Proof.
  induction p as [|a p IH]; [now left|]. cbn [znorm]. destruct (znorm p) as [|b r].
  - destruct (Z.eqb_spec a 0); [now left|now right].
  - destruct IH as [IH|IH]; [discriminate|]. right. now rewrite last_cons.
Qed.
Lemma qnorm_normal p : qnormal (qnorm p).
Proof.
  induction p as [|a p IH]; [now left|]. cbn [qnorm]. destruct (qnorm p) as [|b r].
  - destruct (Qeq_bool a 0) eqn:E; [now left|right]. cbn. now apply Qeq_bool_neq.
  - destruct IH as [IH|IH]; [discriminate|]. right. now rewrite last_cons.
Qed.
Lemma znorm_id p : znormal p -> znorm p = p.
Proof.
  induction p as [|a p IH]; intros [H|H]; try discriminate; [reflexivity|reflexivity|]. cbn [znorm].
  destruct p as [|b r].
  - cbn in *. destruct (Z.eqb_spec a 0); [contradiction|reflexivity].
  - rewrite last_cons in H. rewrite IH by now right. reflexivity.
Qed.
Lemma znorm_length p : (length (znorm p) <= length p)%nat.
Proof.
  induction p as [|a p IH]; [auto|]. cbn [znorm]. destruct (znorm p); [destruct (a =? 0); cbn; lia|cbn in *; lia].
Qed.
Lemma qnorm_length p : (length (qnorm p) <= length p)%nat.
Proof.
  induction p as [|a p IH]; [auto|]. cbn [qnorm]. destruct (qnorm p); [destruct (Qeq_bool a 0); cbn; lia|cbn in *; lia].
Qed.
Lemma znorm_length_lt p : p <> [] -> last p 0 = 0 -> (length (znorm p) < length p)%nat.
Proof.
  induction p as [|a p IH]; intros N L; [now destruct N|]. cbn [znorm]. destruct p as [|b r].
  - cbn in *. subst a. cbn. lia.
  - rewrite last_cons in L. specialize (IH ltac:(discriminate) L). destruct (znorm (b :: r)).
    + destruct (a =? 0); cbn; lia.
    + cbn in *. lia.
Qed.
Lemma qnorm_length_lt p : p <> [] -> (last p 0%Q == 0)%Q -> (length (qnorm p) < length p)%nat.
Proof.
  induction p as [|a p IH]; intros N L; [now destruct N|]. cbn [qnorm]. destruct p as [|b r].
  - cbn in *. apply Qeq_bool_iff in L. rewrite L. cbn. lia.
  - rewrite last_cons in L. specialize (IH ltac:(discriminate) L). destruct (qnorm (b :: r)).
    + destruct (Qeq_bool a 0); cbn; lia.
    + cbn in *. lia.
Qed.
Lemma znormal_inj p : znormal p -> qnormal (inj p).
Proof.
  intros [->|H]; [now left|]. right. induction p as [|a p IH]; [now destruct H|]. destruct p as [|b r].
  - cbn in *. intros E. unfold Qeq in E. cbn in E. lia.
  - rewrite last_cons in H. cbn [map] in *. rewrite last_cons. auto.
Qed.
Lemma last_nth {A} (p : list A) d : last p d = nth (length p - 1) p d.
Proof.
  induction p as [|a p IH]; [reflexivity|]. destruct p as [|b r]; [reflexivity|].
  rewrite last_cons, IH. cbn [length]. rewrite !Nat.sub_succ, !Nat.sub_0_r. reflexivity.
Qed.
Lemma nth_inj p i : nth i (inj p) 0%Q = inject_Z (nth i p 0).
Proof. change 0%Q with (inject_Z 0). apply map_nth. Qed.
Lemma inject_Z_eq a b : (inject_Z a == inject_Z b)%Q -> a = b.
Proof. unfold Qeq; cbn; lia. Qed.

(** ---- identity theorem ---- *)
Fixpoint synth (r : Q) (p : list Q) : list Q :=
  match p with [] => [] | _ :: p' => match p' with [] => [] | _ => poly_valQ p' r :: synth r p' end end.
Lemma synth_val r p y : (poly_valQ p y == poly_valQ p r + (y - r) * poly_valQ (synth r p) y)%Q.
Proof.
  induction p as [|a p IH]; [cbn; ring|]. destruct p as [|b p]; [cbn; ring|].
  change (synth r (a :: b :: p)) with (poly_valQ (b :: p) r :: synth r (b :: p)).
  change (poly_valQ (a :: b :: p) y) with (a + y * poly_valQ (b :: p) y)%Q.
  change (poly_valQ (a :: b :: p) r) with (a + r * poly_valQ (b :: p) r)%Q.
  change (poly_valQ (poly_valQ (b :: p) r :: synth r (b :: p)) y)
    with (poly_valQ (b :: p) r + y * poly_valQ (synth r (b :: p)) y)%Q.
  setoid_replace (y * poly_valQ (b :: p) y)%Q with (y * (poly_valQ (b :: p) r + (y - r) * poly_valQ (synth r (b :: p)) y))%Q
    by now rewrite <- IH.
  ring.
Qed.
Lemma synth_length r p : length (synth r p) = (length p - 1)%nat.
Proof.
  induction p as [|a p IH]; [reflexivity|]. destruct p as [|b p]; [reflexivity|].
  change (synth r (a :: b :: p)) with (poly_valQ (b :: p) r :: synth r (b :: p)). cbn [length] in *. rewrite IH. lia.
Qed.
Notation zeroQ := (fun c => (c == 0)%Q).
Lemma synth_zero r p : (poly_valQ p r == 0)%Q -> Forall zeroQ (synth r p) -> Forall zeroQ p.
Proof.
  induction p as [|a p IH]; intros V F; [constructor|]. destruct p as [|b p].
  - constructor; [|constructor]. cbn in V. rewrite <- V. ring.
  - change (synth r (a :: b :: p)) with (poly_valQ (b :: p) r :: synth r (b :: p)) in F.
    inversion F as [|? ? E F']; subst. specialize (IH E F'). constructor; [|exact IH].
    change (poly_valQ (a :: b :: p) r) with (a + r * poly_valQ (b :: p) r)%Q in V. rewrite E in V.
    rewrite <- V. ring.
Qed.
Lemma vanish p : forall B : Z, (forall n, (B < n)%Z -> (poly_valQ p (inject_Z n) == 0)%Q) -> Forall zeroQ p.
Proof.
  remember (length p) as len eqn:L. revert p L. induction len as [|len IH]; intros p L B H.
  - destruct p; [constructor|discriminate].
  - apply (synth_zero (inject_Z (B + 1))); [apply H; lia|]. apply (IH (synth (inject_Z (B + 1)) p)) with (B := B + 1); [rewrite synth_length; lia|].
    intros n Hn. pose proof (synth_val (inject_Z (B + 1)) p (inject_Z n)) as S.
    rewrite (H n), (H (B + 1)) in S by lia.
    assert (N : ~ (inject_Z n - inject_Z (B + 1) == 0)%Q).
    { intros E. assert (inject_Z n == inject_Z (B + 1))%Q by lra. apply inject_Z_eq in H0. lia. }
    rewrite Qplus_0_l in S. symmetry in S. apply Qmult_integral in S. tauto.
Qed.

(** Coefficients of a polynomial are determined by its values at the integers. *)
Lemma nth_qadd p : forall q i, (nth i (qadd p q) 0 == nth i p 0 + nth i q 0)%Q.
Proof.
  induction p as [|a p IH]; intros [|b q] [|i]; cbn [qadd nth]; try (rewrite ?Qred_correct; ring). apply IH.
Qed.
Lemma nth_shift j p : forall i, nth (j + i) (repeat 0%Q j ++ p) 0%Q = nth i p 0%Q.
Proof. induction j; intros i; [reflexivity|]. cbn. apply IHj. Qed.
Lemma nth_scale c p : forall i, (nth i (map (fun a => Qred (c * a)) p) 0 == c * nth i p 0)%Q.
Proof. induction p as [|a p IH]; intros [|i]; cbn [map nth]; try ring; [apply Qred_correct|apply IH]. Qed.
Lemma nth_qterm0 c p i : (nth i (qterm c 0 p) 0 == c * nth i p 0)%Q.
Proof. unfold qterm. cbn [repeat app]. apply nth_scale. Qed.
Lemma Forall_nth_zero p : Forall zeroQ p -> forall i, (nth i p 0 == 0)%Q.
Proof. intros F. induction F as [|a p E F IH]; intros [|i]; cbn; auto; reflexivity. Qed.

Lemma coef_unique p q :
  (forall n, poly_valQ p (inject_Z n) == poly_valQ q (inject_Z n))%Q -> forall i, (nth i p 0 == nth i q 0)%Q.
Proof.
  intros H. assert (F : Forall zeroQ (qadd p (qterm (-1) 0 q))).
  { apply (vanish _ 0). intros n _. rewrite valQ_qadd, valQ_qterm, H. cbn [xpow]. ring. }
  intros i. pose proof (Forall_nth_zero _ F i) as E. rewrite nth_qadd, nth_qterm0 in E. lra.
Qed.
Lemma coef_val p : forall q, (forall i, nth i p 0 == nth i q 0)%Q -> forall x, (poly_valQ p x == poly_valQ q x)%Q.
Proof.
  induction p as [|a p IH]; intros q H x.
  - induction q as [|b q IHq]; [reflexivity|].
    assert (E : (poly_valQ q x == 0)%Q).
    { symmetry. apply IHq. intros i. specialize (H (S i)). cbn in H. rewrite <- H. destruct i; reflexivity. }
    specialize (H O). cbn in H. cbn [poly_valQ]. rewrite E, <- H. ring.
  - destruct q as [|b q].
    + cbn [poly_valQ]. rewrite (IH []) by (intros i; specialize (H (S i)); cbn in H; rewrite H; now destruct i).
      specialize (H O). cbn in H. rewrite H. cbn. ring.
    + cbn [poly_valQ]. rewrite (IH q) by (intros i; apply (H (S i))). specialize (H O). cbn in H. rewrite H. reflexivity.
Qed.
Lemma val_unique p q : (forall n, poly_valQ p (inject_Z n) == poly_valQ q (inject_Z n))%Q ->
  forall x, (poly_valQ p x == poly_valQ q x)%Q.
Proof. intros H. apply coef_val, coef_unique, H. Qed.

(** two normal lists with the same coefficients have the same length *)
Lemma normal_length_le p q : qnormal p -> (forall i, nth i p 0 == nth i q 0)%Q -> (length p <= length q)%nat.
Proof.
  intros [->|N] H; [cbn; lia|]. rewrite last_nth in N. destruct (Nat.le_gt_cases (length p) (length q)); [auto|].
  exfalso. apply N. rewrite H. rewrite nth_overflow by lia. reflexivity.
Qed.
Lemma znormal_eq p q : znormal p -> znormal q -> (forall n, poly_val p n = poly_val q n) -> p = q.
Proof.
  intros P R H.
  assert (C : forall i, (nth i (inj p) 0 == nth i (inj q) 0)%Q).
  { apply coef_unique. intros n. rewrite !poly_val_inj, H. reflexivity. }
  assert (L : length p = length q).
  { pose proof (normal_length_le _ _ (znormal_inj _ P) C). pose proof (normal_length_le _ (inj p) (znormal_inj _ R)).
    rewrite !map_length in *. assert (length q <= length p)%nat by (apply H1; intros; symmetry; apply C). lia. }
  apply nth_ext with (d := 0) (d' := 0); [exact L|]. intros i _. specialize (C i). rewrite !nth_inj in C. now apply inject_Z_eq.
Qed.
Lemma znorm_ext p q : (forall n, poly_val p n = poly_val q n) -> znorm p = znorm q.
Proof. intros H. apply znormal_eq; try apply znorm_normal. intros n. now rewrite !val_znorm. Qed.

(** ---- products ---- *)
Lemma qmul_length_le p q : q <> [] -> (length (qmul p q) <= length p + length q)%nat.
Proof.
  intros N. induction p as [|a p IH]; cbn [qmul length]; [lia|].
  assert (A : forall p q, length (qadd p q) = Nat.max (length p) (length q)).
  { clear. induction p as [|a p IH]; intros [|b q]; cbn [qadd length Nat.max]; auto. }
  rewrite A. unfold qterm. cbn [repeat app length]. rewrite map_length. destruct q; [contradiction|]. cbn [length] in *. lia.
Qed.
Lemma nth_qmul_high p q : forall i, (length p + length q <= i + 1)%nat -> (p <> [] -> q <> [] -> True) ->
  (nth i (qmul p q) 0 == 0)%Q \/ p = [] \/ q = [].
Proof.
  destruct q as [|b q]; [auto|]. induction p as [|a p IH]; intros i H _; [auto|]. left. cbn [qmul].
  rewrite nth_qadd, nth_qterm0, (nth_overflow (b :: q)) by (cbn [length] in *; lia).
  destruct i as [|i]; cbn [nth]; [ring|]. destruct p as [|c p]; [cbn; destruct i; ring|].
  destruct (IH i) as [E|[E|E]]; try discriminate; [cbn [length] in *; lia|auto|]. rewrite E. ring.
Qed.
Lemma nth_qmul_top p q : p <> [] -> q <> [] ->
  (nth (length p - 1 + (length q - 1)) (qmul p q) 0 == last p 0 * last q 0)%Q.
Proof.
  intros P N. rewrite (last_nth q). induction p as [|a p IH]; [contradiction|]. clear P. destruct p as [|b p].
  - cbn [qmul length last]. rewrite Nat.sub_diag. cbn [Nat.add]. rewrite nth_qadd, nth_qterm0.
    destruct (length q - 1)%nat as [|[|k]]; cbn [nth]; ring.
  - rewrite last_cons, <- IH by discriminate. change (qmul (a :: b :: p) q) with (qadd (qterm a 0 q) (0%Q :: qmul (b :: p) q)).
    rewrite nth_qadd, nth_qterm0, nth_overflow by (destruct q; [contradiction|]; cbn [length]; lia).
    replace (length (a :: b :: p) - 1 + (length q - 1))%nat with (S (length (b :: p) - 1 + (length q - 1))) by (cbn [length]; lia).
    cbn [nth]. ring.
Qed.

Lemma mul_degree p q r : qnormal p -> qnormal q -> qnormal r -> p <> [] -> q <> [] ->
  (forall n, poly_valQ p (inject_Z n) * poly_valQ q (inject_Z n) == poly_valQ r (inject_Z n))%Q ->
  length r = (length p + length q - 1)%nat /\ (last r 0 == last p 0 * last q 0)%Q.
Proof.
  intros NP NQ NR P N H.
  assert (C : forall i, (nth i r 0 == nth i (qmul p q) 0)%Q).
  { apply coef_unique. intros n. rewrite valQ_qmul, H. reflexivity. }
  destruct NP as [->|NP]; [contradiction|]. destruct NQ as [->|NQ]; [contradiction|].
  assert (T := nth_qmul_top p q P N).
  assert (TZ : ~ (nth (length p - 1 + (length q - 1)) r 0 == 0)%Q).
  { rewrite C, T. intros E. apply Qmult_integral in E. tauto. }
  assert (LP : (0 < length p)%nat) by (destruct p; [contradiction|cbn; lia]).
  assert (LQ : (0 < length q)%nat) by (destruct q; [contradiction|cbn; lia]).
  assert (GE : (length p + length q - 1 <= length r)%nat).
  { destruct (Nat.le_gt_cases (length p + length q - 1) (length r)); [auto|].
    exfalso. apply TZ. rewrite nth_overflow by lia. reflexivity. }
  assert (LE : (length r <= length p + length q - 1)%nat).
  { destruct NR as [->|NR]; [cbn; lia|]. destruct (Nat.le_gt_cases (length r) (length p + length q - 1)); [auto|]. exfalso.
    apply NR. rewrite last_nth, C. destruct (nth_qmul_high p q (length r - 1)) as [E|[E|E]]; auto; try contradiction; lia. }
  assert (L : length r = (length p + length q - 1)%nat) by lia. split; [exact L|].
  rewrite (last_nth r), L, C, <- T. replace (length p + length q - 1 - 1)%nat with (length p - 1 + (length q - 1))%nat by lia.
  reflexivity.
Qed.

(** ---- products over Z ---- *)
Lemma last_inj p : last (inj p) 0%Q = inject_Z (last p 0).
Proof. rewrite !last_nth, map_length, nth_inj. reflexivity. Qed.
Lemma zmul_degree p q r : znormal p -> znormal q -> znormal r -> p <> [] -> q <> [] ->
  (forall n, poly_val p n * poly_val q n = poly_val r n) ->
  length r = (length p + length q - 1)%nat /\ zlc r = zlc p * zlc q.
Proof.
  intros NP NQ NR P N H. unfold zlc.
  destruct (mul_degree (inj p) (inj q) (inj r)) as [L E]; try now apply znormal_inj.
  - destruct p; [contradiction|discriminate].
  - destruct q; [contradiction|discriminate].
  - intros n. rewrite !poly_val_inj, <- inject_Z_mult, H. reflexivity.
  - rewrite !map_length in L. split; [exact L|]. rewrite !last_inj, <- inject_Z_mult in E. now apply inject_Z_eq.
Qed.
Lemma zval_zero p : (forall n, poly_val p n = 0) -> znorm p = [].
Proof. intros H. apply (znorm_ext p []). intros n. rewrite H. reflexivity. Qed.
Lemma znormal_lc p : znormal p -> p <> [] -> zlc p <> 0.
Proof. intros [->|H]; [contradiction|auto]. Qed.

(** ---- division over ZZ ---- *)
Lemma zsub_length p : forall q, length (zsub p q) = Nat.max (length p) (length q).
Proof. induction p as [|a p IH]; intros [|b q]; cbn [zsub length Nat.max]; rewrite ?map_length; auto. Qed.
Lemma zterm_length c j p : length (zterm c j p) = (j + length p)%nat.
Proof. unfold zterm. rewrite app_length, repeat_length, map_length. reflexivity. Qed.
Lemma nth_zsub p : forall q i, nth i (zsub p q) 0 = nth i p 0 - nth i q 0.
Proof.
  induction p as [|a p IH]; intros q i.
  - cbn [zsub]. rewrite (map_nth Z.opp q 0 i : nth i (map Z.opp q) 0 = _) . destruct i; reflexivity.
  - destruct q as [|b q]; destruct i; cbn [zsub nth]; try lia. apply IH.
Qed.
Lemma last_zterm c j p : p <> [] -> last (zterm c j p) 0 = c * last p 0.
Proof.
  intros N. unfold zterm. rewrite last_nth, app_length, repeat_length, map_length.
  rewrite app_nth2 by (rewrite repeat_length; destruct p; [contradiction|cbn [length]; lia]).
  rewrite repeat_length. replace (j + length p - 1 - j)%nat with (length p - 1)%nat by lia.
  rewrite (last_nth p). rewrite <- (map_nth (Z.mul c)), Z.mul_0_r. reflexivity.
Qed.
Lemma rr_step_len r g c : (length g <= length r)%nat -> g <> [] -> zlc r = c * zlc g ->
  (length (znorm (zsub r (zterm c (length r - length g) g))) < length r)%nat.
Proof.
  intros L G E.
  assert (LL : length (zsub r (zterm c (length r - length g) g)) = length r) by (rewrite zsub_length, zterm_length; lia).
  assert (R : (0 < length r)%nat) by (destruct g; [contradiction|cbn [length] in L; lia]).
  apply Nat.lt_le_trans with (length (zsub r (zterm c (length r - length g) g))); [|lia]. apply znorm_length_lt.
  - intros Z0. rewrite Z0 in LL. cbn in LL. lia.
  - rewrite last_nth, LL, nth_zsub. unfold zlc in E. rewrite (last_nth r) in E. rewrite E.
    pose proof (last_zterm c (length r - length g) g G) as T. rewrite last_nth, zterm_length in T.
    replace (length r - length g + length g - 1)%nat with (length r - 1)%nat in T by lia. rewrite T. lia.
Qed.

Lemma rr_loop_val : forall fuel g q r Q R, rr_loop fuel g q r = (Q, R) -> forall n,
  poly_val Q n * poly_val g n + poly_val R n = poly_val q n * poly_val g n + poly_val r n.
Proof.
  induction fuel as [|f IH]; intros g q r Q R H n; cbn [rr_loop] in H; [now injection H as <- <-|].
  destruct (zlc r mod zlc g =? 0); cbn [negb] in H; [|now injection H as <- <-].
  set (c := zlc r / zlc g) in *. set (j := (length r - length g)%nat) in *.
  assert (E : poly_val (znorm (zsub q (zterm (- c) j [1]))) n * poly_val g n + poly_val (znorm (zsub r (zterm c j g))) n =
              poly_val q n * poly_val g n + poly_val r n).
  { rewrite !val_znorm, !val_zsub, !val_zterm. cbn [poly_val]. ring. }
  destruct (Nat.ltb _ _); [injection H as <- <-; exact E|]. rewrite (IH _ _ _ _ _ H n). exact E.
Qed.
Lemma rr_loop_normal : forall fuel g q r Q R, rr_loop fuel g q r = (Q, R) -> znormal q -> znormal r -> znormal Q /\ znormal R.
Proof.
  induction fuel as [|f IH]; intros g q r Q R H NQ NR; cbn [rr_loop] in H; [now injection H as <- <-|].
  destruct (negb _); [now injection H as <- <-|]. destruct (Nat.ltb _ _).
  - injection H as <- <-. split; apply znorm_normal.
  - apply (IH _ _ _ _ _ H); apply znorm_normal.
Qed.
(** The fuel never runs out: the remainder gets shorter in every round. *)
Lemma rr_loop_stops : forall fuel g q r Q R, rr_loop fuel g q r = (Q, R) -> g <> [] -> zlc g <> 0 ->
  (length r <= fuel)%nat -> (length g <= length r)%nat -> 
  (length R < length g)%nat \/ zlc R mod zlc g <> 0.
Proof.
  induction fuel as [|f IH]; intros g q r Q R H G LG LF L; cbn [rr_loop] in H.
  { destruct g; [contradiction|cbn [length] in *; lia]. }
  destruct (Z.eqb_spec (zlc r mod zlc g) 0) as [M|M]; cbn [negb] in H; [|injection H as <- <-; now right].
  set (c := zlc r / zlc g) in *.
  assert (E : zlc r = c * zlc g). { unfold c. rewrite (Z.div_mod (zlc r) (zlc g)) at 1 by auto. rewrite M. ring. }
  pose proof (rr_step_len r g c L G E) as ST.
  destruct (Nat.ltb_spec (length (znorm (zsub r (zterm c (length r - length g) g)))) (length g)) as [LT|GE].
  - injection H as <- <-. now left.
  - apply (IH _ _ _ _ _ H); auto. lia.
Qed.
Lemma rr_div_spec f g Q R : znormal f -> znormal g -> rr_div f g = Ok (Q, R) ->
  g <> [] /\ znormal Q /\ znormal R /\ (forall n, poly_val f n = poly_val Q n * poly_val g n + poly_val R n) /\
  ((length R < length g)%nat \/ zlc R mod zlc g <> 0).
Proof.
  intros NF NG H. unfold rr_div in H. destruct g as [|a g]; [discriminate|]. split; [discriminate|].
  destruct (Nat.ltb_spec (length f) (length (a :: g))) as [LT|GE].
  - injection H as <- <-. repeat split; auto; try now left. 
  - injection H as H. destruct (rr_loop_normal _ _ _ _ _ _ H) as [N1 N2]; auto; [now left|]. repeat split; auto.
    + intros n. rewrite (rr_loop_val _ _ _ _ _ _ H n). cbn [poly_val]. ring.
    + apply (rr_loop_stops _ _ _ _ _ _ H); auto; [discriminate|apply znormal_lc; [auto|discriminate]].
Qed.
(** Division by a divisor is exact. *)
Lemma rr_div_exact f g k : znormal f -> znormal g -> g <> [] -> (forall n, poly_val f n = poly_val g n * poly_val k n) ->
  rr_div f g = Ok (znorm k, []).
Proof.
  intros NF NG G H. destruct (rr_div f g) as [[Q R]|e] eqn:D.
  2:{ unfold rr_div in D. destruct g; [contradiction|]. destruct (Nat.ltb _ _); discriminate. }
  destruct (rr_div_spec _ _ _ _ NF NG D) as (_ & NQ & NR & V & S).
  set (m := znorm (zsub k Q)).
  assert (HR : forall n, poly_val g n * poly_val m n = poly_val R n).
  { intros n. unfold m. rewrite val_znorm, val_zsub. specialize (H n). specialize (V n). rewrite H in V. lia. }
  assert (NM : znormal m) by apply znorm_normal.
  destruct m as [|b m0] eqn:M.
  - assert (R = []).
    { rewrite <- (znorm_id R) by auto. apply zval_zero. intros n. rewrite <- HR. cbn. ring. } subst R.
    f_equal. f_equal. apply znormal_eq; [auto|apply znorm_normal|]. intros n. rewrite val_znorm.
    assert (MV : poly_val (znorm (zsub k Q)) n = 0) by (fold m; rewrite M; reflexivity).
    rewrite val_znorm, val_zsub in MV. lia.
  - destruct (zmul_degree g (b :: m0) R) as [L LC]; auto; try discriminate. exfalso. destruct S as [S|S].
    + cbn [length] in L. lia.
    + apply S. rewrite LC, Z.mul_comm. apply Z_mod_mult.
Qed.
Lemma rr_div_ok f g : g <> [] -> exists qr, rr_div f g = Ok qr.
Proof. intros N. unfold rr_div. destruct g; [contradiction|]. destruct (Nat.ltb _ _); eauto. Qed.

(** ---- division over QQ ---- *)
Lemma qadd_length p : forall q, length (qadd p q) = Nat.max (length p) (length q).
Proof. induction p as [|a p IH]; intros [|b q]; cbn [qadd length Nat.max]; auto. Qed.
Lemma qterm_length c j p : length (qterm c j p) = (j + length p)%nat.
Proof. unfold qterm. rewrite app_length, repeat_length, map_length. reflexivity. Qed.
Lemma last_qterm c j p : p <> [] -> (last (qterm c j p) 0 == c * last p 0)%Q.
Proof.
  intros N. unfold qterm. rewrite last_nth, app_length, repeat_length, map_length.
  rewrite app_nth2 by (rewrite repeat_length; destruct p; [contradiction|cbn [length]; lia]).
  rewrite repeat_length. replace (j + length p - 1 - j)%nat with (length p - 1)%nat by lia.
  rewrite (last_nth p). apply nth_scale.
Qed.
Lemma ff_step_len r g : (length g <= length r)%nat -> g <> [] -> ~ (qlc g == 0)%Q ->
  (length (qnorm (qadd r (qterm (- Qred (qlc r / qlc g)) (length r - length g) g))) < length r)%nat.
Proof.
  intros L G NZ. set (c := (- Qred (qlc r / qlc g))%Q).
  assert (LL : length (qadd r (qterm c (length r - length g) g)) = length r) by (rewrite qadd_length, qterm_length; lia).
  assert (R : (0 < length r)%nat) by (destruct g; [contradiction|cbn [length] in L; lia]).
  apply Nat.lt_le_trans with (length (qadd r (qterm c (length r - length g) g))); [|lia]. apply qnorm_length_lt.
  - intros Z0. rewrite Z0 in LL. cbn in LL. lia.
  - rewrite last_nth, LL, nth_qadd.
    pose proof (last_qterm c (length r - length g) g G) as T. rewrite last_nth, qterm_length in T.
    replace (length r - length g + length g - 1)%nat with (length r - 1)%nat in T by lia. rewrite T.
    unfold c. rewrite Qred_correct. unfold qlc in *. rewrite (last_nth r). field. exact NZ.
Qed.
Lemma ff_loop_spec : forall fuel g q r Q R, ff_loop fuel g q r = (Q, R) -> g <> [] -> ~ (qlc g == 0)%Q ->
  (length r <= fuel)%nat -> (length g <= length r)%nat ->
  (length R < length g)%nat /\ qnormal Q /\ qnormal R /\
  forall x, (poly_valQ Q x * poly_valQ g x + poly_valQ R x == poly_valQ q x * poly_valQ g x + poly_valQ r x)%Q.
Proof.
  induction fuel as [|f IH]; intros g q r Q R H G LG LF L; cbn [ff_loop] in H.
  { destruct g; [contradiction|cbn [length] in *; lia]. }
  pose proof (ff_step_len r g L G LG) as ST.
  set (c := Qred (qlc r / qlc g)) in *. set (j := (length r - length g)%nat) in *.
  set (q' := qnorm (qadd q (qterm c j [1%Q]))) in *. set (r' := qnorm (qadd r (qterm (- c) j g))) in *.
  assert (E : forall x, (poly_valQ q' x * poly_valQ g x + poly_valQ r' x == poly_valQ q x * poly_valQ g x + poly_valQ r x)%Q).
  { intros x. unfold q', r'. rewrite !valQ_qnorm, !valQ_qadd, !valQ_qterm. cbn [poly_valQ]. ring. }
  destruct (Nat.ltb_spec (length r') (length g)) as [LT|GE].
  - injection H as <- <-. repeat split; auto; apply qnorm_normal.
  - destruct (IH _ _ _ _ _ H) as (A & B & C & D); auto; [lia|]. repeat split; auto. intros x. rewrite D. apply E.
Qed.
Lemma ff_div_spec f g Q R : znormal f -> znormal g -> ff_div f g = Ok (Q, R) ->
  g <> [] /\ (length R < length g)%nat /\ qnormal Q /\ qnormal R /\
  forall x, (poly_valQ (inj f) x == poly_valQ Q x * poly_valQ (inj g) x + poly_valQ R x)%Q.
Proof.
  intros NF NG H. unfold ff_div in H. destruct g as [|a g]; [discriminate|]. split; [discriminate|].
  destruct (Nat.ltb_spec (length (inj f)) (length (inj (a :: g)))) as [LT|GE].
  - injection H as <- <-. repeat split; auto.
    + rewrite map_length in LT. rewrite map_length in *. exact LT.
    + now left.
    + now apply znormal_inj.
    + intros x. cbn [poly_valQ]. ring.
  - injection H as H. apply ff_loop_spec in H; auto; [|discriminate|].
    + change (inject_Z a :: inj g) with (inj (a :: g)) in H. rewrite map_length in H. destruct H as (A & B & C & D). repeat split; auto.
      intros x. rewrite D. cbn [poly_valQ]. ring.
    + pose proof (znormal_inj _ NG) as [E|E]; [discriminate|]. exact E.
Qed.
(** Uniqueness of the quotient over QQ. *)
Lemma ff_unique g Q1 R1 Q2 R2 : znormal g -> g <> [] -> (length R1 < length g)%nat -> (length R2 < length g)%nat ->
  (forall x, poly_valQ Q1 x * poly_valQ (inj g) x + poly_valQ R1 x == poly_valQ Q2 x * poly_valQ (inj g) x + poly_valQ R2 x)%Q ->
  forall x, (poly_valQ Q1 x == poly_valQ Q2 x)%Q.
Proof.
  intros NG G L1 L2 H x.
  set (D := qnorm (qadd Q1 (qterm (-1) 0 Q2))). set (S := qnorm (qadd R2 (qterm (-1) 0 R1))).
  assert (HD : forall y, (poly_valQ D y == poly_valQ Q1 y - poly_valQ Q2 y)%Q).
  { intros y. unfold D. rewrite valQ_qnorm, valQ_qadd, valQ_qterm. cbn [xpow]. ring. }
  assert (HS : forall y, (poly_valQ S y == poly_valQ R2 y - poly_valQ R1 y)%Q).
  { intros y. unfold S. rewrite valQ_qnorm, valQ_qadd, valQ_qterm. cbn [xpow]. ring. }
  assert (LS : (length S < length g)%nat).
  { unfold S. pose proof (qnorm_length (qadd R2 (qterm (-1) 0 R1))). rewrite qadd_length, qterm_length in H0. lia. }
  destruct D as [|b d] eqn:ED.
  - specialize (HD x). cbn in HD. lra.
  - exfalso. destruct (mul_degree (b :: d) (inj g) S) as [L _]; try discriminate.
    + rewrite <- ED. apply qnorm_normal.
    + now apply znormal_inj.
    + apply qnorm_normal.
    + destruct g; [contradiction|discriminate].
    + intros n. rewrite HD, HS. specialize (H (inject_Z n)). lra.
    + rewrite map_length in L. cbn [length] in L. lia.
Qed.

(** The rounding errors of the loop of dec_cos and dec_sin. *)
From Coq Require Import ZArith QArith Qabs Qpower Bool Lia Lqa Setoid.
From Verif Require Import PyBase Rnd Rnd_Proofs Trig_Model Spec_Trig Trig_Proofs.
Open Scope Z_scope.

Section Err.
  Variables (B p : Z) (rd : Q -> Q).
  Hypothesis HB : 2 <= B.
  Hypothesis HP : 2 <= p.
  Hypothesis N : nearest B p rd.
  Variables (x : Q) (d : nat).
  Notation u := (unit_err B p).
  Notation T := (summand rd x d).
  Notation t := (series_term d x).
  (** the growth of relative errors *)
  Fixpoint grow (n : nat) : Q := match n with O => 1%Q | S k => ((1 + u) * grow k)%Q end.
  Lemma grow_ge1 n : (1 <= grow n)%Q.
  Proof. pose proof (unit_pos B p HB). induction n as [|n IH]; cbn [grow]; [lra|nra]. Qed.
  Lemma grow_add m n : (grow (m + n) == grow m * grow n)%Q.
  Proof. induction m as [|m IH]; cbn [grow Nat.add]; [ring|rewrite IH; ring]. Qed.
  Lemma grow_mono m n : (m <= n)%nat -> (grow m <= grow n)%Q.
  Proof. intros H. replace n with (m + (n - m))%nat by lia. rewrite grow_add. pose proof (grow_ge1 m). pose proof (grow_ge1 (n - m)). nra. Qed.
  (** a' is a with a relative error of at most g - 1 *)
  Definition off (a' a g : Q) : Prop := (Qabs (a' - a) <= Qabs a * (g - 1))%Q.
  Lemma off_abs a' a g : off a' a g -> (Qabs a' <= Qabs a * g)%Q.
  Proof. intros H. unfold off in H. pose proof (absQ_triangle (a' - a) a) as A. setoid_replace (a' - a + a)%Q with a' in A by ring. lra. Qed.
  Lemma off_rd a' a g : off a' a g -> off (rd a') a ((1 + u) * g).
  Proof.
    intros H. pose proof (off_abs _ _ _ H) as A. unfold off in *. pose proof (rd_err B p rd HB ltac:(lia) N a') as E. pose proof (absQ_triangle (rd a' - a') (a' - a)) as TR. setoid_replace (rd a' - a' + (a' - a))%Q with (rd a' - a)%Q in TR by ring.
    pose proof (unit_pos B p HB). pose proof (Qabs_nonneg a'). nra.
  Qed.
  Lemma off_mul a' a g c' c h : (1 <= g)%Q -> (1 <= h)%Q -> off a' a g -> off c' c h -> off (a' * c') (a * c) (g * h).
  Proof.
    intros G H A C. pose proof (off_abs _ _ _ A) as AA. unfold off in *. setoid_replace (a' * c' - a * c)%Q with (a' * (c' - c) + (a' - a) * c)%Q by ring.
    eapply Qle_trans; [apply absQ_triangle|]. rewrite !Qabs_Qmult. pose proof (Qabs_nonneg a'). pose proof (Qabs_nonneg a). pose proof (Qabs_nonneg c). pose proof (Qabs_nonneg (c' - c)).
    assert (E1 : (Qabs a' * Qabs (c' - c) <= (Qabs a * g) * (Qabs c * (h - 1)))%Q) by (apply Qmult_le_compat_nonneg; split; assumption).
    assert (E2 : (Qabs (a' - a) * Qabs c <= (Qabs a * (g - 1)) * Qabs c)%Q) by (apply Qmult_le_compat_r; assumption). 
    setoid_replace (Qabs a * Qabs c * (g * h - 1))%Q with ((Qabs a * g) * (Qabs c * (h - 1)) + (Qabs a * (g - 1)) * Qabs c)%Q by ring. lra.
  Qed.
  Lemma off_refl a : off a a 1.
  Proof. unfold off. setoid_replace (a - a)%Q with 0%Q by ring. cbn. pose proof (Qabs_nonneg a). lra. Qed.
  Lemma off_wd a' a g b' b h : (a' == b')%Q -> (a == b)%Q -> (g <= h)%Q -> off a' a g -> off b' b h.
  Proof. intros E F G H. unfold off in *. rewrite <- E, <- F. pose proof (Qabs_nonneg a). nra. Qed.

  Lemma nums_off k : off (nums rd x d k) (Qpower x (Z.of_nat (2 * k + d))) (grow (2 * k)).
  Proof.
    induction k as [|k IH]; [apply off_refl|]. cbn [nums]. unfold rmul.
    assert (XX : off (rd (x * x)%Q) (x * x) (grow 1)) by (eapply off_wd; [reflexivity|reflexivity| |apply off_rd, off_refl]; cbn [grow]; lra).
    pose proof (off_rd _ _ _ (off_mul _ _ _ _ _ _ (grow_ge1 _) (grow_ge1 _) IH XX)) as R. eapply off_wd; [reflexivity| | |exact R].
    - replace (Z.of_nat (2 * S k + d)) with (Z.of_nat (2 * k + d) + 2) by lia. symmetry. destruct (Qeq_bool x 0) eqn:Z0; [|apply Qeq_bool_neq in Z0; rewrite Qpower_plus by exact Z0; reflexivity].
      apply Qeq_bool_iff in Z0. rewrite Z0. rewrite Qpower_0 by lia. ring.
    - replace (2 * S k)%nat with (1 + (2 * k + 1))%nat by lia. rewrite grow_add, grow_add. cbn [grow]. lra.
  Qed.
  Lemma series_term_sign k : (t k == inject_Z (signs k) * (Qpower x (Z.of_nat (2 * k + d)) / inject_Z (factorial (2 * k + d))))%Q.
  Proof.
    unfold series_term. assert (E : (Qpower (-1) (Z.of_nat k) == inject_Z (signs k))%Q).
    { induction k as [|k IH]; [reflexivity|]. rewrite Nat2Z.inj_succ, <- Z.add_1_r, Qpower_plus by discriminate. rewrite IH, signs_S, inject_Z_opp. change (Qpower (-1) 1) with (-1)%Q. ring. }
    rewrite E. unfold Qdiv. ring.
  Qed.
  Lemma summand_off k : off (T k) (t k) (grow (2 * k + 1)).
  Proof.
    set (q := rd (nums rd x d k / inject_Z (factorial (2 * k + d)))%Q).
    assert (A : off q (Qpower x (Z.of_nat (2 * k + d)) / inject_Z (factorial (2 * k + d))) (grow (2 * k + 1))).
    { pose proof (off_rd _ _ _ (off_mul _ _ _ (/ inject_Z (factorial (2 * k + d))) _ 1 (grow_ge1 _) (Qle_refl _) (nums_off k) (off_refl _))) as R. eapply off_wd; [reflexivity|reflexivity| |exact R]. rewrite grow_add. cbn [grow]. lra. }
    assert (E : (T k == inject_Z (signs k) * q)%Q).
    { unfold summand, rmul, rdiv. fold q. rewrite (rd_id B p rd N); [ring|]. assert (F : floating B p q) by apply (rd_fl B p rd N). unfold signs. destruct (Nat.even k).
      - refine (fl_wd B p q _ _ F). change (inject_Z 1) with 1%Q. ring.
      - refine (fl_wd B p (- q) _ _ (fl_opp B p _ F)). change (inject_Z (-1)) with (- (1))%Q. ring. }
    eapply off_wd; [symmetry; exact E|symmetry; apply series_term_sign| |exact (off_mul _ _ 1 _ _ _ (Qle_refl _) (grow_ge1 _) (off_refl _) A)]. lra.
  Qed.
  Lemma series_abs_nonneg n : (0 <= series_abs d x n)%Q.
  Proof. induction n as [|n IH]; cbn [series_abs]; [apply Qabs_nonneg|]. pose proof (Qabs_nonneg (t (S n))). lra. Qed.
  (** the sum after k rounds *)
  Lemma sums_off s0 k : (s0 == t 0)%Q -> (Qabs (sums rd x d s0 k - series d x k) <= series_abs d x k * (grow (3 * k + 1) - 1))%Q.
  Proof.
    intros S0. induction k as [|k IH].
    - cbn [sums series series_abs]. setoid_replace (s0 - t 0)%Q with 0%Q by (rewrite S0; ring). change (Qabs 0) with 0%Q. pose proof (grow_ge1 (3 * 0 + 1)). pose proof (Qabs_nonneg (t 0)). nra.
    - cbn [sums series series_abs]. unfold radd. set (a := sums rd x d s0 k) in *. set (S1 := series d x k) in *. set (A := series_abs d x k) in *.
      pose proof (summand_off (S k)) as TO. unfold off in TO. set (tt' := T (S k)) in *. set (t0 := t (S k)) in *.
      assert (AP : (0 <= A)%Q) by apply series_abs_nonneg. pose proof (Qabs_nonneg t0) as TP.
      assert (G1 : (grow (3 * k + 1) <= grow (3 * k + 3))%Q) by (apply grow_mono; lia). assert (G2 : (grow (2 * S k + 1) <= grow (3 * k + 3))%Q) by (apply grow_mono; lia).
      replace (3 * S k + 1)%nat with (S (3 * k + 3)) by lia. cbn [grow]. pose proof (grow_ge1 (3 * k + 3)) as GG. set (g := grow (3 * k + 3)) in *.
      assert (M : (Qabs (a + tt' - (S1 + t0)) <= (A + Qabs t0) * (g - 1))%Q).
      { setoid_replace (a + tt' - (S1 + t0))%Q with ((a - S1) + (tt' - t0))%Q by ring. eapply Qle_trans; [apply absQ_triangle|]. nra. }
      assert (SA : (Qabs (S1 + t0) <= A + Qabs t0)%Q).
      { assert (S2 : (Qabs S1 <= A)%Q). { unfold S1, A. clear. induction k as [|k IH]; cbn [series series_abs]; [lra|]. eapply Qle_trans; [apply absQ_triangle|]. lra. } eapply Qle_trans; [apply absQ_triangle|]. lra. }
      assert (AA : (Qabs (a + tt') <= (A + Qabs t0) * g)%Q).
      { pose proof (absQ_triangle (a + tt' - (S1 + t0)) (S1 + t0)) as TR. setoid_replace (a + tt' - (S1 + t0) + (S1 + t0))%Q with (a + tt')%Q in TR by ring. nra. }
      pose proof (rd_err B p rd HB ltac:(lia) N (a + tt')%Q) as E. pose proof (absQ_triangle (rd (a + tt') - (a + tt')) (a + tt' - (S1 + t0))) as TR. setoid_replace (rd (a + tt') - (a + tt') + (a + tt' - (S1 + t0)))%Q with (rd (a + tt') - (S1 + t0))%Q in TR by ring.
      pose proof (unit_pos B p HB) as UP. nra.
  Qed.
  (** (1+u)^n - 1 <= 2 n u if n u is at most 1/2 *)
  Lemma grow_small n : (inject_Z (Z.of_nat n) * u <= 1 # 2)%Q -> (grow n - 1 <= 2 * (inject_Z (Z.of_nat n) * u))%Q.
  Proof.
    pose proof (unit_pos B p HB) as UP. induction n as [|n IH]; [intros _; cbn [grow]; change (inject_Z (Z.of_nat 0)) with 0%Q; lra|]. rewrite Nat2Z.inj_succ, <- Z.add_1_r, inject_Z_plus. change (inject_Z 1) with 1%Q. intros H. cbn [grow].
    assert (NP : (0 <= inject_Z (Z.of_nat n))%Q) by (change 0%Q with (inject_Z 0); rewrite <- Zle_Qle; lia). specialize (IH ltac:(nra)). nra.
  Qed.
End Err.

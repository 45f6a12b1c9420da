(** Proofs about canonical forms of rational functions. *)
From Coq Require Import ZArith QArith Qabs Qround Qfield List Bool Lia Lqa.
From Verif Require Import PyBase PyBase_Proofs ContFrac_Model Spec_Utils ULCD_Proofs Rational_Model Spec_Rational Poly_Lib.
Import ListNotations.
Local Open Scope Z_scope.
Local Open Scope list_scope.

Lemma zval_valQ p q : (forall n, poly_val p n = poly_val q n) -> forall y, (pvalq p y == pvalq q y)%Q.
Proof. intros H. apply val_unique. intros n. rewrite !poly_val_inj, H. reflexivity. Qed.
Lemma zmul_valQ p h k : (forall n, poly_val p n = poly_val h n * poly_val k n) ->
  forall y, (pvalq p y == pvalq h y * pvalq k y)%Q.
Proof.
  intros H y. unfold pvalq. rewrite <- valQ_qmul. revert y. apply val_unique. intros n.
  rewrite valQ_qmul, !poly_val_inj, H, inject_Z_mult. reflexivity.
Qed.
Lemma nonzero_znorm p : nonzero_poly p <-> znorm p <> [].
Proof.
  split.
  - intros [n H] E. apply H. rewrite <- val_znorm, E. reflexivity.
  - intros H. destruct (znorm p) as [|c r] eqn:E; [contradiction|].
    (* a normal nonempty list does not vanish everywhere *)
    destruct (list_eq_dec Z.eq_dec (znorm p) []) as [X|X]; [rewrite X in E; discriminate|].
    (* bounded search: among length-many integers there is a non-root *)
    clear H X.
    assert (D : forall m, (exists n, poly_val p n <> 0) \/ forall n, 0 <= n < Z.of_nat m -> poly_val p n = 0).
    { induction m as [|m [IH|IH]]; [right; lia|now left|]. destruct (Z.eq_dec (poly_val p (Z.of_nat m)) 0) as [Z0|NZ].
      - right. intros n Hn. destruct (Z.eq_dec n (Z.of_nat m)) as [->|]; [auto|apply IH; lia].
      - left. eauto. }
    assert (V : forall m q B, (length q <= m)%nat ->
      (forall n, B < n <= B + Z.of_nat m -> (poly_valQ q (inject_Z n) == 0)%Q) -> Forall zeroQ q).
    { clear. induction m as [|m IH]; intros q B L H.
      - destruct q; [constructor|cbn in L; lia].
      - apply (synth_zero (inject_Z (B + 1))); [apply H; lia|]. apply (IH _ (B + 1)); [rewrite synth_length; lia|].
        intros n Hn. pose proof (synth_val (inject_Z (B + 1)) q (inject_Z n)) as S.
        rewrite (H n), (H (B + 1)) in S by lia.
        assert (N : ~ (inject_Z n - inject_Z (B + 1) == 0)%Q).
        { intros E. assert (inject_Z n == inject_Z (B + 1))%Q by lra. apply inject_Z_eq in H0. lia. }
        rewrite Qplus_0_l in S. symmetry in S. apply Qmult_integral in S. tauto. }
    destruct (D (length p)) as [Y|Y]; [exact Y|]. exfalso.
    assert (F : Forall zeroQ (inj p)).
    { apply (V (length p) _ (-1)); [now rewrite map_length|]. intros n Hn. rewrite poly_val_inj, Y by lia. reflexivity. }
    assert (Z0 : znorm p = []).
    { apply zval_zero. intros n. apply inject_Z_eq. rewrite <- poly_val_inj.
      rewrite (coef_val (inj p) []); [reflexivity|]. intros i. rewrite (Forall_nth_zero _ F). destruct i; reflexivity. }
    rewrite Z0 in E. discriminate.
Qed.
Lemma zero_or_not p : nonzero_poly p \/ forall n, poly_val p n = 0.
Proof.
  destruct (list_eq_dec Z.eq_dec (znorm p) []) as [E|E].
  - right. intros n. rewrite <- val_znorm, E. reflexivity.
  - left. now apply nonzero_znorm.
Qed.
Lemma pvalq_znorm p y : (pvalq (znorm p) y == pvalq p y)%Q.
Proof. apply zval_valQ. intros. apply val_znorm. Qed.
Lemma val_sympoly2poly s n : poly_val (sympoly2poly s) n = poly_val s n.
Proof. destruct s; [cbn; ring|reflexivity]. Qed.

Lemma q_int_of q z : (q == inject_Z z)%Q -> q_int q = z.
Proof.
  unfold Qeq, q_int. cbn. intros H. rewrite Z.mul_1_r in H. rewrite H. apply Z.quot_mul. lia.
Qed.
Lemma poly2sympoly_ok p : p <> [] -> poly2sympoly p = Ok (znorm p).
Proof. destruct p; [contradiction|reflexivity]. Qed.

Lemma poly_valQ_0 p : (poly_valQ p 0 == hd 0%Q p)%Q.
Proof. destruct p; cbn; [reflexivity|ring]. Qed.

Section Canon.
  Variable pgcd : list Z -> list Z -> list Z.

  (** the full computation of canonalize_params *)
  Lemma canon_polys_ok P D k1 k2 :
    znormal P -> znormal D -> D <> [] ->
    (forall n, poly_val P n = poly_val (pgcd P D) n * poly_val k1 n) ->
    (forall n, poly_val D n = poly_val (pgcd P D) n * poly_val k2 n) ->
    exists K R c, canon_polys pgcd P D = Ok (sympoly2poly (znorm (zsub k1 (zterm c 0 k2))), znorm k2, c) /\
      znorm k2 <> [] /\ (length R < length (znorm k2))%nat /\
      (forall x, pvalq k1 x == poly_valQ K x * pvalq k2 x + poly_valQ R x)%Q /\ c = Qceiling (poly_valQ K 0).
  Proof.
    intros NP ND DN H1 H2. unfold canon_polys. set (h := znorm (pgcd P D)).
    assert (NH : znormal h) by apply znorm_normal.
    assert (HV : forall n, poly_val h n = poly_val (pgcd P D) n) by (intros; apply val_znorm).
    assert (HN : h <> []).
    { intros E. apply DN. rewrite <- (znorm_id D ND). apply zval_zero. intros n. rewrite H2, <- HV, E. cbn. ring. }
    assert (K2 : znorm k2 <> []).
    { intros E. apply DN. rewrite <- (znorm_id D ND). apply zval_zero. intros n. rewrite H2, <- (val_znorm k2), E. cbn. ring. }
    rewrite (rr_div_exact P h k1) by (auto; intros; rewrite HV; auto). cbn [bind fst].
    rewrite (rr_div_exact D h k2) by (auto; intros; rewrite HV; auto). cbn [bind fst].
    destruct (ff_div (znorm k1) (znorm k2)) as [[K R]|e] eqn:F.
    2:{ unfold ff_div in F. destruct (znorm k2); [contradiction|]. destruct (Nat.ltb _ _); discriminate. }
    destruct (ff_div_spec _ _ _ _ (znorm_normal _) (znorm_normal _) F) as (_ & LR & NK & NR & V).
    cbn [bind fst snd]. set (c := Qceiling (free_coeff K)). exists K, R, c.
    assert (C : c = Qceiling (poly_valQ K 0)).
    { unfold c, free_coeff. apply Qceiling_comp. symmetry. apply poly_valQ_0. }
    set (res := qnorm (qadd (qmul (qsub_const K c) (inj (znorm k2))) R)).
    set (T := zsub k1 (zterm c 0 k2)).
    assert (RV : forall x, (poly_valQ res x == pvalq T x)%Q).
    { intros x. unfold res, qsub_const. rewrite valQ_qnorm, valQ_qadd, valQ_qmul, valQ_qnorm, valQ_qadd. cbn [poly_valQ].
      specialize (V x). fold (pvalq (znorm k1) x) in V. fold (pvalq (znorm k2) x) in V. fold (pvalq (znorm k2) x).
      rewrite !pvalq_znorm in *.
      assert (TV : (pvalq T x == pvalq k1 x - inject_Z c * pvalq k2 x)%Q).
      { unfold pvalq.
        transitivity (poly_valQ (qadd (inj k1) (qterm (inject_Z (- c)) 0 (inj k2))) x).
        - revert x V. intros x _. revert x. apply val_unique. intros n. rewrite valQ_qadd, valQ_qterm, !poly_val_inj.
          unfold T. rewrite val_zsub, val_zterm. cbn [zpow xpow]. unfold Z.sub. rewrite inject_Z_plus, inject_Z_opp, !inject_Z_mult.
          rewrite inject_Z_opp. change (inject_Z 1) with 1%Q. ring.
        - rewrite valQ_qadd, valQ_qterm, inject_Z_opp. cbn [xpow]. ring. }
      rewrite TV, V, inject_Z_opp. ring. }
    assert (CO : forall i, (nth i res 0 == nth i (inj T) 0)%Q).
    { apply coef_unique. intros n. apply RV. }
    assert (E : map q_int res = znorm T).
    { assert (QI : forall i, nth i (map q_int res) 0 = nth i T 0).
      { intros i. change 0 with (q_int 0%Q) at 1. rewrite map_nth. apply q_int_of. rewrite CO, nth_inj. reflexivity. }
      assert (VV : forall n, poly_val (map q_int res) n = poly_val T n).
      { intros n. apply inject_Z_eq. rewrite <- !poly_val_inj. apply coef_val. intros i. rewrite !nth_inj, QI. reflexivity. }
      apply znormal_eq; [|apply znorm_normal|intros; rewrite val_znorm; auto].
      destruct (qnorm_normal (qadd (qmul (qsub_const K c) (inj (znorm k2))) R)) as [E|E]; fold res in E.
      - left. rewrite E. reflexivity.
      - right. rewrite last_nth, map_length. rewrite last_nth in E. rewrite QI. rewrite CO, nth_inj in E.
        intros Z0. rewrite Z0 in E. now apply E. }
    assert (SP : sympoly2poly_q res = sympoly2poly (znorm T)).
    { unfold sympoly2poly_q. destruct res as [|r0 res'].
      - cbn [map] in E. rewrite <- E. reflexivity.
      - rewrite E. unfold sympoly2poly. destruct (znorm T); [discriminate|reflexivity]. }
    repeat split.
    - rewrite SP. unfold sympoly2poly at 2. destruct (znorm k2); [contradiction|reflexivity].
    - exact K2.
    - exact LR.
    - intros x. specialize (V x). fold (pvalq (znorm k1) x) in V. fold (pvalq (znorm k2) x) in V. now rewrite !pvalq_znorm in V.
    - exact C.
  Qed.

  Lemma canon_polys_zero P : pgcd P [] <> [] -> znorm (pgcd P []) <> [] -> canon_polys pgcd P [] = Raise ZeroDivisionError.
  Proof.
    intros _ N. unfold canon_polys. destruct (rr_div_ok P _ N) as [qr ->]. cbn [bind].
    destruct (rr_div [] (znorm (pgcd P []))) as [[q r]|e] eqn:E.
    - unfold rr_div in E. destruct (znorm (pgcd P [])); [contradiction|]. cbn in E. injection E as <- <-. reflexivity.
    - unfold rr_div in E. destruct (znorm (pgcd P [])); [contradiction|]. cbn in E. discriminate.
  Qed.
  Lemma canon_polys_den0 P : canon_polys pgcd P [] = Raise ZeroDivisionError.
  Proof.
    destruct (list_eq_dec Z.eq_dec (znorm (pgcd P [])) []) as [E|E].
    - unfold canon_polys. rewrite E. reflexivity.
    - apply canon_polys_zero; [|exact E]. intros X. rewrite X in E. now apply E.
  Qed.
End Canon.

(** canonalize_params: function preserved, coprime result, canonical quotient, idempotence; is_degenerate; is_equiv. *)
From Coq Require Import ZArith QArith Qabs Qround Qfield List Bool Lia Lqa.
From Verif Require Import PyBase PyBase_Proofs ContFrac_Model Spec_Utils ULCD_Model ULCD_Proofs ULCD_Equiv Rational_Model
  Spec_Rational Poly_Lib Rational_Proofs Rational_Obj.
Import ListNotations.
Local Open Scope Z_scope.
Local Open Scope list_scope.

Lemma zmul_zero h m : nonzero_poly h -> (forall n, poly_val h n * poly_val m n = 0) -> forall n, poly_val m n = 0.
Proof.
  intros H Z0. destruct (zero_or_not m) as [M|M]; [|exact M]. exfalso.
  apply nonzero_znorm in H. apply nonzero_znorm in M.
  destruct (zmul_degree (znorm h) (znorm m) []) as [L _]; auto; try apply znorm_normal; [now left| |].
  - intros n. rewrite !val_znorm, Z0. reflexivity.
  - destruct (znorm h), (znorm m); try contradiction. cbn [length] in L. lia.
Qed.
Lemma nonzero_mul_l p h k : nonzero_poly p -> (forall n, poly_val p n = poly_val h n * poly_val k n) -> nonzero_poly h.
Proof. intros [n N] H. exists n. intros Z0. apply N. rewrite H, Z0. reflexivity. Qed.
Lemma nonzero_mul_r p h k : nonzero_poly p -> (forall n, poly_val p n = poly_val h n * poly_val k n) -> nonzero_poly k.
Proof. intros [n N] H. exists n. intros Z0. apply N. rewrite H, Z0. ring. Qed.
Lemma val_const p c : (forall n, poly_val p n = c) -> c <> 0 -> znorm p = [c].
Proof.
  intros H N. rewrite (znorm_ext p [c]) by (intros; rewrite H; cbn; ring). apply znorm_id. right. exact N.
Qed.
Lemma val_const_len p c : (forall n, poly_val p n = c) -> length (sympoly2poly (znorm p)) = 1%nat.
Proof.
  intros H. destruct (Z.eq_dec c 0) as [->|N]; [rewrite zval_zero by auto; reflexivity|now rewrite (val_const p c)].
Qed.
Lemma true_length_znorm p : true_length (znorm p) (length (znorm p)).
Proof.
  split; [lia|]. split; [intros; now apply nth_overflow|].
  destruct (znorm_normal p) as [E|E]; [left; now rewrite E|right]. now rewrite last_nth in E.
Qed.
Lemma pvalq_sub k1 c k2 y : (pvalq (zsub k1 (zterm c 0 k2)) y == pvalq k1 y - inject_Z c * pvalq k2 y)%Q.
Proof.
  unfold pvalq. transitivity (poly_valQ (qadd (inj k1) (qterm (inject_Z (- c)) 0 (inj k2))) y).
  - revert y. apply val_unique. intros n. rewrite valQ_qadd, valQ_qterm, !poly_val_inj, val_zsub, val_zterm.
    cbn [zpow xpow]. unfold Z.sub. rewrite inject_Z_plus, inject_Z_opp, !inject_Z_mult, inject_Z_opp.
    change (inject_Z 1) with 1%Q. ring.
  - rewrite valQ_qadd, valQ_qterm, inject_Z_opp. cbn [xpow]. ring.
Qed.
Lemma pvalq_sympoly s y : (pvalq (sympoly2poly s) y == pvalq s y)%Q.
Proof. apply zval_valQ. intros. apply val_sympoly2poly. Qed.
Lemma sympoly_norm s : znormal s -> znorm (sympoly2poly s) = s.
Proof. intros N. destruct s; [reflexivity|now apply znorm_id]. Qed.
Lemma Qceiling_0 z : (-1 < z)%Q -> (z <= 0)%Q -> Qceiling z = 0.
Proof.
  intros A B. pose proof (Qle_ceiling z) as C. pose proof (Qceiling_lt z) as D.
  assert (inject_Z (-1) < inject_Z (Qceiling z))%Q by (change (inject_Z (-1)) with (-1)%Q; lra).
  assert (inject_Z (Qceiling z - 1) < inject_Z 0)%Q by (change (inject_Z 0) with 0%Q; lra).
  rewrite <- Zlt_Qlt in *. lia.
Qed.

Section Canon2.
  Variable rd : Q -> Q.
  Variable pgcd : list Z -> list Z -> list Z.
  Notation canonalize := (rf_canonalize KDecimal rd pgcd).

  Lemma canon_main o k1 k2 : rf_inv o -> rf_num o <> [] -> rf_den o <> [] -> nonzero_poly (rf_den o) ->
    let h := pgcd (znorm (rf_num o)) (znorm (rf_den o)) in
    (forall n, poly_val (rf_num o) n = poly_val h n * poly_val k1 n) ->
    (forall n, poly_val (rf_den o) n = poly_val h n * poly_val k2 n) ->
    exists o' K R c, canonalize o = (o', Ok tt) /\ rf_inv o' /\ consistent KDecimal rd o' /\ rf_const o' = rf_const o /\
      rf_num o' = sympoly2poly (znorm (zsub k1 (zterm c 0 k2))) /\ rf_den o' = znorm k2 /\ rf_int o' = rf_int o + c /\
      rf_params o' = (rf_num o', rf_den o', rf_int o') /\ znorm k2 <> [] /\ (length R < length (znorm k2))%nat /\
      (forall x, pvalq k1 x == poly_valQ K x * pvalq k2 x + poly_valQ R x)%Q /\ c = Qceiling (poly_valQ K 0).
  Proof.
    intros I N D ND h H1 H2. destruct (canonalize o) as [o' r] eqn:C.
    destruct (canonalize_ok KDecimal rd pgcd o o' r I C) as (I' & CC & M).
    rewrite !poly2sympoly_ok in M by auto.
    destruct (canon_polys_ok pgcd (znorm (rf_num o)) (znorm (rf_den o)) k1 k2) as (K & R & c & E & K2 & LR & V & CE);
      try apply znorm_normal; auto.
    { now apply nonzero_znorm. }
    { intros n. rewrite val_znorm. apply H1. }
    { intros n. rewrite val_znorm. apply H2. }
    rewrite E in M. destruct M as (MN & MD & MI & MP & MC & MR).
    assert (RO : r = Ok tt).
    { destruct MR as [->|(e & -> & X)]; [reflexivity|]. rewrite calc_val_def in X; [discriminate| |exact K2|reflexivity].
      unfold sympoly2poly; destruct (znorm (zsub _ _)); discriminate. }
    subst r. exists o', K, R, c. split; [reflexivity|]. split; [exact I'|]. split; [auto|]. split; [exact CC|].
    rewrite MN, MD, MI. repeat split; auto.
  Qed.

  Lemma canon_zero o : rf_inv o -> rf_num o <> [] -> rf_den o <> [] -> ~ nonzero_poly (rf_den o) ->
    exists o', canonalize o = (o', Raise ZeroDivisionError) /\ same_visible o o' /\ rf_inv o'.
  Proof.
    intros I N D ND. destruct (canonalize o) as [o' r] eqn:C.
    destruct (canonalize_ok KDecimal rd pgcd o o' r I C) as (I' & CC & M). rewrite !poly2sympoly_ok in M by auto.
    assert (E : znorm (rf_den o) = []).
    { destruct (zero_or_not (rf_den o)) as [X|X]; [contradiction|now apply zval_zero]. }
    rewrite E, canon_polys_den0 in M. destruct M as [-> V]. exists o'. auto.
  Qed.

  Lemma canon_function o o' : rf_inv o -> rf_num o <> [] -> rf_den o <> [] ->
    (let h := pgcd (znorm (rf_num o)) (znorm (rf_den o)) in zdivides h (rf_num o) /\ zdivides h (rf_den o)) ->
    canonalize o = (o', Ok tt) ->
    nonzero_poly (rf_den o) /\ consistent KDecimal rd o' /\ rf_inv o' /\ rf_const o' = rf_const o /\
    rf_params o' = (rf_num o', rf_den o', rf_int o') /\ nonzero_poly (rf_den o') /\ rf_num o' <> [] /\ rf_den o' <> [] /\
    forall y, ~ (pvalq (rf_den o) y == 0)%Q -> ~ (pvalq (rf_den o') y == 0)%Q /\
      (ratf (rf_num o') (rf_den o') (rf_int o') y == ratf (rf_num o) (rf_den o) (rf_int o) y)%Q.
  Proof.
    intros I N D [(k1 & H1) (k2 & H2)] C.
    destruct (zero_or_not (rf_den o)) as [ND|Z0].
    2:{ destruct (canon_zero o I N D) as (o2 & E & _); [intros [n X]; now rewrite Z0 in X|]. rewrite C in E. discriminate. }
    destruct (canon_main o k1 k2 I N D ND H1 H2) as (o2 & K & R & c & E & I2 & C2 & X2 & N2 & D2 & A2 & P2 & K2 & _).
    rewrite C in E. injection E as <-. split; [exact ND|]. split; [exact C2|]. split; [exact I2|]. split; [exact X2|].
    split; [exact P2|]. rewrite N2, D2, A2. split; [apply nonzero_znorm; now rewrite znorm_id by apply znorm_normal|].
    split; [destruct (znorm (zsub _ _)); discriminate|]. split; [exact K2|].
    intros y Y. pose proof (zmul_valQ _ _ _ H1 y) as Q1. pose proof (zmul_valQ _ _ _ H2 y) as Q2.
    set (h := pgcd _ _) in *. rewrite Q2 in Y.
    assert (HK : ~ (pvalq k2 y == 0)%Q) by (intros Z0; apply Y; rewrite Z0; ring).
    assert (HH : ~ (pvalq h y == 0)%Q) by (intros Z0; apply Y; rewrite Z0; ring).
    split; [now rewrite pvalq_znorm|]. unfold ratf.
    rewrite pvalq_sympoly, !pvalq_znorm, pvalq_sub, Q1, Q2, inject_Z_plus. field. auto.
  Qed.

  Lemma canon_coprime o o' : rf_inv o -> rf_num o <> [] -> rf_den o <> [] ->
    is_zgcd (rf_num o) (rf_den o) (pgcd (znorm (rf_num o)) (znorm (rf_den o))) ->
    canonalize o = (o', Ok tt) ->
    zcoprime (rf_num o') (rf_den o') /\
    exists K R l, (forall y, pvalq (rf_num o') y == poly_valQ K y * pvalq (rf_den o') y + poly_valQ R y)%Q /\
      true_length (rf_den o') l /\ (length R < l)%nat /\ (-1 < poly_valQ K 0 <= 0)%Q.
  Proof.
    intros I N D (k1 & k2 & H1 & H2 & CP) C.
    destruct (zero_or_not (rf_den o)) as [ND|Z0].
    2:{ destruct (canon_zero o I N D) as (o2 & E & _); [intros [n X]; now rewrite Z0 in X|]. rewrite C in E. discriminate. }
    destruct (CP (or_intror ND)) as [COP _].
    destruct (canon_main o k1 k2 I N D ND H1 H2) as (o2 & K & R & c & E & I2 & C2 & X2 & N2 & D2 & A2 & P2 & K2 & LR & V & CE).
    rewrite C in E. injection E as <-. rewrite N2, D2. split.
    - intros h [m1 M1] [m2 M2].
      assert (T2 : forall n, poly_val k2 n = poly_val h n * poly_val m2 n) by (intros n; rewrite <- M2, val_znorm; auto).
      apply COP; [|exists m2; exact T2].
      exists (zsub m1 (zterm (- c) 0 m2)). intros n. rewrite val_zsub, val_zterm. cbn [zpow].
      specialize (M1 n). rewrite val_sympoly2poly, val_znorm, val_zsub, val_zterm in M1. cbn [zpow] in M1.
      rewrite T2 in M1. specialize (T2 n).
      replace (poly_val h n * (poly_val m1 n - - c * 1 * poly_val m2 n))
        with (poly_val h n * poly_val m1 n + c * (poly_val h n * poly_val m2 n)) by ring.
      rewrite <- M1. ring.
    - exists (qadd K [inject_Z (- c)]), R, (length (znorm k2)). split; [|split; [apply true_length_znorm|split; [exact LR|]]].
      + intros y. rewrite pvalq_sympoly, !pvalq_znorm, pvalq_sub, V, valQ_qadd, inject_Z_opp. cbn [poly_valQ]. ring.
      + rewrite valQ_qadd, inject_Z_opp. cbn [poly_valQ]. rewrite CE.
        pose proof (Qle_ceiling (poly_valQ K 0)). pose proof (Qceiling_lt (poly_valQ K 0)).
        unfold Z.sub in *. rewrite inject_Z_plus in *. change (inject_Z (-(1))) with (-1)%Q in *. lra.
  Qed.

  Lemma canon_idem o o' : rf_inv o -> rf_num o <> [] -> rf_den o <> [] ->
    is_zgcd (rf_num o) (rf_den o) (pgcd (znorm (rf_num o)) (znorm (rf_den o))) ->
    canonalize o = (o', Ok tt) ->
    is_zgcd (rf_num o') (rf_den o') (pgcd (znorm (rf_num o')) (znorm (rf_den o'))) ->
    exists o'', canonalize o' = (o'', Ok tt) /\ same_visible o' o''.
  Proof.
    intros I N D G C G'.
    destruct (canon_coprime o o' I N D G C) as [COP (K & R & l & V & TL & LR & KR)].
    destruct G as (k1 & k2 & H1 & H2 & CP).
    destruct (canon_function o o' I N D) as (ND & C2 & I2 & X2 & P2 & ND2 & N2 & D2 & _);
      [split; [exists k1|exists k2]; auto|exact C|].
    destruct (canon_main o k1 k2 I N D ND H1 H2) as (o2 & K0 & R0 & c & E & _ & _ & _ & EN & ED & _ & _ & K2 & _).
    rewrite C in E. injection E as <-.
    destruct G' as (m1 & m2 & M1 & M2 & CP'). destruct (CP' (or_intror ND2)) as [_ [B POS]].
    set (h := pgcd (znorm (rf_num o')) (znorm (rf_den o'))) in *.
    assert (U : forall n, poly_val h n = 1).
    { destruct (COP h) as [U|U]; [exists m1; exact M1|exists m2; exact M2|exact U|].
      specialize (POS (B + 1) ltac:(lia)). rewrite U in POS. lia. }
    assert (E1 : forall n, poly_val m1 n = poly_val (rf_num o') n) by (intros n; rewrite M1, U; ring).
    assert (E2 : forall n, poly_val m2 n = poly_val (rf_den o') n) by (intros n; rewrite M2, U; ring).
    assert (S2 : znorm m2 = rf_den o').
    { rewrite (znorm_ext m2 (rf_den o')) by exact E2. rewrite ED. apply znorm_id, znorm_normal. }
    destruct (canon_main o' m1 m2 I2 N2 D2 ND2 M1 M2) as (o3 & K3 & R3 & c3 & F & _ & C3 & X3 & N3 & D3 & A3 & P3 & _ & LR3 & V3 & CE3).
    assert (L : l = length (rf_den o')).
    { rewrite ED in TL |- *. destruct TL as (T1 & T2 & T3). destruct (true_length_znorm k2) as (_ & _ & [T4|T4]).
      - lia.
      - destruct (Nat.eq_dec l (length (znorm k2))); [auto|]. exfalso. apply T4. apply T2. lia. }
    subst l.
    assert (KE : (poly_valQ K3 0 == poly_valQ K 0)%Q).
    { apply (ff_unique (rf_den o') K3 R3 K R).
      - rewrite ED. apply znorm_normal.
      - exact D2.
      - now rewrite <- S2.
      - exact LR.
      - intros x. fold (pvalq (rf_den o') x). rewrite <- V. rewrite <- (zval_valQ _ _ E2), <- V3. apply zval_valQ, E1. }
    assert (c3 = 0). { rewrite CE3, KE. now apply Qceiling_0. }
    subst c3. exists o3. split; [exact F|]. rewrite H in *.
    assert (NN : rf_num o3 = rf_num o').
    { rewrite N3, EN. f_equal. rewrite (znorm_ext _ (rf_num o')).
      - rewrite EN. apply sympoly_norm, znorm_normal.
      - intros n. rewrite val_zsub, val_zterm, E1. ring. }
    rewrite S2 in D3. rewrite Z.add_0_r in A3. unfold consistent in C2, C3. rewrite NN, D3, A3, X3, C2 in C3.
    injection C3 as VV. repeat split; auto.
    - rewrite P3, P2, NN, D3, A3. reflexivity.
    - destruct I2 as (_ & _ & ->). destruct (canonalize_ok KDecimal rd pgcd o' o3 (Ok tt)) as ((_ & _ & Q3) & _); auto.
      destruct (canon_function o o' I N D) as (_ & _ & I2 & _); [split; [exists k1|exists k2]; auto|exact C|exact I2].
  Qed.

  (** ---- degenerate ---- *)
  Lemma const_len1 p : length p = 1%nat -> forall n, poly_val p n = nth 0 p 0.
  Proof. destruct p as [|c [|]]; intros L n; try discriminate. cbn. ring. Qed.

  Lemma degenerate_iff o o' b : rf_inv o -> rf_num o <> [] -> rf_den o <> [] ->
    is_zgcd (rf_num o) (rf_den o) (pgcd (znorm (rf_num o)) (znorm (rf_den o))) ->
    rf_is_degenerate KDecimal rd pgcd o = (o', Ok b) ->
    (b = true <-> constant_ratio (rf_num o) (rf_den o)).
  Proof.
    intros I N D G H. unfold rf_is_degenerate in H. destruct (canonalize o) as [o1 [[]|e]] eqn:C; [|discriminate].
    injection H as <- <-. destruct G as (k1 & k2 & H1 & H2 & CP).
    destruct (zero_or_not (rf_den o)) as [ND|Z0].
    2:{ destruct (canon_zero o I N D) as (o2 & E & _); [intros [n X]; now rewrite Z0 in X|]. rewrite C in E. discriminate. }
    destruct (CP (or_intror ND)) as [COP _].
    destruct (canon_main o k1 k2 I N D ND H1 H2) as (o2 & K & R & c & E & I2 & C2 & X2 & N2 & D2 & A2 & P2 & K2 & LR & V & CE).
    rewrite C in E. injection E as <-. set (h := pgcd _ _) in *.
    assert (HN : nonzero_poly h) by (eapply nonzero_mul_l; [exact ND|exact H2]).
    assert (NUM : forall n, poly_val (rf_num o1) n = poly_val k1 n - c * poly_val k2 n).
    { intros n. rewrite N2, val_sympoly2poly, val_znorm, val_zsub, val_zterm. cbn [zpow]. ring. }
    assert (DEN : forall n, poly_val (rf_den o1) n = poly_val k2 n) by (intros n; rewrite D2; apply val_znorm).
    split.
    - intros B. apply orb_prop in B. destruct B as [B|B]; [apply orb_prop in B; destruct B as [B|B]|].
      + apply andb_prop in B. destruct B as [B1 B2]. apply Nat.eqb_eq in B1, B2.
        pose proof (const_len1 _ B1) as V1. pose proof (const_len1 _ B2) as V2.
        exists (nth 0 (rf_num o1) 0 + c * nth 0 (rf_den o1) 0), (nth 0 (rf_den o1) 0). split.
        * intros Z0. apply K2. rewrite <- (znorm_id (znorm k2)) by apply znorm_normal. apply zval_zero. intros n.
          rewrite <- D2, V2, Z0. reflexivity.
        * intros n. rewrite H1, H2. specialize (NUM n). specialize (DEN n). rewrite V1 in NUM. rewrite V2 in DEN.
          rewrite <- DEN in *. replace (poly_val k1 n) with (nth 0 (rf_num o1) 0 + c * nth 0 (rf_den o1) 0) by lia. ring.
      + apply Nat.eqb_eq in B. exfalso. rewrite N2 in B. destruct (znorm (zsub _ _)); discriminate.
      + unfold poly_eqb in B. destruct (list_eq_dec Z.eq_dec (rf_num o1) [0]) as [E|]; [|discriminate].
        exists c, 1. split; [lia|]. intros n. rewrite H1, H2. specialize (NUM n). rewrite E in NUM. cbn in NUM.
        replace (poly_val k1 n) with (c * poly_val k2 n) by lia. ring.
    - intros (a & b & B0 & CR).
      assert (CR' : forall n, b * poly_val k1 n - a * poly_val k2 n = 0).
      { assert (Z0 := zmul_zero h (zsub (zterm b 0 k1) (zterm a 0 k2)) HN). intros n.
        specialize (Z0 ltac:(intros m; rewrite val_zsub, !val_zterm; specialize (CR m); rewrite H1, H2 in CR; cbn [zpow]; nia) n).
        rewrite val_zsub, !val_zterm in Z0. cbn [zpow] in Z0. lia. }
      set (g := Z.gcd a b). assert (G0 : g <> 0) by (unfold g; intros E; apply Z.gcd_eq_0_r in E; auto).
      destruct (Z.gcd_divide_l a b) as [a' A']. destruct (Z.gcd_divide_r a b) as [b' B']. fold g in A', B'.
      assert (RP : Z.gcd a' b' = 1).
      { assert (Z.gcd (a' * g) (b' * g) = g) by (unfold g at 3; congruence).
        rewrite Z.gcd_mul_mono_r in H. assert (0 <= g) by apply Z.gcd_nonneg. rewrite Z.abs_eq in H by auto. nia. }
      assert (B'0 : b' <> 0) by (intros E; rewrite E in B'; lia).
      assert (CE' : forall n, b' * poly_val k1 n = a' * poly_val k2 n).
      { intros n. specialize (CR' n). rewrite A' in CR'. rewrite B' in CR' at 1. nia. }
      assert (CO : forall i, b' * nth i k1 0 = a' * nth i k2 0).
      { intros i. pose proof (coef_unique (inj (map (Z.mul b') k1)) (inj (map (Z.mul a') k2))) as CU.
        assert (SC : forall s k n, poly_val (map (Z.mul s) k) n = s * poly_val k n).
        { clear. intros s k n. induction k as [|x k IH]; cbn [map poly_val]; [ring|]. rewrite IH. ring. }
        specialize (CU ltac:(intros n; rewrite !poly_val_inj, !SC, CE'; reflexivity) i). rewrite !nth_inj in CU.
        apply inject_Z_eq in CU.
        rewrite <- (Z.mul_0_r b') in CU at 1. rewrite map_nth in CU. rewrite <- (Z.mul_0_r a') in CU at 2. rewrite map_nth in CU.
        exact CU. }
      set (m := map (fun z => z / b') k2).
      assert (DV : forall i, (b' | nth i k2 0)).
      { intros i. apply Z.gauss with a'; [|rewrite Z.gcd_comm; exact RP]. exists (nth i k1 0). rewrite <- CO. ring. }
      assert (M2 : forall n, poly_val k2 n = poly_val m n * b').
      { intros n. unfold m. clear - DV B'0. induction k2 as [|x k IH]; cbn [map poly_val]; [ring|].
        rewrite IH by (intros i; apply (DV (S i))). pose proof (DV 0%nat) as D0. cbn in D0.
        destruct D0 as [z ->]. rewrite Z.div_mul by auto. ring. }
      assert (M1 : forall n, poly_val k1 n = poly_val m n * a').
      { intros n. specialize (CE' n). rewrite M2 in CE'. nia. }
      assert (U : (forall n, poly_val m n = 1) \/ (forall n, poly_val m n = -1)).
      { apply COP; [exists [a']|exists [b']]; intros n; cbn [poly_val]; [rewrite M1|rewrite M2]; ring. }
      assert (LD : length (rf_den o1) = 1%nat).
      { rewrite D2. destruct U as [U|U].
        - rewrite (val_const k2 b') by (try intros; try rewrite M2, U; auto; ring). reflexivity.
        - rewrite (val_const k2 (- b')) by (try intros; try rewrite M2, U; try ring; lia). reflexivity. }
      assert (LN : length (rf_num o1) = 1%nat).
      { rewrite N2. destruct U as [U|U]; [apply val_const_len with (a' - c * b')|apply val_const_len with (- a' + c * b')];
          intros n; rewrite val_zsub, val_zterm, M1, M2, U; cbn [zpow]; ring. }
      rewrite LN, LD. reflexivity.
  Qed.
End Canon2.

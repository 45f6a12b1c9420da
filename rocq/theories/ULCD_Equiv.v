(** Soundness of the equivalence test of ULCD results, and the LaTeX text. *)
From Coq Require Import Ascii String ZArith QArith Qabs List Bool Lia Lqa Qfield.
From Verif Require Import PyBase PyBase_Proofs Rnd Rnd_Proofs ContFrac_Model Hashtable_Model Spec_Utils Spec_ContFrac ULCD_Model Spec_ULCD ULCD_Proofs.
Import ListNotations.
Local Open Scope Z_scope.
Local Open Scope res_scope.
Local Open Scope list_scope.

(** ---- negating every a_i negates the fraction ---- *)
Lemma poly_val_opp p x : poly_val (map Z.opp p) x = - poly_val p x.
Proof. induction p as [|c p IH]; cbn; [reflexivity|]. rewrite IH. ring. Qed.
Lemma icoef_opp a i : icoef (map (map Z.opp) a) i = - icoef a i.
Proof.
  unfold icoef. rewrite map_length. change (@nil Z) with (map Z.opp []) at 1. rewrite map_nth. apply poly_val_opp.
Qed.
Lemma nested_opp l : forall a0,
  nested (- a0) (map (fun '(a, b) => (- a, b)%Q) l) = None /\ nested a0 l = None \/
  exists v w, nested (- a0) (map (fun '(a, b) => (- a, b)%Q) l) = Some v /\ nested a0 l = Some w /\ (v == - w)%Q.
Proof.
  induction l as [|[a b] l IH]; intros a0; cbn.
  - right. exists (- a0)%Q, a0. repeat split; reflexivity.
  - destruct (IH a) as [[A B]|(v & w & A & B & C)]; rewrite A, B; [left; auto|].
    assert (E : Qeq_bool v 0 = Qeq_bool w 0).
    { apply eq_true_iff_eq. rewrite !Qeq_bool_iff. rewrite C. split; intros; lra. }
    rewrite E. destruct (Qeq_bool w 0) eqn:E1; [left; auto|]. right.
    exists (- a0 + b / v)%Q, (a0 + b / w)%Q. repeat split. rewrite C. apply Qeq_bool_false in E1. field. exact E1.
Qed.

(** the depth-n fraction of a result *)
Definition cf_depth (ab : coeffs * coeffs) (n : Z) : option Q :=
  nested (inject_Z (icoef (fst ab) 0)) (toQ (icoefs (fst ab) (snd ab) (zrange 1 (n + 1)))).

Lemma cf_depth_opp a b n : cf_depth (map (map Z.opp) a, b) n = None /\ cf_depth (a, b) n = None \/
  exists v w, cf_depth (map (map Z.opp) a, b) n = Some v /\ cf_depth (a, b) n = Some w /\ (v == - w)%Q.
Proof.
  unfold cf_depth. cbn [fst snd].
  replace (toQ (icoefs (map (map Z.opp) a) b (zrange 1 (n + 1)))) with
    (map (fun '(a, b) => (- a, b)%Q) (toQ (icoefs a b (zrange 1 (n + 1))))).
  - rewrite icoef_opp. change (inject_Z (- icoef a 0)) with (- inject_Z (icoef a 0))%Q. apply nested_opp.
  - unfold toQ, icoefs. rewrite !map_map. apply map_ext. intros i. now rewrite icoef_opp.
Qed.

(** ---- the float ratio ---- *)
Lemma fl_exact z : Z.abs z <= 2 ^ 53 -> (fl (inject_Z z) == inject_Z z)%Q.
Proof. intros H. apply rnd_exact_Z; lia. Qed.

Lemma two_p_m53 : (two_p (- (53)) == 1 # 9007199254740992)%Q.
Proof. reflexivity. Qed.

Lemma fl_err x : (Qabs (fl x - x) <= (1 # 9007199254740992) * Qabs x)%Q.
Proof. eapply Qle_trans; [apply rnd_err|]. apply Qmult_le_compat_r; [|apply Qabs_nonneg]. rewrite two_p_m53. apply Qle_refl. Qed.

Lemma Qabs_inject z : Qabs (inject_Z z) = inject_Z (Z.abs z).
Proof. reflexivity. Qed.
Lemma inject_Z_le' a b : a <= b -> (inject_Z a <= inject_Z b)%Q.
Proof. unfold Qle, inject_Z; cbn; lia. Qed.
Lemma inject_Z_abs_lt1 n : (Qabs (inject_Z n) < 1)%Q -> n = 0.
Proof. rewrite Qabs_inject. unfold Qlt, inject_Z; cbn. lia. Qed.

Lemma Qdiv_pos a b : (0 < a)%Q -> (0 < b)%Q -> (0 < a / b)%Q.
Proof. intros. apply Qlt_shift_div_l; lra. Qed.

Section Ratio.
  Variables d1 d2 : Z.
  Hypothesis D1 : d1 <> 0.
  Hypothesis D2 : d2 <> 0.
  Let k : Q := (inject_Z (Z.abs d1) / inject_Z (Z.abs d2))%Q.
  Let ratio : Q := Qabs (fl (inject_Z d1 / inject_Z d2)%Q).
  Let e : Q := (1 # 9007199254740992)%Q.

  Lemma injZ_abs_pos z : z <> 0 -> (0 < inject_Z (Z.abs z))%Q.
  Proof. intros. unfold Qlt, inject_Z; cbn. lia. Qed.
  Lemma k_pos : (0 < k)%Q.
  Proof. apply Qdiv_pos; now apply injZ_abs_pos. Qed.
  Lemma ratio_err : (Qabs (ratio - k) <= e * k)%Q.
  Proof.
    unfold ratio. set (y := (inject_Z d1 / inject_Z d2)%Q).
    assert (K : (Qabs y == k)%Q).
    { unfold y, k, Qdiv. rewrite Qabs_Qmult, Qabs_Qinv, !Qabs_inject. reflexivity. }
    rewrite <- K. eapply Qle_trans; [apply Qabs_Qle_condition; split|apply fl_err].
    - pose proof (Qabs_triangle_reverse y (fl y)) as T.
      setoid_replace (Qabs (y - fl y)) with (Qabs (fl y - y)) in T by (rewrite Qabs_Qminus; reflexivity). lra.
    - pose proof (Qabs_triangle_reverse (fl y) y) as T. lra.
  Qed.
  Lemma ratio_bounds : ((1 - e) * k <= ratio <= (1 + e) * k)%Q.
  Proof. pose proof ratio_err as R. apply Qabs_Qle_condition in R. lra. Qed.
  Lemma ratio_pos : (0 < ratio)%Q.
  Proof. pose proof ratio_bounds. pose proof k_pos. assert ((1 - e) * k > 0)%Q; [|lra]. unfold e. lra. Qed.

  Hypothesis B1 : Z.abs d1 < 2 ^ 25.
  Hypothesis B2 : Z.abs d2 < 2 ^ 25.

  Lemma ratio_mul u1 u2 : Z.abs u2 < 2 ^ 25 -> (inject_Z u1 == fl (fl (inject_Z u2) * ratio))%Q ->
    u1 * Z.abs d2 = u2 * Z.abs d1.
  Proof.
    intros BU H. set (U := inject_Z u2) in *. assert (EU : (fl U == U)%Q) by (apply fl_exact; lia).
    pose proof (fl_err (fl U * ratio)%Q) as E2. rewrite <- H in E2.
    pose proof ratio_err as E1. pose proof ratio_bounds as RB. pose proof k_pos as KP. pose proof ratio_pos as RP.
    assert (A : (Qabs (inject_Z u1 - U * k) <= (2 # 9007199254740992) * (1 + e) * (Qabs U * k))%Q).
    { setoid_replace (inject_Z u1 - U * k)%Q with ((inject_Z u1 - U * ratio) + U * (ratio - k))%Q by ring.
      eapply Qle_trans; [apply Qabs_triangle|].
      assert (X1 : (Qabs (inject_Z u1 - U * ratio) <= e * (Qabs U * ((1 + e) * k)))%Q).
      { eapply Qle_trans; [|eapply Qle_trans; [exact E2|]].
        - apply Qle_lteq; right. now rewrite EU.
        - rewrite EU. rewrite Qabs_Qmult. rewrite (Qabs_pos ratio) by lra. unfold e.
          rewrite !(Qmult_comm (1 # 9007199254740992)). apply Qmult_le_compat_r; [|lra].
          rewrite !(Qmult_comm (Qabs U)). apply Qmult_le_compat_r; [|apply Qabs_nonneg]. unfold e in RB; lra. }
      assert (X2 : (Qabs (U * (ratio - k)) <= Qabs U * (e * k))%Q).
      { rewrite Qabs_Qmult. rewrite !(Qmult_comm (Qabs U)). apply Qmult_le_compat_r; [exact E1|apply Qabs_nonneg]. }
      pose proof (Qabs_nonneg U) as NU.
      assert (P : (0 <= Qabs U * k)%Q) by (apply Qmult_le_0_compat; lra).
      setoid_replace (e * (Qabs U * ((1 + e) * k)))%Q with (e * (1 + e) * (Qabs U * k))%Q in X1 by ring.
      setoid_replace (Qabs U * (e * k))%Q with (e * (Qabs U * k))%Q in X2 by ring.
      unfold e in *. lra. }
    assert (N : u1 * Z.abs d2 - u2 * Z.abs d1 = 0); [|lia].
    apply inject_Z_abs_lt1.
    set (W := inject_Z (Z.abs d2)). assert (WP : (0 < W)%Q) by now apply injZ_abs_pos.
    setoid_replace (inject_Z (u1 * Z.abs d2 - u2 * Z.abs d1)) with ((inject_Z u1 - U * k) * W)%Q.
    2:{ unfold k, U. fold W. setoid_replace ((inject_Z u1 - inject_Z u2 * (inject_Z (Z.abs d1) / W)) * W)%Q
          with (inject_Z u1 * W - inject_Z u2 * inject_Z (Z.abs d1))%Q by (field; lra).
        unfold W, Z.sub. rewrite inject_Z_plus, inject_Z_opp, !inject_Z_mult. reflexivity. }
    rewrite Qabs_Qmult, (Qabs_pos W) by lra.
    eapply Qle_lt_trans; [apply Qmult_le_compat_r; [exact A|lra]|].
    setoid_replace ((2 # 9007199254740992) * (1 + e) * (Qabs U * k) * W)%Q
      with ((2 # 9007199254740992) * (1 + e) * (Qabs U * inject_Z (Z.abs d1)))%Q.
    2:{ unfold k. fold W. field. lra. }
    assert (Y : (Qabs U * inject_Z (Z.abs d1) <= inject_Z (2 ^ 50))%Q).
    { unfold U. rewrite Qabs_inject, <- inject_Z_mult. apply inject_Z_le'. nia. }
    change (inject_Z (2 ^ 50)) with (1125899906842624 # 1)%Q in Y. unfold e. lra.
  Qed.

  Lemma ratio_div l1 l2 : Z.abs l2 < 2 ^ 25 -> (inject_Z l1 == fl (fl (inject_Z l2) / ratio))%Q ->
    l1 * Z.abs d1 = l2 * Z.abs d2.
  Proof.
    intros BL H. set (U := inject_Z l2) in *. assert (EU : (fl U == U)%Q) by (apply fl_exact; lia).
    pose proof (fl_err (fl U / ratio)%Q) as E2. rewrite <- H in E2.
    pose proof ratio_err as E1. pose proof ratio_bounds as RB. pose proof k_pos as KP. pose proof ratio_pos as RP.
    set (V := inject_Z l1) in *. pose proof (Qabs_nonneg U) as NU.
    (* |V*ratio - U| <= e |U| *)
    assert (X : (Qabs (V * ratio - U) <= e * Qabs U)%Q).
    { setoid_replace (V * ratio - U)%Q with ((V - U / ratio) * ratio)%Q by (field; lra).
      rewrite Qabs_Qmult, (Qabs_pos ratio) by lra.
      assert (X1 : (Qabs (V - U / ratio) <= e * (Qabs U / ratio))%Q).
      { eapply Qle_trans; [|eapply Qle_trans; [exact E2|]].
        - apply Qle_lteq; right. now rewrite EU.
        - apply Qle_lteq; right. rewrite EU. unfold Qdiv. rewrite Qabs_Qmult, Qabs_Qinv, (Qabs_pos ratio) by lra. reflexivity. }
      eapply Qle_trans; [apply Qmult_le_compat_r; [exact X1|lra]|]. apply Qle_lteq; right. field. lra. }
    (* |V| k <= |U| (1+e)/(1-e) *)
    assert (VK : (Qabs V * ((1 - e) * k) <= (1 + e) * Qabs U)%Q).
    { apply Qle_trans with (Qabs V * ratio)%Q.
      - rewrite !(Qmult_comm (Qabs V)). apply Qmult_le_compat_r; [lra|apply Qabs_nonneg].
      - assert (Qabs V * ratio == Qabs (V * ratio))%Q as -> by (rewrite Qabs_Qmult, (Qabs_pos ratio) by lra; reflexivity).
        setoid_replace (V * ratio)%Q with ((V * ratio - U) + U)%Q by ring.
        eapply Qle_trans; [apply Qabs_triangle|]. lra. }
    assert (Z1 : (Qabs (V * k - U) <= (3 # 9007199254740992) * Qabs U)%Q).
    { setoid_replace (V * k - U)%Q with ((V * ratio - U) - V * (ratio - k))%Q by ring.
      eapply Qle_trans; [apply Qabs_triangle|]. rewrite Qabs_opp, Qabs_Qmult.
      assert (X2 : (Qabs V * Qabs (ratio - k) <= Qabs V * (e * k))%Q).
      { rewrite !(Qmult_comm (Qabs V)). apply Qmult_le_compat_r; [exact E1|apply Qabs_nonneg]. }
      set (VQ := (Qabs V * k)%Q) in *.
      setoid_replace (Qabs V * ((1 - e) * k))%Q with ((1 - e) * VQ)%Q in VK by (unfold VQ; ring).
      setoid_replace (Qabs V * (e * k))%Q with (e * VQ)%Q in X2 by (unfold VQ; ring).
      unfold e in *. lra. }
    assert (N : l1 * Z.abs d1 - l2 * Z.abs d2 = 0); [|lia].
    apply inject_Z_abs_lt1.
    set (W := inject_Z (Z.abs d2)). assert (WP : (0 < W)%Q) by now apply injZ_abs_pos.
    setoid_replace (inject_Z (l1 * Z.abs d1 - l2 * Z.abs d2)) with ((V * k - U) * W)%Q.
    2:{ unfold k. fold W. setoid_replace ((V * (inject_Z (Z.abs d1) / W) - U) * W)%Q
          with (V * inject_Z (Z.abs d1) - U * W)%Q by (field; lra).
        unfold W, V, U, Z.sub. rewrite inject_Z_plus, inject_Z_opp, !inject_Z_mult. reflexivity. }
    rewrite Qabs_Qmult, (Qabs_pos W) by lra.
    eapply Qle_lt_trans; [apply Qmult_le_compat_r; [exact Z1|lra]|].
    assert (Y : (Qabs U * W <= inject_Z (2 ^ 50))%Q).
    { unfold U, W. rewrite Qabs_inject, <- inject_Z_mult. apply inject_Z_le'. nia. }
    change (inject_Z (2 ^ 50)) with (1125899906842624 # 1)%Q in Y.
    setoid_replace ((3 # 9007199254740992) * Qabs U * W)%Q with ((3 # 9007199254740992) * (Qabs U * W))%Q by ring. lra.
  Qed.
End Ratio.

(** ---- proportional parameters give equal functions up to sign ---- *)
Lemma ulcd_scaled (s u1 l1 c1 d1 u2 l2 c2 d2 : Z) x :
  s = 1 \/ s = -1 -> l1 <> 0 -> d1 <> 0 -> l2 <> 0 -> d2 <> 0 -> ~ (x == 0)%Q ->
  u1 * Z.abs d2 = s * u2 * Z.abs d1 -> l1 * Z.abs d1 = s * l2 * Z.abs d2 -> c1 * Z.abs d2 = s * c2 * Z.abs d1 ->
  (Qabs (ulcd_fun (u1, l1, c1, d1) x) == Qabs (ulcd_fun (u2, l2, c2, d2) x))%Q.
Proof.
  intros S L1 D1 L2 D2 X HU HL HC. cbn [ulcd_fun].
  set (a1 := inject_Z (Z.abs d1)). set (a2 := inject_Z (Z.abs d2)).
  assert (P1 : (0 < a1)%Q) by now apply injZ_abs_pos.
  assert (P2 : (0 < a2)%Q) by now apply injZ_abs_pos.
  set (N1 := (inject_Z u1 / x + x / inject_Z l1 + inject_Z c1)%Q).
  set (N2 := (inject_Z u2 / x + x / inject_Z l2 + inject_Z c2)%Q).
  assert (QU : (inject_Z u1 * a2 == inject_Z s * inject_Z u2 * a1)%Q).
  { unfold a1, a2. rewrite <- !inject_Z_mult, HU. reflexivity. }
  assert (QL : (inject_Z l1 * a1 == inject_Z s * inject_Z l2 * a2)%Q).
  { unfold a1, a2. rewrite <- !inject_Z_mult, HL. reflexivity. }
  assert (QC : (inject_Z c1 * a2 == inject_Z s * inject_Z c2 * a1)%Q).
  { unfold a1, a2. rewrite <- !inject_Z_mult, HC. reflexivity. }
  assert (IL1 : ~ (inject_Z l1 == 0)%Q) by now rewrite injZ0.
  assert (IL2 : ~ (inject_Z l2 == 0)%Q) by now rewrite injZ0.
  assert (SS : (inject_Z s * inject_Z s == 1)%Q) by (destruct S as [-> | ->]; reflexivity).
  assert (XL : (x / inject_Z l1 * a2 == inject_Z s * (x / inject_Z l2) * a1)%Q).
  { assert (x / inject_Z l1 == x * a1 / (inject_Z l1 * a1))%Q as -> by (field; split; [lra|exact IL1]).
    rewrite QL. 
    assert (IS : ~ (inject_Z s == 0)%Q) by (destruct S as [-> | ->]; intros K; discriminate K).
    transitivity (x * a1 * inject_Z s / (inject_Z l2))%Q; [|field; exact IL2].
    setoid_replace (x * a1 * inject_Z s / inject_Z l2)%Q with (x * a1 * (inject_Z s * inject_Z s) / (inject_Z s * inject_Z l2))%Q
      by (field; auto).
    rewrite SS. field. repeat split; try lra; auto. }
  assert (E : (N1 * a2 == inject_Z s * N2 * a1)%Q).
  { unfold N1, N2.
    setoid_replace ((inject_Z u1 / x + x / inject_Z l1 + inject_Z c1) * a2)%Q
      with (inject_Z u1 * a2 / x + x / inject_Z l1 * a2 + inject_Z c1 * a2)%Q by (field; auto).
    rewrite QU, XL, QC. field. auto. }
  assert (QS : (Qabs (inject_Z s) == 1)%Q) by (destruct S as [-> | ->]; reflexivity).
  unfold Qdiv. rewrite !Qabs_Qmult, !Qabs_Qinv, !Qabs_inject. fold a1 a2.
  assert (A : (Qabs N1 * a2 == Qabs N2 * a1)%Q).
  { rewrite <- (Qabs_pos a2) at 1 by lra. rewrite <- Qabs_Qmult, E, !Qabs_Qmult, QS, (Qabs_pos a1) by lra. ring. }
  transitivity (Qabs N1 * a2 / (a1 * a2))%Q; [field; split; lra|]. rewrite A. field. split; lra.
Qed.

Lemma coeffs_eqb_eq a b : coeffs_eqb a b = true <-> a = b.
Proof. unfold coeffs_eqb. destruct (list_eq_dec _ a b); split; intros; congruence. Qed.
Lemma ulcd4_eqb_eq p q : ulcd4_eqb p q = true <-> p = q.
Proof.
  destruct p as [[[u l] c] d], q as [[[u' l'] c'] d']. cbn. rewrite !andb_true_iff, !Z.eqb_eq.
  split; [intros [[[-> ->] ->] ->]; reflexivity|intros [= -> -> -> ->]; auto].
Qed.

Definition small (b : Z) (p : Z * Z * Z * Z) : Prop :=
  let '(u, l, c, d) := p in Z.abs u < b /\ Z.abs l < b /\ Z.abs c < b /\ Z.abs d < b.
Definition okp (p : Z * Z * Z * Z) : Prop := let '(u, l, c, d) := p in l <> 0 /\ d <> 0.

(** what a True answer means *)
Lemma ulcd_equiv_true ab1 o1 i1 ab2 o2 i2 : okp (ul_params o1) -> okp (ul_params o2) ->
  small (2 ^ 25) (ul_params o1) -> small (2 ^ 25) (ul_params o2) ->
  ulcd_is_equiv (ab1, o1, i1) (ab2, o2, i2) = Ok true ->
  i1 = i2 /\ snd ab1 = snd ab2 /\ (fst ab1 = fst ab2 \/ i1 = 0 /\ fst ab1 = map (map Z.opp) (fst ab2)) /\
  (forall x, ~ (x == 0)%Q -> (Qabs (ulcd_fun (ul_params o1) x) == Qabs (ulcd_fun (ul_params o2) x))%Q).
Proof.
  destruct o1 as [[[[u1 l1] c1] d1] x1 v1], o2 as [[[[u2 l2] c2] d2] x2 v2]. destruct ab1 as [pa1 pb1], ab2 as [pa2 pb2].
  cbn [ul_params okp small fst snd]. intros [L1 D1] [L2 D2] (SU1 & SL1 & SC1 & SD1) (SU2 & SL2 & SC2 & SD2).
  unfold ulcd_is_equiv. cbn [ul_params fst snd].
  destruct (negb (i1 =? 0) || negb (i2 =? 0)) eqn:I.
  { intros [= H]. rewrite !andb_true_iff in H. destruct H as [[[A B] C] E].
    apply coeffs_eqb_eq in A, B. apply Z.eqb_eq in E. rewrite !Z.eqb_eq in C. destruct C as [[[-> ->] ->] ->]. subst.
    repeat split; auto. }
  apply orb_false_iff in I. destruct I as [I1 I2]. apply negb_false_iff, Z.eqb_eq in I1, I2. subst i1 i2.
  destruct (negb (Nat.eqb (length pa1) (length pa2)) || negb (Nat.eqb (length pb1) (length pb2))); [discriminate|].
  destruct (coeffs_eqb pb1 pb2 && (coeffs_eqb pa1 pa2 || coeffs_eqb pa1 (map (map Z.opp) pa2))) eqn:AB; [|discriminate].
  apply andb_true_iff in AB. destruct AB as [B A]. apply orb_true_iff in A. rewrite !coeffs_eqb_eq in A. apply coeffs_eqb_eq in B.
  intros H. split; [reflexivity|]. split; [exact B|]. split; [tauto|].
  set (T1 := (u1 =? u2 * 1) && (l1 =? l2 * 1) && (c1 =? c2 * 1) && (Z.abs d1 =? Z.abs d2)) in H.
  set (T2 := (u1 =? u2 * -1) && (l1 =? l2 * -1) && (c1 =? c2 * -1) && (Z.abs d1 =? Z.abs d2)) in H.
  assert (SC : forall s, s = 1 \/ s = -1 -> u1 * Z.abs d2 = s * u2 * Z.abs d1 -> l1 * Z.abs d1 = s * l2 * Z.abs d2 ->
     c1 * Z.abs d2 = s * c2 * Z.abs d1 -> forall x, ~ (x == 0)%Q ->
     (Qabs (ulcd_fun (u1, l1, c1, d1) x) == Qabs (ulcd_fun (u2, l2, c2, d2) x))%Q).
  { intros s S E1 E2 E3 x X. eapply ulcd_scaled; eauto. }
  destruct (T1 || T2) eqn:T.
  { apply orb_true_iff in T. destruct T as [T|T]; unfold T1, T2 in T; rewrite !andb_true_iff, !Z.eqb_eq in T;
      destruct T as [[[E1 E2] E3] E4]; subst u1 l1 c1.
    - apply (SC 1); [auto| | | ]; rewrite <- ?E4; ring.
    - apply (SC (-1)); [auto| | | ]; rewrite <- ?E4; ring. }
  clear T T1 T2. destruct (Z.eqb_spec d2 0); [contradiction|].
  set (ratio := Qabs (fl (inject_Z d1 / inject_Z d2))) in H.
  pose proof (ratio_pos d1 d2 D1 D2) as RP. fold ratio in RP.
  destruct (Qeq_bool ratio 0) eqn:R0; [apply Qeq_bool_iff in R0; lra|].
  assert (CK : forall s, s = 1 \/ s = -1 -> 
    (if zq_eqb u1 (fl (fl (inject_Z (s * u2)) * ratio)) then
            let* l' := Ok (fl (fl (inject_Z (s * l2)) / ratio)%Q) in
            Ok (zq_eqb l1 l' && zq_eqb c1 (fl (fl (inject_Z (s * c2)) * ratio)))
          else Ok false) = Ok true ->
    forall x, ~ (x == 0)%Q -> (Qabs (ulcd_fun (u1, l1, c1, d1) x) == Qabs (ulcd_fun (u2, l2, c2, d2) x))%Q).
  { clear H. intros s S H.
    destruct (zq_eqb u1 (fl (fl (inject_Z (s * u2)) * ratio))) eqn:HU; [|discriminate]. cbn [bind] in H. injection H as H.
    apply andb_true_iff in H. destruct H as [HL HC]. unfold zq_eqb in *. apply Qeq_bool_iff in HU, HL, HC.
    apply (SC s S).
    - apply (ratio_mul d1 d2 D1 D2 SD1); [destruct S as [-> | ->]; lia|exact HU].
    - apply (ratio_div d1 d2 D1 D2 SD2); [destruct S as [-> | ->]; lia|exact HL].
    - apply (ratio_mul d1 d2 D1 D2 SD1); [destruct S as [-> | ->]; lia|exact HC]. }
  match type of H with bind ?c _ = _ => destruct c as [[|]|] eqn:C1 end; cbn [bind] in H; [| |discriminate].
  - exact (CK 1 (or_introl eq_refl) C1).
  - exact (CK (-1) (or_intror eq_refl) H).
Qed.

(** The test recognises a multiple (ku, l/k, kc, kd) when it comes first. *)
Lemma ulcd_equiv_multiple a b k s u l c d o1 o2 :
  s = 1 \/ s = -1 -> 1 <= k -> l <> 0 -> d <> 0 ->
  ul_params o1 = (s * k * u, s * l, s * k * c, k * d) -> ul_params o2 = (u, k * l, c, d) ->
  small (2 ^ 53) (k * u, k * l, k * c, k * d) ->
  ulcd_is_equiv ((a, b), o1, 0) ((a, b), o2, 0) = Ok true.
Proof.
  intros S K L D E1 E2 (BU & BL & BC & BD). unfold ulcd_is_equiv. rewrite E1, E2. cbn [fst snd Z.eqb negb orb].
  rewrite !Nat.eqb_refl. cbn [negb orb].
  assert (RA : forall z, coeffs_eqb z z = true) by (intros; now apply coeffs_eqb_eq). rewrite !RA. cbn [andb orb].
  match goal with |- (if ?c then _ else _) = _ => destruct c; [reflexivity|] end.
  destruct (Z.eqb_spec d 0); [contradiction|].
  assert (Rk : Qabs (fl (inject_Z (k * d) / inject_Z d)) == inject_Z k).
  { assert (Q0 : (inject_Z (k * d) / inject_Z d == inject_Z k)%Q).
    { rewrite inject_Z_mult. field. now rewrite injZ0. }
    unfold fl. rewrite (rnd_Qeq 53 _ _ Q0).
    assert (F : (rnd 53 (inject_Z k) == inject_Z k)%Q) by (apply fl_exact; nia).
    rewrite F. rewrite Qabs_inject, Z.abs_eq by lia. reflexivity. }
  set (ratio := Qabs (fl (inject_Z (k * d) / inject_Z d))) in *.
  assert (KP : (0 < inject_Z k)%Q) by (unfold Qlt, inject_Z; cbn; lia).
  assert (R0 : Qeq_bool ratio 0 = false) by (apply Qeq_bool_false; rewrite Rk; lra). rewrite R0.
  assert (FM : forall z, Z.abs (k * z) <= 2 ^ 53 -> (fl (fl (inject_Z z) * ratio) == inject_Z (k * z))%Q).
  { intros z Hz. assert (E : (fl (inject_Z z) * ratio == inject_Z (k * z))%Q).
    { rewrite Rk, fl_exact by nia. rewrite inject_Z_mult. ring. }
    unfold fl at 1. rewrite (rnd_Qeq 53 _ _ E). apply fl_exact. exact Hz. }
  assert (FD : forall z, Z.abs (k * z) <= 2 ^ 53 -> (fl (fl (inject_Z (k * z)) / ratio) == inject_Z z)%Q).
  { intros z Hz. assert (E : (fl (inject_Z (k * z)) / ratio == inject_Z z)%Q).
    { rewrite Rk, fl_exact by exact Hz. rewrite inject_Z_mult. field. lra. }
    unfold fl at 1. rewrite (rnd_Qeq 53 _ _ E). apply fl_exact. nia. }
  assert (CK : forall s, s = 1 \/ s = -1 ->
    (if zq_eqb (s * k * u) (fl (fl (inject_Z (s * u)) * ratio)) then
            let* l' := Ok (fl (fl (inject_Z (s * (k * l))) / ratio)%Q) in
            Ok (zq_eqb (s * l) l' && zq_eqb (s * k * c) (fl (fl (inject_Z (s * c)) * ratio)))
          else Ok false) = Ok true).
  { clear - FM FD BU BL BC. intros s S. unfold zq_eqb.
    assert (H1 : Qeq_bool (inject_Z (s * k * u)) (fl (fl (inject_Z (s * u)) * ratio)) = true).
    { apply Qeq_bool_iff. rewrite FM by (destruct S as [-> | ->]; lia). replace (s * k * u) with (k * (s * u)) by ring. reflexivity. }
    assert (H2 : Qeq_bool (inject_Z (s * l)) (fl (fl (inject_Z (s * (k * l))) / ratio)) = true).
    { apply Qeq_bool_iff. replace (s * (k * l)) with (k * (s * l)) by ring. rewrite FD by (destruct S as [-> | ->]; lia). reflexivity. }
    assert (H3 : Qeq_bool (inject_Z (s * k * c)) (fl (fl (inject_Z (s * c)) * ratio)) = true).
    { apply Qeq_bool_iff. rewrite FM by (destruct S as [-> | ->]; lia). replace (s * k * c) with (k * (s * c)) by ring. reflexivity. }
    rewrite H1. cbn [bind]. now rewrite H2, H3. }
  destruct S as [-> | ->].
  - specialize (CK 1 (or_introl eq_refl)). rewrite CK. reflexivity.
  - specialize (CK (-1) (or_intror eq_refl)).
    match goal with |- bind ?c _ = _ => assert (T : exists b, c = Ok b) end.
    { match goal with |- exists b, (if ?c then _ else _) = _ => destruct c; cbn [bind]; eauto end. }
    destruct T as [[|] ->]; cbn [bind]; [reflexivity|]. exact CK.
Qed.

(** ---- LaTeX ---- *)
Lemma join_plus_sum name ts : join_plus (map (term_text name) ts) = sum_text name ts.
Proof.
  induction ts as [|t r IH]; [reflexivity|]. destruct r as [|t' r]; [reflexivity|].
  cbn [map join_plus sum_text] in *. now rewrite IH.
Qed.

Definition ulcd_tree (p : Z * Z * Z * Z) : lexp :=
  let '(u, l, c, d) := p in
  let ts := (if u =? 0 then [] else [LFrac (LInt u) LVar]) ++
            [if Z.abs l =? 1 then (if l =? -1 then LMinusOneTimes LVar else LVar) else LFrac LVar (LInt l)] ++
            (if c =? 0 then [] else [LInt c]) in
  if Z.abs d =? 1 then (if d =? -1 then LMinus ts else LSum ts) else LOver d ts.

Lemma ulcd_latex_tree p name : ulcd_latex p name = exp_text name (ulcd_tree p).
Proof.
  destruct p as [[[u l] c] d]. unfold ulcd_latex, ulcd_tree.
  set (ts := _ ++ [_] ++ _ : list lterm).
  match goal with |- context [join_plus ?x] => replace x with (map (term_text name) ts) end.
  2:{ unfold ts. destruct (u =? 0), (Z.abs l =? 1), (l =? -1), (c =? 0); reflexivity. }
  rewrite join_plus_sum.
  destruct (Z.abs d =? 1); cbn [negb]; [|reflexivity]. destruct (d =? -1); reflexivity.
Qed.
Lemma ulcd_tree_val p x : okp p -> ~ (x == 0)%Q -> (exp_val x (ulcd_tree p) == ulcd_fun p x)%Q.
Proof.
  destruct p as [[[u l] c] d]. cbn [okp]. intros [L D] X. unfold ulcd_tree, ulcd_fun.
  set (ts := _ ++ [_] ++ _ : list lterm).
  assert (S : (sum_val x ts == inject_Z u / x + x / inject_Z l + inject_Z c)%Q).
  { unfold ts. destruct (Z.eqb_spec u 0), (Z.eqb_spec c 0), (Z.eqb_spec (Z.abs l) 1); try destruct (Z.eqb_spec l (-1));
      subst; cbn [app sum_val fold_right term_val]; try (assert (l = 1) by lia; subst l);
      try (change (inject_Z 1) with 1%Q); try (change (inject_Z 0) with 0%Q); try (change (inject_Z (-1)) with (-(1))%Q);
      field; repeat split; try exact X; try (rewrite injZ0; exact L); intros K; discriminate K. }
  destruct (Z.eqb_spec (Z.abs d) 1); [destruct (Z.eqb_spec d (-1))|]; cbn [exp_val]; rewrite S.
  - subst d. change (inject_Z (-1)) with (-(1))%Q. field. repeat split; try exact X; try (rewrite injZ0; exact L).
  - assert (d = 1) by lia. subst d. change (inject_Z 1) with 1%Q. field. repeat split; try exact X; try (rewrite injZ0; exact L).
  - field. repeat split; try exact X; rewrite injZ0; assumption.
Qed.

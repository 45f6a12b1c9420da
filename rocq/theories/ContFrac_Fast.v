(** What is_convergence_fast decides. *)
From Coq Require Import ZArith QArith Qabs Qfield List Bool Lia Lqa.
From Verif Require Import PyBase PyBase_Proofs Rnd ContFrac_Model Spec_ContFrac ContFrac_Proofs ContFrac_Hist ContFrac_Proofs2
  ULCD_Proofs.
Import ListNotations.
Open Scope Z_scope.

Lemma zrange_split k n : 0 <= k -> 0 <= n -> zrange 1 (1 + k) ++ zrange (k + 1) (k + 1 + n) = zrange 1 (1 + (k + n)).
Proof.
  intros K N. apply list_nth_error_ext. intros i.
  assert (LZ : forall lo hi, length (zrange lo hi) = Z.to_nat (hi - lo)) by (intros; unfold zrange; now rewrite map_length, seq_length).
  assert (NE : forall lo hi j, nth_error (zrange lo hi) j = if (Z.of_nat j <? hi - lo) then Some (lo + Z.of_nat j) else None).
  { intros lo hi j. destruct (Z.ltb_spec (Z.of_nat j) (hi - lo)).
    - apply zrange_spec. lia.
    - apply nth_error_None. rewrite LZ. lia. }
  destruct (Nat.lt_ge_cases i (length (zrange 1 (1 + k)))) as [L|L].
  - rewrite nth_error_app1, !NE by exact L. rewrite LZ in L.
    destruct (Z.ltb_spec (Z.of_nat i) (1 + k - 1)), (Z.ltb_spec (Z.of_nat i) (1 + (k + n) - 1)); try lia. reflexivity.
  - rewrite nth_error_app2, !NE by exact L. rewrite LZ in *.
    destruct (Z.ltb_spec (Z.of_nat (i - Z.to_nat (1 + k - 1))) (k + 1 + n - (k + 1))), (Z.ltb_spec (Z.of_nat i) (1 + (k + n) - 1)); try lia.
    + f_equal. lia.
    + reflexivity.
Qed.

Section Fast.
  Variable rd : Q -> Q.
  Variables a b : list (list Z).
  Variables av lg : bool.
  Variable tg : option Q.
  Variable c0 : contfrac.
  Hypothesis HF : fresh a b av lg tg c0.

  (** the object after k successful iterations *)
  Definition at_iter (k : Z) (c : contfrac) : Prop := hinv a b c0 k (zrange 1 (1 + k)) c.
  Notation P j := (contP (icoef a 0) (icoefs a b (upto j))).
  Notation C j := (contQ (icoefs a b (upto j))).

  Lemma at_get_p_q k c : 0 <= k -> at_iter (k + 1) c -> cf_get_p_q c = (P k, C k).
  Proof.
    intros K (_ & _ & M & _). destruct (fresh_inv _ _ _ _ _ _ HF) as (_ & _ & _ & _ & Hf & _).
    rewrite Hf, zrange_1 in M. fold (upto (k + 1)) in M.
    assert (U : upto (k + 1) = upto k ++ [k + 1]).
    { unfold upto. rewrite Z2Nat.inj_add by lia. change (Z.to_nat 1) with 1%nat. rewrite seq_app, map_app. cbn. do 2 f_equal. lia. }
    rewrite U in M. unfold icoefs in M. rewrite map_app in M. cbn [map] in M. fold (icoefs a b (upto k)) in M.
    unfold cf_get_p_q. fold (cur_mat c). rewrite M.
    destruct (msteps_snd (icoefs a b (upto k)) (icoef a (k + 1), icoef b (k + 1)) ((icoef a 0, 1), (1, 0))) as [-> ->].
    destruct (msteps_contPQ (icoef a 0) (icoefs a b (upto k))) as [-> ->]. reflexivity.
  Qed.
  Lemma at_add k n fin c c' : 0 <= k -> 0 <= n -> at_iter k c -> cf_add rd n fin c = (c', Ok tt) -> at_iter (k + n) c'.
  Proof.
    intros K N A E. pose proof (hinv_add rd a b av lg tg c0 k (zrange 1 (1 + k)) c n fin HF A) as G.
    destruct (find _ _); [destruct G as [G _]; rewrite E in G; discriminate|].
    destruct G as (c1 & E1 & I & _). rewrite E in E1. injection E1 as <-. unfold at_iter. now rewrite <- zrange_split.
  Qed.

  Lemma five_ok : forall n k c c' acc l, 0 <= k -> at_iter (k + 1) c -> five_pq rd n c acc = (c', Ok l) ->
    at_iter (k + 1 + Z.of_nat n) c' /\
    l = acc ++ map (fun j => (P (k + Z.of_nat j), C (k + Z.of_nat j))) (seq 0 (S n)).
  Proof.
    induction n as [|n IH]; intros k c c' acc l K A E; cbn [five_pq] in E.
    - injection E as <- <-. rewrite (at_get_p_q k c K A), Z.add_0_r. split; [exact A|]. cbn [seq map]. now rewrite Z.add_0_r.
    - destruct (cf_add rd 1 false c) as [c1 [[]|e]] eqn:E1; [|discriminate].
      pose proof (at_add (k + 1) 1 false c c1 ltac:(lia) ltac:(lia) A E1) as A1.
      destruct (IH (k + 1) c1 c' _ l ltac:(lia) A1 E) as [A2 ->].
      split; [replace (k + 1 + Z.of_nat (S n)) with (k + 1 + 1 + Z.of_nat n) by lia; exact A2|].
      rewrite (at_get_p_q k c K A), <- app_assoc. f_equal.
      change (seq 0 (S (S n))) with (0%nat :: seq 1 (S n)). cbn [map app]. rewrite Z.add_0_r. f_equal.
      rewrite <- (seq_shift (S n) 0), map_map. apply map_ext. intros j.
      replace (k + 1 + Z.of_nat j) with (k + Z.of_nat (S j)) by lia. reflexivity.
  Qed.

  (** the step from convergent m+2 to m+4 is shorter than 16/17 of the step from m to m+2 (cross-multiplied) *)
  Definition shrinks (m : Z) : Prop :=
    17 * Z.abs (C m * (P (m + 4) * C (m + 2) - P (m + 2) * C (m + 4))) <
    16 * Z.abs (C (m + 4) * (P (m + 2) * C m - P m * C (m + 2))).

  Lemma test_iff L R : L - R <= Z.shiftr R 4 <-> 16 * L <= 17 * R.
  Proof. rewrite Z.shiftr_div_pow2 by lia. change (2 ^ 4) with 16. pose proof (Z.div_mod R 16 ltac:(lia)). pose proof (Z.mod_pos_bound R 16 ltac:(lia)). lia. Qed.

  Lemma slow_iff k : slow_test (map (fun j => (P (k + Z.of_nat j), C (k + Z.of_nat j))) (seq 0 6)) = false <->
    shrinks k /\ shrinks (k + 1).
  Proof.
    unfold slow_test, shrinks. cbn [seq map nth fst snd].
    change (Z.of_nat 0) with 0. change (Z.of_nat 1) with 1. change (Z.of_nat 2) with 2. change (Z.of_nat 3) with 3.
    change (Z.of_nat 4) with 4. change (Z.of_nat 5) with 5.
    replace (k + 1 + 4) with (k + 5) by lia. replace (k + 1 + 2) with (k + 3) by lia. rewrite Z.add_0_r.
    rewrite orb_false_iff, !Z.leb_nle, !test_iff. lia.
  Qed.

  Lemma fast_ok : forall idx k c c' v, 0 <= k -> at_iter (k + 1) c -> forall step, 5 <= step ->
    fast_loop rd idx step c = (c', Ok v) ->
    (v = true <-> forall t, 0 <= t < Z.of_nat (length idx) -> shrinks (k + t * step) /\ shrinks (k + t * step + 1)).
  Proof.
    induction idx as [|i idx IH]; intros k c c' v K A step ST E; cbn [fast_loop] in E.
    - injection E as <- <-. cbn. split; [intros _ t T; lia|reflexivity].
    - destruct (five_pq rd 5 c []) as [c1 [l|e]] eqn:E5; [|discriminate].
      destruct (five_ok 5 k c c1 [] l K A E5) as [A1 ->]. cbn [app] in E.
      destruct (slow_test _) eqn:SL.
      + injection E as <- <-. split; [discriminate|]. intros H. exfalso.
        assert (X := H 0 ltac:(cbn [length]; lia)). rewrite Z.mul_0_l, Z.add_0_r in X. apply slow_iff in X. congruence.
      + destruct (cf_add rd (step - 5) false c1) as [c2 [[]|e]] eqn:E2; [|discriminate].
        pose proof (at_add (k + 1 + 5) (step - 5) false c1 c2 ltac:(lia) ltac:(lia) A1 E2) as A2.
        replace (k + 1 + 5 + (step - 5)) with (k + step + 1) in A2 by lia.
        specialize (IH (k + step) c2 c' v ltac:(lia) A2 step ST E). rewrite IH. apply slow_iff in SL. split.
        * intros H t T. destruct (Z.eq_dec t 0) as [->|N]; [now rewrite Z.mul_0_l, Z.add_0_r|].
          specialize (H (t - 1) ltac:(cbn [length] in T; lia)). replace (k + t * step) with (k + step + (t - 1) * step) by ring. exact H.
        * intros H t T. specialize (H (t + 1) ltac:(cbn [length]; lia)).
          replace (k + step + t * step) with (k + (t + 1) * step) by ring. exact H.
  Qed.

  Lemma is_fast_ok iters cutoff step c c' v : same_static c0 c -> 1 <= cutoff -> 5 <= step ->
    cf_is_fast rd iters cutoff step c = (c', Ok v) ->
    (v = true <-> forall t, 0 <= t -> cutoff + (t + 1) * step <= iters ->
       shrinks (cutoff - 1 + t * step) /\ shrinks (cutoff - 1 + t * step + 1)).
  Proof.
    intros HS CU ST E. unfold cf_is_fast in E. destruct (cf_gen0 rd cutoff false c) as [c1 [[]|e]] eqn:G; [|discriminate].
    pose proof (hinv_gen rd a b av lg tg c0 c cutoff false HF HS) as H.
    destruct (find _ _); [destruct H as [H _]; rewrite G in H; discriminate|].
    destruct H as (c2 & E2 & I & _). rewrite G in E2. injection E2 as <-.
    unfold py_range3 in E. destruct (Z.eqb_spec step 0); [lia|]. destruct (Z.gtb_spec step 0); [|lia].
    destruct (fast_loop rd _ step c1) as [c2 [w|e]] eqn:FL; [|discriminate].
    destruct (cf_gen0 rd 0 true c2) as [c3 [[]|e]]; [|discriminate]. injection E as _ <-.
    replace cutoff with (cutoff - 1 + 1) in I by lia.
    rewrite (fast_ok _ (cutoff - 1) c1 c2 w ltac:(lia) I step ST FL).
    assert (LEN : forall t, 0 <= t -> (t < Z.of_nat (length (zrange_step (cutoff + step) (iters + 1) step)) <-> cutoff + (t + 1) * step <= iters)).
    { intros t T. assert (Z.of_nat (Z.to_nat t) = t) as T' by lia.
      pose proof (zrange_step_spec (cutoff + step) (iters + 1) step ltac:(lia) (Z.to_nat t)) as SP. rewrite T' in SP. split.
      - intros L. destruct (nth_error (zrange_step (cutoff + step) (iters + 1) step) (Z.to_nat t)) as [x|] eqn:NE.
        + destruct (proj1 (SP x) eq_refl). lia.
        + apply nth_error_None in NE. lia.
      - intros L. specialize (SP (cutoff + step + step * t)).
        assert (nth_error (zrange_step (cutoff + step) (iters + 1) step) (Z.to_nat t) = Some (cutoff + step + step * t)) by (apply SP; lia).
        assert (nth_error (zrange_step (cutoff + step) (iters + 1) step) (Z.to_nat t) <> None) by congruence.
        apply nth_error_Some in H1. lia. }
    split; intros HH t; [intros T L; apply HH; split; [lia|apply LEN; auto]|intros [T L]; apply HH; [auto|apply LEN; auto]].
  Qed.

  (** the same with values of convergents *)
  Lemma shrinks_values m : C m <> 0 -> C (m + 2) <> 0 -> C (m + 4) <> 0 ->
    let x j := (inject_Z (P j) / inject_Z (C j))%Q in
    shrinks m <-> (17 * Qabs (x (m + 4)%Z - x (m + 2)%Z) < 16 * Qabs (x (m + 2)%Z - x m))%Q.
  Proof.
    intros N0 N2 N4 x. unfold shrinks.
    set (D := (inject_Z (Z.abs (C m * C (m + 2) * C (m + 4))))%Q).
    assert (DP : (0 < D)%Q). { unfold D. change 0%Q with (inject_Z 0). rewrite <- Zlt_Qlt. nia. }
    assert (Z2Q : forall z, Qabs (inject_Z z) = inject_Z (Z.abs z)) by reflexivity.
    assert (E1 : (inject_Z (Z.abs (C m * (P (m + 4) * C (m + 2) - P (m + 2) * C (m + 4)))) == Qabs (x (m + 4)%Z - x (m + 2)%Z) * D)%Q).
    { unfold D. rewrite <- !Z2Q, <- Qabs_Qmult. apply Qabs_wd. unfold x, Z.sub. rewrite !inject_Z_mult, inject_Z_plus, inject_Z_opp, !inject_Z_mult.
      field. rewrite !injZ0. auto. }
    assert (E2 : (inject_Z (Z.abs (C (m + 4) * (P (m + 2) * C m - P m * C (m + 2)))) == Qabs (x (m + 2)%Z - x m) * D)%Q).
    { unfold D. rewrite <- !Z2Q, <- Qabs_Qmult. apply Qabs_wd. unfold x, Z.sub. rewrite !inject_Z_mult, inject_Z_plus, inject_Z_opp, !inject_Z_mult.
      field. rewrite !injZ0. auto. }
    rewrite Zlt_Qlt, !inject_Z_mult, E1, E2. change (inject_Z 17) with 17%Q. change (inject_Z 16) with 16%Q.
    rewrite !Qmult_assoc. split; intros H; [now apply Qmult_lt_r in H|now apply Qmult_lt_r].
  Qed.
End Fast.

(** Facts on build_contfrac_errors and on the fractions of gen_errors_for_nips.py. *)
From Coq Require Import ZArith QArith Qabs List Bool Lia Lqa.
From Coq Require Reals Qreals Lra.
From Verif Require Import PyBase PyBase_Proofs Rnd Rnd_Proofs Utils_Model Spec_Utils ContFrac_Model Spec_ContFrac ContFrac_Proofs ContFrac_Hist ContFrac_Proofs2 Errors_Model.
From Verif Require CF_Limits.
Import ListNotations.
Open Scope Z_scope.

(** ---- build_contfrac_errors ---- *)
Lemma gen_step rd k c ck : 0 <= k -> cf_gen0 rd k true c = (ck, Ok tt) ->
  match cf_add rd 1 true ck with
  | (c2, Ok _) => cf_gen0 rd (k + 1) true c = (c2, Ok tt)
  | (c2, Raise e) => snd (cf_gen0 rd (k + 1) true c) = Raise e
  end.
Proof.
  intros Hk E. pose proof (cf_add_add rd k 1 true true (cf_reset c) Hk ltac:(lia)) as A. fold (cf_gen0 rd k true c) in A. rewrite E in A. fold (cf_gen0 rd (k + 1) true c) in A.
  destruct (cf_add rd 1 true ck) as [c2 [[]|e]].
  - destruct A as (c3 & A & _ & _ & _ & B). rewrite (B (or_introl eq_refl)) in A. exact A.
  - destruct A as (c3 & A & _). rewrite A. reflexivity.
Qed.
(** the error after i iterations *)
Definition errv (rd : Q -> Q) (a b : coeffs) (t : Q) (i : Z) : mpfv :=
  match pq_value rd (contP (icoef a 0) (icoefs a b (upto i))) (contQ (icoefs a b (upto i))) with
  | NaN => NaN
  | Fin x => Fin (Qabs (rd (x - t)%Q))
  end.
Lemma compare_errv rd a b av lg t c0 c i ci : fresh a b av lg (Some t) c0 -> same_static c0 c -> 1 <= i -> cf_gen0 rd i true c = (ci, Ok tt) ->
  cf_compare rd None true ci = Ok (errv rd a b t i).
Proof.
  intros HF HS Hi E. destruct (gen_state _ _ _ _ _ _ _ _ _ _ _ HF HS E) as (_ & _ & _ & R). specialize (R eq_refl (or_intror Hi)).
  destruct (fresh_inv _ _ _ _ _ _ HF) as (_ & _ & _ & _ & _ & _ & _ & Ht & _).
  assert (S2 : same_static c0 ci) by (eapply same_static_trans; [exact HS|]; pose proof (cf_gen0_static rd i true c) as S; rewrite E in S; exact S).
  destruct (same_static_proj _ _ S2) as (_ & _ & _ & _ & E5 & _). unfold cf_compare. rewrite E5, Ht. cbn [bind]. rewrite R. unfold errv.
  destruct (pq_value rd _ _); reflexivity.
Qed.
Lemma err_loop_spec rd a b av lg t c0 c n : fresh a b av lg (Some t) c0 -> same_static c0 c ->
  forall j k ck acc, 0 <= k -> n = k + Z.of_nat j -> cf_gen0 rd k true c = (ck, Ok tt) ->
  match find (bad_index av b) (zrange (k + 1) (n + 1)) with
  | Some i => snd (err_loop rd (zrange k n) ck acc) = Raise (ZeroB i)
  | None => exists cn, err_loop rd (zrange k n) ck acc = (cn, Ok (acc ++ map (fun i => (i, errv rd a b t i)) (zrange (k + 1) (n + 1)))) /\
                cf_gen0 rd n true c = (cn, Ok tt)
  end.
Proof.
  intros HF HS. induction j as [|j IH]; intros k ck acc Hk En E.
  - replace n with k by lia. rewrite !zrange_nil by lia. cbn. exists ck. rewrite app_nil_r. split; [reflexivity|exact E].
  - rewrite (zrange_cons k n), (zrange_cons (k + 1) (n + 1)) by lia. cbn [err_loop find map].
    pose proof (gen_step rd k c ck Hk E) as G.
    pose proof (gen_outcome rd a b av lg (Some t) c0 c (k + 1) true HF HS) as O.
    assert (U : find (bad_index av b) (upto (k + 1)) = if bad_index av b (k + 1) then Some (k + 1) else None).
    { unfold upto. rewrite <- zrange_1. rewrite (zrange_app 1 (1 + k) (1 + (k + 1))) by lia.
      pose proof (gen_ok_find _ _ _ _ _ _ _ _ _ _ _ HF HS E) as Fk.
      assert (FA : forall (f : Z -> bool) l1 l2, find f l1 = None -> find f (l1 ++ l2) = find f l2).
      { intros f l1 l2. induction l1 as [|x l1 IHl]; [reflexivity|]. cbn. destruct (f x); [discriminate|exact IHl]. }
      rewrite (FA _ _ _ Fk). rewrite zrange_cons by lia. rewrite zrange_nil by lia. cbn [find]. replace (1 + k) with (k + 1) by lia. reflexivity. }
    rewrite U in O. destruct (cf_add rd 1 true ck) as [c2 [[]|e]] eqn:EA.
    + rewrite G in O. cbn [snd] in O. destruct (bad_index av b (k + 1)); [discriminate|].
      rewrite (compare_errv rd a b av lg t c0 c (k + 1) c2 HF HS ltac:(lia) G).
      specialize (IH (k + 1) c2 (acc ++ [(k + 1, errv rd a b t (k + 1))]) ltac:(lia) ltac:(lia) G).
      destruct (find (bad_index av b) (zrange (k + 1 + 1) (n + 1))); [exact IH|]. destruct IH as (cn & E1 & E2). exists cn. rewrite E1. split; [|exact E2].
      rewrite <- app_assoc. reflexivity.
    + rewrite G in O. destruct (bad_index av b (k + 1)); [|discriminate]. cbn [snd]. congruence.
Qed.
Lemma gen_zero_ok rd a b av lg tg c0 c : fresh a b av lg tg c0 -> same_static c0 c ->
  exists c1, cf_gen0 rd 0 true c = (c1, Ok tt).
Proof.
  intros HF HS. pose proof (hinv_gen rd a b av lg tg c0 c 0 true HF HS) as G. rewrite zrange_nil in G by lia. cbn in G. destruct G as (c1 & E & _). eauto.
Qed.
Lemma build_errors_spec rd a b av lg t c0 c n : fresh a b av lg (Some t) c0 -> same_static c0 c -> 0 <= n ->
  match find (bad_index av b) (zrange 1 (n + 1)) with
  | Some i => snd (build_contfrac_errors rd n c) = Raise (ZeroB i)
  | None => exists c', build_contfrac_errors rd n c = (c', Ok (map (fun i => (i, errv rd a b t i)) (zrange 1 (n + 1)))) /\
                cf_gen0 rd 0 true c0 = (c', Ok tt)
  end.
Proof.
  intros HF HS Hn. unfold build_contfrac_errors. destruct (gen_zero_ok rd a b av lg _ c0 c HF HS) as [c1 E1]. rewrite E1.
  pose proof (err_loop_spec rd a b av lg t c0 c n HF HS (Z.to_nat n) 0 c1 [] ltac:(lia) ltac:(lia) E1) as L. change (0 + 1) with 1 in L.
  destruct (find (bad_index av b) (zrange 1 (n + 1))) as [i|].
  - destruct (err_loop rd (zrange 0 n) c1 []) as [c2 [l|e]]; cbn in *; congruence.
  - destruct L as (cn & E2 & E3). rewrite E2. cbn [app].
    assert (Sn : same_static c0 cn) by (eapply same_static_trans; [exact HS|]; pose proof (cf_gen0_static rd n true c) as S; rewrite E3 in S; exact S).
    rewrite (cf_gen0_static_eq rd 0 true c0 cn Sn). destruct (gen_zero_ok rd a b av lg _ c0 c0 HF (same_static_refl _)) as [c3 E4]. rewrite E4. eauto.
Qed.
Lemma in_build rd a b t n i : 1 <= i <= n -> In (i, errv rd a b t i) (map (fun i => (i, errv rd a b t i)) (zrange 1 (n + 1))).
Proof. intros H. apply in_map_iff. exists i. split; [reflexivity|]. apply in_zrange. lia. Qed.
Lemma find_bad_none av b n : (av = true -> forall i, 1 <= i <= n -> icoef b i <> 0) -> find (bad_index av b) (zrange 1 (n + 1)) = None.
Proof.
  intros H. destruct (find _ _) as [i|] eqn:F; [|reflexivity]. apply find_some in F as [F1 F2]. apply in_zrange in F1. unfold bad_index in F2. destruct av; [|discriminate].
  cbn in F2. apply andb_true_iff in F2 as [F2 _]. exfalso. apply (H eq_refl i); lia.
Qed.

(** ---- numerators and denominators as sequences ---- *)
Definition nth_P (a b : coeffs) (n : nat) : Z := contP (icoef a 0) (icoefs a b (map Z.of_nat (seq 1 n))).
Definition nth_Q (a b : coeffs) (n : nat) : Z := contQ (icoefs a b (map Z.of_nat (seq 1 n))).
Lemma nth_PQ_rec a b n : let i := Z.of_nat (S (S n)) in
  nth_P a b (S (S n)) = icoef a i * nth_P a b (S n) + icoef b i * nth_P a b n /\
  nth_Q a b (S (S n)) = icoef a i * nth_Q a b (S n) + icoef b i * nth_Q a b n.
Proof.
  cbn zeta. unfold nth_P, nth_Q.
  assert (SS : forall k, icoefs a b (map Z.of_nat (seq 1 (S k))) = icoefs a b (map Z.of_nat (seq 1 k)) ++ [(icoef a (Z.of_nat (S k)), icoef b (Z.of_nat (S k)))]).
  { intros k. rewrite seq_S, map_app. unfold icoefs. rewrite map_app. reflexivity. }
  destruct (msteps_contPQ (icoef a 0) (icoefs a b (map Z.of_nat (seq 1 n)))) as [P0 Q0].
  destruct (msteps_contPQ (icoef a 0) (icoefs a b (map Z.of_nat (seq 1 (S n))))) as [P1 Q1].
  destruct (msteps_contPQ (icoef a 0) (icoefs a b (map Z.of_nat (seq 1 (S (S n)))))) as [P2 Q2].
  rewrite (SS (S n)), fold_left_app in P2, Q2. cbn [fold_left] in P2, Q2.
  pose proof (msteps_snd (icoefs a b (map Z.of_nat (seq 1 n))) (icoef a (Z.of_nat (S n)), icoef b (Z.of_nat (S n))) ((icoef a 0, 1), (1, 0))) as [S1 S2].
  rewrite <- (SS n) in S1, S2.
  destruct (fold_left mstep (icoefs a b (map Z.of_nat (seq 1 (S n)))) (icoef a 0, 1, (1, 0))) as [[p p'] [q q']].
  cbn [mstep fst snd] in *. rewrite P0 in S1. rewrite Q0 in S2. subst p' q'. rewrite <- (SS (S n)) in P2, Q2. subst p q.
  split; [rewrite <- P2|rewrite <- Q2]; ring.
Qed.
Lemma injZ_pos z : 0 < z -> (0 < inject_Z z)%Q.
Proof. intros H. unfold Qlt. cbn. lia. Qed.
(** all coefficients positive: the finite fractions are defined *)
Lemma nested_pos a b : forall j k, (forall i, Z.of_nat k <= i -> 0 < icoef a i) -> (forall i, Z.of_nat k < i -> 0 < icoef b i) ->
  exists v, nested (inject_Z (icoef a (Z.of_nat k))) (toQ (icoefs a b (map Z.of_nat (seq (S k) j)))) = Some v /\ (0 < v)%Q.
Proof.
  induction j as [|j IH]; intros k Ha Hb.
  - eexists. split; [reflexivity|]. specialize (Ha (Z.of_nat k) ltac:(lia)). unfold Qlt. cbn. lia.
  - destruct (IH (S k)) as (v & E & V); [intros i Hi; apply Ha; lia|intros i Hi; apply Hb; lia|].
    unfold icoefs, toQ in *. cbn [seq map nested]. rewrite E.
    assert (Z0 : Qeq_bool v 0 = false) by (destruct (Qeq_bool v 0) eqn:F; [apply Qeq_bool_eq in F; rewrite F in V; discriminate V|reflexivity]).
    rewrite Z0. eexists. split; [reflexivity|]. specialize (Ha (Z.of_nat k) ltac:(lia)). specialize (Hb (Z.of_nat (S k)) ltac:(lia)).
    assert (A : (0 < inject_Z (icoef a (Z.of_nat k)))%Q) by (apply injZ_pos; exact Ha). assert (B : (0 < inject_Z (icoef b (Z.of_nat (S k))))%Q) by (apply injZ_pos; exact Hb).
    assert (D : (0 < inject_Z (icoef b (Z.of_nat (S k))) / v)%Q) by (apply Qlt_shift_div_l; [exact V|lra]). lra.
Qed.

(** ---- coefficients of the four fractions ---- *)
Lemma icoef_one c i : icoef [c] i = poly_val c i.
Proof. unfold icoef. cbn [length]. change (Z.of_nat 1) with 1. rewrite Z.mod_1_r. reflexivity. Qed.
Lemma nips_a1 i : icoef (nips_a 1) i = 2 + 2 * i.
Proof. cbn [nips_a]. rewrite icoef_one. cbn [poly_val]. ring. Qed.
Lemma nips_b1 i : icoef (nips_b 1) i = 4 * i.
Proof. cbn [nips_b]. rewrite icoef_one. cbn [poly_val]. ring. Qed.
Lemma nips_a2 i : icoef (nips_a 2) i = 1 + 3 * i.
Proof. cbn [nips_a]. rewrite icoef_one. cbn [poly_val]. ring. Qed.
Lemma nips_b2 i : icoef (nips_b 2) i = i * (3 - 2 * i).
Proof. cbn [nips_b]. rewrite icoef_one. cbn [poly_val]. ring. Qed.
Lemma nips_a3 i : icoef (nips_a 3) i = 1 + 2 * i.
Proof. cbn [nips_a]. rewrite icoef_one. cbn [poly_val]. ring. Qed.
Lemma nips_b3 i : icoef (nips_b 3) i = i * i.
Proof. cbn [nips_b]. rewrite icoef_one. cbn [poly_val]. ring. Qed.
Lemma nips_a4 i : icoef (nips_a 4) i = 6.
Proof. cbn [nips_a]. rewrite icoef_one. cbn [poly_val]. ring. Qed.
Lemma nips_b4 i : icoef (nips_b 4) i = (2 * i - 1) * (2 * i - 1).
Proof. cbn [nips_b]. rewrite icoef_one. cbn [poly_val]. ring. Qed.
Lemma nips_b_nz k i : (1 <= k <= 4)%nat -> 1 <= i -> icoef (nips_b k) i <> 0.
Proof.
  intros Hk Hi. destruct k as [|[|[|[|[|k]]]]]; try lia; [rewrite nips_b1|rewrite nips_b2|rewrite nips_b3|rewrite nips_b4]; nia.
Qed.
(** the tails of the second fraction stay above 2j + 1 *)
Lemma nested_2 : forall j k, exists v, nested (inject_Z (icoef (nips_a 2) (Z.of_nat k))) (toQ (icoefs (nips_a 2) (nips_b 2) (map Z.of_nat (seq (S k) j)))) = Some v /\
  (inject_Z (2 * Z.of_nat k + 1) <= v)%Q.
Proof.
  induction j as [|j IH]; intros k.
  - eexists. split; [reflexivity|]. rewrite nips_a2. rewrite <- Zle_Qle. lia.
  - destruct (IH (S k)) as (v & E & V). unfold icoefs, toQ in *. cbn [seq map nested]. rewrite E.
    assert (P : (0 < v)%Q) by (eapply Qlt_le_trans; [|exact V]; apply injZ_pos; lia).
    assert (Z0 : Qeq_bool v 0 = false) by (destruct (Qeq_bool v 0) eqn:F; [apply Qeq_bool_eq in F; rewrite F in P; discriminate P|reflexivity]).
    rewrite Z0. eexists. split; [reflexivity|]. rewrite nips_a2, nips_b2.
    destruct k as [|k].
    + assert (D : (0 <= inject_Z (Z.of_nat 1 * (3 - 2 * Z.of_nat 1)) / v)%Q) by (apply Qle_shift_div_l; [exact P|]; unfold Qle; cbn; lia).
      change (inject_Z (2 * Z.of_nat 0 + 1)) with 1%Q. change (inject_Z (1 + 3 * Z.of_nat 0)) with 1%Q. lra.
    + set (x := Z.of_nat (S k)) in *. assert (Hx : 1 <= x) by lia. replace (Z.of_nat (S (S k))) with (x + 1) in * by lia.
      assert (D : (- inject_Z x <= inject_Z ((x + 1) * (3 - 2 * (x + 1))) / v)%Q).
      { apply Qle_shift_div_l; [exact P|]. apply Qle_trans with (- inject_Z x * inject_Z (2 * (x + 1) + 1))%Q.
        - rewrite <- !inject_Z_opp, <- inject_Z_mult.
          assert (- inject_Z x * v <= - inject_Z x * inject_Z (2 * (x + 1) + 1))%Q; [|rewrite <- inject_Z_opp, <- inject_Z_mult in H; exact H].
          assert (W : (inject_Z x * inject_Z (2 * (x + 1) + 1) <= inject_Z x * v)%Q) by (apply Qmult_le_l; [apply injZ_pos; lia|exact V]). lra.
        - rewrite <- inject_Z_opp, <- inject_Z_mult, <- Zle_Qle. nia. }
      replace (inject_Z (1 + 3 * x)) with (inject_Z (x + (2 * x + 1))) by (f_equal; lia). rewrite (inject_Z_plus x (2 * x + 1)). lra.
Qed.
Lemma nips_nested k n : (1 <= k <= 4)%nat ->
  exists v, nested (inject_Z (icoef (nips_a k) 0)) (toQ (icoefs (nips_a k) (nips_b k) (map Z.of_nat (seq 1 n)))) = Some v.
Proof.
  intros Hk. change 0 with (Z.of_nat 0). destruct k as [|[|[|[|[|k]]]]]; try lia.
  - destruct (nested_pos (nips_a 1) (nips_b 1) n 0) as (v & E & _); [intros i Hi; rewrite nips_a1; lia|intros i Hi; rewrite nips_b1; lia|]. eauto.
  - destruct (nested_2 n 0) as (v & E & _). eauto.
  - destruct (nested_pos (nips_a 3) (nips_b 3) n 0) as (v & E & _); [intros i Hi; rewrite nips_a3; lia|intros i Hi; rewrite nips_b3; nia|]. eauto.
  - destruct (nested_pos (nips_a 4) (nips_b 4) n 0) as (v & E & _); [intros i Hi; rewrite nips_a4; lia|intros i Hi; rewrite nips_b4; nia|]. eauto.
Qed.

(** ---- over the reals ---- *)
Import Reals Qreals Lra.
Local Open Scope R_scope.
Definition rP (k n : nat) : R := IZR (nth_P (nips_a k) (nips_b k) n).
Definition rQ (k n : nat) : R := IZR (nth_Q (nips_a k) (nips_b k) n).
Lemma rPQ_rec k n : let i := Z.of_nat (S (S n)) in
  rP k (S (S n)) = IZR (icoef (nips_a k) i) * rP k (S n) + IZR (icoef (nips_b k) i) * rP k n /\
  rQ k (S (S n)) = IZR (icoef (nips_a k) i) * rQ k (S n) + IZR (icoef (nips_b k) i) * rQ k n.
Proof.
  cbn zeta. unfold rP, rQ. destruct (nth_PQ_rec (nips_a k) (nips_b k) n) as [E1 E2]. rewrite E1, E2, !plus_IZR, !mult_IZR. split; reflexivity.
Qed.
Lemma nested_R k n v : nested (inject_Z (icoef (nips_a k) 0)) (toQ (icoefs (nips_a k) (nips_b k) (map Z.of_nat (seq 1 n)))) = Some v ->
  Q2R v = rP k n / rQ k n.
Proof.
  intros E. destruct (nested_cont _ _ _ E) as [Nq Ev]. rewrite (Qeq_eqR _ _ Ev), Q2R_div.
  - unfold rP, rQ, nth_P, nth_Q, Q2R. cbn. field. apply not_0_IZR. exact Nq.
  - intros G. apply Nq. unfold Qeq in G. cbn in G. lia.
Qed.
Lemma nips1_error n : 14 / INR (fact (n + 4)) <= Rabs (rP 1 n / rQ 1 n - 1 / (exp 1 / 2 - 1)) <= 32 / INR (fact (n + 4)).
Proof.
  apply CF_Limits.cf1_error; try reflexivity; intros m; destruct (rPQ_rec 1 m) as [E1 E2]; rewrite ?E1, ?E2, nips_a1, nips_b1, plus_IZR, !mult_IZR, <- INR_IZR_INZ; reflexivity.
Qed.
Lemma nips2_error n : sqrt (2 * INR n + 3) * (/ 2) ^ S n / (CF_Limits.r2 (S n) * CF_Limits.r2 n) <= 4 / PI - rP 2 n / rQ 2 n <= 8 * sqrt (INR n + 1) * (/ 2) ^ S n / (CF_Limits.r2 (S n) * CF_Limits.r2 n).
Proof.
  apply CF_Limits.cf2_error; try reflexivity; intros m; destruct (rPQ_rec 2 m) as [E1 E2]; rewrite ?E1, ?E2, nips_a2, nips_b2, plus_IZR, !mult_IZR, minus_IZR, !mult_IZR, <- INR_IZR_INZ; reflexivity.
Qed.
Lemma nips3_error n : (2 * INR n + 5) / ((INR n + 2) * (INR n + 3)) * (4 / 25) ^ S n <= Rabs (rP 3 n / rQ 3 n - 4 / PI) <= (/ 4) ^ n / (INR n + 2).
Proof.
  apply CF_Limits.cf3_error; try reflexivity; intros m; destruct (rPQ_rec 3 m) as [E1 E2]; rewrite ?E1, ?E2, nips_a3, nips_b3, plus_IZR, !mult_IZR, <- INR_IZR_INZ; reflexivity.
Qed.
Lemma nips4_error n : CF_Limits.U4 n / 2 <= Rabs (rP 4 n / rQ 4 n - (PI + 3)) <= CF_Limits.U4 n.
Proof.
  apply CF_Limits.cf4_error; try reflexivity; intros m; destruct (rPQ_rec 4 m) as [E1 E2]; rewrite ?E1, ?E2, nips_a4, nips_b4, !mult_IZR, minus_IZR, !mult_IZR, <- INR_IZR_INZ; cbn [pow]; ring.
Qed.

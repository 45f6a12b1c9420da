(** Properties of the estimate of the type and speed of convergence. *)
From Coq Require Import ZArith QArith Qabs Qpower List Bool Lia Lqa.
From Verif Require Import PyBase PyBase_Proofs Rnd Rnd_Proofs Utils_Model Spec_Utils Utils_Proofs ContFrac_Model Spec_ContFrac ContFrac_Proofs
  ContFrac_Hist ContFrac_Proofs2 ContFrac_Est Classify_Model Spec_Classify Classify_Proofs Classify_Geo Classify_Round Classify_Sample.
From Coq Require Qcanon.
From Verif Require Properties_ContFrac.
Import ListNotations.
Open Scope Z_scope.

(** ---- square roots for the examples ---- *)
Definition ex_sqrt (q : Q) : Q := Qred ((Z.sqrt (Qnum q * Zpos (Qden q) * 1000000) # Qden q * 1000)).
Definition ex_sqrt_exact (q : Q) : Q := let r := Qred q in Z.sqrt (Qnum r) # Z.to_pos (Z.sqrt (Zpos (Qden r))).

Lemma ex_sqrt_close : sqrt_close ex_sqrt.
Proof.
  intros [n p] H. unfold Qle in H. cbn in H. assert (N : 0 <= n) by lia. unfold ex_sqrt. cbn [Qnum Qden]. rewrite Qred_correct.
  pose proof (Z.sqrt_spec (n * Zpos p * 1000000) ltac:(lia)) as S. pose proof (Z.sqrt_nonneg (n * Zpos p * 1000000)) as S0.
  set (r := Z.sqrt (n * Zpos p * 1000000)) in *. cbv zeta in S. unfold Z.succ in S.
  split; [unfold Qle; cbn; lia|].
  assert (R : n = 0 \/ 1000 <= r) by (destruct (Z.eq_dec n 0); [left; assumption|right; nia]).
  set (P := Zpos p) in *. assert (PP : 0 < P) by (subst P; lia).
  assert (B : 99 * (n * P * 1000000) <= 100 * (r * r)) by (destruct R as [->|R]; [nia|nia]).
  assert (B2 : r * r <= n * P * 1000000) by lia.
  unfold Qle, Qmult. cbn [Qnum Qden]. rewrite !Pos2Z.inj_mul. fold P. clear - B B2 PP N.
  set (w := r * r) in *. clearbody w. split.
  - replace (99 * n * (P * 1000 * (P * 1000))) with (99 * (n * P * 1000000) * P) by ring.
    replace (w * (100 * P)) with (100 * w * P) by ring. apply Z.mul_le_mono_nonneg_r; lia.
  - replace (w * (100 * P)) with (100 * w * P) by ring.
    replace (101 * n * (P * 1000 * (P * 1000))) with (101 * (n * P * 1000000) * P) by ring. apply Z.mul_le_mono_nonneg_r; [lia|].
    assert (0 <= n * P * 1000000) by (apply Z.mul_nonneg_nonneg; [apply Z.mul_nonneg_nonneg; lia|lia]). lia.
Qed.

Lemma ex_sqrt_exact_ok : sqrt_exact ex_sqrt_exact.
Proof.
  intros r x R E. unfold ex_sqrt_exact. cbv zeta.
  assert (RR : Qred x = Qmake (Qnum (Qred r) * Qnum (Qred r)) (Qden (Qred r) * Qden (Qred r))).
  { transitivity (Qred (Qmake (Qnum (Qred r) * Qnum (Qred r)) (Qden (Qred r) * Qden (Qred r)))).
    - apply Qred_complete. rewrite E. change (Qnum (Qred r) * Qnum (Qred r) # Qden (Qred r) * Qden (Qred r)) with (Qred r * Qred r)%Q.
      now rewrite !Qred_correct.
    - apply Qcanon.Qred_identity. cbn [Qnum Qden]. pose proof (Qred_correct r) as C.
      assert (G : Z.gcd (Qnum (Qred r)) (Zpos (Qden (Qred r))) = 1) by (apply Qcanon.Qred_identity2; apply Qred_complete, Qred_correct).
      rewrite Pos2Z.inj_mul. apply Znumtheory.Zgcd_1_rel_prime in G. apply Znumtheory.Zgcd_1_rel_prime.
      apply Znumtheory.rel_prime_mult; apply Znumtheory.rel_prime_sym; apply Znumtheory.rel_prime_mult; apply Znumtheory.rel_prime_sym; exact G. }
  rewrite RR. cbn [Qnum Qden].
  assert (N : 0 <= Qnum (Qred r)) by (rewrite <- (Qred_correct r) in R; unfold Qle in R; cbn in R; lia).
  rewrite Z.sqrt_square by exact N. rewrite Pos2Z.inj_mul, Z.sqrt_square by lia. rewrite Pos2Z.id.
  transitivity (Qred r); [destruct (Qred r); reflexivity|apply Qred_correct].
Qed.

Lemma Qred_exact : exact Qred.
Proof. intros q. apply Qred_correct. Qed.

Lemma rnd_accurate p n : 1000 * (1 + Z.of_nat n) <= 2 ^ p -> 0 <= p -> accurate n (rnd p).
Proof.
  intros H P. exists (two_p (- p)). split; [apply Qlt_le_weak, two_p_pos|]. split; [intros q; apply rnd_err|].
  assert (E : (two_p (- p) * inject_Z (2 ^ p) == 1)%Q).
  { rewrite <- (two_p_Z p P). apply two_p_opp_l. }
  pose proof (two_p_pos (- p)) as T. assert (HQ : (1000 * inject_Z (1 + Z.of_nat n) <= inject_Z (2 ^ p))%Q).
  { change 1000%Q with (inject_Z 1000). rewrite <- inject_Z_mult, <- Zle_Qle. exact H. }
  set (t := two_p (- p)) in *. set (k := inject_Z (1 + Z.of_nat n)) in *. set (w := inject_Z (2 ^ p)) in *. nra.
Qed.

(** decision procedure for the examples *)
Definition within_b (lo hi : Q) (l : list Q) : bool := forallb (fun q => Qle_bool lo q && Qle_bool q hi) l.
Lemma within_b_ok lo hi l : within_b lo hi l = true -> within lo hi l.
Proof.
  unfold within_b, within. rewrite forallb_forall, Forall_forall. intros H q I. specialize (H q I).
  apply andb_true_iff in H. rewrite !Qle_bool_iff in H. exact H.
Qed.

(** the samples (i, [x i; x (i+1); ...; x (i+5)]) *)
Notation sampled := samples.

(* ================= C96: geometric convergence ================= *)
Theorem C96_geometric : forall rd dps msqrt flog linregress x L c s r idx,
  exact rd -> sqrt_exact msqrt -> ~ (c == 0)%Q -> (s * s == 1)%Q -> (0 < r)%Q -> (exp_threshold < r * r)%Q ->
  geometric x L c s r idx -> (6 <= length idx)%nat ->
  exists b k, classify rd dps msqrt flog linregress (sampled x idx) = Ok (ATExp, APPair b k) /\ (b == r)%Q /\ (k == Qabs c)%Q.
Proof.
  intros rd dps msqrt flog linregress x L c s r idx RD SQ C S R0 R1 G H. eapply geometric_classified; eassumption.
Qed.
Theorem C96_threshold : (11 # 10 < exp_threshold < 110001 # 100000)%Q.
Proof. vm_compute. split; reflexivity. Qed.
Definition C96_x (i : Z) : option Q := Some (1 + (1 # 2) * Qpower (-1 * (2 # 1)) (- i))%Q.
Example C96_ex : geometric C96_x 1 (1 # 2) (-1) (2 # 1) [0; 5; 10; 15; 20; 25] /\ (exp_threshold < (2 # 1) * (2 # 1))%Q /\
  classify Qred 15 ex_sqrt_exact (fun q => q) (fun _ _ => (NaN, NaN, NaN)) (sampled C96_x [0; 5; 10; 15; 20; 25]) = Ok (ATExp, APPair 2 (1 # 2)).
Proof.
  split; [|split; vm_compute; reflexivity].
  intros i k _ _. eexists. split; [reflexivity|]. reflexivity.
Qed.

(* ================= C97: the decision, with rounding ================= *)
(** all factors near one value of at least 1.2: exponential, with a base whose square is near it *)
Theorem C97_exp : forall rd dps msqrt flog linregress x idx lo hi,
  accurate (length idx) rd -> sqrt_close msqrt -> (6 <= length (evens_at x idx))%nat -> odds_at x idx <> [] ->
  (12 # 10 <= lo)%Q -> (hi <= (14 # 10) * lo)%Q -> within lo hi (evens_at x idx) -> within lo hi (odds_at x idx) ->
  exists b k, classify rd dps msqrt flog linregress (sampled x idx) = Ok (ATExp, APPair b k) /\
    (0 <= b)%Q /\ (0 <= k)%Q /\ ((97 # 100) * lo <= b * b <= (103 # 100) * hi)%Q.
Proof.
  intros rd dps msqrt flog linregress x idx lo hi (d & D0 & RD & B) SQ H O L HI FE FO.
  exact (close_classified rd d RD D0 dps msqrt flog linregress SQ x idx B lo hi H O L HI FE FO).
Qed.

(** all factors at least 2.1, however different: exponential or super-exponential, never an exception *)
Theorem C97_large : forall rd dps msqrt flog linregress x idx,
  accurate (length idx) rd -> sqrt_close msqrt -> (6 <= length (evens_at x idx))%nat -> odds_at x idx <> [] ->
  Forall (fun q => (21 # 10 <= q)%Q) (evens_at x idx) -> Forall (fun q => (21 # 10 <= q)%Q) (odds_at x idx) ->
  exists t b k, classify rd dps msqrt flog linregress (sampled x idx) = Ok (t, APPair b k) /\
    (t = ATExp \/ t = ATSuperExp) /\ (1 < b)%Q /\ (0 <= k)%Q.
Proof.
  intros rd dps msqrt flog linregress x idx (d & D0 & RD & B) SQ H O FE FO.
  exact (large_classified_r rd d RD D0 dps msqrt flog linregress SQ x idx B H O FE FO).
Qed.

(** an answer of exp or super_exp needs at least six factors, and one above 1.08 in each subsequence *)
Theorem C97_exp_only : forall rd dps msqrt flog linregress x idx t p,
  accurate (length idx) rd -> sqrt_close msqrt ->
  classify rd dps msqrt flog linregress (sampled x idx) = Ok (t, p) -> t = ATExp \/ t = ATSuperExp ->
  (6 <= length (evens_at x idx))%nat /\ Exists (fun q => (108 # 100 < q)%Q) (evens_at x idx) /\
  Exists (fun q => (108 # 100 < q)%Q) (odds_at x idx).
Proof.
  intros rd dps msqrt flog linregress x idx t p (d & D0 & RD & B) SQ E T.
  exact (exp_needs_r rd d RD D0 dps msqrt flog linregress SQ x idx B t p E T).
Qed.

(** one subsequence fast and the other slow: mixed *)
Theorem C97_mixed : forall rd dps msqrt flog linregress x idx lo hi lo' hi',
  accurate (length idx) rd -> sqrt_close msqrt -> (6 <= length (evens_at x idx))%nat -> odds_at x idx <> [] ->
  (0 < lo)%Q -> (hi <= (14 # 10) * lo)%Q -> (0 < lo')%Q -> (hi' <= (14 # 10) * lo')%Q ->
  within lo hi (evens_at x idx) -> within lo' hi' (odds_at x idx) ->
  (12 # 10 <= lo /\ hi' <= 108 # 100 \/ hi <= 108 # 100 /\ 12 # 10 <= lo')%Q ->
  classify rd dps msqrt flog linregress (sampled x idx) = Ok (ATMixed, APNone).
Proof.
  intros rd dps msqrt flog linregress x idx lo hi lo' hi' (d & D0 & RD & B) SQ H O L HI L' HI' FE FO C.
  exact (mixed_classified rd d RD D0 dps msqrt flog linregress SQ x idx B lo hi lo' hi' H O L HI L' HI' FE FO C).
Qed.

(** all factors near one value of at most 1.08: polynomial, or the ValueError of a logarithm *)
Theorem C97_slow : forall rd dps msqrt flog linregress x idx lo hi,
  accurate (length idx) rd -> sqrt_close msqrt -> (6 <= length (evens_at x idx))%nat -> odds_at x idx <> [] ->
  (0 < lo)%Q -> (hi <= (14 # 10) * lo)%Q -> (hi <= 108 # 100)%Q -> within lo hi (evens_at x idx) -> within lo hi (odds_at x idx) ->
  (exists u v w, classify rd dps msqrt flog linregress (sampled x idx) = Ok (ATPoly, APTriple u v w)) \/
  classify rd dps msqrt flog linregress (sampled x idx) = Raise ValueError.
Proof.
  intros rd dps msqrt flog linregress x idx lo hi (d & D0 & RD & B) SQ H O L HI C FE FO.
  rewrite (slow_classified rd d RD D0 dps msqrt flog linregress SQ x idx B lo hi H O L HI C FE FO). unfold poly_params.
  assert (R : forall l, (exists r, regress flog linregress l = Ok r) \/ regress flog linregress l = Raise ValueError).
  { intros l. unfold regress.
    assert (M1 : (exists r, mapM (fun p : Z * mpfv => log_int flog (fst p)) l = Ok r) \/ mapM (fun p : Z * mpfv => log_int flog (fst p)) l = Raise ValueError).
    { induction l as [|q l IH]; [left; eexists; reflexivity|]. cbn [mapM]. unfold log_int at 1 3. destruct (fst q <=? 0); [right; reflexivity|]. cbn [bind].
      destruct IH as [[r ->]| ->]; [left; eexists; reflexivity|right; reflexivity]. }
    assert (M2 : (exists r, mapM (fun p : Z * mpfv => log_mpf flog (snd p)) l = Ok r) \/ mapM (fun p : Z * mpfv => log_mpf flog (snd p)) l = Raise ValueError).
    { clear M1. induction l as [|q l IH]; [left; eexists; reflexivity|]. cbn [mapM]. unfold log_mpf at 1 3.
      destruct (snd q) as [y|]; [destruct (Qle_bool y _); [right; reflexivity|]|]; cbn [bind];
      (destruct IH as [[r ->]| ->]; [left; eexists; reflexivity|right; reflexivity]). }
    destruct M1 as [[r ->]| ->]; [|right; reflexivity]. cbn [bind]. destruct M2 as [[r' ->]| ->]; [left; eexists; reflexivity|right; reflexivity]. }
  destruct (R (delta_pair rd (samples x idx))) as [[[[s1 i1] r1] ->]| ->]; [|right; reflexivity]. cbn [bind].
  destruct (R (delta_odd rd (samples x idx))) as [[[[s2 i2] r2] ->]| ->]; [|right; reflexivity]. cbn [bind]. left. eauto.
Qed.

(** a polynomial answer needs positive positions and differences everywhere (any arithmetic) *)
Theorem C97_poly_only : forall rd dps msqrt flog linregress x idx p i k,
  classify rd dps msqrt flog linregress (sampled x idx) = Ok (ATPoly, p) -> In i idx -> 0 <= k <= 3 ->
  0 < i /\ forall u v, x (i + k) = Some u -> x (i + k + 2) = Some v -> ~ (rd (v - u) == 0)%Q.
Proof.
  intros rd dps msqrt flog linregress x idx p i k E I K.
  enough (X : 0 < i /\ forall q, delta rd (mv (x (i + k + 2))) (mv (x (i + k))) = Fin q -> (0 < q)%Q).
  { destruct X as [P X]. split; [exact P|]. intros u v EU EV Z. specialize (X (Qabs (rd (v - u)%Q))). rewrite EU, EV in X. specialize (X eq_refl). rewrite Z in X. discriminate. }
  pose proof (poly_needs _ _ _ _ _ _ _ _ E eq_refl) as F.
  rewrite Forall_forall in F.
  assert (IN : forall j y, (In (j, y) (pair_of_sample rd (i, map mv (six x i))) \/ In (j, y) (odd_of_sample rd (i, map mv (six x i)))) ->
    0 < j /\ forall q, y = Fin q -> (0 < q)%Q).
  { intros j y H. apply (F (j, y)). apply in_or_app. unfold delta_pair, delta_odd, samples.
    destruct H as [H|H]; [left|right]; apply in_flat_map; exists (i, map mv (six x i)); (split; [apply in_map_iff; eauto|exact H]). }
  unfold pair_of_sample, odd_of_sample, six in IN. cbn [map nth] in IN. rewrite Z.add_0_r in IN.
  split; [refine (proj1 (IN i _ _)); left; left; reflexivity|].
  assert (C : k = 0 \/ k = 1 \/ k = 2 \/ k = 3) by lia.
  destruct C as [->|[->|[->| ->]]]; intros q H.
  - rewrite Z.add_0_r in H. refine (proj2 (IN i _ (or_introl (or_introl eq_refl))) q H).
  - replace (i + 1 + 2) with (i + 3) in H by lia. refine (proj2 (IN (i + 1) _ (or_intror (or_introl eq_refl))) q H).
  - replace (i + 2 + 2) with (i + 4) in H by lia. refine (proj2 (IN (i + 2) _ (or_introl (or_intror (or_introl eq_refl)))) q H).
  - replace (i + 3 + 2) with (i + 5) in H by lia. refine (proj2 (IN (i + 3) _ (or_intror (or_intror (or_introl eq_refl)))) q H).
Qed.

Definition C97_x (i : Z) : option Q := Some (Qpower (10 # 1) (- i)).
Definition C97_slow_x (i : Z) : option Q := Some (1 # Z.to_pos i).
Definition C97_mix_x (i : Z) : option Q := if Z.even i then Some (Qpower (2 # 1) (- i)) else Some (1 # Z.to_pos i).
Definition C97_idx : list Z := [60; 66; 72; 78; 84; 90].
Example C97_ex : accurate 6 (rnd 53) /\ sqrt_close ex_sqrt /\
  within (99 # 1) (101 # 1) (evens_at C97_x C97_idx) /\ length (evens_at C97_x C97_idx) = 6%nat /\ within (99 # 1) (101 # 1) (odds_at C97_x C97_idx) /\ odds_at C97_x C97_idx <> [] /\
  within 1 (108 # 100) (evens_at C97_slow_x C97_idx) /\
  within 4 4 (evens_at C97_mix_x C97_idx) /\ within 1 (108 # 100) (odds_at C97_mix_x C97_idx).
Proof.
  split; [apply rnd_accurate; vm_compute; discriminate|]. split; [exact ex_sqrt_close|].
  split; [apply within_b_ok; vm_compute; reflexivity|]. split; [vm_compute; reflexivity|].
  split; [apply within_b_ok; vm_compute; reflexivity|]. split; [vm_compute; discriminate|].
  split; [apply within_b_ok; vm_compute; reflexivity|]. split; apply within_b_ok; vm_compute; reflexivity.
Qed.

(* ================= C98: results that stopped changing ================= *)
(** a distance of at most c times 10^-dps *)
Notation below := tiny.

(** 'fast' means: fewer than six usable factors, and the last three distances of both subsequences are below the precision *)
Theorem C98_fast_only : forall rd dps msqrt flog linregress x idx p,
  accurate (length idx) rd -> classify rd dps msqrt flog linregress (sampled x idx) = Ok (ATFast, p) ->
  p = APNone /\ (length (evens_at x idx) < 6)%nat /\
  exists pre i' i, idx = pre ++ [i'; i] /\
    below dps (101 # 100) (gap x (i' + 2)) /\ below dps (101 # 100) (gap x i) /\ below dps (101 # 100) (gap x (i + 2)) /\
    below dps (101 # 100) (gap x (i' + 3)) /\ below dps (101 # 100) (gap x (i + 1)) /\ below dps (101 # 100) (gap x (i + 3)).
Proof.
  intros rd dps msqrt flog linregress x idx p (d & D0 & RD & B) E.
  pose proof (d_small d D0 idx B) as D1.
  destruct (fast_any _ _ _ _ _ _ _ _ E eq_refl) as (-> & L & E1 & E2). split; [reflexivity|].
  rewrite (proj1 (ev_len rd d RD D0 x idx B)) in L. split; [exact L|].
  destruct (Nat.lt_ge_cases (length idx) 2) as [S|S]; [rewrite (dim_short rd dps x idx S) in E1; discriminate|].
  destruct (split_two idx S) as (pre & i' & i & ->). exists pre, i', i. split; [reflexivity|].
  destruct (dim_iff rd d RD dps x pre i' i _ (below_tiny rd d RD D0 D1 dps)) as [F1 F2]. specialize (F1 E1). specialize (F2 E2). tauto.
Qed.

(** conversely *)
Theorem C98_fast : forall rd dps msqrt flog linregress x pre i' i,
  accurate (length (pre ++ [i'; i])) rd -> (length (evens_at x (pre ++ [i'; i])) < 6)%nat ->
  below dps (99 # 100) (gap x (i' + 2)) -> below dps (99 # 100) (gap x i) -> below dps (99 # 100) (gap x (i + 2)) ->
  below dps (99 # 100) (gap x (i' + 3)) -> below dps (99 # 100) (gap x (i + 1)) -> below dps (99 # 100) (gap x (i + 3)) ->
  classify rd dps msqrt flog linregress (sampled x (pre ++ [i'; i])) = Ok (ATFast, APNone).
Proof.
  intros rd dps msqrt flog linregress x pre i' i (d & D0 & RD & B) L H1 H2 H3 H4 H5 H6.
  pose proof (d_small d D0 _ B) as D1.
  rewrite (few_r rd d RD D0 dps msqrt flog linregress x _ B L). unfold first_type.
  destruct (dim_intro rd d RD D1 dps x pre i' i) as [F1 F2]. rewrite F1, F2 by tauto. reflexivity.
Qed.

(** with fewer than six usable factors there are no parameters, and the answer is None, undefined or fast *)
Theorem C98_few : forall rd dps msqrt flog linregress x idx, accurate (length idx) rd -> (length (evens_at x idx) < 6)%nat ->
  exists t, classify rd dps msqrt flog linregress (sampled x idx) = Ok (t, APNone) /\ (t = ATNone \/ t = ATUndefined \/ t = ATFast).
Proof.
  intros rd dps msqrt flog linregress x idx (d & D0 & RD & B) L. eexists.
  split; [exact (few_r rd d RD D0 dps msqrt flog linregress x _ B L)|].
  unfold first_type. destruct (xorb _ _); [auto|]. destruct (_ && _); auto.
Qed.

(** six usable factors in the even subsequence and none in the odd one: ZeroDivisionError *)
Theorem C98_no_odd : forall rd dps msqrt flog linregress x idx, accurate (length idx) rd -> sqrt_close msqrt ->
  (6 <= length (evens_at x idx))%nat -> odds_at x idx = [] ->
  classify rd dps msqrt flog linregress (sampled x idx) = Raise ZeroDivisionError.
Proof.
  intros rd dps msqrt flog linregress x idx (d & D0 & RD & B) SQ L O.
  exact (no_odd_r rd d RD D0 dps msqrt flog linregress SQ x idx B L O).
Qed.
Definition C98_x (i : Z) : option Q := Some (if i <? 20 then 1 # Z.to_pos (i + 1) else 1%Q).
Definition C98_odd_x (i : Z) : option Q := Some (if Z.even i then 1 # Z.to_pos (i + 1) else 1%Q).
Example C98_ex :
  classify (rnd 53) 15 ex_sqrt (fun q => q) (fun _ _ => (NaN, NaN, NaN)) (sampled C98_x [10; 20; 30]) = Ok (ATFast, APNone) /\
  below 15 (99 # 100) (gap C98_x 22) /\ (length (evens_at C98_x [10; 20; 30]%Z) < 6)%nat /\
  length (evens_at C98_odd_x [0; 6; 12; 18; 24; 30]) = 6%nat /\ odds_at C98_odd_x [0; 6; 12; 18; 24; 30] = [].
Proof.
  split; [vm_compute; reflexivity|]. split; [eexists; split; [reflexivity|vm_compute; discriminate]|].
  split; [vm_compute; lia|]. split; vm_compute; reflexivity.
Qed.

(* ================= C99: the estimate of a fraction ================= *)
(** the estimation classifies the convergents at the cutoff, cutoff + step, ... <= iters, each with its five successors *)
Theorem C99_samples : forall rd a b av tg c0 os c r cls iters cutoff step,
  accurate 0 rd -> fresh a b av false tg c0 -> never_bad av b -> cf_run rd os c0 = (c, r) -> 0 <= cutoff -> 5 <= step ->
  exists idx c', cf_inner_alg rd cls iters cutoff step c = (c', cls (sampled (convergent rd a b) (cutoff :: idx))) /\
    forall t v, nth_error idx t = Some v <-> v = cutoff + step * (Z.of_nat t + 1) /\ v <= iters.
Proof.
  intros rd a b av tg c0 os c r cls iters cutoff step (d & D0 & RD & B) HF NB HR CU ST.
  assert (D1 : (0 <= d < 1)%Q) by (split; [exact D0|]; change (inject_Z (1 + Z.of_nat 0)) with 1%Q in B; lra).
  destruct (inner_samples rd d RD D1 a b av tg c0 HF NB cls iters cutoff step c (Properties_ContFrac.run_static_of _ _ _ _ _ HR) CU ST) as (c' & E & _).
  eexists. exists c'. split; [exact E|]. intros t v. rewrite (ULCD_Proofs.zrange_step_spec (cutoff + step) (iters + 1) step ltac:(lia) t v).
  split; intros [H1 H2]; split; lia.
Qed.

(** the convergents are those of the fraction *)
Theorem C99_convergent : forall prec a b k, 3 <= prec -> contQ (icoefs a b (map Z.of_nat (seq 1 (Z.to_nat k)))) <> 0 ->
  exists v, convergent (rnd prec) a b k = Some v /\
    let l := icoefs a b (map Z.of_nat (seq 1 (Z.to_nat k))) in
    approx v (inject_Z (contP (icoef a 0) l) / inject_Z (contQ l)) (4 * two_p (- prec)).
Proof.
  intros prec a b k P N. unfold convergent. cbv zeta. destruct (Z.eqb_spec (contQ (icoefs a b (map Z.of_nat (seq 1 (Z.to_nat k))))) 0); [contradiction|].
  eexists. split; [reflexivity|].
  destruct (pq_value_err prec (contP (icoef a 0) (icoefs a b (map Z.of_nat (seq 1 (Z.to_nat k))))) _ P N) as (v & E & A).
  unfold pq_value in E. cbv zeta in E. destruct (Qeq_bool _ 0); [discriminate|]. injection E as <-. exact A.
Qed.

(** so a fraction whose convergents approach each other by a steady factor is reported as exponential *)
Theorem C99_exp : forall rd dps msqrt flog linregress a b av tg c0 os c r fuel iters cutoff step idx lo hi,
  accurate (S (length idx)) rd -> sqrt_close msqrt -> fresh a b av false tg c0 -> never_bad av b -> cf_run rd os c0 = (c, r) -> 0 <= cutoff -> 5 <= step ->
  (forall t v, nth_error idx t = Some v <-> v = cutoff + step * (Z.of_nat t + 1) /\ v <= iters) ->
  (6 <= length (evens_at (convergent rd a b) (cutoff :: idx)))%nat -> odds_at (convergent rd a b) (cutoff :: idx) <> [] ->
  (12 # 10 <= lo)%Q -> (hi <= (14 # 10) * lo)%Q ->
  within lo hi (evens_at (convergent rd a b) (cutoff :: idx)) -> within lo hi (odds_at (convergent rd a b) (cutoff :: idx)) ->
  exists c' base k, cf_estimate rd (classify rd dps msqrt flog linregress) fuel iters cutoff step c = Some (c', Ok tt) /\
    cf_atype c' = ATExp /\ cf_aparams c' = APPair base k /\ (0 <= base)%Q /\ ((97 # 100) * lo <= base * base <= (103 # 100) * hi)%Q.
Proof.
  intros rd dps msqrt flog linregress a b av tg c0 os c r fuel iters cutoff step idx lo hi AC SQ HF NB HR CU ST IX H O L HI FE FO.
  assert (IDX : zrange_step (cutoff + step) (iters + 1) step = idx).
  { apply ULCD_Proofs.list_nth_error_ext. intros t.
    pose proof (ULCD_Proofs.zrange_step_spec (cutoff + step) (iters + 1) step ltac:(lia) t) as SP.
    destruct (nth_error idx t) as [v|] eqn:E.
    - apply SP. apply IX in E. lia.
    - destruct (nth_error (zrange_step (cutoff + step) (iters + 1) step) t) as [v|] eqn:E2; [|reflexivity].
      pose proof (proj1 (SP v) eq_refl) as E3. exfalso. assert (X : nth_error idx t = Some v) by (apply IX; lia). congruence. }
  destruct (C97_exp rd dps msqrt flog linregress (convergent rd a b) (cutoff :: idx) lo hi AC SQ H O L HI FE FO) as (base & k & E & B0 & K0 & BB).
  destruct AC as (d & D0 & RD & B). pose proof (d_small d D0 (cutoff :: idx) B) as D1.
  rewrite <- IDX in E.
  destruct (estimate_first rd d RD ltac:(lra) a b av tg c0 HF NB _ fuel iters cutoff step c ATExp _ (Properties_ContFrac.run_static_of _ _ _ _ _ HR) CU ST E ltac:(discriminate)) as (c' & E1 & E2 & E3).
  exists c', base, k. auto.
Qed.

(** with a cutoff of 0 the estimate never reports polynomial convergence (any fraction, any arithmetic) *)
Theorem C99_cutoff_zero : forall rd dps msqrt flog linregress fuel iters step c c',
  cf_estimate rd (classify rd dps msqrt flog linregress) fuel iters 0 step c = Some (c', Ok tt) -> cf_atype c' <> ATPoly.
Proof.
  intros rd dps msqrt flog linregress. set (cls := classify rd dps msqrt flog linregress).
  assert (SL : forall idx step c acc c' s, sample_loop rd idx step c acc = (c', Ok s) -> exists r, s = acc ++ r).
  { induction idx as [|i idx IH]; intros step c acc c' s E; cbn [sample_loop] in E.
    - injection E as _ <-. exists []. now rewrite app_nil_r.
    - destruct (cf_add rd (step - 5) true c) as [c1 [[]|]]; [|discriminate]. destruct (five_res rd 5 c1 []) as [c2 [l|]]; [|discriminate].
      apply IH in E. destruct E as [r ->]. exists ((i, l) :: r). now rewrite <- app_assoc. }
  assert (IN : forall iters step c c' t p, cf_inner_alg rd cls iters 0 step c = (c', Ok (t, p)) -> t <> ATPoly).
  { intros iters step c c' t p E ->. unfold cf_inner_alg in E.
    destruct (cf_gen0 rd 0 true c) as [c1 [[]|]]; [|discriminate]. destruct (five_res rd 5 c1 []) as [c2 [l|]]; [|discriminate].
    destruct (py_range3 (0 + step) (iters + 1) step) as [idx|]; [|discriminate].
    destruct (sample_loop rd idx step c2 [(0, l)]) as [c3 [s|]] eqn:S; [|discriminate].
    apply SL in S. destruct S as [r ->]. injection E as _ E. apply poly_needs in E; [|reflexivity].
    cbn [delta_pair app flat_map pair_of_sample] in E. inversion_clear E as [|? ? [E1 _] _]. cbn in E1. lia. }
  intros fuel iters step c c' E. unfold cf_estimate in E.
  destruct (cf_inner_alg rd cls iters 0 step c) as [c1 [[t p]|]] eqn:I; [|discriminate]. apply IN in I.
  assert (L1 : forall f, est_loop1 rd cls f t p iters 0 step c1 = Some (c1, Ok (t, p, 0))).
  { intros f. destruct f; cbn [est_loop1]; rewrite andb_false_r; reflexivity. }
  rewrite L1 in E. cbn [Z.eqb] in E.
  assert (L2 : forall f t p k c c' t' p', t <> ATPoly -> est_loop2 rd cls f t p k 0 c = Some (c', Ok (t', p')) -> t' <> ATPoly).
  { induction f as [|f IH]; intros t0 p0 k d0 d' t' p' N E'; cbn [est_loop2] in E'.
    - destruct (_ && _); [discriminate|]. injection E' as _ <- _. exact N.
    - destruct (_ && _); [|injection E' as _ <- _; exact N]. change (Z.shiftr 0 1) with 0 in E'.
      destruct (cf_inner_alg rd cls (k - 5) 0 1 d0) as [d1 [[t1 p1]|]] eqn:I'; [|discriminate]. apply IN in I'. exact (IH _ _ _ _ _ _ _ I' E'). }
  destruct (est_loop2 rd cls fuel t p 50 0 c1) as [[c3 [[t3 p3]|]]|] eqn:E2; [|discriminate|discriminate].
  injection E as <-. cbn. exact (L2 _ _ _ _ _ _ _ _ I E2).
Qed.

(** 3 - 2/(3 - 2/(3 - ...)): convergents 2 + 1/(2^(k+1) - 1) *)
Example C99_ex : exists c0, fresh [[3]] [[-2]] true false None c0 /\ never_bad true [[-2]] /\ accurate 6 (rnd 53) /\
  within (39 # 10) (46 # 10) (evens_at (convergent (rnd 53) [[3]] [[-2]]) [2; 7; 12; 17; 22; 27]) /\
  within (39 # 10) (46 # 10) (odds_at (convergent (rnd 53) [[3]] [[-2]]) [2; 7; 12; 17; 22; 27]) /\
  length (evens_at (convergent (rnd 53) [[3]] [[-2]]) [2; 7; 12; 17; 22; 27]) = 6%nat /\
  match cf_estimate (rnd 53) (classify (rnd 53) 15 ex_sqrt (fun q => q) (fun _ _ => (NaN, NaN, NaN))) 0 30 2 5 c0 with
  | Some (c', Ok _) => cf_atype c' = ATExp | _ => False end.
Proof.
  eexists. split; [reflexivity|]. split; [|split; [apply rnd_accurate; vm_compute; discriminate|]].
  - intros i. unfold bad_index. cbn [andb]. assert (E : icoef [[-2]] i = -2) by (unfold icoef; change (Z.of_nat (length [[-2]])) with 1; rewrite Z.mod_1_r; change (Z.to_nat 0) with 0%nat; cbn [nth poly_val]; lia).
    rewrite E. reflexivity.
  - split; [apply within_b_ok; vm_compute; reflexivity|]. split; [apply within_b_ok; vm_compute; reflexivity|].
    split; vm_compute; reflexivity.
Qed.

Print Assumptions C96_geometric.
Print Assumptions C96_threshold.
Print Assumptions C97_exp.
Print Assumptions C97_large.
Print Assumptions C97_exp_only.
Print Assumptions C97_mixed.
Print Assumptions C97_slow.
Print Assumptions C97_poly_only.
Print Assumptions C98_fast_only.
Print Assumptions C98_fast.
Print Assumptions C98_few.
Print Assumptions C98_no_odd.
Print Assumptions C99_samples.
Print Assumptions C99_convergent.
Print Assumptions C99_exp.
Print Assumptions C99_cutoff_zero.

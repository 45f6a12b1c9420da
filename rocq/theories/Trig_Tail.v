(** How far the sum at which the loop of dec_cos and dec_sin stops is from every later sum of the series. *)
From Coq Require Import ZArith QArith Qabs Qpower Bool Lia Lqa Setoid.
From Verif Require Import PyBase Rnd Rnd_Proofs Trig_Model Spec_Trig Trig_Proofs Trig_Error.
Open Scope Z_scope.

Section Tail.
  Variables (d : nat) (x : Q).
  Notation t := (series_term d x).
  (** the quotient of two terms is x^2 / step *)
  Definition step (k : nat) : Z := (Z.of_nat (2 * k + d) + 1) * (Z.of_nat (2 * k + d) + 2).
  Lemma step_pos k : (0 < inject_Z (step k))%Q.
  Proof. change 0%Q with (inject_Z 0). rewrite <- Zlt_Qlt. unfold step. nia. Qed.
  Lemma step_mono j k : (j <= k)%nat -> (inject_Z (step j) <= inject_Z (step k))%Q.
  Proof. intros H. rewrite <- Zle_Qle. unfold step. nia. Qed.
  Lemma term_next k : (inject_Z (step k) * t (S k) == - (x * x) * t k)%Q.
  Proof.
    rewrite !series_term_sign. rewrite signs_S, inject_Z_opp. replace (2 * S k + d)%nat with (S (S (2 * k + d))) by lia. rewrite factorial_2.
    replace ((Z.of_nat (2 * k + d) + 2) * (Z.of_nat (2 * k + d) + 2 - 1)) with (step k) by (unfold step; ring). rewrite inject_Z_mult.
    assert (E : (Qpower x (Z.of_nat (S (S (2 * k + d)))) == x * x * Qpower x (Z.of_nat (2 * k + d)))%Q).
    { replace (Z.of_nat (S (S (2 * k + d)))) with (2 + Z.of_nat (2 * k + d)) by lia. destruct (Qeq_bool x 0) eqn:Z0; [|apply Qeq_bool_neq in Z0; rewrite Qpower_plus by exact Z0; reflexivity].
      apply Qeq_bool_iff in Z0. rewrite Z0. rewrite Qpower_0 by lia. ring. }
    rewrite E. pose proof (step_pos k). pose proof (fact_Q (2 * k + d)). field. split; lra.
  Qed.
  Lemma term_next_abs k : (inject_Z (step k) * Qabs (t (S k)) == (x * x) * Qabs (t k))%Q.
  Proof.
    rewrite <- (Qabs_pos (inject_Z (step k))) by (pose proof (step_pos k); lra). rewrite <- Qabs_Qmult, term_next, Qabs_Qmult, Qabs_opp, Qabs_sq. reflexivity.
  Qed.
  Lemma term_down k : (x * x <= inject_Z (step k))%Q -> (Qabs (t (S k)) <= Qabs (t k))%Q.
  Proof. intros H. pose proof (term_next_abs k) as E. pose proof (step_pos k) as P. apply (Qmult_le_l _ _ (inject_Z (step k)) P). rewrite E. apply Qmult_le_compat_r; [exact H|apply Qabs_nonneg]. Qed.
  Lemma term_up k : (inject_Z (step k) <= x * x)%Q -> (Qabs (t k) <= Qabs (t (S k)))%Q.
  Proof. intros H. pose proof (term_next_abs k) as E. pose proof (step_pos k) as P. apply (Qmult_le_l _ _ (inject_Z (step k)) P). rewrite E. apply Qmult_le_compat_r; [exact H|apply Qabs_nonneg]. Qed.
  Lemma term_abs k : (t k == inject_Z (signs k) * (inject_Z (signs k) * t k))%Q.
  Proof. unfold signs. destruct (Nat.even k); cbn [inject_Z]; [change (inject_Z 1) with 1%Q|change (inject_Z (-1)) with (-1)%Q]; ring. Qed.
  Lemma term_signed k : (t (S k) == - (x * x / inject_Z (step k)) * t k)%Q.
  Proof. pose proof (term_next k) as E. pose proof (step_pos k) as P. setoid_replace (t (S k)) with (/ inject_Z (step k) * (inject_Z (step k) * t (S k)))%Q by (field; lra). rewrite E. field. lra. Qed.
  (** the sum of the terms n+1 .. n+j lies between 0 and the first of them *)
  Lemma alternating j : forall n, (x * x <= inject_Z (step (S n)))%Q -> exists c, (0 <= c <= 1)%Q /\ (series d x (n + j) - series d x n == c * t (S n))%Q.
  Proof.
    induction j as [|j IH]; intros n H.
    - exists 0%Q. split; [lra|]. rewrite Nat.add_0_r. ring.
    - destruct (IH (S n)) as (c & C & E).
      { eapply Qle_trans; [exact H|]. apply step_mono. lia. }
      replace (n + S j)%nat with (S n + j)%nat by lia. rewrite term_signed in E. set (r := (x * x / inject_Z (step (S n)))%Q) in *.
      assert (R : (0 <= r <= 1)%Q). { pose proof (step_pos (S n)) as P. unfold r. split; [apply Qle_shift_div_l; [exact P|]; nra|apply Qle_shift_div_r; [exact P|]; lra]. }
      exists (1 - c * r)%Q. split; [split; nra|]. setoid_replace (series d x (S n + j) - series d x n)%Q with ((series d x (S n + j) - series d x (S n)) + (series d x (S n) - series d x n))%Q by ring. rewrite E. cbn [series]. ring.
  Qed.
  Lemma tail n j : (x * x <= inject_Z (step n))%Q -> (Qabs (series d x (n + j) - series d x n) <= Qabs (t n))%Q.
  Proof.
    intros H. destruct (alternating j n) as (c & C & E); [eapply Qle_trans; [exact H|apply step_mono; lia]|]. rewrite E, Qabs_Qmult, (Qabs_pos c) by lra.
    pose proof (term_down n H). pose proof (Qabs_nonneg (t (S n))). nra.
  Qed.
  Lemma growing n : (inject_Z (step n) <= x * x)%Q -> (series_abs d x n <= inject_Z (Z.of_nat (S n)) * Qabs (t n))%Q.
  Proof.
    induction n as [|n IH]; intros H.
    - cbn [series_abs]. change (inject_Z (Z.of_nat 1)) with 1%Q. lra.
    - cbn [series_abs]. specialize (IH ltac:(eapply Qle_trans; [apply step_mono|exact H]; lia)). pose proof (term_up n ltac:(eapply Qle_trans; [apply step_mono|exact H]; lia)) as U.
      rewrite (Nat2Z.inj_succ (S n)), <- Z.add_1_r, inject_Z_plus. change (inject_Z 1) with 1%Q.
      assert (NP : (0 <= inject_Z (Z.of_nat (S n)))%Q) by (change 0%Q with (inject_Z 0); rewrite <- Zle_Qle; lia). nra.
  Qed.
  Lemma series_le_abs n : (Qabs (series d x n) <= series_abs d x n)%Q.
  Proof. induction n as [|k IH]; cbn [series series_abs]; [lra|]. eapply Qle_trans; [apply absQ_triangle|]. lra. Qed.
  Lemma series_abs_mono n m : (n <= m)%nat -> (series_abs d x n <= series_abs d x m)%Q.
  Proof. induction 1 as [|m H IH]; [lra|]. cbn [series_abs]. pose proof (Qabs_nonneg (t (S m))). lra. Qed.
End Tail.

Section Stop.
  Variables (B p : Z) (rd : Q -> Q).
  Hypothesis HB : 2 <= B.
  Hypothesis HP : 2 <= p.
  Hypothesis N : nearest B p rd.
  Variables (x : Q) (d : nat) (s0 : Q).
  Notation u := (unit_err B p).
  Notation t := (series_term d x).
  Notation s := (sums rd x d s0).
  Notation A := (series_abs d x).
  Hypothesis S0 : (s0 == t 0)%Q.
  Hypothesis NZ : (0 < Qabs (t 0))%Q.
  (** the sum at which the loop stops after n rounds *)
  Lemma stopped n : (1 <= n)%nat -> (inject_Z (Z.of_nat (3 * n + 1)) * u <= 1 # 8)%Q -> (s n == before rd x d s0 n)%Q ->
    forall j, (Qabs (s n - series d x (n + j)) <= inject_Z (Z.of_nat (6 * n + 4)) * u * A n)%Q.
  Proof.
    intros N1 SM ST j. pose proof (unit_pos B p HB) as UP.
    pose proof (grow_small B p HB (3 * n + 1) ltac:(lra)) as G. pose proof (sums_off B p rd HB HP N x d s0 n S0) as SO. pose proof (summand_off B p rd HB HP N x d n) as TO. unfold off in TO.
    pose proof (grow_mono B p HB (2 * n + 1) (3 * n + 1) ltac:(lia)) as GM. pose proof (grow_ge1 B p HB (2 * n + 1)) as GG.
    set (g := grow B p (3 * n + 1)) in *. set (g' := grow B p (2 * n + 1)) in *. clearbody g g'.
    assert (NA : (0 < A n)%Q). { pose proof (series_abs_mono d x 0 n ltac:(lia)) as M. cbn [series_abs] in M. lra. }
    assert (U32 : (u <= 1 # 32)%Q). { assert (K : (4 <= inject_Z (Z.of_nat (3 * n + 1)))%Q) by (change 4%Q with (inject_Z 4); rewrite <- Zle_Qle; lia). nra. }
    assert (SN : (Qabs (s n) <= (5 # 4) * A n)%Q).
    { pose proof (absQ_triangle (s n - series d x n) (series d x n)) as TR. setoid_replace (s n - series d x n + series d x n)%Q with (s n) in TR by ring. pose proof (series_le_abs d x n). nra. }
    (* the last summand was absorbed *)
    assert (TN : (Qabs (summand rd x d n) <= (13 # 10) * (u * A n))%Q).
    { destruct n as [|m]; [lia|]. cbn [before] in ST. pose proof (rd_err B p rd HB ltac:(lia) N (s m + summand rd x d (S m))%Q) as E. change (rd (s m + summand rd x d (S m))%Q) with (s (S m)) in E.
      rewrite ST in E, SN. setoid_replace (s m - (s m + summand rd x d (S m)))%Q with (- summand rd x d (S m))%Q in E by ring. rewrite Qabs_opp in E. pose proof (absQ_triangle (s m) (summand rd x d (S m))) as TR.
      set (T := Qabs (summand rd x d (S m))) in *. set (S' := Qabs (s m)) in *. set (V := Qabs (s m + summand rd x d (S m))) in *. assert (0 <= T)%Q by apply Qabs_nonneg. clearbody T S' V. set (AA := A (S m)) in *. clearbody AA. clear - E TR U32 UP SN H NA.
      revert E U32 UP. generalize (unit_err B p). intros w E U32 UP. assert (E2 : (T <= w * S' + w * T)%Q) by nra. assert (E3 : (w * T <= (1 # 32) * T)%Q) by nra. assert (E4 : (w * S' <= w * ((5 # 4) * AA))%Q) by nra. nra. }
    assert (tN : (Qabs (t n) <= 2 * (u * A n))%Q).
    { pose proof (absQ_triangle (t n - summand rd x d n) (summand rd x d n)) as TR. setoid_replace (t n - summand rd x d n + summand rd x d n)%Q with (t n) in TR by ring. rewrite (Qabs_sym (t n)) in TR. pose proof (Qabs_nonneg (t n)).
      assert (Qabs (t n) * (g' - 1) <= (1 # 4) * Qabs (t n))%Q by nra. assert (0 <= u * A n)%Q by nra. lra. }
    assert (NN : (inject_Z (Z.of_nat (3 * n + 1)) == 3 * inject_Z (Z.of_nat n) + 1)%Q) by (rewrite Nat2Z.inj_add, Nat2Z.inj_mul, inject_Z_plus, inject_Z_mult; reflexivity).
    assert (N0 : (0 <= inject_Z (Z.of_nat n))%Q) by (change 0%Q with (inject_Z 0); rewrite <- Zle_Qle; lia).
    assert (D : (x * x <= inject_Z (step d n))%Q).
    { destruct (Qlt_le_dec (inject_Z (step d n)) (x * x)) as [L|L]; [|exact L]. exfalso. pose proof (growing d x n ltac:(lra)) as GR. rewrite Nat2Z.inj_succ, <- Z.add_1_r, inject_Z_plus in GR. change (inject_Z 1) with 1%Q in GR.
      set (nn := inject_Z (Z.of_nat n)) in *. assert (K : (A n <= (nn + 1) * (2 * (u * A n)))%Q) by nra. assert (K2 : ((nn + 1) * u <= 1 # 8)%Q) by nra. assert (K3 : ((nn + 1) * (2 * (u * A n)) == 2 * ((nn + 1) * u) * A n)%Q) by ring. rewrite K3 in K. nra. }
    pose proof (tail d x n j D) as TL. pose proof (absQ_triangle (s n - series d x n) (series d x n - series d x (n + j))) as TR. setoid_replace (s n - series d x n + (series d x n - series d x (n + j)))%Q with (s n - series d x (n + j))%Q in TR by ring.
    rewrite (Qabs_sym (series d x n)) in TR. assert (E6 : (inject_Z (Z.of_nat (6 * n + 4)) == 6 * inject_Z (Z.of_nat n) + 4)%Q) by (rewrite Nat2Z.inj_add, Nat2Z.inj_mul, inject_Z_plus, inject_Z_mult; reflexivity). rewrite E6. rewrite NN in *.
    set (nn := inject_Z (Z.of_nat n)) in *. assert (K : (A n * (g - 1) <= A n * (2 * ((3 * nn + 1) * u)))%Q) by nra. 
    eapply Qle_trans; [exact TR|]. eapply Qle_trans; [apply Qplus_le_compat; [eapply Qle_trans; [exact SO|exact K]|eapply Qle_trans; [exact TL|exact tN]]|]. apply Qle_lteq. right. ring.
  Qed.
End Stop.

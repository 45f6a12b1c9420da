(** Rounding to the nearest number with p digits, and the loop of dec_cos and dec_sin. *)
From Coq Require Import ZArith QArith Qabs Qpower Qround Bool Lia Lqa Setoid.
From Verif Require Import PyBase Rnd Rnd_Proofs Trig_Model Spec_Trig.
Open Scope Z_scope.

Lemma absQ_triangle a b : (Qabs (a + b) <= Qabs a + Qabs b)%Q.
Proof. apply Qabs_triangle. Qed.
Lemma Qabs_sym a b : (Qabs (a - b) == Qabs (b - a))%Q.
Proof. rewrite <- Qabs_opp. apply Qabs_wd. ring. Qed.

Section Digits.
  Variables (B p : Z) (rd : Q -> Q).
  Hypothesis HB : 2 <= B.
  Hypothesis HP : 1 <= p.
  Hypothesis N : nearest B p rd.
  Notation b := (inject_Z B).
  Notation fl := (floating B p).
  Lemma b_pos : (0 < b)%Q.
  Proof. change 0%Q with (inject_Z 0). rewrite <- Zlt_Qlt. lia. Qed.
  Lemma b_nz : ~ (b == 0)%Q.
  Proof. pose proof b_pos. lra. Qed.
  Lemma bp_pos k : (0 < Qpower b k)%Q.
  Proof.
    assert (G : (0 <= Qpower b k)%Q) by (apply Qpower_pos; pose proof b_pos; lra).
    destruct (Qle_lt_or_eq _ _ G) as [L|E]; [exact L|]. exfalso. apply (Qpower_not_0 b k b_nz). now symmetry.
  Qed.
  Lemma bp_plus j k : (Qpower b (j + k) == Qpower b j * Qpower b k)%Q.
  Proof. apply Qpower_plus, b_nz. Qed.
  Lemma bp_nat k : 0 <= k -> (Qpower b k == inject_Z (B ^ k))%Q.
  Proof. intros H. symmetry. apply Zpower_Qpower. exact H. Qed.
  Lemma bp_opp k : (Qpower b (- k) * Qpower b k == 1)%Q.
  Proof. rewrite <- bp_plus. replace (- k + k) with 0 by lia. reflexivity. Qed.

  (** ---- numbers with p digits are apart ---- *)
  Lemma int_apart m : m <> 0 -> (1 <= Qabs (inject_Z m))%Q.
  Proof. intros H. change (Qabs (inject_Z m)) with (inject_Z (Z.abs m)). change 1%Q with (inject_Z 1). rewrite <- Zle_Qle. lia. Qed.
  Lemma abs_scaled m k : (Qabs (inject_Z m * Qpower b k) == inject_Z (Z.abs m) * Qpower b k)%Q.
  Proof. rewrite Qabs_Qmult, (Qabs_pos (Qpower b k)); [reflexivity|pose proof (bp_pos k); lra]. Qed.
  Lemma digits_le m k : Z.abs m <= B ^ p -> (Qabs (inject_Z m * Qpower b k) <= Qpower b p * Qpower b k)%Q.
  Proof.
    intros H. rewrite abs_scaled, (bp_nat p) by lia. apply Qmult_le_compat_r; [|pose proof (bp_pos k); lra]. rewrite <- Zle_Qle. exact H.
  Qed.
  Lemma grid_apart m k n j : k <= j -> ~ (inject_Z m * Qpower b k == inject_Z n * Qpower b j)%Q ->
    (Qpower b k <= Qabs (inject_Z m * Qpower b k - inject_Z n * Qpower b j))%Q.
  Proof.
    intros H D. assert (E : (inject_Z n * Qpower b j == inject_Z (n * B ^ (j - k)) * Qpower b k)%Q).
    { rewrite inject_Z_mult, <- (bp_nat (j - k)) by lia. rewrite <- Qmult_assoc, <- bp_plus. replace (j - k + k) with j by lia. reflexivity. }
    rewrite E in *. set (n' := n * B ^ (j - k)) in *. assert (F : (inject_Z m * Qpower b k - inject_Z n' * Qpower b k == inject_Z (m - n') * Qpower b k)%Q) by (unfold Z.sub; rewrite inject_Z_plus, inject_Z_opp; ring).
    rewrite F. rewrite abs_scaled. assert (M : m - n' <> 0) by (intros K; apply D; replace m with n' by lia; reflexivity).
    pose proof (int_apart _ M) as I. change (Qabs (inject_Z (m - n'))) with (inject_Z (Z.abs (m - n'))) in I. pose proof (bp_pos k). nra.
  Qed.
  (** half a unit in the last place, relative *)
  Definition sep : Q := ((1 # 2) * Qpower b (- p))%Q.
  Lemma sep_pos : (0 < sep)%Q.
  Proof. unfold sep. pose proof (bp_pos (- p)). lra. Qed.
  Lemma bp_le1 : (Qpower b (- p) <= 1 # 2)%Q.
  Proof.
    assert (G : (2 <= Qpower b p)%Q). { rewrite bp_nat by lia. change 2%Q with (inject_Z 2). rewrite <- Zle_Qle. replace p with (1 + (p - 1)) by lia. rewrite Z.pow_add_r, Z.pow_1_r by lia. assert (0 < B ^ (p - 1)) by (apply Z.pow_pos_nonneg; lia). nia. }
    pose proof (bp_opp p) as E. pose proof (bp_pos (- p)). nra.
  Qed.
  Lemma sep_small : (sep <= 1 # 4)%Q.
  Proof. unfold sep. pose proof bp_le1. lra. Qed.
  Lemma apart x y : fl x -> fl y -> ~ (x == y)%Q -> (sep * Qabs x <= Qabs (x - y))%Q.
  Proof.
    intros (m & k & Hm & EX) (n & j & Hn & EY) D. pose proof sep_small as S4. pose proof sep_pos as SP.
    destruct (Qlt_le_dec (Qabs y) ((1 # 2) * Qabs x)) as [L|L].
    { pose proof (absQ_triangle (x - y) y) as T. setoid_replace (x - y + y)%Q with x in T by ring.
      pose proof (Qabs_nonneg x). nra. }
    assert (D' : ~ (inject_Z m * Qpower b k == inject_Z n * Qpower b j)%Q) by (rewrite <- EX, <- EY; exact D).
    destruct (Z_le_gt_dec k j) as [KJ|KJ].
    - pose proof (grid_apart m k n j KJ D') as G. rewrite <- EX, <- EY in G. pose proof (digits_le m k Hm) as U. rewrite <- EX in U. unfold sep in *.
      pose proof (bp_opp p) as E. pose proof (bp_pos (- p)) as P1. pose proof (bp_pos k) as P2.
      assert (V : (Qpower b (- p) * Qabs x <= Qpower b k)%Q). { setoid_replace (Qpower b k) with (Qpower b (- p) * (Qpower b p * Qpower b k))%Q by (rewrite Qmult_assoc, E; ring). apply Qmult_le_l; assumption. }
      pose proof (Qabs_nonneg x). nra.
    - pose proof (grid_apart n j m k ltac:(lia) ltac:(intros K; apply D'; now symmetry)) as G. rewrite <- EX, <- EY, Qabs_sym in G. pose proof (digits_le n j Hn) as U. rewrite <- EY in U. unfold sep in *.
      pose proof (bp_opp p) as E. pose proof (bp_pos (- p)) as P1. pose proof (bp_pos j) as P2.
      assert (V : (Qpower b (- p) * Qabs y <= Qpower b j)%Q). { setoid_replace (Qpower b j) with (Qpower b (- p) * (Qpower b p * Qpower b j))%Q by (rewrite Qmult_assoc, E; ring). apply Qmult_le_l; assumption. }
      pose proof (Qabs_nonneg x). nra.
  Qed.

  (** ---- consequences for the rounding ---- *)
  Lemma rd_fl x : fl (rd x).
  Proof. apply N. Qed.
  Lemma fl_wd x y : (x == y)%Q -> fl x -> fl y.
  Proof. intros E (m & k & H & V). exists m, k. split; [exact H|]. now rewrite <- E. Qed.
  Lemma rd_id x : fl x -> (rd x == x)%Q.
  Proof.
    intros H. destruct (N x) as [_ M]. specialize (M x H). setoid_replace (x - x)%Q with 0%Q in M by ring. change (Qabs 0) with 0%Q in M.
    pose proof (Qabs_nonneg (rd x - x)). assert (Z : (Qabs (rd x - x) == 0)%Q) by lra. pose proof (Qle_Qabs (rd x - x)). pose proof (Qle_Qabs (- (rd x - x))). rewrite Qabs_opp in H2. lra.
  Qed.
  Lemma rd_absorb s t : fl s -> (3 * Qabs t <= sep * Qabs s)%Q -> (rd (s + t) == s)%Q.
  Proof.
    intros F T. destruct (Qeq_bool (rd (s + t)) s) eqn:E; [now apply Qeq_bool_iff|]. apply Qeq_bool_neq in E. destruct (N (s + t)%Q) as [G M]. specialize (M s F).
    pose proof (apart s (rd (s + t)) F G ltac:(intros K; apply E; now symmetry)) as A.
    setoid_replace (s - (s + t))%Q with (- t)%Q in M by ring. rewrite Qabs_opp in M.
    assert (T3 : (Qabs (s - rd (s + t)) <= Qabs t + Qabs (rd (s + t) - (s + t)))%Q).
    { rewrite (Qabs_sym (rd (s + t))). pose proof (absQ_triangle (- t) (s + t - rd (s + t))) as T3. setoid_replace (- t + (s + t - rd (s + t)))%Q with (s - rd (s + t))%Q in T3 by ring. rewrite Qabs_opp in T3. exact T3. }
    assert (Z : (sep * Qabs s <= 0)%Q) by (pose proof (Qabs_nonneg t); lra). pose proof sep_pos.
    assert (ZS : (Qabs s == 0)%Q) by (pose proof (Qabs_nonneg s); nra). assert (ZT : (Qabs t == 0)%Q) by (pose proof (Qabs_nonneg t); nra).
    exfalso. apply E. rewrite rd_id.
    - assert (t == 0)%Q by (pose proof (Qle_Qabs t); pose proof (Qle_Qabs (- t)); rewrite Qabs_opp in *; lra). lra.
    - eapply fl_wd; [|exact F]. assert (t == 0)%Q by (pose proof (Qle_Qabs t); pose proof (Qle_Qabs (- t)); rewrite Qabs_opp in *; lra). lra.
  Qed.
  (** the exponent of a number *)
  Lemma magnitude x : ~ (x == 0)%Q -> exists k, (Qpower b k <= Qabs x < Qpower b (k + 1))%Q.
  Proof.
    intros NZ. assert (P : (0 < Qabs x)%Q). { pose proof (Qabs_nonneg x) as G. destruct (Qle_lt_or_eq _ _ G) as [L|E]; [exact L|]. exfalso. apply NZ. pose proof (Qle_Qabs x). pose proof (Qle_Qabs (- x)). rewrite Qabs_opp in *. lra. }
    revert P. generalize (Qabs x). clear x NZ. intros x P.
    (* some power is above, some is below *)
    assert (UP : forall y, (0 < y)%Q -> exists n : nat, (y < Qpower b (Z.of_nat n))%Q).
    { intros [y d] _. exists (Z.to_nat (Z.abs y + 1)). rewrite Z2Nat.id by lia. rewrite bp_nat by lia.
      assert (G : forall n, 0 <= n -> n < B ^ n). { apply natlike_ind; [reflexivity|]. intros n Hn IH. rewrite Z.pow_succ_r by exact Hn. nia. }
      specialize (G (Z.abs y + 1) ltac:(lia)). unfold Qlt, inject_Z. cbn [Qnum Qden]. nia. }
    destruct (UP x P) as (n & U). destruct (UP (/ x)%Q ltac:(apply Qinv_lt_0_compat; exact P)) as (n' & U').
    assert (L : (Qpower b (- Z.of_nat n') <= x)%Q).
    { pose proof (bp_opp (Z.of_nat n')) as E. pose proof (bp_pos (- Z.of_nat n')) as P1. assert (XI : (x * / x == 1)%Q) by (field; lra). assert (0 < / x)%Q by (apply Qinv_lt_0_compat; exact P). nra. }
    clear U'. replace (Z.of_nat n) with (- Z.of_nat n' + Z.of_nat (n + n')) in U by lia. remember (n + n')%nat as d eqn:X. clear X n. revert U L. generalize (- Z.of_nat n') as k. clear n'.
    induction d as [|d IH]; intros k U L.
    - rewrite Z.add_0_r in U. exfalso. lra.
    - destruct (Qlt_le_dec x (Qpower b (k + 1))) as [H|H]; [exists k; split; assumption|]. apply (IH (k + 1)); [|exact H]. replace (k + 1 + Z.of_nat d) with (k + Z.of_nat (S d)) by lia. exact U.
  Qed.
  (** relative error of one operation *)
  Definition unit_err : Q := Qpower b (1 - p).
  Lemma unit_pos : (0 < unit_err)%Q.
  Proof. apply bp_pos. Qed.
  Lemma rd_err x : (Qabs (rd x - x) <= unit_err * Qabs x)%Q.
  Proof.
    destruct (Qeq_bool x 0) eqn:Z0.
    { apply Qeq_bool_iff in Z0. assert (F : fl x) by (exists 0, 0; split; [cbn; apply Z.pow_nonneg; lia|rewrite Z0; reflexivity]). rewrite (rd_id x F). setoid_replace (x - x)%Q with 0%Q by ring. rewrite Z0. cbn. lra. }
    apply Qeq_bool_neq in Z0. destruct (magnitude x Z0) as (k & L & U). set (e := k - p + 1). set (n := Qfloor (x * Qpower b (- e))%Q).
    assert (E : (Qpower b (- e) * Qpower b e == 1)%Q) by apply bp_opp. pose proof (bp_pos e) as PE. pose proof (bp_pos (- e)) as PE'.
    assert (F1 : (inject_Z n <= x * Qpower b (- e))%Q) by apply Qfloor_le. assert (F2 : (x * Qpower b (- e) < inject_Z (n + 1))%Q) by apply Qlt_floor. rewrite inject_Z_plus in F2. change (inject_Z 1) with 1%Q in F2.
    assert (XE : (x == x * Qpower b (- e) * Qpower b e)%Q) by (rewrite <- Qmult_assoc, E; ring).
    assert (C : (Qabs (inject_Z n * Qpower b e - x) <= Qpower b e)%Q).
    { apply Qabs_le_iff. set (z := (x * Qpower b (- e))%Q) in *. split; nra. }
    assert (FL : fl (inject_Z n * Qpower b e)).
    { exists n, e. split; [|reflexivity]. assert (BE : (Qpower b (k + 1) == inject_Z (B ^ p) * Qpower b e)%Q) by (rewrite <- (bp_nat p), <- bp_plus by lia; unfold e; replace (p + (k - p + 1)) with (k + 1) by lia; reflexivity).
      rewrite BE in U. apply Qabs_Qlt_condition in U. set (z := (x * Qpower b (- e))%Q) in *. rewrite XE in U.
      assert (Z1 : (z < inject_Z (B ^ p))%Q) by nra. assert (Z2 : (- inject_Z (B ^ p) < z)%Q) by nra.
      assert (A1 : n < B ^ p) by (rewrite Zlt_Qlt; lra). assert (A2 : - (B ^ p) < n + 1) by (rewrite Zlt_Qlt, inject_Z_opp, inject_Z_plus; change (inject_Z 1) with 1%Q; lra). lia. }
    destruct (N x) as [_ M]. specialize (M _ FL). assert (UE : (Qpower b e <= unit_err * Qabs x)%Q).
    { unfold unit_err. setoid_replace (Qpower b e) with (Qpower b (1 - p) * Qpower b k)%Q by (rewrite <- bp_plus; unfold e; replace (1 - p + k) with (k - p + 1) by lia; reflexivity). apply Qmult_le_l; [apply bp_pos|exact L]. }
    lra.
  Qed.
End Digits.

(** ---- the loop ---- *)
Section Loop.
  Variables (rd : Q -> Q) (x : Q) (d : nat) (s0 : Q).
  (** the values of num, of the summand and of s after k rounds *)
  Fixpoint nums (k : nat) : Q := match k with O => Qpower x (Z.of_nat d) | S j => rmul rd (nums j) (rmul rd x x) end.
  Definition signs (k : nat) : Z := if Nat.even k then 1 else -1.
  Definition summand (k : nat) : Q := rmul rd (rdiv rd (nums k) (inject_Z (factorial (2 * k + d)))) (inject_Z (signs k)).
  Fixpoint sums (k : nat) : Q := match k with O => s0 | S j => radd rd (sums j) (summand k) end.
  Definition before (k : nat) : Q := match k with O => 0%Q | S j => sums j end.
  (** the state of the loop after k rounds *)
  Definition loop_from (n0 : Q) (fuel k : nat) (nm : Q) : option Q :=
    taylor rd x fuel (Z.of_nat (2 * k + d)) (before k) (sums k) (factorial (2 * k + d)) nm (signs k).

  Lemma factorial_2 n : factorial (S (S n)) = factorial n * ((Z.of_nat n + 2) * (Z.of_nat n + 2 - 1)).
  Proof. cbn [factorial]. nia. Qed.
  Lemma factorial_pos n : 0 < factorial n.
  Proof. induction n as [|n IH]; [reflexivity|]. cbn [factorial]. nia. Qed.
  Lemma signs_S k : signs (S k) = - signs k.
  Proof. unfold signs. rewrite Nat.even_succ, <- Nat.negb_even. now destruct (Nat.even k). Qed.
  Lemma loop_step fuel k nm : nm = nums k -> loop_from 0 fuel k nm =
    if Qeq_bool (sums k) (before k) then Some (sums k) else match fuel with O => None | S f => loop_from 0 f (S k) (nums (S k)) end.
  Proof.
    intros ->. unfold loop_from at 1. destruct fuel as [|f]; cbn [taylor]; [reflexivity|]. destruct (Qeq_bool _ _); [reflexivity|]. unfold loop_from.
    replace (2 * S k + d)%nat with (S (S (2 * k + d))) by lia. rewrite factorial_2, signs_S. cbn [before nums sums]. unfold summand. cbn [nums].
    replace (2 * S k + d)%nat with (S (S (2 * k + d))) by lia. rewrite factorial_2, signs_S. replace (Z.of_nat (S (S (2 * k + d)))) with (Z.of_nat (2 * k + d) + 2) by lia. reflexivity.
  Qed.
  Lemma loop_stops n : forall k fuel, (k <= n)%nat -> (n - k <= fuel)%nat -> Qeq_bool (sums n) (before n) = true -> exists r, loop_from 0 fuel k (nums k) = Some r.
  Proof.
    intros k fuel. revert k. induction fuel as [|f IH]; intros k H1 H2 E; rewrite loop_step by reflexivity.
    - assert (k = n) by lia. subst k. rewrite E. eauto.
    - destruct (Qeq_bool (sums k) (before k)) eqn:F; [eauto|]. assert (k <> n) by congruence. apply IH; [lia|lia|exact E].
  Qed.
  Lemma loop_result fuel : forall k r, loop_from 0 fuel k (nums k) = Some r ->
    exists n, (k <= n <= k + fuel)%nat /\ r = sums n /\ (sums n == before n)%Q /\ forall j, (k <= j < n)%nat -> ~ (sums j == before j)%Q.
  Proof.
    induction fuel as [|f IH]; intros k r; rewrite loop_step by reflexivity; destruct (Qeq_bool (sums k) (before k)) eqn:F; try discriminate.
    - intros H. injection H as <-. exists k. split; [lia|]. split; [reflexivity|]. split; [now apply Qeq_bool_iff|intros; lia].
    - intros H. injection H as <-. exists k. split; [lia|]. split; [reflexivity|]. split; [now apply Qeq_bool_iff|intros; lia].
    - intros H. destruct (IH _ _ H) as (n & L & R & E & M). exists n. split; [lia|]. split; [exact R|]. split; [exact E|]. intros j J. destruct (Nat.eq_dec j k) as [->|NE]; [now apply Qeq_bool_neq|apply M; lia].
  Qed.
End Loop.

(** ---- it ends ---- *)
Section Ends.
  Variables (B p : Z) (rd : Q -> Q).
  Hypothesis HB : 2 <= B.
  Hypothesis HP : 2 <= p.
  Hypothesis N : nearest B p rd.
  Variables (x : Q) (d : nat) (s0 : Q).
  Notation fl := (floating B p).
  Notation u := (unit_err B p).
  Notation w := (sep B p).
  Notation T := (summand rd x d).
  Notation s := (sums rd x d s0).
  Lemma u_half : (u <= 1 # 2)%Q.
  Proof. unfold unit_err. replace (1 - p) with (- (p - 1)) by lia. apply bp_le1; lia. Qed.
  Lemma fl_opp y : fl y -> fl (- y).
  Proof. intros (m & k & H & E). exists (- m), k. split; [now rewrite Z.abs_opp|]. rewrite E, inject_Z_opp. ring. Qed.
  Lemma abs_rd y : (Qabs (rd y) <= (1 + u) * Qabs y /\ (1 - u) * Qabs y <= Qabs (rd y))%Q.
  Proof.
    pose proof (rd_err B p rd HB ltac:(lia) N y) as E. pose proof (absQ_triangle (rd y - y) y) as A. setoid_replace (rd y - y + y)%Q with (rd y) in A by ring.
    pose proof (absQ_triangle (y - rd y) (rd y)) as A'. setoid_replace (y - rd y + rd y)%Q with y in A' by ring. rewrite Qabs_sym in A'. split; lra.
  Qed.
  Lemma summand_abs k : (Qabs (T k) == Qabs (rd (nums rd x d k / inject_Z (factorial (2 * k + d)))))%Q.
  Proof.
    unfold summand, rmul, rdiv. set (q := rd (nums rd x d k / inject_Z (factorial (2 * k + d)))%Q). assert (F : fl q) by apply (rd_fl B p rd N). unfold signs. destruct (Nat.even k).
    - rewrite (rd_id B p rd N).
      + apply Qabs_wd. change (inject_Z 1) with 1%Q. ring.
      + refine (fl_wd B p q _ _ F). change (inject_Z 1) with 1%Q. ring.
    - rewrite (rd_id B p rd N).
      + rewrite <- Qabs_opp. apply Qabs_wd. change (inject_Z (-1)) with (- (1))%Q. ring.
      + refine (fl_wd B p (- q) _ _ (fl_opp _ F)). change (inject_Z (-1)) with (- (1))%Q. ring.
  Qed.
  Lemma summand_fl k : fl (T k).
  Proof. apply (rd_fl B p rd N). Qed.
  Lemma sums_fl k : fl (s (S k)).
  Proof. apply (rd_fl B p rd N). Qed.
  Lemma Qabs_sq y : (Qabs (y * y) == y * y)%Q.
  Proof. apply Qabs_pos. nra. Qed.
  Lemma fact_Q n : (0 < inject_Z (factorial n))%Q.
  Proof. change 0%Q with (inject_Z 0). rewrite <- Zlt_Qlt. apply factorial_pos. Qed.
  (** from one summand to the next *)
  Lemma ratio k : (inject_Z ((Z.of_nat (2 * k + d) + 1) * (Z.of_nat (2 * k + d) + 2)) * Qabs (T (S k)) <= 7 * (x * x) * Qabs (T k))%Q.
  Proof.
    rewrite !summand_abs. cbn [nums]. unfold rmul. replace (2 * S k + d)%nat with (S (S (2 * k + d))) by lia. rewrite factorial_2.
    set (nm := nums rd x d k). set (f := factorial (2 * k + d)). set (j := Z.of_nat (2 * k + d)).
    assert (FP : (0 < inject_Z f)%Q) by apply fact_Q. set (c := (j + 1) * (j + 2)). replace (f * ((j + 2) * (j + 2 - 1))) with (f * c) by (unfold c; ring).
    assert (CP : (0 < inject_Z c)%Q) by (change 0%Q with (inject_Z 0); rewrite <- Zlt_Qlt; unfold c, j; nia). rewrite inject_Z_mult.
    destruct (abs_rd (rd (nm * rd (x * x)) / (inject_Z f * inject_Z c))%Q) as [U1 _]. destruct (abs_rd (nm * rd (x * x))%Q) as [U2 _]. destruct (abs_rd (x * x)%Q) as [U3 _]. destruct (abs_rd (nm / inject_Z f)%Q) as [_ L].
    rewrite Qabs_Qmult in U2. rewrite Qabs_sq in U3. unfold Qdiv in *. rewrite Qabs_Qmult in U1, L. rewrite (Qabs_pos (/ (inject_Z f * inject_Z c))) in U1 by (apply Qlt_le_weak, Qinv_lt_0_compat; nra). rewrite (Qabs_pos (/ inject_Z f)) in L by (apply Qlt_le_weak, Qinv_lt_0_compat; exact FP).
    set (R := Qabs (rd (rd (nm * rd (x * x)) * / (inject_Z f * inject_Z c)))) in *. set (R0 := Qabs (rd (nm * / inject_Z f))) in *. set (A1 := Qabs (rd (nm * rd (x * x)))) in *. set (A2 := Qabs (rd (x * x))) in *. set (M := Qabs nm) in *.
    pose proof u_half as UH. pose proof (unit_pos B p HB) as UP. assert (M0 : (0 <= M)%Q) by apply Qabs_nonneg. assert (XX : (0 <= x * x)%Q) by nra. assert (A20 : (0 <= A2)%Q) by apply Qabs_nonneg.
    set (I := (/ inject_Z f)%Q) in *. assert (IP : (0 < I)%Q) by (apply Qinv_lt_0_compat; exact FP).
    assert (CI : (inject_Z c * / (inject_Z f * inject_Z c) == I)%Q) by (unfold I; field; split; lra).
    assert (E1 : (inject_Z c * R <= (1 + u) * A1 * I)%Q) by (rewrite <- CI; set (J := (/ (inject_Z f * inject_Z c))%Q) in *; assert (0 <= inject_Z c)%Q by lra; nra).
    clear U1 CI. set (z := (x * x)%Q) in *. clearbody R R0 A1 A2 M I z. generalize dependent (inject_Z c). intros cc CP E1. clearbody nm. revert UH UP U2 U3 L E1. generalize (unit_err B p) as uu. intros uu UH UP U2 U3 L E1.
    assert (K1 : (A2 <= (3 # 2) * z)%Q) by nra. assert (K2 : (A1 <= (3 # 2) * (M * A2))%Q) by (assert (0 <= M * A2)%Q by nra; nra). assert (K3 : (M * A2 <= (3 # 2) * (M * z))%Q) by nra.
    assert (K4 : (A1 * I <= (9 # 4) * (M * z) * I)%Q) by (apply Qmult_le_compat_r; lra). assert (K5 : ((1 # 2) * (M * I) <= R0)%Q) by (assert (0 <= M * I)%Q by nra; nra).
    assert (MI : (0 <= M * I)%Q) by nra. assert (K6 : ((1 + uu) * A1 * I <= (27 # 8) * (M * I) * z)%Q). { assert (A1I : (0 <= (9 # 4) * (M * z) * I)%Q) by (assert (0 <= M * z)%Q by nra; nra). nra. }
    nra.
  Qed.

  Definition rho : Q := ((1 # 8) * (w * w))%Q.
  Lemma ratio_small k : (7 * (x * x) <= rho * inject_Z (Z.of_nat k * Z.of_nat k))%Q -> (Qabs (T (S k)) <= rho * Qabs (T k))%Q.
  Proof.
    intros H. pose proof (ratio k) as R. set (c := (Z.of_nat (2 * k + d) + 1) * (Z.of_nat (2 * k + d) + 2)) in *.
    assert (C : (inject_Z (Z.of_nat k * Z.of_nat k) <= inject_Z c)%Q) by (rewrite <- Zle_Qle; unfold c; nia).
    assert (CP : (0 < inject_Z c)%Q) by (change 0%Q with (inject_Z 0); rewrite <- Zlt_Qlt; unfold c; nia).
    assert (RP : (0 <= rho)%Q) by (unfold rho; pose proof (sep_pos B p HB); nra). pose proof (Qabs_nonneg (T k)) as A.
    assert (H2 : (7 * (x * x) <= rho * inject_Z c)%Q) by nra.
    assert (H3 : (inject_Z c * Qabs (T (S k)) <= inject_Z c * (rho * Qabs (T k)))%Q) by nra. apply (Qmult_le_l _ _ (inject_Z c) CP). exact H3.
  Qed.
  Lemma abs_zero y : (Qabs y <= 0)%Q -> (y == 0)%Q.
  Proof. intros H. pose proof (Qle_Qabs y). pose proof (Qle_Qabs (- y)). rewrite Qabs_opp in *. lra. Qed.
  (** once the summands shrink fast enough, three more rounds suffice *)
  Lemma ends k : (1 <= k)%nat -> (7 * (x * x) <= rho * inject_Z (Z.of_nat k * Z.of_nat k))%Q ->
    (s (S k) == s k)%Q \/ (s (S (S k)) == s (S k))%Q \/ (s (S (S (S k))) == s (S (S k)))%Q.
  Proof.
    intros K H. pose proof (sep_pos B p HB) as WP. pose proof (sep_small B p HB ltac:(lia)) as W4. pose proof u_half as UH. pose proof (unit_pos B p HB) as UP.
    assert (FS : fl (s k)) by (destruct k as [|k']; [lia|apply sums_fl]).
    assert (R1 : (Qabs (T (S (S k))) <= rho * Qabs (T (S k)))%Q). { apply ratio_small. eapply Qle_trans; [exact H|]. assert (RP : (0 <= rho)%Q) by (unfold rho; nra). rewrite !(Qmult_comm rho). apply Qmult_le_compat_r; [rewrite <- Zle_Qle; nia|exact RP]. }
    assert (R2 : (Qabs (T (S (S (S k)))) <= rho * Qabs (T (S (S k))))%Q). { apply ratio_small. eapply Qle_trans; [exact H|]. assert (RP : (0 <= rho)%Q) by (unfold rho; nra). rewrite !(Qmult_comm rho). apply Qmult_le_compat_r; [rewrite <- Zle_Qle; nia|exact RP]. }
    destruct (Qlt_le_dec (w * Qabs (s k)) (3 * Qabs (T (S k)))) as [N1|A1]; [|left; cbn [sums]; now apply (rd_absorb B p rd HB ltac:(lia) N)].
    destruct (Qlt_le_dec (w * Qabs (s (S k))) (3 * Qabs (T (S (S k))))) as [N2|A2]; [|right; left; cbn [sums]; apply (rd_absorb B p rd HB ltac:(lia) N); [apply sums_fl|exact A2]].
    right; right.
    set (t1 := T (S k)) in *. set (t2 := T (S (S k))) in *. set (t3 := T (S (S (S k)))) in *.
    destruct (abs_rd (s k + t1)%Q) as [_ L1]. change (rd (s k + t1)%Q) with (s (S k)) in L1.
    assert (SM : (w * ((1 # 2) * Qabs (s k + t1)) < 3 * (rho * Qabs t1))%Q).
    { pose proof (Qabs_nonneg (s k + t1)) as P. assert ((1 # 2) * Qabs (s k + t1) <= Qabs (s (S k)))%Q by nra. nra. }
    assert (Z : (s k + t1 == 0)%Q).
    { destruct (Qeq_bool t1 (- s k)) eqn:E; [apply Qeq_bool_iff in E; rewrite E; ring|]. apply Qeq_bool_neq in E. exfalso.
      pose proof (apart B p HB ltac:(lia) t1 (- s k) (summand_fl _) (fl_opp _ FS) E) as A. setoid_replace (t1 - - s k)%Q with (s k + t1)%Q in A by ring. unfold rho in SM.
      pose proof (Qabs_nonneg t1) as P1. set (a := Qabs t1) in *. set (c := Qabs (s k + t1)) in *. clearbody a c. clear - WP A SM P1. assert (w * a <= c)%Q by exact A. assert (w * (w * a) <= w * c)%Q by nra. assert (0 <= w * (w * a))%Q by (apply Qmult_le_0_compat; [lra|nra]). nra. }
    assert (Z1 : (s (S k) == 0)%Q). { cbn [sums]. unfold radd. destruct (abs_rd (s k + T (S k))%Q) as [U _]. apply abs_zero. eapply Qle_trans; [exact U|]. fold t1. rewrite Z. cbn. lra. }
    assert (Z2 : (s (S (S k)) == t2)%Q). { change (s (S (S k))) with (rd (s (S k) + t2)%Q). rewrite (rd_id B p rd N); [rewrite Z1; ring|]. refine (fl_wd B p t2 _ _ (summand_fl _)). rewrite Z1. ring. }
    change (s (S (S (S k)))) with (rd (s (S (S k)) + t3)%Q). apply (rd_absorb B p rd HB ltac:(lia) N); [apply sums_fl|]. rewrite Z2. unfold rho in R2. pose proof (Qabs_nonneg t2) as P2.
    assert (WW : (w * w <= w)%Q) by nra. assert (WA : (w * w * Qabs t2 <= w * Qabs t2)%Q) by (apply Qmult_le_compat_r; assumption). assert (0 <= w * w * Qabs t2)%Q by (apply Qmult_le_0_compat; [nra|exact P2]). lra.
  Qed.
  Lemma some_round : exists n, (1 <= n)%nat /\ (s n == before rd x d s0 n)%Q.
  Proof.
    assert (RP : (0 < rho)%Q) by (unfold rho; pose proof (sep_pos B p HB); nra).
    assert (K : exists k, (1 <= k)%nat /\ (7 * (x * x) <= rho * inject_Z (Z.of_nat k * Z.of_nat k))%Q).
    { set (q := (7 * (x * x) / rho)%Q). assert (Q0 : (0 <= q)%Q) by (unfold q; apply Qle_shift_div_l; [exact RP|nra]). exists (Z.to_nat (Qceiling q + 1)). assert (C : (q <= inject_Z (Qceiling q))%Q) by apply Qle_ceiling.
      assert (C0 : 0 <= Qceiling q). { rewrite <- (Qceiling_Z 0). now apply Qceiling_resp_le. } split; [lia|]. rewrite Z2Nat.id by lia.
      assert (E : (7 * (x * x) == rho * q)%Q) by (unfold q; field; lra). rewrite E, !(Qmult_comm rho). apply Qmult_le_compat_r; [|lra]. eapply Qle_trans; [exact C|]. rewrite <- Zle_Qle. nia. }
    destruct K as (k & K1 & K2). destruct (ends k K1 K2) as [E|[E|E]]; [exists (S k)|exists (S (S k))|exists (S (S (S k)))]; (split; [lia|exact E]).
  Qed.
End Ends.

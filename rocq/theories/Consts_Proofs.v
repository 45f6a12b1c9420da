(** The constants of gen_consts.py: the literals against the numbers, and the rounding of the generators. *)
From Coq Require Import Ascii String ZArith QArith Qabs Qreals Reals Lra Lia List Bool.
From Verif Require Import PyBase Rnd Rnd_Proofs Hashtable_Model CF_Limits Consts_Limits Zeta_Limits Consts_Model Spec_Consts.
From Verif Require Enum_Model.
Import ListNotations.
Local Open Scope R_scope.

(** ---- rounding, in the reals ---- *)
Lemma Q2R_two_p p : (0 <= p)%Z -> Q2R (two_p (- p)) = / 2 ^ Z.to_nat p.
Proof.
  intros H. apply (Rmult_eq_reg_r (2 ^ Z.to_nat p)); [|apply pow_nonzero; lra]. rewrite Rinv_l by (apply pow_nonzero; lra).
  assert (E : 2 ^ Z.to_nat p = Q2R (two_p p)).
  { rewrite (Qeq_eqR _ _ (two_p_Z p H)). unfold Q2R, inject_Z. cbn [Qnum Qden]. rewrite Rinv_1, Rmult_1_r, pow_IZR, Z2Nat.id by exact H. reflexivity. }
  rewrite E, <- Q2R_mult, (Qeq_eqR _ _ (two_p_opp_l p)). unfold Q2R. cbn. lra.
Qed.
Lemma Q2R_abs x : Q2R (Qabs x) = Rabs (Q2R x).
Proof.
  apply Qabs_case; intros H; apply Qle_Rle in H; rewrite RMicromega.Q2R_0 in H.
  - now rewrite Rabs_right by lra.
  - rewrite Q2R_opp, Rabs_left1 by lra. reflexivity.
Qed.
Lemma rnd_R p x : (0 <= p)%Z -> Rabs (Q2R (rnd p x) - Q2R x) <= / 2 ^ Z.to_nat p * Rabs (Q2R x).
Proof.
  intros H. pose proof (Qle_Rle _ _ (rnd_err p x)) as A. rewrite Q2R_abs, Q2R_minus, Q2R_mult, Q2R_abs, Q2R_two_p in A by exact H. exact A.
Qed.
Lemma prec_ok p : (1 <= p <= 150)%Z -> (1 <= dps_to_prec p)%Z /\ 2 * 10 ^ Z.to_nat (p + 1) <= 3 * 2 ^ Z.to_nat (dps_to_prec p).
Proof.
  intros H. split; [unfold dps_to_prec; lia|].
  assert (C : forallb (fun k => let p := Z.of_nat k in Z.leb (2 * 10 ^ (p + 1)) (3 * 2 ^ dps_to_prec p)) (seq 1 150) = true) by (vm_compute; reflexivity).
  rewrite forallb_forall in C. specialize (C (Z.to_nat p)). cbv beta zeta in C. rewrite Z2Nat.id in C by lia. specialize (C ltac:(apply in_seq; lia)). apply Z.leb_le, IZR_le in C.
  rewrite !mult_IZR in C. rewrite <- (Z2Nat.id (p + 1)), <- (Z2Nat.id (dps_to_prec p)) in C by (unfold dps_to_prec; lia). rewrite <- !pow_IZR in C. exact C.
Qed.
Lemma import_prec : mp_prec import_ctx = 502%Z.
Proof. vm_compute. reflexivity. Qed.
Lemma pow502 : 5 * 10 ^ 151 <= 4 * 2 ^ 502.
Proof.
  replace (10 ^ 151) with (IZR (10 ^ 151)) by (change 151%Z with (Z.of_nat 151); now rewrite <- pow_IZR). replace (2 ^ 502) with (IZR (2 ^ 502)) by (change 502%Z with (Z.of_nat 502); now rewrite <- pow_IZR).
  rewrite <- !mult_IZR. apply IZR_le. apply Z.leb_le. vm_compute. reflexivity.
Qed.
(** rounding a literal twice *)
Lemma twice (q : Q) (K d : R) p : (1 <= p <= 150)%Z -> Rabs (Q2R q) <= 32 / 10 -> Rabs (Q2R q - K) <= d -> d * 10 ^ Z.to_nat p <= 2 / 10 ->
  accurate (rnd (dps_to_prec p) (rnd 502 q)) K p.
Proof.
  intros Hp Hq Hd HD. destruct (prec_ok p Hp) as [P1 P2]. set (c := rnd 502 q). set (x := rnd (dps_to_prec p) c).
  pose proof (rnd_R 502 q ltac:(lia)) as A. pose proof (rnd_R (dps_to_prec p) c ltac:(lia)) as B. fold c in A. fold x in B. change (Z.to_nat 502) with 502%nat in A.
  assert (T : 0 < 10 ^ Z.to_nat p) by (apply pow_lt; lra). set (t := 10 ^ Z.to_nat p) in *.
  assert (T1 : t <= 10 ^ 150) by (apply Rle_pow; [lra|lia]).
  replace (10 ^ Z.to_nat (p + 1)) with (10 * t) in P2 by (unfold t; replace (Z.to_nat (p + 1)) with (S (Z.to_nat p)) by lia; reflexivity).
  assert (V : 0 < 2 ^ Z.to_nat (dps_to_prec p)) by (apply pow_lt; lra). set (v := 2 ^ Z.to_nat (dps_to_prec p)) in *.
  assert (W : / v * t <= 3 / 20) by (apply (Rmult_le_reg_l v); [exact V|]; rewrite <- Rmult_assoc, Rinv_r by lra; lra).
  pose proof pow502 as W2. replace (10 ^ 151) with (10 * 10 ^ 150) in W2 by reflexivity. assert (V2 : 0 < 2 ^ 502) by (apply pow_lt; lra). set (v2 := 2 ^ 502) in *.
  assert (W' : / v2 * t <= 8 / 100).
  { apply (Rmult_le_reg_l v2); [exact V2|]. rewrite <- Rmult_assoc, Rinv_r by lra. lra. }
  assert (IV2 : 0 < / v2) by now apply Rinv_0_lt_compat. assert (IV : 0 < / v) by now apply Rinv_0_lt_compat.
  assert (A' : Rabs (Q2R c - Q2R q) * t <= 26 / 100).
  { eapply Rle_trans; [apply Rmult_le_compat_r; [lra|exact A]|]. replace (/ v2 * Rabs (Q2R q) * t) with (/ v2 * t * Rabs (Q2R q)) by ring. eapply Rle_trans; [apply Rmult_le_compat; [|apply Rabs_pos|exact W'|exact Hq]|lra]. apply Rmult_le_pos; lra. }
  assert (T0 : 10 <= t) by (unfold t; rewrite <- (pow_1 10) at 1; apply Rle_pow; [lra|lia]).
  assert (C : Rabs (Q2R c) <= 323 / 100).
  { replace (Q2R c) with ((Q2R c - Q2R q) + Q2R q) by ring. eapply Rle_trans; [apply Rabs_triang|]. pose proof (Rabs_pos (Q2R c - Q2R q)). nra. }
  assert (B' : Rabs (Q2R x - Q2R c) * t <= 49 / 100).
  { eapply Rle_trans; [apply Rmult_le_compat_r; [lra|exact B]|]. replace (/ v * Rabs (Q2R c) * t) with (/ v * t * Rabs (Q2R c)) by ring. eapply Rle_trans; [apply Rmult_le_compat; [|apply Rabs_pos|exact W|exact C]|lra]. apply Rmult_le_pos; lra. }
  unfold accurate. fold t. apply (Rmult_lt_reg_r t); [exact T|]. rewrite Rinv_l by lra.
  replace (Q2R x - K) with ((Q2R x - Q2R c) + ((Q2R c - Q2R q) + (Q2R q - K))) by ring.
  assert (X : Rabs (Q2R x - Q2R c + (Q2R c - Q2R q + (Q2R q - K))) <= Rabs (Q2R x - Q2R c) + (Rabs (Q2R c - Q2R q) + d)).
  { eapply Rle_trans; [apply Rabs_triang|]. apply Rplus_le_compat_l. eapply Rle_trans; [apply Rabs_triang|]. lra. }
  apply (Rmult_le_compat_r t) in X; [|lra]. lra.
Qed.
(** in the context set at import, the literal stays wrong if it is *)
Lemma once (q : Q) (K : R) : Rabs (Q2R q) <= 32 / 10 -> 2 * / 10 ^ 108 <= Rabs (Q2R q - K) -> ~ accurate (rnd 502 (rnd 502 q)) K 108.
Proof.
  intros Hq HL HA. pose proof (rnd_idem 502 q ltac:(lia)) as I. apply Qeq_eqR in I. unfold accurate in HA. rewrite I in HA. change (Z.to_nat 108) with 108%nat in HA.
  pose proof (rnd_R 502 q ltac:(lia)) as A. change (Z.to_nat 502) with 502%nat in A.
  assert (B : / 2 ^ 502 * Rabs (Q2R q) <= / 10 ^ 108 * (1 / 2)).
  { pose proof pow502 as W2. assert (X : 10 ^ 151 = 10 ^ 108 * 10 ^ 43) by (rewrite <- pow_add; reflexivity). rewrite X in W2. assert (Y : 10 ^ 1 <= 10 ^ 43) by (apply Rle_pow; [lra|lia]). rewrite pow_1 in Y.
    assert (Z1 : 0 < 10 ^ 108) by (apply pow_lt; lra). assert (Z2 : 0 < 2 ^ 502) by (apply pow_lt; lra). set (a := 10 ^ 108) in *. set (b := 2 ^ 502) in *. set (y := 10 ^ 43) in *.
    assert (W3 : 10 * a <= b) by nra. apply (Rmult_le_reg_l a); [exact Z1|]. rewrite <- (Rmult_assoc a (/ a)), Rinv_r by lra. apply (Rmult_le_reg_l b); [exact Z2|].
    replace (b * (a * (/ b * Rabs (Q2R q)))) with (a * Rabs (Q2R q)) by (field; lra). pose proof (Rabs_pos (Q2R q)). nra. }
  assert (P : 0 < / 10 ^ 108) by (apply Rinv_0_lt_compat, pow_lt; lra). set (u := / 10 ^ 108) in *.
  pose proof (Rabs_triang (Q2R q - Q2R (rnd 502 q)) (Q2R (rnd 502 q) - K)) as T. replace (Q2R q - Q2R (rnd 502 q) + (Q2R (rnd 502 q) - K)) with (Q2R q - K) in T by ring.
  rewrite (Rabs_minus_sym (Q2R q) (Q2R (rnd 502 q))) in T. lra.
Qed.

(** ---- decimal literals ---- *)
Lemma Q2R_frac n d : Q2R (n # d) = IZR n / IZR (Z.pos d).
Proof. reflexivity. Qed.
Lemma dec_frac_app s : forall t n d, dec_frac (s ++ t) n d = dec_frac t (Qnum (dec_frac s n d)) (Qden (dec_frac s n d)).
Proof. induction s as [|c s IH]; intros t n d; cbn [app dec_frac]; [reflexivity|]. apply IH. Qed.
Lemma dec_lit_app s : In "."%char s -> forall t n, dec_lit (s ++ t) n = dec_frac t (Qnum (dec_lit s n)) (Qden (dec_lit s n)).
Proof.
  induction s as [|c s IH]; intros H t n; [destruct H|]. cbn [app dec_lit]. destruct (Ascii.eqb_spec c "."%char) as [->|N].
  - apply dec_frac_app.
  - apply IH. destruct H as [H|H]; [congruence|exact H].
Qed.
Lemma dec_frac_digits t : Forall is_digit t -> forall n d, IZR n / IZR (Z.pos d) <= Q2R (dec_frac t n d) <= IZR (n + 1) / IZR (Z.pos d).
Proof.
  induction 1 as [|c t HC _ IH]; intros n d; cbn [dec_frac].
  - rewrite Q2R_frac. assert (0 < IZR (Z.pos d)) by (apply IZR_lt; lia). split; [lra|]. apply Rmult_le_compat_r; [left; now apply Rinv_0_lt_compat|]. apply IZR_le. lia.
  - specialize (IH (10 * n + dig c)%Z (10 * d)%positive). assert (D : (0 <= dig c <= 9)%Z) by (unfold dig; unfold is_digit in HC; lia).
    assert (P : 0 < IZR (Z.pos d)) by (apply IZR_lt; lia). change (Z.pos (10 * d)) with (10 * Z.pos d)%Z in IH. rewrite !plus_IZR, !mult_IZR in IH. rewrite plus_IZR.
    destruct D as [D1 D2]. apply IZR_le in D1, D2. set (u := IZR (Z.pos d)) in *. set (x := IZR (dig c)) in *. set (N := IZR n) in *.
    destruct IH as [I1 I2]. split.
    + eapply Rle_trans; [|exact I1]. apply (Rmult_le_reg_r (10 * u)); [lra|]. replace (N / u * (10 * u)) with (10 * N) by (field; lra). replace ((10 * N + x) / (10 * u) * (10 * u)) with (10 * N + x) by (field; lra). lra.
    + eapply Rle_trans; [exact I2|]. apply (Rmult_le_reg_r (10 * u)); [lra|]. replace ((10 * N + x + 1) / (10 * u) * (10 * u)) with (10 * N + x + 1) by (field; lra). replace ((N + 1) / u * (10 * u)) with (10 * N + 10) by (field; lra). lra.
Qed.

(** ---- pi and e ---- *)
Lemma pow_Z (b : Z) (n : nat) : IZR b ^ n = IZR (b ^ Z.of_nat n).
Proof. apply pow_IZR. Qed.
Lemma head_bounds (s : string) (K : R) (lo hi : Z) (h : Z) : In "."%char (txt s) -> dec_lit (txt s) 0 = (h # (10 ^ 200)%positive) ->
  IZR lo <= IZR scale * K <= IZR hi -> Z.leb (h * 10 ^ 6) lo = true -> Z.leb hi ((h + 1) * 10 ^ 6) = true ->
  (forall tail, Forall is_digit tail -> IZR h / 10 ^ 200 <= Q2R (dec_lit (txt s ++ tail) 0) <= IZR (h + 1) / 10 ^ 200) /\ IZR h / 10 ^ 200 <= K <= IZR (h + 1) / 10 ^ 200.
Proof.
  intros HI HQ HK HL HH. assert (P : IZR (Z.pos (10 ^ 200)) = 10 ^ 200) by (rewrite (pow_Z 10 200); reflexivity). split.
  - intros tail HT. rewrite (dec_lit_app _ HI), HQ. cbn [Qnum Qden]. rewrite <- P. apply dec_frac_digits. exact HT.
  - apply Z.leb_le, IZR_le in HL, HH. rewrite mult_IZR in HL, HH. assert (E : IZR scale = IZR (10 ^ 6) * 10 ^ 200) by (rewrite (pow_Z 10 200), <- mult_IZR; unfold scale; f_equal).
    rewrite E in HK. assert (T : 0 < 10 ^ 200) by (apply pow_lt; lra). set (t := 10 ^ 200) in *. change (10 ^ 6)%Z with 1000000%Z in *. split.
    + apply (Rmult_le_reg_r t); [exact T|]. replace (IZR h / t * t) with (IZR h) by (field; lra). lra.
    + apply (Rmult_le_reg_r t); [exact T|]. replace (IZR (h + 1) / t * t) with (IZR (h + 1)) by (field; lra). lra.
Qed.
Lemma between (a b x y d : R) : a <= x <= b -> a <= y <= b -> b - a <= d -> Rabs (x - y) <= d.
Proof. intros. apply Rabs_le. lra. Qed.
Definition pi_h : Z := Eval vm_compute in Qnum (dec_lit (txt pi_head) 0).
Definition e_h : Z := Eval vm_compute in Qnum (dec_lit (txt e_head) 0).
Lemma dot_in s : existsb (Ascii.eqb "."%char) (txt s) = true -> In "."%char (txt s).
Proof. intros H. apply existsb_exists in H. destruct H as (c & H & E). apply Ascii.eqb_eq in E. now subst c. Qed.
Lemma pi_lit : (forall tail, Forall is_digit tail -> IZR pi_h / 10 ^ 200 <= Q2R (dec_lit (txt pi_head ++ tail) 0) <= IZR (pi_h + 1) / 10 ^ 200) /\ IZR pi_h / 10 ^ 200 <= PI <= IZR (pi_h + 1) / 10 ^ 200.
Proof.
  apply (head_bounds pi_head PI _ _ pi_h) with (3 := pi_bounds); [apply dot_in; vm_compute; reflexivity|vm_compute; reflexivity|vm_compute; reflexivity|vm_compute; reflexivity].
Qed.
Lemma e_lit : (forall tail, Forall is_digit tail -> IZR e_h / 10 ^ 200 <= Q2R (dec_lit (txt e_head ++ tail) 0) <= IZR (e_h + 1) / 10 ^ 200) /\ IZR e_h / 10 ^ 200 <= exp 1 <= IZR (e_h + 1) / 10 ^ 200.
Proof.
  apply (head_bounds e_head (exp 1) (e_h * 10 ^ 6) ((e_h + 1) * 10 ^ 6) e_h); [apply dot_in; vm_compute; reflexivity|vm_compute; reflexivity| |apply Z.leb_refl|apply Z.leb_refl].
  pose proof em1_bounds as [A B]. assert (E : exp (-1) * exp 1 = 1) by (rewrite <- exp_plus; replace (-1 + 1) with 0 by ring; apply exp_0). pose proof (exp_pos 1) as P. pose proof (exp_pos (-1)) as P'.
  assert (C1 : (e_h * 10 ^ 6 * (em1_fixed + 400) <= scale * scale)%Z) by (apply Z.leb_le; vm_compute; reflexivity).
  assert (C2 : (scale * scale <= (e_h + 1) * 10 ^ 6 * (em1_fixed - 400))%Z) by (apply Z.leb_le; vm_compute; reflexivity).
  apply IZR_le in C1, C2. rewrite (mult_IZR _ (em1_fixed + 400)), (mult_IZR scale) in C1. rewrite (mult_IZR _ (em1_fixed - 400)), (mult_IZR scale) in C2.
  assert (S : 0 < IZR scale) by (apply IZR_lt; unfold scale; apply Z.pow_pos_nonneg; lia). assert (H0 : 0 <= IZR (e_h * 10 ^ 6)) by (apply IZR_le; vm_compute; discriminate). assert (H1 : 0 <= IZR ((e_h + 1) * 10 ^ 6)) by (apply IZR_le; vm_compute; discriminate).
  set (s := IZR scale) in *. set (lo := IZR (em1_fixed - 400)) in *. set (hi := IZR (em1_fixed + 400)) in *. set (a := IZR (e_h * 10 ^ 6)) in *. set (b := IZR ((e_h + 1) * 10 ^ 6)) in *. set (x := exp (-1)) in *. set (y := exp 1) in *.
  split.
  - apply (Rmult_le_reg_l (s * x)); [apply Rmult_lt_0_compat; lra|]. replace (s * x * (s * y)) with (s * s) by (replace (s * x * (s * y)) with (s * s * (x * y)) by ring; rewrite E; ring). eapply Rle_trans; [|exact C1]. rewrite (Rmult_comm a). apply Rmult_le_compat_r; lra.
  - apply (Rmult_le_reg_l (s * x)); [apply Rmult_lt_0_compat; lra|]. replace (s * x * (s * y)) with (s * s) by (replace (s * x * (s * y)) with (s * s * (x * y)) by ring; rewrite E; ring). eapply Rle_trans; [exact C2|]. rewrite (Rmult_comm b). apply Rmult_le_compat_r; lra.
Qed.
Lemma unit200 h : IZR (h + 1) / 10 ^ 200 - IZR h / 10 ^ 200 <= / 10 ^ 200.
Proof. rewrite plus_IZR. unfold Rdiv. lra. Qed.
Lemma small200 p : (p <= 150)%Z -> / 10 ^ 200 * 10 ^ Z.to_nat p <= 2 / 10.
Proof.
  intros H. assert (A : 10 ^ Z.to_nat p <= 10 ^ 150) by (apply Rle_pow; [lra|lia]). assert (B : 10 ^ 200 = 10 ^ 150 * 10 ^ 50) by (rewrite <- pow_add; reflexivity).
  assert (C : 10 ^ 1 <= 10 ^ 50) by (apply Rle_pow; [lra|lia]). rewrite pow_1 in C. assert (P : 0 < 10 ^ 150) by (apply pow_lt; lra). rewrite B. set (u := 10 ^ 150) in *. set (v := 10 ^ 50) in *.
  apply (Rmult_le_reg_l (u * v)); [nra|]. rewrite <- Rmult_assoc, Rinv_r by nra. nra.
Qed.
Lemma pi_accurate tail p : Forall is_digit tail -> (1 <= p <= 150)%Z -> accurate (rnd (dps_to_prec p) (pi_const tail)) PI p.
Proof.
  intros HT Hp. destruct pi_lit as [A B]. specialize (A tail HT). unfold pi_const, mpf_of. rewrite import_prec.
  apply (twice _ _ (/ 10 ^ 200)); [exact Hp| |eapply between; [exact A|exact B|apply unit200]|apply small200; lia].
  assert (C : IZR (pi_h + 1) / 10 ^ 200 <= 32 / 10).
  { apply (Rmult_le_reg_r (10 * 10 ^ 200)); [apply Rmult_lt_0_compat; [lra|apply pow_lt; lra]|]. replace (IZR (pi_h + 1) / 10 ^ 200 * (10 * 10 ^ 200)) with (10 * IZR (pi_h + 1)) by (field; apply pow_nonzero; lra).
    replace (32 / 10 * (10 * 10 ^ 200)) with (32 * 10 ^ 200) by field. rewrite (pow_Z 10 200), <- !mult_IZR. apply IZR_le, Z.leb_le. vm_compute. reflexivity. }
  assert (D : 0 <= IZR pi_h / 10 ^ 200) by (apply Rmult_le_pos; [apply IZR_le; vm_compute; discriminate|left; apply Rinv_0_lt_compat, pow_lt; lra]).
  rewrite Rabs_right by lra. lra.
Qed.
Lemma e_accurate tail p : Forall is_digit tail -> (1 <= p <= 150)%Z -> accurate (rnd (dps_to_prec p) (e_const tail)) (exp 1) p.
Proof.
  intros HT Hp. destruct e_lit as [A B]. specialize (A tail HT). unfold e_const, mpf_of. rewrite import_prec.
  apply (twice _ _ (/ 10 ^ 200)); [exact Hp| |eapply between; [exact A|exact B|apply unit200]|apply small200; lia].
  assert (C : IZR (e_h + 1) / 10 ^ 200 <= 32 / 10).
  { apply (Rmult_le_reg_r (10 * 10 ^ 200)); [apply Rmult_lt_0_compat; [lra|apply pow_lt; lra]|]. replace (IZR (e_h + 1) / 10 ^ 200 * (10 * 10 ^ 200)) with (10 * IZR (e_h + 1)) by (field; apply pow_nonzero; lra).
    replace (32 / 10 * (10 * 10 ^ 200)) with (32 * 10 ^ 200) by field. rewrite (pow_Z 10 200), <- !mult_IZR. apply IZR_le, Z.leb_le. vm_compute. reflexivity. }
  assert (D : 0 <= IZR e_h / 10 ^ 200) by (apply Rmult_le_pos; [apply IZR_le; vm_compute; discriminate|left; apply Rinv_0_lt_compat, pow_lt; lra]).
  rewrite Rabs_right by lra. lra.
Qed.

(** ---- beyond the precision at import ---- *)
Lemma rnd_finer p p' x : (1 <= p <= p')%Z -> (rnd p' (rnd p x) == rnd p x)%Q.
Proof.
  intros Hp. destruct (Qeq0_dec x) as [Z0|NZ]; [rewrite (rnd_0 p x Z0); reflexivity|].
  apply (rnd_exact p' _ (rne (x * two_p (- ulp_e p x))) (ulp_e p x)); [lia| |].
  - destruct (mag_spec x NZ) as [B C]. assert (M : (2 ^ p <= 2 ^ p')%Z) by (apply Z.pow_le_mono_r; lia).
    assert (G : (Qabs (x * two_p (- ulp_e p x)) <= inject_Z (2 ^ p))%Q).
    { rewrite Qabs_Qmult, (Qabs_pos (two_p _)) by (apply Qlt_le_weak, two_p_pos). rewrite <- two_p_Z by lia.
      replace p with (mag x + 1 + - ulp_e p x)%Z at 2 by (unfold ulp_e; lia). rewrite (two_p_plus (mag x + 1)).
      apply Qmult_le_r; [apply two_p_pos|]. now apply Qlt_le_weak. }
    apply Qabs_le_iff in G as [G1 G2]. apply rne_mono in G2. rewrite rne_Z in G2. apply rne_mono in G1. rewrite <- inject_Z_opp, rne_Z in G1. lia.
  - rewrite rnd_nz by assumption. apply Qred_correct.
Qed.
Lemma prec_mono p : (150 <= p)%Z -> (502 <= dps_to_prec p)%Z.
Proof.
  intros H. replace 502%Z with (dps_to_prec 150) by (vm_compute; reflexivity). unfold dps_to_prec. apply Z.max_le_compat_l, rne_mono. unfold Enum_Model.fl. apply rnd_mono; [lia|].
  apply Qmult_le_compat_r; [|vm_compute; discriminate]. apply rnd_mono; [lia|]. rewrite <- Zle_Qle. lia.
Qed.
(** the literal rounded at import *)
Lemma head_rounded (s : string) (h : Z) (q : Q) tail : (forall tail, Forall is_digit tail -> IZR h / 10 ^ 200 <= Q2R (dec_lit (txt s ++ tail) 0) <= IZR (h + 1) / 10 ^ 200) ->
  Forall is_digit tail -> rnd 502 (h # (10 ^ 200)%positive) = q -> rnd 502 ((h + 1) # (10 ^ 200)%positive) = q -> (rnd 502 (dec_lit (txt s ++ tail) 0) == q)%Q.
Proof.
  intros A HT E1 E2. specialize (A tail HT). assert (P : IZR (Z.pos (10 ^ 200)) = 10 ^ 200) by (rewrite (pow_Z 10 200); reflexivity). rewrite <- P in A. destruct A as [A1 A2].
  apply Qle_antisym.
  - rewrite <- E2. apply rnd_mono; [lia|]. apply Rle_Qle. exact A2.
  - rewrite <- E1. apply rnd_mono; [lia|]. apply Rle_Qle. exact A1.
Qed.
Lemma far (x y : Q) (K : R) p : (x == y)%Q -> (151 <= p)%Z -> / 10 ^ 151 <= Rabs (Q2R y - K) -> ~ accurate x K p.
Proof.
  intros E Hp H A. unfold accurate in A. rewrite (Qeq_eqR _ _ E) in A. assert (/ 10 ^ Z.to_nat p <= / 10 ^ 151) by (apply Rinv_le_contravar; [apply pow_lt; lra|]; apply Rle_pow; [lra|lia]). lra.
Qed.
Definition pi_502 : Q := Eval vm_compute in rnd 502 (pi_h # (10 ^ 200)%positive).
Definition e_502 : Q := Eval vm_compute in rnd 502 (e_h # (10 ^ 200)%positive).
Lemma frac200 h : Q2R (h # (10 ^ 200)%positive) = IZR h / 10 ^ 200.
Proof. rewrite Q2R_frac. f_equal. rewrite (pow_Z 10 200). reflexivity. Qed.
Lemma frac151 : Q2R (1 # (10 ^ 151)%positive) = / 10 ^ 151.
Proof. rewrite Q2R_frac. unfold Rdiv. rewrite Rmult_1_l. f_equal. rewrite (pow_Z 10 151). reflexivity. Qed.
Lemma gap_above (a u c : Q) (A U K : R) : Q2R a = A -> Q2R u = U -> (a + u <= c)%Q -> K <= A -> U <= Rabs (Q2R c - K).
Proof. intros <- <- H B. apply Qle_Rle in H. rewrite Q2R_plus in H. eapply Rle_trans; [|apply Rle_abs]. lra. Qed.
Lemma gap_below (a u c : Q) (A U K : R) : Q2R a = A -> Q2R u = U -> (c + u <= a)%Q -> A <= K -> U <= Rabs (Q2R c - K).
Proof. intros <- <- H B. apply Qle_Rle in H. rewrite Q2R_plus in H. rewrite Rabs_minus_sym. eapply Rle_trans; [|apply Rle_abs]. lra. Qed.
Lemma pi_not tail p : Forall is_digit tail -> (151 <= p)%Z -> ~ accurate (rnd (dps_to_prec p) (pi_const tail)) PI p.
Proof.
  intros HT Hp. unfold pi_const, mpf_of. rewrite import_prec. destruct pi_lit as [A B]. apply (far _ pi_502); [|exact Hp|].
  - etransitivity; [apply rnd_finer; pose proof (prec_mono p ltac:(lia)); lia|]. apply (head_rounded pi_head pi_h); [exact A|exact HT|vm_compute; reflexivity|vm_compute; reflexivity].
  - apply (gap_above _ _ _ _ _ _ (frac200 (pi_h + 1)) frac151); [apply Qle_bool_iff; vm_compute; reflexivity|apply B].
Qed.
Lemma e_not tail p : Forall is_digit tail -> (151 <= p)%Z -> ~ accurate (rnd (dps_to_prec p) (e_const tail)) (exp 1) p.
Proof.
  intros HT Hp. unfold e_const, mpf_of. rewrite import_prec. destruct e_lit as [A B]. apply (far _ e_502); [|exact Hp|].
  - etransitivity; [apply rnd_finer; pose proof (prec_mono p ltac:(lia)); lia|]. apply (head_rounded e_head e_h); [exact A|exact HT|vm_compute; reflexivity|vm_compute; reflexivity].
  - apply (gap_below _ _ _ _ _ _ (frac200 e_h) frac151); [apply Qle_bool_iff; vm_compute; reflexivity|apply B].
Qed.

(** ---- a literal of d digits ---- *)
(** lit is K, not exactly, but to d digits *)
Definition lit_near (q : Q) (K : R) (d : nat) : Prop := Rabs (Q2R q) <= 32 / 10 /\ Rabs (Q2R q - K) <= / 10 ^ d /\ 2 * / 10 ^ 108 <= Rabs (Q2R q - K).
Lemma lit_accurate s K d p : lit_near (dec_lit (txt s) 0) K d -> (1 <= p <= 150)%Z -> (p < Z.of_nat d)%Z -> accurate (rnd (dps_to_prec p) (const s)) K p.
Proof.
  intros (A & B & _) Hp Hd. unfold const, mpf_of. rewrite import_prec. apply (twice _ _ (/ 10 ^ d)); [exact Hp|exact A|exact B|].
  replace (10 ^ d) with (10 * 10 ^ (d - 1)) by (destruct d; [lia|]; cbn [pow]; now rewrite Nat.sub_succ, Nat.sub_0_r). assert (C : 10 ^ Z.to_nat p <= 10 ^ (d - 1)) by (apply Rle_pow; [lra|lia]).
  assert (P : 0 < 10 ^ (d - 1)) by (apply pow_lt; lra). set (u := 10 ^ (d - 1)) in *. apply (Rmult_le_reg_l (10 * u)); [lra|]. rewrite <- Rmult_assoc, Rinv_r by lra. lra.
Qed.
Lemma lit_not s K d : lit_near (dec_lit (txt s) 0) K d -> ~ accurate (rnd (mp_prec import_ctx) (const s)) K 108.
Proof. intros (A & _ & C). unfold const, mpf_of. rewrite import_prec. apply once; assumption. Qed.
(** K is above the literal *)
Lemma above (q : Q) (K : R) (d : nat) : (0 <= Q2R q <= 32 / 10) -> Q2R q + 2 * / 10 ^ 108 <= K <= Q2R q + / 10 ^ d -> lit_near q K d.
Proof.
  intros H1 H2. assert (P : 0 < / 10 ^ 108) by (apply Rinv_0_lt_compat, pow_lt; lra). unfold lit_near. rewrite (Rabs_right (Q2R q)) by lra. rewrite (Rabs_left1 (Q2R q - K)) by lra. lra.
Qed.
Lemma below (q : Q) (K : R) (d : nat) : (0 <= Q2R q <= 32 / 10) -> Q2R q - / 10 ^ d <= K <= Q2R q - 2 * / 10 ^ 108 -> lit_near q K d.
Proof.
  intros H1 H2. assert (P : 0 < / 10 ^ 108) by (apply Rinv_0_lt_compat, pow_lt; lra). unfold lit_near. rewrite (Rabs_right (Q2R q)) by lra. rewrite (Rabs_right (Q2R q - K)) by lra. lra.
Qed.
Lemma Q2R_p (d : positive) : Q2R (1 # (10 ^ d)) = / 10 ^ Pos.to_nat d.
Proof. rewrite Q2R_frac. unfold Rdiv. rewrite Rmult_1_l. f_equal. rewrite (pow_Z 10), positive_nat_Z. f_equal. apply Pos2Z.inj_pow. Qed.
Lemma Q2R_2p (d : positive) : Q2R (2 # (10 ^ d)) = 2 * / 10 ^ Pos.to_nat d.
Proof. rewrite Q2R_frac. unfold Rdiv. f_equal. f_equal. rewrite (pow_Z 10), positive_nat_Z. f_equal. apply Pos2Z.inj_pow. Qed.
Lemma Q_range q : Qle_bool 0 q = true -> Qle_bool q (32 # 10) = true -> 0 <= Q2R q <= 32 / 10.
Proof.
  intros A B. apply Qle_bool_iff, Qle_Rle in A, B. rewrite Q2R_frac in B. rewrite RMicromega.Q2R_0 in A. lra.
Qed.

(** ---- the golden ratio ---- *)
Lemma golden_lit : lit_near (dec_lit (txt phi_text) 0) golden 104.
Proof.
  set (q := dec_lit (txt phi_text) 0). apply above; [apply Q_range; vm_compute; reflexivity|]. unfold golden.
  assert (A : ((2 * (q + (2 # (10 ^ 108)%positive)) - 1) * (2 * (q + (2 # (10 ^ 108)%positive)) - 1) <= 5)%Q) by (apply Qle_bool_iff; vm_compute; reflexivity).
  assert (B : (5 <= (2 * (q + (1 # (10 ^ 104)%positive)) - 1) * (2 * (q + (1 # (10 ^ 104)%positive)) - 1))%Q) by (apply Qle_bool_iff; vm_compute; reflexivity).
  assert (C : (1 <= q)%Q) by (apply Qle_bool_iff; vm_compute; reflexivity). clearbody q.
  apply Qle_Rle in A, B, C. rewrite ?Q2R_mult, ?Q2R_minus, ?Q2R_mult, ?Q2R_plus, Q2R_2p in A. rewrite ?Q2R_mult, ?Q2R_minus, ?Q2R_mult, ?Q2R_plus, Q2R_p in B.
  change (Pos.to_nat 108) with 108%nat in A. change (Pos.to_nat 104) with 104%nat in B. replace (Q2R 1) with 1 in * by (rewrite Q2R_frac; field). replace (Q2R 2) with 2 in * by (rewrite Q2R_frac; field). replace (Q2R 5) with 5 in * by (rewrite Q2R_frac; field).
  assert (P : 0 < / 10 ^ 108) by (apply Rinv_0_lt_compat, pow_lt; lra). assert (P' : 0 < / 10 ^ 104) by (apply Rinv_0_lt_compat, pow_lt; lra).
  set (x := 2 * (Q2R q + 2 * / 10 ^ 108) - 1) in *. set (y := 2 * (Q2R q + / 10 ^ 104) - 1) in *.
  assert (X : x <= sqrt 5) by (rewrite <- (sqrt_square x) by (unfold x; lra); now apply sqrt_le_1_alt).
  assert (Y : sqrt 5 <= y) by (rewrite <- (sqrt_square y) by (unfold y; lra); now apply sqrt_le_1_alt). unfold x, y in *. lra.
Qed.

(** ---- the percolation thresholds ---- *)
Lemma triangular_root : triangular * triangular * triangular - 3 * triangular + 1 = 0 /\ 0 < triangular < 1.
Proof.
  unfold triangular. set (x := PI / 18). pose proof PI_RGT_0 as P. assert (S3 : sin (3 * x) = 3 * sin x - 4 * (sin x * sin x * sin x)).
  { replace (3 * x) with (2 * x + x) by ring. rewrite sin_plus, sin_2a, cos_2a. pose proof (sin2_cos2 x) as E. unfold Rsqr in E. set (s := sin x) in *. set (c := cos x) in *.
    replace (2 * s * c * c + (c * c - s * s) * s) with (s * (3 * (c * c) - s * s)) by ring. replace (c * c) with (1 - s * s) by lra. ring. }
  replace (3 * x) with (PI / 6) in S3 by (unfold x; field). rewrite sin_PI6 in S3. split; [lra|].
  assert (A : 0 < sin x) by (apply sin_gt_0; unfold x; lra). assert (B : sin x < sin (PI / 6)) by (apply sin_increasing_1; unfold x; lra). rewrite sin_PI6 in B. lra.
Qed.
Lemma root_above x : 0 <= x <= 1 -> 0 <= x * x * x - 3 * x + 1 -> x <= triangular.
Proof.
  intros Hx H. destruct triangular_root as [E B]. set (t := triangular) in *. destruct (Rle_lt_dec x t) as [|L]; [assumption|exfalso].
  assert (F : (x - t) * (x * x + x * t + t * t - 3) >= 0) by nra. assert (x * x <= 1) by nra. assert (x * t < 1) by nra. assert (t * t < 1) by nra. nra.
Qed.
Lemma root_below x : 0 <= x <= 1 -> x * x * x - 3 * x + 1 <= 0 -> triangular <= x.
Proof.
  intros Hx H. destruct triangular_root as [E B]. set (t := triangular) in *. destruct (Rle_lt_dec t x) as [|L]; [assumption|exfalso].
  assert (F : (t - x) * (x * x + x * t + t * t - 3) >= 0) by nra. assert (x * x <= 1) by nra. assert (x * t < 1) by nra. assert (t * t < 1) by nra. nra.
Qed.
Definition perc0 : string := nth 0 percolation_texts ""%string.
Definition perc1 : string := nth 1 percolation_texts ""%string.
Lemma triangular_bounds : let q := dec_lit (txt perc1) 0 in Q2R q + 2 * / 10 ^ 108 <= triangular <= Q2R q + / 10 ^ 99.
Proof.
  set (q := dec_lit (txt perc1) 0). cbv zeta.
  assert (A : (0 <= (q + (2 # (10 ^ 108)%positive)) * (q + (2 # (10 ^ 108)%positive)) * (q + (2 # (10 ^ 108)%positive)) - 3 * (q + (2 # (10 ^ 108)%positive)) + 1)%Q) by (apply Qle_bool_iff; vm_compute; reflexivity).
  assert (B : ((q + (1 # (10 ^ 99)%positive)) * (q + (1 # (10 ^ 99)%positive)) * (q + (1 # (10 ^ 99)%positive)) - 3 * (q + (1 # (10 ^ 99)%positive)) + 1 <= 0)%Q) by (apply Qle_bool_iff; vm_compute; reflexivity).
  assert (C : (0 <= q)%Q) by (apply Qle_bool_iff; vm_compute; reflexivity). assert (D : (q <= 1 # 2)%Q) by (apply Qle_bool_iff; vm_compute; reflexivity). clearbody q.
  apply Qle_Rle in A, B, C, D. rewrite ?Q2R_plus, ?Q2R_minus, ?Q2R_mult, ?Q2R_plus, Q2R_2p in A. rewrite ?Q2R_plus, ?Q2R_minus, ?Q2R_mult, ?Q2R_plus, Q2R_p in B.
  change (Pos.to_nat 108) with 108%nat in A. change (Pos.to_nat 99) with 99%nat in B. replace (Q2R 1) with 1 in * by (rewrite Q2R_frac; field). replace (Q2R 3) with 3 in * by (rewrite Q2R_frac; field). rewrite RMicromega.Q2R_0 in *. rewrite Q2R_frac in D.
  assert (P : 0 < / 10 ^ 108 <= / 10) by (split; [apply Rinv_0_lt_compat, pow_lt; lra|]; apply Rinv_le_contravar; [lra|]; rewrite <- (pow_1 10) at 1; apply Rle_pow; [lra|lia]).
  assert (P' : 0 < / 10 ^ 99 <= / 10) by (split; [apply Rinv_0_lt_compat, pow_lt; lra|]; apply Rinv_le_contravar; [lra|]; rewrite <- (pow_1 10) at 1; apply Rle_pow; [lra|lia]).
  split; [apply root_above|apply root_below]; try lra.
Qed.
Lemma triangular_lit : lit_near (dec_lit (txt perc1) 0) triangular 99.
Proof. apply above; [apply Q_range; vm_compute; reflexivity|]. apply triangular_bounds. Qed.
Lemma honeycomb_lit : lit_near (dec_lit (txt perc0) 0) honeycomb 99.
Proof.
  apply below; [apply Q_range; vm_compute; reflexivity|]. pose proof triangular_bounds as T. cbv zeta in T.
  assert (E : (dec_lit (txt perc0) 0 == 1 - dec_lit (txt perc1) 0)%Q) by (apply Qeq_bool_iff; vm_compute; reflexivity). apply Qeq_eqR in E. rewrite Q2R_minus in E. rewrite E.
  replace (Q2R 1) with 1 by (rewrite Q2R_frac; field). change honeycomb with (1 - triangular). lra.
Qed.

(** ---- zeta ---- *)
Definition zD : Z := 10 ^ 111.
Definition zB : Z := 379.
Definition zcheck1 (E n : Z) (q : Q) : bool :=
  let P := (2 ^ (n - 1))%Z in let u := Qnum q in let v := Z.pos (Qden q) in
  let T := (10 ^ (if n =? 3 then 107 else 98))%Z in let L := (10 ^ 108)%Z in
  let lo := ((E - zB) * P * v)%Z in let hi := ((E + zB) * P * v)%Z in let w := (zD * (P - 1))%Z in
  (Qle_bool 0 q && Qle_bool q (32 # 10)) &&
  ((w * (u * T - v) <=? lo * T) && (hi * T <=? w * (u * T + v)))%Z &&
  ((w * (u * L + 2 * v) <=? lo * L) || (hi * L <=? w * (u * L - 2 * v)))%Z.
Fixpoint zcheck (n : Z) (w : list Z) (p : Z) (row : list Z) (l : list (Z * string)) : bool :=
  match l with
  | [] => true
  | (i, s) :: r => (i =? n)%Z && zcheck1 (zest 126 w p row) n (dec_lit (txt s) 0) && zcheck (n + 1) w p (divs 1 row) r
  end.
Lemma zeta_checked : zcheck 2 (wrow 125 1 []) (2 ^ Z.of_nat 125) (divs 1 (divs 1 (repeat zD 251))) zeta_texts = true.
Proof. vm_compute. reflexivity. Qed.
Definition zdigits (n : Z) : nat := if (n =? 3)%Z then 107%nat else 98%nat.
Lemma zcheck_use l : forall n row, (2 <= n)%Z -> row = prow 251 zD (Z.to_nat n) -> zcheck n (wrow 125 1 []) (2 ^ Z.of_nat 125) row l = true ->
  forall i s, In (i, s) l -> (2 <= i)%Z /\ zcheck1 (zest 126 (wrow 125 1 []) (2 ^ Z.of_nat 125) (prow 251 zD (Z.to_nat i))) i (dec_lit (txt s) 0) = true.
Proof.
  induction l as [|[j t] l IH]; intros n row Hn HR HC i s HI; [destruct HI|]. cbn [zcheck] in HC. apply andb_true_iff in HC as [HC C3]. apply andb_true_iff in HC as [C1 C2]. apply Z.eqb_eq in C1.
  destruct HI as [HI|HI].
  - injection HI as -> ->. subst i row. split; assumption.
  - apply (IH (n + 1)%Z (divs 1 row)); [lia| |exact C3|exact HI]. subst row. replace (Z.to_nat (n + 1)) with (S (Z.to_nat n)) by lia. reflexivity.
Qed.
Lemma zfact_ok : IZR zD * (INR (fact 125) * INR (fact 126)) <= 2 ^ 125 * INR (fact (125 + 126)).
Proof.
  set (f := fun n => fold_right Z.mul 1%Z (map Z.of_nat (seq 1 n))).
  assert (G : forall n, INR (fact n) = IZR (f n)).
  { unfold f. induction n as [|n IH]; [reflexivity|]. rewrite fact_R, IH, seq_S, map_app, fold_right_app. cbn [map fold_right].
    assert (X : forall l a, fold_right Z.mul a l = (fold_right Z.mul 1 l * a)%Z) by (induction l as [|x l IL]; intros a; cbn [fold_right]; [lia|rewrite IL; lia]).
    rewrite (X _ (_ * 1)%Z), mult_IZR, Z.mul_1_r, <- INR_IZR_INZ. change (1 + n)%nat with (S n). rewrite S_INR. ring. }
  rewrite !G, (pow_Z 2 125), <- !mult_IZR. apply IZR_le, Z.leb_le. vm_compute. reflexivity.
Qed.
Lemma zeta_lit i s z : In (i, s) zeta_texts -> is_zeta (Z.to_nat i) z -> lit_near (dec_lit (txt s) 0) z (zdigits i).
Proof.
  intros HI HZ. destruct (zcheck_use zeta_texts 2 _ ltac:(lia) eq_refl zeta_checked i s HI) as [Hi HC]. clear HI.
  set (q := dec_lit (txt s) 0) in *. clearbody q. set (n := Z.to_nat i) in *. pose proof (zeta_fixed zD 126 125 n z ltac:(reflexivity) HZ zfact_ok) as E.
  change (126 + 125)%nat with 251%nat in E. set (F := zest 126 _ _ _) in *. clearbody F.
  replace (2 * INR 126 + INR 125 + 2) with (IZR zB) in E by (rewrite !INR_IZR_INZ, <- mult_IZR, <- !plus_IZR; reflexivity).
  apply Rabs_Z in E. unfold zcheck1 in HC. cbv zeta in HC. apply andb_true_iff in HC as [HC C3]. apply andb_true_iff in HC as [C1 C2]. apply andb_true_iff in C1 as [R1 R2]. apply andb_true_iff in C2 as [T1 T2].
  apply Z.leb_le, IZR_le in T1, T2.
  set (P := (2 ^ (i - 1))%Z) in *. assert (HP : (2 <= P)%Z) by (unfold P; change 2%Z with (2 ^ 1)%Z at 1; apply Z.pow_le_mono_r; lia).
  assert (E2 : 2 * / 2 ^ n = / IZR P).
  { unfold P. replace (i - 1)%Z with (Z.of_nat (n - 1)) by (unfold n; lia). rewrite <- pow_IZR. replace n with (S (n - 1)) at 1 by (unfold n; lia). cbn [pow]. assert (2 ^ (n - 1) <> 0) by (apply pow_nonzero; lra). field. assumption. }
  rewrite E2 in E. assert (PR : 2 <= IZR P) by (apply IZR_le; exact HP). assert (DP : 0 < IZR zD) by (apply IZR_lt; reflexivity).
  assert (VP : 0 < IZR (Z.pos (Qden q))) by (apply IZR_lt; lia).
  (* w z v within lo, hi *)
  set (W := (zD * (P - 1))%Z) in *. assert (WP : 0 < IZR W) by (apply IZR_lt; unfold W; apply Z.mul_pos_pos; [reflexivity|lia]).
  set (v := Z.pos (Qden q)) in *. set (u := Qnum q) in *. assert (QE : Q2R q = IZR u / IZR v) by reflexivity.
  assert (B : IZR ((F - zB) * P * v) <= IZR W * z * IZR v <= IZR ((F + zB) * P * v)).
  { assert (X : IZR W * z = IZR P * (IZR zD * (z - / IZR P * z))) by (unfold W; rewrite mult_IZR, minus_IZR; field; lra). rewrite X, !mult_IZR, (Rmult_comm (IZR (F - zB))), (Rmult_comm (IZR (F + zB))).
    split; (apply Rmult_le_compat_r; [lra|]; apply Rmult_le_compat_l; [lra|]; apply E). }
  set (lo := ((F - zB) * P * v)%Z) in *. set (hi := ((F + zB) * P * v)%Z) in *. clearbody lo hi W v u P. clear E E2.
  assert (M : forall t a b, (0 < t)%Z -> IZR (W * (u * t + a * v)) <= IZR (b * t) -> IZR b <= IZR W * z * IZR v -> Q2R q + IZR a * / IZR t <= z).
  { intros t a b Ht H1 H2. apply IZR_lt in Ht. rewrite !mult_IZR, plus_IZR, !mult_IZR in H1. rewrite QE. apply (Rmult_le_reg_l (IZR W * IZR v * IZR t)); [repeat apply Rmult_lt_0_compat; assumption|].
    replace (IZR W * IZR v * IZR t * (IZR u / IZR v + IZR a * / IZR t)) with (IZR W * (IZR u * IZR t + IZR a * IZR v)) by (field; lra).
    eapply Rle_trans; [exact H1|]. replace (IZR W * IZR v * IZR t * z) with (IZR W * z * IZR v * IZR t) by ring. apply Rmult_le_compat_r; lra. }
  assert (N : forall t a b, (0 < t)%Z -> IZR (b * t) <= IZR (W * (u * t + a * v)) -> IZR W * z * IZR v <= IZR b -> z <= Q2R q + IZR a * / IZR t).
  { intros t a b Ht H1 H2. apply IZR_lt in Ht. rewrite !mult_IZR, plus_IZR, !mult_IZR in H1. rewrite QE. apply (Rmult_le_reg_l (IZR W * IZR v * IZR t)); [repeat apply Rmult_lt_0_compat; assumption|].
    replace (IZR W * IZR v * IZR t * (IZR u / IZR v + IZR a * / IZR t)) with (IZR W * (IZR u * IZR t + IZR a * IZR v)) by (field; lra).
    eapply Rle_trans; [|exact H1]. replace (IZR W * IZR v * IZR t * z) with (IZR W * z * IZR v * IZR t) by ring. apply Rmult_le_compat_r; lra. }
  assert (TE : / 10 ^ zdigits i = / IZR (10 ^ (if (i =? 3)%Z then 107 else 98))) by (f_equal; unfold zdigits; destruct (i =? 3)%Z; rewrite (pow_Z 10); reflexivity).
  assert (LE : / 10 ^ 108 = / IZR (10 ^ 108)) by (f_equal; rewrite (pow_Z 10); reflexivity).
  assert (TP : (0 < 10 ^ (if (i =? 3)%Z then 107 else 98))%Z) by (destruct (i =? 3)%Z; reflexivity). assert (LP : (0 < 10 ^ 108)%Z) by reflexivity.
  set (T := (10 ^ (if (i =? 3)%Z then 107 else 98))%Z) in *. set (L := (10 ^ 108)%Z) in *. clearbody T L.
  assert (Z1 : Q2R q + IZR (-1) * / IZR T <= z) by (apply (M T (-1)%Z lo TP); [|apply B]; replace (u * T + -1 * v)%Z with (u * T - v)%Z by ring; exact T1).
  assert (Z2 : z <= Q2R q + IZR 1 * / IZR T) by (apply (N T 1%Z hi TP); [|apply B]; replace (u * T + 1 * v)%Z with (u * T + v)%Z by ring; exact T2).
  apply orb_true_iff in C3 as [C3|C3]; apply Z.leb_le, IZR_le in C3.
  - apply above; [now apply Q_range|]. rewrite TE, LE. split; [apply (M L 2%Z lo LP); [exact C3|apply B]|lra].
  - apply below; [now apply Q_range|]. rewrite TE, LE. assert (Z3 : z <= Q2R q + IZR (-2) * / IZR L) by (apply (N L (-2)%Z hi LP); [|apply B]; replace (u * L + -2 * v)%Z with (u * L - 2 * v)%Z by ring; exact C3). lra.
Qed.

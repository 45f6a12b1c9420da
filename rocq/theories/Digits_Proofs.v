(** What it means for the values of two Decimals below 1 that their texts begin alike. *)
From Coq Require Import ZArith QArith Qabs Qround Qfield Qpower Bool Ascii String List Lia Lqa.
From Verif Require Import PyBase PyBase_Proofs Hashtable_Model Spec_Hashtable Hashtable_Proofs Hashtable_Dec Spec_Digits.
Import ListNotations.
Local Open Scope Z_scope.
Local Open Scope list_scope.

Lemma ten_p_Qpower e : (ten_p e == 10 ^ e)%Q.
Proof.
  unfold ten_p. destruct (Z.leb_spec 0 e) as [H|H].
  - rewrite Zpower_Qpower by exact H. reflexivity.
  - rewrite Zpower_Qpower by lia. rewrite Qpower_opp. change (inject_Z 10) with 10%Q. rewrite Qinv_involutive. reflexivity.
Qed.
Lemma ten_p_plus a b : (ten_p (a + b) == ten_p a * ten_p b)%Q.
Proof. rewrite !ten_p_Qpower. apply Qpower_plus. discriminate. Qed.
Lemma ten_p_pos e : (0 < ten_p e)%Q.
Proof. unfold ten_p. destruct (Z.leb_spec 0 e); [|apply Qinv_lt_0_compat]; change 0%Q with (inject_Z 0); rewrite <- Zlt_Qlt; apply Z.pow_pos_nonneg; lia. Qed.
Lemma ten_p_mono a b : a <= b -> (ten_p a <= ten_p b)%Q.
Proof.
  intros H. replace b with (a + (b - a)) by lia. rewrite ten_p_plus. pose proof (ten_p_pos a).
  assert (1 <= ten_p (b - a))%Q; [|nra]. unfold ten_p. rewrite (proj2 (Z.leb_le 0 (b - a))) by lia.
  change 1%Q with (inject_Z 1). rewrite <- Zle_Qle. pose proof (Z.pow_pos_nonneg 10 (b - a)). lia.
Qed.
Lemma digits_nonneg ds : 0 <= digits_val ds.
Proof. induction ds as [|d r IH]; [reflexivity|]. rewrite digits_val_cons. pose proof (pow10_pos (Z.of_nat (length r)) ltac:(lia)). nia. Qed.
Lemma digits_lead d r : d <> 0%nat -> 10 ^ Z.of_nat (length r) <= digits_val (d :: r).
Proof. intros H. rewrite digits_val_cons. pose proof (pow10_pos (Z.of_nat (length r)) ltac:(lia)). pose proof (digits_nonneg r). nia. Qed.
Lemma value_split ds e : (inject_Z (digits_val ds) * ten_p e == fracv ds * ten_p (e + Z.of_nat (length ds)))%Q.
Proof.
  rewrite <- (frac_digits ds), ten_p_plus. unfold ten_p at 3. rewrite (proj2 (Z.leb_le 0 _)) by lia.
  pose proof (pow10_Q (Z.of_nat (length ds)) ltac:(lia)). field. assumption.
Qed.

(** The three shapes of the text of a Decimal without a minus sign whose value is below 1. *)
Inductive shape (d : pydec) : Prop :=
| sh_point : forall Fs, Forall (fun n => (n < 10)%nat) Fs -> dec_eng d = "0"%char :: "."%char :: map digit_char Fs ->
    (dec_value d == fracv Fs)%Q -> shape d
| sh_zero : dec_eng d = ["0"%char] -> (dec_value d == 0)%Q -> shape d
| sh_small : forall n r, (0 < n < 10)%nat -> dec_eng d = digit_char n :: r -> (dec_value d < ten_p (-6))%Q -> shape d
| sh_zero_exp : forall z r, dec_eng d = "0"%char :: (if (z =? 0)%nat then [] else "."%char :: map digit_char (repeat 0%nat z)) ++ "E"%char :: r ->
    (dec_value d == 0)%Q -> shape d.

Lemma shape_of d : dec_normal d -> d_sign d = false -> (0 <= dec_value d < 1)%Q -> shape d.
Proof.
  intros [[Hne Hd] HN] HS [V0 V1]. destruct d as [sg ds e]. cbn [d_sign d_int d_exp] in *. subst sg.
  assert (LEN : 0 < Z.of_nat (length ds)) by (destruct ds; [contradiction|cbn; lia]).
  assert (EV : (dec_value (mkDec false ds e) == inject_Z (digits_val ds) * ten_p e)%Q).
  { unfold dec_value. cbn [d_sign d_int d_exp]. ring. }
  assert (NZ : 0 < e + Z.of_nat (length ds) -> ds = [0%nat]).
  { intros H. destruct HN as [HN|HN]; [exact HN|]. exfalso. destruct ds as [|x r]; [contradiction|]. cbn [hd] in HN.
    pose proof (digits_lead x r HN) as B. rewrite EV in V1.
    assert (1 <= inject_Z (digits_val (x :: r)) * ten_p e)%Q; [|lra].
    rewrite Zle_Qle in B. pose proof (ten_p_pos e) as P.
    assert (1 <= ten_p (Z.of_nat (length r)) * ten_p e)%Q.
    { rewrite <- ten_p_plus. change 1%Q with (ten_p 0). apply ten_p_mono. cbn [length] in H. lia. }
    unfold ten_p at 1 in H0. rewrite (proj2 (Z.leb_le 0 _)) in H0 by lia. nra. }
  assert (Z0 : ds = [0%nat] -> (dec_value (mkDec false ds e) == 0)%Q).
  { intros ->. rewrite EV. change (digits_val [0%nat]) with 0. change (inject_Z 0) with 0%Q. ring. }
  destruct (Z_le_dec e 0) as [He|He], (Z_lt_dec (-6) (e + Z.of_nat (length ds))) as [Hl|Hl].
  - destruct (Z_le_dec (e + Z.of_nat (length ds)) 0) as [L|L].
    + apply (sh_point _ (repeat 0%nat (Z.to_nat (- (e + Z.of_nat (length ds)))) ++ ds)).
      * apply Forall_app. split; [apply repeat_Forall; lia|exact Hd].
      * unfold dec_eng. cbn [d_sign d_int d_exp]. rewrite map_length.
        rewrite (proj2 (Z.leb_le e 0) He), (proj2 (Z.ltb_lt (-6) _) Hl). cbn [andb]. rewrite Z.eqb_refl, (proj2 (Z.leb_le _ 0) L).
        cbn [app]. rewrite app_nil_r, map_app.
        assert (R : forall n, map digit_char (repeat 0%nat n) = repeat "0"%char n) by (induction n; cbn; [reflexivity|now f_equal]).
        rewrite R. reflexivity.
      * rewrite EV, <- frac_digits, digits_val_zeros, app_length, repeat_length.
        rewrite <- ten_p_neg0 by lia. replace (- Z.of_nat _) with e by lia. reflexivity.
    + pose proof (NZ ltac:(lia)) as ->. cbn [length] in *. assert (e = 0) by lia. subst e. apply sh_zero; [reflexivity|now apply Z0].
  - destruct HN as [->|HN].
    + cbn [length] in *. assert (P : exists z r, dec_eng (mkDec false [0%nat] e) = "0"%char :: (if (z =? 0)%nat then [] else "."%char :: map digit_char (repeat 0%nat z)) ++ "E"%char :: r).
      { unfold dec_eng. cbn [d_sign d_int d_exp map length]. change (Z.of_nat 1) with 1.
        assert (C : (e <=? 0) && (-6 <? e + 1) = false) by (apply andb_false_iff; right; apply Z.ltb_ge; lia).
        rewrite C. change (text_eqb [digit_char 0] (txt "0")) with true. cbn iota.
        pose proof (Z.mod_pos_bound (e + 1 + 1) 3 ltac:(lia)) as M. set (dp := (e + 1 + 1) mod 3 - 1) in *. 
        assert (dp = -1 \/ dp = 0 \/ dp = 1) as DP by lia. clearbody dp.
        rewrite (proj2 (Z.eqb_neq (e + 1) dp)) by lia.
        destruct DP as [->|[->| ->]]; cbn [Z.leb Z.compare app txt list_ascii_of_string];
          [exists 2%nat|exists 1%nat|exists 0%nat]; eexists; reflexivity. }
      destruct P as (z & r & P). apply (sh_zero_exp _ z r P). now apply Z0.
    + destruct ds as [|x r]; [contradiction|]. cbn [hd] in HN. inversion Hd as [|? ? Hx Hr]; subst.
      assert (P : exists s, dec_eng (mkDec false (x :: r) e) = digit_char x :: s).
      { unfold dec_eng. cbn [d_sign d_int d_exp map].
        set (len := Z.of_nat (length (digit_char x :: map digit_char r))) in *.
        assert (EL : len = Z.of_nat (length (x :: r))) by (subst len; cbn [length]; now rewrite map_length).
        assert (C : (e <=? 0) && (-6 <? e + len) = false) by (apply andb_false_iff; right; apply Z.ltb_ge; lia).
        rewrite C.
        assert (T : text_eqb (digit_char x :: map digit_char r) (txt "0") = false).
        { apply Bool.not_true_iff_false. intros T. apply text_eqb_eq in T. injection T as T _. apply HN.
          apply digit_char_inj; [assumption|lia|exact T]. }
        rewrite T. pose proof (Z.mod_pos_bound (e + len - 1) 3 ltac:(lia)) as M. set (dp := (e + len - 1) mod 3 + 1) in *. assert (DP : 0 < dp) by lia. clearbody dp.
        rewrite (proj2 (Z.leb_gt dp 0)) by lia. destruct (len <=? dp); [eexists; reflexivity|].
        assert (exists k, Z.to_nat dp = S k) as (k & ->) by (exists (Z.to_nat dp - 1)%nat; lia). eexists. reflexivity. }
      destruct P as (s & P). apply (sh_small _ x s); [lia|exact P|]. rewrite EV, value_split.
      pose proof (fracv_bounds (x :: r) Hd) as [B0 B1]. pose proof (ten_p_mono (e + Z.of_nat (length (x :: r))) (-6) ltac:(lia)) as M.
      pose proof (ten_p_pos (e + Z.of_nat (length (x :: r)))). nra.
  - pose proof (NZ ltac:(lia)) as ->. cbn [length] in *.
    assert (P : exists z r, dec_eng (mkDec false [0%nat] e) = "0"%char :: (if (z =? 0)%nat then [] else "."%char :: map digit_char (repeat 0%nat z)) ++ "E"%char :: r).
    { unfold dec_eng. cbn [d_sign d_int d_exp map length]. change (Z.of_nat 1) with 1.
      assert (C : (e <=? 0) && (-6 <? e + 1) = false) by (apply andb_false_iff; left; apply Z.leb_gt; lia).
      rewrite C. change (text_eqb [digit_char 0] (txt "0")) with true. cbn iota.
      pose proof (Z.mod_pos_bound (e + 1 + 1) 3 ltac:(lia)) as M. set (dp := (e + 1 + 1) mod 3 - 1) in *. 
      assert (dp = -1 \/ dp = 0 \/ dp = 1) as DP by lia. clearbody dp.
      rewrite (proj2 (Z.eqb_neq (e + 1) dp)) by lia.
      destruct DP as [->|[->| ->]]; cbn [Z.leb Z.compare app txt list_ascii_of_string];
        [exists 2%nat|exists 1%nat|exists 0%nat]; eexists; reflexivity. }
    destruct P as (z & r & P). apply (sh_zero_exp _ z r P). now apply Z0.
  - exfalso. lia.
Qed.

Lemma digit_not_E n : (n < 10)%nat -> digit_char n <> "E"%char.
Proof. intros H. apply digit_cases in H. cbn in H. repeat (destruct H as [<-|H]; [discriminate|]). destruct H. Qed.
Lemma fracv_zeros n : (fracv (repeat 0%nat n) == 0)%Q.
Proof. induction n as [|n IH]; cbn [repeat fracv]; [reflexivity|]. rewrite IH. reflexivity. Qed.
Lemma zeros_prefix k : forall Fs z r, Forall (fun n => (n < 10)%nat) Fs ->
  firstn k (map digit_char Fs) = firstn k (map digit_char (repeat 0%nat z) ++ "E"%char :: r) -> firstn k Fs = firstn k (repeat 0%nat k).
Proof.
  induction k as [|k IH]; intros Fs z r HF H; [reflexivity|].
  destruct Fs as [|x Fs]; [destruct z; discriminate|]. inversion HF; subst. cbn [map firstn] in H.
  destruct z as [|z]; cbn [repeat map app firstn] in H; injection H as E H.
  - exfalso. now apply (digit_not_E x).
  - cbn [firstn repeat]. f_equal; [apply digit_char_inj; [assumption|lia|exact E]|]. eapply IH; eauto.
Qed.
Lemma point_vs_exp k Fs z r : Forall (fun n => (n < 10)%nat) Fs ->
  firstn (S (S k)) ("0"%char :: "."%char :: map digit_char Fs) =
  firstn (S (S k)) ("0"%char :: (if (z =? 0)%nat then [] else "."%char :: map digit_char (repeat 0%nat z)) ++ "E"%char :: r) ->
  (Qabs (fracv Fs) < ten_p (- Z.of_nat k))%Q.
Proof.
  intros HF H. destruct (Nat.eqb_spec z 0) as [->|Hz]; [discriminate|].
  change (("."%char :: map digit_char (repeat 0%nat z)) ++ "E"%char :: r) with ("."%char :: (map digit_char (repeat 0%nat z) ++ "E"%char :: r)) in H.
  cbn [firstn] in H. injection H as H. apply zeros_prefix in H; [|exact HF].
  pose proof (frac_close k Fs (repeat 0%nat k) HF ltac:(apply repeat_Forall; lia) H) as C.
  rewrite fracv_zeros in C. setoid_replace (fracv Fs - 0)%Q with (fracv Fs) in C by ring. exact C.
Qed.

Lemma numerals_close k d1 d2 : dec_normal d1 -> dec_normal d2 -> (0 <= dec_value d1 < 1)%Q -> (0 <= dec_value d2 < 1)%Q ->
  firstn (S (S k)) (dec_eng d1) = firstn (S (S k)) (dec_eng d2) ->
  (Qabs (dec_value d1 - dec_value d2) < ten_p (- Z.of_nat k))%Q \/ (dec_value d1 < ten_p (-6) /\ dec_value d2 < ten_p (-6))%Q.
Proof.
  intros N1 N2 V1 V2 H.
  assert (NEG : forall d, (0 <= dec_value d)%Q -> d_sign d = true -> (dec_value d == 0)%Q).
  { intros d V S. unfold dec_value in *. rewrite S in *. pose proof (ten_p_pos (d_exp d)) as P.
    pose proof (digits_nonneg (d_int d)) as D. rewrite Zle_Qle in D. change (inject_Z 0) with 0%Q in D. nra. }
  assert (HD : forall d, d_sign d = true -> exists r, dec_eng d = "-"%char :: r).
  { intros d S. unfold dec_eng. rewrite S. match goal with |- context[let '(_, _) := ?x in _] => destruct x end. eexists. reflexivity. }
  assert (HP : forall d, dec_normal d -> d_sign d = false -> (0 <= dec_value d < 1)%Q -> forall r, dec_eng d <> "-"%char :: r).
  { intros d N S V r E. destruct (shape_of d N S V) as [Fs HF T _|T _|n s Hn T _|z s T _]; rewrite E in T; try discriminate.
    injection T as T _. now apply (proj2 (digit_char_not n ltac:(lia))). }
  assert (T0 : (0 < ten_p (- Z.of_nat k))%Q) by apply ten_p_pos.
  assert (T6 : (0 < ten_p (-6))%Q) by apply ten_p_pos.
  destruct (d_sign d1) eqn:S1, (d_sign d2) eqn:S2.
  - right. rewrite (NEG d1), (NEG d2) by tauto. auto.
  - exfalso. destruct (HD d1 S1) as (r & E). rewrite E in H. destruct (dec_eng d2) as [|c s] eqn:E2; [discriminate|].
    cbn [firstn] in H. injection H as <- _. now apply (HP d2 N2 S2 V2 s).
  - exfalso. destruct (HD d2 S2) as (r & E). rewrite E in H. destruct (dec_eng d1) as [|c s] eqn:E1; [discriminate|].
    cbn [firstn] in H. injection H as -> _. now apply (HP d1 N1 S1 V1 s).
  - destruct (shape_of d1 N1 S1 V1) as [F1 HF1 E1 W1|E1 W1|n1 r1 Hn1 E1 W1|z1 r1 E1 W1];
    destruct (shape_of d2 N2 S2 V2) as [F2 HF2 E2 W2|E2 W2|n2 r2 Hn2 E2 W2|z2 r2 E2 W2]; rewrite E1, E2 in H;
      try (right; lra).
    + left. rewrite W1, W2. apply frac_close; try assumption. cbn [firstn] in H. injection H as H.
      rewrite !firstn_map in H. apply map_digit_inj in H; [exact H| |]; now apply firstn_Forall.
    + discriminate.
    + exfalso. cbn [firstn] in H. injection H as H _. apply (digit_char_inj 0 n2) in H; lia.
    + left. rewrite W1, W2. setoid_replace (fracv F1 - 0)%Q with (fracv F1) by ring. eapply point_vs_exp; eauto.
    + discriminate.
    + exfalso. cbn [firstn] in H. injection H as H _. symmetry in H. apply (digit_char_inj 0 n1) in H; lia.
    + left. rewrite W1, W2. setoid_replace (0 - fracv F2)%Q with (- fracv F2)%Q by ring. rewrite Qabs_opp. eapply point_vs_exp; eauto.
Qed.

(** Decimal texts: equal prefixes of plain numerals mean close values. *)
From Coq Require Import ZArith QArith Qabs Qfield Bool Ascii String List Lia Lqa.
From Verif Require Import PyBase PyBase_Proofs Hashtable_Model Spec_Hashtable Hashtable_Proofs.
Import ListNotations.
Local Open Scope Z_scope.

(** value of a Decimal *)
Definition dec_value (d : pydec) : Q :=
  ((if d_sign d then -(1) else 1) * inject_Z (digits_val (d_int d)) * ten_p (d_exp d))%Q.
(** invariants of Python's Decimal: at least one digit, digits below ten *)
Definition dec_wf (d : pydec) : Prop := d_int d <> [] /\ Forall (fun n => (n < 10)%nat) (d_int d).
(** rendered without an exponent *)
Definition dec_plain (d : pydec) : Prop := d_exp d <= 0 /\ -6 < d_exp d + Z.of_nat (length (d_int d)).

Lemma digit_cases n : (n < 10)%nat -> In n [0;1;2;3;4;5;6;7;8;9]%nat.
Proof. intros H. do 10 (destruct n as [|n]; [cbn; tauto|]). lia. Qed.
Lemma digit_char_not n : (n < 10)%nat -> digit_char n <> "."%char /\ digit_char n <> "-"%char.
Proof.
  intros H. apply digit_cases in H. cbn in H.
  repeat (destruct H as [<-|H]; [split; discriminate|]). destruct H.
Qed.
Lemma digit_char_inj n m : (n < 10)%nat -> (m < 10)%nat -> digit_char n = digit_char m -> n = m.
Proof.
  intros Hn Hm H. apply (f_equal nat_of_ascii) in H. unfold digit_char in H.
  rewrite !nat_ascii_embedding in H by lia. lia.
Qed.
Lemma map_digit_inj a b : Forall (fun n => (n < 10)%nat) a -> Forall (fun n => (n < 10)%nat) b ->
  map digit_char a = map digit_char b -> a = b.
Proof.
  intros Ha. revert b. induction Ha as [|x a Hx Ha IH]; intros [|y b] Hb H; try discriminate; [reflexivity|].
  inversion Hb; subst. injection H as E1 E2. f_equal; [now apply digit_char_inj|now apply IH].
Qed.

Lemma digits_acc ds a : fold_left (fun a d => 10 * a + Z.of_nat d) ds a = a * 10 ^ Z.of_nat (length ds) + digits_val ds.
Proof.
  unfold digits_val. revert a. induction ds as [|d ds IH]; intros a; cbn [fold_left length].
  - change (10 ^ Z.of_nat 0) with 1. lia.
  - rewrite IH, (IH (10 * 0 + _)). rewrite Nat2Z.inj_succ, Z.pow_succ_r by lia. ring.
Qed.
Lemma digits_val_app a b : digits_val (a ++ b) = digits_val a * 10 ^ Z.of_nat (length b) + digits_val b.
Proof. unfold digits_val at 1. rewrite fold_left_app. apply digits_acc. Qed.
Lemma digits_val_cons d b : digits_val (d :: b) = Z.of_nat d * 10 ^ Z.of_nat (length b) + digits_val b.
Proof. change (d :: b) with ([d] ++ b). rewrite digits_val_app. cbn [digits_val fold_left]. unfold digits_val. cbn [fold_left]. lia. Qed.
Lemma digits_val_zeros n b : digits_val (repeat 0%nat n ++ b) = digits_val b.
Proof.
  induction n as [|n IH]; [reflexivity|]. cbn [repeat app]. rewrite digits_val_cons, IH. lia.
Qed.

Fixpoint fracv (ds : list nat) : Q :=
  match ds with [] => 0%Q | d :: r => ((inject_Z (Z.of_nat d) + fracv r) / 10)%Q end.
Lemma fracv_bounds ds : Forall (fun n => (n < 10)%nat) ds -> (0 <= fracv ds < 1)%Q.
Proof.
  induction 1 as [|d r Hd Hr [IH1 IH2]]; cbn [fracv]; [split; lra|].
  assert (B : (0 <= inject_Z (Z.of_nat d) <= 9)%Q).
  { split; [change 0%Q with (inject_Z 0)|change 9%Q with (inject_Z 9)]; rewrite <- Zle_Qle; lia. }
  destruct B as [B1 B2]. split.
  - apply Qle_shift_div_l; lra.
  - apply Qlt_shift_div_r; lra.
Qed.
Lemma pow10_pos n : 0 <= n -> 0 < 10 ^ n. Proof. intros. apply Z.pow_pos_nonneg; lia. Qed.
Lemma pow10_Q n : 0 <= n -> ~ (inject_Z (10 ^ n) == 0)%Q.
Proof.
  intros Hn H. pose proof (pow10_pos n Hn). change 0%Q with (inject_Z 0) in H.
  apply (proj1 (inject_Z_injective _ _)) in H. lia.
Qed.
Lemma ten_p_neg n : 0 < n -> ten_p (- n) = (/ inject_Z (10 ^ n))%Q.
Proof. intros H. unfold ten_p. rewrite (proj2 (Z.leb_gt _ _)) by lia. now rewrite Z.opp_involutive. Qed.
Lemma ten_p_neg0 n : 0 <= n -> (ten_p (- n) == / inject_Z (10 ^ n))%Q.
Proof.
  intros H. destruct (Z.eq_dec n 0) as [->|N]; [reflexivity|]. now rewrite ten_p_neg by lia.
Qed.
Lemma frac_digits ds : (inject_Z (digits_val ds) * / inject_Z (10 ^ Z.of_nat (length ds)) == fracv ds)%Q.
Proof.
  induction ds as [|d r IH].
  - cbn. reflexivity.
  - rewrite digits_val_cons. cbn [length fracv]. rewrite Nat2Z.inj_succ, Z.pow_succ_r by lia.
    rewrite <- IH. rewrite inject_Z_plus, !inject_Z_mult.
    pose proof (pow10_Q (Z.of_nat (length r)) (Nat2Z.is_nonneg _)).
    change (inject_Z 10) with 10%Q. field. exact H.
Qed.
Lemma int_frac_digits a b :
  (inject_Z (digits_val (a ++ b)) * ten_p (- Z.of_nat (length b)) == inject_Z (digits_val a) + fracv b)%Q.
Proof.
  rewrite ten_p_neg0 by lia. rewrite digits_val_app, inject_Z_plus, inject_Z_mult, <- (frac_digits b).
  pose proof (pow10_Q (Z.of_nat (length b)) (Nat2Z.is_nonneg _)). field. exact H.
Qed.
Lemma frac_close k : forall a b, Forall (fun n => (n < 10)%nat) a -> Forall (fun n => (n < 10)%nat) b ->
  firstn k a = firstn k b -> (Qabs (fracv a - fracv b) < ten_p (- Z.of_nat k))%Q.
Proof.
  induction k as [|k IH]; intros a b Ha Hb H.
  - change (ten_p (- Z.of_nat 0)) with 1%Q. apply Qabs_Qlt_condition.
    pose proof (fracv_bounds a Ha). pose proof (fracv_bounds b Hb). split; lra.
  - assert (P : (0 < ten_p (- Z.of_nat (S k)))%Q).
    { rewrite ten_p_neg by lia. apply Qinv_lt_0_compat. change 0%Q with (inject_Z 0). rewrite <- Zlt_Qlt. apply pow10_pos. lia. }
    destruct a as [|x a], b as [|y b]; cbn [firstn] in H; try discriminate.
    + cbn [fracv]. assert (E : (Qabs (0 - 0) == 0)%Q) by reflexivity. rewrite E. exact P.
    + injection H as <- H. inversion Ha as [|? ? Hx Ha']; subst. inversion Hb as [|? ? Hy Hb']; subst.
      specialize (IH a b Ha' Hb' H). cbn [fracv].
      setoid_replace ((inject_Z (Z.of_nat x) + fracv a) / 10 - (inject_Z (Z.of_nat x) + fracv b) / 10)%Q
        with ((fracv a - fracv b) * (1 # 10))%Q by field.
      rewrite Qabs_Qmult. change (Qabs (1 # 10)) with (1 # 10)%Q.
      assert (T : (ten_p (- Z.of_nat (S k)) == ten_p (- Z.of_nat k) * (1 # 10))%Q).
      { rewrite !ten_p_neg0 by lia. rewrite Nat2Z.inj_succ, Z.pow_succ_r by lia.
        rewrite inject_Z_mult. change (inject_Z 10) with 10%Q.
        pose proof (pow10_Q (Z.of_nat k) (Nat2Z.is_nonneg _)). field. assumption. }
      rewrite T. apply Qmult_lt_r; [reflexivity|exact IH].
Qed.

(** shape of a plain rendering *)
Definition sgn_text (b : bool) : text := if b then ["-"%char] else [].
Lemma skipn_Forall {A} (P : A -> Prop) n l : Forall P l -> Forall P (skipn n l).
Proof. intros H. revert n. induction H as [|x l Hx Hl IH]; intros [|n]; cbn; auto. Qed.
Lemma firstn_Forall {A} (P : A -> Prop) n l : Forall P l -> Forall P (firstn n l).
Proof. intros H. revert n. induction H as [|x l Hx Hl IH]; intros [|n]; cbn; auto. Qed.
Lemma repeat_Forall {A} (P : A -> Prop) x n : P x -> Forall P (repeat x n).
Proof. intros H. induction n; cbn; auto. Qed.

Lemma plain_shape d : dec_wf d -> dec_plain d ->
  exists Is Fs, Forall (fun n => (n < 10)%nat) Is /\ Forall (fun n => (n < 10)%nat) Fs /\
    dec_eng d = sgn_text (d_sign d) ++ map digit_char Is ++
                (if d_exp d =? 0 then [] else "."%char :: map digit_char Fs) /\
    (dec_value d == (if d_sign d then -(1) else 1) * (inject_Z (digits_val Is) + fracv Fs))%Q.
Proof.
  intros [Hne Hd] [He Hl]. destruct d as [sg ds e]. unfold dec_eng, dec_value in *. cbn [d_sign d_int d_exp] in *.
  rewrite map_length. rewrite (proj2 (Z.leb_le e 0) He), (proj2 (Z.ltb_lt (-6) _) Hl). cbn [andb].
  rewrite Z.eqb_refl.
  assert (A : forall X Y : text, X = Y -> (if sg then txt "-"%string else []) ++ X = sgn_text sg ++ Y)
    by (intros X Y ->; now destruct sg).
  destruct (Z.leb_spec (e + Z.of_nat (length ds)) 0) as [L|L].
  - exists [0%nat], (repeat 0%nat (Z.to_nat (- (e + Z.of_nat (length ds)))) ++ ds).
    split; [constructor; [lia|constructor]|]. split; [apply Forall_app; split; [apply repeat_Forall; lia|exact Hd]|].
    assert (Hlen : (0 < length ds)%nat) by (destruct ds; [contradiction|cbn; lia]).
    rewrite (proj2 (Z.eqb_neq e 0)) by lia. split.
    + rewrite app_nil_r. apply A. cbn [map]. change (digit_char 0) with "0"%char. cbn [app]. rewrite map_app.
      assert (R : forall n, map digit_char (repeat 0%nat n) = repeat "0"%char n)
        by (induction n; cbn; [reflexivity|now f_equal]).
      rewrite R. reflexivity.
    + setoid_replace (inject_Z (digits_val [0%nat]) + fracv (repeat 0%nat (Z.to_nat (- (e + Z.of_nat (length ds)))) ++ ds))%Q
        with (inject_Z (digits_val ds) * ten_p e)%Q; [ring|].
      rewrite <- int_frac_digits. cbn [app]. rewrite digits_val_cons, digits_val_zeros.
      rewrite app_length, repeat_length. replace (- Z.of_nat _) with e by lia. reflexivity.
  - destruct (Z.leb_spec (Z.of_nat (length ds)) (e + Z.of_nat (length ds))) as [M|M].
    + assert (e = 0) by lia. subst e. exists ds, []. split; [exact Hd|]. split; [constructor|]. cbn [Z.eqb]. split.
      * apply A. replace (Z.to_nat _) with 0%nat by lia. cbn [repeat]. now rewrite !app_nil_r.
      * change (ten_p 0) with 1%Q. cbn [fracv]. ring.
    + exists (firstn (Z.to_nat (e + Z.of_nat (length ds))) ds), (skipn (Z.to_nat (e + Z.of_nat (length ds))) ds).
      split; [now apply firstn_Forall|]. split; [now apply skipn_Forall|].
      rewrite (proj2 (Z.eqb_neq e 0)) by lia. split.
      * rewrite app_nil_r. apply A. rewrite <- firstn_map, <- skipn_map. reflexivity.
      * rewrite <- int_frac_digits. rewrite firstn_skipn, skipn_length.
        replace (- Z.of_nat _) with e by lia. ring.
Qed.

Lemma point_at_shape s f : ~ In "."%char s -> point_at (s ++ "."%char :: f) = Some (S (length s)).
Proof.
  induction s as [|c s IH]; intros H; cbn [app point_at length]; [reflexivity|].
  destruct (Ascii.eqb_spec c "."%char) as [->|N]; [exfalso; apply H; now left|].
  rewrite IH by (intros Hi; apply H; now right). reflexivity.
Qed.
Lemma point_at_none s : ~ In "."%char s -> point_at s = None.
Proof.
  induction s as [|c s IH]; intros H; cbn [point_at]; [reflexivity|].
  destruct (Ascii.eqb_spec c "."%char) as [->|N]; [exfalso; apply H; now left|].
  rewrite IH by (intros Hi; apply H; now right). reflexivity.
Qed.
Lemma point_at_firstn t p m : point_at t = Some p -> (p <= m)%nat -> point_at (firstn m t) = Some p.
Proof.
  revert p m. induction t as [|c t IH]; intros p m H L; cbn [point_at] in H; [discriminate|].
  destruct m as [|m].
  - destruct (Ascii.eqb c "."%char); [injection H as <-; lia|].
    destruct (point_at t); [injection H as <-; lia|discriminate].
  - cbn [firstn point_at]. destruct (Ascii.eqb c "."%char); [exact H|].
    destruct (point_at t) as [q|]; [|discriminate]. injection H as <-.
    now rewrite (IH q m eq_refl ltac:(lia)).
Qed.
Lemma point_at_prefix t p m : point_at (firstn m t) = Some p -> point_at t = Some p.
Proof.
  revert p m. induction t as [|c t IH]; intros p m H; [now destruct m|].
  destruct m as [|m]; [discriminate|]. cbn [firstn point_at] in *.
  destruct (Ascii.eqb c "."%char); [exact H|].
  destruct (point_at (firstn m t)) as [q|] eqn:E; [|discriminate]. now rewrite (IH q m E).
Qed.

Lemma head_no_point b Is : Forall (fun n => (n < 10)%nat) Is -> ~ In "."%char (sgn_text b ++ map digit_char Is).
Proof.
  intros H Hi. apply in_app_or in Hi. destruct Hi as [Hi|Hi].
  - destruct b; cbn in Hi; [destruct Hi as [Hi|[]]; discriminate|destruct Hi].
  - apply in_map_iff in Hi. destruct Hi as (n & Hn & Hi). rewrite Forall_forall in H.
    now apply (proj1 (digit_char_not n (H n Hi))).
Qed.
Lemma head_inj b b' Is Is' : Forall (fun n => (n < 10)%nat) Is -> Forall (fun n => (n < 10)%nat) Is' ->
  sgn_text b ++ map digit_char Is = sgn_text b' ++ map digit_char Is' -> b = b' /\ Is = Is'.
Proof.
  intros H H' E.
  assert (N : forall l r, Forall (fun n => (n < 10)%nat) l -> "-"%char :: r = map digit_char l -> False).
  { intros [|x l] r Hl Hx; [discriminate|]. injection Hx as Hx _. inversion Hl; subst.
    now apply (proj2 (digit_char_not x ltac:(assumption))). }
  destruct b, b'; cbn in E.
  - injection E as E. split; [reflexivity|now apply map_digit_inj].
  - exfalso. now apply (N Is' (map digit_char Is)).
  - exfalso. symmetry in E. now apply (N Is (map digit_char Is')).
  - split; [reflexivity|now apply map_digit_inj].
Qed.

Lemma plain_point d p : dec_wf d -> dec_plain d -> point_at (dec_eng d) = Some p ->
  exists Is Fs, Forall (fun n => (n < 10)%nat) Is /\ Forall (fun n => (n < 10)%nat) Fs /\
    dec_eng d = (sgn_text (d_sign d) ++ map digit_char Is) ++ "."%char :: map digit_char Fs /\
    p = S (length (sgn_text (d_sign d) ++ map digit_char Is)) /\
    (dec_value d == (if d_sign d then -(1) else 1) * (inject_Z (digits_val Is) + fracv Fs))%Q.
Proof.
  intros Hw Hp Hpt. destruct (plain_shape d Hw Hp) as (Is & Fs & HI & HF & Ht & Hv).
  destruct (d_exp d =? 0).
  - rewrite app_nil_r in Ht. rewrite Ht, point_at_none in Hpt by (now apply head_no_point). discriminate.
  - exists Is, Fs. rewrite app_assoc in Ht. repeat split; try assumption.
    rewrite Ht, point_at_shape in Hpt by (now apply head_no_point). now injection Hpt as <-.
Qed.

Lemma plain_close d1 d2 m p : dec_wf d1 -> dec_wf d2 -> dec_plain d1 -> dec_plain d2 ->
  point_at (dec_eng d1) = Some p -> (p <= m)%nat -> firstn m (dec_eng d1) = firstn m (dec_eng d2) ->
  (Qabs (dec_value d1 - dec_value d2) < ten_p (- (Z.of_nat m - Z.of_nat p)))%Q.
Proof.
  intros W1 W2 P1 P2 Hp Hm Hf.
  assert (Hp2 : point_at (dec_eng d2) = Some p).
  { apply (point_at_prefix _ _ m). rewrite <- Hf. now apply point_at_firstn. }
  destruct (plain_point d1 p W1 P1 Hp) as (I1 & F1 & HI1 & HF1 & T1 & L1 & V1).
  destruct (plain_point d2 p W2 P2 Hp2) as (I2 & F2 & HI2 & HF2 & T2 & L2 & V2).
  rewrite T1, T2 in Hf.
  set (h1 := sgn_text (d_sign d1) ++ map digit_char I1) in *.
  set (h2 := sgn_text (d_sign d2) ++ map digit_char I2) in *.
  assert (Hh : h1 = h2).
  { apply (f_equal (firstn (length h1))) in Hf. rewrite !firstn_firstn in Hf.
    replace (Nat.min (length h1) m) with (length h1) in Hf by lia.
    rewrite firstn_app, Nat.sub_diag, firstn_all, firstn_O, app_nil_r in Hf.
    replace (length h1) with (length h2) in Hf by lia.
    rewrite firstn_app, Nat.sub_diag, firstn_all, firstn_O, app_nil_r in Hf. exact Hf. }
  assert (HF : firstn (m - p) F1 = firstn (m - p) F2).
  { rewrite <- Hh in Hf. rewrite !firstn_app in Hf. apply app_inv_head in Hf.
    replace (m - length h1)%nat with (S (m - p)) in Hf by lia. cbn [firstn] in Hf. injection Hf as Hf.
    rewrite !firstn_map in Hf. apply map_digit_inj in Hf; [exact Hf| |]; now apply firstn_Forall. }
  apply head_inj in Hh; [|assumption|assumption]. destruct Hh as [Hs HI].
  rewrite V1, V2, <- Hs, <- HI.
  replace (Z.of_nat m - Z.of_nat p) with (Z.of_nat (m - p)) by lia.
  pose proof (frac_close (m - p) F1 F2 HF1 HF2 HF) as C.
  destruct (d_sign d1).
  - setoid_replace (- (1) * (inject_Z (digits_val I1) + fracv F1) - - (1) * (inject_Z (digits_val I1) + fracv F2))%Q
      with (- (fracv F1 - fracv F2))%Q by ring. now rewrite Qabs_opp.
  - setoid_replace (1 * (inject_Z (digits_val I1) + fracv F1) - 1 * (inject_Z (digits_val I1) + fracv F2))%Q
      with (fracv F1 - fracv F2)%Q by ring. exact C.
Qed.

(** The enumeration of rational functions, and what a positive answer of their is_equiv means. *)
From Coq Require Import ZArith QArith Qabs Qfield List Bool Lia Lqa.
From Verif Require Import PyBase PyBase_Proofs ContFrac_Model Spec_Utils ULCD_Model ULCD_Proofs ULCD_Equiv Rational_Model
  Spec_Rational Poly_Lib Rational_Proofs Rational_Obj Rational_Canon.
Import ListNotations.
Local Open Scope Z_scope.
Local Open Scope list_scope.

(** ---- degrees ---- *)
Lemma drop_zeros_app l c : drop_zeros (l ++ [c]) = match drop_zeros l with [] => drop_zeros [c] | l' => l' ++ [c] end.
Proof. induction l as [|a r IH]; [reflexivity|]. cbn [app drop_zeros]. destruct (a =? 0); [exact IH|reflexivity]. Qed.
Lemma drop_zeros_rev p : drop_zeros (rev p) = rev (znorm p).
Proof.
  induction p as [|c r IH]; [reflexivity|]. cbn [rev znorm]. rewrite drop_zeros_app, IH.
  destruct (znorm r) as [|d s] eqn:E.
  - cbn. destruct (c =? 0); reflexivity.
  - destruct (rev (d :: s)) eqn:R; [|cbn [rev] in *; now rewrite R].
    apply (f_equal (@rev Z)) in R. rewrite rev_involutive in R. discriminate.
Qed.
Lemma stripped_len_znorm p : stripped_len p = Z.of_nat (length (znorm p)).
Proof. unfold stripped_len. now rewrite drop_zeros_rev, rev_length. Qed.
Lemma nth_znorm p : forall i, nth i (znorm p) 0 = nth i p 0.
Proof.
  induction p as [|c r IH]; intros i; [reflexivity|]. cbn [znorm]. specialize (IH (pred i)).
  destruct (znorm r) as [|d s]; [destruct (Z.eqb_spec c 0) as [->|N]|].
  - destruct i as [|i]; [reflexivity|]. cbn [nth pred] in *. rewrite <- IH. destruct i; reflexivity.
  - destruct i as [|i]; [reflexivity|]. cbn [nth pred] in *. rewrite <- IH. destruct i; reflexivity.
  - destruct i as [|i]; [reflexivity|]. cbn [nth pred] in *. exact IH.
Qed.
Lemma true_length_ex p : true_length p (length (znorm p)).
Proof.
  destruct (true_length_znorm p) as (_ & A & B). split; [apply znorm_length|]. split.
  - intros i H. rewrite <- nth_znorm. auto.
  - rewrite nth_znorm in B. exact B.
Qed.
Lemma true_length_unique p l l' : true_length p l -> true_length p l' -> l = l'.
Proof.
  intros (_ & A & B) (_ & A' & B').
  destruct (Nat.lt_trichotomy l l') as [H|[H|H]]; [|exact H|].
  - destruct B' as [->|B']; [lia|]. exfalso. apply B', A. lia.
  - destruct B as [->|B]; [lia|]. exfalso. apply B, A'. lia.
Qed.
Lemma all_zero_iff p : all_zero p = true <-> ~ nonzero_poly p.
Proof.
  rewrite nonzero_znorm. unfold all_zero. rewrite negb_true_iff. induction p as [|c r IH]; cbn [existsb znorm]; [tauto|].
  destruct (znorm r) as [|d s]; destruct (Z.eqb_spec c 0) as [->|N]; cbn [negb orb];
    try (rewrite IH); split; intros H; try discriminate; try tauto; exfalso; apply H; discriminate.
Qed.

Section Enum.
  Variable rd : Q -> Q.

  Definition cand_okb (force : bool) (x : Q) (p q : list Z) : bool :=
    negb (all_zero p) && negb (all_zero q) && negb ((stripped_len p <? 2) && (stripped_len q <? 2)) &&
    negb (force && (stripped_len p <? stripped_len q)).
  Definition val_okb (x : Q) (p q : list Z) : bool :=
    negb (Qeq_bool (subs_in_polynom_x rd p x) 0) && negb (Qeq_bool (subs_in_polynom_x rd q x) 0).
  Definition mk_rf (x : Q) (p q : list Z) : rfun :=
    mkRfun p q 0 (p, q, 0) x (rvalue rd p q 0 x) None true None true false.

  Lemma body_dec en p q : all_zero p = false ->
    renum_body KDecimal rd en p q =
    Ok (if cand_okb (re_force en) (re_x en) p q && val_okb (re_x en) p q then Some (mk_rf (re_x en) p q) else None).
  Proof.
    intros AP. unfold renum_body, cand_okb, val_okb. rewrite AP. cbn [negb andb].
    destruct (all_zero q) eqn:AQ; [reflexivity|]. cbn [negb andb].
    destruct ((stripped_len p <? 2) && (stripped_len q <? 2)); [reflexivity|]. cbn [negb andb].
    destruct (re_force en && (stripped_len p <? stripped_len q)); [reflexivity|]. cbn [negb andb].
    assert (P : p <> []) by (intros ->; discriminate). assert (D : q <> []) by (intros ->; discriminate).
    unfold is_normal. destruct p as [|a p]; [contradiction|]. destruct q as [|b q]; [contradiction|]. cbn [bind].
    destruct (Qeq_bool (subs_in_polynom_x rd (a :: p) (re_x en)) 0) eqn:EA; [reflexivity|]. cbn [negb bind andb].
    destruct (Qeq_bool (subs_in_polynom_x rd (b :: q) (re_x en)) 0) eqn:EB; [reflexivity|]. cbn [negb].
    unfold rf_new. rewrite calc_val_def by (auto; discriminate). reflexivity.
  Qed.
  Lemma body_mpf en p q : all_zero p = false ->
    renum_body KMpf rd en p q = if cand_okb (re_force en) (re_x en) p q then Raise AttributeError else Ok None.
  Proof.
    intros AP. unfold renum_body, cand_okb. rewrite AP. cbn [negb andb].
    destruct (all_zero q) eqn:AQ; [reflexivity|]. cbn [negb andb].
    destruct ((stripped_len p <? 2) && (stripped_len q <? 2)); [reflexivity|]. cbn [negb andb].
    destruct (re_force en && (stripped_len p <? stripped_len q)); reflexivity.
  Qed.

  Lemma flat_filter {A B} (f : A -> bool) (g : A -> B) l :
    flat_map (fun o => match o with Some x => [x] | None => [] end) (map (fun a => if f a then Some (g a) else None) l) = map g (filter f l).
  Proof. induction l as [|a r IH]; cbn; [reflexivity|]. destruct (f a); cbn; now rewrite IH. Qed.

  Lemma renum_list_dec en :
    let okb pq := cand_okb (re_force en) (re_x en) (fst pq) (snd pq) && val_okb (re_x en) (fst pq) (snd pq) in
    renum_list KDecimal rd en =
    Ok (map (fun pq => mk_rf (re_x en) (fst pq) (snd pq))
         (filter okb (list_prod (product (ranges_of (re_num en))) (product (ranges_of (re_den en)))))).
  Proof.
    intros okb. unfold renum_list. generalize (product (ranges_of (re_den en))) as D. generalize (product (ranges_of (re_num en))) as N.
    intros N D.
    set (g := fun p => if all_zero p then [] else map (fun q => if okb (p, q) then Some (mk_rf (re_x en) p q) else None) D).
    rewrite (mapM_ok _ g).
    2:{ intros p _. unfold g. destruct (all_zero p) eqn:AP; [reflexivity|]. apply mapM_ok. intros q _. now apply body_dec. }
    cbn [bind]. f_equal. induction N as [|p r IH]; [reflexivity|].
    cbn [map concat list_prod]. rewrite filter_app, map_app, flat_map_app, IH. f_equal.
    unfold g. destruct (all_zero p) eqn:AP.
    - assert (F : forall l, filter okb (map (fun y => (p, y)) l) = []).
      { induction l as [|y l IHl]; [reflexivity|]. cbn [map filter]. unfold okb at 1, cand_okb. cbn [fst]. rewrite AP. exact IHl. }
      rewrite F. reflexivity.
    - clear. induction D as [|q D IHD]; [reflexivity|]. cbn [map flat_map filter]. rewrite IHD. destruct (okb (p, q)); reflexivity.
  Qed.

  Lemma renum_list_mpf en :
    (exists p q, In p (product (ranges_of (re_num en))) /\ In q (product (ranges_of (re_den en))) /\
       cand_okb (re_force en) (re_x en) p q = true) /\ renum_list KMpf rd en = Raise AttributeError \/
    (forall p q, In p (product (ranges_of (re_num en))) -> In q (product (ranges_of (re_den en))) ->
       cand_okb (re_force en) (re_x en) p q = false) /\ renum_list KMpf rd en = Ok [].
  Proof.
    unfold renum_list. generalize (product (ranges_of (re_den en))) as D. generalize (product (ranges_of (re_num en))) as N.
    intros N D. set (f := fun p => if all_zero p then Ok [] else mapM (fun q => renum_body KMpf rd en p q) D).
    assert (F : forall p, (exists q, In q D /\ cand_okb (re_force en) (re_x en) p q = true) /\ f p = Raise AttributeError \/
      (forall q, In q D -> cand_okb (re_force en) (re_x en) p q = false) /\ exists l, f p = Ok l /\ Forall (fun o => o = None) l).
    { intros p. unfold f. destruct (all_zero p) eqn:AP.
      - right. split; [intros; unfold cand_okb; now rewrite AP|]. exists []. auto.
      - clear f. induction D as [|q D IH]; [right; split; [intros q []|exists []; auto]|]. cbn [mapM].
        rewrite body_mpf by exact AP. destruct (cand_okb (re_force en) (re_x en) p q) eqn:C; cbn [bind].
        + left. split; [exists q; split; [now left|exact C]|reflexivity].
        + destruct IH as [[(q' & I & C') E]|[H (l & E & FL)]]; rewrite E; cbn [bind].
          * left. split; [exists q'; split; [now right|exact C']|reflexivity].
          * right. split; [intros q' [<-|I]; auto|]. exists (None :: l). auto. }
    assert (G : (exists p q, In p N /\ In q D /\ cand_okb (re_force en) (re_x en) p q = true) /\ mapM f N = Raise AttributeError \/
      (forall p q, In p N -> In q D -> cand_okb (re_force en) (re_x en) p q = false) /\
        exists ll, mapM f N = Ok ll /\ Forall (fun o => o = None) (List.concat ll)).
    { induction N as [|p N IH]; [right; split; [intros p q []|exists []; cbn; auto]|]. cbn [mapM].
      destruct (F p) as [[(q & I & C) E]|[H (l & E & FL)]]; rewrite E; cbn [bind].
      - left. split; [exists p, q; cbn; auto|reflexivity].
      - destruct IH as [[(p' & q & I & I' & C) E']|[H' (ll & E' & FL')]]; rewrite E'; cbn [bind].
        + left. split; [exists p', q; cbn; auto|reflexivity].
        + right. split; [intros p' q [<-|I] I'; auto|]. exists (l :: ll). split; [reflexivity|]. cbn. apply Forall_app. auto. }
    destruct G as [[X E]|[X (ll & E & FL)]]; [left; split; [exact X|]; now rewrite E|right; split; [exact X|]; rewrite E; cbn [bind]].
    f_equal. induction FL as [|o l -> FL IH]; [reflexivity|exact IH].
  Qed.
End Enum.

Lemma in_ranges_of r : forall p, In p (product (ranges_of r)) <-> Forall2 (fun c lh => fst lh <= c < snd lh) p r.
Proof.
  unfold ranges_of. intros p. rewrite in_product. revert p. induction r as [|lh r IH]; intros p; cbn [map].
  - split; intros H; inversion H; constructor.
  - split; intros H; inversion H as [|c l t rr C T]; subst; constructor; try (now apply IH).
    + apply in_zrange in C. lia.
    + apply in_zrange. lia.
Qed.
Lemma NoDup_zrange lo hi : NoDup (zrange lo hi).
Proof. unfold zrange. apply FinFun.Injective_map_NoDup; [intros a b H; lia|apply seq_NoDup]. Qed.
Lemma ranges_NoDup r : NoDup (product (ranges_of r)).
Proof. apply NoDup_product. unfold ranges_of. apply Forall_map. apply Forall_forall. intros. apply NoDup_zrange. Qed.
Lemma reduce_mul_length r n : reduce_mul (map (fun c => snd c - fst c) r) = Ok n -> Forall (fun c => fst c <= snd c) r ->
  Z.of_nat (length (product (ranges_of r))) = n.
Proof.
  intros H F. rewrite product_length. unfold reduce_mul in H. destruct r as [|c r]; [discriminate|]. cbn [map] in H.
  injection H as <-.
  assert (G : forall l a, Forall (fun c => fst c <= snd c) l -> fold_left Z.mul (map (fun c => snd c - fst c) l) a =
    a * Z.of_nat (fold_right (fun l n => (length l * n)%nat) 1%nat (ranges_of l))).
  { induction l as [|d l IH]; intros a FL; cbn [map fold_left ranges_of fold_right]; [lia|]. inversion FL as [|x y D1 D2]; subst.
    rewrite IH by exact D2. unfold ranges_of. rewrite zrange_length, Nat2Z.inj_mul, Z2Nat.id by lia. ring. }
  inversion F as [|x y D1 D2]; subst. rewrite G by exact D2. unfold ranges_of. cbn [map fold_right].
  rewrite zrange_length, Nat2Z.inj_mul, Z2Nat.id by lia. ring.
Qed.

(** ---- equivalence ---- *)
Section Equiv.
  Variable rd : Q -> Q.
  Variable pgcd : list Z -> list Z -> list Z.
  Notation canonalize := (rf_canonalize KDecimal rd pgcd).

  Lemma drop_free_val s n : poly_val (drop_free s) n = poly_val s n - hd 0 s.
  Proof. unfold drop_free. rewrite val_znorm, val_zsub. cbn [poly_val]. ring. Qed.

  Lemma equiv_canon inv ab1 o1 i1 ab2 o2 i2 o1' o2' b : rf_inv o1 -> rf_inv o2 ->
    rf_is_equiv KDecimal rd pgcd inv (ab1, o1, i1) (ab2, o2, i2) = ((o1', o2'), Ok b) ->
    (i1 = i2 \/ In (i1, i2) inv) /\
    (exists c1 c2, canonalize o1 = (c1, Ok tt) /\ canonalize o2 = (c2, Ok tt) /\ same_visible c1 o1' /\ same_visible c2 o2' /\
       exists qr1 qr2, rf_num c1 <> [] /\ rf_den c1 <> [] /\ rf_num c2 <> [] /\ rf_den c2 <> [] /\
         rr_div (znorm (rf_num c1)) (znorm (rf_den c1)) = Ok qr1 /\
         (if existsb (fun '(a, b) => (a =? i1) && (b =? i2)) inv
          then rr_div (znorm (rf_den c2)) (znorm (rf_num c2)) else rr_div (znorm (rf_num c2)) (znorm (rf_den c2))) = Ok qr2 /\
         (b = true <-> snd ab1 = snd ab2 /\ (fst ab1 = fst ab2 \/ fst ab1 = map (map Z.opp) (fst ab2)) /\
            drop_free (fst qr1) = drop_free (fst qr2) /\ snd qr1 = snd qr2)) \/
    (i1 <> i2 /\ ~ In (i1, i2) inv /\ b = false /\ o1' = o1 /\ o2' = o2).
  Proof.
    intros I1 I2 H. unfold rf_is_equiv in H. set (isv := existsb _ inv) in *.
    assert (EX : isv = true <-> In (i1, i2) inv).
    { unfold isv. rewrite existsb_exists. split.
      - intros ([a c] & I & E). apply andb_true_iff in E as [E1 E2]. apply Z.eqb_eq in E1, E2. now subst.
      - intros I. exists (i1, i2). split; [exact I|]. now rewrite !Z.eqb_refl. }
    destruct (negb isv && negb (i1 =? i2)) eqn:G.
    { injection H as <- <- <-. right. apply andb_true_iff in G as [G1 G2]. apply negb_true_iff in G1, G2. apply Z.eqb_neq in G2.
      repeat split; auto. intros X. apply EX in X. congruence. }
    left. split.
    { apply andb_false_iff in G as [G|G]; apply negb_false_iff in G; [right; tauto|left; now apply Z.eqb_eq]. }
    destruct (canonalize o1) as [c1 [[]|e]] eqn:C1; [|discriminate].
    destruct (canonalize o2) as [c2 [[]|e]] eqn:C2; [|discriminate].
    pose proof (proj1 (canonalize_ok _ _ _ _ _ _ I1 C1)) as J1. pose proof (proj1 (canonalize_ok _ _ _ _ _ _ I2 C2)) as J2.
    destruct (rf_get_nsym c1) as [o1a n1] eqn:N1. destruct (rf_get_dsym o1a) as [o1b d1] eqn:D1.
    destruct (rf_get_nsym c2) as [o2a n2] eqn:N2. destruct (rf_get_dsym o2a) as [o2b d2] eqn:D2.
    destruct (get_nsym_ok _ _ _ J1 N1) as (E1 & V1 & K1). destruct (get_dsym_ok _ _ _ K1 D1) as (F1 & W1 & _).
    destruct (get_nsym_ok _ _ _ J2 N2) as (E2 & V2 & K2). destruct (get_dsym_ok _ _ _ K2 D2) as (F2 & W2 & _).
    injection H as <- <- H. exists c1, c2.
    assert (X1 : rf_den o1a = rf_den c1) by apply V1. assert (X2 : rf_den o2a = rf_den c2) by apply V2. rewrite X1 in F1. rewrite X2 in F2.
    split; [reflexivity|]. split; [reflexivity|].
    split; [destruct V1 as (?&?&?&?&?&?&?), W1 as (?&?&?&?&?&?&?); repeat split; congruence|].
    split; [destruct V2 as (?&?&?&?&?&?&?), W2 as (?&?&?&?&?&?&?); repeat split; congruence|].
    assert (PS : forall p s, poly2sympoly p = Ok s -> p <> [] /\ s = znorm p).
    { intros p s P. unfold poly2sympoly in P. destruct p; [discriminate|]. injection P as <-. split; [discriminate|reflexivity]. }
    destruct n1 as [P1|]; [|discriminate]. destruct d1 as [Q1|]; [|discriminate]. cbn [bind] in H.
    destruct (rr_div P1 Q1) as [qr1|] eqn:R1; [|discriminate]. cbn [bind] in H.
    destruct n2 as [P2|]; [|discriminate]. destruct d2 as [Q2|]; [|discriminate]. cbn [bind] in H.
    destruct (if isv then rr_div Q2 P2 else rr_div P2 Q2) as [qr2|] eqn:R2; [|discriminate]. cbn [bind] in H.
    symmetry in E1, F1, E2, F2. apply PS in E1 as [? ->]. apply PS in F1 as [? ->]. apply PS in E2 as [? ->]. apply PS in F2 as [? ->].
    exists qr1, qr2. do 4 (split; [assumption|]). split; [exact R1|]. split; [exact R2|].
    injection H as <-. unfold poly_eqb. rewrite !andb_true_iff, orb_true_iff, !coeffs_eqb_eq.
    destruct (list_eq_dec Z.eq_dec (drop_free (fst qr1)) (drop_free (fst qr2))), (list_eq_dec Z.eq_dec (snd qr1) (snd qr2)); intuition discriminate.
  Qed.

  Lemma equiv_same_den o1 o2 qr1 qr2 :
    rr_div (znorm (rf_num o1)) (znorm (rf_den o1)) = Ok qr1 -> rr_div (znorm (rf_num o2)) (znorm (rf_den o2)) = Ok qr2 ->
    (forall n, poly_val (rf_den o1) n = poly_val (rf_den o2) n) ->
    drop_free (fst qr1) = drop_free (fst qr2) -> snd qr1 = snd qr2 ->
    exists z, forall y, ~ (pvalq (rf_den o1) y == 0)%Q ->
      (pvalq (rf_num o1) y / pvalq (rf_den o1) y == pvalq (rf_num o2) y / pvalq (rf_den o2) y + inject_Z z)%Q.
  Proof.
    intros R1 R2 DE F S. destruct qr1 as [Q1 T1], qr2 as [Q2 T2]. cbn [fst snd] in *. subst T2.
    destruct (rr_div_spec _ _ _ _ (znorm_normal _) (znorm_normal _) R1) as (_ & _ & _ & V1 & _).
    destruct (rr_div_spec _ _ _ _ (znorm_normal _) (znorm_normal _) R2) as (_ & _ & _ & V2 & _).
    exists (hd 0 Q1 - hd 0 Q2). intros y Y.
    assert (E : forall n, poly_val (rf_num o1) n = poly_val (zsub (rf_num o2) (zterm (hd 0 Q2 - hd 0 Q1) 0 (rf_den o2))) n).
    { intros n. rewrite val_zsub, val_zterm. cbn [zpow]. specialize (V1 n). specialize (V2 n). rewrite !val_znorm in V1, V2.
      pose proof (drop_free_val Q1 n) as A1. pose proof (drop_free_val Q2 n) as A2. rewrite F in A1. rewrite V1, V2, DE.
      replace (poly_val Q1 n) with (poly_val Q2 n - hd 0 Q2 + hd 0 Q1) by lia. ring. }
    rewrite (zval_valQ _ _ E), pvalq_sub. pose proof (zval_valQ _ _ DE y) as DY. rewrite DY in *.
    unfold Z.sub. rewrite !inject_Z_plus, !inject_Z_opp. field. exact Y.
  Qed.
End Equiv.

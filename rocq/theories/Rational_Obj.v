(** Rational-function objects: value, caches and histories. *)
From Coq Require Import ZArith QArith Qabs Qround Qpower Qfield List Bool Lia Lqa.
From Verif Require Import PyBase PyBase_Proofs ContFrac_Model Spec_Utils ULCD_Model ULCD_Proofs Rational_Model Spec_Rational
  Poly_Lib Rational_Proofs.
Import ListNotations.
Local Open Scope Z_scope.
Local Open Scope list_scope.

(** ---- polynomial evaluation with rounding ---- *)
Fixpoint imap {A} (G : nat -> Z -> A) (k : nat) (l : list Z) : list A :=
  match l with [] => [] | c :: r => G k c :: imap G (S k) r end.
Lemma map_seq_imap {A} (G : nat -> Z -> A) l : forall pre,
  map (fun j => G j (nth j (pre ++ l) 0)) (seq (length pre) (length l)) = imap G (length pre) l.
Proof.
  induction l as [|c r IH]; intros pre; [reflexivity|]. cbn [length seq map imap]. f_equal.
  - rewrite app_nth2 by lia. rewrite Nat.sub_diag. reflexivity.
  - specialize (IH (pre ++ [c])). rewrite app_length in IH. cbn [length] in IH. rewrite Nat.add_1_r, <- app_assoc in IH.
    exact IH.
Qed.

Section Err.
  Variable rd : Q -> Q.
  Variable eps : Q.
  Hypothesis eps0 : (0 <= eps)%Q.
  Hypothesis rd_err : forall y, (Qabs (rd y - y) <= eps * Qabs y)%Q.
  Local Open Scope Q_scope.
  Let g := 1 + eps.

  Fixpoint tval (x : Q) (k : nat) (l : list Z) : Q :=
    match l with [] => 0 | c :: r => inject_Z c * xpow x k + tval x (S k) r end.
  Fixpoint tsize (x : Q) (k : nat) (l : list Z) : Q :=
    match l with [] => 0 | c :: r => Qabs (inject_Z c * xpow x k) + tsize x (S k) r end.
  Lemma tval_S x l : forall k, tval x (S k) l == x * tval x k l.
  Proof. induction l as [|c r IH]; intros k; cbn [tval]; [ring|]. rewrite (IH (S k)). cbn [xpow]. ring. Qed.
  Lemma tval_pvalq x l : tval x 0 l == pvalq l x.
  Proof.
    unfold pvalq. induction l as [|c r IH]; cbn [tval map poly_valQ]; [reflexivity|]. rewrite tval_S, IH. cbn [xpow]. ring.
  Qed.
  Lemma tsize_S x l : forall k, tsize x (S k) l == Qabs x * tsize x k l.
  Proof.
    induction l as [|c r IH]; intros k; cbn [tsize]; [ring|]. rewrite (IH (S k)). cbn [xpow]. rewrite !Qabs_Qmult. ring.
  Qed.
  Lemma tsize_psize x l : tsize x 0 l == psize l x.
  Proof.
    induction l as [|c r IH]; cbn [tsize psize]; [reflexivity|]. rewrite tsize_S, IH. cbn [xpow].
    rewrite Qabs_Qmult. change (Qabs 1) with 1. ring.
  Qed.

  Lemma term_err c x j : Qabs (rd (inject_Z c * rd (x ^ Z.of_nat j)) - inject_Z c * xpow x j) <=
    (g * g - 1) * Qabs (inject_Z c * xpow x j).
  Proof.
    assert (E : Qabs (inject_Z c * rd (x ^ Z.of_nat j) - inject_Z c * xpow x j) <= (g - 1) * Qabs (inject_Z c * xpow x j)).
    { pose proof (rd_err (x ^ Z.of_nat j)) as R. rewrite (xpow_Qpower x j) in R at 2 3.
      setoid_replace (inject_Z c * rd (x ^ Z.of_nat j) - inject_Z c * xpow x j)
        with (inject_Z c * (rd (x ^ Z.of_nat j) - xpow x j)) by ring.
      rewrite !Qabs_Qmult.
      setoid_replace ((g - 1) * (Qabs (inject_Z c) * Qabs (xpow x j))) with (eps * Qabs (xpow x j) * Qabs (inject_Z c))
        by (unfold g; ring).
      rewrite Qmult_comm. apply Qmult_le_compat_r; [exact R|apply Qabs_nonneg]. }
    eapply Qle_trans; [apply (err_step rd eps eps0 rd_err _ _ g (Qabs (inject_Z c * xpow x j)))|]; auto.
    - unfold g. lra.
    - apply Qle_refl.
    - fold g. apply Qle_refl.
  Qed.

  Lemma xpow_g_ge1 k : 1 <= xpow g k.
  Proof. induction k; cbn [xpow]; [apply Qle_refl|]. unfold g in *. nra. Qed.

  Lemma sum_err x l : forall k s S N h, 1 <= h -> g * g <= h -> Qabs S <= N -> Qabs (s - S) <= (h - 1) * N ->
    Qabs (fold_left (fun s t => rd (s + t)) (imap (fun j c => rd (inject_Z c * rd (x ^ Z.of_nat j))) k l) s - (S + tval x k l)) <=
      (h * xpow g (length l) - 1) * (N + tsize x k l).
  Proof.
    induction l as [|c r IH]; intros k s S N h H1 HG HS HE; cbn [imap fold_left tval tsize length xpow].
    - setoid_replace (s - (S + 0)) with (s - S) by ring. setoid_replace ((h * 1 - 1) * (N + 0)) with ((h - 1) * N) by ring. exact HE.
    - set (t := rd (inject_Z c * rd (x ^ Z.of_nat k))). set (T := inject_Z c * xpow x k).
      assert (TE : Qabs (t - T) <= (h - 1) * Qabs T).
      { eapply Qle_trans; [apply term_err|]. apply Qmult_le_compat_r; [lra|apply Qabs_nonneg]. }
      assert (HS' : Qabs (S + T) <= N + Qabs T).
      { eapply Qle_trans; [apply Qabs_triangle|]. apply Qplus_le_compat; [exact HS|apply Qle_refl]. }
      pose proof (err_plus s S t T h N (Qabs T) HE TE) as E1.
      pose proof (err_step rd eps eps0 rd_err (s + t) (S + T) h (N + Qabs T) H1 HS' E1) as E2. fold g in E2.
      assert (G : 1 <= g) by (unfold g; lra).
      specialize (IH (Datatypes.S k) (rd (s + t)) (S + T) (N + Qabs T) (g * h) ltac:(nra) ltac:(nra) HS' E2).
      setoid_replace (S + (T + tval x (Datatypes.S k) r)) with (S + T + tval x (Datatypes.S k) r) by ring.
      eapply Qle_trans; [exact IH|]. apply Qle_lteq; right. ring.
  Qed.

  Lemma subs_err l x : Qabs (subs_in_polynom_x rd l x - pvalq l x) <= (xpow g (length l + 2) - 1) * psize l x.
  Proof.
    unfold subs_in_polynom_x.
    pose proof (map_seq_imap (fun j c => rd (inject_Z c * rd (x ^ Z.of_nat j))) l []) as M. cbn [app length] in M. rewrite M.
    pose proof (sum_err x l 0 0 0 0 (g * g)) as E.
    rewrite <- tval_pvalq, <- tsize_psize.
    setoid_replace (tval x 0 l) with (0 + tval x 0 l) by ring.
    setoid_replace (tsize x 0 l) with (0 + tsize x 0 l) by ring.
    eapply Qle_trans; [apply E|].
    - unfold g. nra.
    - apply Qle_refl.
    - cbn. lra.
    - setoid_replace (0 - 0) with 0 by ring. cbn. nra.
    - apply Qle_lteq; right. rewrite Nat.add_comm. cbn [Nat.add xpow]. ring.
  Qed.
End Err.

Lemma subs_exact l x : (subs_in_polynom_x (fun q => q) l x == pvalq l x)%Q.
Proof.
  pose proof (subs_err (fun q => q) 0 ltac:(lra)) as E.
  assert (R : forall y, (Qabs (y - y) <= 0 * Qabs y)%Q) by (intros y; setoid_replace (y - y)%Q with 0%Q by ring; cbn; lra).
  specialize (E R l x).
  assert (P1 : forall k, (xpow (1 + 0) k == 1)%Q) by (induction k; cbn [xpow]; [reflexivity|rewrite IHk; reflexivity]).
  rewrite P1 in E. setoid_replace ((1 - 1) * psize l x)%Q with 0%Q in E by ring.
  apply Rnd_Proofs.Qabs_le_iff in E. lra.
Qed.

(** negated coefficients *)
Lemma subs_opp rd l x : Proper (Qeq ==> Qeq) rd -> (forall y, (rd (- y) == - rd y)%Q) ->
  (subs_in_polynom_x rd (map (Z.mul (-1)) l) x == - subs_in_polynom_x rd l x)%Q.
Proof.
  intros PR OP. unfold subs_in_polynom_x.
  pose proof (map_seq_imap (fun j c => rd (inject_Z c * rd (x ^ Z.of_nat j)))%Q l []) as M.
  pose proof (map_seq_imap (fun j c => rd (inject_Z c * rd (x ^ Z.of_nat j)))%Q (map (Z.mul (-1)) l) []) as M'.
  cbn [app length] in M, M'. rewrite M, M'.
  assert (G : forall k s s', (s' == - s)%Q ->
    (fold_left (fun s t => rd (s + t)) (imap (fun j c => rd (inject_Z c * rd (x ^ Z.of_nat j))) k (map (Z.mul (-1)) l)) s' ==
     - fold_left (fun s t => rd (s + t)) (imap (fun j c => rd (inject_Z c * rd (x ^ Z.of_nat j))) k l) s)%Q).
  { clear M M'. induction l as [|c r IH]; intros k s s' E; cbn [map imap fold_left]; [exact E|].
    apply IH. rewrite <- OP. apply PR. rewrite E.
    assert (T : (rd (inject_Z (-1 * c) * rd (x ^ Z.of_nat k)) == - rd (inject_Z c * rd (x ^ Z.of_nat k)))%Q).
    { rewrite <- OP. apply PR. rewrite inject_Z_mult. change (inject_Z (-1)) with (-1)%Q. ring. }
    rewrite T. ring. }
  apply G. reflexivity.
Qed.

Section Obj.
  Variable kind : numkind.
  Variable rd : Q -> Q.
  Variable pgcd : list Z -> list Z -> list Z.

  Definition rvalue (num den : list Z) (n : Z) (x : Q) : mpfv :=
    let a := subs_in_polynom_x rd num x in
    let b := subs_in_polynom_x rd den x in
    if Qeq_bool b 0 then NaN else if Qeq_bool a 0 then NaN else Fin (rd (rd (a / b) + inject_Z n))%Q.

  Lemma calc_val_ok num den n x v : calc_val kind rd num den n x = Ok v ->
    kind = KDecimal /\ den <> [] /\ v = rvalue num den n x.
  Proof.
    unfold calc_val, rvalue, is_normal. destruct kind; [|discriminate]. destruct den as [|d ds]; [discriminate|].
    cbn [bind]. destruct (Qeq_bool (subs_in_polynom_x rd (d :: ds) x) 0); cbn [negb].
    - intros [= <-]. repeat split; discriminate.
    - destruct num; [discriminate|]. cbn [bind]. destruct (Qeq_bool _ 0); cbn [negb]; intros [= <-]; repeat split; discriminate.
  Qed.
  Lemma calc_val_def num den n x : num <> [] -> den <> [] -> kind = KDecimal ->
    calc_val kind rd num den n x = Ok (rvalue num den n x).
  Proof.
    intros N D ->. unfold calc_val, rvalue, is_normal. destruct den as [|d ds]; [contradiction|]. destruct num; [contradiction|].
    cbn [bind]. destruct (Qeq_bool _ 0); cbn [negb]; [reflexivity|]. destruct (Qeq_bool _ 0); reflexivity.
  Qed.

  Definition cache_ok (p : list Z) (sym : option (list Z)) (upd : bool) : Prop :=
    upd = false -> forall s, sym = Some s -> p <> [] /\ s = znorm p.
  Definition rf_inv (o : rfun) : Prop :=
    cache_ok (rf_num o) (rf_nsym o) (rf_nupd o) /\ cache_ok (rf_den o) (rf_dsym o) (rf_dupd o) /\ rf_canon o = false.
  Definition consistent (o : rfun) : Prop := calc_val kind rd (rf_num o) (rf_den o) (rf_int o) (rf_const o) = Ok (rf_val o).
  (** everything but the caches *)
  Definition same_visible (o o' : rfun) : Prop :=
    rf_num o' = rf_num o /\ rf_den o' = rf_den o /\ rf_int o' = rf_int o /\ rf_params o' = rf_params o /\
    rf_const o' = rf_const o /\ rf_val o' = rf_val o /\ rf_canon o' = rf_canon o.

  Lemma inv_fresh o : rf_nupd o = true -> rf_dupd o = true -> rf_canon o = false -> rf_inv o.
  Proof. intros A B C. unfold rf_inv, cache_ok. rewrite A, B. repeat split; try discriminate; auto. Qed.

  Lemma get_nsym_ok o o1 r : rf_inv o -> rf_get_nsym o = (o1, r) ->
    r = poly2sympoly (rf_num o) /\ same_visible o o1 /\ rf_inv o1.
  Proof.
    intros (CN & CD & CC) H. unfold rf_get_nsym in H. destruct (rf_nsym o) as [s|] eqn:S; [destruct (rf_nupd o) eqn:U|].
    - destruct (poly2sympoly (rf_num o)) eqn:P; injection H as <- <-; (split; [reflexivity|]); (split; [repeat split|]).
      + split; [|split]; cbn; auto. intros _ s' [= <-]. unfold poly2sympoly in P. destruct (rf_num o); [discriminate|].
        injection P as <-. split; [discriminate|reflexivity].
      + split; [rewrite S, U; exact CN|split; auto].
    - injection H as <- <-. destruct (CN eq_refl s eq_refl) as [N ->]. rewrite poly2sympoly_ok by exact N.
      split; [reflexivity|]. split; [repeat split|]. split; [rewrite S, U; exact CN|split; auto].
    - destruct (poly2sympoly (rf_num o)) eqn:P; injection H as <- <-; (split; [reflexivity|]); (split; [repeat split|]).
      + split; [|split]; cbn; auto. intros _ s' [= <-]. unfold poly2sympoly in P. destruct (rf_num o); [discriminate|].
        injection P as <-. split; [discriminate|reflexivity].
      + split; [rewrite S; exact CN|split; auto].
  Qed.
  Lemma get_dsym_ok o o1 r : rf_inv o -> rf_get_dsym o = (o1, r) ->
    r = poly2sympoly (rf_den o) /\ same_visible o o1 /\ rf_inv o1.
  Proof.
    intros (CN & CD & CC) H. unfold rf_get_dsym in H. destruct (rf_dsym o) as [s|] eqn:S; [destruct (rf_dupd o) eqn:U|].
    - destruct (poly2sympoly (rf_den o)) eqn:P; injection H as <- <-; (split; [reflexivity|]); (split; [repeat split|]).
      + split; [|split]; cbn; auto. intros _ s' [= <-]. unfold poly2sympoly in P. destruct (rf_den o); [discriminate|].
        injection P as <-. split; [discriminate|reflexivity].
      + split; [auto|split; [rewrite S, U; exact CD|auto]].
    - injection H as <- <-. destruct (CD eq_refl s eq_refl) as [N ->]. rewrite poly2sympoly_ok by exact N.
      split; [reflexivity|]. split; [repeat split|]. split; [auto|split; [rewrite S, U; exact CD|auto]].
    - destruct (poly2sympoly (rf_den o)) eqn:P; injection H as <- <-; (split; [reflexivity|]); (split; [repeat split|]).
      + split; [|split]; cbn; auto. intros _ s' [= <-]. unfold poly2sympoly in P. destruct (rf_den o); [discriminate|].
        injection P as <-. split; [discriminate|reflexivity].
      + split; [auto|split; [rewrite S; exact CD|auto]].
  Qed.

  Lemma update_ok o o' r : rf_update_params kind rd o = (o', r) ->
    rf_inv o' /\ rf_num o' = rf_num o /\ rf_den o' = rf_den o /\ rf_int o' = rf_int o /\
    rf_params o' = (rf_num o, rf_den o, rf_int o) /\ rf_const o' = rf_const o /\
    (r = Ok tt -> consistent o') /\
    (r = Ok tt \/ exists e, r = Raise e /\ calc_val kind rd (rf_num o) (rf_den o) (rf_int o) (rf_const o) = Raise e).
  Proof.
    unfold rf_update_params, rf_calc. cbn. destruct (calc_val _ _ _ _ _ _) as [v|e] eqn:C; intros [= <- <-];
      (split; [apply inv_fresh; reflexivity|]); repeat split; cbn; auto; try discriminate. right. eauto.
  Qed.

  (** canonalize_params, seen from outside *)
  Lemma canonalize_ok o o' r : rf_inv o -> rf_canonalize kind rd pgcd o = (o', r) ->
    rf_inv o' /\ rf_const o' = rf_const o /\
    match (match poly2sympoly (rf_num o) with
           | Raise e => Raise e
           | Ok P => match poly2sympoly (rf_den o) with Raise e => Raise e | Ok D => canon_polys pgcd P D end end) with
    | Raise e => r = Raise e /\ same_visible o o'
    | Ok (num, den, c) =>
        rf_num o' = num /\ rf_den o' = den /\ rf_int o' = rf_int o + c /\ rf_params o' = (num, den, rf_int o + c) /\
        (r = Ok tt -> consistent o') /\
        (r = Ok tt \/ exists e, r = Raise e /\ calc_val kind rd num den (rf_int o + c) (rf_const o) = Raise e)
    end.
  Proof.
    intros I H. unfold rf_canonalize in H. assert (C := proj2 (proj2 I)). rewrite C in H.
    destruct (rf_get_nsym o) as [o1 r1] eqn:G1. destruct (get_nsym_ok _ _ _ I G1) as (-> & V1 & I1).
    destruct (poly2sympoly (rf_num o)) as [P|e].
    2:{ injection H as <- <-. split; [exact I1|]. split; [apply V1|]. split; [reflexivity|exact V1]. }
    destruct (rf_get_dsym o1) as [o2 r2] eqn:G2. destruct (get_dsym_ok _ _ _ I1 G2) as (-> & V2 & I2).
    assert (V : same_visible o o2).
    { destruct V1 as (?&?&?&?&?&?&?), V2 as (?&?&?&?&?&?&?). repeat split; congruence. }
    assert (ED : rf_den o1 = rf_den o) by apply V1. rewrite ED in *.
    destruct (poly2sympoly (rf_den o)) as [D|e].
    2:{ injection H as <- <-. split; [exact I2|]. split; [apply V|]. split; [reflexivity|exact V]. }
    destruct (canon_polys pgcd P D) as [[[num den] c]|e].
    2:{ injection H as <- <-. split; [exact I2|]. split; [apply V|]. split; [reflexivity|exact V]. }
    destruct (update_ok _ _ _ H) as (I' & N' & D' & A' & P' & C' & K' & R'). cbn in *.
    destruct V as (_ & _ & VI & _ & VC & _). rewrite VI, VC in *. split; [exact I'|]. repeat split; auto.
  Qed.

  Lemma flip_ok o o' r : rf_flip_sign kind rd o = (o', r) ->
    rf_inv o' /\ rf_num o' = rf_num o /\ rf_den o' = map (Z.mul (-1)) (rf_den o) /\ rf_int o' = - rf_int o /\
    rf_params o' = (rf_num o', rf_den o', rf_int o') /\ rf_const o' = rf_const o /\ (r = Ok tt -> consistent o') /\
    (r = Ok tt \/ exists e, r = Raise e /\ calc_val kind rd (rf_num o') (rf_den o') (rf_int o') (rf_const o) = Raise e).
  Proof.
    unfold rf_flip_sign. destruct (rf_update_params kind rd _) as [o1 r1] eqn:U.
    destruct (update_ok _ _ _ U) as (I' & N' & D' & A' & P' & C' & K' & R'). cbn in *.
    destruct R' as [->|(e & -> & E)].
    - intros H. unfold rf_calc in H. pose proof (K' eq_refl) as K. unfold consistent in K. rewrite K in H.
      assert (X : o1 = o') by (destruct o1; cbn in *; congruence). subst o'. injection H as _ <-.
      split; [exact I'|]. repeat split; auto; try lia. rewrite P', N', D', A'. reflexivity.
    - intros [= <- <-]. split; [exact I'|]. repeat split; auto; try lia; try discriminate.
      + rewrite P', N', D', A'. reflexivity.
      + right. exists e. rewrite N', D', A'. auto.
  Qed.

  Lemma step_inv o op o' r : rf_inv o -> rf_step kind rd pgcd o op = (o', r) ->
    rf_inv o' /\ rf_const o' = rf_const o /\ (r = Ok tt -> consistent o').
  Proof.
    intros I H. destruct op as [|n| |[[num den] n]]; cbn [rf_step] in H.
    - apply flip_ok in H. tauto.
    - unfold rf_add_int in H. apply update_ok in H. cbn in H. tauto.
    - apply canonalize_ok in H; [|exact I]. destruct H as (I' & C' & M). split; [exact I'|]. split; [exact C'|].
      intros ->. destruct (match poly2sympoly _ with Ok _ => _ | Raise _ => _ end) as [[[num den] c]|e];
        [tauto|destruct M; discriminate].
    - unfold rf_reinit, rf_calc in H. cbn in H. destruct (calc_val _ _ _ _ _ _) eqn:C; injection H as <- <-;
        (split; [apply inv_fresh; reflexivity|]); (split; [reflexivity|]); [intros _; exact C|discriminate].
  Qed.
  Lemma run_inv ops : forall o o' outs, rf_inv o -> rf_run kind rd pgcd ops o = (o', outs) ->
    rf_inv o' /\ rf_const o' = rf_const o /\ (last outs (Ok tt) = Ok tt -> outs = [] /\ o' = o \/ consistent o').
  Proof.
    induction ops as [|op ops IH]; intros o o' outs I H; cbn [rf_run] in H; [injection H as <- <-; auto|].
    destruct (rf_step kind rd pgcd o op) as [o1 out] eqn:S. destruct (rf_run kind rd pgcd ops o1) as [o2 outs'] eqn:R.
    injection H as <- <-. destruct (step_inv _ _ _ _ I S) as (I1 & C1 & K1).
    destruct (IH _ _ _ I1 R) as (I2 & C2 & K2). split; [exact I2|]. split; [congruence|].
    intros L. right. destruct outs' as [|b outs'].
    - cbn in L. destruct (K2 eq_refl) as [[_ ->]|K]; auto.
    - rewrite last_cons in L. destruct (K2 L) as [[E _]|K]; [discriminate|auto].
  Qed.
  Lemma new_inv p x o : rf_new kind rd p x = Ok o -> rf_inv o /\ consistent o /\ rf_const o = x /\ rf_params o = p /\
    p = (rf_num o, rf_den o, rf_int o).
  Proof.
    destruct p as [[num den] n]. unfold rf_new. destruct (calc_val kind rd num den n x) eqn:C; [|discriminate].
    intros [= <-]. split; [apply inv_fresh; reflexivity|]. split; [exact C|]. repeat split.
  Qed.
  (** every reachable object after a successful call *)
  Lemma reach_ok p x o0 ops o outs : rf_new kind rd p x = Ok o0 -> rf_run kind rd pgcd ops o0 = (o, outs) ->
    last outs (Ok tt) = Ok tt -> rf_inv o /\ consistent o /\ rf_const o = x.
  Proof.
    intros N R L. destruct (new_inv _ _ _ N) as (I & C & X & _). destruct (run_inv _ _ _ _ I R) as (I' & X' & K).
    split; [exact I'|]. split; [|congruence]. destruct (K L) as [[_ ->]|K']; auto.
  Qed.
End Obj.

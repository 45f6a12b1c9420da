(** Claims C43-C47 and further ones about rational-function left-hand sides (lhs_evaluators.py:256-557). *)
From Coq Require Import Ascii String ZArith QArith Qabs Qround Qpower Qfield List Bool Lia Lqa.
From Verif Require Import PyBase PyBase_Proofs Rnd ContFrac_Model Hashtable_Model Spec_Utils ULCD_Model ULCD_Proofs ULCD_Equiv
  Rational_Model Spec_Rational Poly_Lib Rational_Proofs Rational_Obj Rational_Canon Rational_Enum Spec_ULCD Rational_Latex.
Import ListNotations.
Local Open Scope Z_scope.
Local Open Scope list_scope.

(** An object after any sequence of flip_sign / add_int / canonalize_params / reinit_params calls of which the last one
    succeeded (earlier ones may have raised). *)
Definition reached kind rd pgcd x (o : rfun) : Prop := exists p0 o0 ops outs,
  rf_new kind rd p0 x = Ok o0 /\ rf_run kind rd pgcd ops o0 = (o, outs) /\ last outs (Ok tt) = Ok tt.
Lemma reached_ok kind rd pgcd x o : reached kind rd pgcd x o ->
  rf_inv o /\ consistent kind rd o /\ rf_const o = x /\ kind = KDecimal /\ rf_den o <> [] /\
  rf_val o = rvalue rd (rf_num o) (rf_den o) (rf_int o) x.
Proof.
  intros (p0 & o0 & ops & outs & N & R & L). destruct (reach_ok _ _ _ _ _ _ _ _ _ N R L) as (I & C & X).
  split; [exact I|]. split; [exact C|]. split; [exact X|]. unfold consistent in C. apply calc_val_ok in C as (K & D & V). subst x. auto.
Qed.

(** examples: (x^2-1)/(x-1) and (2x+7)/(3x^2+1); the gcd of the first pair is x-1, of the second 1 *)
Definition ogcd (p q : list Z) : list Z := [-1; 1].
Definition ogcd1 (p q : list Z) : list Z := [1].
Lemma zcoprime_one p q : (forall n, poly_val q n = 1) -> zcoprime p q.
Proof.
  intros H h _ [k K].
  assert (M : forall n, poly_val [1] n = poly_val (znorm h) n * poly_val (znorm k) n).
  { intros n. rewrite !val_znorm, <- K, H. cbn [poly_val]. ring. }
  assert (NH : znorm h <> []) by (intros E; specialize (M 0); rewrite E in M; discriminate).
  assert (NK : znorm k <> []) by (intros E; specialize (M 0); rewrite E in M; cbn in M; lia).
  destruct (zmul_degree (znorm h) (znorm k) [1]) as [L _]; auto using znorm_normal; try (right; discriminate).
  destruct (znorm h) as [|a [|]] eqn:EH; [contradiction| |destruct (znorm k); [contradiction|cbn in L; lia]].
  assert (A : forall n, poly_val h n = a) by (intros n; rewrite <- val_znorm, EH; cbn [poly_val]; ring).
  specialize (K 0). rewrite H, A in K. destruct (Z.eq_mul_1 a (poly_val k 0)); [lia|left|right]; intros; rewrite A; lia.
Qed.
Example ogcd_ok : gcd_for ogcd [-1; 0; 1] [-1; 1].
Proof.
  intros p' q' _ _. exists [1; 1], [1]. split; [intros; cbv [ogcd ogcd1]; cbn [poly_val]; ring|]. split; [intros; cbv [ogcd ogcd1]; cbn [poly_val]; ring|]. intros _.
  split; [apply zcoprime_one; intros; cbv [ogcd ogcd1]; cbn [poly_val]; ring|]. exists 1. intros n N. cbv [ogcd]. cbn [poly_val]. lia.
Qed.

(** ---- C43 ---- *)
(** The value is p(x)/q(x) + n up to rounding, where a and b are p(x) and q(x) up to rounding; it is NaN if a or b is 0. *)
Theorem C43_value : forall kind rd eps pgcd x o,
  (0 <= eps)%Q -> (forall y, Qabs (rd y - y) <= eps * Qabs y)%Q -> reached kind rd pgcd x o ->
  exists a b,
    (Qabs (a - pvalq (rf_num o) x) <= ((1 + eps) ^ (Z.of_nat (length (rf_num o)) + 2) - 1) * psize (rf_num o) x)%Q /\
    (Qabs (b - pvalq (rf_den o) x) <= ((1 + eps) ^ (Z.of_nat (length (rf_den o)) + 2) - 1) * psize (rf_den o) x)%Q /\
    match rf_val o with
    | NaN => (a == 0 \/ b == 0)%Q
    | Fin v => (~ a == 0 /\ ~ b == 0 /\
        Qabs (v - (a / b + inject_Z (rf_int o))) <= ((1 + eps) * (1 + eps) - 1) * (Qabs (a / b) + Qabs (inject_Z (rf_int o))))%Q
    end.
Proof.
  intros kind rd eps pgcd x o E0 RD RE. destruct (reached_ok _ _ _ _ _ RE) as (_ & _ & _ & _ & _ & V).
  exists (subs_in_polynom_x rd (rf_num o) x), (subs_in_polynom_x rd (rf_den o) x).
  assert (S : forall l, (Qabs (subs_in_polynom_x rd l x - pvalq l x) <= ((1 + eps) ^ (Z.of_nat (length l) + 2) - 1) * psize l x)%Q).
  { intros l. change 2 with (Z.of_nat 2). rewrite <- Nat2Z.inj_add, xpow_Qpower. now apply subs_err. }
  split; [apply S|]. split; [apply S|]. rewrite V. unfold rvalue.
  destruct (Qeq_bool (subs_in_polynom_x rd (rf_den o) x) 0) eqn:B; [right; now apply Qeq_bool_iff|].
  destruct (Qeq_bool (subs_in_polynom_x rd (rf_num o) x) 0) eqn:A; [left; now apply Qeq_bool_iff|].
  apply Qeq_bool_neq in A, B. split; [exact A|]. split; [exact B|].
  set (a := subs_in_polynom_x rd (rf_num o) x) in *. set (b := subs_in_polynom_x rd (rf_den o) x) in *.
  set (n := inject_Z (rf_int o)).
  pose proof (RD (a / b)%Q) as E1. pose proof (RD (rd (a / b) + n)%Q) as E2.
  set (u := rd (a / b)%Q) in *. set (w := rd (u + n)%Q) in *. set (t := (a / b)%Q) in *.
  assert (T1 : (Qabs (w - (t + n)) <= Qabs (w - (u + n)) + Qabs (u - t))%Q).
  { setoid_replace (w - (t + n))%Q with ((w - (u + n)) + (u - t))%Q by ring. apply Qabs_triangle. }
  assert (T2 : (Qabs (u + n) <= Qabs (u - t) + (Qabs t + Qabs n))%Q).
  { setoid_replace (u + n)%Q with ((u - t) + (t + n))%Q by ring. eapply Qle_trans; [apply Qabs_triangle|].
    apply Qplus_le_compat; [apply Qle_refl|apply Qabs_triangle]. }
  pose proof (Qabs_nonneg t). pose proof (Qabs_nonneg n). pose proof (Qabs_nonneg (u - t)). pose proof (Qabs_nonneg (u + n)).
  assert ((eps * Qabs (u + n) <= eps * (eps * Qabs t + (Qabs t + Qabs n)))%Q).
  { rewrite !(Qmult_comm eps). apply Qmult_le_compat_r; [lra|exact E0]. }
  assert (0 <= eps * Qabs n)%Q by (apply Qmult_le_0_compat; auto).
  assert (0 <= eps * eps * Qabs n)%Q by (apply Qmult_le_0_compat; [apply Qmult_le_0_compat; auto|auto]).
  lra.
Qed.
(** In exact arithmetic. *)
Theorem C43_exact : forall kind pgcd x o, reached kind (fun q => q) pgcd x o ->
  match rf_val o with
  | NaN => (pvalq (rf_num o) x == 0 \/ pvalq (rf_den o) x == 0)%Q
  | Fin v => (~ pvalq (rf_num o) x == 0 /\ ~ pvalq (rf_den o) x == 0 /\ v == ratf (rf_num o) (rf_den o) (rf_int o) x)%Q
  end.
Proof.
  intros kind pgcd x o RE. destruct (reached_ok _ _ _ _ _ RE) as (_ & _ & _ & _ & _ & V). rewrite V. unfold rvalue, ratf.
  pose proof (subs_exact (rf_num o) x) as SN. pose proof (subs_exact (rf_den o) x) as SD.
  destruct (Qeq_bool (subs_in_polynom_x _ (rf_den o) x) 0) eqn:B; [right; rewrite <- SD; now apply Qeq_bool_iff|].
  destruct (Qeq_bool (subs_in_polynom_x _ (rf_num o) x) 0) eqn:A; [left; rewrite <- SN; now apply Qeq_bool_iff|].
  apply Qeq_bool_neq in A, B. rewrite <- SN, <- SD. split; [exact A|]. split; [exact B|]. reflexivity.
Qed.
(** flip_sign never raises and negates the value, also under rounding that commutes with negation. *)
Theorem C43_flip : forall kind rd pgcd x o, Proper (Qeq ==> Qeq) rd -> (forall y, (rd (- y) == - rd y)%Q) ->
  reached kind rd pgcd x o ->
  exists o', rf_flip_sign kind rd o = (o', Ok tt) /\
    match rf_val o, rf_val o' with NaN, NaN => True | Fin v, Fin v' => (v' == - v)%Q | _, _ => False end /\
    (forall y, ~ (pvalq (rf_den o) y == 0)%Q ->
       ratf (rf_num o') (rf_den o') (rf_int o') y == - ratf (rf_num o) (rf_den o) (rf_int o) y)%Q.
Proof.
  intros kind rd pgcd x o PR OD RE. destruct (reached_ok _ _ _ _ _ RE) as (I & C & X & K & D & V). subst kind.
  destruct (rf_flip_sign KDecimal rd o) as [o' r] eqn:F. destruct (flip_ok _ _ _ _ _ F) as (_ & N' & D' & A' & _ & X' & C' & R').
  assert (OB : (subs_in_polynom_x rd (rf_den o') x == - subs_in_polynom_x rd (rf_den o) x)%Q) by (rewrite D'; now apply subs_opp).
  assert (NB : Qeq_bool (subs_in_polynom_x rd (rf_den o') x) 0 = Qeq_bool (subs_in_polynom_x rd (rf_den o) x) 0).
  { apply eq_true_iff_eq. rewrite !Qeq_bool_iff, OB. split; intros H; lra. }
  assert (R : r = Ok tt).
  { destruct R' as [->|(e & -> & E)]; [reflexivity|]. exfalso. rewrite X in E. unfold consistent in C. rewrite X in C.
    unfold calc_val, is_normal in C, E. rewrite N' in E. rewrite D' in E, NB.
    destruct (rf_den o) as [|d ds]; [contradiction|]. cbn [map bind] in *. rewrite NB in E.
    destruct (Qeq_bool (subs_in_polynom_x rd (d :: ds) x) 0); cbn [negb] in *; [discriminate|].
    destruct (rf_num o); [discriminate|]. cbn [bind] in *. destruct (Qeq_bool _ 0); discriminate. }
  subst r. exists o'. split; [reflexivity|]. split.
  - specialize (C' eq_refl). unfold consistent in C'. apply calc_val_ok in C' as (_ & _ & V'). rewrite V, V'. unfold rvalue.
    rewrite X', X, NB, N', A'. destruct (Qeq_bool (subs_in_polynom_x rd (rf_den o) x) 0) eqn:B; [exact Logic.I|].
    destruct (Qeq_bool (subs_in_polynom_x rd (rf_num o) x) 0); [exact Logic.I|].
    rewrite <- OD. apply PR. rewrite inject_Z_opp. apply Qeq_bool_neq in B.
    assert (Y : (rd (subs_in_polynom_x rd (rf_num o) x / subs_in_polynom_x rd (rf_den o') x) ==
                 - rd (subs_in_polynom_x rd (rf_num o) x / subs_in_polynom_x rd (rf_den o) x))%Q).
    { rewrite <- OD. apply PR. rewrite OB. field. exact B. }
    rewrite Y. ring.
  - intros y Y. unfold ratf. rewrite N', D', A', inject_Z_opp.
    assert (Z0 : (pvalq (map (Z.mul (-1)) (rf_den o)) y == - pvalq (rf_den o) y)%Q).
    { unfold pvalq. generalize (rf_den o) as l. clear. induction l as [|c l IH]; cbn [map poly_valQ]; [ring|].
      rewrite IH, inject_Z_mult. change (inject_Z (-1)) with (-1)%Q. ring. }
    rewrite Z0. field. exact Y.
Qed.
(** add_int(n) never raises and adds n in exact arithmetic. *)
Theorem C43_add_int : forall kind pgcd x o n, reached kind (fun q => q) pgcd x o ->
  exists o', rf_add_int kind (fun q => q) n o = (o', Ok tt) /\
    match rf_val o, rf_val o' with NaN, NaN => True | Fin v, Fin v' => (v' == v + inject_Z n)%Q | _, _ => False end /\
    (forall y, ratf (rf_num o') (rf_den o') (rf_int o') y == ratf (rf_num o) (rf_den o) (rf_int o) y + inject_Z n)%Q.
Proof.
  intros kind pgcd x o n RE. destruct (reached_ok _ _ _ _ _ RE) as (I & C & X & K & D & V). subst kind.
  destruct (rf_add_int KDecimal (fun q => q) n o) as [o' r] eqn:F. unfold rf_add_int in F. apply update_ok in F. cbn in F.
  destruct F as (_ & N' & D' & A' & _ & X' & C' & R').
  assert (R : r = Ok tt).
  { destruct R' as [->|(e & -> & E)]; [reflexivity|]. exfalso. unfold consistent in C. rewrite X in *.
    unfold calc_val, is_normal in C, E. destruct (rf_den o) as [|d ds]; [contradiction|]. cbn [bind] in *.
    destruct (Qeq_bool _ 0); cbn [negb] in *; [discriminate|].
    destruct (rf_num o); [discriminate|]. cbn [bind] in *. destruct (Qeq_bool _ 0); discriminate. }
  subst r. exists o'. split; [reflexivity|]. split.
  - specialize (C' eq_refl). unfold consistent in C'. apply calc_val_ok in C' as (_ & _ & V'). rewrite V, V'. unfold rvalue.
    rewrite X', X, N', D', A'. destruct (Qeq_bool _ 0); [exact Logic.I|]. destruct (Qeq_bool _ 0); [exact Logic.I|].
    rewrite inject_Z_plus. ring.
  - intros y. unfold ratf. rewrite N', D', A', inject_Z_plus. ring.
Qed.
(** canonalize_params keeps the value in exact arithmetic, except that an integer value may become NaN. *)
Theorem C43_canonicalize : forall kind pgcd x o o' v, reached kind (fun q => q) pgcd x o -> gcd_for pgcd (rf_num o) (rf_den o) ->
  rf_val o = Fin v -> rf_canonalize kind (fun q => q) pgcd o = (o', Ok tt) ->
  (exists v', rf_val o' = Fin v' /\ v' == v)%Q \/ (rf_val o' = NaN /\ v == inject_Z (rf_int o'))%Q.
Proof.
  intros kind pgcd x o o' v RE G VO H. destruct (reached_ok _ _ _ _ _ RE) as (I & C & X & K & D & V). subst kind.
  pose proof (C43_exact _ _ _ _ RE) as EX. rewrite VO in EX. destruct EX as (NA & NB & EV).
  assert (N : rf_num o <> []) by (intros E; apply NA; rewrite E; reflexivity).
  destruct (G (znorm (rf_num o)) (znorm (rf_den o))) as (k1 & k2 & H1 & H2 & _); try (intros; apply val_znorm).
  destruct (canon_function (fun q => q) pgcd o o' I N D) as (_ & C' & I' & X' & _ & _ & N' & D' & FE); auto.
  { split; [exists k1|exists k2]; auto. }
  destruct (FE x NB) as [NB' RF]. unfold consistent in C'. apply calc_val_ok in C' as (_ & _ & V'). rewrite X', X in V'.
  rewrite V'. unfold rvalue. rewrite <- !subs_exact in NB', NB.
  destruct (Qeq_bool (subs_in_polynom_x _ (rf_den o') x) 0) eqn:B; [apply Qeq_bool_iff in B; contradiction|].
  destruct (Qeq_bool (subs_in_polynom_x _ (rf_num o') x) 0) eqn:A.
  - right. split; [reflexivity|]. apply Qeq_bool_iff in A. rewrite subs_exact in A. rewrite EV, <- RF. unfold ratf. rewrite A.
    unfold Qdiv. rewrite Qmult_0_l. ring.
  - left. eexists. split; [reflexivity|]. rewrite EV, <- RF. unfold ratf. rewrite <- !subs_exact. reflexivity.
Qed.
Theorem C43_canonicalize_nan_refuted : exists o x o',
  reached KDecimal (fun q => q) (fun _ _ => [1]) x o /\ (exists v, rf_val o = Fin v /\ v == 3)%Q /\
  rf_canonalize KDecimal (fun q => q) (fun _ _ => [1]) o = (o', Ok tt) /\ rf_val o' = NaN.
Proof.
  eexists. exists 0%Q. eexists. split; [exists ([3; 1], [1], 0); eexists; exists []; eexists; split; [vm_compute; reflexivity|split; reflexivity]|].
  split; [eexists; split; [vm_compute; reflexivity|reflexivity]|]. split; [vm_compute; reflexivity|vm_compute; reflexivity].
Qed.
Example C43_ex : exists o, reached KDecimal (rnd 60) ogcd (22 # 7) o /\ rf_num o = [0; 1] /\ rf_den o = [-1] /\ rf_int o = 2.
Proof.
  eexists. split; [exists ([-1; 0; 1], [-1; 1], 0); eexists; exists [RReinit ([], [1], 0); RReinit ([-1; 0; 1], [-1; 1], 0); RCanon; RFlip; RAdd 3]; eexists;
    split; [vm_compute; reflexivity|split; [vm_compute; reflexivity|reflexivity]]|]. repeat split.
Qed.
(** A call that ends with an exception leaves the value and the constant as they were ... *)
Theorem C43_failed_call : forall kind rd pgcd o op o' e, rf_step kind rd pgcd o op = (o', Raise e) -> rf_val o' = rf_val o /\ rf_const o' = rf_const o.
Proof.
  intros kind rd pgcd o op o' e H.
  assert (C : forall a b r, rf_calc kind rd a = (b, r) -> rf_const b = rf_const a /\ (forall e, r = Raise e -> b = a)).
  { intros a b r. unfold rf_calc. destruct (calc_val _ _ _ _ _ _); intros [= <- <-]; split; auto; discriminate. }
  assert (U : forall a b e, rf_update_params kind rd a = (b, Raise e) -> rf_val b = rf_val a /\ rf_const b = rf_const a).
  { intros a b e' E. unfold rf_update_params in E. apply C in E as [_ E]. rewrite (E _ eq_refl). auto. }
  destruct op as [|n| |p]; cbn [rf_step] in H.
  - unfold rf_flip_sign in H. destruct (rf_update_params _ _ _) as [o1 [[]|e1]] eqn:E.
    + unfold rf_update_params, rf_calc in E. cbn [rf_num rf_den rf_int rf_const] in E. destruct (calc_val _ _ _ _ _ _) eqn:V; [|discriminate E].
      injection E as <-. unfold rf_calc in H. cbn [rf_num rf_den rf_int rf_const] in H. rewrite V in H. discriminate.
    + injection H as <- <-. apply U in E. exact E.
  - apply U in H. exact H.
  - unfold rf_canonalize in H. destruct (rf_canon o); [discriminate|].
    assert (GN : forall a b r, rf_get_nsym a = (b, r) -> rf_val b = rf_val a /\ rf_const b = rf_const a).
    { intros a b r. unfold rf_get_nsym. destruct (rf_nsym a), (rf_nupd a); try destruct (poly2sympoly _); intros [= <- _]; auto. }
    assert (GD : forall a b r, rf_get_dsym a = (b, r) -> rf_val b = rf_val a /\ rf_const b = rf_const a).
    { intros a b r. unfold rf_get_dsym. destruct (rf_dsym a), (rf_dupd a); try destruct (poly2sympoly _); intros [= <- _]; auto. }
    destruct (rf_get_nsym o) as [o1 [P|e1]] eqn:E1; apply GN in E1 as [E1 E1']; [|injection H as <- <-; auto].
    destruct (rf_get_dsym o1) as [o2 [D|e2]] eqn:E2; apply GD in E2 as [E2 E2']; [|injection H as <- <-; split; congruence].
    destruct (canon_polys _ _ _) as [[[num den] c]|e3]; [|injection H as <- <-; split; congruence].
    apply U in H. cbn [rf_val rf_const] in H. destruct H; split; congruence.
  - unfold rf_reinit in H. destruct p as [[num den] n]. apply C in H as [_ H]. rewrite (H _ eq_refl). auto.
Qed.
(** ... but not the parameters: after reinit_params with an empty numerator the value is the one of the old parameters. *)
Theorem C43_after_exception_refuted : exists o o' e, rf_new KDecimal (rnd 60) ([0; 1], [1], 0) (22 # 7) = Ok o /\
  rf_step KDecimal (rnd 60) ogcd o (RReinit ([], [1], 5)) = (o', Raise e) /\ rf_num o' = [] /\ rf_int o' = 5 /\ rf_val o' = rf_val o /\ rf_val o <> NaN.
Proof.
  destruct (rf_new KDecimal (rnd 60) ([0; 1], [1], 0) (22 # 7)) as [o|e] eqn:E; [|vm_compute in E; discriminate].
  exists o. destruct (rf_step KDecimal (rnd 60) ogcd o (RReinit ([], [1], 5))) as [o' [[]|e]] eqn:F.
  - exfalso. vm_compute in E. injection E as <-. vm_compute in F. discriminate.
  - exists o', e. pose proof (C43_failed_call _ _ _ _ _ _ _ F) as [V _]. vm_compute in E. injection E as <-. vm_compute in F. injection F as <- <-.
    repeat split; try discriminate. 
Qed.

(** ---- C44 ---- *)
Theorem C44_function : forall kind rd pgcd x o o', reached kind rd pgcd x o -> rf_num o <> [] -> gcd_for pgcd (rf_num o) (rf_den o) ->
  nonzero_poly (rf_den o) ->
  rf_canonalize kind rd pgcd o = (o', Ok tt) ->
  nonzero_poly (rf_den o') /\
  forall y, ~ (pvalq (rf_den o) y == 0)%Q -> ~ (pvalq (rf_den o') y == 0)%Q /\
    (ratf (rf_num o') (rf_den o') (rf_int o') y == ratf (rf_num o) (rf_den o) (rf_int o) y)%Q.
Proof.
  intros kind rd pgcd x o o' RE N G ND H. destruct (reached_ok _ _ _ _ _ RE) as (I & C & X & K & D & V). subst kind.
  destruct (G (znorm (rf_num o)) (znorm (rf_den o))) as (k1 & k2 & H1 & H2 & _); try (intros; apply val_znorm).
  destruct (canon_function rd pgcd o o' I N D) as (_ & _ & _ & _ & _ & ND' & _ & _ & FE); auto.
  split; [exists k1|exists k2]; auto.
Qed.
(** it does not raise *)
Theorem C44_total : forall kind rd pgcd x o, reached kind rd pgcd x o -> rf_num o <> [] -> gcd_for pgcd (rf_num o) (rf_den o) ->
  nonzero_poly (rf_den o) -> exists o', rf_canonalize kind rd pgcd o = (o', Ok tt) /\ reached kind rd pgcd x o'.
Proof.
  intros kind rd pgcd x o RE N G ND. destruct (reached_ok _ _ _ _ _ RE) as (I & C & X & K & D & V). subst kind.
  destruct (G (znorm (rf_num o)) (znorm (rf_den o))) as (k1 & k2 & H1 & H2 & _); try (intros; apply val_znorm).
  destruct (canon_main rd pgcd o k1 k2 I N D ND H1 H2) as (o' & _ & _ & _ & E & _). exists o'. split; [exact E|].
  destruct RE as (p0 & o0 & ops & outs & N0 & R & L).
  assert (RR : forall l o1 o2 os r o3, rf_run KDecimal rd pgcd l o1 = (o2, os) -> rf_canonalize KDecimal rd pgcd o2 = (o3, r) ->
    rf_run KDecimal rd pgcd (l ++ [RCanon]) o1 = (o3, os ++ [r])).
  { induction l as [|op l IH]; intros o1 o2 os r o3 A B; cbn [rf_run app] in *.
    - injection A as <- <-. cbn [rf_step]. now rewrite B.
    - destruct (rf_step KDecimal rd pgcd o1 op) as [o4 out]. destruct (rf_run KDecimal rd pgcd l o4) as [o5 os'] eqn:A'.
      injection A as <- <-. rewrite (IH _ _ _ _ _ A' B). reflexivity. }
  exists p0, o0, (ops ++ [RCanon]), (outs ++ [Ok tt]). split; [exact N0|]. split; [eapply RR; eauto|]. apply last_last.
Qed.
Theorem C44_coprime : forall kind rd pgcd x o o', reached kind rd pgcd x o -> rf_num o <> [] -> gcd_for pgcd (rf_num o) (rf_den o) ->
  nonzero_poly (rf_den o) -> rf_canonalize kind rd pgcd o = (o', Ok tt) ->
  zcoprime (rf_num o') (rf_den o') /\
  exists K R l, (forall y, pvalq (rf_num o') y == poly_valQ K y * pvalq (rf_den o') y + poly_valQ R y)%Q /\
    true_length (rf_den o') l /\ (length R < l)%nat /\ (-1 < poly_valQ K 0 <= 0)%Q.
Proof.
  intros kind rd pgcd x o o' RE N G ND H. destruct (reached_ok _ _ _ _ _ RE) as (I & C & X & K & D & V). subst kind.
  apply (canon_coprime rd pgcd o o' I N D); auto. apply G; intros; apply val_znorm.
Qed.
Theorem C44_idempotent : forall kind rd pgcd x o o', reached kind rd pgcd x o -> rf_num o <> [] -> gcd_for pgcd (rf_num o) (rf_den o) ->
  nonzero_poly (rf_den o) -> rf_canonalize kind rd pgcd o = (o', Ok tt) -> gcd_for pgcd (rf_num o') (rf_den o') ->
  exists o'', rf_canonalize kind rd pgcd o' = (o'', Ok tt) /\ rf_num o'' = rf_num o' /\ rf_den o'' = rf_den o' /\
    rf_int o'' = rf_int o' /\ rf_params o'' = rf_params o' /\ rf_const o'' = rf_const o' /\ rf_val o'' = rf_val o'.
Proof.
  intros kind rd pgcd x o o' RE N G ND H G'. destruct (reached_ok _ _ _ _ _ RE) as (I & C & X & K & D & V). subst kind.
  destruct (canon_idem rd pgcd o o' I N D) as (o'' & E & S); auto; try (apply G; intros; apply val_znorm); try (apply G'; intros; apply val_znorm).
  exists o''. split; [exact E|]. destruct S as (?&?&?&?&?&?&?). auto 10.
Qed.
(** A zero denominator: ZeroDivisionError, nothing visible changes. *)
Theorem C44_zero_denominator : forall kind rd pgcd x o, reached kind rd pgcd x o -> rf_num o <> [] -> ~ nonzero_poly (rf_den o) ->
  exists o', rf_canonalize kind rd pgcd o = (o', Raise ZeroDivisionError) /\ rf_num o' = rf_num o /\ rf_den o' = rf_den o /\
    rf_int o' = rf_int o /\ rf_params o' = rf_params o /\ rf_const o' = rf_const o /\ rf_val o' = rf_val o.
Proof.
  intros kind rd pgcd x o RE N ND. destruct (reached_ok _ _ _ _ _ RE) as (I & C & X & K & D & V). subst kind.
  destruct (canon_zero rd pgcd o I N D ND) as (o' & E & S & _). exists o'. split; [exact E|]. destruct S as (?&?&?&?&?&?&?). auto 10.
Qed.
Example C44_ex : exists o o', reached KDecimal (rnd 60) ogcd (22 # 7) o /\ rf_num o = [-1; 0; 1] /\ rf_den o = [-1; 1] /\
  gcd_for ogcd (rf_num o) (rf_den o) /\ nonzero_poly (rf_den o) /\
  rf_canonalize KDecimal (rnd 60) ogcd o = (o', Ok tt) /\ rf_num o' = [0; 1] /\ rf_den o' = [1] /\ rf_int o' = 1.
Proof.
  eexists. eexists. split; [exists ([-1; 0; 1], [-1; 1], 0); eexists; exists []; eexists; split; [vm_compute; reflexivity|split; reflexivity]|].
  split; [reflexivity|]. split; [reflexivity|]. split; [exact ogcd_ok|]. split; [exists 0; discriminate|].
  split; [vm_compute; reflexivity|]. repeat split.
Qed.

(** ---- C45 ---- *)
Theorem C45_degenerate_iff : forall kind rd pgcd x o, reached kind rd pgcd x o -> rf_num o <> [] -> gcd_for pgcd (rf_num o) (rf_den o) ->
  nonzero_poly (rf_den o) ->
  exists o' b, rf_is_degenerate kind rd pgcd o = (o', Ok b) /\ (b = true <-> constant_ratio (rf_num o) (rf_den o)).
Proof.
  intros kind rd pgcd x o RE N G ND. destruct (C44_total _ _ _ _ _ RE N G ND) as (o' & E & _).
  destruct (reached_ok _ _ _ _ _ RE) as (I & C & X & K & D & V). subst kind.
  destruct (rf_is_degenerate KDecimal rd pgcd o) as [o1 r] eqn:DG.
  assert (exists b, r = Ok b) as [b ->] by (unfold rf_is_degenerate in DG; rewrite E in DG; injection DG as <- <-; eauto).
  exists o1, b. split; [reflexivity|]. apply (degenerate_iff rd pgcd o o1 b I N D); auto. apply G; intros; apply val_znorm.
Qed.
Example C45_ex : exists o o1 o2 o3, reached KDecimal (rnd 60) ogcd (22 # 7) o /\ rf_num o = [-2; 2] /\ rf_den o = [-3; 3] /\
  gcd_for ogcd (rf_num o) (rf_den o) /\ nonzero_poly (rf_den o) /\ rf_is_degenerate KDecimal (rnd 60) ogcd o = (o1, Ok true) /\
  rf_step KDecimal (rnd 60) ogcd o (RReinit ([-1; 0; 1], [-1; 1], 0)) = (o2, Ok tt) /\
  rf_is_degenerate KDecimal (rnd 60) ogcd o2 = (o3, Ok false).
Proof.
  eexists. eexists. eexists. eexists.
  split; [exists ([-2; 2], [-3; 3], 0); eexists; exists []; eexists; split; [vm_compute; reflexivity|split; reflexivity]|].
  split; [reflexivity|]. split; [reflexivity|]. split.
  - cbn [rf_num rf_den]. intros p' q' _ _. exists [2], [3]. split; [intros; cbv [ogcd ogcd1]; cbn [poly_val]; ring|]. split; [intros; cbv [ogcd ogcd1]; cbn [poly_val]; ring|]. intros _. split.
    + intros h [k K] [k' K'].
      assert (M : forall n, poly_val [1] n = poly_val h n * poly_val (zsub k' (zterm 1 0 k)) n).
      { intros n. rewrite val_zsub, val_zterm. specialize (K n). specialize (K' n). cbn [poly_val zpow] in *. nia. }
      apply (zcoprime_one h [1]); [intros; cbv [ogcd ogcd1]; cbn [poly_val]; ring|exists [1]; intros; cbv [ogcd ogcd1]; cbn [poly_val]; ring|]. exists (zsub k' (zterm 1 0 k)). exact M.
    + exists 1. intros n L. cbv [ogcd]. cbn [poly_val]. lia.
  - split; [exists 0; discriminate|]. split; [vm_compute; reflexivity|]. split; [vm_compute; reflexivity|vm_compute; reflexivity].
Qed.

(** ---- C46 ---- *)
(** With Decimal constants. A pair is yielded iff both polynomials are nonzero, not both constant, the degrees are in the
    requested relation and the (rounded) value of the new object is a number. Order: lexicographic. *)
Theorem C46_enum : forall rd num den force x en, renum_new num den force x = Ok en ->
  exists os (ok : list Z * list Z -> bool) ps qs, renum_list KDecimal rd en = Ok os /\
    (forall p, In p ps <-> Forall2 (fun c lh => fst lh <= c < snd lh) p num) /\ NoDup ps /\
    (forall q, In q qs <-> Forall2 (fun c lh => fst lh <= c < snd lh) q den) /\ NoDup qs /\
    map (fun o => (rf_num o, rf_den o)) os = filter ok (list_prod ps qs) /\
    (forall o, In o os -> rf_new KDecimal rd (rf_num o, rf_den o, 0) x = Ok o) /\
    (forall p q, ok (p, q) = true <-> nonzero_poly p /\ nonzero_poly q /\
       (forall lp lq, true_length p lp -> true_length q lq -> ~ (lp < 2 /\ lq < 2)%nat /\ (force = true -> (lq <= lp)%nat)) /\
       exists o v, rf_new KDecimal rd (p, q, 0) x = Ok o /\ rf_val o = Fin v) /\
    (Forall (fun c => fst c <= snd c) num -> Forall (fun c => fst c <= snd c) den -> Z.of_nat (length os) <= re_len en).
Proof.
  intros rd num den force x en H. unfold renum_new in H.
  destruct (reduce_mul _) as [a|] eqn:A; [|discriminate]. cbn [bind] in H.
  destruct (reduce_mul (map (fun c => snd c - fst c) den)) as [b|] eqn:B; [|discriminate]. cbn [bind] in H. injection H as <-.
  set (okb := fun pq : list Z * list Z => cand_okb force x (fst pq) (snd pq) && val_okb rd x (fst pq) (snd pq)).
  exists (map (fun pq => mk_rf rd x (fst pq) (snd pq)) (filter okb (list_prod (product (ranges_of num)) (product (ranges_of den))))), okb,
    (product (ranges_of num)), (product (ranges_of den)).
  assert (OK : forall p q, okb (p, q) = true <-> nonzero_poly p /\ nonzero_poly q /\
       (forall lp lq, true_length p lp -> true_length q lq -> ~ (lp < 2 /\ lq < 2)%nat /\ (force = true -> (lq <= lp)%nat)) /\
       exists o v, rf_new KDecimal rd (p, q, 0) x = Ok o /\ rf_val o = Fin v).
  { intros p q. unfold okb, cand_okb, val_okb. cbn [fst snd]. rewrite !stripped_len_znorm, !andb_true_iff, !negb_true_iff.
    assert (AZ : forall r, all_zero r = false <-> nonzero_poly r).
    { intros r. destruct (all_zero r) eqn:Z0; pose proof (all_zero_iff r) as W; rewrite Z0 in W.
      - split; [discriminate|]. intros Y. exfalso. now apply W.
      - split; [|reflexivity]. intros _. destruct (zero_or_not r) as [Y|Y]; [exact Y|]. exfalso.
        assert (false = true); [apply W; intros [n U]; auto|discriminate]. }
    rewrite !AZ.
    assert (L : (forall lp lq, true_length p lp -> true_length q lq -> ~ (lp < 2 /\ lq < 2)%nat /\ (force = true -> (lq <= lp)%nat)) <->
      (Z.of_nat (length (znorm p)) <? 2) && (Z.of_nat (length (znorm q)) <? 2) = false /\
      force && (Z.of_nat (length (znorm p)) <? Z.of_nat (length (znorm q))) = false).
    { split.
      - intros W. destruct (W _ _ (true_length_ex p) (true_length_ex q)) as [W1 W2]. split.
        + destruct (Z.ltb_spec (Z.of_nat (length (znorm p))) 2), (Z.ltb_spec (Z.of_nat (length (znorm q))) 2); auto. lia.
        + destruct force; [|reflexivity]. specialize (W2 eq_refl). apply Z.ltb_ge. lia.
      - intros [W1 W2] lp lq T1 T2. rewrite (true_length_unique _ _ _ T1 (true_length_ex p)), (true_length_unique _ _ _ T2 (true_length_ex q)).
        split.
        + intros [U1 U2]. apply andb_false_iff in W1. rewrite !Z.ltb_ge in W1. lia.
        + intros ->. cbn [andb] in W2. apply Z.ltb_ge in W2. lia. }
    rewrite L.
    assert (NE : forall r, nonzero_poly r -> r <> []) by (intros r [n Y] ->; now apply Y).
    assert (VV : nonzero_poly p -> nonzero_poly q -> ((exists o v, rf_new KDecimal rd (p, q, 0) x = Ok o /\ rf_val o = Fin v) <->
      Qeq_bool (subs_in_polynom_x rd p x) 0 = false /\ Qeq_bool (subs_in_polynom_x rd q x) 0 = false)).
    { intros P1 P2. unfold rf_new. rewrite calc_val_def by auto. cbn [bind]. unfold rvalue. split.
      - intros (o & v & [= <-] & E). cbn in E. destruct (Qeq_bool (subs_in_polynom_x rd q x) 0); [discriminate|].
        destruct (Qeq_bool (subs_in_polynom_x rd p x) 0); [discriminate|]. auto.
      - intros [-> ->]. eexists. eexists. split; reflexivity. }
    split.
    - intros ((((P1 & P2) & W1) & W2) & W3). specialize (VV P1 P2). tauto.
    - intros (P1 & P2 & W & W3). specialize (VV P1 P2). tauto. }
  split; [apply renum_list_dec|]. split; [apply in_ranges_of|]. split; [apply ranges_NoDup|]. split; [apply in_ranges_of|].
  split; [apply ranges_NoDup|]. split; [rewrite map_map; cbn; rewrite <- map_id; apply map_ext; intros [p q]; reflexivity|].
  split; [|split; [exact OK|]].
  - intros o IO. apply in_map_iff in IO as ([p q] & <- & IO). apply filter_In in IO as [_ IO]. apply OK in IO as ([n P1] & [m P2] & _).
    cbn. rewrite calc_val_def; auto; intros ->; cbn in *; congruence.
  - intros F1 F2. cbn [re_len]. rewrite map_length. rewrite <- (reduce_mul_length _ _ A F1), <- (reduce_mul_length _ _ B F2).
    rewrite <- Nat2Z.inj_mul, <- prod_length. apply Nat2Z.inj_le.
    clear. induction (list_prod _ _) as [|y l IH]; cbn [filter length]; [lia|]. destruct (okb y); cbn [length]; lia.
Qed.
(** In exact arithmetic the value condition is p(x) <> 0 and q(x) <> 0. *)
Theorem C46_value_exact : forall p q x, p <> [] -> q <> [] ->
  (exists o v, rf_new KDecimal (fun y => y) (p, q, 0) x = Ok o /\ rf_val o = Fin v) <-> (~ pvalq p x == 0 /\ ~ pvalq q x == 0)%Q.
Proof.
  intros p q x P D. unfold rf_new. rewrite calc_val_def by auto. cbn [bind]. unfold rvalue.
  pose proof (subs_exact p x) as SN. pose proof (subs_exact q x) as SD. rewrite <- SN, <- SD. split.
  - intros (o & v & [= <-] & E). cbn in E. destruct (Qeq_bool (subs_in_polynom_x _ q x) 0) eqn:B; [discriminate|].
    destruct (Qeq_bool (subs_in_polynom_x _ p x) 0) eqn:A; [discriminate|]. split; now apply Qeq_bool_neq.
  - intros [A B]. apply Qeq_bool_false in A, B. rewrite A, B. eexists. eexists. split; reflexivity.
Qed.
Example C46_ex : exists en os, renum_new [(-1, 2); (0, 2)] [(0, 2); (1, 2)] true (22 # 7) = Ok en /\
  renum_list KDecimal (rnd 60) en = Ok os /\ re_len en = 12 /\
  map (fun o => (rf_num o, rf_den o)) os = [([-1; 1], [0; 1]); ([-1; 1], [1; 1]); ([0; 1], [0; 1]); ([0; 1], [1; 1]); ([1; 1], [0; 1]); ([1; 1], [1; 1])].
Proof. eexists. eexists. split; [reflexivity|]. split; [vm_compute; reflexivity|]. split; reflexivity. Qed.

(** ---- C47 ---- *)
(** If is_equiv answers True for two results with the same post-processing function and equal canonical denominators,
    then the partial numerators are equal, the partial denominators equal up to sign, and the functions differ by an
    integer. *)
Theorem C47_sound_same_denominator : forall kind rd pgcd x1 x2 inv ab1 o1 ab2 o2 i o1' o2',
  reached kind rd pgcd x1 o1 -> reached kind rd pgcd x2 o2 -> rf_num o1 <> [] -> rf_num o2 <> [] ->
  gcd_for pgcd (rf_num o1) (rf_den o1) -> gcd_for pgcd (rf_num o2) (rf_den o2) -> ~ In (i, i) inv ->
  rf_is_equiv kind rd pgcd inv (ab1, o1, i) (ab2, o2, i) = ((o1', o2'), Ok true) ->
  (forall n, poly_val (rf_den o1') n = poly_val (rf_den o2') n) ->
  snd ab1 = snd ab2 /\ (fst ab1 = fst ab2 \/ fst ab1 = map (map Z.opp) (fst ab2)) /\
  exists z, forall y, ~ (pvalq (rf_den o1) y == 0)%Q -> ~ (pvalq (rf_den o2) y == 0)%Q ->
    (ratf (rf_num o1) (rf_den o1) (rf_int o1) y == ratf (rf_num o2) (rf_den o2) (rf_int o2) y + inject_Z z)%Q.
Proof.
  intros kind rd pgcd x1 x2 inv ab1 o1 ab2 o2 i o1' o2' RE1 RE2 N1 N2 G1 G2 NI H DE.
  destruct (reached_ok _ _ _ _ _ RE1) as (I1 & _ & _ & K & D1 & _). destruct (reached_ok _ _ _ _ _ RE2) as (I2 & _ & _ & _ & D2 & _). subst kind.
  destruct (equiv_canon rd pgcd inv ab1 o1 i ab2 o2 i o1' o2' true I1 I2 H) as [[_ (c1 & c2 & C1 & C2 & S1 & S2 & qr1 & qr2 & _ & _ & _ & _ & R1 & R2 & E)]|(X & _)];
    [|congruence].
  destruct (proj1 E eq_refl) as (EB & EA & ED & ER). split; [exact EB|]. split; [exact EA|].
  assert (NE : existsb (fun '(a, b) => (a =? i) && (b =? i)) inv = false).
  { destruct (existsb _ inv) eqn:EX; [|reflexivity]. exfalso. apply existsb_exists in EX as ([a b] & IN & Y).
    apply andb_true_iff in Y as [Y1 Y2]. apply Z.eqb_eq in Y1, Y2. subst. contradiction. }
  rewrite NE in R2.
  assert (DE' : forall n, poly_val (rf_den c1) n = poly_val (rf_den c2) n).
  { destruct S1 as (_ & T1 & _), S2 as (_ & T2 & _). now rewrite <- T1, <- T2. }
  destruct (equiv_same_den c1 c2 qr1 qr2 R1 R2 DE' ED ER) as [z Z0].
  destruct (G1 (znorm (rf_num o1)) (znorm (rf_den o1))) as (k1 & k2 & H1 & H2 & _); try (intros; apply val_znorm).
  destruct (G2 (znorm (rf_num o2)) (znorm (rf_den o2))) as (m1 & m2 & H3 & H4 & _); try (intros; apply val_znorm).
  destruct (canon_function rd pgcd o1 c1 I1 N1 D1) as (_ & _ & _ & _ & _ & _ & _ & _ & F1); [split; [exists k1|exists k2]; auto|exact C1|].
  destruct (canon_function rd pgcd o2 c2 I2 N2 D2) as (_ & _ & _ & _ & _ & _ & _ & _ & F2); [split; [exists m1|exists m2]; auto|exact C2|].
  exists (z + rf_int c1 - rf_int c2). intros y Y1 Y2. destruct (F1 y Y1) as [Y1' E1]. destruct (F2 y Y2) as [Y2' E2].
  rewrite <- E1, <- E2. unfold ratf. rewrite (Z0 y Y1'). unfold Z.sub. rewrite !inject_Z_plus, inject_Z_opp. ring.
Qed.
(** Without equal denominators the answer is unsound. *)
Theorem C47_denominator_refuted : exists rd pgcd x ab o1 o2 o1' o2', reached KDecimal rd pgcd x o1 /\ reached KDecimal rd pgcd x o2 /\
  rf_num o1 = [1] /\ rf_den o1 = [0; 1] /\ rf_num o2 = [1] /\ rf_den o2 = [1; 1] /\
  gcd_for pgcd (rf_num o1) (rf_den o1) /\ gcd_for pgcd (rf_num o2) (rf_den o2) /\
  rf_is_equiv KDecimal rd pgcd [] (ab, o1, 0) (ab, o2, 0) = ((o1', o2'), Ok true) /\
  ~ exists z, forall y, ~ (pvalq (rf_den o1) y == 0)%Q -> ~ (pvalq (rf_den o2) y == 0)%Q ->
    (ratf (rf_num o1) (rf_den o1) (rf_int o1) y == ratf (rf_num o2) (rf_den o2) (rf_int o2) y + z)%Q.
Proof.
  exists (rnd 60), ogcd1, (22 # 7), ([[1]], [[1]]).
  eexists. eexists. eexists. eexists.
  split; [exists ([1], [0; 1], 0); eexists; exists []; eexists; split; [vm_compute; reflexivity|split; reflexivity]|].
  split; [exists ([1], [1; 1], 0); eexists; exists []; eexists; split; [vm_compute; reflexivity|split; reflexivity]|].
  do 4 (split; [reflexivity|]).
  assert (G : forall q, nonzero_poly q -> gcd_for ogcd1 [1] q).
  { intros q Q p' q' _ _. exists [1], q. split; [intros; cbv [ogcd ogcd1]; cbn [poly_val]; ring|]. split; [intros; cbv [ogcd ogcd1]; cbn [poly_val]; ring|]. intros _. split.
    - intros h A B. apply (zcoprime_one q [1]); auto. intros; cbv [ogcd ogcd1]; cbn [poly_val]; ring.
    - exists 0. intros n _. cbv [ogcd1]. cbn [poly_val]. lia. }
  split; [apply G; exists 1; discriminate|]. split; [apply G; exists 1; discriminate|].
  split; [vm_compute; reflexivity|]. intros [z Z0].
  cbn [rf_num rf_den rf_int] in Z0.
  pose proof (Z0 1%Q ltac:(discriminate) ltac:(discriminate)) as Z1. pose proof (Z0 2%Q ltac:(discriminate) ltac:(discriminate)) as Z2.
  assert (E1 : (ratf [1%Z] [0%Z; 1%Z] 0 1 == 1)%Q) by reflexivity. assert (E2 : (ratf [1%Z] [1%Z; 1%Z] 0 1 == 1 # 2)%Q) by reflexivity.
  assert (E3 : (ratf [1%Z] [0%Z; 1%Z] 0 2 == 1 # 2)%Q) by reflexivity. assert (E4 : (ratf [1%Z] [1%Z; 1%Z] 0 2 == 1 # 3)%Q) by reflexivity.
  rewrite E1, E2 in Z1. rewrite E3, E4 in Z2. lra.
Qed.
(** The sign is not normalised: 1/x and -1/(-x) are the same function but not recognised. *)
Theorem C47_same_function_not_recognised_refuted : exists rd pgcd x ab o1 o2 o1' o2', reached KDecimal rd pgcd x o1 /\ reached KDecimal rd pgcd x o2 /\
  gcd_for pgcd (rf_num o1) (rf_den o1) /\ gcd_for pgcd (rf_num o2) (rf_den o2) /\
  (forall y, ratf (rf_num o1) (rf_den o1) (rf_int o1) y == ratf (rf_num o2) (rf_den o2) (rf_int o2) y)%Q /\
  rf_is_equiv KDecimal rd pgcd [] (ab, o1, 0) (ab, o2, 0) = ((o1', o2'), Ok false).
Proof.
  exists (rnd 60), ogcd1, (22 # 7), ([[1]], [[1]]).
  eexists. eexists. eexists. eexists.
  split; [exists ([1], [0; 1], 0); eexists; exists []; eexists; split; [vm_compute; reflexivity|split; reflexivity]|].
  split; [exists ([-1], [0; -1], 0); eexists; exists []; eexists; split; [vm_compute; reflexivity|split; reflexivity]|].
  cbn [rf_num rf_den rf_int].
  split; [intros p' q' _ _; exists [1], [0; 1]; (split; [intros; cbv [ogcd1]; cbn [poly_val]; ring|]); (split; [intros; cbv [ogcd1]; cbn [poly_val]; ring|])|].
  { intros _. split; [|exists 0; intros n _; cbv [ogcd1]; cbn [poly_val]; lia].
    intros h A B. apply (zcoprime_one [0; 1] [1]); auto. intros; cbn [poly_val]; ring. }
  split; [intros p' q' _ _; exists [-1], [0; -1]; (split; [intros; cbv [ogcd1]; cbn [poly_val]; ring|]); (split; [intros; cbv [ogcd1]; cbn [poly_val]; ring|])|].
  { intros _. split; [|exists 0; intros n _; cbv [ogcd1]; cbn [poly_val]; lia].
    intros h [k K] B. apply (zcoprime_one [0; -1] [1]); auto; [intros; cbn [poly_val]; ring|].
    exists (zterm (-1) 0 k). intros n. rewrite val_zterm. specialize (K n). cbn [poly_val zpow] in *. lia. }
  split; [|vm_compute; reflexivity]. intros y. unfold ratf, pvalq. cbn [map poly_valQ].
  destruct (Qeq_dec y 0) as [E|N].
  - rewrite E. reflexivity.
  - change (inject_Z (-1)) with (-1)%Q. change (inject_Z 0) with 0%Q. change (inject_Z 1) with 1%Q. field. exact N.
Qed.
(** For inverse post-processing functions (f and 1/f) the answer also ignores added integers: x and 1/x + 5. *)
Theorem C47_inverse_refuted : exists rd pgcd x ab o1 o2 o1' o2', reached KDecimal rd pgcd x o1 /\ reached KDecimal rd pgcd x o2 /\
  rf_num o1 = [0; 1] /\ rf_den o1 = [1] /\ rf_int o1 = 0 /\ rf_num o2 = [1] /\ rf_den o2 = [0; 1] /\ rf_int o2 = 5 /\
  gcd_for pgcd (rf_num o1) (rf_den o1) /\ gcd_for pgcd (rf_num o2) (rf_den o2) /\
  rf_is_equiv KDecimal rd pgcd [(0, 1)] (ab, o1, 0) (ab, o2, 1) = ((o1', o2'), Ok true) /\
  ~ exists z, forall y, ~ (pvalq (rf_den o1) y == 0)%Q -> ~ (pvalq (rf_den o2) y == 0)%Q ->
    (ratf (rf_num o1) (rf_den o1) (rf_int o1) y == 1 / ratf (rf_num o2) (rf_den o2) (rf_int o2) y + z)%Q.
Proof.
  exists (rnd 60), ogcd1, (22 # 7), ([[1]], [[1]]).
  eexists. eexists. eexists. eexists.
  split; [exists ([0; 1], [1], 0); eexists; exists []; eexists; split; [vm_compute; reflexivity|split; reflexivity]|].
  split; [exists ([1], [0; 1], 5); eexists; exists []; eexists; split; [vm_compute; reflexivity|split; reflexivity]|].
  do 6 (split; [reflexivity|]). cbn [rf_num rf_den rf_int].
  split; [intros p' q' _ _; exists [0; 1], [1]; (split; [intros; cbv [ogcd1]; cbn [poly_val]; ring|]); (split; [intros; cbv [ogcd1]; cbn [poly_val]; ring|])|].
  { intros _. split; [|exists 0; intros n _; cbv [ogcd1]; cbn [poly_val]; lia]. apply zcoprime_one. intros; cbn [poly_val]; ring. }
  split; [intros p' q' _ _; exists [1], [0; 1]; (split; [intros; cbv [ogcd1]; cbn [poly_val]; ring|]); (split; [intros; cbv [ogcd1]; cbn [poly_val]; ring|])|].
  { intros _. split; [|exists 0; intros n _; cbv [ogcd1]; cbn [poly_val]; lia].
    intros h A B. apply (zcoprime_one [0; 1] [1]); auto. intros; cbn [poly_val]; ring. }
  split; [vm_compute; reflexivity|]. intros [z Z0].
  pose proof (Z0 1%Q ltac:(discriminate) ltac:(discriminate)) as Z1. pose proof (Z0 (-1)%Q ltac:(discriminate) ltac:(discriminate)) as Z2.
  assert (E1 : (ratf [0%Z; 1%Z] [1%Z] 0 1 == 1)%Q) by reflexivity. assert (E2 : (1 / ratf [1%Z] [0%Z; 1%Z] 5 1 == 1 # 6)%Q) by reflexivity.
  assert (E3 : (ratf [0%Z; 1%Z] [1%Z] 0 (-1) == -(1))%Q) by reflexivity. assert (E4 : (1 / ratf [1%Z] [0%Z; 1%Z] 5 (-1) == 1 # 4)%Q) by reflexivity.
  rewrite E1, E2 in Z1. rewrite E3, E4 in Z2. lra.
Qed.
Example C47_ex : exists o1 o2 o1' o2', reached KDecimal (rnd 60) ogcd1 (22 # 7) o1 /\ reached KDecimal (rnd 60) ogcd1 (22 # 7) o2 /\
  rf_num o1 = [7; 1; 1] /\ rf_den o1 = [0; 1] /\ rf_num o2 = [7; -3; 1] /\ rf_den o2 = [0; 1] /\
  rf_is_equiv KDecimal (rnd 60) ogcd1 [(0, 1)] (([[1; 2]], [[3]]), o1, 0) (([[-1; -2]], [[3]]), o2, 0) = ((o1', o2'), Ok true) /\
  rf_den o1' = rf_den o2'.
Proof.
  eexists. eexists. eexists. eexists.
  split; [exists ([7; 1; 1], [0; 1], 0); eexists; exists []; eexists; split; [vm_compute; reflexivity|split; reflexivity]|].
  split; [exists ([7; -3; 1], [0; 1], 0); eexists; exists []; eexists; split; [vm_compute; reflexivity|split; reflexivity]|].
  do 4 (split; [reflexivity|]). split; [vm_compute; reflexivity|reflexivity].
Qed.

(** ---- C71 ---- *)
(** With mpmath constants no rational-function object can be made. *)
Theorem C71_mpf_constant : forall rd p x, rf_new KMpf rd p x = Raise AttributeError.
Proof. intros rd [[p q] n] x. unfold rf_new, calc_val, is_normal. cbn. reflexivity. Qed.
(** The enumeration yields nothing: it ends with AttributeError as soon as one pair of the ranges passes the filters on the
    coefficients, and otherwise is empty. *)
Theorem C71_mpf_enum : forall rd num den force x en, renum_new num den force x = Ok en ->
  let passes := exists p q, Forall2 (fun c lh => fst lh <= c < snd lh) p num /\ Forall2 (fun c lh => fst lh <= c < snd lh) q den /\
    nonzero_poly p /\ nonzero_poly q /\
    (forall lp lq, true_length p lp -> true_length q lq -> ~ (lp < 2 /\ lq < 2)%nat /\ (force = true -> (lq <= lp)%nat)) in
  passes /\ renum_list KMpf rd en = Raise AttributeError \/ ~ passes /\ renum_list KMpf rd en = Ok [].
Proof.
  intros rd num den force x en H passes.
  unfold renum_new in H.
  destruct (reduce_mul _) as [a|]; [|discriminate]. cbn [bind] in H.
  destruct (reduce_mul (map (fun c => snd c - fst c) den)) as [b|]; [|discriminate]. cbn [bind] in H. injection H as <-.
  assert (AZ : forall r, all_zero r = false <-> nonzero_poly r).
  { intros r. destruct (all_zero r) eqn:Z0; pose proof (all_zero_iff r) as W; rewrite Z0 in W.
    - split; [discriminate|]. intros Y. exfalso. now apply W.
    - split; [|reflexivity]. intros _. destruct (zero_or_not r) as [Y|Y]; [exact Y|]. exfalso.
      assert (false = true); [apply W; intros [n U]; auto|discriminate]. }
  assert (OK : forall p q, cand_okb force x p q = true <-> nonzero_poly p /\ nonzero_poly q /\
     (forall lp lq, true_length p lp -> true_length q lq -> ~ (lp < 2 /\ lq < 2)%nat /\ (force = true -> (lq <= lp)%nat))).
  { intros p q. unfold cand_okb. rewrite !stripped_len_znorm, !andb_true_iff, !negb_true_iff, !AZ.
    split.
    - intros (((P1 & P2) & W1) & W2). split; [exact P1|]. split; [exact P2|]. intros lp lq T1 T2.
      rewrite (true_length_unique _ _ _ T1 (true_length_ex p)), (true_length_unique _ _ _ T2 (true_length_ex q)). split.
      + intros [U1 U2]. apply andb_false_iff in W1. rewrite !Z.ltb_ge in W1. lia.
      + intros ->. cbn [andb] in W2. apply Z.ltb_ge in W2. lia.
    - intros (P1 & P2 & W). destruct (W _ _ (true_length_ex p) (true_length_ex q)) as [W1 W2]. repeat split; auto.
      + destruct (Z.ltb_spec (Z.of_nat (length (znorm p))) 2), (Z.ltb_spec (Z.of_nat (length (znorm q))) 2); auto. lia.
      + destruct force; [|reflexivity]. specialize (W2 eq_refl). apply Z.ltb_ge. lia. }
  destruct (renum_list_mpf rd {| re_num := num; re_den := den; re_force := force; re_x := x; re_len := a * b |}) as [[(p & q & I1 & I2 & C) E]|[N E]];
    cbn [re_num re_den re_force re_x] in *.
  - left. split; [|exact E]. exists p, q. rewrite !in_ranges_of in *. apply OK in C. tauto.
  - right. split; [|exact E]. intros (p & q & I1 & I2 & C). rewrite <- !in_ranges_of in *. specialize (N p q I1 I2). apply OK in C. congruence.
Qed.
Example C71_ex : exists en, renum_new [(-1, 2); (0, 2)] [(0, 2); (1, 2)] true (22 # 7) = Ok en /\
  renum_list KMpf (rnd 60) en = Raise AttributeError.
Proof. eexists. split; [reflexivity|]. vm_compute. reflexivity. Qed.

(** ---- C72 ---- *)
Definition not_reinit (op : rf_op) : Prop := match op with RReinit _ => False | _ => True end.
(** A copy of an object on which reinit_params was not called (and no call raised) has the same function and value. *)
Theorem C72_copy : forall kind rd pgcd p0 x o0 ops o outs,
  rf_new kind rd p0 x = Ok o0 -> rf_run kind rd pgcd ops o0 = (o, outs) -> Forall not_reinit ops -> Forall (fun r => r = Ok tt) outs ->
  exists o', rf_copy kind rd o = Ok o' /\ rf_num o' = rf_num o /\ rf_den o' = rf_den o /\ rf_int o' = rf_int o /\ rf_val o' = rf_val o /\
    rf_const o' = rf_const o.
Proof.
  intros kind rd pgcd p0 x o0 ops o outs N R NR OK.
  assert (G : forall ops o0 o outs, rf_inv o0 -> consistent kind rd o0 -> rf_params o0 = (rf_num o0, rf_den o0, rf_int o0) ->
    rf_run kind rd pgcd ops o0 = (o, outs) -> Forall not_reinit ops -> Forall (fun r => r = Ok tt) outs ->
    consistent kind rd o /\ rf_params o = (rf_num o, rf_den o, rf_int o)).
  { clear. induction ops as [|op ops IH]; intros o0 o outs I C P R NR OK; cbn [rf_run] in R; [injection R as <- <-; auto|].
    destruct (rf_step kind rd pgcd o0 op) as [o1 r1] eqn:ST. destruct (rf_run kind rd pgcd ops o1) as [o2 outs'] eqn:R'.
    injection R as <- <-. inversion OK as [|? ? O1 O2]; subst. inversion NR as [|? ? M1 M2]; subst.
    destruct (step_inv _ _ _ _ _ _ _ I ST) as (I1 & _ & C1). apply (IH o1 o2 outs' I1 (C1 eq_refl)); auto.
    destruct op as [|n| |]; cbn [rf_step not_reinit] in *; [| | |contradiction].
    - apply flip_ok in ST. tauto.
    - unfold rf_add_int in ST. apply update_ok in ST. cbn in ST. destruct ST as (_ & -> & -> & -> & -> & _). reflexivity.
    - apply canonalize_ok in ST; [|exact I]. destruct ST as (_ & _ & M).
      destruct (match poly2sympoly _ with Ok _ => _ | Raise _ => _ end) as [[[num den] c]|e]; [|destruct M; discriminate].
      destruct M as (-> & -> & -> & -> & _). reflexivity. }
  destruct (new_inv _ _ _ _ _ N) as (I & C & X & P & P').
  destruct (G ops o0 o outs I C) as [C1 P1]; auto; [congruence|]. unfold rf_copy. rewrite P1. unfold rf_new. unfold consistent in C1. rewrite C1.
  cbn [bind]. eexists. split; [reflexivity|]. repeat split.
Qed.
(** After reinit_params a copy is made from the old parameters. *)
Theorem C72_copy_after_reinit_refuted : exists rd pgcd x o o', reached KDecimal rd pgcd x o /\ rf_num o = [0; 1] /\
  rf_copy KDecimal rd o = Ok o' /\ rf_num o' = [5; 1] /\ exists v v', rf_val o = Fin v /\ rf_val o' = Fin v' /\ ~ (v == v')%Q.
Proof.
  exists (rnd 60), ogcd1, (22 # 7). eexists. eexists.
  split; [exists ([5; 1], [1], 0); eexists; exists [RReinit ([0; 1], [1], 0)]; eexists; split; [vm_compute; reflexivity|split; [vm_compute; reflexivity|reflexivity]]|].
  split; [reflexivity|]. split; [vm_compute; reflexivity|]. split; [reflexivity|]. eexists. eexists. split; [reflexivity|]. split; [reflexivity|].
  vm_compute. discriminate.
Qed.
Example C72_ex : exists o0 o outs, rf_new KDecimal (rnd 60) ([-1; 0; 1], [-1; 1], 0) (22 # 7) = Ok o0 /\
  rf_run KDecimal (rnd 60) ogcd [RFlip; RAdd 4] o0 = (o, outs) /\ outs = [Ok tt; Ok tt] /\ rf_params o = ([-1; 0; 1], [1; -1], 4).
Proof. eexists. eexists. eexists. split; [vm_compute; reflexivity|]. split; [vm_compute; reflexivity|]. split; reflexivity. Qed.

(** ---- C73 ---- *)
(** The text denotes the function p/q + n of the object (canonical degrees up to 9; a constant called "1" would be read
    as a denominator 1). *)
Theorem C73_latex : forall kind rd pgcd x o name o' t, reached kind rd pgcd x o -> rf_num o <> [] -> gcd_for pgcd (rf_num o) (rf_den o) ->
  rf_latex kind rd pgcd o name = (o', Ok t) -> (length (rf_num o') <= 10)%nat -> (length (rf_den o') <= 10)%nat -> name <> chars "1" ->
  exists f d, ltx_rat name t f d /\
    forall y, ~ (pvalq (rf_den o) y == 0)%Q -> (~ d y == 0 /\ f y == ratf (rf_num o) (rf_den o) (rf_int o) y)%Q.
Proof.
  intros kind rd pgcd x o name o' t RE N G H LN LD NN. destruct (reached_ok _ _ _ _ _ RE) as (I & C & X & K & D & V). subst kind.
  unfold rf_latex in H. destruct (rf_canonalize KDecimal rd pgcd o) as [o1 [[]|e]] eqn:CA; [|discriminate]. injection H as -> H.
  destruct (G (znorm (rf_num o)) (znorm (rf_den o))) as (k1 & k2 & H1 & H2 & _); try (intros; apply val_znorm).
  destruct (canon_function rd pgcd o o' I N D) as (_ & _ & _ & _ & _ & _ & _ & _ & FE); auto; [split; [exists k1|exists k2]; auto|].
  destruct (poly_latex name (rf_num o')) as [n|] eqn:PN; [|discriminate]. destruct (poly_latex name (rf_den o')) as [d|] eqn:PD; [|discriminate].
  cbn [bind] in H. injection H as <-.
  pose proof (poly_latex_ok _ _ _ PN LN) as TN. pose proof (poly_latex_ok _ _ _ PD LD) as TD.
  assert (B : exists f dd, ltx_rat name (if text_eqb d (txt "1") then n else fmt_frac n d) f dd /\
    forall y, ~ (pvalq (rf_den o) y == 0)%Q -> (~ dd y == 0 /\ f y + inject_Z (rf_int o') == ratf (rf_num o) (rf_den o) (rf_int o) y)%Q).
  { destruct (text_eqb d (txt "1")) eqn:ONE.
    - apply text_eqb_eq in ONE. subst d. exists (pvalq (rf_num o')), (fun _ => 1%Q). split; [now apply lr_poly|].
      intros y Y. destruct (FE y Y) as [Y' E]. split; [discriminate|]. rewrite <- E. unfold ratf.
      rewrite (poly_latex_one _ _ PD NN y). field.
    - exists (fun y => pvalq (rf_num o') y / pvalq (rf_den o') y)%Q, (pvalq (rf_den o')). split; [now apply lr_frac|].
      intros y Y. destruct (FE y Y) as [Y' E]. split; [exact Y'|]. exact E. }
  destruct B as (f & dd & LT & VV). destruct (Z.eqb_spec (rf_int o') 0) as [Z0|Z0].
  - exists f, dd. split; [exact LT|]. intros y Y. destruct (VV y Y) as [Y1 Y2]. split; [exact Y1|]. rewrite <- Y2, Z0.
    change (inject_Z 0) with 0%Q. ring.
  - exists (fun y => f y + inject_Z (rf_int o'))%Q, dd. split; [now apply lr_plus|]. exact VV.
Qed.
(** The exponent is not braced: from degree 10 on the text denotes something else. *)
Theorem C73_degree10_refuted : exists rd pgcd x o o' t, reached KDecimal rd pgcd x o /\
  rf_num o = [0; 0; 0; 0; 0; 0; 0; 0; 0; 0; 1] /\ rf_den o = [1] /\
  rf_latex KDecimal rd pgcd o (chars "x") = (o', Ok t) /\ t = chars "x^10" /\ ~ ltx_pow (chars "x") t 10.
Proof.
  exists (rnd 60), ogcd1, (22 # 7). eexists. eexists. eexists.
  split; [exists ([0; 0; 0; 0; 0; 0; 0; 0; 0; 0; 1], [1], 0); eexists; exists []; eexists; split; [vm_compute; reflexivity|split; reflexivity]|].
  split; [reflexivity|]. split; [reflexivity|]. split; [vm_compute; reflexivity|]. split; [reflexivity|].
  intros H. inversion H; try discriminate. lia.
Qed.
(** When the canonical numerator is 0 (p/q is an integer constant) there is no text: IndexError. *)
Theorem C73_index_error : forall kind rd pgcd x o name o' e, reached kind rd pgcd x o -> rf_num o <> [] -> gcd_for pgcd (rf_num o) (rf_den o) ->
  nonzero_poly (rf_den o) -> rf_latex kind rd pgcd o name = (o', Raise e) ->
  e = IndexError /\ exists z, forall n, poly_val (rf_num o) n = z * poly_val (rf_den o) n.
Proof.
  intros kind rd pgcd x o name o' e RE N G ND H. destruct (C44_total _ _ _ _ _ RE N G ND) as (o1 & CA & RE').
  unfold rf_latex in H. rewrite CA in H. injection H as -> H.
  destruct (C44_function _ _ _ _ _ _ RE N G ND CA) as [ND' _].
  destruct (reached_ok _ _ _ _ _ RE) as (I & C & X & K & D & V). subst kind.
  destruct (G (znorm (rf_num o)) (znorm (rf_den o))) as (k1 & k2 & H1 & H2 & _); try (intros; apply val_znorm).
  destruct (canon_main rd pgcd o k1 k2 I N D ND H1 H2) as (o2 & K & R & c & E & _ & _ & _ & N2 & _). rewrite CA in E. injection E as <-.
  destruct (poly_latex name (rf_num o')) as [n|e1] eqn:PN.
  - destruct (poly_latex name (rf_den o')) as [d|e2] eqn:PD; [discriminate|]. cbn [bind] in H. injection H as <-.
    apply poly_latex_raise in PD as [_ PD]. apply nonzero_znorm in ND'. contradiction.
  - cbn [bind] in H. injection H as <-. apply poly_latex_raise in PN as [-> PN]. split; [reflexivity|].
    exists c. intros n. rewrite H1, H2.
    assert (Z0 : poly_val (rf_num o') n = 0) by (rewrite <- val_znorm, PN; reflexivity).
    rewrite N2, val_sympoly2poly, val_znorm, val_zsub, val_zterm in Z0. cbn [zpow] in Z0.
    replace (poly_val k1 n) with (c * poly_val k2 n) by lia. ring.
Qed.
Example C73_ex : exists o o', reached KDecimal (rnd 60) ogcd1 (22 # 7) o /\ rf_num o = [7; -3; 1] /\ rf_den o = [0; 1] /\
  rf_latex KDecimal (rnd 60) ogcd1 o (chars "\pi") = (o', Ok (chars "\frac{ 7+\pi^2 }{ \pi }+ -3")).
Proof.
  eexists. eexists.
  split; [exists ([7; -3; 1], [0; 1], 0); eexists; exists []; eexists; split; [vm_compute; reflexivity|split; reflexivity]|].
  split; [reflexivity|]. split; [reflexivity|]. vm_compute. reflexivity.
Qed.

Print Assumptions C43_value.
Print Assumptions C43_exact.
Print Assumptions C43_flip.
Print Assumptions C43_add_int.
Print Assumptions C43_canonicalize.
Print Assumptions C43_canonicalize_nan_refuted.
Print Assumptions C43_failed_call.
Print Assumptions C43_after_exception_refuted.
Print Assumptions C44_function.
Print Assumptions C44_total.
Print Assumptions C44_coprime.
Print Assumptions C44_idempotent.
Print Assumptions C44_zero_denominator.
Print Assumptions C45_degenerate_iff.
Print Assumptions C46_enum.
Print Assumptions C46_value_exact.
Print Assumptions C47_sound_same_denominator.
Print Assumptions C47_denominator_refuted.
Print Assumptions C47_same_function_not_recognised_refuted.
Print Assumptions C47_inverse_refuted.
Print Assumptions C71_mpf_constant.
Print Assumptions C71_mpf_enum.
Print Assumptions C72_copy.
Print Assumptions C72_copy_after_reinit_refuted.
Print Assumptions C73_latex.
Print Assumptions C73_degree10_refuted.
Print Assumptions C73_index_error.

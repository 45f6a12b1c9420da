(** Claim C137 (fractions that differ by a factor). *)
From Coq Require Import ZArith QArith Qabs List Bool Lia Lqa Psatz Arith.
From Verif Require Import PyBase PyBase_Proofs Rnd Rnd_Proofs Utils_Model Spec_Utils ContFrac_Model Spec_ContFrac ContFrac_Proofs ContFrac_Hist ContFrac_Proofs2 Properties_ContFrac Errors_Model Errors_Proofs Properties_Errors.
From Verif Require Import ULCD_Model Spec_ULCD Rational_Model MITM_Model Spec_MITM MITM_Filters OldResults_Proofs.
Import ListNotations.
Open Scope Z_scope.

(** every coefficient multiplied by k *)
Definition scaled (k : Z) (a : coeffs) : coeffs := map (map (Z.mul k)) a.
Lemma icoef_scaled k a i : icoef (scaled k a) i = k * icoef a i.
Proof.
  unfold icoef, scaled. rewrite map_length. change (@nil Z) with (map (Z.mul k) []) at 1. rewrite map_nth. apply poly_scale.
Qed.
Lemma scaled_pairs k a b is : Forall2 (fun e e' => (fst e' == inject_Z k * fst e)%Q /\ (snd e' == inject_Z k * inject_Z k * snd e)%Q) (toQ (icoefs a b is)) (toQ (icoefs (scaled k a) (scaled (k * k) b) is)).
Proof.
  unfold toQ, icoefs. induction is as [|i is IH]; cbn [map]; constructor; [|exact IH]. cbn [fst snd]. rewrite !icoef_scaled, !inject_Z_mult. split; reflexivity.
Qed.
Lemma nested_scale_none (s : Q) : ~ (s == 0)%Q -> forall l a0 a0', (a0' == s * a0)%Q -> nested a0 l = None ->
  forall l', Forall2 (fun e e' => (fst e' == s * fst e)%Q /\ (snd e' == s * s * snd e)%Q) l l' -> nested a0' l' = None.
Proof.
  intros Ns. induction l as [|[a1 b1] r IH]; intros a0 a0' E0 H l' F; inversion F as [|? [a1' b1'] ? r' [E1 E2] F']; subst; cbn [nested fst snd] in *; [discriminate|].
  destruct (nested a1 r) as [t|] eqn:N.
  - destruct (Qeq_bool t 0) eqn:Z0; [|discriminate]. apply Qeq_bool_eq in Z0. destruct (nested_scale s Ns r a1 a1' t E1 N r' F') as (t' & Nt & Et). rewrite Nt.
    assert (G : (t' == 0)%Q) by (rewrite Et, Z0; ring). apply Qeq_bool_iff in G. rewrite G. reflexivity.
  - rewrite (IH a1 a1' E1 N r' F'). reflexivity.
Qed.
(** a multiplied by k and b by its square: the finite fractions are multiplied by k; where one is undefined so is the other. *)
Theorem C137_values : forall a b k n, k <> 0 ->
  match cut a b n with
  | Some v => exists v', cut (scaled k a) (scaled (k * k) b) n = Some v' /\ (v' == inject_Z k * v)%Q
  | None => cut (scaled k a) (scaled (k * k) b) n = None
  end.
Proof.
  intros a b k n Hk. assert (NQ : ~ (inject_Z k == 0)%Q) by (unfold Qeq; cbn; lia).
  assert (E0 : (inject_Z (icoef (scaled k a) 0) == inject_Z k * inject_Z (icoef a 0))%Q) by (rewrite icoef_scaled, inject_Z_mult; reflexivity).
  destruct (cut a b n) as [v|] eqn:E; unfold cut in *.
  - exact (nested_scale _ NQ _ _ _ _ E0 E _ (scaled_pairs k a b _)).
  - exact (nested_scale_none _ NQ _ _ _ E0 E _ (scaled_pairs k a b _)).
Qed.
Lemma rne_Qeq x y : (x == y)%Q -> rne x = rne y.
Proof. intros E. pose proof (rne_mono x y ltac:(rewrite E; apply Qle_refl)). pose proof (rne_mono y x ltac:(rewrite E; apply Qle_refl)). lia. Qed.
(** rounding commutes with powers of two *)
Lemma rnd_scale p j x : (rnd p (x * two_p j) == rnd p x * two_p j)%Q.
Proof.
  destruct (Qeq_dec x 0) as [E|N].
  - rewrite (rnd_Qeq p (x * two_p j) 0) by (rewrite E; ring). rewrite (rnd_Qeq p x 0 E). cbn. ring.
  - pose proof (two_p_pos j) as J. pose proof (mag_spec x N) as [L U].
    assert (N' : ~ (x * two_p j == 0)%Q) by (intros G; apply Qmult_integral in G as [G|G]; [exact (N G)|rewrite G in J; discriminate J]).
    assert (A : (Qabs (x * two_p j) == Qabs x * two_p j)%Q) by (rewrite Qabs_Qmult, (Qabs_pos (two_p j)) by lra; reflexivity).
    assert (M : mag (x * two_p j) = mag x + j).
    { apply mag_unique; [exact N'| |].
      - rewrite A, two_p_plus. apply Qmult_le_r; assumption.
      - rewrite A. replace (mag x + j + 1) with (mag x + 1 + j) by lia. rewrite two_p_plus. apply Qmult_lt_r; assumption. }
    unfold rnd. rewrite M.
    assert (Z1 : (Qnum (x * two_p j) =? 0) = false) by (apply Z.eqb_neq; intros G; apply N'; unfold Qeq; rewrite G; reflexivity).
    assert (Z2 : (Qnum x =? 0) = false) by (apply Z.eqb_neq; intros G; apply N; unfold Qeq; rewrite G; reflexivity).
    rewrite Z1, Z2, !Qred_correct. replace (mag x + j - p + 1) with ((mag x - p + 1) + j) by lia. set (e := mag x - p + 1).
    assert (R : rne (x * two_p j * two_p (- (e + j))) = rne (x * two_p (- e))).
    { apply rne_Qeq. replace (- (e + j)) with (- e + - j) by lia. rewrite two_p_plus. setoid_replace (x * two_p j * (two_p (- e) * two_p (- j)))%Q with (x * two_p (- e) * (two_p (- j) * two_p j))%Q by ring. rewrite two_p_opp_l. ring. }
    rewrite R, two_p_plus. ring.
Qed.
Lemma contPQ_scaled k l l' : Forall2 (fun e e' => fst e' = k * fst e /\ snd e' = k * k * snd e) l l' -> forall a0,
  contP (k * a0) l' = k ^ Z.of_nat (length l) * (k * contP a0 l) /\ contQ l' = k ^ Z.of_nat (length l) * contQ l.
Proof.
  intros F. assert (G : fst (cont_xy l') = k ^ Z.of_nat (length l) * fst (cont_xy l) /\ snd (cont_xy l') = k * (k ^ Z.of_nat (length l) * snd (cont_xy l))).
  { induction F as [|[a b] [a' b'] l l' [E1 E2] F [I1 I2]]; [cbn; lia|]. cbn [fst snd] in E1, E2. subst a' b'. cbn [cont_xy length]. destruct (cont_xy l) as [x y]. destruct (cont_xy l') as [x' y']. cbn [fst snd] in *. subst x' y'.
    rewrite Nat2Z.inj_succ, Z.pow_succ_r by lia. split; ring. }
  destruct G as [G1 G2]. intros a0. unfold contP, contQ. rewrite G1, G2. split; ring.
Qed.
Lemma scaled_pairsZ k a b is : Forall2 (fun e e' => fst e' = k * fst e /\ snd e' = k * k * snd e) (icoefs a b is) (icoefs (scaled k a) (scaled (k * k) b) is).
Proof. unfold icoefs. induction is as [|i is IH]; cbn [map]; constructor; [|exact IH]. cbn [fst snd]. rewrite !icoef_scaled. split; ring. Qed.
Lemma pq_two prec s j p q : 1 <= prec -> 0 <= s -> 0 <= j ->
  match pq_value (rnd prec) p q with
  | Fin x => exists x', pq_value (rnd prec) (2 ^ s * (2 ^ j * p)) (2 ^ s * q) = Fin x' /\ (x' == inject_Z (2 ^ j) * x)%Q
  | NaN => pq_value (rnd prec) (2 ^ s * (2 ^ j * p)) (2 ^ s * q) = NaN
  end.
Proof.
  intros Hp Hs Hj. assert (SC : forall z m, 0 <= m -> (rnd prec (inject_Z (2 ^ m * z)) == rnd prec (inject_Z z) * two_p m)%Q).
  { intros z m Hm. rewrite <- rnd_scale. rewrite (rnd_Qeq prec (inject_Z (2 ^ m * z)) (inject_Z z * two_p m)); [reflexivity|]. rewrite inject_Z_mult, (two_p_Z m Hm). ring. }
  pose proof (SC q s Hs) as EQ. assert (EP : (rnd prec (inject_Z (2 ^ s * (2 ^ j * p))) == rnd prec (inject_Z p) * two_p j * two_p s)%Q) by (rewrite (SC _ s Hs), (SC _ j Hj); reflexivity).
  pose proof (two_p_pos s) as PS. assert (NS : ~ (two_p s == 0)%Q) by (intros G; rewrite G in PS; discriminate PS).
  unfold pq_value. destruct (Qeq_bool (rnd prec (inject_Z q)) 0) eqn:Z0.
  - apply Qeq_bool_eq in Z0. assert (G : (rnd prec (inject_Z (2 ^ s * q)) == 0)%Q) by (rewrite EQ, Z0; ring). apply Qeq_bool_iff in G. rewrite G. reflexivity.
  - apply Qeq_bool_neq in Z0. destruct (Qeq_bool (rnd prec (inject_Z (2 ^ s * q))) 0) eqn:Z1; [exfalso; apply Qeq_bool_eq in Z1; rewrite EQ in Z1; apply Qmult_integral in Z1; tauto|].
    eexists. split; [reflexivity|]. unfold rdiv. rewrite <- (two_p_Z j Hj), (Qmult_comm (two_p j)), <- rnd_scale.
    rewrite (rnd_Qeq prec (rnd prec (inject_Z (2 ^ s * (2 ^ j * p))) / rnd prec (inject_Z (2 ^ s * q))) (rnd prec (inject_Z p) / rnd prec (inject_Z q) * two_p j)); [reflexivity|]. rewrite EP, EQ. field. auto.
Qed.
(** Objects: the same outcome, with an exception at the same place; a power of two as the factor is exact, any other
    one up to the rounding of the results. *)
Theorem C137_objects : forall prec a b k av lg tg tg' c0 c1 os os' c2 c3 r2 r3 n,
  3 <= prec -> k <> 0 -> fresh a b av lg tg c0 -> fresh (scaled k a) (scaled (k * k) b) av lg tg' c1 ->
  cf_run (rnd prec) os c0 = (c2, r2) -> cf_run (rnd prec) os' c1 = (c3, r3) -> 0 <= n -> lg = false \/ 1 <= n ->
  snd (cf_gen0 (rnd prec) n true c3) = snd (cf_gen0 (rnd prec) n true c2) /\
  (snd (cf_gen0 (rnd prec) n true c2) = Ok tt ->
   match cf_result (fst (cf_gen0 (rnd prec) n true c2)), cf_result (fst (cf_gen0 (rnd prec) n true c3)) with
   | Fin x, Fin x' => (forall j, 0 <= j -> k = 2 ^ j -> (x' == inject_Z k * x)%Q) /\
                      (forall v, cut a b n = Some v -> approx x v (4 * two_p (- prec)) /\ approx x' (inject_Z k * v) (4 * two_p (- prec)))
   | NaN, NaN => True
   | _, _ => False
   end).
Proof.
  intros prec a b k av lg tg tg' c0 c1 os os' c2 c3 r2 r3 n Hp Hk HF HF1 HR HR1 Hn HL.
  pose proof (run_static_of _ _ _ _ _ HR) as S2. pose proof (run_static_of _ _ _ _ _ HR1) as S3.
  assert (O : snd (cf_gen0 (rnd prec) n true c3) = snd (cf_gen0 (rnd prec) n true c2)).
  { rewrite (gen_outcome _ _ _ _ _ _ _ _ n true HF S2), (gen_outcome _ _ _ _ _ _ _ _ n true HF1 S3).
    assert (FE : find (bad_index av (scaled (k * k) b)) (upto n) = find (bad_index av b) (upto n)).
    { induction (upto n) as [|i l IH]; [reflexivity|]. cbn [find]. assert (B : bad_index av (scaled (k * k) b) i = bad_index av b i).
      { unfold bad_index. rewrite icoef_scaled. assert (EB : (k * k * icoef b i =? 0) = (icoef b i =? 0)) by (destruct (Z.eqb_spec (icoef b i) 0) as [->|NZ]; [apply Z.eqb_eq; lia|apply Z.eqb_neq; nia]). now rewrite EB. }
      rewrite B, IH. reflexivity. }
    now rewrite FE. }
  split; [exact O|]. intros K. rewrite K in O.
  destruct (cf_gen0 (rnd prec) n true c2) as [c4 r4] eqn:E4. destruct (cf_gen0 (rnd prec) n true c3) as [c5 r5] eqn:E5. cbn [fst snd] in *. subst r4 r5.
  destruct (gen_state _ _ _ _ _ _ _ _ _ _ _ HF S2 E4) as (_ & _ & _ & R4). destruct (gen_state _ _ _ _ _ _ _ _ _ _ _ HF1 S3 E5) as (_ & _ & _ & R5).
  specialize (R4 eq_refl HL). specialize (R5 eq_refl HL). rewrite icoef_scaled in R5.
  destruct (contPQ_scaled k _ _ (scaled_pairsZ k a b (upto n)) (icoef a 0)) as [CP CQ]. rewrite CP, CQ in R5. set (N := length (icoefs a b (upto n))) in *.
  assert (RO : rd_ok (rnd prec)) by (apply rnd_rd_ok; lia). pose proof (pq_value_nan (rnd prec)) as NANs.
  assert (NK : k ^ Z.of_nat N <> 0) by (apply Z.pow_nonzero; lia).
  set (P := contP (icoef a 0) (icoefs a b (upto n))) in *. set (D := contQ (icoefs a b (upto n))) in *.
  assert (IFF : pq_value (rnd prec) P D = NaN <-> pq_value (rnd prec) (k ^ Z.of_nat N * (k * P)) (k ^ Z.of_nat N * D) = NaN) by (rewrite !pq_value_nan by exact RO; nia).
  assert (V : forall x x' v, cf_result c4 = Fin x -> cf_result c5 = Fin x' -> cut a b n = Some v -> approx x v (4 * two_p (- prec)) /\ approx x' (inject_Z k * v) (4 * two_p (- prec))).
  { intros x x' v X4 X5 E. pose proof (C137_values a b k n Hk) as W. rewrite E in W. destruct W as (v' & E' & V').
    destruct (C06_convergent prec _ _ _ _ _ _ _ _ _ _ _ v Hp HF HR Hn E4 E) as (_ & _ & _ & _ & _ & Y4). destruct (C06_convergent prec _ _ _ _ _ _ _ _ _ _ _ v' Hp HF1 HR1 Hn E5 E') as (_ & _ & _ & _ & _ & Y5).
    destruct (Y4 HL) as (y4 & Z4 & A4). destruct (Y5 HL) as (y5 & Z5 & A5). assert (y4 = x) by congruence. assert (y5 = x') by congruence. subst y4 y5. split; [exact A4|]. unfold approx in *. rewrite <- V'. exact A5. }
  destruct (cf_result c4) as [x|] eqn:X4; destruct (cf_result c5) as [x'|] eqn:X5.
  - split; [|intros v E; exact (V x x' v eq_refl eq_refl E)]. intros j Hj Ej. pose proof (pq_two prec (j * Z.of_nat N) j P D ltac:(lia) ltac:(lia) Hj) as T. rewrite <- R4 in T. destruct T as (y & Ey & Vy).
    rewrite Ej in R5. rewrite <- Z.pow_mul_r in R5 by lia. rewrite Ey in R5. injection R5 as ->. rewrite Ej. exact Vy.
  - symmetry in R5. apply IFF in R5. congruence.
  - symmetry in R4. apply IFF in R4. congruence.
  - exact I.
Qed.
(** The two equations say the same ... *)
Theorem C137_same_equation : forall u l c d k x v, k <> 0 -> l <> 0 -> d <> 0 -> ~ (x == 0)%Q ->
  ((v == ulcd_fun (u, l, c, (k * d)%Z) x)%Q <-> (inject_Z k * v == ulcd_fun (u, l, c, d) x)%Q).
Proof.
  intros u l c d k x v Hk Hl Hd Hx. unfold ulcd_fun.
  assert (K : ~ (inject_Z k == 0)%Q) by (unfold Qeq; cbn; lia). assert (D : ~ (inject_Z d == 0)%Q) by (unfold Qeq; cbn; lia). assert (L : ~ (inject_Z l == 0)%Q) by (unfold Qeq; cbn; lia).
  rewrite inject_Z_mult. split; intros E; [rewrite E; field; auto|].
  assert (E2 : (v == / inject_Z k * (inject_Z k * v))%Q) by (field; exact K). rewrite E2, E. field. auto.
Qed.
(** ... but they are never recognised as equivalent, so that both are reported. *)
Lemma scaled_neq k b : k * k <> 1 -> (exists p c, In p b /\ In c p /\ c <> 0) -> scaled (k * k) b <> b.
Proof.
  intros Hk (p & c & I1 & I2 & Nc) E. unfold scaled in E.
  assert (G : forall (l : list (list Z)), map (map (Z.mul (k * k))) l = l -> forall p, In p l -> map (Z.mul (k * k)) p = p).
  { induction l as [|q l IH]; intros EL r I; [destruct I|]. cbn [map] in EL. injection EL as H1 H2. destruct I as [->|I]; [exact H1|exact (IH H2 r I)]. }
  specialize (G b E p I1). clear E I1.
  induction p as [|y p IH]; [destruct I2|]. cbn [map] in G. injection G as H1 H2. destruct I2 as [->|I2]; [nia|exact (IH I2 H2)].
Qed.
Theorem C137_recognised_refuted : forall rd a b k o1 o2, k * k <> 1 -> (exists p c, In p b /\ In c p /\ c <> 0) ->
  let c1 : click ulcd := ((a, b), o1, 0, None) in let c2 : click ulcd := ((scaled k a, scaled (k * k) b), o2, 0, None) in
  equiv_answer (ulcd_class rd) c1 c2 = Ok false /\ equiv_answer (ulcd_class rd) c2 c1 = Ok false /\
  filter_uniq (ulcd_class rd) [c1; c2] = ([c1; c2], Ok tt) /\ filter_uniq (ulcd_class rd) [c2; c1] = ([c2; c1], Ok tt) /\
  (forall kind pgcd inv i i' (q1 q2 : rfun), equiv_answer (rat_class kind rd pgcd inv) ((a, b), q1, i, None) ((scaled k a, scaled (k * k) b), q2, i', None) <> Ok true).
Proof.
  intros rd a b k o1 o2 Hk HB c1 c2. pose proof (scaled_neq k b Hk HB) as NE.
  assert (F1 : coeffs_eqb b (scaled (k * k) b) = false) by (unfold coeffs_eqb; destruct (list_eq_dec _ b (scaled (k * k) b)); [congruence|reflexivity]).
  assert (F2 : coeffs_eqb (scaled (k * k) b) b = false) by (unfold coeffs_eqb; destruct (list_eq_dec _ (scaled (k * k) b) b); [congruence|reflexivity]).
  assert (A1 : ulcd_is_equiv ((a, b), o1, 0) ((scaled k a, scaled (k * k) b), o2, 0) = Ok false).
  { unfold ulcd_is_equiv. change (0 =? 0) with true. cbn [negb orb]. destruct (_ || _); [reflexivity|]. rewrite F1. reflexivity. }
  assert (A2 : ulcd_is_equiv ((scaled k a, scaled (k * k) b), o2, 0) ((a, b), o1, 0) = Ok false).
  { unfold ulcd_is_equiv. change (0 =? 0) with true. cbn [negb orb]. destruct (_ || _); [reflexivity|]. rewrite F2. reflexivity. }
  split; [exact A1|]. split; [exact A2|].
  assert (L1 : lc_equiv (ulcd_class rd) (ck3 c1) (ck3 c2) = ((o1, o2), Ok false)) by (transitivity ((o1, o2), ulcd_is_equiv ((a, b), o1, 0) ((scaled k a, scaled (k * k) b), o2, 0)); [reflexivity|rewrite A1; reflexivity]).
  assert (L2 : lc_equiv (ulcd_class rd) (ck3 c2) (ck3 c1) = ((o2, o1), Ok false)) by (transitivity ((o2, o1), ulcd_is_equiv ((scaled k a, scaled (k * k) b), o2, 0) ((a, b), o1, 0)); [reflexivity|rewrite A2; reflexivity]).
  split; [unfold filter_uniq; cbn [uniq_loop uniq_scan app]; rewrite L1; reflexivity|]. split; [unfold filter_uniq; cbn [uniq_loop uniq_scan app]; rewrite L2; reflexivity|].
  intros kind pgcd inv i i' q1 q2. unfold equiv_answer. cbn [lc_equiv rat_class ck_ab ck_obj ck_ind]. unfold rf_is_equiv. destruct (_ && _); [discriminate|].
  destruct (rf_canonalize kind rd pgcd q1) as [o1' [[]|e]]; [|discriminate]. destruct (rf_canonalize kind rd pgcd q2) as [o2' [[]|e]]; [|discriminate].
  destruct (rf_get_nsym o1') as [o1a n1]. destruct (rf_get_dsym o1a) as [o1b d1]. destruct (rf_get_nsym o2') as [o2a n2]. destruct (rf_get_dsym o2a) as [o2b d2]. cbn [snd].
  destruct n1 as [N1|]; [|discriminate]. destruct d1 as [D1|]; [|discriminate]. cbn [bind]. destruct (rr_div N1 D1) as [x1|]; [|discriminate]. cbn [bind].
  destruct n2 as [N2|]; [|discriminate]. destruct d2 as [D2|]; [|discriminate]. cbn [bind]. destruct (if existsb _ _ then _ else _) as [x2|]; [|discriminate]. cbn [bind fst snd]. rewrite F1. discriminate.
Qed.
(** 1 + 1/(1 + 1/...) and 2 + 4/(2 + 4/...) *)
Example C137_ex : cut [[1]] [[1]] 3 = Some (5 # 3)%Q /\ cut (scaled 2 [[1]]) (scaled (2 * 2) [[1]]) 3 = Some (80 # 24)%Q /\
  (exists c0 c1, fresh [[1]] [[1]] true false None c0 /\ fresh (scaled 2 [[1]]) (scaled (2 * 2) [[1]]) true false None c1 /\
     cf_result (fst (cf_gen0 (rnd 53) 3 true c0)) = Fin (rnd 53 (5 # 3)) /\ cf_result (fst (cf_gen0 (rnd 53) 3 true c1)) = Fin (rnd 53 (10 # 3))) /\
  2 * 2 <> 1 /\ (exists p c, In p [[1]] /\ In c p /\ c <> 0).
Proof.
  split; [vm_compute; reflexivity|]. split; [vm_compute; reflexivity|]. split; [eexists; eexists; split; [reflexivity|split; [reflexivity|split; vm_compute; reflexivity]]|].
  split; [lia|]. exists [1], 1. split; [now left|]. split; [now left|lia].
Qed.

Print Assumptions C137_values.
Print Assumptions C137_objects.
Print Assumptions C137_same_equation.
Print Assumptions C137_recognised_refuted.

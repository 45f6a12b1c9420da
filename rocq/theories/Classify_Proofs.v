(** Proofs about the classification of sampled results. *)
From Coq Require Import ZArith QArith Qabs Qfield List Bool Lia Lqa.
From Verif Require Import PyBase PyBase_Proofs Rnd Rnd_Proofs ContFrac_Model Classify_Model Spec_Classify.
Import ListNotations.
Open Scope Z_scope.

Definition mv (o : option Q) : mpfv := match o with Some q => Fin q | None => NaN end.

(** the samples of a sequence, as the code collects them *)
Definition samples (x : Z -> option Q) (idx : list Z) : list (Z * list mpfv) := map (fun i => (i, map mv (six x i))) idx.

Inductive meq : mpfv -> option Q -> Prop :=
| meq_fin p q : (p == q)%Q -> meq (Fin p) (Some q)
| meq_nan : meq NaN None.

Lemma Qeq_bool_comp a b c : (a == b)%Q -> Qeq_bool a c = Qeq_bool b c.
Proof. intros H. apply eq_true_iff_eq. rewrite !Qeq_bool_iff. now rewrite H. Qed.
Lemma Qle_bool_comp a b c d : (a == b)%Q -> (c == d)%Q -> Qle_bool a c = Qle_bool b d.
Proof. intros H1 H2. apply eq_true_iff_eq. rewrite !Qle_bool_iff. now rewrite H1, H2. Qed.

Section Exact.
  Variable rd : Q -> Q.
  Hypothesis RD : exact rd.
  Variable x : Z -> option Q.

  Lemma delta_gap i : meq (delta rd (mv (x (i + 2))) (mv (x i))) (gap x i).
  Proof.
    unfold delta, gap. destruct (x (i + 2)) as [v|], (x i) as [u|]; cbn [mv]; try constructor.
    unfold rsub. rewrite (RD _). reflexivity.
  Qed.
  Lemma delta_gap' i j : j = i + 2 -> meq (delta rd (mv (x j)) (mv (x i))) (gap x i).
  Proof. intros ->. apply delta_gap. Qed.

  Lemma usable_meq d o : meq d o ->
    match o with
    | Some q => if Qeq_bool q 0 then usable d = None else exists p, usable d = Some p /\ (p == q)%Q
    | None => usable d = None
    end.
  Proof.
    intros [p q E|]; cbn [usable]; [|reflexivity]. rewrite (Qeq_bool_comp p q 0 E).
    destruct (Qeq_bool q 0); [reflexivity|]. exists p. split; [reflexivity|exact E].
  Qed.

  (** a list of indexed differences that pairs up with the gaps at (i, i+2), (i+2, i+4) *)
  Definition paired (ds : list (Z * mpfv)) (is : list Z) : Prop :=
    exists l, ds = flat_map (fun t => [(fst (fst t), snd (fst t)); (fst (fst t) + 2, snd t)]) l /\
      Forall2 (fun t i => fst (fst t) = i /\ meq (snd (fst t)) (gap x i) /\ meq (snd t) (gap x (i + 2))) l is.

  Lemma ratios_shrink ds is : paired ds is ->
    Forall2 (fun p q => (snd p == q)%Q) (ratios rd ds) (somes (map (shrink x) is)).
  Proof.
    intros (l & -> & F). induction F as [|[[i d] e] j l is (E & D1 & D2) F IH]; [constructor|].
    cbn [fst snd] in *. subst j. cbn [flat_map app ratios fst snd map somes]. unfold shrink.
    pose proof (usable_meq _ _ D1) as U1. pose proof (usable_meq _ _ D2) as U2.
    destruct (gap x i) as [u|]; [|rewrite U1; exact IH].
    destruct (Qeq_bool u 0); [rewrite U1; destruct (gap x (i + 2)); exact IH|]. destruct U1 as (p & -> & Ep).
    destruct (gap x (i + 2)) as [v|]; [|rewrite U2; exact IH].
    destruct (Qeq_bool v 0); [rewrite U2; exact IH|]. destruct U2 as (q & -> & Eq).
    cbn [somes]. constructor; [|exact IH]. cbn [snd]. unfold rdiv. rewrite (RD _), Ep, Eq. reflexivity.
  Qed.

  Lemma pair_paired idx : paired (delta_pair rd (samples x idx)) idx.
  Proof.
    exists (map (fun i => ((i, delta rd (mv (x (i + 2))) (mv (x i))), delta rd (mv (x (i + 4))) (mv (x (i + 2))))) idx).
    split.
    - unfold delta_pair, samples. induction idx as [|i idx IH]; [reflexivity|]. cbn [map flat_map]. rewrite IH.
      unfold pair_of_sample, six. cbn [map nth fst snd]. rewrite Z.add_0_r. reflexivity.
    - induction idx as [|i idx IH]; [constructor|]. cbn [map]. constructor; [|exact IH]. cbn [fst snd].
      split; [reflexivity|]. split; apply delta_gap'; lia.
  Qed.
  Lemma odd_paired idx : paired (delta_odd rd (samples x idx)) (map (fun i => i + 1) idx).
  Proof.
    exists (map (fun i => ((i + 1, delta rd (mv (x (i + 3))) (mv (x (i + 1)))), delta rd (mv (x (i + 5))) (mv (x (i + 3))))) idx).
    split.
    - unfold delta_odd, samples. induction idx as [|i idx IH]; [reflexivity|]. cbn [map flat_map]. rewrite IH.
      unfold odd_of_sample, six. cbn [map nth fst snd]. replace (i + 1 + 2) with (i + 3) by lia. reflexivity.
    - induction idx as [|i idx IH]; [constructor|]. cbn [map]. constructor; [|exact IH]. cbn [fst snd].
      split; [reflexivity|]. split; [apply delta_gap'; lia|]. replace (i + 3) with (i + 1 + 2) by lia. apply delta_gap'; lia.
  Qed.

  Lemma ev_ratios idx : Forall2 (fun p q => (snd p == q)%Q) (ratios rd (delta_pair rd (samples x idx))) (evens_at x idx).
  Proof. apply ratios_shrink, pair_paired. Qed.
  Lemma od_ratios idx : Forall2 (fun p q => (snd p == q)%Q) (ratios rd (delta_odd rd (samples x idx))) (odds_at x idx).
  Proof. unfold odds_at. rewrite <- map_map. apply ratios_shrink, odd_paired. Qed.

  (** ---- sums and means ---- *)
  Definition qsum (l : list Q) : Q := fold_right Qplus 0%Q l.

  Lemma msum_exact l : (msum rd l == qsum l)%Q.
  Proof.
    unfold msum. enough (G : forall acc, (fold_left (radd rd) l acc == acc + qsum l)%Q) by (rewrite G; ring).
    induction l as [|q l IH]; intros acc; cbn [fold_left qsum fold_right]; [ring|].
    rewrite IH. unfold radd. rewrite (RD _). fold (qsum l). ring.
  Qed.

  Lemma qsum_le l c : Forall (fun q => (q <= c)%Q) l -> (qsum l <= c * inject_Z (Z.of_nat (length l)))%Q.
  Proof.
    induction 1 as [|q l H F IH]; cbn [qsum fold_right length]; [change (inject_Z (Z.of_nat 0)) with 0%Q; rewrite Qmult_0_r; apply Qle_refl|]. fold (qsum l).
    rewrite Nat2Z.inj_succ, <- Z.add_1_l, inject_Z_plus. change (inject_Z 1) with 1%Q. rewrite Qmult_plus_distr_r, Qmult_1_r. lra.
  Qed.
  Lemma qsum_ge l c : Forall (fun q => (c <= q)%Q) l -> (c * inject_Z (Z.of_nat (length l)) <= qsum l)%Q.
  Proof.
    induction 1 as [|q l H F IH]; cbn [qsum fold_right length]; [change (inject_Z (Z.of_nat 0)) with 0%Q; rewrite Qmult_0_r; apply Qle_refl|]. fold (qsum l).
    rewrite Nat2Z.inj_succ, <- Z.add_1_l, inject_Z_plus. change (inject_Z 1) with 1%Q. rewrite Qmult_plus_distr_r, Qmult_1_r. lra.
  Qed.

  Lemma len_pos {A} (l : list A) : l <> [] -> (0 < inject_Z (Z.of_nat (length l)))%Q.
  Proof. intros N. change 0%Q with (inject_Z 0). rewrite <- Zlt_Qlt. destruct l; [congruence|cbn [length]; lia]. Qed.

  Lemma mdiv_ok a b : ~ (b == 0)%Q -> exists q, mdiv rd a b = Ok q /\ (q == a / b)%Q.
  Proof.
    intros N. unfold mdiv. destruct (Qeq_bool b 0) eqn:E; [apply Qeq_bool_iff in E; contradiction|].
    eexists. split; [reflexivity|]. unfold rdiv. apply RD.
  Qed.

  Lemma mmean_ok l : l <> [] -> exists m, mmean rd l = Ok m /\ (m * inject_Z (Z.of_nat (length l)) == qsum l)%Q.
  Proof.
    intros N. unfold mmean. pose proof (len_pos l N) as P.
    destruct (mdiv_ok (msum rd l) (inject_Z (Z.of_nat (length l)))) as (q & E & V); [lra|].
    exists q. split; [exact E|]. rewrite V, msum_exact. field. lra.
  Qed.
  Lemma mmean_nil : mmean rd [] = Raise ZeroDivisionError.
  Proof. reflexivity. Qed.

  Lemma mean_le l m c : mmean rd l = Ok m -> Forall (fun q => (q <= c)%Q) l -> (m <= c)%Q.
  Proof.
    intros E F. destruct l as [|q l]; [discriminate|]. destruct (mmean_ok (q :: l)) as (m' & E' & V); [discriminate|].
    rewrite E in E'. injection E' as <-. apply qsum_le in F. pose proof (len_pos (q :: l) ltac:(discriminate)) as P.
    rewrite <- V in F. apply Qmult_le_r in F; assumption.
  Qed.
  Lemma mean_ge l m c : mmean rd l = Ok m -> Forall (fun q => (c <= q)%Q) l -> (c <= m)%Q.
  Proof.
    intros E F. destruct l as [|q l]; [discriminate|]. destruct (mmean_ok (q :: l)) as (m' & E' & V); [discriminate|].
    rewrite E in E'. injection E' as <-. apply qsum_ge in F. pose proof (len_pos (q :: l) ltac:(discriminate)) as P.
    rewrite <- V in F. apply Qmult_le_r in F; assumption.
  Qed.
  Lemma mean_gt_ex l m c : mmean rd l = Ok m -> (c < m)%Q -> Exists (fun q => (c < q)%Q) l.
  Proof.
    intros E H. apply Exists_exists.
    destruct (existsb (fun q => negb (Qle_bool q c)) l) eqn:B.
    - apply existsb_exists in B. destruct B as (q & I & B). exists q. split; [exact I|].
      apply Qnot_le_lt. intros K. apply Qle_bool_iff in K. rewrite K in B. discriminate.
    - exfalso. assert (F : Forall (fun q => (q <= c)%Q) l).
      { apply Forall_forall. intros q I. apply Qle_bool_iff. destruct (Qle_bool q c) eqn:K; [reflexivity|].
        assert (X : existsb (fun q => negb (Qle_bool q c)) l = true) by (apply existsb_exists; exists q; rewrite K; auto). congruence. }
      apply (mean_le _ _ _ E) in F. lra.
  Qed.

  Lemma mspread_ok msqrt m l : l <> [] -> exists s, mspread rd msqrt m l = Ok s.
  Proof.
    intros N. unfold mspread. pose proof (len_pos l N).
    match goal with |- context [mdiv rd ?a ?b] => destruct (mdiv_ok a b) as (q & E & _); [lra|] end. eauto.
  Qed.

  Lemma Forall2_map_snd {A} (l : list (A * Q)) l' (P : Q -> Prop) : (forall a b, (a == b)%Q -> P b -> P a) ->
    Forall2 (fun p q => (snd p == q)%Q) l l' -> Forall P l' -> Forall P (map snd l).
  Proof.
    intros C F. induction F as [|p q l l' E F IH]; intros H; [constructor|]. inversion_clear H. cbn [map]. constructor; eauto.
  Qed.
  Lemma Forall2_Exists {A} (l : list (A * Q)) l' (P : Q -> Prop) : (forall a b, (a == b)%Q -> P a -> P b) ->
    Forall2 (fun p q => (snd p == q)%Q) l l' -> Exists P (map snd l) -> Exists P l'.
  Proof.
    intros C F. induction F as [|p q l l' E F IH]; intros H; cbn [map] in H; inversion_clear H; [left|right]; eauto.
  Qed.
  Lemma Forall2_len {A B} (R : A -> B -> Prop) l l' : Forall2 R l l' -> length l = length l'.
  Proof. induction 1; cbn; congruence. Qed.
End Exact.

Lemma thr_val : (11 # 10 < exp_threshold)%Q /\ (exp_threshold < 2)%Q.
Proof. vm_compute. split; reflexivity. Qed.

Lemma gtq_spec a b : gtq a b = true <-> (b < a)%Q.
Proof.
  unfold gtq. rewrite negb_true_iff. split; intros H.
  - apply Qnot_le_lt. intros K. apply Qle_bool_iff in K. congruence.
  - apply not_true_iff_false. rewrite Qle_bool_iff. apply Qlt_not_le. exact H.
Qed.
Lemma gtq_false a b : gtq a b = false <-> (a <= b)%Q.
Proof. unfold gtq. rewrite negb_false_iff. apply Qle_bool_iff. Qed.

(** ---- the shape of the decision ---- *)
Section Decide.
  Variable rd : Q -> Q.
  Hypothesis RD : exact rd.
  Variables (dps : Z) (msqrt flog : Q -> Q) (linregress : list Q -> list mpfv -> mpfv * mpfv * mpfv).
  Variable x : Z -> option Q.
  Variable idx : list Z.
  Notation ds := (delta_pair rd (samples x idx)).
  Notation dos := (delta_odd rd (samples x idx)).
  Notation cl := (classify rd dps msqrt flog linregress (samples x idx)).

  Lemma few : (length (evens_at x idx) < 6)%nat -> cl = Ok (first_type rd dps ds dos, APNone).
  Proof.
    intros H. unfold classify. rewrite (Forall2_len _ _ _ (ev_ratios rd RD x idx)).
    replace (Z.of_nat (length (evens_at x idx)) <? 6) with true by lia. reflexivity.
  Qed.

  Lemma no_odd : (6 <= length (evens_at x idx))%nat -> odds_at x idx = [] -> cl = Raise ZeroDivisionError.
  Proof.
    intros H O. unfold classify. rewrite (Forall2_len _ _ _ (ev_ratios rd RD x idx)).
    replace (Z.of_nat (length (evens_at x idx)) <? 6) with false by lia.
    pose proof (ev_ratios rd RD x idx) as FE. pose proof (od_ratios rd RD x idx) as FO. rewrite O in FO.
    inversion FO as [E|]. rewrite <- ?E in *.
    assert (NE : map snd (ratios rd ds) <> []) by (apply Forall2_len in FE; destruct (ratios rd ds); cbn in *; [lia|discriminate]).
    destruct (mmean_ok rd RD _ NE) as (m & -> & _). cbn [bind].
    destruct (mspread_ok rd RD msqrt m _ NE) as (s & ->). cbn [bind map]. reflexivity.
  Qed.

  (** with enough usable factors: the two means, and the two alternatives *)
  Lemma many : (6 <= length (evens_at x idx))%nat -> odds_at x idx <> [] ->
    Forall (fun q => (0 < q)%Q) (evens_at x idx) -> Forall (fun q => (0 < q)%Q) (odds_at x idx) ->
    exists m o rp ro, mmean rd (map snd (ratios rd ds)) = Ok m /\ mmean rd (map snd (ratios rd dos)) = Ok o /\ (0 < m)%Q /\ (0 < o)%Q /\
      (exists sp, mspread rd msqrt m (map snd (ratios rd ds)) = Ok sp /\ (rp == sp / m)%Q) /\
      (exists so, mspread rd msqrt o (map snd (ratios rd dos)) = Ok so /\ (ro == so / o)%Q) /\
      cl = second_type rd msqrt flog linregress
             (if gtq rp half_f || gtq ro half_f then (if tail_above_2 (ratios rd ds) (ratios rd dos) then ATSuperExp else ATUndefined)
              else first_type rd dps ds dos)
             (Qle_bool ro half_f && Qle_bool rp half_f) m o ds dos.
  Proof.
    intros H O PE PO. unfold classify.
    pose proof (ev_ratios rd RD x idx) as FE. pose proof (od_ratios rd RD x idx) as FO.
    rewrite (Forall2_len _ _ _ FE). replace (Z.of_nat (length (evens_at x idx)) <? 6) with false by lia.
    assert (NE : map snd (ratios rd ds) <> []) by (apply Forall2_len in FE; destruct (ratios rd ds); cbn in *; [lia|discriminate]).
    assert (NO : map snd (ratios rd dos) <> []).
    { apply Forall2_len in FO. destruct (ratios rd dos); [|discriminate]. destruct (odds_at x idx); [congruence|discriminate]. }
    assert (PE' : Forall (fun q => (0 < q)%Q) (map snd (ratios rd ds))).
    { eapply Forall2_map_snd; [|exact FE|exact PE]. intros a b E P; now rewrite E. }
    assert (PO' : Forall (fun q => (0 < q)%Q) (map snd (ratios rd dos))).
    { eapply Forall2_map_snd; [|exact FO|exact PO]. intros a b E P; now rewrite E. }
    assert (PS : forall l, l <> [] -> Forall (fun q => (0 < q)%Q) l -> (0 < qsum l)%Q).
    { intros l N F. destruct l as [|q l]; [congruence|]. inversion_clear F as [|? ? F1 F2]. cbn [qsum fold_right]. fold (qsum l).
      assert (0 <= qsum l)%Q; [|lra]. clear - F2. induction F2 as [|p l P F IH]; cbn [qsum fold_right]; [lra|]. fold (qsum l). lra. }
    assert (MP : forall l m, l <> [] -> Forall (fun q => (0 < q)%Q) l -> (m * inject_Z (Z.of_nat (length l)) == qsum l)%Q -> (0 < m)%Q).
    { intros l m N F V. specialize (PS l N F). pose proof (len_pos l N) as P. rewrite <- V in PS.
      apply Qnot_le_lt. intros K. assert (m * inject_Z (Z.of_nat (length l)) <= 0)%Q by nra. lra. }
    destruct (mmean_ok rd RD _ NE) as (m & EM & VM). destruct (mspread_ok rd RD msqrt m _ NE) as (sp & ES).
    destruct (mmean_ok rd RD _ NO) as (o & EO & VO). destruct (mspread_ok rd RD msqrt o _ NO) as (so & ESO).
    assert (M0 : (0 < m)%Q) by (eapply MP; [exact NE|exact PE'|exact VM]).
    assert (O0 : (0 < o)%Q) by (eapply MP; [exact NO|exact PO'|exact VO]).
    destruct (mdiv_ok rd RD sp m) as (rp & ER & VR); [lra|]. destruct (mdiv_ok rd RD so o) as (ro & ERO & VRO); [lra|].
    exists m, o, rp, ro. rewrite EM. cbn [bind]. rewrite ES. cbn [bind]. rewrite EO. cbn [bind]. rewrite ESO. cbn [bind].
    rewrite ER. cbn [bind]. rewrite ERO. cbn [bind]. repeat (split; [first [assumption|reflexivity]|]).
    split; [eauto|]. split; [eauto|]. reflexivity.
  Qed.

  Lemma gap_nonneg i d : gap x i = Some d -> (0 <= d)%Q.
  Proof. unfold gap. destruct (x i) as [u|], (x (i + 2)) as [v|]; intros E; inversion E as [E']. apply (Qabs_nonneg (v - u)). Qed.
  Lemma shrink_pos i q : shrink x i = Some q -> (0 < q)%Q.
  Proof.
    unfold shrink. destruct (gap x i) as [d|] eqn:D; [|discriminate]. destruct (gap x (i + 2)) as [e|] eqn:E; [|discriminate].
    destruct (Qeq_bool d 0) eqn:B1; [discriminate|]. destruct (Qeq_bool e 0) eqn:B2; [discriminate|]. intros [= <-].
    apply gap_nonneg in D. apply gap_nonneg in E. apply Qeq_bool_neq in B1. apply Qeq_bool_neq in B2.
    apply Qlt_shift_div_l; [|rewrite Qmult_0_l]; apply Qnot_le_lt; intros K;
      [apply B2|apply B1]; apply Qle_antisym; assumption.
  Qed.
  Lemma somes_shrink_pos is : Forall (fun q => (0 < q)%Q) (somes (map (shrink x) is)).
  Proof.
    induction is as [|i is IH]; [constructor|]. cbn [map somes]. destruct (shrink x i) eqn:E; [|exact IH].
    constructor; [eapply shrink_pos; exact E|exact IH].
  Qed.
  Lemma evens_pos : Forall (fun q => (0 < q)%Q) (evens_at x idx). Proof. apply somes_shrink_pos. Qed.
  Lemma odds_pos : Forall (fun q => (0 < q)%Q) (odds_at x idx).
  Proof. unfold odds_at. rewrite <- map_map. apply somes_shrink_pos. Qed.

  Definition is_exp (t : atype) : Prop := t = ATExp \/ t = ATSuperExp.

  Lemma second_exp t0 low m o l1 l2 t p : t0 <> ATExp ->
    second_type rd msqrt flog linregress t0 low m o l1 l2 = Ok (t, p) -> is_exp t -> (exp_threshold < m)%Q /\ (exp_threshold < o)%Q.
  Proof.
    unfold second_type, is_exp. intros N E T.
    destruct (low || match t0 with ATSuperExp => true | _ => false end) eqn:B.
    - destruct (gtq m exp_threshold) eqn:G1, (gtq o exp_threshold) eqn:G2; cbn [xorb andb] in E.
      + apply gtq_spec in G1. apply gtq_spec in G2. auto.
      + injection E as <- <-. destruct T; discriminate.
      + injection E as <- <-. destruct T; discriminate.
      + destruct (poly_params flog linregress l1 l2); [|discriminate]. cbn [bind] in E. injection E as <- <-. destruct T; discriminate.
    - injection E as <- <-. apply orb_false_iff in B. destruct B as [_ B]. destruct T as [->| ->]; [congruence|discriminate].
  Qed.

  Lemma first_not_exp l1 l2 : ~ is_exp (first_type rd dps l1 l2) /\ first_type rd dps l1 l2 <> ATPoly /\ first_type rd dps l1 l2 <> ATMixed.
  Proof. unfold first_type, is_exp. destruct (xorb _ _); [|destruct (_ && _)]; repeat split; try intros [H|H]; discriminate. Qed.

  (** an answer of exp or super_exp needs a factor above the threshold in both subsequences *)
  Lemma exp_needs t p : cl = Ok (t, p) -> is_exp t ->
    (6 <= length (evens_at x idx))%nat /\ Exists (fun q => (exp_threshold < q)%Q) (evens_at x idx) /\
    Exists (fun q => (exp_threshold < q)%Q) (odds_at x idx).
  Proof.
    intros E T. destruct (Nat.lt_ge_cases (length (evens_at x idx)) 6) as [L|L].
    - rewrite few in E by exact L. injection E as E1 _. exfalso. subst t. exact (proj1 (first_not_exp _ _) T).
    - split; [exact L|]. destruct (odds_at x idx) as [|q0 l0] eqn:OE.
      + rewrite no_odd in E by assumption. discriminate.
      + rewrite <- OE in *. destruct (many L ltac:(congruence) evens_pos odds_pos) as (m & o & rp & ro & EM & EO & _ & _ & _ & _ & EC).
        rewrite EC in E. apply second_exp in E; [|destruct (_ || _); [destruct (tail_above_2 _ _); discriminate|]|exact T].
        2:{ intros H. apply (proj1 (first_not_exp (delta_pair rd (samples x idx)) (delta_odd rd (samples x idx)))). left. exact H. }
        destruct E as [E1 E2].
        split.
        * eapply Forall2_Exists; [|apply (ev_ratios rd RD x idx)|eapply (mean_gt_ex rd RD); [exact EM|exact E1]].
          intros a b Q P; now rewrite <- Q.
        * eapply Forall2_Exists; [|apply (od_ratios rd RD x idx)|eapply (mean_gt_ex rd RD); [exact EO|exact E2]].
          intros a b Q P; now rewrite <- Q.
  Qed.

  (** a factor of at most 11/10 everywhere *)
  Lemma small_never_exp t p : Forall (fun q => (q <= 11 # 10)%Q) (evens_at x idx) \/ Forall (fun q => (q <= 11 # 10)%Q) (odds_at x idx) ->
    cl = Ok (t, p) -> ~ is_exp t.
  Proof.
    intros F E T. destruct (exp_needs t p E T) as (_ & E1 & E2). destruct thr_val as [V _].
    destruct F as [F|F]; [apply Exists_exists in E1; destruct E1 as (q & I & Q)|apply Exists_exists in E2; destruct E2 as (q & I & Q)];
    rewrite Forall_forall in F; specialize (F q I); lra.
  Qed.

  Lemma fast_means t p : cl = Ok (t, p) -> t = ATFast ->
    p = APNone /\ (length (evens_at x idx) < 6)%nat /\ diminishes rd dps ds = true /\ diminishes rd dps dos = true.
  Proof.
    intros E T. destruct (Nat.lt_ge_cases (length (evens_at x idx)) 6) as [L|L].
    - rewrite few in E by exact L. injection E as E1 E2. subst. split; [reflexivity|]. split; [exact L|].
      unfold first_type in *. destruct (diminishes rd dps ds), (diminishes rd dps dos); cbn in *; try discriminate. auto.
    - exfalso. destruct (odds_at x idx) as [|q0 l0] eqn:OE.
      + rewrite no_odd in E by assumption. discriminate.
      + destruct (many L ltac:(congruence) evens_pos odds_pos) as (m & o & rp & ro & _ & _ & _ & _ & _ & _ & EC).
        rewrite EC in E. subst t. unfold second_type in E.
        assert (B : Qle_bool ro half_f && Qle_bool rp half_f = negb (gtq rp half_f || gtq ro half_f)).
        { unfold gtq. destruct (Qle_bool ro half_f), (Qle_bool rp half_f); reflexivity. }
        rewrite B in E. destruct (gtq rp half_f || gtq ro half_f); cbn [negb orb] in E.
        * destruct (tail_above_2 _ _); cbn [xorb andb orb negb bind] in E; [|discriminate].
          destruct (gtq m exp_threshold), (gtq o exp_threshold); cbn [xorb andb orb negb bind] in E; try discriminate.
          -- destruct (exp_params _ _ _ _ _ _) in E; cbn [xorb andb orb negb bind] in E; discriminate.
          -- destruct (poly_params _ _ _ _) in E; cbn [xorb andb orb negb bind] in E; discriminate.
        * destruct (gtq m exp_threshold), (gtq o exp_threshold); cbn [xorb andb orb negb bind] in E; try discriminate.
          -- destruct (exp_params _ _ _ _ _ _) in E; [|discriminate]. cbn [xorb andb orb negb bind] in E. destruct (first_type _ _ _ _); discriminate.
          -- destruct (poly_params _ _ _ _) in E; cbn [xorb andb orb negb bind] in E; discriminate.
  Qed.
End Decide.

(** a polynomial classification needs logarithms of all positions and differences (any rounding, any samples) *)
Lemma poly_needs rd dps msqrt flog linregress s t p :
  classify rd dps msqrt flog linregress s = Ok (t, p) -> t = ATPoly ->
  Forall (fun q => 0 < fst q /\ (forall d, snd q = Fin d -> (0 < d)%Q)) (delta_pair rd s ++ delta_odd rd s).
Proof.
  intros E ->.
  assert (G : forall t0 low m o l1 l2 p, second_type rd msqrt flog linregress t0 low m o l1 l2 = Ok (ATPoly, p) -> t0 <> ATPoly ->
    Forall (fun q => 0 < fst q /\ (forall d, snd q = Fin d -> (0 < d)%Q)) (l1 ++ l2)).
  { clear. intros t0 low m o l1 l2 p E N. unfold second_type in E. destruct (_ || _); [|injection E as E1 _; congruence].
    destruct (gtq m exp_threshold), (gtq o exp_threshold); cbn [xorb andb orb negb bind] in E; try discriminate.
    - destruct (exp_params _ _ _ _ _ _) in E; [|discriminate]. cbn [xorb andb orb negb bind] in E. destruct t0; discriminate.
    - destruct (poly_params flog linregress l1 l2) as [ps|] eqn:P; [|discriminate]. unfold poly_params in P.
      assert (R : forall l r, regress flog linregress l = Ok r -> Forall (fun q => 0 < fst q /\ (forall d, snd q = Fin d -> (0 < d)%Q)) l).
      { clear. intros l r E. unfold regress in E.
        destruct (mapM (fun p => log_int flog (fst p)) l) as [lx|] eqn:E1; [|discriminate]. cbn [bind] in E.
        destruct (mapM (fun p => log_mpf flog (snd p)) l) as [ly|] eqn:E2; [|discriminate]. clear E.
        revert lx ly E1 E2. induction l as [|[i d] l IH]; intros lx ly E1 E2; [constructor|]. cbn [mapM fst snd] in *.
        destruct (log_int flog i) as [li|] eqn:LI; [|discriminate]. cbn [bind] in E1.
        destruct (log_mpf flog d) as [ld|] eqn:LD; [|discriminate]. cbn [bind] in E2.
        destruct (mapM (fun p => log_int flog (fst p)) l) as [lx'|]; [|discriminate].
        destruct (mapM (fun p => log_mpf flog (snd p)) l) as [ly'|]; [|discriminate].
        constructor; [|eapply IH; reflexivity]. cbn [fst snd]. split.
        - unfold log_int in LI. destruct (Z.leb_spec i 0); [discriminate|lia].
        - intros q ->. unfold log_mpf in LD. destruct (Qle_bool q (Qpower (2 # 1) (-1075))) eqn:B; [discriminate|].
          apply not_true_iff_false in B. rewrite Qle_bool_iff in B. apply Qnot_le_lt in B.
          eapply Qle_lt_trans; [|exact B]. apply Qpower.Qpower_0_le. discriminate. }
      destruct (regress flog linregress l1) as [[[s1 i1] r1]|] eqn:R1; [|discriminate]. cbn [bind] in P.
      destruct (regress flog linregress l2) as [[[s2 i2] r2]|] eqn:R2; [|discriminate].
      apply Forall_app. split; eapply R; eassumption. }
  unfold classify in E. cbv zeta in E.
  assert (N0 : first_type rd dps (delta_pair rd s) (delta_odd rd s) <> ATPoly).
  { unfold first_type. destruct (xorb _ _); [|destruct (_ && _)]; discriminate. }
  destruct (Z.of_nat (length (ratios rd (delta_pair rd s))) <? 6); [injection E as E1 _; congruence|].
  destruct (mmean rd _) as [m|] in E; [|discriminate]. cbn [bind] in E.
  destruct (mspread rd msqrt m _) as [sp|] in E; [|discriminate]. cbn [bind] in E.
  destruct (mmean rd _) as [o|] in E; [|discriminate]. cbn [bind] in E.
  destruct (mspread rd msqrt o _) as [so|] in E; [|discriminate]. cbn [bind] in E.
  destruct (mdiv rd sp m) as [rp|] in E; [|discriminate]. cbn [bind] in E.
  destruct (mdiv rd so o) as [ro|] in E; [|discriminate]. cbn [bind] in E.
  apply G in E; [exact E|]. destruct (_ || _); [destruct (tail_above_2 _ _); discriminate|exact N0].
Qed.

(** The stored results: convergents and limits. *)
From Coq Require Import String ZArith QArith Qabs List Bool Lia Lqa.
From Coq Require Reals Qreals Lra.
From Verif Require Import PyBase PyBase_Proofs Spec_Utils ContFrac_Model Spec_ContFrac ContFrac_Proofs Errors_Proofs OldResults_Model.
From Verif Require CF_Limits CF_Old Spec_OldResults.
Import ListNotations.
Local Open Scope Z_scope.

(** ---- the convergents exist ---- *)
(** the tail that begins with a_k is at least k *)
Lemma tail_low a b : (forall k, 1 <= k -> k <= icoef a k /\ (0 <= icoef b (k + 1) \/ 0 <= icoef b (k + 1) + (icoef a k - k) * (k + 1))) ->
  forall j k, (1 <= k)%nat -> exists v, nested (inject_Z (icoef a (Z.of_nat k))) (toQ (icoefs a b (map Z.of_nat (seq (S k) j)))) = Some v /\ (inject_Z (Z.of_nat k) <= v)%Q.
Proof.
  intros H. induction j as [|j IH]; intros k Hk; destruct (H (Z.of_nat k) ltac:(lia)) as [A B].
  - eexists. split; [reflexivity|]. rewrite <- Zle_Qle. lia.
  - destruct (IH (S k) ltac:(lia)) as (v & E & V). unfold icoefs, toQ in *. cbn [seq map nested]. rewrite E.
    assert (P : (0 < v)%Q) by (eapply Qlt_le_trans; [|exact V]; apply injZ_pos; lia).
    assert (Z0 : Qeq_bool v 0 = false) by (destruct (Qeq_bool v 0) eqn:F; [apply Qeq_bool_eq in F; rewrite F in P; discriminate P|reflexivity]).
    rewrite Z0. eexists. split; [reflexivity|]. replace (Z.of_nat (S k)) with (Z.of_nat k + 1) in * by lia.
    set (x := icoef a (Z.of_nat k)) in *. set (y := icoef b (Z.of_nat k + 1)) in *. set (z := Z.of_nat k) in *.
    assert (D : (inject_Z (z - x) <= inject_Z y / v)%Q).
    { apply Qle_shift_div_l; [exact P|]. destruct B as [B|B].
      - assert (inject_Z (z - x) <= 0)%Q by (change 0%Q with (inject_Z 0); rewrite <- Zle_Qle; lia). assert (0 <= inject_Z y)%Q by (change 0%Q with (inject_Z 0); rewrite <- Zle_Qle; lia). nra.
      - apply Qle_trans with (inject_Z (z - x) * inject_Z (z + 1))%Q.
        + assert (inject_Z (z - x) <= 0)%Q by (change 0%Q with (inject_Z 0); rewrite <- Zle_Qle; lia). nra.
        + rewrite <- inject_Z_mult, <- Zle_Qle. lia. }
    replace z with (x + (z - x)) at 1 by ring. rewrite inject_Z_plus. lra.
Qed.
Lemma conv_exists a b n : (forall k, 1 <= k -> k <= icoef a k /\ (0 <= icoef b (k + 1) \/ 0 <= icoef b (k + 1) + (icoef a k - k) * (k + 1))) ->
  exists v, nested (inject_Z (icoef a 0)) (toQ (icoefs a b (map Z.of_nat (seq 1 n)))) = Some v.
Proof.
  intros H. destruct n as [|n]; [eexists; reflexivity|]. destruct (tail_low a b H n 1 ltac:(lia)) as (v & E & V). unfold icoefs, toQ in *. cbn [seq map nested].
  change (Z.of_nat 1) with 1 in *. rewrite E.
  assert (P : (0 < v)%Q) by (eapply Qlt_le_trans; [|exact V]; reflexivity).
  assert (Z0 : Qeq_bool v 0 = false) by (destruct (Qeq_bool v 0) eqn:F; [apply Qeq_bool_eq in F; rewrite F in P; discriminate P|reflexivity]).
  rewrite Z0. eexists. reflexivity.
Qed.
(** a multiplied by s, and b by the square of s *)
Lemma nested_scale (s : Q) : ~ (s == 0)%Q -> forall l a0 a0' v, (a0' == s * a0)%Q -> nested a0 l = Some v ->
  forall l', Forall2 (fun e e' => (fst e' == s * fst e)%Q /\ (snd e' == s * s * snd e)%Q) l l' -> exists v', nested a0' l' = Some v' /\ (v' == s * v)%Q.
Proof.
  intros Ns. induction l as [|[a1 b1] r IH]; intros a0 a0' v E0 H l' F; inversion F as [|? [a1' b1'] ? r' [E1 E2] F']; subst; cbn [nested fst snd] in *.
  - injection H as <-. eexists. split; [reflexivity|exact E0].
  - destruct (nested a1 r) as [t|] eqn:N; [|discriminate]. destruct (Qeq_bool t 0) eqn:Z0; [discriminate|]. injection H as <-.
    destruct (IH a1 a1' t E1 N r' F') as (t' & Nt & Et). rewrite Nt. apply Qeq_bool_neq in Z0.
    assert (NZ : ~ (t' == 0)%Q) by (rewrite Et; intros G; apply Qmult_integral in G; tauto).
    destruct (Qeq_bool t' 0) eqn:Z1; [apply Qeq_bool_eq in Z1; contradiction|]. eexists. split; [reflexivity|]. rewrite E0, E2, Et. field. auto.
Qed.
Lemma poly_scale s p i : poly_val (map (Z.mul s) p) i = s * poly_val p i.
Proof. induction p as [|c p IH]; cbn [map poly_val]; [ring|]. rewrite IH. ring. Qed.

Import Reals Qreals Lra Spec_OldResults CF_Old.
Local Open Scope R_scope.
Lemma value_scale s a b K : s <> 0%Z -> value_of a b K -> value_of (map (Z.mul s) a) (map (Z.mul (s * s)) b) (IZR s * K).
Proof.
  intros Ns (V & HV & C). assert (NQ : ~ (inject_Z s == 0)%Q) by (unfold Qeq; cbn; lia).
  assert (X : forall n, exists v', convergent (map (Z.mul s) a) (map (Z.mul (s * s)) b) n = Some v' /\ (v' == inject_Z s * V n)%Q).
  { intros n. specialize (HV n). unfold convergent in *. refine (nested_scale (inject_Z s) NQ _ _ _ _ _ HV _ _).
    - rewrite !icoef_one, poly_scale, inject_Z_mult. reflexivity.
    - unfold toQ, icoefs. rewrite !map_map. clear HV. induction (seq 1 n) as [|i l IH]; cbn [map]; constructor; [|exact IH]. cbn [fst snd]. rewrite !icoef_one, !poly_scale, !inject_Z_mult. split; reflexivity. }
  exists (fun n => match convergent (map (Z.mul s) a) (map (Z.mul (s * s)) b) n with Some v => v | None => 0%Q end). split.
  - intros n. destruct (X n) as (v & -> & _). reflexivity.
  - apply (cv_ext (fun n => IZR s * Q2R (V n))); [|apply CV_mult; [apply cv_const|exact C]].
    intros n. destruct (X n) as (v & -> & E). rewrite (Qeq_eqR _ _ E), Q2R_mult. f_equal. unfold Q2R. cbn. field.
Qed.
Definition oP (a b : list Z) (n : nat) : R := IZR (nth_P [a] [b] n).
Definition oQ (a b : list Z) (n : nat) : R := IZR (nth_Q [a] [b] n).
Lemma old_R a b n v : convergent a b n = Some v -> Q2R v = oP a b n / oQ a b n.
Proof.
  intros E. destruct (nested_cont _ _ _ E) as [Nq Ev]. rewrite (Qeq_eqR _ _ Ev), Q2R_div.
  - unfold oP, oQ, nth_P, nth_Q, Q2R. cbn. field. apply not_0_IZR. exact Nq.
  - intros G. apply Nq. unfold Qeq in G. cbn in G. lia.
Qed.
Lemma old_convs a b A B : (forall n, IZR (poly_val a (Z.of_nat n)) = A n) -> (forall n, IZR (poly_val b (Z.of_nat n)) = B n) -> convs A B (oP a b) (oQ a b).
Proof.
  intros HA HB. unfold convs, oP, oQ. rewrite <- !HA, <- !HB. unfold nth_P, nth_Q, contP, contQ, icoefs. cbn [seq map cont_xy fst snd]. rewrite !icoef_one. change (Z.of_nat 0) with 0%Z. change (Z.of_nat 1) with 1%Z.
  repeat split; try (rewrite <- ?mult_IZR, <- ?plus_IZR; apply f_equal; ring).
  - intros n. destruct (nth_PQ_rec [a] [b] n) as [E _]. unfold nth_P, contP, icoefs in E. rewrite <- !HA, <- !HB. rewrite !icoef_one in E. rewrite <- !mult_IZR, <- plus_IZR. apply f_equal. exact E.
  - intros n. destruct (nth_PQ_rec [a] [b] n) as [_ E]. unfold nth_Q, contQ, icoefs in E. rewrite <- !HA, <- !HB. rewrite !icoef_one in E. rewrite <- !mult_IZR, <- plus_IZR. apply f_equal. exact E.
Qed.
Lemma value_base a b A B K :
  (forall k, (1 <= k)%Z -> (k <= poly_val a k /\ (0 <= poly_val b (k + 1) \/ 0 <= poly_val b (k + 1) + (poly_val a k - k) * (k + 1)))%Z) ->
  (forall n, IZR (poly_val a (Z.of_nat n)) = A n) -> (forall n, IZR (poly_val b (Z.of_nat n)) = B n) ->
  (forall p q, convs A B p q -> Un_cv (fun n => p n / q n) K) -> value_of a b K.
Proof.
  intros H HA HB HC.
  assert (X : forall n, exists v, convergent a b n = Some v) by (intros n; apply conv_exists; intros k Hk; rewrite !icoef_one; apply H; exact Hk).
  exists (fun n => match convergent a b n with Some v => v | None => 0%Q end). split.
  - intros n. destruct (X n) as (v & ->). reflexivity.
  - apply (cv_ext (fun n => oP a b n / oQ a b n)); [|apply HC, old_convs; assumption]. intros n. destruct (X n) as (v & E). rewrite E. symmetry. apply old_R. exact E.
Qed.
Ltac vb C := eapply value_base; [intros k Hk; cbn [poly_val]; split; [nia|first [left; nia|right; nia]]| | |exact C];
  intros n; cbn [poly_val]; repeat (rewrite plus_IZR || rewrite mult_IZR); rewrite <- ?INR_IZR_INZ; ring.

(** The fractions up to a common factor of a (whose square b has), and their limits (alpha + beta x)/(gamma + delta x);
    true: x is pi, false: x is e. *)
Definition bases : list (list Z * list Z * bool * (Z * Z * Z * Z)) :=
  [([3; 1; 0], [0; -1; 0], false, (0, 1, 1, 0)); ([1; 1; 0], [0; 1; 0], false, (1, 0, -2, 1)); ([0; 1; 0], [0; 1; 0], false, (1, 0, -1, 1));
   ([1; 1; 0], [1; 1; 0], false, (-1, 1, 1, 0)); ([2; 1; 0], [2; 1; 0], false, (2, 0, -2, 1)); ([-1; 2; 4], [0; 6; -4], false, (1, 0, 1, -1));
   ([1; 2; 0], [0; 0; 1], true, (4, 0, 0, 1)); ([1; 3; 0], [0; 3; -2], true, (4, 0, 0, 1)); ([1; 3; 0], [0; 1; -2], true, (2, 0, 0, 1));
   ([2; 3; 0], [0; 1; -2], true, (2, 0, -2, 1)); ([3; 3; 0], [1; -1; -2], true, (2, 1, 2, 0)); ([3; 2; 0], [0; 2; 1], true, (4, 0, -2, 1));
   ([-1; 3; 0], [0; 3; -2], true, (-2, 0, 4, 1)); ([0; 3; 0], [0; 3; -2], true, (2, 0, 2, 1))]%Z.
Definition kx (k : bool) : R := if k then PI else exp 1.
Definition mob (m : Z * Z * Z * Z) (x : R) : R := let '(al, be, ga, de) := m in (IZR al + IZR be * x) / (IZR ga + IZR de * x).
Lemma e_bounds : 2 < exp 1.
Proof. exact CF_Limits.e_gt2. Qed.
Ltac vbE C := pose proof e_bounds; eapply eq_rect; [vb C|cbn [mob kx]; rewrite ?exp_m1; field; repeat split; lra].
Ltac vbP C := pose proof PI_gt2; eapply eq_rect; [vb C|cbn [mob kx]; field; repeat split; lra].
Lemma bases_ok a b k m : In (a, b, k, m) bases -> value_of a b (mob m (kx k)) /\ (let '(al, be, ga, de) := m in IZR al + IZR be * kx k <> 0 /\ IZR ga + IZR de * kx k <> 0).
Proof.
  pose proof e_bounds. pose proof PI_gt2. intros I. unfold bases in I.
  split; [|repeat (destruct I as [I|I]; [injection I as <- <- <- <-; cbn [kx]; lra|]); destruct I].
  destruct I as [I|I]; [injection I as <- <- <- <-; vbE E1_cv|].
  destruct I as [I|I]; [injection I as <- <- <- <-; vbE E4_cv|].
  destruct I as [I|I]; [injection I as <- <- <- <-; vbE E6_cv|].
  destruct I as [I|I]; [injection I as <- <- <- <-; vbE E5_cv|].
  destruct I as [I|I]; [injection I as <- <- <- <-; vbE E3_cv|].
  destruct I as [I|I]; [injection I as <- <- <- <-; vbE E7_cv|].
  destruct I as [I|I]; [injection I as <- <- <- <-; vbP P1_cv|].
  destruct I as [I|I]; [injection I as <- <- <- <-; vbP P2_cv|].
  destruct I as [I|I]; [injection I as <- <- <- <-; vbP P3_cv|].
  destruct I as [I|I]; [injection I as <- <- <- <-; vbP P4_cv|].
  destruct I as [I|I]; [injection I as <- <- <- <-; vbP P5_cv|].
  destruct I as [I|I]; [injection I as <- <- <- <-; vbP P6_cv|].
  destruct I as [I|I]; [injection I as <- <- <- <-; vbP P7_cv|].
  destruct I as [I|I]; [injection I as <- <- <- <-; vbP P8_cv|].
  destruct I.
Qed.

(** ---- a check of the rows ---- *)
Local Open Scope Z_scope.
Definition zlist_eqb (p q : list Z) : bool := if list_eq_dec Z.eq_dec p q then true else false.
Definition find_base (a b : list Z) : option (Z * bool * (Z * Z * Z * Z)) :=
  match find (fun e => let '(a0, b0, _, _, s) := e in zlist_eqb a (map (Z.mul s) a0) && zlist_eqb b (map (Z.mul (s * s)) b0)) (list_prod bases [1; -1; -2]) with
  | Some (_, _, k, m, s) => Some (s, k, m)
  | None => None
  end.
Lemma zlist_eqb_eq p q : zlist_eqb p q = true -> p = q.
Proof. unfold zlist_eqb. destruct (list_eq_dec Z.eq_dec p q); [auto|discriminate]. Qed.
Lemma find_base_ok a b s k m : find_base a b = Some (s, k, m) -> exists a0 b0, In (a0, b0, k, m) bases /\ s <> 0 /\ a = map (Z.mul s) a0 /\ b = map (Z.mul (s * s)) b0.
Proof.
  unfold find_base. destruct (find _ _) as [[[[[a0 b0] k'] m'] s']|] eqn:F; [|discriminate]. intros H. injection H as -> -> ->.
  apply find_some in F. destruct F as [I E]. apply andb_true_iff in E. destruct E as [E1 E2]. apply zlist_eqb_eq in E1, E2. apply in_prod_iff in I. destruct I as [I S].
  exists a0, b0. split; [exact I|]. split; [|split; assumption]. destruct S as [<-|[<-|[<-|[]]]]; discriminate.
Qed.
Definition is_inv (f : string) : bool := String.eqb f "safe_inverse" || String.eqb f "1/x".
Definition row_ok (t f : string) (r : stored_row) : bool :=
  match find_base (sr_a r) (sr_b r) with
  | None => false
  | Some (s, k, (al, be, ga, de)) =>
      let l := sr_l r in let c := sr_c r in let d := sr_d r in
      (sr_u r =? 0) && negb (l =? 0) && negb (d =? 0) &&
      (if String.eqb t "pi" && k || String.eqb t "e" && negb k then
         if is_inv f then (ga * l * d =? c * l * s * al) && (de * l * d =? s * al + c * l * s * be) && (s * be =? 0)
         else if String.eqb f "lambda x: x" then (s * al * l * d =? c * l * ga) && (s * be * l * d =? ga + c * l * de) && (de =? 0)
         else false
       else
         let m := if String.eqb f "lambda x: dec_sin(2*safe_inverse(x)/9)" then 1 else if String.eqb f "lambda x: 2*dec_sin(2*safe_inverse(x)/9)" then 2 else 0 in
         let g := Z.sgn (s * al * de) in
         k && (be =? 0) && (ga =? 0) && negb (al =? 0) && negb (de =? 0) && negb (m =? 0) && (4 * de =? g * s * al) &&
         (if String.eqb t "percolation, 0" then (1 + c * l =? 0) && (m * g * l * d =? -2)
          else if String.eqb t "percolation, 1" then (c =? 0) && (m * g * l * d =? 2) else false))
  end.
Local Open Scope R_scope.
Ltac zeqs := repeat match goal with
  | H : (_ && _)%bool = true |- _ => apply andb_true_iff in H; destruct H
  | H : (_ =? _)%Z = true |- _ => apply Z.eqb_eq in H
  | H : negb (_ =? _)%Z = true |- _ => apply negb_true_iff in H; apply Z.eqb_neq in H
  end.
Ltac toR H := apply (f_equal IZR) in H; repeat (rewrite plus_IZR in H || rewrite mult_IZR in H).
Lemma ulcd0 l c d x : ulcd_R 0 l c d x = (x / IZR l + IZR c) / IZR d.
Proof. unfold ulcd_R, Rdiv. ring. Qed.
Lemma row_sound t f r : row_ok t f r = true ->
  exists g x K, func_of f = Some g /\ const_of_name t = Some x /\ value_of (sr_a r) (sr_b r) K /\ K <> 0 /\ g K = ulcd_R (sr_u r) (sr_l r) (sr_c r) (sr_d r) x.
Proof.
  unfold row_ok. destruct (find_base (sr_a r) (sr_b r)) as [[[s k] [[[al be] ga] de]]|] eqn:F; [|discriminate].
  destruct (find_base_ok _ _ _ _ _ F) as (a0 & b0 & I & Ns & Ea & Eb). destruct (bases_ok _ _ _ _ I) as [V [N1 N2]].
  pose proof (value_scale s a0 b0 _ Ns V) as VS. rewrite <- Ea, <- Eb in VS. clear V I F Ea Eb.
  cbv zeta. destruct r as [a b i u l c d]. cbn [sr_a sr_b sr_func sr_u sr_l sr_c sr_d] in *. intros H. apply andb_true_iff in H. destruct H as [H0 H]. zeqs. subst u.
  assert (Sr : IZR s <> 0) by (apply not_0_IZR; assumption). assert (Lr : IZR l <> 0) by (apply not_0_IZR; assumption). assert (Dr : IZR d <> 0) by (apply not_0_IZR; assumption).
  assert (KN : IZR s * mob (al, be, ga, de) (kx k) <> 0).
  { cbn [mob]. apply Rmult_integral_contrapositive_currified; [exact Sr|]. apply Rmult_integral_contrapositive_currified; [exact N1|apply Rinv_neq_0_compat; exact N2]. }
  destruct (String.eqb t "pi" && k || String.eqb t "e" && negb k)%bool eqn:T.
  - assert (X : const_of_name t = Some (kx k)).
    { apply orb_true_iff in T. destruct T as [T|T]; apply andb_true_iff in T; destruct T as [T1 T2]; apply String.eqb_eq in T1; subst t; destruct k; try discriminate T2; reflexivity. }
    set (x := kx k) in *. clearbody x. destruct (is_inv f) eqn:FI.
    + exists (fun y => / y), x, (IZR s * mob (al, be, ga, de) x).
      split; [unfold is_inv in FI; apply orb_true_iff in FI; destruct FI as [FI|FI]; apply String.eqb_eq in FI; subst f; reflexivity|].
      split; [exact X|]. split; [exact VS|]. split; [exact KN|]. zeqs. rename H into A1. rename H3 into A2. rename H0 into A3. toR A1. toR A2. toR A3.
      cbn [mob].
      assert (Z3 : IZR be = 0) by (destruct (Rmult_integral _ _ A3); [contradiction|assumption]). rewrite Z3 in *.
      assert (N1' : IZR al <> 0) by (intros E; apply N1; rewrite E; ring).
      rewrite ulcd0.
      apply Rmult_eq_reg_r with (IZR s * IZR al * (IZR l * IZR d)); [|repeat apply Rmult_integral_contrapositive_currified; assumption].
      replace (/ (IZR s * ((IZR al + 0 * x) / (IZR ga + IZR de * x))) * (IZR s * IZR al * (IZR l * IZR d))) with ((IZR ga + IZR de * x) * (IZR l * IZR d)) by (field; repeat split; try assumption; ring_simplify; assumption).
      replace ((x / IZR l + IZR c) / IZR d * (IZR s * IZR al * (IZR l * IZR d))) with ((x + IZR c * IZR l) * (IZR s * IZR al)) by (field; auto). transitivity (IZR ga * IZR l * IZR d + IZR de * IZR l * IZR d * x); [ring|]. rewrite A1, A2. ring.
    + destruct (String.eqb f "lambda x: x") eqn:FX; [|discriminate]. apply String.eqb_eq in FX. subst f.
      exists (fun y => y), x, (IZR s * mob (al, be, ga, de) x). split; [reflexivity|]. split; [exact X|]. split; [exact VS|]. split; [exact KN|]. zeqs. rename H into A1. rename H3 into A2. subst de. toR A1. toR A2. cbn [mob].
      assert (N2' : IZR ga <> 0) by (intros E; apply N2; rewrite E; ring).
      rewrite ulcd0.
      apply Rmult_eq_reg_r with (IZR ga * (IZR l * IZR d)); [|repeat apply Rmult_integral_contrapositive_currified; assumption].
      replace (IZR s * ((IZR al + IZR be * x) / (IZR ga + 0 * x)) * (IZR ga * (IZR l * IZR d))) with (IZR s * (IZR al + IZR be * x) * (IZR l * IZR d)) by (field; repeat split; try assumption; ring_simplify; assumption).
      replace ((x / IZR l + IZR c) / IZR d * (IZR ga * (IZR l * IZR d))) with ((x + IZR c * IZR l) * IZR ga) by (field; auto). transitivity (IZR s * IZR al * IZR l * IZR d + IZR s * IZR be * IZR l * IZR d * x); [ring|]. rewrite A1, A2. ring.
  - set (m := if String.eqb f "lambda x: dec_sin(2*safe_inverse(x)/9)" then 1%Z else if String.eqb f "lambda x: 2*dec_sin(2*safe_inverse(x)/9)" then 2%Z else 0%Z) in *.
    set (g := Z.sgn (s * al * de)) in *. apply andb_true_iff in H. destruct H as [H HT]. zeqs. subst be ga. destruct k; [|discriminate].
    assert (Ar : IZR al <> 0) by (apply not_0_IZR; assumption). assert (Er : IZR de <> 0) by (apply not_0_IZR; assumption). pose proof PI_RGT_0 as PI0.
    assert (G : g = 1%Z \/ g = (-1)%Z) by (unfold g; destruct (Z.sgn_spec (s * al * de)) as [[_ ->]|[[E _]|[_ ->]]]; [now left|nia|now right]). clearbody g.
    assert (FM : exists h, func_of f = Some h /\ forall K, h K = IZR m * sin (2 * / K / 9)).
    { unfold m in *. destruct (String.eqb f "lambda x: dec_sin(2*safe_inverse(x)/9)") eqn:F1; [apply String.eqb_eq in F1; subst f; eexists; split; [reflexivity|]; intros K; cbn beta; ring|].
      destruct (String.eqb f "lambda x: 2*dec_sin(2*safe_inverse(x)/9)") eqn:F2; [apply String.eqb_eq in F2; subst f; eexists; split; [reflexivity|]; intros K; cbn beta; ring|]. congruence. }
    destruct FM as (h & FH & HH). clearbody m. match goal with E : (4 * de = _)%Z |- _ => toR E; rename E into E4 end.
    assert (SG : sin (2 * / (IZR s * mob (al, 0, 0, de)%Z (kx true)) / 9) = IZR g * sin (PI / 18)).
    { cbn [mob kx]. assert (G2 : IZR g * IZR g = 1) by (destruct G as [-> | ->]; cbn; ring).
      replace (2 * / (IZR s * ((IZR al + 0 * PI) / (0 + IZR de * PI))) / 9) with (IZR g * (PI / 18)).
      - destruct G as [-> | ->]; [rewrite !Rmult_1_l; reflexivity|]. replace (-1 * (PI / 18)) with (- (PI / 18)) by ring. rewrite sin_neg. ring.
      - assert (Gn : IZR g <> 0) by (destruct G as [-> | ->]; cbn; lra). replace (2 * / (IZR s * ((IZR al + 0 * PI) / (0 + IZR de * PI))) / 9) with (4 * IZR de * PI / (18 * (IZR s * IZR al))) by (field; repeat split; try assumption; try lra; try (ring_simplify; apply Rmult_integral_contrapositive_currified; lra); ring_simplify; lra).
        rewrite E4. field. auto. }
    exists h. destruct (String.eqb t "percolation, 0") eqn:T0; [|destruct (String.eqb t "percolation, 1") eqn:T1; [|discriminate]].
    + apply String.eqb_eq in T0. subst t. exists (1 - 2 * sin (PI / 18)), (IZR s * mob (al, 0, 0, de)%Z (kx true)).
      split; [exact FH|]. split; [reflexivity|]. split; [exact VS|]. split; [exact KN|]. rewrite HH, SG. zeqs. match goal with E : (1 + c * l = 0)%Z, E' : (m * g * l * d = -2)%Z |- _ => rename E into A1; rename E' into A2 end. toR A1. toR A2.
      rewrite ulcd0. apply Rmult_eq_reg_r with (IZR l * IZR d); [|apply Rmult_integral_contrapositive_currified; assumption].
      replace (((1 - 2 * sin (PI / 18)) / IZR l + IZR c) / IZR d * (IZR l * IZR d)) with ((1 + IZR c * IZR l) - 2 * sin (PI / 18)) by (field; auto). rewrite A1.
      replace (IZR m * (IZR g * sin (PI / 18)) * (IZR l * IZR d)) with (IZR m * IZR g * IZR l * IZR d * sin (PI / 18)) by ring. rewrite A2. ring.
    + apply String.eqb_eq in T1. subst t. exists (2 * sin (PI / 18)), (IZR s * mob (al, 0, 0, de)%Z (kx true)).
      split; [exact FH|]. split; [reflexivity|]. split; [exact VS|]. split; [exact KN|]. rewrite HH, SG. zeqs. subst c. match goal with E' : (m * g * l * d = 2)%Z |- _ => rename E' into A2 end. toR A2.
      rewrite ulcd0. apply Rmult_eq_reg_r with (IZR l * IZR d); [|apply Rmult_integral_contrapositive_currified; assumption].
      replace ((2 * sin (PI / 18) / IZR l + 0) / IZR d * (IZR l * IZR d)) with (2 * sin (PI / 18)) by (field; auto).
      replace (IZR m * (IZR g * sin (PI / 18)) * (IZR l * IZR d)) with (IZR m * IZR g * IZR l * IZR d * sin (PI / 18)) by ring. rewrite A2. ring.
Qed.
Local Open Scope Z_scope.
Definition file_ok (f : stored_file) : bool :=
  forallb (fun r => (0 <=? sr_func r) && match nth_error (sf_funcs f) (Z.to_nat (sr_func r)) with Some name => row_ok (sf_target f) name r | None => false end) (sf_rows f).
Lemma files_ok : forallb file_ok stored_files = true.
Proof. vm_compute. reflexivity. Qed.

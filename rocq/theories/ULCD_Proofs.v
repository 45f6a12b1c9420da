(** Proofs about the ULCD left-hand sides. *)
From Coq Require Import Ascii String ZArith QArith Qabs List Bool Lia Lqa Qfield.
From Verif Require Import PyBase PyBase_Proofs Rnd Rnd_Proofs ContFrac_Model Hashtable_Model Spec_Utils Spec_ContFrac ULCD_Model Spec_ULCD.
Import ListNotations.
Local Open Scope Z_scope.
Local Open Scope res_scope.
Local Open Scope list_scope.

Lemma injZ0 z : (inject_Z z == 0)%Q <-> z = 0.
Proof. unfold Qeq, inject_Z; cbn. lia. Qed.
Lemma Qeq_bool_false a b : Qeq_bool a b = false <-> ~ (a == b)%Q.
Proof.
  split. apply Qeq_bool_neq. intros H. destruct (Qeq_bool a b) eqn:E; [|reflexivity].
  apply Qeq_bool_iff in E. contradiction.
Qed.

Lemma last_cons_default {A} (y : A) ys d d' : last (y :: ys) d = last (y :: ys) d'.
Proof. revert y. induction ys as [|z zs IH]; intros y; [reflexivity|]. change (last (z :: zs) d = last (z :: zs) d'). apply IH. Qed.

Section Calc.
  Variable rd : Q -> Q.

  Lemma div_r_ok a b v : div_r rd a b = Ok v <-> ~ (b == 0)%Q /\ v = rd (a / b)%Q.
  Proof.
    unfold div_r. destruct (Qeq_bool b 0) eqn:E.
    - apply Qeq_bool_iff in E. split; [discriminate|tauto].
    - apply Qeq_bool_false in E. split; [intros [= <-]; auto|intros [_ ->]; reflexivity].
  Qed.

  Definition ulcd_rval (x : Q) (p : Z * Z * Z * Z) : Q :=
    let '(u, l, c, d) := p in
    rd (rd (rd (rd (inject_Z u / x) + rd (x / inject_Z l)) + inject_Z c) / inject_Z d)%Q.

  Lemma ulcd_calc_ok x p v : ulcd_calc rd x p = Ok v <-> ulcd_defined p x /\ v = ulcd_rval x p.
  Proof.
    destruct p as [[[u l] c] d]. unfold ulcd_calc, ulcd_defined, ulcd_rval, div_r.
    destruct (Qeq_bool x 0) eqn:E; cbn [bind].
    { apply Qeq_bool_iff in E. split; [discriminate|tauto]. }
    apply Qeq_bool_false in E.
    destruct (Qeq_bool (inject_Z l) 0) eqn:E1; cbn [bind].
    { apply Qeq_bool_iff in E1; rewrite injZ0 in E1. split; [discriminate|tauto]. }
    apply Qeq_bool_false in E1. rewrite injZ0 in E1.
    destruct (Qeq_bool (inject_Z d) 0) eqn:E2; cbn [bind].
    { apply Qeq_bool_iff in E2; rewrite injZ0 in E2. split; [discriminate|tauto]. }
    apply Qeq_bool_false in E2. rewrite injZ0 in E2.
    split; [intros [= <-]; auto|intros [_ ->]; reflexivity].
  Qed.
  Lemma ulcd_calc_raise x p e : ulcd_calc rd x p = Raise e -> e = ZeroDivisionError /\ ~ ulcd_defined p x.
  Proof.
    intros H. split.
    - destruct p as [[[u l] c] d]. unfold ulcd_calc, div_r in H.
      destruct (Qeq_bool x 0); cbn [bind] in H; [congruence|].
      destruct (Qeq_bool (inject_Z l) 0); cbn [bind] in H; [congruence|].
      destruct (Qeq_bool (inject_Z d) 0); cbn [bind] in H; congruence.
    - intros D. assert (K : ulcd_calc rd x p = Ok (ulcd_rval x p)) by (apply ulcd_calc_ok; auto). congruence.
  Qed.
  Lemma ulcd_calc_def x p : ulcd_defined p x -> ulcd_calc rd x p = Ok (ulcd_rval x p).
  Proof. intros D. apply ulcd_calc_ok; auto. Qed.
  Lemma ulcd_calc_undef x p : ~ ulcd_defined p x -> ulcd_calc rd x p = Raise ZeroDivisionError.
  Proof.
    intros D. destruct (ulcd_calc rd x p) as [v|e] eqn:E.
    - apply ulcd_calc_ok in E. tauto.
    - apply ulcd_calc_raise in E. now destruct E as [-> _].
  Qed.
  Lemma ulcd_defined_dec p x : ulcd_defined p x \/ ~ ulcd_defined p x.
  Proof.
    destruct p as [[[u l] c] d]. cbn. destruct (Qeq_dec x 0); [tauto|].
    destruct (Z.eq_dec l 0); [tauto|]. destruct (Z.eq_dec d 0); [tauto|]. left; auto.
  Qed.

  (** ---- object invariant ---- *)
  Lemma assign_const o p : ul_const (fst (ulcd_assign rd o p)) = ul_const o.
  Proof. unfold ulcd_assign. destruct (ulcd_calc rd (ul_const o) p); reflexivity. Qed.
  Lemma assign_params o p : ul_params (fst (ulcd_assign rd o p)) = p.
  Proof. unfold ulcd_assign. destruct (ulcd_calc rd (ul_const o) p); reflexivity. Qed.
  Lemma assign_ok o p o1 : ulcd_assign rd o p = (o1, Ok tt) ->
    ulcd_defined p (ul_const o) /\ o1 = mkUlcd p (ul_const o) (ulcd_rval (ul_const o) p).
  Proof.
    unfold ulcd_assign. destruct (ulcd_calc rd (ul_const o) p) as [v|e] eqn:E; [|discriminate].
    intros [= <-]. apply ulcd_calc_ok in E. destruct E as [D ->]. auto.
  Qed.
  Lemma assign_raise o p o1 e : ulcd_assign rd o p = (o1, Raise e) ->
    e = ZeroDivisionError /\ ~ ulcd_defined p (ul_const o) /\ o1 = mkUlcd p (ul_const o) (ul_val o).
  Proof.
    unfold ulcd_assign. destruct (ulcd_calc rd (ul_const o) p) as [v|e'] eqn:E; [discriminate|].
    intros [= <- <-]. apply ulcd_calc_raise in E. tauto.
  Qed.

  Definition op_target (p : Z * Z * Z * Z) (op : ulcd_op) : Z * Z * Z * Z :=
    let '(u, l, c, d) := p in
    match op with UReinit q => q | UFlip => (u, l, c, d * -1) | UAdd i => (u, l, c + d * i, d) end.
  Lemma step_assign o op : ulcd_step rd o op = ulcd_assign rd o (op_target (ul_params o) op).
  Proof.
    destruct o as [[[[u l] c] d] x v]. destruct op; reflexivity.
  Qed.

  Definition faithful (o : ulcd) : Prop := ulcd_defined (ul_params o) (ul_const o) /\ ul_val o = ulcd_rval (ul_const o) (ul_params o).

  Lemma run_faithful ops : forall o o1 outs, faithful o -> ulcd_run rd ops o = (o1, outs) ->
    ul_const o1 = ul_const o /\ (last outs (Ok tt) = Ok tt -> faithful o1) /\
    (forall e, In (Raise e) outs -> e = ZeroDivisionError).
  Proof.
    assert (G : forall ops o o1 outs d, (d = Ok tt -> faithful o) -> ulcd_run rd ops o = (o1, outs) ->
      ul_const o1 = ul_const o /\ (last outs d = Ok tt -> faithful o1) /\
      (forall e, In (Raise e) outs -> e = ZeroDivisionError)).
    { clear. induction ops as [|op r IH]; intros o o1 outs d F H; cbn in H.
      - injection H as <- <-. cbn. split; [reflexivity|]. split; [exact F|]. intros e [].
      - destruct (ulcd_step rd o op) as [o2 x] eqn:E. destruct (ulcd_run rd r o2) as [o3 xs] eqn:E1.
        injection H as <- <-. rewrite step_assign in E.
        assert (C : ul_const o2 = ul_const o) by (pose proof (assign_const o (op_target (ul_params o) op)) as A; rewrite E in A; exact A).
        destruct (IH o2 o3 xs x) with (2 := E1) as (A & B & D).
        { intros ->. apply assign_ok in E. destruct E as [D ->]. split; [exact D|reflexivity]. }
        split; [congruence|]. split.
        + destruct xs as [|y ys]; [exact B|]. intros L. apply B. rewrite (last_cons_default y ys x d). exact L.
        + intros e [->|I]; [|eauto]. apply assign_raise in E. tauto. }
    intros o o1 outs F H. eapply G; eauto.
  Qed.
End Calc.

(** ---- rounding error ---- *)
Section Error.
  Variable rd : Q -> Q.
  Variable eps : Q.
  Hypothesis eps0 : (0 <= eps)%Q.
  Hypothesis rd_err : forall y, (Qabs (rd y - y) <= eps * Qabs y)%Q.
  Local Open Scope Q_scope.

  Lemma err_step y' y h N : 1 <= h -> Qabs y <= N -> Qabs (y' - y) <= (h - 1) * N ->
    Qabs (rd y' - y) <= ((1 + eps) * h - 1) * N.
  Proof.
    intros H1 HN HE. pose proof (rd_err y') as R.
    assert (A : Qabs y' <= h * N).
    { setoid_replace y' with (y + (y' - y)) by ring.
      eapply Qle_trans; [apply Qabs_triangle|].
      setoid_replace (h * N) with (N + (h - 1) * N) by ring. apply Qplus_le_compat; assumption. }
    setoid_replace (rd y' - y) with ((rd y' - y') + (y' - y)) by ring.
    eapply Qle_trans; [apply Qabs_triangle|].
    setoid_replace (((1 + eps) * h - 1) * N) with (eps * (h * N) + (h - 1) * N) by ring.
    apply Qplus_le_compat; [|assumption].
    eapply Qle_trans; [exact R|].
    rewrite !(Qmult_comm eps). apply Qmult_le_compat_r; assumption.
  Qed.
  Lemma err_plus a' a b' b h M K : Qabs (a' - a) <= (h - 1) * M -> Qabs (b' - b) <= (h - 1) * K ->
    Qabs (a' + b' - (a + b)) <= (h - 1) * (M + K).
  Proof.
    intros HA HB. setoid_replace (a' + b' - (a + b)) with ((a' - a) + (b' - b)) by ring.
    eapply Qle_trans; [apply Qabs_triangle|].
    setoid_replace ((h - 1) * (M + K)) with ((h - 1) * M + (h - 1) * K) by ring. now apply Qplus_le_compat.
  Qed.

  Lemma ulcd_rval_err x p : ulcd_defined p x ->
    Qabs (ulcd_rval rd x p - ulcd_fun p x) <= ((1 + eps) * (1 + eps) * (1 + eps) * (1 + eps) - 1) * ulcd_size p x.
  Proof.
    destruct p as [[[u l] c] d]. cbn [ulcd_defined ulcd_rval ulcd_fun ulcd_size]. intros (Hx & Hl & Hd).
    set (A := inject_Z u / x). set (B := x / inject_Z l). set (C := inject_Z c). set (D := inject_Z d).
    assert (HD : ~ D == 0) by (unfold D; rewrite injZ0; exact Hd).
    set (g := 1 + eps). assert (G : 1 <= g) by (unfold g; lra).
    assert (g2 : 1 <= g * g) by nra. assert (g3 : 1 <= g * g * g) by nra.
    assert (E1 : Qabs (rd A - A) <= (g * 1 - 1) * Qabs A).
    { eapply Qle_trans; [apply rd_err|]. apply Qle_lteq; right. unfold g; ring. }
    assert (E2 : Qabs (rd B - B) <= (g * 1 - 1) * Qabs B).
    { eapply Qle_trans; [apply rd_err|]. apply Qle_lteq; right. unfold g; ring. }
    pose proof (err_plus _ _ _ _ (g * 1) _ _ E1 E2) as E3.
    assert (g1 : 1 <= g * 1) by lra.
    pose proof (err_step _ _ (g * 1) _ g1 (Qabs_triangle A B) E3) as E4. fold g in E4.
    assert (E5 : Qabs (C - C) <= (g * (g * 1) - 1) * Qabs C).
    { setoid_replace (C - C) with 0 by ring. change (Qabs 0) with 0. apply Qmult_le_0_compat; [nra|apply Qabs_nonneg]. }
    pose proof (err_plus _ _ _ _ (g * (g * 1)) _ _ E4 E5) as E6.
    assert (T : Qabs (A + B + C) <= Qabs A + Qabs B + Qabs C).
    { eapply Qle_trans; [apply Qabs_triangle|]. apply Qplus_le_compat; [apply Qabs_triangle|apply Qle_refl]. }
    assert (gg : 1 <= g * (g * 1)) by nra.
    pose proof (err_step _ _ (g * (g * 1)) _ gg T E6) as E7. fold g in E7.
    set (N := Qabs A + Qabs B + Qabs C) in *. set (y2 := rd (rd (rd A + rd B) + C)) in *.
    assert (PD : 0 < / Qabs D).
    { apply Qinv_lt_0_compat. destruct (Qlt_le_dec 0 (Qabs D)) as [|H]; [assumption|].
      pose proof (Qabs_nonneg D). exfalso. apply HD. apply Qabs_le_iff in H. lra. }
    assert (Q1 : Qabs ((A + B + C) / D) <= N / Qabs D).
    { unfold Qdiv. rewrite Qabs_Qmult. rewrite Qabs_Qinv. apply Qmult_le_compat_r; [exact T|lra]. }
    assert (Q2 : Qabs (y2 / D - (A + B + C) / D) <= (g * (g * (g * 1)) - 1) * (N / Qabs D)).
    { setoid_replace (y2 / D - (A + B + C) / D) with ((y2 - (A + B + C)) / D) by (field; exact HD).
      unfold Qdiv. rewrite Qabs_Qmult, Qabs_Qinv.
      setoid_replace ((g * (g * (g * 1)) - 1) * (N * / Qabs D)) with ((g * (g * (g * 1)) - 1) * N * / Qabs D) by ring.
      apply Qmult_le_compat_r; [exact E7|lra]. }
    assert (ggg : 1 <= g * (g * (g * 1))) by nra.
    pose proof (err_step _ _ (g * (g * (g * 1))) _ ggg Q1 Q2) as E8. fold g in E8.
    eapply Qle_trans; [exact E8|]. apply Qle_lteq; right. ring.
  Qed.
End Error.

(** ---- ranges and enumeration ---- *)
(** [l] lists lo, lo+step, ... strictly before hi *)
Lemma map_seq_nth_error (f : nat -> Z) n k v :
  nth_error (map f (seq 0 n)) k = Some v <-> (k < n)%nat /\ v = f k.
Proof.
  split.
  - intros H. assert (L : (k < n)%nat).
    { assert (S : nth_error (map f (seq 0 n)) k <> None) by congruence. apply nth_error_Some in S.
      now rewrite map_length, seq_length in S. }
    split; [exact L|]. rewrite nth_error_map in H.
    rewrite nth_error_nth' with (d := 0%nat) in H by now rewrite seq_length.
    rewrite seq_nth in H by exact L. cbn in H. congruence.
  - intros [L ->]. rewrite nth_error_map, nth_error_nth' with (d := 0%nat) by now rewrite seq_length.
    rewrite seq_nth by exact L. reflexivity.
Qed.

Lemma zrange_step_spec lo hi step : 0 < step -> forall k v,
  nth_error (zrange_step lo hi step) k = Some v <-> v = lo + step * Z.of_nat k /\ v < hi.
Proof.
  intros P k v. unfold zrange_step. rewrite map_seq_nth_error. split; intros [A B]; split; try assumption; subst.
  - assert (Z.of_nat k < (hi - lo + step - 1) / step) by lia.
    assert (step * (Z.of_nat k + 1) <= hi - lo + step - 1).
    { pose proof (Z.mul_div_le (hi - lo + step - 1) step P). nia. }
    lia.
  - assert (Z.of_nat k < (hi - lo + step - 1) / step); [|lia].
    apply Z.lt_le_trans with (Z.of_nat k + 1); [lia|]. apply Z.div_le_lower_bound; lia.
Qed.
Lemma zrange_spec lo hi k v : nth_error (zrange lo hi) k = Some v <-> v = lo + Z.of_nat k /\ v < hi.
Proof. unfold zrange. rewrite map_seq_nth_error. split; intros [A B]; split; try assumption; lia. Qed.

Lemma py_range3_neg lo hi step l : step < 0 -> py_range3 lo hi step = Ok l -> forall k v,
  nth_error l k = Some v <-> v = lo + step * Z.of_nat k /\ hi < v.
Proof.
  intros P H k v. unfold py_range3 in H. destruct (Z.eqb_spec step 0); [lia|]. destruct (Z.ltb_spec 0 step); [lia|].
  injection H as <-. rewrite map_seq_nth_error. set (s := - step) in *. assert (0 < s) by lia.
  replace step with (- s) by lia. replace (lo - hi - - s - 1) with (lo - hi + s - 1) by lia.
  split; intros [A B]; split; try assumption; subst v.
  - assert (Z.of_nat k < (lo - hi + s - 1) / s) by lia.
    pose proof (Z.mul_div_le (lo - hi + s - 1) s ltac:(lia)). nia.
  - assert (Z.of_nat k < (lo - hi + s - 1) / s); [|lia].
    apply Z.lt_le_trans with (Z.of_nat k + 1); [lia|]. apply Z.div_le_lower_bound; nia.
Qed.

Lemma map_pair_flat {A B} (l : list A) (ds : list B) : list_prod l ds = flat_map (fun a => map (fun d => (a, d)) ds) l.
Proof. induction l as [|a l IH]; cbn; [reflexivity|]. now rewrite IH. Qed.
Lemma flat_map_flat_map {A B C} (f : A -> list B) (g : B -> list C) l :
  flat_map g (flat_map f l) = flat_map (fun a => flat_map g (f a)) l.
Proof. induction l as [|a l IH]; cbn; [reflexivity|]. now rewrite flat_map_app, IH. Qed.
Lemma flat_map_map' {A B C} (f : A -> B) (g : B -> list C) l : flat_map g (map f l) = flat_map (fun a => g (f a)) l.
Proof. induction l as [|a l IH]; cbn; [reflexivity|]. now rewrite IH. Qed.

Lemma product4_list_prod us ls cs ds : product4 us ls cs ds = list_prod (list_prod (list_prod us ls) cs) ds.
Proof.
  unfold product4. rewrite !map_pair_flat, !flat_map_flat_map.
  apply flat_map_ext. intros u. rewrite ?flat_map_flat_map, flat_map_map'. apply flat_map_ext. intros l.
  rewrite ?flat_map_flat_map, flat_map_map'. reflexivity.
Qed.

Section Gen.
  Variable rd : Q -> Q.
  Definition keep (p : Z * Z * Z * Z) : bool := negb (ulcd_skip p).
  Lemma keep_spec u l c d : keep (u, l, c, d) = true <-> d <> 0 /\ l <> 0 /\ Z.abs c < Z.abs d.
  Proof.
    unfold keep, ulcd_skip. destruct (Z.eqb_spec d 0); destruct (Z.eqb_spec l 0); cbn; try (split; [discriminate|intros (? & ? & ?); contradiction]).
    destruct (Z.leb_spec (Z.abs d) (Z.abs c)); cbn; split; try discriminate; intros; try lia.
  Qed.

  Context {S : Type}.
  Variable body : ulcd -> S -> (ulcd * S) * res unit.

  (** the run of the loop depends on the shared object only through what [reinit] sets *)
  Fixpoint gen_ref (x : Q) (ps : list (Z * Z * Z * Z)) (s : S) : S * res unit :=
    match ps with
    | [] => (s, Ok tt)
    | p :: r => match body (mkUlcd p x (ulcd_rval rd x p)) s with
                | ((_, s1), Raise e) => (s1, Raise e)
                | ((_, s1), Ok _) => gen_ref x r s1
                end
    end.
  Hypothesis body_const : forall o s, ul_const (fst (fst (body o s))) = ul_const o.

  Lemma ugen_loop_ref ps : forall o s, ~ (ul_const o == 0)%Q ->
    (let '((o1, s1), r) := ugen_loop rd body ps o s in (s1, r)) = gen_ref (ul_const o) (filter keep ps) s.
  Proof.
    induction ps as [|p r IH]; intros o s X; cbn [ugen_loop filter gen_ref]; [reflexivity|].
    unfold keep at 1. destruct (ulcd_skip p) eqn:K; cbn [negb]; [now apply IH|].
    assert (D : ulcd_defined p (ul_const o)).
    { destruct p as [[[u l] c] d]. assert (K2 : keep (u, l, c, d) = true) by (unfold keep; now rewrite K).
      apply keep_spec in K2. cbn. tauto. }
    unfold ulcd_reinit, ulcd_assign. rewrite (ulcd_calc_def _ _ _ D). cbn [gen_ref].
    pose proof (body_const (mkUlcd p (ul_const o) (ulcd_rval rd (ul_const o) p)) s) as C.
    destruct (body (mkUlcd p (ul_const o) (ulcd_rval rd (ul_const o) p)) s) as [[o2 s2] [[]|e]]; cbn in C; [|reflexivity].
    rewrite <- C. apply IH. rewrite C. exact X.
  Qed.
End Gen.

Lemma ugen_list_ok rd en : ~ (ue_x en == 0)%Q ->
  ugen_list rd en = Ok (map (fun p => (p, ulcd_rval rd (ue_x en) p))
    (filter keep (product4 (ue_u en) (ue_l en) (ue_c en) (ue_d en)))).
Proof.
  intros X. unfold ugen_list, ugen_for, ulcd_new.
  rewrite ulcd_calc_def by (cbn; repeat split; [exact X|discriminate|discriminate]). cbn [bind].
  set (o := mkUlcd _ _ _).
  set (body := fun (o : ulcd) (s : list (Z * Z * Z * Z * Q)) => ((o, s ++ [(ul_params o, ul_val o)]), Ok tt)).
  pose proof (ugen_loop_ref rd body (fun o s => eq_refl) (product4 (ue_u en) (ue_l en) (ue_c en) (ue_d en)) o [] X) as G.
  destruct (ugen_loop rd body (product4 (ue_u en) (ue_l en) (ue_c en) (ue_d en)) o []) as [[o1 s1] r] eqn:E.
  change (ul_const o) with (ue_x en) in G.
  assert (H : forall ps s, gen_ref rd body (ue_x en) ps s = (s ++ map (fun p => (p, ulcd_rval rd (ue_x en) p)) ps, Ok tt)).
  { clear. induction ps as [|p r IH]; intros s; cbn; [now rewrite app_nil_r|]. rewrite IH. now rewrite <- app_assoc. }
  rewrite H in G. cbn [app] in G. injection G as -> ->. reflexivity.
Qed.
Lemma new_faithful rd p x : ulcd_defined p x -> faithful rd (mkUlcd p x (ulcd_rval rd x p)).
Proof. intros D. split; [exact D|reflexivity]. Qed.
Lemma list_nth_error_ext {A} (l : list A) : forall l', (forall k, nth_error l k = nth_error l' k) -> l = l'.
Proof.
  induction l as [|a l IH]; intros [|b l'] H; [reflexivity|specialize (H 0%nat); discriminate|specialize (H 0%nat); discriminate|].
  pose proof (H 0%nat) as H0. cbn in H0. injection H0 as ->. f_equal. apply IH. intros k. exact (H (S k)).
Qed.

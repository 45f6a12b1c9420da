(** Properties C38-C42, C62, C68, C69: ULCD left-hand sides. *)
From Coq Require Import Ascii String ZArith QArith Qabs List Bool Lia Lqa Qfield.
From Verif Require Import PyBase PyBase_Proofs Rnd Rnd_Proofs ContFrac_Model Hashtable_Model Spec_Utils Spec_ContFrac
  ULCD_Model Spec_ULCD ULCD_Proofs ULCD_Equiv ULCD_Heap.
Import ListNotations.
Local Open Scope Z_scope.
Local Open Scope list_scope.

(** ---- C38 ---- *)
(** Whatever was called before (including calls that raised), after a call that did not raise the value is
    (u/x + x/l + c)/d of the current parameters up to the rounding of the four operations; the only exception
    ever raised is ZeroDivisionError. *)
Theorem C38_value : forall rd eps x p0 o0 ops o outs,
  (0 <= eps)%Q -> (forall y, Qabs (rd y - y) <= eps * Qabs y)%Q ->
  ulcd_new rd p0 x = Ok o0 -> ulcd_run rd ops o0 = (o, outs) -> last outs (Ok tt) = Ok tt ->
  ulcd_defined (ul_params o) x /\
  (Qabs (ul_val o - ulcd_fun (ul_params o) x) <=
     ((1 + eps) * (1 + eps) * (1 + eps) * (1 + eps) - 1) * ulcd_size (ul_params o) x)%Q /\
  (forall e, In (Raise e) outs -> e = ZeroDivisionError).
Proof.
  intros rd eps x p0 o0 ops o outs E0 RD N R L. unfold ulcd_new in N.
  destruct (ulcd_calc rd x p0) as [v|] eqn:C; [|discriminate]. injection N as <-.
  apply ulcd_calc_ok in C. destruct C as [D ->].
  destruct (run_faithful rd ops _ _ _ (new_faithful _ _ _ D) R) as (CC & F & EX). cbn in CC.
  destruct (F L) as [DF V]. rewrite CC in *. split; [exact DF|]. split; [|exact EX].
  rewrite V. now apply ulcd_rval_err.
Qed.
(** With rounding to [prec] bits the bound is an instance; in exact arithmetic the value is exactly the formula. *)
Theorem C38_value_mpf : forall prec x p0 o0 ops o outs,
  ulcd_new (rnd prec) p0 x = Ok o0 -> ulcd_run (rnd prec) ops o0 = (o, outs) -> last outs (Ok tt) = Ok tt ->
  (Qabs (ul_val o - ulcd_fun (ul_params o) x) <=
     ((1 + two_p (- prec)) * (1 + two_p (- prec)) * (1 + two_p (- prec)) * (1 + two_p (- prec)) - 1) *
     ulcd_size (ul_params o) x)%Q.
Proof.
  intros prec x p0 o0 ops o outs N R L.
  eapply C38_value; eauto; [apply Qlt_le_weak, two_p_pos|intros; apply rnd_err].
Qed.
Theorem C38_exact : forall x p0 o0 ops o outs,
  ulcd_new (fun q => q) p0 x = Ok o0 -> ulcd_run (fun q => q) ops o0 = (o, outs) -> last outs (Ok tt) = Ok tt ->
  (ul_val o == ulcd_fun (ul_params o) x)%Q.
Proof.
  intros x p0 o0 ops o outs N R L.
  destruct (C38_value (fun q => q) 0 x p0 o0 ops o outs) as (_ & B & _); auto; try lra.
  { intros y. setoid_replace (y - y)%Q with 0%Q by ring. rewrite Qmult_0_l. apply Qle_refl. }
  setoid_replace ((1 + 0) * (1 + 0) * (1 + 0) * (1 + 0) - 1)%Q with 0%Q in B by ring. rewrite Qmult_0_l in B.
  apply Qabs_le_iff in B. lra.
Qed.
(** flip_sign negates the value exactly, also under rounding, and never raises. *)
Theorem C38_flip : forall prec x p0 o0 ops o outs,
  ulcd_new (rnd prec) p0 x = Ok o0 -> ulcd_run (rnd prec) ops o0 = (o, outs) -> last outs (Ok tt) = Ok tt ->
  exists o', ulcd_flip_sign (rnd prec) o = (o', Ok tt) /\ ul_val o' = (- ul_val o)%Q /\
    (forall y, ~ (y == 0)%Q -> ulcd_fun (ul_params o') y == - ulcd_fun (ul_params o) y)%Q.
Proof.
  intros prec x p0 o0 ops o outs N R L. unfold ulcd_new in N.
  destruct (ulcd_calc (rnd prec) x p0) as [v|] eqn:C; [|discriminate]. injection N as <-.
  apply ulcd_calc_ok in C. destruct C as [D ->].
  destruct (run_faithful _ ops _ _ _ (new_faithful _ _ _ D) R) as (CC & F & EX). cbn in CC.
  destruct (F L) as [DF V]. destruct o as [[[[u l] c] d] x' w]. cbn in CC, V, DF. subst x' w.
  unfold ulcd_flip_sign, ulcd_assign. cbn [ul_params ul_const ul_val].
  rewrite ulcd_calc_def by (cbn; intuition lia). eexists. split; [reflexivity|]. cbn [ul_val ul_params]. split.
  - unfold ulcd_rval. rewrite <- rnd_opp. apply rnd_Qeq.
    replace (d * -1) with (- d) by lia. rewrite inject_Z_opp. field. rewrite injZ0. tauto.
  - intros y Y. cbn. replace (d * -1) with (- d) by lia. rewrite inject_Z_opp. field.
    rewrite !injZ0. tauto.
Qed.
(** add_int(i) adds i in exact arithmetic, and never raises. *)
Theorem C38_add_int : forall i x p0 o0 ops o outs,
  ulcd_new (fun q => q) p0 x = Ok o0 -> ulcd_run (fun q => q) ops o0 = (o, outs) -> last outs (Ok tt) = Ok tt ->
  exists o', ulcd_add_int (fun q => q) i o = (o', Ok tt) /\ (ul_val o' == ul_val o + inject_Z i)%Q /\
    (forall y, ~ (y == 0)%Q -> ulcd_fun (ul_params o') y == ulcd_fun (ul_params o) y + inject_Z i)%Q.
Proof.
  intros i x p0 o0 ops o outs N R L. unfold ulcd_new in N.
  destruct (ulcd_calc (fun q => q) x p0) as [v|] eqn:C; [|discriminate]. injection N as <-.
  apply ulcd_calc_ok in C. destruct C as [D ->].
  destruct (run_faithful _ ops _ _ _ (new_faithful _ _ _ D) R) as (CC & F & EX). cbn in CC.
  destruct (F L) as [DF V]. destruct o as [[[[u l] c] d] x' w]. cbn in CC, V, DF. subst x' w.
  unfold ulcd_add_int, ulcd_assign. cbn [ul_params ul_const ul_val].
  rewrite ulcd_calc_def by (cbn; intuition lia). eexists. split; [reflexivity|]. cbn [ul_val ul_params].
  split; [cbn|intros y Y; cbn]; rewrite inject_Z_plus, inject_Z_mult; field; rewrite !injZ0; tauto.
Qed.
(** After a call that raised, parameters and value disagree: the parameters are already replaced. *)
Theorem C38_after_exception_refuted : exists x p0 o0 p o,
  ulcd_new (fun q => q) p0 x = Ok o0 /\ ulcd_run (fun q => q) [UReinit p; UReinit (1, 1, 0, 0); UAdd 5] o0 =
    (o, [Ok tt; Raise ZeroDivisionError; Raise ZeroDivisionError]) /\
  ul_params o = (1, 1, 0, 0) /\ (ul_val o == ulcd_fun p x)%Q /\ ~ (ul_val o == ulcd_fun (ul_params o) x)%Q.
Proof.
  exists (2 # 1)%Q, (1, 1, 1, 1). eexists. exists (3, 5, 7, 11). eexists.
  split; [vm_compute; reflexivity|]. split; [vm_compute; reflexivity|]. split; [reflexivity|].
  split; [reflexivity|]. vm_compute. discriminate.
Qed.
Example C38_ex : exists o0 o outs,
  ulcd_new (rnd 100) (3, -7, 2, 5) (22 # 7) = Ok o0 /\
  ulcd_run (rnd 100) [UFlip; UAdd (-4); UReinit (1, 0, 1, 1); UReinit (-3, 2, 1, 4); UFlip; UAdd 9] o0 = (o, outs) /\
  last outs (Ok tt) = Ok tt /\ nth 2 outs (Ok tt) = Raise ZeroDivisionError /\ ul_params o = (-3, 2, -35, -4).
Proof. eexists. eexists. eexists. split; [vm_compute; reflexivity|]. split; [vm_compute; reflexivity|]. repeat split. Qed.

(** ---- C39 ---- *)
(** The four accepted formats of a range. *)
Theorem C39_ranges : forall r,
  match r with
  | RInt n => (exists l, ulc_range r = Ok l /\ arith (- n) (n + 1) 1 l) /\ (exists l, d_range r = Ok l /\ arith 1 (n + 1) 1 l)
  | RSeq s => (forall l, ulc_range r = Ok l <-> seq_denotes s l) /\ (forall l, d_range r = Ok l <-> seq_denotes s l) /\
      (forall e, ulc_range r = Raise e -> e = ValueError) /\ (forall e, d_range r = Raise e -> e = ValueError)
  | RIter s => ulc_range r = Ok s /\ d_range r = Ok s
  end.
Proof.
  assert (AZ : forall lo hi, arith lo hi 1 (zrange lo hi)).
  { intros lo hi k v. rewrite zrange_spec. split; [intros [-> H]; repeat split; lia|intros (-> & H & _); split; lia]. }
  assert (AU : forall lo hi st l l', arith lo hi st l -> arith lo hi st l' -> l = l').
  { intros lo hi st l l' A B. apply list_nth_error_ext. intros k.
    destruct (nth_error l k) as [v|] eqn:E; [apply A in E; apply B in E; now rewrite E|].
    destruct (nth_error l' k) as [v|] eqn:E1; [|reflexivity]. apply B in E1. apply A in E1. congruence. }
  intros [n|s|s].
  - split; eexists; split; try reflexivity; apply AZ.
  - assert (G : (forall l, seq_range s = Ok l <-> seq_denotes s l) /\ (forall e, seq_range s = Raise e -> e = ValueError)).
    { destruct s as [|a [|b [|c [|d s]]]]; cbn [seq_range seq_denotes]; try (split; [intros l; split; [congruence|intros ->; reflexivity]|discriminate]).
      - split; [|discriminate]. intros l. split; [intros [= <-]; apply AZ|]. intros A. f_equal. eapply AU; eauto.
      - unfold py_range3. destruct (Z.eqb_spec c 0) as [->|N].
        { split; [|congruence]. intros l. split; [discriminate|tauto]. }
        assert (X : exists l0, (if 0 <? c then Ok (zrange_step a b c)
            else Ok (map (fun i => a + c * Z.of_nat i) (seq 0 (Z.to_nat ((a - b - c - 1) / - c))))) = Ok l0 /\ arith a b c l0).
        { destruct (Z.ltb_spec 0 c) as [P|P].
          - eexists. split; [reflexivity|]. intros k v. rewrite zrange_step_spec by exact P. intuition lia.
          - eexists. split; [reflexivity|]. intros k v. rewrite (py_range3_neg a b c); [intuition lia|lia|].
            unfold py_range3. destruct (Z.eqb_spec c 0); [lia|]. destruct (Z.ltb_spec 0 c); [lia|]. reflexivity. }
        destruct X as (l0 & E & A). rewrite E. split; [|discriminate]. intros l. split; [intros [= <-]; auto|].
        intros [_ B]. f_equal. eapply AU; eauto. }
    cbn [ulc_range d_range]. tauto.
  - split; reflexivity.
Qed.
(** The objects yielded carry exactly the allowed tuples, in product order, with their values; len() bounds them. *)
Theorem C39_enum : forall rd rs x en, uenum_new rs x = Ok en -> ~ (x == 0)%Q ->
  exists ru rl rc rdd us ls cs ds ys okb, rs = [ru; rl; rc; rdd] /\
    ulc_range ru = Ok us /\ ulc_range rl = Ok ls /\ ulc_range rc = Ok cs /\ d_range rdd = Ok ds /\
    ugen_list rd en = Ok ys /\
    map fst ys = filter okb (list_prod (list_prod (list_prod us ls) cs) ds) /\
    (forall u l c d, okb (u, l, c, d) = true <-> d <> 0 /\ l <> 0 /\ Z.abs c < Z.abs d) /\
    (forall p v, In (p, v) ys -> ulcd_new rd p x = Ok (mkUlcd p x v)) /\
    Z.of_nat (length ys) <= ue_len en.
Proof.
  intros rd rs x en H X. unfold uenum_new in H.
  destruct rs as [|ru [|rl [|rc [|rdd [|]]]]]; try discriminate.
  destruct (ulc_range ru) as [us|] eqn:E1; [cbn [bind] in H|discriminate].
  destruct (ulc_range rl) as [ls|] eqn:E2; [cbn [bind] in H|discriminate].
  destruct (ulc_range rc) as [cs|] eqn:E3; [cbn [bind] in H|discriminate].
  destruct (d_range rdd) as [ds|] eqn:E4; [cbn [bind] in H|discriminate]. injection H as <-.
  exists ru, rl, rc, rdd, us, ls, cs, ds. eexists. exists keep. split; [reflexivity|]. do 4 (split; [assumption|]).
  split; [apply ugen_list_ok; exact X|]. cbn [ue_x ue_u ue_l ue_c ue_d ue_len].
  split; [rewrite map_map, map_id; now rewrite product4_list_prod|].
  split; [apply keep_spec|]. split.
  - intros p v I. apply in_map_iff in I. destruct I as (q & [= -> <-] & I). apply filter_In in I. destruct I as [_ K].
    unfold ulcd_new. rewrite ulcd_calc_def; [reflexivity|]. destruct p as [[[u l] c] d]. apply keep_spec in K. cbn. tauto.
  - rewrite map_length. rewrite product4_list_prod.
    assert (FL : forall l, (length (filter keep l) <= length l)%nat).
    { induction l as [|a l IH]; cbn; [lia|]. destruct (keep a); cbn; lia. }
    pose proof (FL (list_prod (list_prod (list_prod us ls) cs) ds)) as F.
    rewrite !prod_length in F. apply inj_le in F. rewrite !Nat2Z.inj_mul in F. exact F.
Qed.
(** What the consumer does to the yielded (shared) object does not influence what it is given later. *)
Theorem C39_consumer : forall rd en (f : ulcd -> ulcd), (forall o, ul_const (f o) = ul_const o) -> ~ (ue_x en == 0)%Q ->
  exists o, ugen_for rd (fun o s => ((f o, s ++ [(ul_params o, ul_val o)]), Ok tt)) en [] =
    Ok ((o, match ugen_list rd en with Ok ys => ys | Raise _ => [] end), Ok tt).
Proof.
  intros rd en f FC X. rewrite (ugen_list_ok rd en X). unfold ugen_for, ulcd_new.
  rewrite ulcd_calc_def by (cbn; repeat split; [exact X|discriminate|discriminate]). cbn [bind].
  set (o := mkUlcd _ _ _).
  set (body := fun (o : ulcd) (s : list (Z * Z * Z * Z * Q)) => ((f o, s ++ [(ul_params o, ul_val o)]), Ok tt)).
  pose proof (ugen_loop_ref rd body (fun o s => FC o) (product4 (ue_u en) (ue_l en) (ue_c en) (ue_d en)) o [] X) as G.
  destruct (ugen_loop rd body (product4 (ue_u en) (ue_l en) (ue_c en) (ue_d en)) o []) as [[o1 s1] r] eqn:E.
  change (ul_const o) with (ue_x en) in G.
  assert (H : forall ps s, gen_ref rd body (ue_x en) ps s = (s ++ map (fun p => (p, ulcd_rval rd (ue_x en) p)) ps, Ok tt)).
  { clear. induction ps as [|p r IH]; intros s; cbn; [now rewrite app_nil_r|]. rewrite IH. now rewrite <- app_assoc. }
  rewrite H in G. cbn [app] in G. injection G as -> ->. exists o1. reflexivity.
Qed.
Theorem C39_zero_constant : forall rd en, (ue_x en == 0)%Q -> ugen_list rd en = Raise ZeroDivisionError.
Proof.
  intros rd en X. unfold ugen_list, ugen_for, ulcd_new.
  rewrite ulcd_calc_undef; [reflexivity|]. cbn. tauto.
Qed.
Example C39_ex : exists en, uenum_new [RSeq [-1; 4; 2]; RIter [0; 3]; RInt 1; RSeq [5; -6; -5]] (7 # 2) = Ok en /\
  ue_len en = 54 /\ match ugen_list (rnd 60) en with Ok ys => map fst ys | Raise _ => [] end =
   [(-1, 3, -1, 5); (-1, 3, -1, -5); (-1, 3, 0, 5); (-1, 3, 0, -5); (-1, 3, 1, 5); (-1, 3, 1, -5);
    (1, 3, -1, 5); (1, 3, -1, -5); (1, 3, 0, 5); (1, 3, 0, -5); (1, 3, 1, 5); (1, 3, 1, -5);
    (3, 3, -1, 5); (3, 3, -1, -5); (3, 3, 0, 5); (3, 3, 0, -5); (3, 3, 1, 5); (3, 3, 1, -5)].
Proof. eexists. split; [reflexivity|]. split; vm_compute; reflexivity. Qed.

(** ---- C40 ---- *)
Theorem C40_representative : forall u l c d, l <> 0 -> d <> 0 -> Z.abs d <= Z.abs c ->
  exists c' k, Z.abs c' < Z.abs d /\ (0 <= c' <= c \/ c <= c' <= 0) /\
    (forall x, ~ (x == 0)%Q -> ulcd_fun (u, l, c, d) x == ulcd_fun (u, l, c', d) x + inject_Z k)%Q.
Proof.
  intros u l c d L D H. exists (Z.rem c d), (Z.quot c d).
  pose proof (Z.quot_rem c d D) as E. pose proof (Z.rem_bound_abs c d D) as B.
  split; [exact B|]. split.
  - destruct (Z_le_gt_dec 0 c) as [P|P].
    + left. pose proof (Z.rem_nonneg c d D P). split; [lia|]. lia.
    + right. pose proof (Z.rem_nonpos c d D ltac:(lia)). split; [|lia]. lia.
  - intros x X. cbn. rewrite E at 1. rewrite inject_Z_plus, inject_Z_mult. field. rewrite !injZ0. auto.
Qed.
(** ... and it is enumerated when the c range is an interval containing 0. *)
Theorem C40_representative_enumerated : forall rd rs x en u l c d lo hi,
  uenum_new rs x = Ok en -> ~ (x == 0)%Q -> ue_c en = zrange lo hi -> lo <= 0 < hi ->
  In u (ue_u en) -> In l (ue_l en) -> In c (ue_c en) -> In d (ue_d en) -> l <> 0 -> d <> 0 -> Z.abs d <= Z.abs c ->
  exists c' k ys v, ugen_list rd en = Ok ys /\ In ((u, l, c', d), v) ys /\
    (forall y, ~ (y == 0)%Q -> ulcd_fun (u, l, c, d) y == ulcd_fun (u, l, c', d) y + inject_Z k)%Q.
Proof.
  intros rd rs x en u l c d lo hi N X RC B IU IL IC ID L D H.
  destruct (C40_representative u l c d L D H) as (c' & k & A & R & F).
  assert (XE : ue_x en = x).
  { clear - N. unfold uenum_new in N.
    destruct rs as [|ru [|rl [|rc [|rdd [|]]]]]; try discriminate.
    destruct (ulc_range ru); [cbn [bind] in N|discriminate]. destruct (ulc_range rl); [cbn [bind] in N|discriminate].
    destruct (ulc_range rc); [cbn [bind] in N|discriminate]. destruct (d_range rdd); [cbn [bind] in N|discriminate].
    injection N as <-. reflexivity. }
  exists c', k. eexists. exists (ulcd_rval rd x (u, l, c', d)).
  split; [apply ugen_list_ok; now rewrite XE|]. split; [|exact F].
  rewrite XE. apply in_map_iff. exists (u, l, c', d). split; [reflexivity|]. apply filter_In. split.
  - rewrite product4_list_prod. rewrite !in_prod_iff. repeat split; try assumption.
    rewrite RC in *. apply in_zrange in IC. apply in_zrange. lia.
  - apply keep_spec. auto.
Qed.
Example C40_ex : exists en, uenum_new [RInt 2; RInt 2; RInt 9; RInt 4] (22 # 7) = Ok en /\ ue_c en = zrange (-9) 10 /\
  In (-8) (ue_c en) /\ In 3 (ue_d en) /\ Z.abs 3 <= Z.abs (-8).
Proof. eexists. split; [reflexivity|]. split; [reflexivity|]. cbn [ue_c ue_d]. rewrite !in_zrange. lia. Qed.

(** ---- C41 ---- *)
(** A True answer: at every depth the two fractions agree up to one common sign, and the left-hand sides have the
    same absolute value at every nonzero constant; with a post-processing function everything agrees. *)
Theorem C41_sound : forall ab1 o1 i1 ab2 o2 i2, okp (ul_params o1) -> okp (ul_params o2) ->
  small (2 ^ 25) (ul_params o1) -> small (2 ^ 25) (ul_params o2) ->
  ulcd_is_equiv (ab1, o1, i1) (ab2, o2, i2) = Ok true ->
  i1 = i2 /\
  (exists s, (s == 1 \/ s == -(1) /\ i1 = 0%Z)%Q /\ forall n,
     match cf_depth ab1 n, cf_depth ab2 n with
     | Some v, Some w => (v == s * w)%Q
     | None, None => True
     | _, _ => False
     end) /\
  (forall x, ~ (x == 0)%Q -> (Qabs (ulcd_fun (ul_params o1) x) == Qabs (ulcd_fun (ul_params o2) x))%Q).
Proof.
  intros ab1 o1 i1 ab2 o2 i2 K1 K2 S1 S2 H.
  destruct (ulcd_equiv_true _ _ _ _ _ _ K1 K2 S1 S2 H) as (E & B & A & V). split; [exact E|]. split; [|exact V].
  destruct ab1 as [pa1 pb1], ab2 as [pa2 pb2]. cbn in A, B. subst pb1.
  destruct A as [->|[Z0 ->]].
  - exists 1%Q. split; [left; reflexivity|]. intros n. destruct (cf_depth (pa2, pb2) n); [ring|exact I].
  - exists (-(1))%Q. split; [right; split; [reflexivity|exact Z0]|]. intros n.
    pose proof (cf_depth_opp pa2 pb2 n) as G. unfold coeffs in *.
    destruct G as [[-> ->]|(v & w & -> & -> & Q)]; [exact I|]. rewrite Q. ring.
Qed.
(** Beyond the bound the float ratio breaks it. *)
Theorem C41_large_refuted : exists o1 o2 ab, okp (ul_params o1) /\ okp (ul_params o2) /\
  ulcd_is_equiv (ab, o1, 0) (ab, o2, 0) = Ok true /\
  exists x, ~ (x == 0)%Q /\ ~ (Qabs (ulcd_fun (ul_params o1) x) == Qabs (ulcd_fun (ul_params o2) x))%Q.
Proof.
  exists (mkUlcd (0, 1, 1, 9007199254740993) 1 0), (mkUlcd (0, 1, 1, 9007199254740992) 1 0), ([[1]], [[1]]).
  split; [cbn; lia|]. split; [cbn; lia|]. split; [vm_compute; reflexivity|]. exists 1%Q. split; [discriminate|].
  vm_compute. discriminate.
Qed.
Example C41_ex : ulcd_is_equiv (([[1; -2]], [[3; 4]]), mkUlcd (6, -2, 9, -12) 1 0, 0)
                               (([[-1; 2]], [[3; 4]]), mkUlcd (-2, 6, -3, 4) 1 0, 0) = Ok true /\
  small (2 ^ 25) (6, -2, 9, -12) /\ small (2 ^ 25) (-2, 6, -3, 4) /\ okp (6, -2, 9, -12) /\ okp (-2, 6, -3, 4).
Proof. split; [vm_compute; reflexivity|]. cbn. repeat split; lia. Qed.

(** ---- C42 ---- *)
(** Click number k keeps the tuple current when it was recorded; afterwards only calls on click k change it. *)
Theorem C42_snapshots : forall rd x p0 o0 es1 es2, ulcd_new rd p0 x = Ok o0 ->
  (forall p, In (EvYield p) (es1 ++ EvRecord :: es2) -> ulcd_defined p x) ->
  exists snap, ulcd_new rd (last_yield p0 es1) x = Ok snap /\ ul_params snap = last_yield p0 es1 /\
    uh_click (uh_run rd (es1 ++ EvRecord :: es2) (mkUheap [o0] [])) (records es1) =
    Some (fst (ulcd_run rd (ops_for (records es1) es2) snap)).
Proof.
  intros rd x p0 o0 es1 es2 N Y. unfold ulcd_new in N.
  destruct (ulcd_calc rd x p0) as [v|] eqn:C; [|discriminate]. injection N as <-.
  apply ulcd_calc_ok in C. destruct C as [D ->].
  assert (S0 : shape x (mkUheap [mkUlcd p0 x (ulcd_rval rd x p0)] []) p0).
  { constructor; cbn; [eexists; repeat split|reflexivity|lia]. }
  destruct (run_shape rd x es1 _ p0 D ltac:(intros q I; apply Y, in_or_app; now left) S0) as (A & B & L & _).
  cbn [uh_clicks length Nat.add] in L.
  unfold uh_run. rewrite fold_left_app. cbn [fold_left]. fold (uh_run rd es1 (mkUheap [mkUlcd p0 x (ulcd_rval rd x p0)] [])).
  set (h1 := uh_run rd es1 (mkUheap [mkUlcd p0 x (ulcd_rval rd x p0)] [])) in *.
  destruct (record_shape rd x h1 _ B A) as (S1 & R & _ & _).
  destruct (run_shape rd x es2 _ _ B ltac:(intros q I; apply Y, in_or_app; right; now right) S1) as (_ & _ & _ & F).
  exists (mkUlcd (last_yield p0 es1) x (ulcd_rval rd x (last_yield p0 es1))). split.
  - unfold ulcd_new. now rewrite ulcd_calc_def.
  - split; [reflexivity|]. rewrite <- L. apply F. exact R.
Qed.
Example C42_ex :
  let h := uh_run (fun q => q) [EvYield (1, 2, 0, 3); EvRecord; EvYield (2, 2, 1, 5); EvRecord; EvYield (9, 9, 0, 9);
      EvCall 1 UFlip; EvCall 0 (UAdd 2)] (mkUheap [mkUlcd (1, 1, 1, 1) (2 # 1) (14 # 4)] []) in
  (option_map ul_params (uh_click h 0), option_map ul_params (uh_click h 1)) = (Some (1, 2, 6, 3), Some (2, 2, 1, -5)).
Proof. vm_compute. reflexivity. Qed.

(** ---- C62 ---- *)
(** The text is that of an expression tree denoting (u/x + x/l + c)/d. *)
Theorem C62_latex : forall u l c d name, l <> 0 -> d <> 0 ->
  exists e, ulcd_latex (u, l, c, d) name = exp_text name e /\
    forall x, ~ (x == 0)%Q -> (exp_val x e == ulcd_fun (u, l, c, d) x)%Q.
Proof.
  intros u l c d name L D. exists (ulcd_tree (u, l, c, d)). split; [apply ulcd_latex_tree|].
  intros x X. apply ulcd_tree_val; [cbn; auto|exact X].
Qed.
Example C62_ex : ulcd_latex (-3, -1, 2, 5) (txt "\pi") =
  txt "\frac{ 1 }{ 5 } \left( \frac{ -3 }{ \pi }+\left(-1\right) \cdot \pi+2 \right)".
Proof. vm_compute. reflexivity. Qed.

(** ---- C68 ---- *)
(** A result whose parameters are an integer multiple is recognised as equivalent when it is the first argument... *)
Theorem C68_multiple_first : forall a b k s u l c d o1 o2,
  s = 1 \/ s = -1 -> 1 <= k -> l <> 0 -> d <> 0 ->
  ul_params o1 = (s * k * u, s * l, s * k * c, k * d) -> ul_params o2 = (u, k * l, c, d) ->
  small (2 ^ 53) (k * u, k * l, k * c, k * d) ->
  ulcd_is_equiv ((a, b), o1, 0) ((a, b), o2, 0) = Ok true.
Proof. exact ulcd_equiv_multiple. Qed.
(** ... but not always when it is the second one: 49 * (1/49) is not 1 in floats. So the test is not symmetric and
    filter_uniq_params keeps both of two equal results if they come in the unlucky order. *)
Theorem C68_symmetry_refuted : exists ab o1 o2,
  okp (ul_params o1) /\ okp (ul_params o2) /\ small 50 (ul_params o1) /\ small 50 (ul_params o2) /\
  (forall x, ~ (x == 0)%Q -> (ulcd_fun (ul_params o1) x == ulcd_fun (ul_params o2) x)%Q) /\
  ulcd_is_equiv (ab, o1, 0) (ab, o2, 0) = Ok true /\ ulcd_is_equiv (ab, o2, 0) (ab, o1, 0) = Ok false.
Proof.
  exists ([[1]], [[1]]), (mkUlcd (49, 1, 0, 49) 1 0), (mkUlcd (1, 49, 0, 1) 1 0).
  do 4 (split; [cbn; lia|]). split; [|split; vm_compute; reflexivity].
  intros x X. cbn. change (inject_Z 49) with (49 # 1)%Q. change (inject_Z 1) with 1%Q. change (inject_Z 0) with 0%Q. field.
  exact X.
Qed.
Example C68_ex : ulcd_is_equiv (([[2; 3]], [[5; 0; 1]]), mkUlcd (-14, -3, 21, 35) 1 0, 0)
                               (([[2; 3]], [[5; 0; 1]]), mkUlcd (2, 21, -3, 5) 1 0, 0) = Ok true.
Proof. apply (C68_multiple_first _ _ 7 (-1) 2 3 (-3) 5); cbn; try lia; auto. Qed.

(** ---- C69 ---- *)
(** No ULCD expression is a constant function, yet is_degenerate answers True exactly for u = 1, l = -1 and u = -1, l = 1. *)
Theorem C69_never_constant : forall u l c d, l <> 0 -> d <> 0 ->
  ~ exists k, forall x, ~ (x == 0)%Q -> (ulcd_fun (u, l, c, d) x == k)%Q.
Proof.
  intros u l c d L D [k H]. cbn in H.
  assert (IL : ~ (inject_Z l == 0)%Q) by now rewrite injZ0. assert (ID : ~ (inject_Z d == 0)%Q) by now rewrite injZ0.
  assert (G : forall x, ~ (x == 0)%Q -> (inject_Z u * inject_Z l + x * x + inject_Z c * inject_Z l * x == k * inject_Z d * inject_Z l * x)%Q).
  { intros x X. rewrite <- (H x X). field. auto. }
  set (A := (inject_Z u * inject_Z l)%Q) in *. set (B := (inject_Z c * inject_Z l)%Q) in *. set (C := (k * inject_Z d * inject_Z l)%Q) in *.
  pose proof (G 1%Q ltac:(discriminate)). pose proof (G (2 # 1)%Q ltac:(discriminate)). pose proof (G (3 # 1)%Q ltac:(discriminate)). lra.
Qed.
Theorem C69_degenerate_iff : forall o u l c d, ul_params o = (u, l, c, d) ->
  (ulcd_is_degenerate o = true <-> u = 1 /\ l = -1 \/ u = -1 /\ l = 1).
Proof.
  intros o u l c d E. unfold ulcd_is_degenerate. rewrite E, andb_true_iff, !Z.eqb_eq. lia.
Qed.
Theorem C69_degenerate_refuted : exists o, ulcd_is_degenerate o = true /\
  (ulcd_fun (ul_params o) 1 == 0)%Q /\ (ulcd_fun (ul_params o) (2 # 1) == -3 # 2)%Q.
Proof. exists (mkUlcd (1, -1, 0, 1) 1 0). repeat split; vm_compute; reflexivity. Qed.
Example C69_ex : ulcd_is_degenerate (mkUlcd (-1, 1, 4, 7) (22 # 7) 0) = true /\ ulcd_is_degenerate (mkUlcd (2, -2, 4, 7) (22 # 7) 0) = false.
Proof. split; reflexivity. Qed.

Print Assumptions C38_value.
Print Assumptions C38_value_mpf.
Print Assumptions C38_exact.
Print Assumptions C38_flip.
Print Assumptions C38_add_int.
Print Assumptions C38_after_exception_refuted.
Print Assumptions C39_ranges.
Print Assumptions C39_enum.
Print Assumptions C39_consumer.
Print Assumptions C39_zero_constant.
Print Assumptions C40_representative.
Print Assumptions C40_representative_enumerated.
Print Assumptions C41_sound.
Print Assumptions C41_large_refuted.
Print Assumptions C42_snapshots.
Print Assumptions C62_latex.
Print Assumptions C68_multiple_first.
Print Assumptions C68_symmetry_refuted.
Print Assumptions C69_never_constant.
Print Assumptions C69_degenerate_iff.
Print Assumptions C69_degenerate_refuted.

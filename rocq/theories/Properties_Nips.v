(** Claim C113 (gen_errors_for_nips.py as a whole). *)
From Coq Require Import Ascii String ZArith QArith Qabs Qreals Reals Lra Lia List Bool.
From Verif Require Import PyBase PyBase_Proofs Rnd ContFrac_Model Spec_ContFrac ContFrac_Hist Consts_Model Spec_Consts Errors_Model Errors_Proofs Spec_Errors Spec_Nips Nips_Proofs Properties_Errors.
Import ListNotations.
Local Open Scope R_scope.

(** C113 *)
Lemma zrange_nat (lo hi : nat) : zrange (Z.of_nat lo) (Z.of_nat hi + 1) = map Z.of_nat (seq lo (hi + 1 - lo)).
Proof.
  unfold zrange. replace (Z.to_nat (Z.of_nat hi + 1 - Z.of_nat lo)) with (hi + 1 - lo)%nat by lia. generalize (hi + 1 - lo)%nat. intros n.
  assert (G : forall m s, map (fun i => (Z.of_nat lo + Z.of_nat i)%Z) (seq s m) = map Z.of_nat (seq (s + lo) m)).
  { induction m as [|m IH]; intros s; [reflexivity|]. cbn [seq map]. rewrite IH. f_equal. lia. }
  exact (G n O).
Qed.
Lemma nips_errors_fst k lo hi : map fst (nips_errors k (Z.of_nat lo) (Z.of_nat hi)) = map Z.of_nat (seq lo (hi + 1 - lo)).
Proof. unfold nips_errors. rewrite map_map. cbn [fst]. rewrite map_id. apply zrange_nat. Qed.
Theorem C113_points : forall pt et k first last, Forall is_digit pt -> Forall is_digit et -> (1 <= k <= 4)%nat -> window_of k = (first, last) ->
  exists fit plot, nips_run pt et k = Ok (fit, plot) /\
    map fst fit = map Z.of_nat (seq first (last + 1 - first)) /\ map fst plot = map Z.of_nat (seq 1 last) /\
    forall i e, In (i, e) fit \/ In (i, e) plot -> exists x v, e = Fin x /\ cut (nips_a k) (nips_b k) i = Some v /\
      Rabs (Q2R x - Rabs (Q2R v - limit_of k)) <= Rabs (Q2R v - limit_of k) / 10.
Proof.
  intros pt et k first last H1 H2 Hk W. pose proof (run_eq pt et k H1 H2 Hk) as R. rewrite W in R. cbn [fst snd] in R. do 2 eexists. split; [exact R|].
  split; [apply nips_errors_fst|]. split; [change 1%Z with (Z.of_nat 1); rewrite nips_errors_fst; do 2 f_equal; lia|].
  assert (B : (1 <= first)%nat) by (destruct k as [|[|[|[|[|k]]]]]; inversion W; subst; lia).
  assert (G : forall lo i e, (1 <= lo)%nat -> In (i, e) (nips_errors k (Z.of_nat lo) (Z.of_nat last)) -> exists x v, e = Fin x /\ cut (nips_a k) (nips_b k) i = Some v /\ Rabs (Q2R x - Rabs (Q2R v - limit_of k)) <= Rabs (Q2R v - limit_of k) / 10).
  { intros lo i e Hlo HI. unfold nips_errors in HI. apply in_map_iff in HI as (j & E & Hj). inversion E. subst i e. apply in_zrange in Hj.
    destruct (good_all k (Z.to_nat j) Hk) as (x & v & E1 & E2 & E3 & _); [rewrite W; cbn [snd]; lia|]. rewrite Z2Nat.id in E1 by lia. exists x, v. split; [exact E1|]. split; [exact E2|exact E3]. }
  intros i e [HI|HI]; [exact (G _ _ _ B HI)|exact (G 1%nat _ _ ltac:(lia) HI)].
Qed.
Lemma ok_pair A B (a a' : A) (b b' : B) : Ok (a, b) = Ok (a', b') -> a = a' /\ b = b'.
Proof. intros H. inversion H. split; reflexivity. Qed.
Lemma ok_inj A (a a' : A) : Ok a = Ok a' -> a = a'.
Proof. intros H. inversion H. reflexivity. Qed.
(** A larger window for the third fraction would not give the regression more points. *)
Theorem C113_larger_window : forall pt et p e c last, Forall is_digit pt -> Forall is_digit et -> snd (nips_consts pt et) = Ok (p, e) ->
  cf_new (Nested (nips_a 3)) (Nested (nips_b 3)) true None None (Some (nips_target (rnd 336) p e 3)) true = Ok c -> (130 <= last <= 2000)%nat ->
  exists fit plot, snd (analyze_contfrac (rnd 336) 30 (Z.of_nat last) c) = Ok (fit, plot) /\ map fst fit = map Z.of_nat (seq 31 100).
Proof.
  intros pt et p e c last H1 H2 EC EN HL. rewrite (consts_eq pt et H1 H2) in EC. cbn [snd] in EC. apply ok_pair in EC as [EP EE]. rewrite <- EP, <- EE in EN. change (nips_target (rnd 336) (rnd 336 Consts_Proofs.pi_502) (rnd 336 Consts_Proofs.e_502) 3) with (nt 3) in EN.
  destruct (new_fresh 3 ltac:(lia)) as (c' & E & F). rewrite EN in E. apply ok_inj in E. subst c'. unfold analyze_contfrac.
  pose proof (run_errors 3 c (if (Z.of_nat last >? 2000)%Z then Z.of_nat last else 2000%Z) ltac:(lia) F) as R.
  destruct (Z.gtb_spec (Z.of_nat last) 2000) as [G|G]; [lia|]. specialize (R ltac:(lia)). destruct (build_contfrac_errors (rnd 336) 2000 c) as [c1 r]. cbn [snd] in R. subst r. cbn [snd]. do 2 eexists. split; [reflexivity|].
  unfold fit_points, nips_errors. rewrite slice_map by lia. rewrite (zrange_app (30 + 1) (130 + 1) (Z.of_nat last + 1)), map_app, filter_app by lia.
  rewrite filter_keep, filter_drop, app_nil_r.
  - rewrite map_map. cbn [fst]. rewrite map_id. exact (zrange_nat 31 130).
  - intros i Hi. apply in_zrange in Hi. destruct (lost3 (Z.to_nat i) ltac:(lia)) as (x & E1 & E2). rewrite Z2Nat.id in E1 by lia. rewrite E1. exact E2.
  - intros i Hi. apply in_zrange in Hi. destruct (good_all 3 (Z.to_nat i) ltac:(lia)) as (x & v & E1 & _ & _ & E2); [cbn; lia|]. rewrite Z2Nat.id in E1 by lia. rewrite E1. exact E2.
Qed.
Example C113_ex : Forall is_digit (Hashtable_Model.txt "442881097") /\ window_of 1 = (31, 65)%nat /\
  (forall pt et, Forall is_digit pt -> Forall is_digit et -> snd (nips_consts pt et) = Ok (rnd 336 Consts_Proofs.pi_502, rnd 336 Consts_Proofs.e_502)) /\
  (exists c, cf_new (Nested (nips_a 3)) (Nested (nips_b 3)) true None None (Some (1 # 2)%Q) true = Ok c).
Proof.
  split; [|split; [reflexivity|split]].
  - repeat (constructor; [unfold is_digit; cbn; lia|]). constructor.
  - intros pt et H1 H2. now rewrite (consts_eq pt et H1 H2).
  - eexists. reflexivity.
Qed.

Print Assumptions C113_points.
Print Assumptions C113_larger_window.

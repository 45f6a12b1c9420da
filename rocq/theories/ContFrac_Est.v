(** The estimation loops of cont_fracs.py: termination and the position they leave the fraction in. *)
From Coq Require Import ZArith QArith Qabs List Bool Lia.
From Verif Require Import PyBase PyBase_Proofs Rnd Utils_Model Spec_Utils ContFrac_Model Spec_ContFrac ContFrac_Proofs ContFrac_Hist ContFrac_Proofs2.
Import ListNotations.
Open Scope Z_scope.

Definition is_fast_t (t : atype) : bool := match t with ATFast => true | _ => false end.

(** ---- termination ---- *)
Lemma est_loop1_term rd classify fuel : forall t p iters cutoff step c,
  (cutoff <= 0 \/ Z.log2 cutoff < Z.of_nat fuel) ->
  exists r, forall fuel', (fuel <= fuel')%nat -> est_loop1 rd classify fuel' t p iters cutoff step c = Some r.
Proof.
  induction fuel as [|fuel IH]; intros t p iters cutoff step c H.
  - assert (cutoff <= 0) by (destruct H; [assumption|pose proof (Z.log2_nonneg cutoff); lia]).
    exists (c, Ok (t, p, cutoff)). intros fuel' _. destruct fuel'; cbn [est_loop1];
    replace (cutoff >? 0) with false by lia; rewrite andb_false_r; reflexivity.
  - destruct ((match t with ATFast => true | _ => false end) && (cutoff >? 0)) eqn:E.
    + set (cu := Z.shiftr cutoff 1). set (it := Z.max 50 (Z.shiftr iters 1)).
      set (st := Z.max (int_div30 (it - cu)) (Z.shiftr step 1)).
      apply andb_true_iff in E as E2. destruct E2 as [_ Hc].
      assert (Hcu : cu <= 0 \/ Z.log2 cu < Z.of_nat fuel).
      { destruct H as [H|H]; [lia|]. unfold cu. rewrite Z.shiftr_div_pow2 by lia. change (2 ^ 1) with 2.
        destruct (Z_le_gt_dec cutoff 1); [left; pose proof (Z.div_lt_upper_bound cutoff 2 1); lia|right].
        assert (D : Z.log2 (cutoff / 2) = Z.log2 cutoff - 1).
        { change (cutoff / 2) with (cutoff / 2 ^ 1). rewrite <- (Z.shiftr_div_pow2 cutoff 1) by lia. rewrite Z.log2_shiftr by lia.
          assert (1 <= Z.log2 cutoff) by (change 1 with (Z.log2 2); apply Z.log2_le_mono; lia). lia. }
        lia. }
      destruct (cf_inner_alg rd classify it cu st c) as [c1 [[t1 p1]|e]] eqn:EI.
      * destruct (IH t1 p1 it cu st c1 Hcu) as [r Hr]. exists r. intros fuel' Hf. destruct fuel' as [|f']; [lia|].
        cbn [est_loop1]. rewrite E. fold cu it st. rewrite EI. apply Hr. lia.
      * exists (c1, Raise e). intros fuel' Hf. destruct fuel' as [|f']; [lia|].
        cbn [est_loop1]. rewrite E. fold cu it st. rewrite EI. reflexivity.
    + exists (c, Ok (t, p, cutoff)). intros fuel' _. destruct fuel'; cbn [est_loop1]; rewrite E; reflexivity.
Qed.

Lemma est_loop2_term rd classify fuel : forall t p iters cutoff c,
  iters <= 10 + 5 * Z.of_nat fuel ->
  exists r, forall fuel', (fuel <= fuel')%nat -> est_loop2 rd classify fuel' t p iters cutoff c = Some r.
Proof.
  induction fuel as [|fuel IH]; intros t p iters cutoff c H.
  - exists (c, Ok (t, p)). intros fuel' _. destruct fuel'; cbn [est_loop2];
    replace (iters >? 10) with false by lia; rewrite andb_false_r; reflexivity.
  - destruct ((match t with ATFast => true | _ => false end) && (iters >? 10)) eqn:E.
    + destruct (cf_inner_alg rd classify (iters - 5) (Z.shiftr cutoff 1) 1 c) as [c1 [[t1 p1]|e]] eqn:EI.
      * destruct (IH t1 p1 (iters - 5) (Z.shiftr cutoff 1) c1 ltac:(lia)) as [r Hr]. exists r.
        intros fuel' Hf. destruct fuel' as [|f']; [lia|]. cbn [est_loop2]. rewrite E, EI. apply Hr. lia.
      * exists (c1, Raise e). intros fuel' Hf. destruct fuel' as [|f']; [lia|]. cbn [est_loop2]. rewrite E, EI. reflexivity.
    + exists (c, Ok (t, p)). intros fuel' _. destruct fuel'; cbn [est_loop2]; rewrite E; reflexivity.
Qed.

(** number of rounds that suffice: log2 of the cutoff plus one for the first loop, eight for the second *)
Lemma cf_estimate_term rd classify iters cutoff step c :
  exists r, forall fuel, (Z.to_nat (Z.log2 cutoff) + 9 <= fuel)%nat ->
    cf_estimate rd classify fuel iters cutoff step c = Some r.
Proof.
  unfold cf_estimate. destruct (cf_inner_alg rd classify iters cutoff step c) as [c1 [[t p]|e]].
  2:{ eexists. intros; reflexivity. }
  destruct (est_loop1_term rd classify (Z.to_nat (Z.log2 cutoff) + 9) t p iters cutoff step c1) as [r1 H1].
  { right. pose proof (Z.log2_nonneg cutoff). lia. }
  destruct r1 as [c2 [[[t2 p2] cutoff2]|e]].
  2:{ exists (c2, Raise e). intros fuel Hf. rewrite H1 by assumption. reflexivity. }
  destruct (cutoff2 =? 0) eqn:E.
  - destruct (est_loop2_term rd classify 8 t2 p2 50 cutoff2 c2 ltac:(lia)) as [[c3 [[t3 p3]|e]] H2].
    + eexists. intros fuel Hf. rewrite H1, E, H2 by lia. reflexivity.
    + eexists. intros fuel Hf. rewrite H1, E, H2 by lia. reflexivity.
  - eexists. intros fuel Hf. rewrite H1, E by lia. reflexivity.
Qed.

(** ---- position after one sampling pass ---- *)
Definition five_ops : list cf_call := repeat (CAdd 1 true) 5.
Definition sample_ops (idx : list Z) (step : Z) : list cf_call := flat_map (fun _ => CAdd (step - 5) true :: five_ops) idx.
Definition inner_ops (idx : list Z) (cutoff step : Z) : list cf_call :=
  CGen cutoff true :: five_ops ++ sample_ops idx step.

Lemma cf_run_app rd os1 os2 c : cf_run rd (os1 ++ os2) c =
  match cf_run rd os1 c with (c1, Ok _) => cf_run rd os2 c1 | (c1, Raise e) => (c1, Raise e) end.
Proof.
  revert c. induction os1 as [|o os1 IH]; intros c; [reflexivity|].
  cbn [app cf_run]. destruct (cf_do rd o c) as [c1 [[]|e]]; [apply IH|reflexivity].
Qed.

Lemma five_res_run rd k : forall c acc,
  match cf_run rd (repeat (CAdd 1 true) k) c with
  | (c1, Ok _) => exists l, five_res rd k c acc = (c1, Ok l)
  | (c1, Raise e) => five_res rd k c acc = (c1, Raise e)
  end.
Proof.
  induction k as [|k IH]; intros c acc; cbn [repeat cf_run five_res].
  - eexists. reflexivity.
  - cbn [cf_do]. destruct (cf_add rd 1 true c) as [c1 [[]|e]]; [apply IH|reflexivity].
Qed.

Lemma sample_loop_run rd step idx : forall c acc,
  match cf_run rd (sample_ops idx step) c with
  | (c1, Ok _) => exists l, sample_loop rd idx step c acc = (c1, Ok l)
  | (c1, Raise e) => sample_loop rd idx step c acc = (c1, Raise e)
  end.
Proof.
  induction idx as [|i idx IH]; intros c acc.
  - cbn. eexists. reflexivity.
  - unfold sample_ops. cbn [flat_map]. fold (sample_ops idx step). rewrite <- app_comm_cons. cbn [cf_run cf_do sample_loop].
    destruct (cf_add rd (step - 5) true c) as [c1 [[]|e]]; [|reflexivity].
    rewrite cf_run_app. unfold five_ops. pose proof (five_res_run rd 5 c1 []) as F.
    destruct (cf_run rd (repeat (CAdd 1 true) 5) c1) as [c2 [[]|e]].
    + destruct F as [l F]. rewrite F. apply IH.
    + rewrite F. reflexivity.
Qed.

Lemma inner_alg_run rd classify iters cutoff step c idx :
  py_range3 (cutoff + step) (iters + 1) step = Ok idx ->
  match cf_run rd (inner_ops idx cutoff step) c with
  | (c1, Ok _) => exists s, cf_inner_alg rd classify iters cutoff step c = (c1, classify s)
  | (c1, Raise e) => cf_inner_alg rd classify iters cutoff step c = (c1, Raise e)
  end.
Proof.
  intros R. unfold inner_ops, cf_inner_alg. cbn [cf_run cf_do].
  destruct (cf_gen0 rd cutoff true c) as [c1 [[]|e]]; [|reflexivity].
  rewrite cf_run_app. unfold five_ops. pose proof (five_res_run rd 5 c1 []) as F.
  destruct (cf_run rd (repeat (CAdd 1 true) 5) c1) as [c2 [[]|e]].
  - destruct F as [l F]. rewrite F, R. pose proof (sample_loop_run rd step idx c2 [(cutoff, l)]) as S.
    destruct (cf_run rd (sample_ops idx step) c2) as [c3 [[]|e]].
    + destruct S as [s S]. rewrite S. exists s. reflexivity.
    + rewrite S. reflexivity.
  - rewrite F. reflexivity.
Qed.

(** no zero numerator anywhere: every history succeeds *)
Definition never_bad (av : bool) (b : coeffs) : Prop := forall i, bad_index av b i = false.

Lemma find_never_bad av b l : never_bad av b -> find (bad_index av b) l = None.
Proof. intros N. induction l as [|i l IH]; [reflexivity|]. cbn. rewrite (N i). exact IH. Qed.

Lemma run_ok rd a b av lg tg c0 os : fresh a b av lg tg c0 -> never_bad av b ->
  forall cnt sq c, hinv a b c0 cnt sq c -> exists c', cf_run rd os c = (c', Ok tt).
Proof.
  intros HF N. induction os as [|o os IH]; intros cnt sq c HI.
  - exists c. reflexivity.
  - cbn [cf_run]. destruct o as [n fin|n fin]; cbn [cf_do].
    + pose proof (hinv_gen rd a b av lg tg c0 c n fin HF (proj1 HI)) as G. rewrite find_never_bad in G by assumption.
      destruct G as (c1 & -> & I & _). apply (IH _ _ _ I).
    + pose proof (hinv_add rd a b av lg tg c0 cnt sq c n fin HF HI) as G. rewrite find_never_bad in G by assumption.
      destruct G as (c1 & -> & I & _). apply (IH _ _ _ I).
Qed.

Lemma inner_alg_pos rd classify a b av lg tg c0 c iters cutoff step idx :
  fresh a b av lg tg c0 -> never_bad av b -> same_static c0 c ->
  py_range3 (cutoff + step) (iters + 1) step = Ok idx ->
  exists c' s, cf_inner_alg rd classify iters cutoff step c = (c', classify s) /\ same_static c0 c' /\
    let '(cnt, sq) := index_seq (map call_count (inner_ops idx cutoff step)) 0 [] in
    cf_iters c' = cnt /\ cur_mat c' = fold_left mstep (icoefs a b sq) (cf_first c0).
Proof.
  intros HF N HS R.
  assert (E : cf_run rd (inner_ops idx cutoff step) c = cf_run rd (inner_ops idx cutoff step) (cf_reset c)).
  { unfold inner_ops. cbn [cf_run cf_do]. rewrite (cf_gen0_static_eq rd cutoff true c (cf_reset c)); [reflexivity|].
    unfold cf_reset. apply same_static_set. }
  pose proof (hinv_reset _ _ _ _ _ _ _ HF HS) as HI.
  destruct (run_ok rd a b av lg tg c0 (inner_ops idx cutoff step) HF N _ _ _ HI) as [c' Hc'].
  pose proof (inner_alg_run rd classify iters cutoff step c idx R) as I. rewrite E, Hc' in I.
  destruct I as [s I]. exists c', s. split; [exact I|].
  pose proof (hinv_run rd a b av lg tg c0 _ HF 0 [] _ _ HI Hc') as V.
  destruct (index_seq (map call_count (inner_ops idx cutoff step)) 0 []) as [cnt sq].
  destruct V as (V1 & V2 & V3 & _). auto.
Qed.

(** the default call when every sampling pass is classified 'fast' *)
Lemma default_estimate_pos rd classify a b av lg tg c0 c fuel :
  fresh a b av lg tg c0 -> never_bad av b -> same_static c0 c -> (16 <= fuel)%nat ->
  (forall s, classify s = Ok (ATFast, APNone)) ->
  exists c' sq, cf_estimate rd classify fuel 600 200 50 c = Some (c', Ok tt) /\
    cf_atype c' = ATFast /\ cf_iters c' = 15 /\ length sq = 55%nat /\
    cur_mat c' = fold_left mstep (icoefs a b sq) (cf_first c0).
Proof.
  intros HF N HS Hfuel HC.
  assert (G : forall iters cutoff step idx c, py_range3 (cutoff + step) (iters + 1) step = Ok idx -> same_static c0 c ->
    exists c', cf_inner_alg rd classify iters cutoff step c = (c', Ok (ATFast, APNone)) /\ same_static c0 c' /\
    let '(cnt, sq) := index_seq (map call_count (inner_ops idx cutoff step)) 0 [] in
    cf_iters c' = cnt /\ cur_mat c' = fold_left mstep (icoefs a b sq) (cf_first c0)).
  { intros iters cutoff step idx c1 R S1.
    destruct (inner_alg_pos rd classify a b av lg tg c0 c1 iters cutoff step idx HF N S1 R) as (c' & s & E & S' & V).
    exists c'. rewrite HC in E. auto. }
  clear HC.
  assert (L1 : forall f p it cu st it' cu' st' c, (cu >? 0) = true -> Z.shiftr cu 1 = cu' -> Z.max 50 (Z.shiftr it 1) = it' ->
    Z.max (int_div30 (it' - cu')) (Z.shiftr st 1) = st' -> (exists idx, py_range3 (cu' + st') (it' + 1) st' = Ok idx) -> same_static c0 c ->
    exists c1, same_static c0 c1 /\
    est_loop1 rd classify (S f) ATFast p it cu st c = est_loop1 rd classify f ATFast APNone it' cu' st' c1).
  { intros f p it cu st it' cu' st' c1 H1 H2 H3 H4 [idx H5] S1. destruct (G it' cu' st' idx c1 H5 S1) as (c2 & E & S2 & _).
    exists c2. split; [exact S2|]. cbn [est_loop1]. rewrite H1. cbn [andb]. rewrite H2, H3, H4, E. reflexivity. }
  assert (L2 : forall f p it it' c idx, (it >? 10) = true -> it - 5 = it' -> py_range3 (0 + 1) (it' + 1) 1 = Ok idx -> same_static c0 c ->
    exists c1, same_static c0 c1 /\
    est_loop2 rd classify (S f) ATFast p it 0 c = est_loop2 rd classify f ATFast APNone it' 0 c1 /\
    let '(cnt, sq) := index_seq (map call_count (inner_ops idx 0 1)) 0 [] in
    cf_iters c1 = cnt /\ cur_mat c1 = fold_left mstep (icoefs a b sq) (cf_first c0)).
  { intros f p it it' c1 idx H1 H2 H3 S1. destruct (G it' 0 1 idx c1 H3 S1) as (c2 & E & S2 & V).
    exists c2. split; [exact S2|]. split; [|exact V]. cbn [est_loop2]. rewrite H1. cbn [andb]. change (Z.shiftr 0 1) with 0.
    rewrite H2, E. reflexivity. }
  unfold cf_estimate.
  destruct (G 600 200 50 _ c eq_refl HS) as (c1 & E & S1 & _). rewrite E. clear E HS c.
  do 16 (destruct fuel as [|fuel]; [lia|]). clear Hfuel.
  Ltac r1 L1 it cu st it' cu' st' :=
    match goal with S1 : same_static _ ?c1 |- context [est_loop1 ?rd ?cl (S ?f) ATFast ?p it cu st ?c1] =>
      let c2 := fresh "c" in let S2 := fresh "S" in let E := fresh "E" in
      destruct (L1 f p it cu st it' cu' st' c1 eq_refl eq_refl eq_refl eq_refl (ex_intro _ _ eq_refl) S1) as (c2 & S2 & E);
      rewrite E; clear E S1; clear c1
    end.
  r1 L1 600 200 50 300 100 25. r1 L1 300 100 25 150 50 12. r1 L1 150 50 12 75 25 6. r1 L1 75 25 6 50 12 3.
  r1 L1 50 12 3 50 6 1. r1 L1 50 6 1 50 3 1. r1 L1 50 3 1 50 1 1. r1 L1 50 1 1 50 0 1.
  match goal with |- context [est_loop1 ?rd ?cl (S ?f) ATFast ?p 50 0 1 ?c] =>
    change (est_loop1 rd cl (S f) ATFast p 50 0 1 c) with (Some (c, Ok (ATFast, p, 0))) end.
  cbn iota. change (0 =? 0) with true. cbn iota.
  Ltac r2 L2 it it' :=
    match goal with S1 : same_static _ ?c1 |- context [est_loop2 ?rd ?cl (S ?f) ATFast ?p it 0 ?c1] =>
      let c2 := fresh "c" in let S2 := fresh "S" in let E := fresh "E" in let V := fresh "V" in
      destruct (L2 f p it it' c1 _ eq_refl eq_refl eq_refl S1) as (c2 & S2 & E & V);
      rewrite E; clear E S1; try clear c1
    end.
  r2 L2 50 45. clear V. r2 L2 45 40. clear V. r2 L2 40 35. clear V. r2 L2 35 30. clear V. r2 L2 30 25. clear V.
  r2 L2 25 20. clear V. r2 L2 20 15. clear V. r2 L2 15 10.
  match goal with |- context [est_loop2 ?rd ?cl (S ?f) ATFast ?p 10 0 ?c] =>
    change (est_loop2 rd cl (S f) ATFast p 10 0 c) with (Some (c, @Ok (atype * aparams) (ATFast, p))) end.
  cbn iota.
  match type of V with context [index_seq ?l 0 []] => let x := eval vm_compute in (index_seq l 0 []) in
    change (index_seq l 0 []) with x in V; cbv beta iota in V end.
  destruct V as [V1 V2].
  eexists. eexists. split; [reflexivity|]. split; [reflexivity|]. split; [exact V1|]. split; [|exact V2]. reflexivity.
Qed.

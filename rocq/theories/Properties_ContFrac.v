(** Claims C06-C20, C65, C66, C70 (cont_fracs.py, basic_representation_types.py). *)
From Coq Require Import ZArith QArith Qabs List Bool Lia.
From Verif Require Import PyBase PyBase_Proofs Rnd Rnd_Proofs Utils_Model Spec_Utils ContFrac_Model Spec_ContFrac ContFrac_Proofs ContFrac_Hist ContFrac_Proofs2 ContFrac_Est ContFrac_Fast.
Import ListNotations.
Open Scope Z_scope.

(** Running examples: e-like fraction 1 + 1/(2 + 2/(3 + 3/(...))), an interlaced one, one with b_3 = 0. *)
Definition exa : coeffs := [[1; 1]].
Definition exb : coeffs := [[0; 1]].
Definition exc : contfrac := match cf_new (Nested exa) (Nested exb) true None None (Some 3%Q) false with Ok c => c | Raise _ =>
  {| cf_params := {| pa := []; pb := []; pres := NaN |}; cf_promo := None; cf_first := ((0, 0), (0, 0)); cf_auto_first := true;
     cf_avoid_zero_b := true; cf_target := None; cf_logging := false; cf_atype := ATNone; cf_aparams := APNone; cf_log := []; cf_iters := 0; cf_mats := [] |} end.
Example exc_fresh : fresh exa exb true false (Some 3%Q) exc.
Proof. reflexivity. Qed.

Lemma run_static_of rd os c0 c r : cf_run rd os c0 = (c, r) -> same_static c0 c.
Proof. intros E. pose proof (cf_run_static rd os c0) as S. now rewrite E in S. Qed.

(** C06 *)
Theorem C06_convergent : forall prec a b av lg tg c0 os c r n c' v,
  3 <= prec -> fresh a b av lg tg c0 -> cf_run (rnd prec) os c0 = (c, r) ->
  0 <= n -> cf_gen0 (rnd prec) n true c = (c', Ok tt) ->
  nested (inject_Z (icoef a 0)) (toQ (icoefs a b (map Z.of_nat (seq 1 (Z.to_nat n))))) = Some v ->
  exists P Q, cur_mat c' = ((P, snd (fst (cur_mat c'))), (Q, snd (snd (cur_mat c')))) /\ Q <> 0 /\
    (v == inject_Z P / inject_Z Q)%Q /\
    (lg = false \/ 1 <= n -> exists x, cf_result c' = Fin x /\ approx x v (4 * two_p (- prec))).
Proof.
  intros prec a b av lg tg c0 os c r n c' v Hp HF HR Hn HG HN.
  destruct (gen_state _ _ _ _ _ _ _ _ _ _ _ HF (run_static_of _ _ _ _ _ HR) HG) as (E1 & E2 & E3 & E4).
  fold (upto n) in HN. destruct (nested_cont _ _ _ HN) as [NQ EV].
  exists (contP (icoef a 0) (icoefs a b (upto n))), (contQ (icoefs a b (upto n))).
  split. { rewrite <- E1, <- E2. destruct (cur_mat c') as [[] []]. reflexivity. }
  split; [exact NQ|]. split; [exact EV|]. intros HH. rewrite (E4 eq_refl HH).
  destruct (pq_value_err prec (contP (icoef a 0) (icoefs a b (upto n))) (contQ (icoefs a b (upto n))) Hp NQ) as (x & Ex & Ax).
  exists x. split; [exact Ex|]. unfold approx in *. rewrite EV. exact Ax.
Qed.
Example C06_ex : let r := cf_gen0 (rnd 53) 4 true exc in
  snd r = Ok tt /\ cur_mat (fst r) = ((309, 53), (222, 38)) /\
  nested (inject_Z (icoef exa 0)) (toQ (icoefs exa exb (map Z.of_nat (seq 1 4)))) = Some (309 # 222)%Q.
Proof. repeat split. Qed.

(** C07: gen_iterations(n) then add_iterations of any counts (each with its own exec_finalize flag [f], the last one
    true) ends like one call with the total. *)
Lemma adds_sum : forall rd l k f c, 0 <= k -> Forall (fun kf => 0 <= fst kf) l ->
  let total := k + fold_right Z.add 0 (map fst l) in
  let fl := last (map snd l) f in
  fl = true ->
  let r1 := cf_run rd (CAdd k f :: map (fun kf => CAdd (fst kf) (snd kf)) l) c in
  let r2 := cf_add rd total true c in
  snd r1 = snd r2 /\ (snd r2 = Ok tt -> fst r1 = fst r2).
Proof.
  intros rd. induction l as [|[k2 f2] l IH]; intros k f c Hk Hl; cbn zeta.
  - cbn [map fold_right last cf_run cf_do]. intros ->. rewrite Z.add_0_r.
    destruct (cf_add rd k true c) as [c1 [[]|e]]; cbn; auto.
  - inversion Hl as [|? ? Hk2 Hl']; subst. cbn [fst] in Hk2.
    intros HL. assert (HL2 : last (map snd l) f2 = true) 
      by (destruct l as [|x l]; [exact HL|]; rewrite <- HL; cbn [map last snd]; exact (last_default (map snd (x :: l)) f2 f ltac:(discriminate))).
    assert (Hs : 0 <= fold_right Z.add 0 (map fst l)) by (clear - Hl'; induction Hl'; cbn; lia).
    cbn [map fold_right fst snd]. set (s := k2 + fold_right Z.add 0 (map fst l)).
    pose proof (cf_add_add rd k s f true c Hk ltac:(unfold s; lia)) as A.
    set (rest := map (fun kf : Z * bool => CAdd (fst kf) (snd kf)) l) in *.
    assert (U : cf_run rd (CAdd k f :: CAdd k2 f2 :: rest) c =
      match cf_add rd k f c with (c1, Ok _) => cf_run rd (CAdd k2 f2 :: rest) c1 | (c1, Raise e) => (c1, Raise e) end).
    { cbn [cf_run cf_do]. destruct (cf_add rd k f c) as [c1 [[]|e]]; reflexivity. }
    rewrite U. destruct (cf_add rd k f c) as [c1 [[]|e]].
    + specialize (IH k2 f2 c1 Hk2 Hl'). cbn zeta in IH. destruct (IH HL2) as [I1 I2]. fold s in I1, I2. fold rest in I1, I2.
      destruct (cf_add rd s true c1) as [c2 [[]|e]]; cbn [fst snd] in I1, I2.
      * destruct A as (c3 & -> & _ & _ & _ & E). specialize (E (or_introl eq_refl)). subst c3. cbn [fst snd]. auto.
      * destruct A as (c3 & -> & _). cbn [fst snd]. split; [exact I1|discriminate].
    + rewrite A. cbn. split; [reflexivity|discriminate].
Qed.

Theorem C07_split : forall rd c n f l, 0 <= n -> Forall (fun kf => 0 <= fst kf) l ->
  last (map snd l) f = true ->
  let r1 := cf_run rd (CGen n f :: map (fun kf => CAdd (fst kf) (snd kf)) l) c in
  let r2 := cf_gen0 rd (n + fold_right Z.add 0 (map fst l)) true c in
  snd r1 = snd r2 /\ (snd r2 = Ok tt -> fst r1 = fst r2).
Proof. intros rd c n f l Hn Hl HL. exact (adds_sum rd l n f (cf_reset c) Hn Hl HL). Qed.
Example C07_ex : let l := [(2, false); (0, true); (3, true)] in
  Forall (fun kf => 0 <= fst kf) l /\ last (map snd l) false = true /\
  snd (cf_run (rnd 53) (CGen 4 false :: map (fun kf => CAdd (fst kf) (snd kf)) l) exc) = Ok tt /\
  cf_iters (fst (cf_run (rnd 53) (CGen 4 false :: map (fun kf => CAdd (fst kf) (snd kf)) l) exc)) = 9.
Proof. cbn zeta. split; [repeat constructor; cbn; lia|]. split; [reflexivity|]. split; reflexivity. Qed.

(** C08 *)
Lemma find_zrange f lo hi i : find f (zrange lo hi) = Some i <->
  lo <= i < hi /\ f i = true /\ (forall j, lo <= j < i -> f j = false).
Proof.
  unfold zrange. remember (Z.to_nat (hi - lo)) as k eqn:Ek. revert lo hi Ek.
  induction k as [|k IH]; intros lo hi Ek.
  - cbn. split; [discriminate|]. intros (H & _). lia.
  - cbn [seq map find]. rewrite Z.add_0_r. destruct (f lo) eqn:F.
    + split.
      * intros [= <-]. repeat split; auto; lia.
      * intros (H1 & H2 & H3). destruct (Z.eq_dec i lo); [congruence|]. rewrite H3 in F by lia. discriminate.
    + rewrite <- seq_shift, map_map.
      rewrite (map_ext _ (fun i => lo + 1 + Z.of_nat i)) by (intros; lia).
      rewrite (IH (lo + 1) hi ltac:(lia)). split; intros (H1 & H2 & H3); repeat split; auto; try lia.
      * intros j Hj. destruct (Z.eq_dec j lo); [congruence|]. apply H3. lia.
      * destruct (Z.eq_dec i lo); [congruence|]. lia.
      * intros j Hj. apply H3. lia.
Qed.

Theorem C08_zero_b_exact : forall rd a b lg tg c0 os c r n fin i,
  fresh a b true lg tg c0 -> cf_run rd os c0 = (c, r) ->
  (snd (cf_gen0 rd n fin c) = Raise (ZeroB i) <->
   1 <= i <= n /\ icoef b i = 0 /\ (forall j, 1 <= j < i -> icoef b j <> 0)).
Proof.
  intros rd a b lg tg c0 os c r n fin i HF HR.
  rewrite (gen_outcome rd _ _ _ _ _ _ _ n fin HF (run_static_of _ _ _ _ _ HR)).
  unfold upto. rewrite <- zrange_1.
  destruct (find (bad_index true b) (zrange 1 (1 + n))) as [k|] eqn:F.
  - apply find_zrange in F as (H1 & H2 & H3). unfold bad_index in *.
    assert (G : icoef b k = 0) by (apply andb_true_iff in H2 as [H2 _]; cbn in H2; lia).
    split.
    + intros [= <-]. split; [lia|]. split; [exact G|]. intros j Hj E. specialize (H3 j Hj). rewrite E in H3. cbn in H3. lia.
    + intros (X1 & X2 & X3). destruct (Ztrichotomy i k) as [L|[->|L]]; [|reflexivity|].
      * specialize (H3 i ltac:(lia)). rewrite X2 in H3. cbn in H3. lia.
      * exfalso. apply (X3 k); [lia|exact G].
  - split; [discriminate|]. intros (X1 & X2 & X3).
    pose proof (find_none _ _ F i) as G. rewrite in_zrange in G. specialize (G ltac:(lia)). unfold bad_index in G. rewrite X2 in G. cbn in G. lia.
Qed.
Theorem C08_only_zero_b : forall rd a b av lg tg c0 os c r n fin,
  fresh a b av lg tg c0 -> cf_run rd os c0 = (c, r) ->
  (av = false -> snd (cf_gen0 rd n fin c) = Ok tt) /\
  (snd (cf_gen0 rd n fin c) = Ok tt \/ exists i, snd (cf_gen0 rd n fin c) = Raise (ZeroB i)).
Proof.
  intros rd a b av lg tg c0 os c r n fin HF HR.
  rewrite (gen_outcome rd _ _ _ _ _ _ _ n fin HF (run_static_of _ _ _ _ _ HR)).
  split.
  - intros ->. destruct (find (bad_index false b) (upto n)) as [i|] eqn:F; [|reflexivity].
    apply find_some in F as [_ F]. discriminate F.
  - destruct (find (bad_index av b) (upto n)); eauto.
Qed.
Theorem C08_atomic : forall rd a b av tg c0 os c n fin e,
  fresh a b av false tg c0 -> cf_run rd os c0 = (c, Ok tt) ->
  (snd (cf_add rd n fin c) = Raise e -> fst (cf_add rd n fin c) = c) /\
  (snd (cf_gen0 rd n fin c) = Raise e -> fst (cf_gen0 rd n fin c) = c0).
Proof.
  intros rd a b av tg c0 os c n fin e HF HR. split; intros HE.
  - pose proof (hinv_run rd a b av false tg c0 os HF 0 [] c0 c (hinv_fresh _ _ _ _ _ _ HF) HR) as V.
    destruct (index_seq (map call_count os) 0 []) as [cnt sq].
    pose proof (hinv_add rd a b av false tg c0 cnt sq c n fin HF V) as G.
    destruct (find _ _); [now apply G|]. destruct G as (c' & G & _). rewrite G in HE. discriminate.
  - pose proof (hinv_gen rd a b av false tg c0 c n fin HF (run_static_of _ _ _ _ _ HR)) as G.
    destruct (find _ _).
    + destruct G as [_ G]. rewrite (G eq_refl), (cf_reset_static c0 c (run_static_of _ _ _ _ _ HR)).
      destruct (fresh_inv _ _ _ _ _ _ HF) as (_ & _ & Hp & _ & Hf & _ & _ & _ & Hlog & Hi & Hm & _).
      unfold cf_reset. rewrite <- Hlog, <- Hi, <- Hm. apply set_dyn_id.
    + destruct G as (c' & G & _). rewrite G in HE. discriminate.
Qed.
Example C08_ex : let c := cf_new (Nested [[1; 1]]) (Nested [[-3; 1]; [5]]) true None None None false in
  match c with Ok c0 => snd (cf_gen0 (rnd 53) 10 true c0) = Ok tt | Raise _ => False end /\
  match cf_new (Nested [[1; 1]]) (Nested [[-4; 1]; [5]]) true None None None false with
  | Ok c0 => snd (cf_gen0 (rnd 53) 10 true c0) = Raise (ZeroB 4) /\ snd (cf_gen0 (rnd 53) 3 true c0) = Ok tt
  | Raise _ => False end.
Proof. repeat split. Qed.

(** C09 *)
Lemma prodZ_opp l : prodZ (map Z.opp l) = (-1) ^ Z.of_nat (length l) * prodZ l.
Proof.
  induction l as [|x l IH]; [reflexivity|].
  cbn [map prodZ fold_right length]. fold (prodZ (map Z.opp l)) (prodZ l). rewrite IH, Nat2Z.inj_succ, Z.pow_succ_r by lia. ring.
Qed.
Lemma prodZ_ne l : (forall x, In x l -> x <> 0) -> prodZ l <> 0.
Proof.
  induction l as [|x l IH]; intros H; [cbn; lia|]. cbn [prodZ fold_right]. fold (prodZ l).
  apply Z.neq_mul_0. split; [apply H; now left|apply IH; intros; apply H; now right].
Qed.

Theorem C09_determinant : forall rd a b av lg tg c0 os c r n fin c',
  fresh a b av lg tg c0 -> cf_run rd os c0 = (c, r) -> 0 <= n -> cf_gen0 rd n fin c = (c', Ok tt) ->
  let '((p, p'), (q, q')) := cur_mat c' in
  p * q' - p' * q = (-1) ^ (n + 1) * prodZ (map (fun k => icoef b (Z.of_nat k)) (seq 1 (Z.to_nat n))) /\
  ((forall i, 1 <= i <= n -> icoef b i <> 0) -> ~ (p = 0 /\ q = 0)).
Proof.
  intros rd a b av lg tg c0 os c r n fin c' HF HR Hn HG. pose proof (run_static_of _ _ _ _ _ HR) as HS.
  pose proof (hinv_gen rd a b av lg tg c0 c n fin HF HS) as G.
  rewrite (gen_ok_find _ _ _ _ _ _ _ _ _ _ _ HF HS HG) in G. destruct G as (c1 & E & (_ & _ & M & _) & _).
  rewrite HG in E. injection E as <-.
  destruct (fresh_inv _ _ _ _ _ _ HF) as (_ & _ & _ & _ & Hf & _). rewrite Hf, zrange_1 in M.
  pose proof (msteps_det (icoefs a b (map Z.of_nat (seq 1 (Z.to_nat n)))) ((icoef a 0, 1), (1, 0))) as D. cbn zeta in D.
  rewrite <- M in D. destruct (cur_mat c') as [[p p'] [q q']]. cbn [fst snd] in D.
  assert (D2 : p * q' - p' * q = (-1) ^ (n + 1) * prodZ (map (fun k => icoef b (Z.of_nat k)) (seq 1 (Z.to_nat n)))).
  { rewrite D. unfold icoefs. rewrite !map_map. cbn [snd].
    rewrite <- (map_map (fun k => icoef b (Z.of_nat k)) Z.opp), prodZ_opp, map_length, seq_length, Z2Nat.id by lia.
    rewrite Z.pow_add_r by lia. ring. }
  split; [exact D2|]. intros NZ [-> ->].
  assert (X : prodZ (map (fun k => icoef b (Z.of_nat k)) (seq 1 (Z.to_nat n))) <> 0).
  { apply prodZ_ne. intros x Hx. apply in_map_iff in Hx as (k & <- & Hk). apply in_seq in Hk. apply NZ. lia. }
  assert (Y : (-1) ^ (n + 1) <> 0) by (apply Z.pow_nonzero; lia). nia.
Qed.
Theorem C09_nan_iff : forall prec a b av lg tg c0 os c r n c',
  1 <= prec -> fresh a b av lg tg c0 -> cf_run (rnd prec) os c0 = (c, r) -> 0 <= n ->
  cf_gen0 (rnd prec) n true c = (c', Ok tt) -> lg = false \/ 1 <= n ->
  (cf_result c' = NaN <-> fst (snd (cur_mat c')) = 0).
Proof.
  intros prec a b av lg tg c0 os c r n c' Hp HF HR Hn HG HL.
  destruct (gen_state _ _ _ _ _ _ _ _ _ _ _ HF (run_static_of _ _ _ _ _ HR) HG) as (_ & E2 & _ & E4).
  rewrite (E4 eq_refl HL), E2. now apply pq_value_nan, rnd_rd_ok.
Qed.
Example C09_ex : cur_mat (fst (cf_gen0 (rnd 53) 4 true exc)) = ((309, 53), (222, 38)) /\
  309 * 38 - 53 * 222 = (-1) ^ 5 * (1 * 2 * 3 * 4) /\
  (exists c, cf_new (Nested [[0]]) (Nested [[1]]) true None None None false = Ok c /\ cf_result (fst (cf_gen0 (rnd 53) 1 true c)) = NaN).
Proof. split; [reflexivity|]. split; [reflexivity|]. eexists. split; reflexivity. Qed.

(** C10 *)
Lemma upto_succ n : 0 <= n -> upto (n + 1) = upto n ++ [n + 1].
Proof.
  intros H. unfold upto. rewrite Z2Nat.inj_add by lia. change (Z.to_nat 1) with 1%nat. rewrite seq_app, map_app. cbn. do 2 f_equal. lia.
Qed.
Theorem C10_get_p_q_is_previous : forall rd a b av lg tg c0 os c r n fin c',
  fresh a b av lg tg c0 -> cf_run rd os c0 = (c, r) -> 0 <= n -> cf_gen0 rd (n + 1) fin c = (c', Ok tt) ->
  cf_get_p_q c' = (contP (icoef a 0) (icoefs a b (map Z.of_nat (seq 1 (Z.to_nat n)))),
                   contQ (icoefs a b (map Z.of_nat (seq 1 (Z.to_nat n))))).
Proof.
  intros rd a b av lg tg c0 os c r n fin c' HF HR Hn HG. pose proof (run_static_of _ _ _ _ _ HR) as HS.
  pose proof (hinv_gen rd a b av lg tg c0 c (n + 1) fin HF HS) as G.
  rewrite (gen_ok_find _ _ _ _ _ _ _ _ _ _ _ HF HS HG) in G. destruct G as (c1 & E & (_ & _ & M & _) & _).
  rewrite HG in E. injection E as <-.
  destruct (fresh_inv _ _ _ _ _ _ HF) as (_ & _ & _ & _ & Hf & _). rewrite Hf, zrange_1 in M. fold (upto (n + 1)) in M.
  rewrite upto_succ in M by assumption. unfold icoefs in M. rewrite map_app in M. cbn [map] in M. fold (icoefs a b (upto n)) in M.
  unfold cf_get_p_q. fold (cur_mat c'). rewrite M.
  destruct (msteps_snd (icoefs a b (upto n)) (icoef a (n + 1), icoef b (n + 1)) ((icoef a 0, 1), (1, 0))) as [-> ->].
  destruct (msteps_contPQ (icoef a 0) (icoefs a b (upto n))) as [-> ->]. reflexivity.
Qed.
Theorem C10_get_p_q_initial : forall rd a b av lg tg c0 os c r fin c',
  fresh a b av lg tg c0 -> cf_run rd os c0 = (c, r) -> cf_gen0 rd 0 fin c = (c', Ok tt) -> cf_get_p_q c' = (1, 0).
Proof.
  intros rd a b av lg tg c0 os c r fin c' HF HR HG. pose proof (run_static_of _ _ _ _ _ HR) as HS.
  pose proof (hinv_gen rd a b av lg tg c0 c 0 fin HF HS) as G. cbn [find] in G. change (zrange 1 (1 + 0)) with (@nil Z) in G. cbn [find] in G.
  destruct G as (c1 & E & (_ & _ & M & _) & _). rewrite HG in E. injection E as <-.
  destruct (fresh_inv _ _ _ _ _ _ HF) as (_ & _ & _ & _ & Hf & _). rewrite Hf in M.
  unfold cf_get_p_q. fold (cur_mat c'). rewrite M. reflexivity.
Qed.
(** the docstring ("latest numerator and denominator of the representation of the partial contfrac") is not met *)
Theorem C10_docstring_refuted : exists a b c0 n c', fresh a b true false None c0 /\
  cf_gen0 (rnd 53) n true c0 = (c', Ok tt) /\
  cf_get_p_q c' <> (fst (fst (cur_mat c')), fst (snd (cur_mat c'))).
Proof.
  destruct (cf_new (Nested exa) (Nested exb) true None None None false) as [c|e] eqn:Ec; [|discriminate Ec].
  exists exa, exb, c, 4, (fst (cf_gen0 (rnd 53) 4 true c)). split; [exact Ec|].
  cbn in Ec. injection Ec as <-. split; [vm_compute; reflexivity|]. intros E. vm_compute in E. discriminate.
Qed.
Example C10_ex : cf_get_p_q (fst (cf_gen0 (rnd 53) 4 true exc)) = (53, 38) /\ contP 1 (icoefs exa exb [1; 2; 3]) = 53.
Proof. split; reflexivity. Qed.

(** C11 *)
Theorem C11_logging_same : forall rd a b av tg c0 c1 os1 os2 c2 c3 r2 r3 n fin,
  fresh a b av true tg c0 -> fresh a b av false tg c1 ->
  cf_run rd os1 c0 = (c2, r2) -> cf_run rd os2 c1 = (c3, r3) -> 1 <= n ->
  let l := cf_gen0 rd n fin c2 in let m := cf_gen0 rd n true c3 in
  snd l = snd m /\
  (snd l = Ok tt ->
   cf_result (fst l) = cf_result (fst m) /\ cf_get_p_q (fst l) = cf_get_p_q (fst m) /\
   cf_iters (fst l) = cf_iters (fst m) /\
   map pres (cf_log (fst l)) = Fin 1 :: map (fun k => cf_result (fst (cf_gen0 rd (Z.of_nat k) true c3))) (seq 1 (Z.to_nat n))).
Proof.
  intros rd a b av tg c0 c1 os1 os2 c2 c3 r2 r3 n fin HL HM R1 R2 Hn. cbn zeta.
  pose proof (run_static_of _ _ _ _ _ R1) as S2. pose proof (run_static_of _ _ _ _ _ R2) as S3.
  assert (O : snd (cf_gen0 rd n fin c2) = snd (cf_gen0 rd n true c3)).
  { now rewrite (gen_outcome rd _ _ _ _ _ _ _ n fin HL S2), (gen_outcome rd _ _ _ _ _ _ _ n true HM S3). }
  split; [exact O|]. intros K. rewrite K in O. symmetry in O.
  destruct (cf_gen0 rd n fin c2) as [c4 r4] eqn:E4. destruct (cf_gen0 rd n true c3) as [c5 r5] eqn:E5. cbn [fst snd] in *. subst r4 r5.
  pose proof (gen_ok_find _ _ _ _ _ _ _ _ _ _ _ HL S2 E4) as F.
  destruct (gen_logging rd a b av tg c0 c2 n fin HL S2 ltac:(lia) F) as (c6 & E6 & Hm & Hl & Hi).
  rewrite E4 in E6. injection E6 as <-.
  pose proof (hinv_gen rd a b av false tg c1 c3 n true HM S3) as G. rewrite F in G.
  destruct G as (c6 & E6 & (_ & I6 & M6 & _) & X6). rewrite E5 in E6. injection E6 as <-. destruct (X6 eq_refl) as [X1 X2].
  pose proof (hinv_gen rd a b av true tg c0 c2 n fin HL S2) as G. rewrite F in G.
  destruct G as (c7 & E7 & (_ & I7 & M7 & _) & _). rewrite E4 in E7. injection E7 as <-.
  destruct (fresh_inv _ _ _ _ _ _ HL) as (_ & _ & Hp & _ & Hf & _).
  destruct (fresh_inv _ _ _ _ _ _ HM) as (_ & _ & Hp' & _ & Hf' & _).
  assert (MM : cur_mat c4 = cur_mat c5) by (rewrite M6, M7, Hf, Hf'; reflexivity).
  assert (V : forall k, (k <= Z.to_nat n)%nat ->
     cf_result (fst (cf_gen0 rd (Z.of_nat k) true c3)) = pres (with_res rd (cf_params c0) (fold_left mstep (icoefs a b (map Z.of_nat (seq 1 k))) (cf_first c0)))).
  { intros k Hk.
    pose proof (hinv_gen rd a b av false tg c1 c3 (Z.of_nat k) true HM S3) as G.
    assert (Fk : find (bad_index av b) (zrange 1 (1 + Z.of_nat k)) = None).
    { destruct (find (bad_index av b) (zrange 1 (1 + Z.of_nat k))) as [i|] eqn:Ei; [|reflexivity].
      apply find_some in Ei as [Ei Bi]. rewrite in_zrange in Ei.
      pose proof (find_none _ _ F i) as N. rewrite in_zrange in N. rewrite N in Bi by lia. discriminate. }
    rewrite Fk in G. destruct G as (c8 & E8 & (_ & _ & M8 & _) & X8). rewrite E8. cbn [fst]. destruct (X8 eq_refl) as [X9 _].
    unfold cf_result. rewrite X9. cbn [last with_res pres]. rewrite M8, Hf', Hf, zrange_1, Nat2Z.id. reflexivity. }
  assert (LG : map pres (cf_log c4) = Fin 1 :: map (fun k => cf_result (fst (cf_gen0 rd (Z.of_nat k) true c3))) (seq 1 (Z.to_nat n))).
  { rewrite Hl. cbn [map]. rewrite Hp. cbn [pres]. f_equal. rewrite map_map. apply map_ext_in. intros k Hk. apply in_seq in Hk.
    rewrite V by lia. rewrite Hp. reflexivity. }
  split; [|split; [|split]].
  - transitivity (last (map pres (cf_log c4)) (pres (cf_params c4))); [unfold cf_result; now rewrite last_map|]. rewrite LG.
    destruct (Z.to_nat n) as [|n'] eqn:En; [lia|].
    replace (seq 1 (S n')) with (seq 1 n' ++ [S n']) by (replace (S n') with (n' + 1)%nat at 2 by lia; rewrite seq_app; reflexivity).
    rewrite map_app. cbn [map]. rewrite app_comm_cons, last_snoc.
    replace (Z.of_nat (S n')) with n by lia. rewrite E5. reflexivity.
  - unfold cf_get_p_q. fold (cur_mat c4) (cur_mat c5). rewrite MM. reflexivity.
  - congruence.
  - exact LG.
Qed.
Theorem C11_zero_iterations_differ : forall prec a b av tg c0 c1, 1 <= prec ->
  fresh a b av true tg c0 -> fresh a b av false tg c1 ->
  cf_result (fst (cf_gen0 (rnd prec) 0 true c0)) = Fin 1 /\
  exists x, cf_result (fst (cf_gen0 (rnd prec) 0 true c1)) = Fin x /\ (x == rnd prec (inject_Z (icoef a 0)))%Q.
Proof.
  intros prec a b av tg c0 c1 Hp HL HM. split.
  - destruct (gen_logging (rnd prec) a b av tg c0 c0 0 true HL (same_static_refl _) ltac:(lia) eq_refl) as (c' & E & _ & Hl & _).
    rewrite E. cbn [fst]. unfold cf_result. rewrite Hl. destruct (fresh_inv _ _ _ _ _ _ HL) as (_ & _ & -> & _). reflexivity.
  - pose proof (hinv_gen (rnd prec) a b av false tg c1 c1 0 true HM (same_static_refl _)) as G.
    change (zrange 1 (1 + 0)) with (@nil Z) in G. cbn [find] in G. destruct G as (c' & E & _).
    destruct (gen_state _ _ _ _ _ _ _ _ _ _ _ HM (same_static_refl _) E) as (_ & _ & _ & R). rewrite E. cbn [fst].
    rewrite (R eq_refl (or_introl eq_refl)). cbn [upto Z.to_nat seq map icoefs]. unfold contP, contQ. cbn [cont_xy fst snd].
    rewrite Z.mul_1_r, Z.add_0_r. unfold pq_value.
    assert (R1 : rnd prec (inject_Z 1) = inject_Z 1).
    { rewrite <- rnd_red, <- (Qred_inject_Z 1). apply Qred_complete. apply rnd_exact_Z; [exact Hp|].
      change (Z.abs 1) with (2 ^ 0). apply Z.pow_le_mono_r; lia. }
    rewrite R1. cbn [Qeq_bool]. change (Qeq_bool (inject_Z 1) 0) with false. cbn iota. eexists. split; [reflexivity|].
    unfold rdiv. rewrite (rnd_Qeq prec _ (rnd prec (inject_Z (icoef a 0)))).
    + rewrite rnd_idem by exact Hp. reflexivity.
    + change (inject_Z 1) with 1%Q. unfold Qdiv. change (/ 1)%Q with 1%Q. apply Qmult_1_r.
Qed.
Example C11_ex : exists c, fresh exa exb true true None c /\ snd (cf_gen0 (rnd 53) 3 true c) = Ok tt /\
   length (cf_log (fst (cf_gen0 (rnd 53) 3 true c))) = 4%nat.
Proof. eexists. split; [reflexivity|]. split; reflexivity. Qed.

(** C12 *)
Theorem C12_counter_in_step : forall rd a b av lg tg c0 os c,
  fresh a b av lg tg c0 -> Forall (fun o => 0 <= snd (call_count o)) os -> cf_run rd os c0 = (c, Ok tt) ->
  0 <= cf_iters c /\
  let l := icoefs a b (map Z.of_nat (seq 1 (Z.to_nat (cf_iters c)))) in
  fst (fst (cur_mat c)) = contP (icoef a 0) l /\ fst (snd (cur_mat c)) = contQ l.
Proof.
  intros rd a b av lg tg c0 os c HF HO HR. cbn zeta.
  pose proof (hinv_run rd a b av lg tg c0 os HF 0 [] c0 c (hinv_fresh _ _ _ _ _ _ HF) HR) as V.
  pose proof (index_seq_nonneg (map call_count os) 0 ltac:(lia)) as W.
  change (map Z.of_nat (seq 1 (Z.to_nat 0))) with (@nil Z) in W.
  destruct (index_seq (map call_count os) 0 []) as [cnt sq].
  destruct W as [W1 ->]. { apply Forall_map. exact HO. }
  destruct V as (_ & V1 & V2 & _). subst cnt. split; [exact W1|].
  destruct (fresh_inv _ _ _ _ _ _ HF) as (_ & _ & _ & _ & Hf & _). rewrite V2, Hf. apply msteps_contPQ.
Qed.
(** a caller that catches exceptions and goes on (no logging): still in step *)
Fixpoint run_catch (rd : Q -> Q) (os : list cf_call) (c : contfrac) : contfrac :=
  match os with [] => c | o :: r => run_catch rd r (fst (cf_do rd o c)) end.
Theorem C12_counter_in_step_after_exceptions : forall rd a b av tg c0 os,
  fresh a b av false tg c0 -> Forall (fun o => 0 <= snd (call_count o)) os ->
  let c := run_catch rd os c0 in
  0 <= cf_iters c /\
  let l := icoefs a b (map Z.of_nat (seq 1 (Z.to_nat (cf_iters c)))) in
  fst (fst (cur_mat c)) = contP (icoef a 0) l /\ fst (snd (cur_mat c)) = contQ l.
Proof.
  intros rd a b av tg c0 os HF HO. cbn zeta.
  assert (G : forall k c, 0 <= k -> hinv a b c0 k (upto k) c -> exists k', 0 <= k' /\ hinv a b c0 k' (upto k') (run_catch rd os c)).
  { clear - HF HO. induction HO as [|o os Ho HO IH]; intros k c Hk HI; [exists k; auto|]. cbn [run_catch].
    destruct o as [n fin|n fin]; cbn [call_count snd] in Ho; cbn [cf_do].
    - pose proof (hinv_gen rd a b av false tg c0 c n fin HF (proj1 HI)) as G.
      destruct (find _ _).
      + destruct G as [_ G]. rewrite (G eq_refl). apply (IH 0); [lia|]. exact (hinv_reset _ _ _ _ _ _ _ HF (proj1 HI)).
      + destruct G as (c' & E & I & _). rewrite E. apply (IH n); [lia|]. rewrite zrange_1 in I. exact I.
    - pose proof (hinv_add rd a b av false tg c0 k (upto k) c n fin HF HI) as G.
      destruct (find _ _).
      + destruct G as [_ G]. rewrite (G eq_refl). apply (IH k); auto.
      + destruct G as (c' & E & I & _). rewrite E. apply (IH (k + n)); [lia|].
        replace (upto (k + n)) with (upto k ++ zrange (k + 1) (k + 1 + n)); [exact I|].
        unfold upto. rewrite <- !zrange_1. replace (k + 1) with (1 + k) by lia. replace (1 + (k + n)) with (1 + k + n) by lia.
        symmetry. apply zrange_app. lia. }
  destruct (G 0 c0 ltac:(lia) (hinv_fresh _ _ _ _ _ _ HF)) as (k & Hk & _ & I1 & M & _).
  rewrite I1. split; [exact Hk|].
  destruct (fresh_inv _ _ _ _ _ _ HF) as (_ & _ & _ & _ & Hf & _). rewrite M, Hf. apply msteps_contPQ.
Qed.
(** with logging an exception leaves counter and fraction out of step *)
Theorem C12_logging_exception_refuted : exists a b c0 os,
  fresh a b true true None c0 /\ Forall (fun o => 0 <= snd (call_count o)) os /\
  let c := run_catch (rnd 53) os c0 in
  fst (fst (cur_mat c)) <> contP (icoef a 0) (icoefs a b (map Z.of_nat (seq 1 (Z.to_nat (cf_iters c))))).
Proof.
  destruct (cf_new (Nested [[1; 1]]) (Nested [[-3; 1]]) true None None None true) as [c|e] eqn:Ec; [|discriminate Ec].
  exists [[1; 1]], [[-3; 1]], c, [CGen 5 true]. split; [exact Ec|]. cbn in Ec. injection Ec as <-.
  split; [repeat constructor; cbn; lia|]. intros E. vm_compute in E. discriminate.
Qed.
Theorem C12_negative_count : forall rd c n, n < 0 ->
  let r := cf_add rd n false c in
  snd r = Ok tt /\ cf_iters (fst r) = cf_iters c + n /\ cur_mat (fst r) = cur_mat c.
Proof.
  intros rd c n Hn. cbn zeta. rewrite cf_add_spec. cbn zeta. rewrite zrange_nil by lia. cbn [ltrace map]. rewrite !app_nil_r.
  cbn [snd fst]. split; [reflexivity|]. destruct (cf_logging c); split; reflexivity.
Qed.
Theorem C12_default_estimate_out_of_step : forall rd classify a b av lg tg c0 c fuel,
  fresh a b av lg tg c0 -> (forall i, 0 < i -> icoef b i <> 0) -> same_static c0 c -> (16 <= fuel)%nat ->
  (forall s, classify s = Ok (ATFast, APNone)) ->
  exists c' sq, cf_estimate rd classify fuel 600 200 50 c = Some (c', Ok tt) /\
    cf_atype c' = ATFast /\ cf_iters c' = 15 /\ length sq = 55%nat /\
    fst (fst (cur_mat c')) = contP (icoef a 0) (icoefs a b sq) /\ fst (snd (cur_mat c')) = contQ (icoefs a b sq).
Proof.
  intros rd classify a b av lg tg c0 c fuel HF HB HS Hf HC.
  assert (N : never_bad av b).
  { intros i. unfold bad_index. destruct (i >? 0) eqn:E; [|apply andb_false_r].
    specialize (HB i ltac:(lia)). replace (icoef b i =? 0) with false by lia. rewrite andb_false_r. reflexivity. }
  destruct (default_estimate_pos rd classify a b av lg tg c0 c fuel HF N HS Hf HC) as (c' & sq & E1 & E2 & E3 & E4 & E5).
  exists c', sq. split; [exact E1|]. split; [exact E2|]. split; [exact E3|]. split; [exact E4|].
  destruct (fresh_inv _ _ _ _ _ _ HF) as (_ & _ & _ & _ & Hfi & _). rewrite E5, Hfi. apply msteps_contPQ.
Qed.
Example C12_ex : (forall i, 0 < i -> icoef exb i <> 0) /\
  Forall (fun o => 0 <= snd (call_count o)) [CGen 3 true; CAdd 2 false; CGen 1 true; CAdd 4 true] /\
  cf_iters (fst (cf_run (rnd 53) [CGen 3 true; CAdd 2 false; CGen 1 true; CAdd 4 true] exc)) = 5.
Proof.
  split. { intros i Hi. unfold icoef, exb. cbn [length]. change (Z.of_nat 1) with 1. rewrite Z.mod_1_r. cbn [Z.to_nat nth poly_val]. lia. }
  split; [repeat constructor; cbn; lia|]. reflexivity.
Qed.

(** C13 *)
Theorem C13_eval_sign : forall prec a b d, 1 <= prec -> 1 <= d -> a <> [] -> b <> [] ->
  eval_dec_contfrac_by_polys (rnd prec) (Nested (map (map Z.opp) a)) (Nested b) d =
  match eval_dec_contfrac_by_polys (rnd prec) (Nested a) (Nested b) d with Ok x => Ok (- x)%Q | Raise e => Raise e end.
Proof. intros prec a b d Hp Hd Na Nb. exact (eval_dec_neg (rnd prec) a b d (rnd_rd_ok prec Hp) Hd Na Nb). Qed.
Theorem C13_contfrac_sign : forall prec a b av lg tg c0 c1 os os1 c2 c3 r2 r3 n,
  1 <= prec -> fresh a b av lg tg c0 -> fresh (map (map Z.opp) a) b av lg tg c1 ->
  cf_run (rnd prec) os c0 = (c2, r2) -> cf_run (rnd prec) os1 c1 = (c3, r3) -> lg = false \/ 1 <= n ->
  snd (cf_gen0 (rnd prec) n true c3) = snd (cf_gen0 (rnd prec) n true c2) /\
  (snd (cf_gen0 (rnd prec) n true c2) = Ok tt ->
   cf_result (fst (cf_gen0 (rnd prec) n true c3)) =
   match cf_result (fst (cf_gen0 (rnd prec) n true c2)) with Fin x => Fin (- x)%Q | NaN => NaN end).
Proof.
  intros prec a b av lg tg c0 c1 os os1 c2 c3 r2 r3 n Hp HF HF1 HR HR1 HL.
  pose proof (run_static_of _ _ _ _ _ HR) as S2. pose proof (run_static_of _ _ _ _ _ HR1) as S3.
  assert (O : snd (cf_gen0 (rnd prec) n true c3) = snd (cf_gen0 (rnd prec) n true c2)).
  { now rewrite (gen_outcome _ _ _ _ _ _ _ _ n true HF S2), (gen_outcome _ _ _ _ _ _ _ _ n true HF1 S3). }
  split; [exact O|]. intros K. rewrite K in O.
  destruct (cf_gen0 (rnd prec) n true c2) as [c4 r4] eqn:E4. destruct (cf_gen0 (rnd prec) n true c3) as [c5 r5] eqn:E5. cbn [fst snd] in *. subst r4 r5.
  destruct (gen_state _ _ _ _ _ _ _ _ _ _ _ HF S2 E4) as (_ & _ & _ & R4).
  destruct (gen_state _ _ _ _ _ _ _ _ _ _ _ HF1 S3 E5) as (_ & _ & _ & R5).
  rewrite (R4 eq_refl HL), (R5 eq_refl HL). fold (neg_coeffs a). rewrite icoef_neg, icoefs_neg.
  apply (contPQ_neg (rnd prec)). now apply rnd_rd_ok.
Qed.
Example C13_ex : eval_dec_contfrac_by_polys (rnd 10) (Nested [[1; 1]; [3]]) (Nested [[0; 1]]) 5 = Ok (657 # 512)%Q /\
  eval_dec_contfrac_by_polys (rnd 10) (Nested [[-1; -1]; [-3]]) (Nested [[0; 1]]) 5 = Ok (-657 # 512)%Q.
Proof. split; reflexivity. Qed.

(** C14 *)
Theorem C14_eval_contfrac : forall a0 aa bb, length aa = length bb ->
  match nested a0 (combine aa bb) with
  | Some v => exists v', eval_contfrac Qred (a0 :: aa) (Some bb) = Ok v' /\ (v' == v)%Q
  | None => eval_contfrac Qred (a0 :: aa) (Some bb) = Raise ZeroDivisionError
  end.
Proof. intros a0 aa bb H. rewrite eval_contfrac_rec by exact H. apply eval_rec_exact. Qed.
Theorem C14_default_numerators : forall rd a0 aa,
  eval_contfrac rd (a0 :: aa) None = eval_contfrac rd (a0 :: aa) (Some (map (fun _ => 1%Q) aa)).
Proof.
  intros rd a0 aa. unfold eval_contfrac. cbn [length]. rewrite Nat.sub_succ, Nat.sub_0_r.
  replace (repeat 1%Q (length aa)) with (map (fun _ : Q => 1%Q) aa); [reflexivity|]. induction aa; cbn; congruence.
Qed.
Theorem C14_length_error : forall rd a bb,
  (eval_contfrac rd a (Some bb) = Raise ValueError <-> length a <> length bb /\ length a <> (length bb + 1)%nat).
Proof.
  assert (G : forall rd l x e, foldM (eval_step rd) l x = Raise e -> e = ZeroDivisionError).
  { intros rd. induction l as [|[u v] l IH]; intros x e; [discriminate|]. cbn [foldM eval_step].
    destruct (Qeq_bool x 0); cbn [bind]; [now intros [= <-]|apply IH]. }
  intros rd a bb. unfold eval_contfrac.
  destruct (Nat.eqb_spec (length a) (length bb)) as [E1|E1]; [|destruct (Nat.eqb_spec (length a) (length bb + 1)) as [E2|E2]].
  - split; [intros H; apply G in H; discriminate|intros [H _]; contradiction].
  - split; [intros H; apply G in H; discriminate|intros [_ H]; contradiction].
  - split; auto.
Qed.
Example C14_ex : eval_contfrac Qred [1; 2; 2]%Q (Some [1; 3]%Q) = Ok (9 # 7)%Q /\
  eval_contfrac Qred [1; 2; 0]%Q (Some [1; 1]%Q) = Raise ZeroDivisionError /\ eval_contfrac Qred [1; 2; 2]%Q None = Ok (7 # 5)%Q.
Proof. repeat split. Qed.

(** C15 *)
Theorem C15_equal_lengths : forall a0 aa bb, length (a0 :: aa) = length bb ->
  match nested a0 (combine (aa ++ [1%Q]) bb) with
  | Some v => exists v', eval_contfrac Qred (a0 :: aa) (Some bb) = Ok v' /\ (v' == v)%Q
  | None => eval_contfrac Qred (a0 :: aa) (Some bb) = Raise ZeroDivisionError
  end.
Proof.
  intros a0 aa bb H. rewrite eval_contfrac_eq_len by exact H. cbn [app].
  apply C14_eval_contfrac. rewrite app_length. cbn in *. lia.
Qed.
(** the documented b[0]/(a[0]+b[1]/...) *)
Theorem C15_documented_formula_refuted : exists a bb v v', length a = length bb /\
  nested 0 (combine a bb) = Some v /\ eval_contfrac Qred a (Some bb) = Ok v' /\ ~ (v' == v)%Q.
Proof.
  exists [2%Q; 1%Q], [3%Q; 1%Q]. do 2 eexists. split; [reflexivity|]. split; [reflexivity|]. split; [reflexivity|].
  intros E. vm_compute in E. discriminate.
Qed.
Example C15_ex : eval_contfrac Qred [2; 5]%Q (Some [3; 1]%Q) = Ok (5 # 2)%Q.
Proof. reflexivity. Qed.

(** C16 *)
Theorem C16_eval_dec : forall a b n, a <> [] -> b <> [] -> 0 <= n ->
  match nested (inject_Z (icoef a 0)) (toQ (icoefs a b (map Z.of_nat (seq 1 (Z.to_nat n))))) with
  | Some v => exists v', eval_dec_contfrac_by_polys Qred (Nested a) (Nested b) (n + 1) = Ok v' /\ (v' == v)%Q
  | None => eval_dec_contfrac_by_polys Qred (Nested a) (Nested b) (n + 1) = Raise ZeroDivisionError
  end.
Proof.
  intros a b n Na Nb Hn. rewrite eval_dec_rec by assumption. rewrite rcoef_exact, rcoefs_exact. apply eval_rec_exact.
Qed.
Theorem C16_engines_agree : forall rd a b av lg tg c0 os c r n fin c' v,
  fresh a b av lg tg c0 -> cf_run rd os c0 = (c, r) -> 0 <= n -> cf_gen0 rd n fin c = (c', Ok tt) ->
  eval_dec_contfrac_by_polys Qred (Nested a) (Nested b) (n + 1) = Ok v ->
  fst (snd (cur_mat c')) <> 0 /\ (v == inject_Z (fst (fst (cur_mat c'))) / inject_Z (fst (snd (cur_mat c'))))%Q.
Proof.
  intros rd a b av lg tg c0 os c r n fin c' v HF HR Hn HG HE.
  destruct (fresh_inv _ _ _ _ _ _ HF) as (Na & Nb & _).
  pose proof (C16_eval_dec a b n Na Nb Hn) as G.
  destruct (gen_state _ _ _ _ _ _ _ _ _ _ _ HF (run_static_of _ _ _ _ _ HR) HG) as (E1 & E2 & _). rewrite E1, E2.
  fold (upto n) in G. destruct (nested (inject_Z (icoef a 0)) (toQ (icoefs a b (upto n)))) as [w|] eqn:EN.
  - destruct G as (v' & G1 & G2). rewrite HE in G1. injection G1 as <-. destruct (nested_cont _ _ _ EN) as [N1 N2].
    split; [exact N1|]. rewrite G2. exact N2.
  - rewrite HE in G. discriminate.
Qed.
Theorem C16_depth_nonpositive : forall rd a b d, a <> [] -> b <> [] -> d <= 0 ->
  eval_dec_contfrac_by_polys rd (Nested a) (Nested b) d = Ok 1%Q.
Proof. exact eval_dec_nonpos. Qed.
Example C16_ex : eval_dec_contfrac_by_polys Qred (Nested exa) (Nested exb) 5 = Ok (103 # 74)%Q /\ (103 # 74 == 309 / 222)%Q.
Proof. split; reflexivity. Qed.

(** C17 *)
Theorem C17_squeeze_eval : forall rd p k q m d, (1 <= k)%nat -> (1 <= m)%nat ->
  eval_dec_contfrac_by_polys rd (Nested (repeat p k)) (Nested (repeat q m)) d =
  eval_dec_contfrac_by_polys rd (Nested [p]) (Nested [q]) d.
Proof.
  intros rd p k q m d Hk Hm. apply eval_dec_ext; try (now apply repeat_ne); try discriminate; intros i; now apply rcoef_squeeze.
Qed.
Theorem C17_squeeze_a : forall rd p k b d, (1 <= k)%nat -> b <> [] ->
  eval_dec_contfrac_by_polys rd (Nested (repeat p k)) (Nested b) d = eval_dec_contfrac_by_polys rd (Nested [p]) (Nested b) d.
Proof.
  intros rd p k b d Hk Hb. apply eval_dec_ext; auto; try (now apply repeat_ne); try discriminate; intros i; now apply rcoef_squeeze.
Qed.
Theorem C17_squeeze_b : forall rd a q m d, (1 <= m)%nat -> a <> [] ->
  eval_dec_contfrac_by_polys rd (Nested a) (Nested (repeat q m)) d = eval_dec_contfrac_by_polys rd (Nested a) (Nested [q]) d.
Proof.
  intros rd a q m d Hm Ha. apply eval_dec_ext; auto; try (now apply repeat_ne); try discriminate; intros i; now apply rcoef_squeeze.
Qed.
Theorem C17_squeeze_contfrac : forall rd p k q m av lg tg c0 c1 n fin, (1 <= k)%nat -> (1 <= m)%nat ->
  fresh (repeat p k) (repeat q m) av lg tg c0 -> fresh [p] [q] av lg tg c1 ->
  let r := cf_gen0 rd n fin c0 in let r' := cf_gen0 rd n fin c1 in
  snd r = snd r' /\ (snd r = Ok tt -> cur_mat (fst r) = cur_mat (fst r') /\ cf_get_p_q (fst r) = cf_get_p_q (fst r') /\
     cf_iters (fst r) = cf_iters (fst r') /\
     (fin = true -> lg = false \/ 1 <= n -> cf_result (fst r) = cf_result (fst r'))).
Proof.
  intros rd p k q m av lg tg c0 c1 n fin Hk Hm HF HF1.
  apply (gen_ext rd (repeat p k) [p] (repeat q m) [q] av lg tg c0 c1 n fin HF HF1); intros i; now apply icoef_squeeze.
Qed.
Example C17_ex : eval_dec_contfrac_by_polys (rnd 20) (Nested [[1; 1]; [1; 1]; [1; 1]]) (Nested [[2; 1]; [2; 1]]) 6
  = eval_dec_contfrac_by_polys (rnd 20) (Nested [[1; 1]]) (Nested [[2; 1]]) 6 /\
  exists c, fresh (repeat [1; 1] 3) (repeat [2; 1] 2) true false None c.
Proof. split; [reflexivity|]. eexists. reflexivity. Qed.

(** C18 *)
Theorem C18_history_independent : forall rd rd' os c0 c r iters cutoff step,
  cf_run rd' os c0 = (c, r) ->
  cf_is_fast rd iters cutoff step c = cf_is_fast rd iters cutoff step c0.
Proof.
  intros rd rd' os c0 c r iters cutoff step HR. apply is_fast_static_eq. exact (run_static_of _ _ _ _ _ HR).
Qed.
Theorem C18_resets : forall rd iters cutoff step c c' v,
  cf_is_fast rd iters cutoff step c = (c', Ok v) -> cf_gen0 rd 0 true c = (c', Ok tt).
Proof. exact is_fast_resets. Qed.
Example C18_ex : match cf_new (Nested [[1]]) (Nested [[1]]) true None None None false with
  | Ok c => snd (cf_is_fast (rnd 53) 30 10 6 c) = Ok true | Raise _ => False end /\
  match cf_new (Nested [[2]]) (Nested [[1; -4; 4]]) true None None None false with
  | Ok c => snd (cf_is_fast (rnd 53) 300 200 50 c) = Ok false | Raise _ => False end.
Proof. split; vm_compute; reflexivity. Qed.

(** C19 *)
Lemma compare_cases : forall rd c tgt calc_abs,
  cf_compare rd tgt calc_abs c =
  match (match tgt with Some t => Some t | None => cf_target c end) with
  | None => Raise ValueError
  | Some t => match cf_result c with
              | NaN => Ok NaN
              | Fin r => Ok (Fin (if calc_abs then Qabs (rd (r - t)) else rd (r - t)))
              end
  end%Q.
Proof.
  intros rd c tgt calc_abs. unfold cf_compare. destruct tgt as [t|]; [|destruct (cf_target c) as [t|]]; cbn [bind];
  try destruct (cf_result c); reflexivity.
Qed.
Theorem C19_compare : forall prec c tgt calc_abs r t, 1 <= prec ->
  (match tgt with Some t => Some t | None => cf_target c end) = Some t -> cf_result c = Fin r ->
  exists d, cf_compare (rnd prec) tgt calc_abs c = Ok (Fin d) /\
    approx d (if calc_abs then Qabs (r - t) else (r - t)) (two_p (- prec)) /\
    (d == 0 <-> r == t)%Q /\ (calc_abs = true -> 0 <= d)%Q.
Proof.
  intros prec c tgt calc_abs r t Hp Ht Hr. rewrite compare_cases, Ht, Hr. eexists. split; [reflexivity|].
  pose proof (rnd_err prec (r - t)) as E. split; [|split].
  - unfold approx. destruct calc_abs; [|exact E].
    assert (A : (Qabs (Qabs (r - t)) == Qabs (r - t))%Q) by (apply Qabs_pos, Qabs_nonneg). rewrite A.
    eapply Qle_trans; [|exact E]. apply Qabs_case; intros _; [apply Qabs_triangle_reverse|].
    pose proof (Qabs_triangle_reverse (r - t) (rnd prec (r - t))) as B. rewrite (Qabs_Qminus (r - t)) in B.
    setoid_replace (- (Qabs (rnd prec (r - t)) - Qabs (r - t)))%Q with (Qabs (r - t) - Qabs (rnd prec (r - t)))%Q by ring. exact B.
  - assert (A : (rnd prec (r - t) == 0 <-> r == t)%Q).
    { rewrite rnd_zero_iff by exact Hp. split; intros H; [|rewrite H; ring].
      setoid_replace r with ((r - t) + t)%Q by ring. rewrite H. ring. }
    destruct calc_abs; [|exact A]. rewrite <- A. split; intros H.
    + apply Qabs_case in H || idtac. revert H. apply (Qabs_case _ (fun q => q == 0 -> rnd prec (r - t) == 0)%Q); intros _ H; [exact H|].
      rewrite <- (Qopp_involutive (rnd prec (r - t))), H. reflexivity.
    + rewrite H. reflexivity.
  - intros ->. apply Qabs_nonneg.
Qed.
Theorem C19_value_error : forall prec c tgt calc_abs,
  (cf_compare (rnd prec) tgt calc_abs c = Raise ValueError <-> tgt = None /\ cf_target c = None) /\
  (forall e, cf_compare (rnd prec) tgt calc_abs c = Raise e -> e = ValueError).
Proof.
  intros prec c tgt calc_abs. rewrite compare_cases. destruct tgt as [t|]; [|destruct (cf_target c) as [t|]];
  try destruct (cf_result c); split; intros; try split; intros; try discriminate; try tauto; try (destruct H; discriminate); congruence.
Qed.
Example C19_ex : cf_compare (rnd 53) None true (fst (cf_gen0 (rnd 53) 0 true exc)) = Ok (Fin 2%Q) /\
  cf_compare (rnd 53) (Some 5%Q) false (fst (cf_gen0 (rnd 53) 0 true exc)) = Ok (Fin (-4)%Q).
Proof. split; vm_compute; reflexivity. Qed.

(** C20 *)
Lemma gen_iters rd n fin c c' : cf_gen0 rd n fin c = (c', Ok tt) -> cf_iters c' = n.
Proof.
  unfold cf_gen0. rewrite cf_add_spec. cbn zeta. destruct (ltrace _ _ _) as [t [e|]]; [discriminate|]. intros [= <-].
  cbn. destruct (cf_logging c); reflexivity.
Qed.
Theorem C20_at_most_n : forall rd req n accuracy fin c c',
  cf_gen rd req n accuracy fin c = (c', Ok tt) -> cf_iters c' <= n.
Proof.
  intros rd req n accuracy fin c c'. unfold cf_gen.
  destruct (cf_aparams c); intros H; [apply gen_iters in H; lia| |];
  destruct (_ && _); try (apply gen_iters in H; lia); try discriminate.
  destruct (req accuracy (base, coeff)) as [r|e]; [|discriminate]. apply gen_iters in H. lia.
Qed.
Theorem C20_exactly_n : forall rd req n accuracy fin c,
  (cf_atype c <> ATExp /\ cf_atype c <> ATSuperExp) \/ (accuracy == 0)%Q \/ cf_aparams c = APNone ->
  cf_gen rd req n accuracy fin c = cf_gen0 rd n fin c.
Proof.
  intros rd req n accuracy fin c H. unfold cf_gen. destruct (cf_aparams c) eqn:E; [reflexivity| |];
  destruct H as [[H1 H2]|[H|H]]; try discriminate;
  try (destruct (cf_atype c); try congruence; reflexivity);
  apply Qeq_bool_iff in H; rewrite H; rewrite andb_false_r; reflexivity.
Qed.
(** with the pinned backend (mpf has no [ln]) every effective use of the accuracy fails and changes nothing *)
Theorem C20_pinned_backend : forall rd n accuracy fin c base coeff,
  cf_atype c = ATExp \/ cf_atype c = ATSuperExp -> cf_aparams c = APPair base coeff -> ~ (accuracy == 0)%Q ->
  cf_gen rd (fun _ _ => Raise AttributeError) n accuracy fin c = (c, Raise AttributeError).
Proof.
  intros rd n accuracy fin c base coeff HT HP HA. unfold cf_gen. rewrite HP.
  assert (E : Qeq_bool accuracy 0 = false) by (destruct (Qeq_bool accuracy 0) eqn:E; [apply Qeq_bool_iff in E; contradiction|reflexivity]).
  rewrite E. destruct HT as [-> | ->]; reflexivity.
Qed.
Example C20_ex : let c := set_approach exc ATExp (APPair 2 1) in
  cf_iters (fst (cf_gen (rnd 53) (fun _ _ => Ok 7) 100 (1 # 100) true c)) = 7 /\
  cf_iters (fst (cf_gen (rnd 53) (fun _ _ => Ok 700) 10 (1 # 100) true c)) = 10.
Proof. split; vm_compute; reflexivity. Qed.

(** C70: what the answer of is_convergence_fast means. x m is the value of convergent number m, P m / Q m. *)
Theorem C70_fast_means_shrinking : forall rd a b av lg tg c0 os c r iters cutoff step c' v,
  fresh a b av lg tg c0 -> cf_run rd os c0 = (c, r) -> 1 <= cutoff -> 5 <= step ->
  let P m := contP (icoef a 0) (icoefs a b (map Z.of_nat (seq 1 (Z.to_nat m)))) in
  let Q m := contQ (icoefs a b (map Z.of_nat (seq 1 (Z.to_nat m)))) in
  let x m := (inject_Z (P m) / inject_Z (Q m))%Q in
  let shrinks m := (17 * Qabs (x (m + 4)%Z - x (m + 2)%Z) < 16 * Qabs (x (m + 2)%Z - x m))%Q in
  (forall m, cutoff - 1 <= m <= iters -> Q m <> 0) ->
  cf_is_fast rd iters cutoff step c = (c', Ok v) ->
  (v = true <-> forall t, 0 <= t -> cutoff + (t + 1) * step <= iters ->
     shrinks (cutoff - 1 + t * step) /\ shrinks (cutoff + t * step)).
Proof.
  intros rd a b av lg tg c0 os c r iters cutoff step c' v HF HR CU ST P Q x shr NZ E.
  rewrite (is_fast_ok rd a b av lg tg c0 HF iters cutoff step c c' v (run_static_of _ _ _ _ _ HR) CU ST E).
  assert (X : forall t, 0 <= t -> cutoff + (t + 1) * step <= iters ->
    (ContFrac_Fast.shrinks a b (cutoff - 1 + t * step) /\ ContFrac_Fast.shrinks a b (cutoff - 1 + t * step + 1) <->
     shr (cutoff - 1 + t * step) /\ shr (cutoff + t * step))).
  { intros t T L. rewrite !(shrinks_values a b) by (apply NZ; nia).
    replace (cutoff - 1 + t * step + 1) with (cutoff + t * step) by ring. reflexivity. }
  split; intros H t T L; apply X; auto.
Qed.
(** the check of the arguments does nothing: step sizes below 5 are accepted *)
Theorem C70_small_step_accepted : exists c v,
  fresh exa exb true false (Some 3%Q) c /\ snd (cf_is_fast (rnd 53) 30 10 3 c) = Ok v.
Proof. exists exc, true. split; [exact exc_fresh|vm_compute; reflexivity]. Qed.
Example C70_ex : snd (cf_is_fast (rnd 53) 30 10 6 exc) = Ok true /\
  (forall m, 9 <= m <= 30 -> contQ (icoefs exa exb (map Z.of_nat (seq 1 (Z.to_nat m)))) <> 0) /\
  (exists c, fresh [[2]] [[1; -4; 4]] true false None c /\ snd (cf_is_fast (rnd 53) 300 200 50 c) = Ok false).
Proof.
  split; [vm_compute; reflexivity|]. split.
  - intros m M. assert (F : forallb (fun k => negb (contQ (icoefs exa exb (map Z.of_nat (seq 1 k))) =? 0)) (seq 9 22) = true) by (vm_compute; reflexivity).
    rewrite forallb_forall in F. assert (I : In (Z.to_nat m) (seq 9 22)) by (apply in_seq; lia).
    specialize (F _ I). intros Z0. rewrite Z0 in F. discriminate F.
  - eexists. split; [reflexivity|vm_compute; reflexivity].
Qed.

(** C65: reinitialize takes effect at the next gen_iterations ... *)
Theorem C65_reinitialize_then_gen : forall rd a b a' b' av lg tg c0 c1 os c r c2 n fin,
  fresh a b av lg tg c0 -> cf_run rd os c0 = (c, r) -> fresh a' b' av lg tg c1 ->
  cf_reinitialize (Some a') (Some b') None c = (c2, Ok tt) ->
  let g := cf_gen0 rd n fin c2 in let g1 := cf_gen0 rd n fin c1 in
  snd g = snd g1 /\ fst g = set_approach (fst g1) ATUndefined APNone.
Proof.
  intros rd a b a' b' av lg tg c0 c1 os c r c2 n fin HF HR HF1 HI.
  pose proof (run_static_of _ _ _ _ _ HR) as HS. unfold same_static in HS.
  unfold fresh, cf_new in HF, HF1.
  destruct a as [|[|a00 a0] a]; try discriminate; destruct b as [|b0 b]; try discriminate.
  destruct a' as [|[|a00' a0'] a']; try discriminate; destruct b' as [|b0' b']; try discriminate.
  cbn in HF, HF1. injection HF as <-. injection HF1 as <-. rewrite HS in HI. cbn in HI. injection HI as <-. cbn zeta.
  unfold cf_gen0. rewrite !cf_add_spec. cbn zeta. unfold cf_reset. cbn [set_dyn cf_log cf_params cf_first cf_mats cf_iters cf_logging last].
  unfold promo_of. cbn [cf_promo cf_avoid_zero_b pa pb].
  destruct (ltrace _ _ _) as [t [e|]]; cbn [fst snd]; (split; [reflexivity|]); destruct lg; reflexivity.
Qed.
(** ... and until then add_iterations goes on with the old fraction. *)
Theorem C65_add_continues_old : forall rd a' b' c c2 n fin,
  cf_log c <> [] -> cf_mats c <> [] -> cf_promo c = None ->
  cf_reinitialize a' b' None c = (c2, Ok tt) ->
  let g := cf_add rd n fin c2 in let g1 := cf_add rd n fin c in
  snd g = snd g1 /\ cf_log (fst g) = cf_log (fst g1) /\ cf_mats (fst g) = cf_mats (fst g1) /\ cf_iters (fst g) = cf_iters (fst g1).
Proof.
  intros rd a' b' c c2 n fin Nl Nm Np HI. unfold cf_reinitialize in HI.
  destruct (if cf_auto_first c then _ else _) as [fm|e]; [|discriminate]. injection HI as <-. cbn zeta.
  rewrite !cf_add_spec. cbn zeta. cbn [cf_log cf_params cf_first cf_mats cf_iters cf_logging].
  match goal with |- context [last (cf_log c) ?d] => rewrite (last_default (cf_log c) d (cf_params c)) by exact Nl end.
  match goal with |- context [last (cf_mats c) (match fm with Some m => m | None => cf_first c end)] =>
    rewrite (last_default (cf_mats c) (match fm with Some m => m | None => cf_first c end) (cf_first c)) by exact Nm end.
  unfold promo_of. cbn [cf_promo cf_avoid_zero_b]. rewrite Np.
  destruct (ltrace _ _ _) as [t [e|]]; cbn [fst snd]; (split; [reflexivity|]); destruct (cf_logging c); repeat split.
Qed.
Theorem C65_add_after_reinitialize_refuted : exists a b a' b' c0 c1 c2 n,
  fresh a b true false None c0 /\ fresh a' b' true false None c1 /\
  cf_reinitialize (Some a') (Some b') None (fst (cf_gen0 (rnd 53) 0 true c0)) = (c2, Ok tt) /\
  cf_result (fst (cf_add (rnd 53) n true c2)) <> cf_result (fst (cf_gen0 (rnd 53) n true c1)).
Proof.
  destruct (cf_new (Nested [[1]]) (Nested [[1]]) true None None None false) as [c|e] eqn:Ec; [|discriminate Ec].
  destruct (cf_new (Nested [[2]]) (Nested [[1]]) true None None None false) as [d|e] eqn:Ed; [|discriminate Ed].
  exists [[1]], [[1]], [[2]], [[1]], c, d, (fst (cf_reinitialize (Some [[2]]) (Some [[1]]) None (fst (cf_gen0 (rnd 53) 0 true c)))), 3.
  split; [exact Ec|]. split; [exact Ed|]. cbn in Ec, Ed. injection Ec as <-. injection Ed as <-.
  split; [vm_compute; reflexivity|]. intros E. vm_compute in E. discriminate.
Qed.
Example C65_ex : exists c2, cf_reinitialize (Some [[2]]) (Some [[1]; [3]]) None exc = (c2, Ok tt) /\
   cf_log exc <> [] /\ cf_mats exc <> [] /\ cf_promo exc = None.
Proof. eexists. split; [reflexivity|]. repeat split; discriminate. Qed.

(** C66: the convergence estimation terminates whatever the classification answers, for every argument *)
Theorem C66_estimate_terminates : forall rd classify iters cutoff step c,
  exists r, forall fuel, (Z.to_nat (Z.log2 cutoff) + 9 <= fuel)%nat ->
    cf_estimate rd classify fuel iters cutoff step c = Some r.
Proof. exact cf_estimate_term. Qed.
Example C66_ex : match cf_estimate (rnd 53) (fun s => Ok (if (3 <? length s)%nat then ATFast else ATExp, APNone)) 20 60 20 20 exc with
  | Some (c', Ok tt) => cf_atype c' = ATFast \/ cf_atype c' = ATExp | _ => False end.
Proof. vm_compute. tauto. Qed.

Print Assumptions C06_convergent.
Print Assumptions C07_split.
Print Assumptions C08_zero_b_exact.
Print Assumptions C08_only_zero_b.
Print Assumptions C08_atomic.
Print Assumptions C09_determinant.
Print Assumptions C09_nan_iff.
Print Assumptions C10_get_p_q_is_previous.
Print Assumptions C10_get_p_q_initial.
Print Assumptions C10_docstring_refuted.
Print Assumptions C11_logging_same.
Print Assumptions C11_zero_iterations_differ.
Print Assumptions C12_counter_in_step.
Print Assumptions C12_counter_in_step_after_exceptions.
Print Assumptions C12_logging_exception_refuted.
Print Assumptions C12_negative_count.
Print Assumptions C12_default_estimate_out_of_step.
Print Assumptions C13_eval_sign.
Print Assumptions C13_contfrac_sign.
Print Assumptions C14_eval_contfrac.
Print Assumptions C14_default_numerators.
Print Assumptions C14_length_error.
Print Assumptions C15_equal_lengths.
Print Assumptions C15_documented_formula_refuted.
Print Assumptions C16_eval_dec.
Print Assumptions C16_engines_agree.
Print Assumptions C16_depth_nonpositive.
Print Assumptions C17_squeeze_eval.
Print Assumptions C17_squeeze_a.
Print Assumptions C17_squeeze_b.
Print Assumptions C17_squeeze_contfrac.
Print Assumptions C18_history_independent.
Print Assumptions C18_resets.
Print Assumptions C19_compare.
Print Assumptions C19_value_error.
Print Assumptions C20_at_most_n.
Print Assumptions C20_exactly_n.
Print Assumptions C20_pinned_backend.
Print Assumptions C70_fast_means_shrinking.
Print Assumptions C70_small_step_accepted.
Print Assumptions C65_reinitialize_then_gen.
Print Assumptions C65_add_continues_old.
Print Assumptions C65_add_after_reinitialize_refuted.
Print Assumptions C66_estimate_terminates.

(** Histories of calls on a ContFrac object. *)
From Coq Require Import ZArith QArith Qabs List Bool Lia Lqa.
From Verif Require Import PyBase PyBase_Proofs Rnd Rnd_Proofs Utils_Model Spec_Utils Utils_Proofs ContFrac_Model Spec_ContFrac ContFrac_Proofs.
Import ListNotations.
Open Scope Z_scope.

(** an object made by the constructor with default generator and first matrix *)
Definition fresh (a b : coeffs) (av lg : bool) (tg : option Q) (c0 : contfrac) : Prop :=
  cf_new (Nested a) (Nested b) av None None tg lg = Ok c0.

Lemma icoef_0 a00 r rest : icoef ((a00 :: r) :: rest) 0 = a00.
Proof.
  unfold icoef. replace (Z.to_nat (0 mod Z.of_nat (length ((a00 :: r) :: rest)))) with 0%nat by (rewrite Z.mod_0_l; cbn; lia).
  cbn [nth poly_val]. lia.
Qed.

Lemma fresh_inv a b av lg tg c0 : fresh a b av lg tg c0 ->
  a <> [] /\ b <> [] /\ cf_params c0 = {| pa := a; pb := b; pres := Fin 1 |} /\ cf_promo c0 = None /\
  cf_first c0 = ((icoef a 0, 1), (1, 0)) /\ cf_avoid_zero_b c0 = av /\ cf_logging c0 = lg /\ cf_target c0 = tg /\
  cf_log c0 = [cf_params c0] /\ cf_iters c0 = 0 /\ cf_mats c0 = [cf_first c0] /\ cf_auto_first c0 = true /\
  cf_atype c0 = ATNone /\ cf_aparams c0 = APNone.
Proof.
  unfold fresh, cf_new. destruct a as [|a0 a]; [discriminate|]. destruct b as [|b0 b]; [discriminate|].
  cbn [norm_coeffs bind]. destruct a0 as [|a00 a0]; [discriminate|]. cbn [autogen_first bind].
  intros [= <-]. rewrite icoef_0. cbn. repeat split; discriminate.
Qed.

Lemma zrange_1 n : zrange 1 (1 + n) = map Z.of_nat (seq 1 (Z.to_nat n)).
Proof.
  unfold zrange. replace (1 + n - 1) with n by lia. rewrite <- seq_shift, map_map.
  apply map_ext. intros; lia.
Qed.

Lemma zrange_after k n : zrange (k + 1) (k + 1 + n) = map (fun j => k + Z.of_nat j) (seq 1 (Z.to_nat n)).
Proof.
  unfold zrange. replace (k + 1 + n - (k + 1)) with n by lia. rewrite <- seq_shift, map_map.
  apply map_ext. intros; lia.
Qed.

Definition call_count (o : cf_call) : bool * Z :=
  match o with CGen n _ => (true, n) | CAdd n _ => (false, n) end.

(** the current exact numerators and denominators *)
Definition cur_mat (c : contfrac) : mat := last (cf_mats c) (cf_first c).

Definition hinv (a b : coeffs) (c0 : contfrac) (cnt : Z) (seq : list Z) (c : contfrac) : Prop :=
  same_static c0 c /\ cf_iters c = cnt /\ cur_mat c = fold_left mstep (icoefs a b seq) (cf_first c0) /\
  pa (last (cf_log c) (cf_params c)) = a /\ pb (last (cf_log c) (cf_params c)) = b.

Lemma hinv_fresh a b av lg tg c0 : fresh a b av lg tg c0 -> hinv a b c0 0 [] c0.
Proof.
  intros H. destruct (fresh_inv _ _ _ _ _ _ H) as (Na & Nb & Hp & Hpr & Hf & Hav & Hl & Ht & Hlog & Hi & Hm & _).
  unfold hinv, cur_mat. rewrite Hlog, Hm, Hi, Hp. cbn. repeat split; auto. apply same_static_refl.
Qed.

Lemma promo_fresh a b av lg tg c0 c ps : fresh a b av lg tg c0 -> same_static c0 c -> pa ps = a -> pb ps = b ->
  promo_of c ps = (fun i => default_promo av i a b).
Proof.
  intros H S <- <-. destruct (fresh_inv _ _ _ _ _ _ H) as (_ & _ & _ & Hpr & _ & Hav & _).
  destruct (same_static_proj _ _ S) as (_ & E1 & _ & E2 & _). unfold promo_of. rewrite E1, Hpr, E2, Hav. reflexivity.
Qed.

Lemma hinv_add rd a b av lg tg c0 cnt seq c n fin :
  fresh a b av lg tg c0 -> hinv a b c0 cnt seq c ->
  match find (bad_index av b) (zrange (cnt + 1) (cnt + 1 + n)) with
  | Some i => snd (cf_add rd n fin c) = Raise (ZeroB i) /\ (lg = false -> fst (cf_add rd n fin c) = c)
  | None => exists c', cf_add rd n fin c = (c', Ok tt) /\ hinv a b c0 (cnt + n) (seq ++ zrange (cnt + 1) (cnt + 1 + n)) c' /\
              (lg = false -> cf_log c' = [if fin then with_res rd (last (cf_log c) (cf_params c)) (cur_mat c') else last (cf_log c) (cf_params c)]
                             /\ cf_mats c' = [cur_mat c'])
  end.
Proof.
  intros HF (HS & Hi & Hm & Hpa & Hpb).
  destruct (fresh_inv _ _ _ _ _ _ HF) as (Na & Nb & Hp & Hpr & Hf & Hav & Hl & Ht & Hlog & _ & Hmm & _).
  destruct (same_static_proj _ _ HS) as (E1 & E2 & E3 & E4 & E5 & E6).
  rewrite cf_add_spec. cbn zeta. rewrite (promo_fresh a b av lg tg c0 c _ HF HS Hpa Hpb), Hi. fold (cur_mat c).
  pose proof (ltrace_default av a b (zrange (cnt + 1) (cnt + 1 + n)) (cur_mat c) Na Nb) as T.
  destruct (find (bad_index av b) (zrange (cnt + 1) (cnt + 1 + n))) as [i|].
  - destruct T as [t ->]. cbn [fst snd]. split; [reflexivity|]. intros ->. rewrite E6, Hl. reflexivity.
  - destruct T as (t & -> & Lt & Len).
    eexists. split; [reflexivity|].
    assert (Mlast : forall l, cf_mats c ++ t = l -> last l (cf_first c) = last t (cur_mat c)).
    { intros l <-. unfold cur_mat. now rewrite last_app_or. }
    assert (Final : last t (cur_mat c) = fold_left mstep (icoefs a b (seq ++ zrange (cnt + 1) (cnt + 1 + n))) (cf_first c0)).
    { rewrite Lt, Hm. unfold icoefs. rewrite map_app, fold_left_app. reflexivity. }
    split; [|intros ->; rewrite E6, Hl].
    + rewrite E6, Hl. destruct lg.
      * unfold hinv. split; [eapply same_static_trans; [exact HS|apply same_static_set]|].
        split; [reflexivity|]. unfold cur_mat at 1. cbn [cf_mats cf_first set_dyn cf_log cf_params].
        split; [rewrite (Mlast _ eq_refl); exact Final|].
        rewrite !last_app_or. 
        set (ps := last (cf_log c) (cf_params c)) in *.
        destruct t as [|x t]; [cbn; auto|].
        rewrite (last_default _ ps (with_res rd ps x)) by discriminate.
        rewrite last_map. cbn. auto.
      * unfold hinv. split; [eapply same_static_trans; [exact HS|apply same_static_set]|].
        cbn. split; [reflexivity|]. split; [exact Final|]. destruct fin; cbn; auto.
    + cbn. split; reflexivity.
Qed.

Lemma hinv_reset a b av lg tg c0 c : fresh a b av lg tg c0 -> same_static c0 c -> hinv a b c0 0 [] (cf_reset c).
Proof.
  intros HF HS. destruct (fresh_inv _ _ _ _ _ _ HF) as (Na & Nb & Hp & Hpr & Hf & Hav & Hl & Ht & Hlog & _ & Hmm & _).
  destruct (same_static_proj _ _ HS) as (E1 & E2 & E3 & E4 & E5 & E6).
  unfold hinv, cur_mat, cf_reset. cbn. rewrite E1, E3, Hp. repeat split.
  eapply same_static_trans; [exact HS|apply same_static_set].
Qed.

Lemma hinv_gen rd a b av lg tg c0 c n fin :
  fresh a b av lg tg c0 -> same_static c0 c ->
  match find (bad_index av b) (zrange 1 (1 + n)) with
  | Some i => snd (cf_gen0 rd n fin c) = Raise (ZeroB i) /\ (lg = false -> fst (cf_gen0 rd n fin c) = cf_reset c)
  | None => exists c', cf_gen0 rd n fin c = (c', Ok tt) /\ hinv a b c0 n (zrange 1 (1 + n)) c' /\
              (lg = false -> cf_log c' = [if fin then with_res rd (cf_params c0) (cur_mat c') else cf_params c0]
                             /\ cf_mats c' = [cur_mat c'])
  end.
Proof.
  intros HF HS. unfold cf_gen0.
  pose proof (hinv_add rd a b av lg tg c0 0 [] (cf_reset c) n fin HF (hinv_reset _ _ _ _ _ _ _ HF HS)) as H.
  change (0 + 1) with 1 in H.
  destruct (find (bad_index av b) (zrange 1 (1 + n))) as [i|]; [exact H|].
  destruct H as (c' & E & I & X). exists c'. split; [exact E|]. split; [exact I|]. intros F.
  destruct (X F) as [X1 X2]. split; [|exact X2]. rewrite X1.
  destruct (same_static_proj _ _ HS) as (E1 & _). cbn. rewrite E1. reflexivity.
Qed.

(** any successful history *)
Lemma hinv_run rd a b av lg tg c0 os : fresh a b av lg tg c0 ->
  forall cnt seq c c', hinv a b c0 cnt seq c -> cf_run rd os c = (c', Ok tt) ->
  let '(cnt', seq') := index_seq (map call_count os) cnt seq in hinv a b c0 cnt' seq' c'.
Proof.
  intros HF. induction os as [|o os IH]; intros cnt seq c c' HI HR.
  - cbn in *. injection HR as <-. exact HI.
  - cbn [cf_run] in HR. destruct o as [n fin|n fin]; cbn [map call_count index_seq cf_do] in *.
    + pose proof (hinv_gen rd a b av lg tg c0 c n fin HF (proj1 HI)) as G.
      destruct (find (bad_index av b) (zrange 1 (1 + n))) as [i|].
      * destruct (cf_gen0 rd n fin c) as [c1 [[]|e]]; [destruct G as [G _]; discriminate G|discriminate HR].
      * destruct G as (c1 & E & I & _). rewrite E in HR. rewrite zrange_1 in I. apply (IH _ _ _ _ I HR).
    + pose proof (hinv_add rd a b av lg tg c0 cnt seq c n fin HF HI) as G.
      destruct (find (bad_index av b) (zrange (cnt + 1) (cnt + 1 + n))) as [i|].
      * destruct (cf_add rd n fin c) as [c1 [[]|e]]; [destruct G as [G _]; discriminate G|discriminate HR].
      * destruct G as (c1 & E & I & _). rewrite E in HR. rewrite zrange_after in I. apply (IH _ _ _ _ I HR).
Qed.

(** with non-negative counts the index sequence is 1, 2, ..., counter *)
Lemma index_seq_nonneg os cnt : 0 <= cnt -> Forall (fun o => 0 <= snd o) os ->
  let '(cnt', seq') := index_seq os cnt (map Z.of_nat (seq 1 (Z.to_nat cnt))) in
  0 <= cnt' /\ seq' = map Z.of_nat (seq 1 (Z.to_nat cnt')).
Proof.
  revert cnt. induction os as [|[g n] os IH]; intros cnt Hc Ho; [cbn; auto|].
  inversion Ho as [|? ? Hn Ho']; subst. cbn [snd] in Hn. destruct g; cbn [index_seq].
  - apply (IH n); assumption.
  - replace (map Z.of_nat (seq 1 (Z.to_nat cnt)) ++ map (fun k => cnt + Z.of_nat k) (seq 1 (Z.to_nat n)))
      with (map Z.of_nat (seq 1 (Z.to_nat (cnt + n)))).
    + apply (IH (cnt + n)); [lia|assumption].
    + rewrite Z2Nat.inj_add by lia. rewrite seq_app, map_app. f_equal.

      apply nth_ext with (d := 0) (d' := 0); rewrite !map_length, !seq_length; [reflexivity|].
      intros k Hk. change 0 with (Z.of_nat 0) at 1. rewrite map_nth, seq_nth by assumption.
      rewrite (nth_indep _ 0 ((fun k => cnt + Z.of_nat k) 0%nat)) by (rewrite map_length, seq_length; assumption).
      rewrite (map_nth (fun k => cnt + Z.of_nat k)), seq_nth by assumption. lia.
Qed.

Lemma firstn_seq_1 n k : (k <= n)%nat -> firstn k (map Z.of_nat (seq 1 n)) = map Z.of_nat (seq 1 k).
Proof.
  intros H. rewrite firstn_map. f_equal. replace n with (k + (n - k))%nat by lia. rewrite seq_app, firstn_app, seq_length.
  replace (k - k)%nat with 0%nat by lia. cbn [firstn]. rewrite app_nil_r. apply firstn_all2. rewrite seq_length. lia.
Qed.

(** what the logging mode records *)
Lemma gen_logging rd a b av tg c0 c n fin :
  fresh a b av true tg c0 -> same_static c0 c -> 0 <= n -> find (bad_index av b) (zrange 1 (1 + n)) = None ->
  exists c', cf_gen0 rd n fin c = (c', Ok tt) /\
    cf_mats c' = map (fun k => fold_left mstep (icoefs a b (map Z.of_nat (seq 1 k))) (cf_first c0)) (seq 0 (S (Z.to_nat n))) /\
    cf_log c' = cf_params c0 :: map (fun k => with_res rd (cf_params c0) (fold_left mstep (icoefs a b (map Z.of_nat (seq 1 k))) (cf_first c0))) (seq 1 (Z.to_nat n)) /\
    cf_iters c' = n.
Proof.
  intros HF HS Hn Hb.
  destruct (fresh_inv _ _ _ _ _ _ HF) as (Na & Nb & Hp & Hpr & Hf & Hav & Hl & Ht & Hlog & _ & Hmm & _).
  destruct (same_static_proj _ _ HS) as (E1 & E2 & E3 & E4 & E5 & E6).
  unfold cf_gen0. rewrite cf_add_spec. cbn zeta. cbn [cf_reset set_dyn cf_log cf_mats cf_iters cf_params cf_first cf_logging last].
  assert (P : promo_of (cf_reset c) (cf_params c) = (fun i => default_promo av i a b)).
  { apply (promo_fresh a b av true tg c0); auto.
    - eapply same_static_trans; [exact HS|]. unfold cf_reset. apply same_static_set.
    - now rewrite E1, Hp. - now rewrite E1, Hp. }
  rewrite P. change (0 + 1) with 1.
  pose proof (ltrace_default av a b (zrange 1 (1 + n)) (cf_first c) Na Nb) as T. rewrite Hb in T.
  destruct T as (t & E & Lt & Len). rewrite E, E6, Hl.
  apply ltrace_default_nth in E; auto.
  eexists. split; [reflexivity|]. cbn [set_dyn cf_log cf_mats cf_iters].
  assert (Zt : t = map (fun k => fold_left mstep (icoefs a b (map Z.of_nat (seq 1 k))) (cf_first c0)) (seq 1 (Z.to_nat n))).
  { transitivity (map (fun k => fold_left mstep (icoefs a b (map Z.of_nat (seq 1 (S k)))) (cf_first c0)) (seq 0 (Z.to_nat n))).
    2:{ rewrite <- (seq_shift (Z.to_nat n) 0), map_map. reflexivity. }
    rewrite E, zrange_1, map_length, seq_length. apply map_ext_in. intros k Hk. apply in_seq in Hk.
    rewrite firstn_seq_1 by lia. rewrite E3. reflexivity. }
  split; [|split; [|reflexivity]].
  - cbn [seq map app]. rewrite E3. f_equal. exact Zt.
  - cbn [app]. rewrite E1. f_equal. rewrite Zt, map_map. reflexivity.
Qed.

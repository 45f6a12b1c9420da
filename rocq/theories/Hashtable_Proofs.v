(** Proofs about the hash table model. *)
From Coq Require Import ZArith QArith List Bool Ascii Lia.
From Verif Require Import PyBase PyBase_Proofs Hashtable_Model Spec_Hashtable.
Import ListNotations.
Local Open Scope Z_scope.

Lemma text_eqb_eq a b : text_eqb a b = true <-> a = b.
Proof.
  revert b. induction a as [|x a IH]; intros [|y b]; cbn; try (split; congruence).
  rewrite andb_true_iff, Ascii.eqb_eq, IH. split; [intros [-> ->]; reflexivity | intros H; now inversion H].
Qed.
Lemma rawkey_eqb_eq a b : rawkey_eqb a b = true <-> a = b.
Proof.
  destruct a as [s|[n d]], b as [t|[n' d']]; cbn; try (split; congruence).
  - rewrite text_eqb_eq. split; congruence.
  - rewrite andb_true_iff, Z.eqb_eq, Pos.eqb_eq. split; [intros [-> ->]; reflexivity | intros H; now inversion H].
Qed.

Notation RK := rawkey_eqb_eq.

Section Table.
  Context {V : Type}.
  Variable eng : Q -> res text.
  Implicit Types (d : list (rawkey * V)) (t : htab V).

  Lemma raw_mem_get d k : raw_mem d k = true <-> exists v, raw_get d k = Some v.
  Proof.
    unfold raw_mem, d_mem, raw_get. destruct (d_get rawkey_eqb d (KStr k)) as [v|]; split; intros H.
    - now exists v. - reflexivity. - discriminate. - destruct H as (v & H). discriminate.
  Qed.
  Lemma raw_mem_false d k : raw_mem d k = false <-> raw_get d k = None.
  Proof. unfold raw_mem, d_mem, raw_get. destruct (d_get rawkey_eqb d (KStr k)); split; congruence. Qed.

  Lemma del_olds_NoDup olds d : NoDup (d_keys d) -> NoDup (d_keys (del_olds olds d)).
  Proof.
    unfold del_olds. revert d. induction olds as [|k r IH]; intros d H; cbn [fold_left]; [exact H|].
    apply IH. destruct (raw_mem d k); [|exact H]. now apply d_del_NoDup.
  Qed.
  Lemma del_olds_other olds d x : (forall o, In o olds -> x <> KStr o) ->
    d_get rawkey_eqb (del_olds olds d) x = d_get rawkey_eqb d x.
  Proof.
    unfold del_olds. revert d. induction olds as [|k r IH]; intros d H; cbn [fold_left]; [reflexivity|].
    rewrite IH by (intros; apply H; now right).
    destruct (raw_mem d k); [|reflexivity].
    apply (d_get_del_other _ RK). apply H. now left.
  Qed.
  Lemma del_olds_none olds d x : d_get rawkey_eqb d x = None -> d_get rawkey_eqb (del_olds olds d) x = None.
  Proof.
    unfold del_olds. revert d. induction olds as [|k r IH]; intros d H; cbn [fold_left]; [exact H|].
    apply IH. destruct (raw_mem d k); [|exact H].
    apply (d_get_None _ RK). intros HI. apply d_del_keys_incl in HI. revert HI. now apply (d_get_None _ RK).
  Qed.
  Lemma del_olds_same olds d o : NoDup (d_keys d) -> In o olds -> raw_get (del_olds olds d) o = None.
  Proof.
    revert d. induction olds as [|k r IH]; intros d H HI; [destruct HI|].
    destruct HI as [->|HI].
    - unfold raw_get. change (del_olds (o :: r) d) with
        (del_olds r (if raw_mem d o then d_del rawkey_eqb d (KStr o) else d)).
      apply del_olds_none. destruct (raw_mem d o) eqn:E.
      + now apply (d_get_del_same _ RK).
      + now apply raw_mem_false.
    - change (del_olds (k :: r) d) with (del_olds r (if raw_mem d k then d_del rawkey_eqb d (KStr k) else d)).
      apply IH; [|exact HI]. destruct (raw_mem d k); [now apply d_del_NoDup|exact H].
  Qed.

  (** first stored prefix *)
  Lemma get_loop_mem olds cur d : mem_loop olds cur d = true <-> exists v, get_loop olds cur d = Ok v.
  Proof.
    induction olds as [|k r IH]; cbn [mem_loop get_loop].
    - unfold dict_getitem. rewrite raw_mem_get. destruct (raw_get d cur) as [v|]; split; intros H.
      + now exists v. + now exists v. + destruct H; discriminate. + destruct H; discriminate.
    - destruct (raw_mem d k) eqn:E; [|exact IH]. apply raw_mem_get in E. destruct E as (v & E).
      split; [intros _|reflexivity]. exists v. unfold dict_getitem. now rewrite E.
  Qed.
  Lemma get_loop_err olds cur d : mem_loop olds cur d = false -> get_loop olds cur d = Raise KeyError.
  Proof.
    induction olds as [|k r IH]; cbn [mem_loop get_loop].
    - intros H. apply raw_mem_false in H. unfold dict_getitem. now rewrite H.
    - destruct (raw_mem d k); [discriminate|exact IH].
  Qed.
  Lemma get_loop_ext olds cur d d' :
    (forall k, In k (olds ++ [cur]) -> raw_get d' k = raw_get d k) -> get_loop olds cur d' = get_loop olds cur d.
  Proof.
    induction olds as [|k r IH]; intros H; cbn [get_loop].
    - unfold dict_getitem. now rewrite (H cur) by (now left).
    - assert (Hk : raw_get d' k = raw_get d k) by (apply H; now left).
      assert (Hm : raw_mem d' k = raw_mem d k)
        by (unfold raw_mem, d_mem; unfold raw_get in Hk; now rewrite Hk).
      unfold dict_getitem. rewrite Hm, Hk. destruct (raw_mem d k); [reflexivity|].
      apply IH. intros; apply H; now right.
  Qed.
  Lemma mem_loop_ext olds cur d d' :
    (forall k, In k (olds ++ [cur]) -> raw_get d' k = raw_get d k) -> mem_loop olds cur d' = mem_loop olds cur d.
  Proof.
    induction olds as [|k r IH]; intros H; cbn [mem_loop].
    - unfold raw_mem, d_mem. specialize (H cur (or_introl eq_refl)). unfold raw_get in H. now rewrite H.
    - assert (Hk : raw_get d' k = raw_get d k) by (apply H; now left).
      assert (Hm : raw_mem d' k = raw_mem d k)
        by (unfold raw_mem, d_mem; unfold raw_get in Hk; now rewrite Hk).
      rewrite Hm. destruct (raw_mem d k); [reflexivity|]. apply IH. intros; apply H; now right.
  Qed.
  Lemma get_loop_skip olds cur d : (forall o, In o olds -> o = cur \/ raw_get d o = None) ->
    get_loop olds cur d = dict_getitem d cur.
  Proof.
    induction olds as [|k r IH]; intros H; cbn [get_loop]; [reflexivity|].
    destruct (raw_mem d k) eqn:E.
    - destruct (H k (or_introl eq_refl)) as [->|N]; [reflexivity|].
      apply raw_mem_false in N. congruence.
    - apply IH. intros; apply H; now right.
  Qed.

  Definition keys_ok t := NoDup (d_keys (h_data t)).

  Lemma keys_ok_new n : keys_ok (@ht_new V n). Proof. constructor. Qed.

  Lemma dict_update_NoDup d data : NoDup (d_keys d) -> NoDup (d_keys (dict_update d data)).
  Proof.
    unfold dict_update. revert d. induction data as [|[k v] r IH]; intros d H; cbn [fold_left]; [exact H|].
    apply IH. now apply (d_keys_set_NoDup _ RK).
  Qed.
  Lemma d_set_absent d k v : d_get rawkey_eqb d k = None -> d_set rawkey_eqb d k v = d ++ [(k, v)].
  Proof.
    induction d as [|[k' v'] d IH]; cbn; [reflexivity|].
    destruct (rawkey_eqb k k'); [discriminate|]. intros H. now rewrite IH.
  Qed.
  Lemma dict_update_app d data : NoDup (d_keys (d ++ data)) -> dict_update d data = d ++ data.
  Proof.
    unfold dict_update. revert d. induction data as [|[k v] r IH]; intros d H; cbn [fold_left fst snd].
    - now rewrite app_nil_r.
    - rewrite d_set_absent.
      + rewrite IH; rewrite <- app_assoc; [reflexivity|exact H].
      + apply (d_get_None _ RK). unfold d_keys in H. rewrite map_app in H. cbn in H.
        apply NoDup_remove_2 in H. intros HI. apply H. apply in_or_app. now left.
  Qed.
  Lemma unpickle_reduce t : keys_ok t -> ht_unpickle (ht_reduce t) = t.
  Proof.
    intros H. unfold ht_unpickle, ht_reduce, ht_setstate, ht_getstate, ht_new. cbn [fst snd h_data].
    rewrite dict_update_app by exact H. now destruct t.
  Qed.

  Lemma ht_step_ok t o : keys_ok t -> keys_ok (fst (ht_step eng t o)).
  Proof.
    intros H. destruct o as [k v|k|k|k|a|k v|k|]; cbn [ht_step].
    - unfold ht_set. destruct (ht_manipulate_key eng t k) as [[olds cur]|e]; cbn; [|exact H].
      apply (d_keys_set_NoDup _ RK). now apply del_olds_NoDup.
    - exact H.
    - unfold ht_del. destruct (ht_manipulate_key eng t k) as [[olds cur]|e]; [|exact H].
      assert (G : NoDup (d_keys (fst (del_loop olds cur (h_data t))))).
      { induction olds as [|o r IH]; cbn [del_loop]; [exact H|].
        destruct (raw_mem (h_data t) o); [now apply d_del_NoDup|exact IH]. }
      destruct (del_loop olds cur (h_data t)); exact G.
    - exact H.
    - exact H.
    - apply (d_keys_set_NoDup _ RK). exact H.
    - unfold ht_raw_pop. destruct (d_get rawkey_eqb (h_data t) k); [now apply d_del_NoDup|exact H].
    - cbn [fst]. now rewrite unpickle_reduce.
  Qed.
  Lemma ht_run_ok os t : keys_ok t -> keys_ok (fst (ht_run eng t os)).
  Proof.
    revert t. induction os as [|o r IH]; intros t H; cbn [ht_run]; [exact H|].
    pose proof (ht_step_ok t o H) as H1. destruct (ht_step eng t o) as [t1 x].
    specialize (IH t1 H1). destruct (ht_run eng t1 r) as [t2 xs]. exact IH.
  Qed.

  (** set and get *)
  Lemma manip_ok t k : (exists s, ht_manipulate_key eng t k =
      Ok (map (fun i => py_take (i + 1) s) (h_hist t), py_take (h_acc t + 1) s) /\
      (k = UStr s \/ exists q, k = UNum q /\ eng q = Ok s)) \/
    (exists e, forall t', ht_manipulate_key (V := V) eng t' k = Raise e).
  Proof.
    destruct k as [s|q|]; cbn.
    - left. exists s. auto.
    - unfold ht_manipulate_key. destruct (eng q) as [s|e] eqn:E; [left; exists s|right; exists e; reflexivity].
      split; [reflexivity|]. right. exists q. auto.
    - right. exists TypeError. reflexivity.
  Qed.

  Lemma set_get t k v : keys_ok t -> snd (ht_set eng k v t) = Ok tt -> ht_get eng k (fst (ht_set eng k v t)) = Ok v.
  Proof.
    intros Ht. unfold ht_set. destruct (manip_ok t k) as [(s & Hm & Hk)|(e & He)].
    2:{ rewrite He. discriminate. }
    intros _. rewrite Hm. cbn [fst]. unfold ht_get.
    set (t' := mkHtab _ _ _).
    assert (Hm' : ht_manipulate_key eng t' k =
      Ok (map (fun i => py_take (i + 1) s) (h_hist t), py_take (h_acc t + 1) s)).
    { destruct Hk as [->|(q & -> & Hq)]; unfold ht_manipulate_key; [reflexivity|]. rewrite Hq. reflexivity. }
    rewrite Hm'. cbn [bind fst snd]. cbn [h_data t'].
    rewrite get_loop_skip.
    - unfold dict_getitem, raw_get. now rewrite (d_get_set_same _ RK).
    - intros o Ho. destruct (list_eq_dec ascii_dec o (py_take (h_acc t + 1) s)) as [->|N]; [now left|right].
      unfold raw_get. rewrite (d_get_set_other _ RK) by congruence. now apply del_olds_same.
  Qed.

  Lemma contains_get t k : (ht_contains eng k t = Ok true <-> exists v, ht_get eng k t = Ok v).
  Proof.
    unfold ht_contains, ht_get. destruct (ht_manipulate_key eng t k) as [[olds cur]|e]; cbn [bind fst snd].
    - rewrite <- get_loop_mem. split; congruence.
    - split; [discriminate|]. intros (v & H). discriminate.
  Qed.
  Lemma contains_false t k : ht_contains eng k t = Ok false -> ht_get eng k t = Raise KeyError.
  Proof.
    unfold ht_contains, ht_get. destruct (ht_manipulate_key eng t k) as [[olds cur]|e]; cbn [bind fst snd]; [|discriminate].
    intros [= H]. now apply get_loop_err.
  Qed.

  Lemma py_take_nonneg {A} k (l : list A) : 0 <= k -> py_take k l = firstn (Z.to_nat k) l.
  Proof. intros H. unfold py_take. now rewrite (proj2 (Z.leb_le _ _) H). Qed.

  (** prefixes at different accuracies only meet if they meet at a common accuracy *)
  Lemma prefix_meet (n m : nat) (s s' : text) : firstn n s = firstn m s' ->
    firstn (Nat.min n m) s = firstn (Nat.min n m) s'.
  Proof.
    intros H. apply (f_equal (firstn (Nat.min n m))) in H. rewrite !firstn_firstn in H.
    rewrite <- Nat.min_assoc, (Nat.min_comm m n), Nat.min_assoc, Nat.min_id in H.
    replace (Nat.min (Nat.min n m) n) with (Nat.min n m) in H by lia.
    replace (Nat.min (Nat.min n m) m) with (Nat.min n m) in H by lia. exact H.
  Qed.

  Definition accs t := h_hist t ++ [h_acc t].
  Lemma differ_all (l : list Z) (s s' : text) : (forall a, In a l -> -1 <= a) ->
    (forall a, In a l -> py_take (a + 1) s <> py_take (a + 1) s') ->
    forall a b, In a l -> In b l -> py_take (a + 1) s <> py_take (b + 1) s'.
  Proof.
    intros Hn Hd a b Ha Hb E. pose proof (Hn a Ha). pose proof (Hn b Hb).
    pose proof (Hd a Ha) as Da. pose proof (Hd b Hb) as Db.
    rewrite !py_take_nonneg in * by lia. apply prefix_meet in E.
    destruct (Z.le_ge_cases a b).
    - replace (Nat.min (Z.to_nat (a + 1)) (Z.to_nat (b + 1))) with (Z.to_nat (a + 1)) in E by lia. contradiction.
    - replace (Nat.min (Z.to_nat (a + 1)) (Z.to_nat (b + 1))) with (Z.to_nat (b + 1)) in E by lia. contradiction.
  Qed.

  Lemma set_frame t (s : text) v (s' : text) : (forall a, In a (accs t) -> -1 <= a) ->
    (forall a, In a (accs t) -> py_take (a + 1) s' <> py_take (a + 1) s) ->
    ht_get eng (UStr s') (fst (ht_set eng (UStr s) v t)) = ht_get eng (UStr s') t.
  Proof.
    intros Hn Hd. pose proof (differ_all _ _ _ Hn Hd) as D. unfold accs in D.
    unfold ht_set, ht_get, ht_manipulate_key. cbn [bind fst snd h_data h_hist h_acc].
    apply get_loop_ext. intros k Hk.
    assert (Hk' : exists a, In a (h_hist t ++ [h_acc t]) /\ k = py_take (a + 1) s').
    { apply in_app_or in Hk. destruct Hk as [Hk|[<-|[]]].
      - apply in_map_iff in Hk. destruct Hk as (a & <- & Ha). exists a. split; [apply in_or_app; now left|reflexivity].
      - exists (h_acc t). split; [apply in_or_app; right; now left|reflexivity]. }
    destruct Hk' as (a & Ha & ->). unfold raw_get.
    rewrite (d_get_set_other _ RK).
    2:{ intros [= E]. revert E. apply D; [exact Ha|]. apply in_or_app; right; now left. }
    apply del_olds_other. intros o Ho [= E]. apply in_map_iff in Ho. destruct Ho as (b & <- & Hb).
    revert E. apply D; [exact Ha|]. apply in_or_app; now left.
  Qed.
End Table.

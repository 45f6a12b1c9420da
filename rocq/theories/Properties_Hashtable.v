(** Claims C30-C35, C37 (decimal_hashtable.py, join_hashtables.py, enum_params.py compare_dec_with_accuracy). *)
From Coq Require Import ZArith QArith Qabs Ascii String Bool List Lia.
From Verif Require Import PyBase PyBase_Proofs Hashtable_Model Spec_Hashtable Hashtable_Proofs Hashtable_Proofs2 Hashtable_Dec.
Import ListNotations.
Local Open Scope Z_scope.

(** Tables that any client can obtain. *)
Definition reachable {V} (eng : Q -> res text) (t : htab V) : Prop := exists n os, t = fst (ht_run eng (ht_new n) os).
Lemma reachable_ok {V} eng (t : htab V) : reachable eng t -> keys_ok t.
Proof. intros (n & os & ->). apply ht_run_ok, keys_ok_new. Qed.

(** C30: refinement of a plain map on the first n+2 characters. *)
Theorem C30_fixed_accuracy_map : forall V eng n (os : list (mop V)), -2 <= n ->
  snd (ht_run eng (ht_new n) (map to_hop os)) =
  map to_hout (map_run (firstn (Z.to_nat (n + 2))) (fun _ => None) os).
Proof. intros V eng n os Hn. apply (refine_run eng n os Hn []). reflexivity. Qed.
Example C30_ex : snd (ht_run eng_pinned (ht_new 2)
    (map to_hop [MSet (txt "3.14159") 1; MGet (txt "3.1499"); MMem (txt "3.15"); MSet (txt "3.14") 2; MGet (txt "3.1415")])) =
  [HUnit (Ok tt); HVal (Ok 1); HBool (Ok false); HUnit (Ok tt); HVal (Ok 2)].
Proof. reflexivity. Qed.

(** C31 *)
Theorem C31_set_get : forall V eng (t : htab V) k v, reachable eng t -> snd (ht_set eng k v t) = Ok tt ->
  ht_get eng k (fst (ht_set eng k v t)) = Ok v.
Proof. intros V eng t k v Hr. apply set_get. now apply (reachable_ok eng). Qed.
Theorem C31_set_fails_only_on_key : forall V eng (t : htab V) k v,
  (snd (ht_set eng k v t) = Ok tt <-> (exists s, k = UStr s) \/ exists q s, k = UNum q /\ eng q = Ok s) /\
  (snd (ht_set eng k v t) <> Ok tt -> fst (ht_set eng k v t) = t).
Proof.
  intros V eng t k v. unfold ht_set, ht_manipulate_key.
  destruct k as [s|q|]; cbn [bind].
  - cbn [snd]. split; [|congruence]. split; [intros _; left; now exists s|reflexivity].
  - destruct (eng q) as [s|e] eqn:Eq; cbn [bind snd fst].
    + split; [|congruence]. split; [intros _; right; now exists q, s|reflexivity].
    + split; [|reflexivity]. split; [discriminate|].
      intros [(s & Hs)|(q' & s & [= <-] & Hs)]; [discriminate|congruence].
  - cbn [snd fst]. split; [|reflexivity]. split; [discriminate|].
    intros [(s & Hs)|(q' & s & Hq & Hs)]; discriminate.
Qed.
Theorem C31_contains_iff_get : forall V eng (t : htab V) k,
  (ht_contains eng k t = Ok true <-> exists v, ht_get eng k t = Ok v) /\
  (ht_contains eng k t = Ok false -> ht_get eng k t = Raise KeyError).
Proof. intros V eng t k. split; [apply contains_get|apply contains_false]. Qed.
Theorem C31_other_keys : forall V eng (t : htab V) (s s' : text) v,
  (forall a, In a (h_hist t ++ [h_acc t]) -> -1 <= a) ->
  (forall a, In a (h_hist t ++ [h_acc t]) -> firstn (Z.to_nat (a + 1)) s' <> firstn (Z.to_nat (a + 1)) s) ->
  ht_get eng (UStr s') (fst (ht_set eng (UStr s) v t)) = ht_get eng (UStr s') t /\
  ht_contains eng (UStr s') (fst (ht_set eng (UStr s) v t)) = ht_contains eng (UStr s') t.
Proof.
  intros V eng t s s' v Hn Hd.
  assert (G : ht_get eng (UStr s') (fst (ht_set eng (UStr s) v t)) = ht_get eng (UStr s') t).
  { apply set_frame; [exact Hn|]. intros a Ha. pose proof (Hn a Ha). rewrite !py_take_nonneg by lia. now apply Hd. }
  split; [exact G|].
  set (t' := fst (ht_set eng (UStr s) v t)) in *.
  pose proof (contains_get eng t (UStr s')) as C. pose proof (contains_get eng t' (UStr s')) as C'.
  rewrite G in C'. rewrite <- C in C'.
  assert (T : forall u : htab V, exists b, ht_contains eng (UStr s') u = Ok b)
    by (intros u; eexists; reflexivity).
  destruct (T t) as (b & Hb), (T t') as (b' & Hb'). rewrite Hb, Hb' in *.
  destruct b, b'; try reflexivity; destruct C' as [C1 C2]; [discriminate (C2 eq_refl)|discriminate (C1 eq_refl)].
Qed.
Definition ht_ex : htab Z := fst (ht_run eng_pinned (ht_new 3)
  [HSet (UStr (txt "2.71828")) 1; HUpd 1; HSet (UStr (txt "3.14159")) 2; HUpd 5]).
Example C31_ex : reachable eng_pinned ht_ex /\
  ht_get eng_pinned (UStr (txt "3.14159")) (fst (ht_set eng_pinned (UStr (txt "3.14159")) 9 ht_ex)) = Ok 9 /\
  ht_get eng_pinned (UStr (txt "2.71828")) (fst (ht_set eng_pinned (UStr (txt "3.14159")) 9 ht_ex)) = Ok 1 /\
  forallb (fun a => (-1 <=? a) && negb (text_eqb (py_take (a + 1) (txt "2.71828")) (py_take (a + 1) (txt "3.14159"))))
    (h_hist ht_ex ++ [h_acc ht_ex]) = true.
Proof. split; [eexists; eexists; reflexivity|]. repeat split. Qed.

(** C32: in general, assigning deletes whatever is stored under any earlier prefix of the key ... *)
Theorem C32_set_deletes_old_prefixes : forall V eng (t : htab V) (s : text) v a, reachable eng t -> In a (h_hist t) ->
  py_take (a + 1) s <> py_take (h_acc t + 1) s ->
  d_get rawkey_eqb (h_data (fst (ht_set eng (UStr s) v t))) (KStr (py_take (a + 1) s)) = None.
Proof.
  intros V eng t s v a Hr Ha Hd. unfold ht_set, ht_manipulate_key. cbn [bind fst h_data].
  rewrite (d_get_set_other _ rawkey_eqb_eq) by congruence.
  apply del_olds_same; [now apply (reachable_ok eng)|]. apply in_map_iff. now exists a.
Qed.
(** ... and look-ups answer with the entry stored under the earliest accuracy at which a prefix is stored. *)
Theorem C32_earliest_prefix_wins : forall V eng (t : htab V) (s : text) h1 a h2 v, h_hist t = h1 ++ a :: h2 ->
  (forall b, In b h1 -> d_get rawkey_eqb (h_data t) (KStr (py_take (b + 1) s)) = None) ->
  d_get rawkey_eqb (h_data t) (KStr (py_take (a + 1) s)) = Some v -> ht_get eng (UStr s) t = Ok v.
Proof.
  intros V eng t s h1 a h2 v Hh H1 Ha. unfold ht_get, ht_manipulate_key. cbn [bind fst snd]. rewrite Hh, map_app.
  cbn [map]. revert H1. clear Hh. induction h1 as [|b h1 IH]; intros H1; cbn [map app get_loop].
  - replace (raw_mem (h_data t) (py_take (a + 1) s)) with true.
    + unfold dict_getitem, raw_get. now rewrite Ha.
    + symmetry. apply raw_mem_get. now exists v.
  - replace (raw_mem (h_data t) (py_take (b + 1) s)) with false.
    + apply IH. intros; apply H1; now right.
    + symmetry. apply raw_mem_false. apply H1. now left.
Qed.
(** The scenario of the claim, for every history at the first accuracy: k1 is stored, the accuracy is refined, a
    different number k2 with the same coarse key is looked up (shadowed) and then stored (k1's entry is lost). *)
Theorem C32_refinement_loses_entries : forall V eng n b (os : list (mop V)) (k1 k2 : text) v1 v2,
  -2 <= n < b ->
  firstn (Z.to_nat (n + 2)) k1 = firstn (Z.to_nat (n + 2)) k2 ->
  firstn (Z.to_nat (b + 2)) k1 <> firstn (Z.to_nat (b + 2)) k2 ->
  let t1 := fst (ht_set eng (UStr k1) v1 (fst (ht_run eng (ht_new n) (map to_hop os)))) in
  let t2 := ht_update_accuracy b t1 in
  let t3 := fst (ht_set eng (UStr k2) v2 t2) in
  ht_get eng (UStr k1) t2 = Ok v1 /\ ht_get eng (UStr k2) t2 = Ok v1 /\
  ht_get eng (UStr k2) t3 = Ok v2 /\
  ((Z.to_nat (n + 2) < List.length k2)%nat -> ht_contains eng (UStr k1) t3 = Ok false) /\
  ((List.length k2 <= Z.to_nat (n + 2))%nat -> ht_get eng (UStr k1) t3 = Ok v2).
Proof.
  intros V eng n b os k1 k2 v1 v2 Hn Hc Hf.
  destruct (run_shape (V := V) eng n os ltac:(lia) []) as (d & Hd & Hk); [intros k []|].
  intros t1 t2 t3.
  assert (Hr1 : keys_ok t1).
  { unfold t1. apply (ht_step_ok eng _ (HSet (UStr k1) v1)). apply ht_run_ok, keys_ok_new. }
  assert (Pn : forall s : text, py_take (n + 1 + 1) s = firstn (Z.to_nat (n + 2)) s)
    by (intros s; rewrite py_take_nonneg by lia; now replace (n + 1 + 1) with (n + 2) by lia).
  assert (Pb : forall s : text, py_take (b + 1 + 1) s = firstn (Z.to_nat (b + 2)) s)
    by (intros s; rewrite py_take_nonneg by lia; now replace (b + 1 + 1) with (b + 2) by lia).
  set (c := firstn (Z.to_nat (n + 2)) k1) in *.
  assert (T1 : t1 = mkHtab (n + 1) [] (d_set rawkey_eqb d (KStr c) v1)).
  { unfold t1. change (@ht_new V n) with (mkHtab (n + 1) [] (@nil (rawkey * V))). rewrite Hd.
    unfold ht_set, ht_manipulate_key. cbn [bind h_hist h_acc h_data map fst del_olds fold_left].
    rewrite Pn. reflexivity. }
  set (d1 := d_set rawkey_eqb d (KStr c) v1) in *.
  assert (T2 : t2 = mkHtab (b + 1) [n + 1] d1) by (unfold t2; rewrite T1; reflexivity).
  assert (G1 : d_get rawkey_eqb d1 (KStr c) = Some v1) by (apply (d_get_set_same _ rawkey_eqb_eq)).
  assert (G : forall k : text, firstn (Z.to_nat (n + 2)) k = c -> ht_get eng (UStr k) t2 = Ok v1).
  { intros k Ek. apply (C32_earliest_prefix_wins V eng t2 k [] (n + 1) [] v1); [now rewrite T2|intros ? []|].
    rewrite T2. cbn [h_data]. now rewrite Pn, Ek. }
  split; [now apply G|]. split; [apply G; now rewrite Hc|].
  split.
  { unfold t3. apply set_get; [|reflexivity]. rewrite T2. rewrite T1 in Hr1. exact Hr1. }
  assert (Hd1 : forall k, In k (d_keys d1) -> exists s, k = KStr s /\ (List.length s <= Z.to_nat (n + 2))%nat).
  { intros k. unfold d1. rewrite (d_keys_set _). destruct (d_mem _ _ _); [apply Hk|].
    intros Hx. apply in_app_or in Hx. destruct Hx as [Hx|[<-|[]]]; [now apply Hk|].
    exists c. split; [reflexivity|]. unfold c. rewrite firstn_length. lia. }
  assert (T3 : t3 = mkHtab (b + 1) [n + 1]
     (d_set rawkey_eqb (del_olds [c] d1) (KStr (firstn (Z.to_nat (b + 2)) k2)) v2)).
  { unfold t3. rewrite T2. unfold ht_set, ht_manipulate_key. cbn [bind h_hist h_acc h_data map fst].
    rewrite Pn, Pb, <- Hc. reflexivity. }
  assert (Nd1 : NoDup (d_keys d1)) by (rewrite T1 in Hr1; exact Hr1).
  split; intros HL.
  - rewrite T3. unfold ht_contains, ht_manipulate_key. cbn [bind h_hist h_acc h_data map fst snd mem_loop].
    rewrite Pn, Pb. fold c.
    assert (Nc : KStr c <> KStr (firstn (Z.to_nat (b + 2)) k2)).
    { intros [= E]. apply (f_equal (@List.length ascii)) in E. rewrite Hc in E. rewrite !firstn_length in E. lia. }
    replace (raw_mem _ c) with false.
    2:{ symmetry. apply raw_mem_false. unfold raw_get. rewrite (d_get_set_other _ rawkey_eqb_eq) by exact Nc.
        apply del_olds_same; [exact Nd1|now left]. }
    f_equal. apply raw_mem_false. unfold raw_get. rewrite (d_get_set_other _ rawkey_eqb_eq) by congruence.
    destruct (Nat.le_gt_cases (List.length k1) (Z.to_nat (n + 2))) as [L|L].
    + assert (E : firstn (Z.to_nat (b + 2)) k1 = c).
      { unfold c. rewrite !firstn_all2 by lia. reflexivity. }
      rewrite E. apply del_olds_same; [exact Nd1|now left].
    + apply del_olds_none. apply (d_get_None _ rawkey_eqb_eq). intros HI. apply Hd1 in HI.
      destruct HI as (s & [= <-] & Hs). rewrite firstn_length in Hs. lia.
  - rewrite T3. unfold ht_get, ht_manipulate_key. cbn [bind h_hist h_acc h_data map fst snd get_loop].
    rewrite Pn, Pb. fold c.
    assert (Ec : c = firstn (Z.to_nat (b + 2)) k2).
    { rewrite Hc. rewrite !firstn_all2 by lia. reflexivity. }
    replace (raw_mem _ c) with true.
    + unfold dict_getitem, raw_get. rewrite <- Ec. now rewrite (d_get_set_same _ rawkey_eqb_eq).
    + symmetry. apply raw_mem_get. exists v2. unfold raw_get. rewrite <- Ec. apply (d_get_set_same _ rawkey_eqb_eq).
Qed.
Example C32_ex :
  let t2 := ht_update_accuracy 4 (fst (ht_set eng_pinned (UStr (txt "3.1415")) 1 (ht_new 2))) in
  ht_get eng_pinned (UStr (txt "3.1499")) t2 = Ok 1 /\
  ht_contains eng_pinned (UStr (txt "3.1415")) (fst (ht_set eng_pinned (UStr (txt "3.1499")) 2 t2)) = Ok false.
Proof. split; reflexivity. Qed.

(** C33: exact effect of del, for every table and key. *)
Theorem C33_del_exact : forall V eng (t : htab V) (s : text), reachable eng t ->
  (forall h1 a h2 v, h_hist t = h1 ++ a :: h2 ->
     (forall b, In b h1 -> d_get rawkey_eqb (h_data t) (KStr (py_take (b + 1) s)) = None) ->
     d_get rawkey_eqb (h_data t) (KStr (py_take (a + 1) s)) = Some v ->
     snd (ht_del eng (UStr s) t) = Ok tt /\ h_acc (fst (ht_del eng (UStr s) t)) = h_acc t /\
     h_hist (fst (ht_del eng (UStr s) t)) = h_hist t /\
     forall k, d_get rawkey_eqb (h_data (fst (ht_del eng (UStr s) t))) k =
       (if rawkey_eqb k (KStr (py_take (a + 1) s)) then None else d_get rawkey_eqb (h_data t) k)) /\
  ((forall b, In b (h_hist t) -> d_get rawkey_eqb (h_data t) (KStr (py_take (b + 1) s)) = None) ->
     ht_del eng (UStr s) t =
       (t, if d_mem rawkey_eqb (h_data t) (KStr (py_take (h_acc t + 1) s)) then Ok tt else Raise KeyError)).
Proof.
  intros V eng t s Hr. apply (reachable_ok eng) in Hr. split.
  - intros h1 a h2 v Hh H1 Ha. unfold ht_del, ht_manipulate_key. cbn [bind]. rewrite Hh, map_app. cbn [map].
    assert (L : del_loop (map (fun i => py_take (i + 1) s) h1 ++
                 py_take (a + 1) s :: map (fun i => py_take (i + 1) s) h2) (py_take (h_acc t + 1) s) (h_data t) =
                (d_del rawkey_eqb (h_data t) (KStr (py_take (a + 1) s)), Ok tt)).
    { clear Hh. induction h1 as [|b h1 IH]; cbn [map app del_loop].
      - replace (raw_mem _ _) with true; [reflexivity|]. symmetry. apply raw_mem_get. now exists v.
      - replace (raw_mem (h_data t) (py_take (b + 1) s)) with false.
        + apply IH. intros; apply H1; now right.
        + symmetry. apply raw_mem_false. apply H1. now left. }
    rewrite L. cbn [fst snd h_acc h_hist h_data]. split; [reflexivity|]. split; [reflexivity|]. split; [reflexivity||now rewrite Hh|].
    intros k. destruct (rawkey_eqb k _) eqn:E.
    + apply rawkey_eqb_eq in E. subst k. now apply (d_get_del_same _ rawkey_eqb_eq).
    + apply (d_get_del_other _ rawkey_eqb_eq). intros ->.
      assert (rawkey_eqb (KStr (py_take (a + 1) s)) (KStr (py_take (a + 1) s)) = true) by (now apply rawkey_eqb_eq).
      congruence.
  - intros H. unfold ht_del, ht_manipulate_key. cbn [bind].
    assert (L : del_loop (map (fun i => py_take (i + 1) s) (h_hist t)) (py_take (h_acc t + 1) s) (h_data t) =
                (h_data t, let* _ := dict_getitem (h_data t) (py_take (h_acc t + 1) s) in Ok tt)).
    { induction (h_hist t) as [|b h IH]; cbn [map del_loop]; [reflexivity|].
      replace (raw_mem (h_data t) (py_take (b + 1) s)) with false.
      - apply IH. intros; apply H; now right.
      - symmetry. apply raw_mem_false. apply H. now left. }
    rewrite L. f_equal; [now destruct t|]. unfold dict_getitem, d_mem, raw_get.
    destruct (d_get rawkey_eqb (h_data t) _); reflexivity.
Qed.
(** Before the first change of accuracy nothing can ever be deleted. *)
Theorem C33_del_never_deletes : forall V eng (t : htab V) k, h_hist t = [] -> fst (ht_del eng k t) = t.
Proof.
  intros V eng t k Hh. unfold ht_del. destruct (ht_manipulate_key eng t k) as [[olds cur]|e] eqn:E; [|reflexivity].
  assert (olds = []).
  { unfold ht_manipulate_key in E. destruct k as [s|q|]; cbn [bind] in E; [|destruct (eng q); cbn [bind] in E; [|discriminate]|discriminate];
      rewrite Hh in E; injection E as <- _; reflexivity. }
  subst olds. cbn [del_loop fst]. now destruct t.
Qed.
Theorem C33_del_deletes_refuted : exists (t : htab Z) k, reachable eng_pinned t /\
  snd (ht_del eng_pinned k t) = Ok tt /\ ht_contains eng_pinned k (fst (ht_del eng_pinned k t)) = Ok true.
Proof.
  exists (fst (ht_run eng_pinned (ht_new 3) [HSet (UStr (txt "2.718")) 1])), (UStr (txt "2.71828")).
  split; [eexists; eexists; reflexivity|]. split; reflexivity.
Qed.
Example C33_ex : snd (ht_del eng_pinned (UStr (txt "2.71828")) ht_ex) = Ok tt /\
  ht_contains eng_pinned (UStr (txt "2.71828")) (fst (ht_del eng_pinned (UStr (txt "2.71828")) ht_ex)) = Ok false /\
  snd (ht_del eng_pinned (UStr (txt "1.0")) ht_ex) = Raise KeyError.
Proof. repeat split. Qed.

(** C34 *)
Theorem C34_pickle_roundtrip : forall V eng (t : htab V), reachable eng t -> ht_unpickle (ht_reduce t) = t.
Proof. intros V eng t Hr. apply unpickle_reduce. now apply (reachable_ok eng). Qed.
Example C34_ex : ht_unpickle (ht_reduce (ht_raw_set (KNum (1 # 3)) 7 ht_ex)) = ht_raw_set (KNum (1 # 3)) 7 ht_ex /\
  List.length (h_data (ht_raw_set (KNum (1 # 3)) 7 ht_ex)) = 3%nat.
Proof. split; reflexivity. Qed.

(** C35 *)
Theorem C35_append_refuses : forall E (app t : htab (hval E)), h_acc t <> h_acc app -> ht_append app t = (t, Raise TypeError).
Proof. intros E app t H. unfold ht_append. rewrite (proj2 (Z.eqb_neq _ _)) by assumption. reflexivity. Qed.
Theorem C35_append_union : forall E eng eng' (app t : htab (hval E)), reachable eng app -> reachable eng' t -> h_acc t = h_acc app ->
  let t' := fst (ht_append app t) in
  snd (ht_append app t) = Ok tt /\ h_acc t' = h_acc t /\
  (forall a, In a (h_hist t') <-> In a (h_hist t) \/ In a (h_hist app)) /\
  d_keys (h_data t') = d_keys (h_data t) ++ filter (fun k => negb (d_mem rawkey_eqb (h_data t) k)) (d_keys (h_data app)) /\
  (forall k, d_get rawkey_eqb (h_data t') k =
     match d_get rawkey_eqb (h_data t) k, d_get rawkey_eqb (h_data app) k with
     | Some x, Some y => Some (VList ((match x with VList l => l | VOne e => [e] end) ++
                                      (match y with VList l => l | VOne e => [e] end)))
     | Some x, None => Some x
     | None, Some y => Some y
     | None, None => None
     end).
Proof.
  intros E eng eng' app t Ha Ht He t'. apply (reachable_ok eng) in Ha. apply (reachable_ok eng') in Ht.
  unfold t', ht_append. rewrite He, Z.eqb_refl. cbn [negb fst snd h_acc h_hist h_data].
  repeat split.
  - intros Hi. apply in_app_or in Hi. destruct Hi as [Hi|Hi]; [now left|right]. now apply filter_In in Hi.
  - intros Hi. apply in_or_app. destruct (in_dec Z.eq_dec a (h_hist t)) as [Y|N]; [now left|right].
    destruct Hi as [Hi|Hi]; [contradiction|]. apply filter_In. split; [exact Hi|].
    unfold zmem. destruct (existsb (Z.eqb a) (h_hist t)) eqn:Ex; [|reflexivity].
    apply existsb_exists in Ex. destruct Ex as (x & Hx & Hax). apply Z.eqb_eq in Hax. subst. contradiction.
  - now apply append_keys.
  - intros k. rewrite append_get by exact Ha. unfold joined.
    destruct (d_get rawkey_eqb (h_data t) k), (d_get rawkey_eqb (h_data app) k); reflexivity.
Qed.
(** Joining any number of tables: every key holds the entries of all of them in order. *)
Theorem C35_join_concat : forall E eng (t : htab (hval E)) r, Forall (reachable eng) (t :: r) ->
  Forall (fun a => h_acc a = h_acc t) r ->
  exists j, join_tables (t :: r) = Ok j /\ h_acc j = h_acc t /\
    forall k, entries k j = List.concat (map (entries k) (t :: r)).
Proof.
  intros E eng t r Hr Ha. destruct (join_all r t) as (j & H1 & H2 & _ & H4).
  - revert Hr. apply Forall_impl. apply reachable_ok.
  - exact Ha.
  - exists j. auto.
Qed.
Theorem C35_join_empty : forall E, @join_tables E [] = Raise IndexError.
Proof. reflexivity. Qed.
Definition jt1 : htab (hval Z) := fst (ht_run eng_pinned (ht_new 3) [HSet (UStr (txt "1.234")) (VList [1; 2]); HSet (UStr (txt "parameters")) (VOne 100)]).
Definition jt2 : htab (hval Z) := fst (ht_run eng_pinned (ht_new 3) [HSet (UStr (txt "1.2345")) (VList [3]); HRawSet (KNum (1 # 3)) (VList [4]); HSet (UStr (txt "parameters")) (VOne 200)]).
Example C35_ex : match join_tables [jt1; jt2; jt1] with
  | Ok j => ht_get eng_pinned (UStr (txt "1.234")) j = Ok (VList [1; 2; 3; 1; 2]) /\ entries (KNum (1 # 3)) j = [4]
            /\ ht_get eng_pinned (UStr (txt "parameters")) j = Ok (VList [100; 200; 100])
  | Raise _ => False end.
Proof. vm_compute. repeat split. Qed.

(** C37: same key of a fresh table of accuracy n iff the comparison holds. *)
Theorem C37_key_is_comparison : forall V eng n (v : V) q1 q2 s1 s2, eng q1 = Ok s1 -> eng q2 = Ok s2 ->
  ht_contains eng (UNum q2) (fst (ht_set eng (UNum q1) v (ht_new n))) = compare_dec_with_accuracy eng q2 q1 n.
Proof.
  intros V eng n v q1 q2 s1 s2 H1 H2. unfold ht_set, ht_contains, ht_manipulate_key, compare_dec_with_accuracy, ht_new.
  rewrite H1, H2. cbn [bind fst h_hist h_acc h_data map]. cbn [bind fst snd mem_loop h_data].
  unfold raw_mem, d_mem. cbn [del_olds fold_left d_set d_get rawkey_eqb].
  destruct (text_eqb _ _); reflexivity.
Qed.
(** Plain numerals: same first n+2 characters (reaching the point) means close values. *)
Theorem C37_plain_decimals_close : forall n d1 d2 p, -2 <= n -> dec_wf d1 -> dec_wf d2 -> dec_plain d1 -> dec_plain d2 ->
  point_at (dec_eng d1) = Some p -> Z.of_nat p <= n + 2 ->
  py_take (n + 1 + 1) (dec_eng d1) = py_take (n + 1 + 1) (dec_eng d2) ->
  (Qabs (dec_value d1 - dec_value d2) < ten_p (- (n + 2 - Z.of_nat p)))%Q.
Proof.
  intros n d1 d2 p Hn W1 W2 P1 P2 Hp Hm Hk. rewrite !py_take_nonneg in Hk by lia.
  replace (n + 2) with (Z.of_nat (Z.to_nat (n + 1 + 1))) by lia.
  apply plain_close; try assumption. lia.
Qed.
Example C37_ex : let d1 := mkDec false [1;2;3;4;5]%nat (-3) in let d2 := mkDec false [1;2;3;4;9;9;9]%nat (-5) in
  dec_wf d1 /\ dec_plain d1 /\ dec_eng d1 = txt "12.345" /\ dec_eng d2 = txt "12.34999" /\
  point_at (dec_eng d1) = Some 3%nat /\ py_take 5 (dec_eng d1) = py_take 5 (dec_eng d2) /\
  dec_eng (mkDec true [5]%nat (-4)) = txt "-0.0005" /\ dec_eng (mkDec false [1;2;3]%nat (-12)) = txt "123E-12".
Proof. vm_compute. repeat split; try discriminate. repeat constructor. Qed.
(** Below 10^-6: the exponent is cut off, so that the same key covers different orders of magnitude. *)
Theorem C37_small_values_refuted : exists d1 d2, dec_wf d1 /\ dec_wf d2 /\
  py_take 9 (dec_eng d1) = py_take 9 (dec_eng d2) /\ (dec_value d1 == 1000 * dec_value d2)%Q /\ (0 < dec_value d2)%Q.
Proof.
  exists (mkDec false [1;2;3;4;5;6;7;8;9]%nat (-16)), (mkDec false [1;2;3;4;5;6;7;8;9]%nat (-19)).
  repeat split; try discriminate; repeat (constructor; try lia).
Qed.
(** Equal numbers with different trailing zeros have different keys. *)
Theorem C37_equal_values_refuted : exists d1 d2, dec_wf d1 /\ dec_wf d2 /\ (dec_value d1 == dec_value d2)%Q /\
  py_take 9 (dec_eng d1) <> py_take 9 (dec_eng d2).
Proof.
  exists (mkDec false [5]%nat (-1)), (mkDec false [5;0]%nat (-2)).
  repeat split; try discriminate; repeat (constructor; try lia).
Qed.
(** With the pinned number type no numeric key works at all, in any operation. *)
Theorem C37_pinned_backend_raises : forall V n (v : V) q q' (t : htab V),
  snd (ht_set eng_pinned (UNum q) v t) = Raise AttributeError /\ fst (ht_set eng_pinned (UNum q) v t) = t /\
  ht_get eng_pinned (UNum q) t = Raise AttributeError /\ ht_contains eng_pinned (UNum q) t = Raise AttributeError /\
  snd (ht_del eng_pinned (UNum q) t) = Raise AttributeError /\
  compare_dec_with_accuracy eng_pinned q q' n = Raise AttributeError.
Proof. intros. repeat split. Qed.

Print Assumptions C30_fixed_accuracy_map.
Print Assumptions C31_set_get.
Print Assumptions C31_set_fails_only_on_key.
Print Assumptions C31_contains_iff_get.
Print Assumptions C31_other_keys.
Print Assumptions C32_set_deletes_old_prefixes.
Print Assumptions C32_earliest_prefix_wins.
Print Assumptions C32_refinement_loses_entries.
Print Assumptions C33_del_exact.
Print Assumptions C33_del_never_deletes.
Print Assumptions C33_del_deletes_refuted.
Print Assumptions C34_pickle_roundtrip.
Print Assumptions C35_append_refuses.
Print Assumptions C35_append_union.
Print Assumptions C35_join_concat.
Print Assumptions C35_join_empty.
Print Assumptions C37_key_is_comparison.
Print Assumptions C37_plain_decimals_close.
Print Assumptions C37_small_values_refuted.
Print Assumptions C37_equal_values_refuted.
Print Assumptions C37_pinned_backend_raises.

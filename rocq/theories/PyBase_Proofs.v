(** Facts about the python primitives. *)
From Coq Require Import ZArith List Bool Lia FinFun.
From Verif Require Import PyBase.
Import ListNotations.
Open Scope Z_scope.

Lemma zrange_nil lo hi : hi <= lo -> zrange lo hi = [].
Proof. intros H. unfold zrange. now replace (Z.to_nat (hi - lo)) with 0%nat by lia. Qed.

Lemma zrange_cons lo hi : lo < hi -> zrange lo hi = lo :: zrange (lo + 1) hi.
Proof.
  intros H. unfold zrange.
  replace (Z.to_nat (hi - lo)) with (S (Z.to_nat (hi - (lo + 1)))) by lia.
  cbn [seq map]. f_equal; [lia|].
  rewrite <- seq_shift, map_map. apply map_ext. intros; lia.
Qed.

Lemma zrange_length lo hi : length (zrange lo hi) = Z.to_nat (hi - lo).
Proof. unfold zrange. now rewrite map_length, seq_length. Qed.

Lemma in_zrange lo hi x : In x (zrange lo hi) <-> lo <= x < hi.
Proof.
  unfold zrange. rewrite in_map_iff. split.
  - intros (i & <- & Hi). apply in_seq in Hi. lia.
  - intros H. exists (Z.to_nat (x - lo)). split; [lia|]. apply in_seq. lia.
Qed.

Lemma zrange_app lo mid hi : lo <= mid <= hi -> zrange lo hi = zrange lo mid ++ zrange mid hi.
Proof.
  intros H. unfold zrange.
  replace (Z.to_nat (hi - lo)) with (Z.to_nat (mid - lo) + Z.to_nat (hi - mid))%nat by lia.
  rewrite seq_app, map_app. f_equal.
  cbn [plus]. rewrite <- (Nat.add_0_r (Z.to_nat (mid - lo))) at 1.
  generalize (Z.to_nat (hi - mid)) as m. generalize 0%nat as s.
  intros s m. revert s. induction m as [|m IH]; intros s; [reflexivity|].
  cbn [seq map]. f_equal; [lia|].
  rewrite <- IH. f_equal. f_equal. lia.
Qed.

Lemma zrange_snoc lo hi : lo <= hi -> zrange lo (hi + 1) = zrange lo hi ++ [hi].
Proof.
  intros H. rewrite (zrange_app lo hi (hi + 1)) by lia. f_equal.
  rewrite zrange_cons by lia. now rewrite zrange_nil by lia.
Qed.

Lemma NoDup_zrange lo hi : NoDup (zrange lo hi).
Proof.
  unfold zrange. apply FinFun.Injective_map_NoDup; [intros a b H; lia | apply seq_NoDup].
Qed.

Lemma foldM_app {S A} (f : S -> A -> res S) xs ys s :
  foldM f (xs ++ ys) s = bind (foldM f xs s) (foldM f ys).
Proof.
  revert s. induction xs as [|x xs IH]; intros s; cbn; [reflexivity|].
  destruct (f s x); cbn; auto.
Qed.

Lemma mapM_ok {A B} (f : A -> res B) (g : A -> B) xs :
  (forall x, In x xs -> f x = Ok (g x)) -> mapM f xs = Ok (map g xs).
Proof.
  induction xs as [|x xs IH]; intros H; cbn; [reflexivity|].
  rewrite H by (now left). cbn. rewrite IH by (intros; apply H; now right). reflexivity.
Qed.

Lemma in_product {A} (ls : list (list A)) t :
  In t (product ls) <-> Forall2 (fun x l => In x l) t ls.
Proof.
  revert t. induction ls as [|l r IH]; intros t; cbn.
  - split; [intros [<-|[]]; constructor | intros H; inversion H; now left].
  - rewrite in_flat_map. split.
    + intros (x & Hx & Ht). apply in_map_iff in Ht as (t' & <- & Ht').
      constructor; [assumption | now apply IH].
    + intros H. inversion H as [|x l' t' r' Hx Ht']; subst.
      exists x. split; [assumption|]. apply in_map, IH. assumption.
Qed.

Lemma NoDup_flat_map {A B} (f : A -> list B) l :
  NoDup l -> (forall x, In x l -> NoDup (f x)) ->
  (forall x y b, In x l -> In y l -> In b (f x) -> In b (f y) -> x = y) ->
  NoDup (flat_map f l).
Proof.
  induction l as [|x l IH]; intros Hl Hf Hd; cbn; [constructor|].
  inversion Hl; subst.
  assert (H: forall (u v : list B), NoDup u -> NoDup v -> (forall b, In b u -> In b v -> False) -> NoDup (u ++ v)).
  { induction u as [|b u IHu]; intros v Hu Hv Huv; cbn; [assumption|].
    inversion Hu; subst. constructor.
    - rewrite in_app_iff. intros [?|?]; [contradiction|]. apply (Huv b); [now left|assumption].
    - apply IHu; auto. intros b' ? ?. apply (Huv b'); [now right|assumption]. }
  apply H.
  - apply Hf. now left.
  - apply IH; auto.
    + intros y Hy. apply Hf. now right.
    + intros y z b Hy Hz. apply Hd; now right.
  - intros b Hb Hb'. apply in_flat_map in Hb' as (y & Hy & Hby).
    assert (x = y) by (apply (Hd x y b); [now left|now right|assumption|assumption]).
    subst. contradiction.
Qed.

Lemma NoDup_product {A} (ls : list (list A)) : Forall (@NoDup A) ls -> NoDup (product ls).
Proof.
  induction 1 as [|l r Hl Hr IH]; cbn.
  - constructor; [intros []|constructor].
  - apply NoDup_flat_map; [assumption| |].
    + intros x _. apply FinFun.Injective_map_NoDup; [intros a b H; now inversion H|assumption].
    + intros x y b _ _ Hx Hy. apply in_map_iff in Hx as (t & <- & _).
      apply in_map_iff in Hy as (t' & E & _). now inversion E.
Qed.

Lemma product_length {A} (ls : list (list A)) :
  length (product ls) = fold_right (fun l n => (length l * n)%nat) 1%nat ls.
Proof.
  induction ls as [|l r IH]; cbn [product fold_right]; [reflexivity|].
  rewrite <- IH. generalize (product r) as p. intros p.
  induction l as [|x l IHl]; cbn [flat_map length]; [reflexivity|].
  rewrite app_length, map_length, IHl. lia.
Qed.

Section Dict.
  Context {K V : Type} (eqb : K -> K -> bool).
  Hypothesis eqb_spec : forall x y, eqb x y = true <-> x = y.

  Lemma eqb_refl_ x : eqb x x = true.
  Proof. now apply eqb_spec. Qed.
  Lemma eqb_neq_ x y : x <> y -> eqb x y = false.
  Proof. intros H. destruct (eqb x y) eqn:E; [|reflexivity]. apply eqb_spec in E. contradiction. Qed.

  Lemma d_get_set_same (d : list (K * V)) k v : d_get eqb (d_set eqb d k v) k = Some v.
  Proof.
    induction d as [|[k' v'] d IH]; cbn; [now rewrite eqb_refl_|].
    destruct (eqb k k') eqn:E; cbn; rewrite E; auto.
  Qed.

  Lemma d_get_set_other (d : list (K * V)) k k2 v : k2 <> k -> d_get eqb (d_set eqb d k v) k2 = d_get eqb d k2.
  Proof.
    intros N. induction d as [|[k' v'] d IH]; cbn.
    - now rewrite (eqb_neq_ k2 k).
    - destruct (eqb k k') eqn:E; cbn.
      + apply eqb_spec in E. subst. now rewrite (eqb_neq_ k2 k').
      + destruct (eqb k2 k'); auto.
  Qed.

  Lemma d_get_del_other (d : list (K * V)) k k2 : k2 <> k -> d_get eqb (d_del eqb d k) k2 = d_get eqb d k2.
  Proof.
    intros N. induction d as [|[k' v'] d IH]; cbn; [reflexivity|].
    destruct (eqb k k') eqn:E; cbn.
    - apply eqb_spec in E. subst. now rewrite (eqb_neq_ k2 k').
    - destruct (eqb k2 k'); auto.
  Qed.

  Lemma d_get_None (d : list (K * V)) k : d_get eqb d k = None <-> ~ In k (d_keys d).
  Proof.
    induction d as [|[k' v'] d IH]; cbn; [tauto|].
    destruct (eqb k k') eqn:E.
    - apply eqb_spec in E. subst. split; [discriminate|]. intros H. exfalso. apply H. now left.
    - rewrite IH. split; intros H; [|tauto].
      intros [->|?]; [rewrite eqb_refl_ in E; discriminate|contradiction].
  Qed.

  Lemma d_get_Some_in (d : list (K * V)) k v : d_get eqb d k = Some v -> In (k, v) d.
  Proof.
    induction d as [|[k' v'] d IH]; cbn; [discriminate|].
    destruct (eqb k k') eqn:E.
    - apply eqb_spec in E. intros [= ->]. subst. now left.
    - intros H. right. auto.
  Qed.

  Lemma d_in_get (d : list (K * V)) k v : NoDup (d_keys d) -> In (k, v) d -> d_get eqb d k = Some v.
  Proof.
    induction d as [|[k' v'] d IH]; cbn; [tauto|].
    intros Hn [H|H].
    - inversion H; subst. now rewrite eqb_refl_.
    - inversion Hn as [|? ? Hni Hn']; subst. destruct (eqb k k') eqn:E; [|auto].
      apply eqb_spec in E. subst. exfalso. apply Hni. now apply (in_map fst) in H.
  Qed.

  Lemma d_keys_set (d : list (K * V)) k v :
    d_keys (d_set eqb d k v) = if d_mem eqb d k then d_keys d else d_keys d ++ [k].
  Proof.
    unfold d_mem, d_keys. induction d as [|[k' v'] d IH]; cbn; [reflexivity|].
    destruct (eqb k k') eqn:E; cbn; [reflexivity|].
    rewrite IH. destruct (d_get eqb d k); reflexivity.
  Qed.

  Lemma d_keys_set_NoDup (d : list (K * V)) k v : NoDup (d_keys d) -> NoDup (d_keys (d_set eqb d k v)).
  Proof.
    intros H. rewrite d_keys_set. unfold d_mem. destruct (d_get eqb d k) eqn:E; [assumption|].
    apply d_get_None in E.
    revert E H. generalize (d_keys d) as ks. induction ks as [|a ks IH]; cbn; intros Hn Hd.
    - constructor; [tauto|constructor].
    - inversion Hd; subst. constructor.
      + rewrite in_app_iff. cbn. intros [?|[->|[]]]; [contradiction|]. apply Hn. now left.
      + apply IH; auto.
  Qed.

  Lemma d_del_keys_incl (d : list (K * V)) k x : In x (d_keys (d_del eqb d k)) -> In x (d_keys d).
  Proof.
    induction d as [|[k' v'] d IH]; cbn; [tauto|].
    destruct (eqb k k'); cbn; [tauto|]. intros [?|?]; [now left|right; auto].
  Qed.

  Lemma d_del_NoDup (d : list (K * V)) k : NoDup (d_keys d) -> NoDup (d_keys (d_del eqb d k)).
  Proof.
    induction d as [|[k' v'] d IH]; cbn; [auto|]. intros H. inversion H; subst.
    destruct (eqb k k'); cbn; [assumption|]. constructor; [|auto].
    intros HI. apply d_del_keys_incl in HI. contradiction.
  Qed.

  Lemma d_get_del_same (d : list (K * V)) k : NoDup (d_keys d) -> d_get eqb (d_del eqb d k) k = None.
  Proof.
    induction d as [|[k' v'] d IH]; cbn; [auto|]. intros H. inversion H as [|? ? Hni Hn]; subst.
    destruct (eqb k k') eqn:E; cbn.
    - apply eqb_spec in E. subst. apply d_get_None. assumption.
    - rewrite E. auto.
  Qed.

  Lemma d_del_absent (d : list (K * V)) k : d_get eqb d k = None -> d_del eqb d k = d.
  Proof.
    induction d as [|[k' v'] d IH]; cbn; [auto|].
    destruct (eqb k k'); [discriminate|]. intros H. now rewrite IH.
  Qed.

  Lemma d_set_same_id (d : list (K * V)) k v : d_get eqb d k = Some v -> d_set eqb d k v = d.
  Proof.
    induction d as [|[k' v'] d IH]; cbn; [discriminate|].
    destruct (eqb k k'); [intros [= ->]; reflexivity|]. intros H. now rewrite IH.
  Qed.
End Dict.

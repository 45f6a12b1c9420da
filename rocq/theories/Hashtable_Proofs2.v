(** Fixed accuracy refinement, joins, decimal texts. *)
From Coq Require Import ZArith QArith Qabs List Bool Ascii Lia Lqa.
From Verif Require Import PyBase PyBase_Proofs Hashtable_Model Spec_Hashtable Hashtable_Proofs.
Import ListNotations.
Local Open Scope Z_scope.

Section Refine.
  Context {V : Type}.
  Variable eng : Q -> res text.
  Definition to_hop (o : mop V) : hop V :=
    match o with MSet k v => HSet (UStr k) v | MGet k => HGet (UStr k) | MMem k => HMem (UStr k) end.
  Definition to_hout (o : mout V) : hout V :=
    match o with
    | MDone => HUnit (Ok tt) | MFound v => HVal (Ok v) | MAbsent => HVal (Raise KeyError)
    | MTrue => HBool (Ok true) | MFalse => HBool (Ok false)
    end.

  Lemma refine_run n os : -2 <= n -> forall (d : list (rawkey * V)) m,
    (forall s, raw_get d s = m s) ->
    snd (ht_run eng (mkHtab (n + 1) [] d) (map to_hop os)) =
    map to_hout (map_run (firstn (Z.to_nat (n + 2))) m os).
  Proof.
    intros Hn. induction os as [|o r IH]; intros d m Hd; [reflexivity|].
    assert (P : forall s : text, py_take (n + 1 + 1) s = firstn (Z.to_nat (n + 2)) s)
      by (intros s; rewrite py_take_nonneg by lia; now replace (n + 1 + 1) with (n + 2) by lia).
    destruct o as [k v|k|k]; cbn [map to_hop ht_run ht_step map_run].
    - unfold ht_set, ht_manipulate_key. cbn [bind h_hist h_acc h_data map del_olds fold_left].
      rewrite P. specialize (IH (d_set rawkey_eqb d (KStr (firstn (Z.to_nat (n + 2)) k)) v)
        (map_upd m (firstn (Z.to_nat (n + 2)) k) v)).
      destruct (ht_run eng _ (map to_hop r)) as [t2 xs]. cbn [snd map to_hout] in *. f_equal. apply IH.
      intros s. unfold map_upd, raw_get. destruct (ascii_list_dec s (firstn (Z.to_nat (n + 2)) k)) as [->|N].
      + apply (d_get_set_same _ RK).
      + rewrite (d_get_set_other _ RK) by congruence. apply Hd.
    - specialize (IH d m Hd). destruct (ht_run eng _ (map to_hop r)) as [t2 xs]. cbn [snd map] in *. f_equal; [|exact IH].
      unfold ht_get, ht_manipulate_key. cbn [bind h_hist h_acc h_data map fst snd get_loop]. rewrite P.
      unfold dict_getitem. rewrite Hd. destruct (m _); reflexivity.
    - specialize (IH d m Hd). destruct (ht_run eng _ (map to_hop r)) as [t2 xs]. cbn [snd map] in *. f_equal; [|exact IH].
      unfold ht_contains, ht_manipulate_key. cbn [bind h_hist h_acc h_data map fst snd mem_loop]. rewrite P.
      unfold raw_mem, d_mem. specialize (Hd (firstn (Z.to_nat (n + 2)) k)). unfold raw_get in Hd. rewrite Hd.
      destruct (m _); reflexivity.
  Qed.

  (** state reached by such a history *)
  Lemma run_shape n os : -2 <= n -> forall (d : list (rawkey * V)),
    (forall k, In k (d_keys d) -> exists s, k = KStr s /\ (length s <= Z.to_nat (n + 2))%nat) ->
    exists d', fst (ht_run eng (mkHtab (n + 1) [] d) (map to_hop os)) = mkHtab (n + 1) [] d' /\
    (forall k, In k (d_keys d') -> exists s, k = KStr s /\ (length s <= Z.to_nat (n + 2))%nat).
  Proof.
    intros Hn. induction os as [|o r IH]; intros d Hd; [exists d; auto|].
    assert (P : forall s : text, py_take (n + 1 + 1) s = firstn (Z.to_nat (n + 2)) s)
      by (intros s; rewrite py_take_nonneg by lia; now replace (n + 1 + 1) with (n + 2) by lia).
    destruct o as [k v|k|k]; cbn [map to_hop ht_run ht_step].
    - unfold ht_set, ht_manipulate_key. cbn [bind h_hist h_acc h_data map del_olds fold_left]. rewrite P.
      specialize (IH (d_set rawkey_eqb d (KStr (firstn (Z.to_nat (n + 2)) k)) v)).
      destruct (ht_run eng _ (map to_hop r)) as [t2 xs]. apply IH.
      intros x. rewrite (d_keys_set _). destruct (d_mem _ _ _); [apply Hd|].
      intros Hx. apply in_app_or in Hx. destruct Hx as [Hx|[<-|[]]]; [now apply Hd|].
      eexists. split; [reflexivity|]. rewrite firstn_length. lia.
    - specialize (IH d Hd). destruct (ht_run eng _ (map to_hop r)) as [t2 xs]. exact IH.
    - specialize (IH d Hd). destruct (ht_run eng _ (map to_hop r)) as [t2 xs]. exact IH.
  Qed.
End Refine.

Section Join.
  Context {E : Type}.
  Implicit Types (app t : htab (hval E)).
  Definition joined (a b : option (hval E)) : option (hval E) :=
    match a, b with
    | Some x, Some y => Some (VList (as_list x ++ as_list y))
    | Some x, None => Some x
    | None, y => y
    end.

  Lemma append_step_other app d k x : x <> k -> d_get rawkey_eqb (append_step app d k) x = d_get rawkey_eqb d x.
  Proof.
    intros N. unfold append_step. destruct (d_get rawkey_eqb (h_data app) k); [|reflexivity].
    destruct (d_get rawkey_eqb d k); now rewrite (d_get_set_other _ RK) by exact N.
  Qed.
  Lemma append_step_same app d k :
    d_get rawkey_eqb (append_step app d k) k = joined (d_get rawkey_eqb d k) (d_get rawkey_eqb (h_data app) k).
  Proof.
    unfold append_step, joined. destruct (d_get rawkey_eqb (h_data app) k) eqn:Ea.
    - destruct (d_get rawkey_eqb d k); now rewrite (d_get_set_same _ RK).
    - destruct (d_get rawkey_eqb d k); reflexivity.
  Qed.
  Lemma append_fold_get app ks d : NoDup ks -> forall x,
    d_get rawkey_eqb (fold_left (append_step app) ks d) x =
    if in_dec (fun a b => match Bool.bool_dec (rawkey_eqb a b) true with
                          | left e => left (proj1 (RK a b) e)
                          | right n => right (fun e => n (proj2 (RK a b) e)) end) x ks
    then joined (d_get rawkey_eqb d x) (d_get rawkey_eqb (h_data app) x)
    else d_get rawkey_eqb d x.
  Proof.
    intros Hn. revert d. induction Hn as [|k ks Hk Hn IH]; intros d x; cbn [fold_left].
    - destruct (in_dec _ x []) as [[]|]. reflexivity.
    - rewrite IH. destruct (in_dec _ x ks) as [Hi|Hi]; destruct (in_dec _ x (k :: ks)) as [Hj|Hj].
      + rewrite append_step_other; [reflexivity|]. intros ->. contradiction.
      + exfalso. apply Hj. now right.
      + destruct Hj as [->|Hj]; [|contradiction]. apply append_step_same.
      + apply append_step_other. intros ->. apply Hj. now left.
  Qed.
  Lemma append_get app t k : keys_ok app ->
    d_get rawkey_eqb (fold_left (append_step app) (d_keys (h_data app)) (h_data t)) k =
    joined (d_get rawkey_eqb (h_data t) k) (d_get rawkey_eqb (h_data app) k).
  Proof.
    intros Ha. rewrite append_fold_get by exact Ha. destruct (in_dec _ _ _) as [|N]; [reflexivity|].
    apply (d_get_None _ RK) in N. rewrite N. now destruct (d_get rawkey_eqb (h_data t) k).
  Qed.
  Lemma append_keys app ks d : NoDup ks -> (forall k, In k ks -> In k (d_keys (h_data app))) ->
    d_keys (fold_left (append_step app) ks d) = d_keys d ++ filter (fun k => negb (d_mem rawkey_eqb d k)) ks.
  Proof.
    intros Hn. revert d. induction Hn as [|k ks Hk Hn IH]; intros d Hs; cbn [fold_left filter].
    - now rewrite app_nil_r.
    - rewrite IH by (intros; apply Hs; now right).
      assert (F : filter (fun x => negb (d_mem rawkey_eqb (append_step app d k) x)) ks =
                  filter (fun x => negb (d_mem rawkey_eqb d x)) ks).
      { apply filter_ext_in. intros x Hx. f_equal. unfold d_mem. rewrite append_step_other; [reflexivity|].
        intros ->. contradiction. }
      rewrite F. unfold append_step.
      destruct (d_get rawkey_eqb (h_data app) k) as [va|] eqn:Ea.
      2:{ apply (d_get_None _ RK) in Ea. exfalso. apply Ea, Hs. now left. }
      unfold d_mem at 2. destruct (d_get rawkey_eqb d k) as [vo|] eqn:Ed; cbn [negb].
      + rewrite (d_keys_set _). unfold d_mem. now rewrite Ed.
      + rewrite (d_keys_set _). unfold d_mem at 1. rewrite Ed. now rewrite <- app_assoc.
  Qed.
  Lemma append_ok app t : keys_ok app -> keys_ok t -> keys_ok (fst (ht_append app t)).
  Proof.
    intros _ Ht. unfold ht_append. destruct (negb _); [exact Ht|]. cbn [fst]. unfold keys_ok. cbn [h_data].
    generalize (d_keys (h_data app)) as ks. revert Ht. unfold keys_ok. generalize (h_data t) as d.
    intros d Hd ks. revert d Hd. induction ks as [|k ks IH]; intros d Hd; cbn [fold_left]; [exact Hd|].
    apply IH. unfold append_step. destruct (d_get rawkey_eqb (h_data app) k); [|exact Hd].
    destruct (d_get rawkey_eqb d k); now apply (d_keys_set_NoDup _ RK).
  Qed.
  Definition entries (k : rawkey) t : list E :=
    match d_get rawkey_eqb (h_data t) k with Some v => as_list v | None => [] end.
  Lemma joined_entries a b : match joined a b with Some v => as_list v | None => [] end =
    (match a with Some v => as_list v | None => [] end) ++ (match b with Some v => as_list v | None => [] end).
  Proof. destruct a, b; cbn; rewrite ?app_nil_r; reflexivity. Qed.
  Lemma append_entries app t k : keys_ok app -> h_acc t = h_acc app ->
    entries k (fst (ht_append app t)) = entries k t ++ entries k app.
  Proof.
    intros Ha He. unfold ht_append. rewrite He, Z.eqb_refl. cbn [negb fst]. unfold entries. cbn [h_data].
    rewrite append_get by exact Ha. apply joined_entries.
  Qed.
  Lemma join_all r : forall t, Forall keys_ok (t :: r) -> Forall (fun a => h_acc a = h_acc t) r ->
    exists j, join_tables (t :: r) = Ok j /\ h_acc j = h_acc t /\ keys_ok j /\
      (forall k, entries k j = concat (map (entries k) (t :: r))).
  Proof.
    induction r as [|a r IH]; intros t Ho Ha.
    - exists t. repeat split; [inversion Ho; assumption|]. intros k. cbn. now rewrite app_nil_r.
    - inversion Ho as [|? ? Ht Hr]; subst. inversion Hr as [|? ? Hka Hr']; subst.
      inversion Ha as [|? ? Hae Har]; subst.
      set (t' := fst (ht_append a t)).
      assert (Ht' : keys_ok t') by (now apply append_ok).
      assert (Hacc : h_acc t' = h_acc t)
        by (unfold t', ht_append; rewrite Hae, Z.eqb_refl; reflexivity).
      destruct (IH t') as (j & J1 & J2 & J3 & J4).
      { constructor; assumption. }
      { rewrite Hacc. exact Har. }
      exists j. split; [|split; [congruence|split; [exact J3|]]].
      + unfold join_tables in *. cbn [foldM]. unfold ht_append at 1. rewrite Hae, Z.eqb_refl. cbn [negb bind].
        rewrite <- J1. unfold t', ht_append. rewrite Hae, Z.eqb_refl. reflexivity.
      + intros k. rewrite J4. cbn [map concat]. unfold t'. rewrite append_entries by (congruence || assumption).
        now rewrite <- app_assoc.
  Qed.
End Join.

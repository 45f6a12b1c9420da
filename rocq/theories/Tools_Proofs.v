(** Proofs about the cleaning script. *)
From Coq Require Import Ascii String ZArith QArith List Bool Lia.
From Verif Require Import PyBase PyBase_Proofs Rnd ContFrac_Model Hashtable_Model Hashtable_Proofs MITM_Model Tools_Model Spec_Tools.
From Verif Require Enum_Model.
Import ListNotations.
Local Open Scope Z_scope.
Local Open Scope list_scope.

(** replacing and deleting in the middle of a dictionary *)
Section Dict.
  Context {V : Type}.
  Implicit Types (A B : list (rawkey * V)).
  Lemma d_get_mid A B k v : ~ In k (map fst A) -> d_get rawkey_eqb (A ++ (k, v) :: B) k = Some v.
  Proof.
    induction A as [|[k' v'] A IH]; cbn; intros N.
    - now rewrite (proj2 (RK k k) eq_refl).
    - destruct (rawkey_eqb k k') eqn:E; [apply RK in E; subst; tauto|]. apply IH. tauto.
  Qed.
  Lemma d_set_mid A B k v v' : ~ In k (map fst A) -> d_set rawkey_eqb (A ++ (k, v) :: B) k v' = A ++ (k, v') :: B.
  Proof.
    induction A as [|[k1 v1] A IH]; cbn; intros N.
    - now rewrite (proj2 (RK k k) eq_refl).
    - destruct (rawkey_eqb k k1) eqn:E; [apply RK in E; subst; tauto|]. rewrite IH by tauto. reflexivity.
  Qed.
  Lemma d_del_mid A B k v : ~ In k (map fst A) -> d_del rawkey_eqb (A ++ (k, v) :: B) k = A ++ B.
  Proof.
    induction A as [|[k1 v1] A IH]; cbn; intros N.
    - now rewrite (proj2 (RK k k) eq_refl).
    - destruct (rawkey_eqb k k1) eqn:E; [apply RK in E; subst; tauto|]. rewrite IH by tauto. reflexivity.
  Qed.
End Dict.

Lemma py_pop_mid {A} (l1 l2 : list A) x : py_pop (Z.of_nat (length l1)) (l1 ++ x :: l2) = Ok (l1 ++ l2).
Proof.
  unfold py_pop. rewrite app_length. cbn [length].
  replace (Z.of_nat (length l1) <? 0) with false by (symmetry; apply Z.ltb_ge; lia).
  replace (Z.of_nat (length l1 + S (length l2)) <=? Z.of_nat (length l1)) with false by (symmetry; apply Z.leb_gt; lia).
  replace (Z.of_nat (length l1) <? 0) with false by (symmetry; apply Z.ltb_ge; lia). cbn [orb].
  rewrite Nat2Z.id, firstn_app, firstn_all, Nat.sub_diag, skipn_app. cbn [firstn]. rewrite app_nil_r.
  rewrite (skipn_all2 l1) by lia. replace (S (length l1) - length l1)%nat with 1%nat by lia. reflexivity.
Qed.

Section Fix.
  Variable eng : Q -> res text.
  Variable fsqrt : Z -> Q.
  Notation bad ab := (b_roots fsqrt ab = true).

  (** how a table with self-addressed keys is read *)
  Lemma addr_skip olds cur (d : list (rawkey * hval tent)) :
    (forall o, In o olds -> o = cur \/ raw_get d o = None) -> addr_loop olds cur d = cur.
  Proof.
    induction olds as [|o r IH]; intros H; cbn [addr_loop]; [reflexivity|].
    destruct (raw_mem d o) eqn:E.
    - destruct (H o (or_introl eq_refl)) as [->|N]; [reflexivity|]. apply raw_mem_false in N. congruence.
    - apply IH. intros; apply H; now right.
  Qed.

  (** [good_addr t s]: the key [s] addresses itself in [t] *)
  Definition good_addr (t : mtable) (s : text) : Prop :=
    py_take (h_acc t + 1) s = s /\
    forall a, In a (h_hist t) -> py_take (a + 1) s = s \/ ~ In (KStr (py_take (a + 1) s)) (map fst (h_data t)).
  Lemma good_addr_olds t s : good_addr t s ->
    forall o, In o (map (fun i => py_take (i + 1) s) (h_hist t)) -> o = s \/ raw_get (h_data t) o = None.
  Proof.
    intros [_ H] o I. apply in_map_iff in I. destruct I as (a & <- & I). destruct (H a I) as [E|N]; [now left|right].
    unfold raw_get. apply (d_get_None _ RK). exact N.
  Qed.
  Lemma get_good t s : good_addr t s -> ht_get eng (UStr s) t = dict_getitem (h_data t) s.
  Proof.
    intros G. unfold ht_get, ht_manipulate_key. cbn [bind fst snd]. rewrite (proj1 G). apply get_loop_skip.
    now apply good_addr_olds.
  Qed.
  Lemma pop_good t s i : good_addr t s ->
    item_pop eng (KStr s) i t =
    match raw_get (h_data t) s with
    | Some (VList l) => match py_pop i l with Raise e => (t, Raise e) | Ok l' => (ht_raw_set (KStr s) (VList l') t, Ok tt) end
    | _ => (t, Raise KeyError)
    end.
  Proof.
    intros G. unfold item_pop, ht_manipulate_key, ukey_of. cbn [bind]. rewrite (proj1 G).
    rewrite addr_skip by (now apply good_addr_olds). destruct (raw_get (h_data t) s) as [[l|x]|]; reflexivity.
  Qed.

  Definition with_data (t : mtable) (d : list (rawkey * hval tent)) : mtable := mkHtab (h_acc t) (h_hist t) d.
  Lemma good_addr_sub t d s : good_addr t s -> incl (map fst d) (map fst (h_data t)) -> good_addr (with_data t d) s.
  Proof.
    intros [H1 H2] I. split; [exact H1|]. intros a Ia. destruct (H2 a Ia) as [E|N]; [now left|right].
    intros C. apply N, I, C.
  Qed.

  Definition sieve (l : list tent) : list tent :=
    filter (fun x => match x with TEnt ab _ => negb (b_roots fsqrt ab) | TParams => true end) l.
  Lemma fix_list_ok t s A B : good_addr t s -> incl (map fst (A ++ (KStr s, VList []) :: B)) (map fst (h_data t)) ->
    ~ In (KStr s) (map fst A) ->
    forall copy kept removed, (forall x, In x copy -> exists ab i, x = TEnt ab i) ->
    fix_list eng fsqrt (KStr s) copy (Z.of_nat (length kept) + removed) removed (with_data t (A ++ (KStr s, VList (kept ++ copy)) :: B)) =
    (with_data t (A ++ (KStr s, VList (kept ++ sieve copy)) :: B), Ok tt).
  Proof.
    intros G I N. induction copy as [|x copy IH]; intros kept removed H.
    - reflexivity.
    - destruct (H x (or_introl eq_refl)) as (ab & i & ->). cbn [fix_list sieve filter].
      destruct (b_roots fsqrt ab) eqn:E; cbn [negb].
      + rewrite pop_good.
        2:{ apply good_addr_sub; [exact G|]. rewrite map_app in *. exact I. }
        unfold with_data at 1, raw_get. cbn [h_data]. rewrite d_get_mid by exact N.
        replace (Z.of_nat (length kept) + removed - removed) with (Z.of_nat (length kept)) by lia.
        rewrite py_pop_mid. unfold ht_raw_set, with_data. cbn [h_data h_acc h_hist]. rewrite d_set_mid by exact N.
        fold (with_data t (A ++ (KStr s, VList (kept ++ copy)) :: B)).
        replace (Z.of_nat (length kept) + removed + 1) with (Z.of_nat (length kept) + (removed + 1)) by lia.
        apply IH. intros y Hy. apply H. now right.
      + replace (Z.of_nat (length kept) + removed + 1) with (Z.of_nat (length (kept ++ [TEnt ab i])) + removed)
          by (rewrite app_length; cbn [length]; lia).
        replace (kept ++ TEnt ab i :: copy) with ((kept ++ [TEnt ab i]) ++ copy) by (rewrite <- app_assoc; reflexivity).
        rewrite IH by (intros y Hy; apply H; now right). rewrite <- app_assoc. reflexivity.
  Qed.

  Definition clean_item (kv : rawkey * hval tent) : list (rawkey * hval tent) :=
    if rawkey_eqb (fst kv) (KStr (txt "parameters")) then [kv]
    else match snd kv with VList l => match sieve l with [] => [] | l' => [(fst kv, VList l')] end | VOne _ => [kv] end.

  Lemma fix_key_ok t s A B l : good_addr t s -> incl (map fst (A ++ (KStr s, VList []) :: B)) (map fst (h_data t)) ->
    ~ In (KStr s) (map fst A) -> (forall x, In x l -> exists ab i, x = TEnt ab i) -> s <> txt "parameters" ->
    fix_key eng fsqrt (with_data t (A ++ (KStr s, VList l) :: B)) (KStr s) =
    (with_data t (A ++ clean_item (KStr s, VList l) ++ B), Ok tt).
  Proof.
    intros G I N H P. unfold fix_key. cbn [ukey_of].
    assert (GA : forall l', good_addr (with_data t (A ++ (KStr s, VList l') :: B)) s).
    { intros l'. apply good_addr_sub; [exact G|]. rewrite map_app in *. exact I. }
    rewrite get_good by apply GA. unfold dict_getitem, raw_get, with_data at 1. cbn [h_data]. rewrite d_get_mid by exact N.
    pose proof (fix_list_ok t s A B G I N l [] 0 H) as F. cbn [length app] in F. change (Z.of_nat 0 + 0) with 0 in F.
    rewrite F. rewrite get_good by apply GA. unfold dict_getitem, raw_get, with_data at 1. cbn [h_data].
    rewrite d_get_mid by exact N. unfold clean_item. cbn [fst snd].
    destruct (rawkey_eqb (KStr s) (KStr (txt "parameters"))) eqn:E.
    { exfalso. apply P. apply RK in E. injection E as E. exact E. }
    destruct (sieve l) as [|x r]; [|reflexivity].
    unfold ht_raw_pop, with_data. cbn [h_data h_acc h_hist]. rewrite d_get_mid, d_del_mid by exact N. reflexivity.
  Qed.

  Definition clean (d : list (rawkey * hval tent)) : list (rawkey * hval tent) := flat_map clean_item d.
  Lemma clean_item_keys kv : incl (map fst (clean_item kv)) [fst kv].
  Proof.
    destruct kv as [k v]. unfold clean_item. cbn [fst snd]. destruct (rawkey_eqb _ _); [apply incl_refl|].
    destruct v as [l|x]; [|apply incl_refl]. destruct (sieve l); [intros y []|apply incl_refl].
  Qed.
  Lemma clean_keys d : incl (map fst (clean d)) (map fst d).
  Proof.
    induction d as [|kv d IH]; [apply incl_refl|]. cbn [clean flat_map map]. rewrite map_app. apply incl_app.
    - eapply incl_tran; [apply clean_item_keys|]. intros x [<-|[]]. now left.
    - apply incl_tl, IH.
  Qed.

  Definition params_key : rawkey := KStr (txt "parameters").
  Definition others (ks : list rawkey) : list rawkey := filter (fun k => negb (rawkey_eqb params_key k)) ks.
  Lemma others_none ks : ~ In params_key ks -> others ks = ks.
  Proof.
    induction ks as [|k ks IH]; intros N; [reflexivity|]. unfold others in *. cbn [filter].
    destruct (rawkey_eqb params_key k) eqn:E; [apply RK in E; exfalso; apply N; now left|].
    cbn [negb]. rewrite IH; [reflexivity|]. intros C; apply N; now right.
  Qed.
  Lemma list_remove_ok ks : NoDup ks -> In params_key ks -> list_remove params_key ks = Ok (others ks).
  Proof.
    induction ks as [|k ks IH]; intros ND I; [destruct I|]. inversion ND as [|? ? N1 N2]; subst.
    cbn [list_remove]. unfold others. cbn [filter]. destruct (rawkey_eqb params_key k) eqn:E.
    - apply RK in E. subst k. cbn [negb]. fold (others ks). now rewrite others_none.
    - destruct I as [->|I]; [rewrite (proj2 (RK _ _) eq_refl) in E; discriminate|]. rewrite IH by assumption. reflexivity.
  Qed.
  Lemma list_remove_none ks : ~ In params_key ks -> list_remove params_key ks = Raise ValueError.
  Proof.
    induction ks as [|k ks IH]; intros N; [reflexivity|]. cbn [list_remove].
    destruct (rawkey_eqb params_key k) eqn:E; [apply RK in E; exfalso; apply N; now left|].
    rewrite IH; [reflexivity|]. intros C; apply N; now right.
  Qed.

  Lemma fix_keys_ok t : NoDup (map fst (h_data t)) -> self_addressed t -> entry_lists (h_data t) ->
    (forall k, In k (map fst (h_data t)) -> exists s, k = KStr s) ->
    forall pre suf, h_data t = pre ++ suf ->
    fix_keys eng fsqrt (others (map fst suf)) (with_data t (clean pre ++ suf)) = (with_data t (clean (pre ++ suf)), Ok tt).
  Proof.
    intros ND SA EL TX pre suf. revert pre. induction suf as [|[k v] suf IH]; intros pre E.
    - cbn [map others filter fix_keys]. rewrite !app_nil_r. reflexivity.
    - assert (IN : In (k, v) (h_data t)) by (rewrite E; apply in_or_app; right; now left).
      assert (IK : In k (map fst (h_data t))) by (apply in_map_iff; exists (k, v); auto).
      destruct (TX k IK) as (s & ->).
      assert (NK : ~ In (KStr s) (map fst pre)).
      { rewrite E, map_app in ND. cbn [map fst] in ND. apply NoDup_remove_2 in ND. intros C. apply ND.
        apply in_or_app. now left. }
      assert (NC : ~ In (KStr s) (map fst (clean pre))) by (intros C; apply NK, clean_keys, C).
      specialize (IH (pre ++ [(KStr s, v)])). rewrite <- app_assoc in IH. cbn [app] in IH. specialize (IH E).
      assert (CI : clean (pre ++ [(KStr s, v)]) = clean pre ++ clean_item (KStr s, v)).
      { unfold clean. rewrite flat_map_app. cbn [flat_map]. now rewrite app_nil_r. }
      rewrite CI, <- app_assoc in IH.
      unfold others. cbn [map fst filter]. destruct (rawkey_eqb params_key (KStr s)) eqn:EP; cbn [negb].
      + apply RK in EP. assert (CE : clean_item (KStr s, v) = [(KStr s, v)]).
        { unfold clean_item. cbn [fst]. rewrite <- EP. unfold params_key. now rewrite (proj2 (RK _ _) eq_refl). }
        rewrite CE in IH. exact IH.
      + assert (NP : s <> txt "parameters").
        { intros ->. unfold params_key in EP. rewrite (proj2 (RK _ _) eq_refl) in EP. discriminate. }
        destruct (EL _ _ IN) as (l & -> & HL); [intros C; apply NP; injection C as C; exact C|].
        cbn [fix_keys]. rewrite fix_key_ok; [exact IH| | |exact NC|exact HL|exact NP].
        * exact (SA s IK NP).
        * rewrite E, !map_app. cbn [map fst]. intros x Hx. apply in_app_or in Hx. apply in_or_app.
          destruct Hx as [Hx|Hx]; [left; apply clean_keys, Hx|right; exact Hx].
  Qed.

  Lemma sieve_kept l : (forall x, In x l -> exists ab i, x = TEnt ab i) -> kept (fun ab => bad ab) l (sieve l).
  Proof.
    induction l as [|x l IH]; intros H; [constructor|]. destruct (H x (or_introl eq_refl)) as (ab & i & ->).
    cbn [sieve filter]. destruct (b_roots fsqrt ab) eqn:E; cbn [negb].
    - apply kp_bad; [exact E|]. apply IH. intros y Hy; apply H; now right.
    - apply kp_good; [rewrite E; discriminate|]. apply IH. intros y Hy; apply H; now right.
  Qed.
  Lemma clean_spec d : entry_lists d -> cleaned (fun ab => bad ab) d (clean d).
  Proof.
    induction d as [|[k v] d IH]; intros H; [constructor|].
    assert (IH' : cleaned (fun ab => bad ab) d (clean d)) by (apply IH; intros k' v' I; apply H; now right).
    cbn [clean flat_map]. unfold clean_item. cbn [fst snd].
    destruct (rawkey_eqb k (KStr (txt "parameters"))) eqn:E.
    - apply RK in E. subst k. cbn [app]. now apply cl_settings.
    - assert (N : k <> KStr (txt "parameters")) by (intros ->; rewrite (proj2 (RK _ _) eq_refl) in E; discriminate).
      destruct (H k v (or_introl eq_refl) N) as (l & -> & HL). pose proof (sieve_kept l HL) as K.
      destruct (sieve l) as [|x r] eqn:S.
      + cbn [app]. apply cl_drop; assumption.
      + cbn [app]. apply cl_keep; try assumption. discriminate.
  Qed.

  Lemma fix_table_ok t : NoDup (map fst (h_data t)) -> self_addressed t -> entry_lists (h_data t) ->
    (forall k, In k (map fst (h_data t)) -> exists s, k = KStr s) -> In params_key (map fst (h_data t)) ->
    fix_table eng fsqrt t = Ok (with_data t (clean (h_data t))).
  Proof.
    intros ND SA EL TX P. unfold fix_table. unfold d_keys. fold params_key. rewrite list_remove_ok by assumption. cbn [bind].
    pose proof (fix_keys_ok t ND SA EL TX [] (h_data t) eq_refl) as F. cbn [clean flat_map app] in F.
    replace (with_data t (h_data t)) with t in F by (destruct t; reflexivity). rewrite F. reflexivity.
  Qed.

  (** numbers as keys *)
  Lemma fix_key_num t q : eng q = Raise AttributeError -> fix_key eng fsqrt t (KNum q) = (t, Raise AttributeError).
  Proof. intros E. unfold fix_key, ht_get, ht_manipulate_key. cbn [ukey_of]. rewrite E. reflexivity. Qed.
  Lemma fix_keys_num ks t q : (forall q, eng q = Raise AttributeError) -> In (KNum q) ks ->
    exists t' e, fix_keys eng fsqrt ks t = (t', Raise e).
  Proof.
    intros E. revert t. induction ks as [|k ks IH]; intros t I; [destruct I|]. cbn [fix_keys]. destruct I as [->|I].
    - rewrite fix_key_num by apply E. eauto.
    - destruct (fix_key eng fsqrt t k) as [t1 [u|e]]; [now apply IH|eauto].
  Qed.
End Fix.

(** names *)
Lemma has_stem_app a r : has_stem r = true -> ~ In "/"%char a -> has_stem (a ++ r) = true.
Proof.
  induction a as [|c a IH]; intros H N; [exact H|]. cbn [has_stem app].
  destruct (is_char c "/"%char) eqn:E; [apply Ascii.eqb_eq in E; subst; exfalso; apply N; now left|].
  destruct (is_char c "."%char); [apply IH; [exact H|intros C; apply N; now right]|reflexivity].
Qed.
Lemma splitext_rev_app a r ext : ~ In "/"%char a -> ~ In "."%char a ->
  splitext_rev (a ++ r) ext = splitext_rev r (rev a ++ ext).
Proof.
  revert ext. induction a as [|c a IH]; intros ext N1 N2; [reflexivity|]. cbn [splitext_rev app].
  destruct (is_char c "/"%char) eqn:E; [apply Ascii.eqb_eq in E; subst; exfalso; apply N1; now left|].
  destruct (is_char c "."%char) eqn:E2; [apply Ascii.eqb_eq in E2; subst; exfalso; apply N2; now left|].
  rewrite IH by (intros C; first [apply N1; now right|apply N2; now right]). cbn [rev]. now rewrite <- app_assoc.
Qed.
Lemma splitext_rev_join rp ext r e : splitext_rev rp ext = Some (r, e) -> r ++ e = rev rp ++ ext.
Proof.
  revert ext. induction rp as [|c rp IH]; intros ext H; [discriminate|]. cbn [splitext_rev] in H.
  destruct (is_char c "/"%char); [discriminate|]. destruct (is_char c "."%char).
  - destruct (has_stem rp); [|discriminate]. injection H as <- <-. cbn [rev]. now rewrite <- app_assoc.
  - apply IH in H. cbn [rev]. now rewrite H, <- app_assoc.
Qed.
Lemma splitext_join p : fst (splitext p) ++ snd (splitext p) = p.
Proof.
  unfold splitext. destruct (splitext_rev (rev p) []) as [[r e]|] eqn:E.
  - apply splitext_rev_join in E. cbn [fst snd]. rewrite E, app_nil_r. apply rev_involutive.
  - cbn [fst snd]. apply app_nil_r.
Qed.
Lemma fixed_name_neq p : fixed_name p <> p.
Proof.
  intros E. apply (f_equal (@length ascii)) in E. unfold fixed_name in E. rewrite <- (splitext_join p) in E at 3.
  rewrite !app_length in E. change (length (txt "_fixed")) with 6%nat in E. lia.
Qed.

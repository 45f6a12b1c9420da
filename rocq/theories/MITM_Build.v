(** Proofs about building the table. *)
From Coq Require Import ZArith QArith Qabs Qround List Bool Lia Permutation.
From Verif Require Import PyBase PyBase_Proofs ContFrac_Model Hashtable_Model Hashtable_Proofs ULCD_Model ULCD_Equiv Rational_Model
  MITM_Model Spec_MITM.
Import ListNotations.
Local Open Scope Z_scope.

Lemma ab_eqb_eq x y : ab_eqb x y = true <-> x = y.
Proof.
  unfold ab_eqb. rewrite andb_true_iff, !coeffs_eqb_eq. destruct x, y; cbn. split; [intros [-> ->]; reflexivity|].
  intros H; inversion H; auto.
Qed.
Lemma tent_eqb_eq x y : tent_eqb x y = true <-> x = y.
Proof.
  destruct x as [a i|], y as [b j|]; cbn; try (split; congruence).
  rewrite andb_true_iff, ab_eqb_eq, Z.eqb_eq. split; [intros [-> ->]; reflexivity|intros H; inversion H; auto].
Qed.
Lemma existsb_tent x l : existsb (tent_eqb x) l = true <-> In x l.
Proof.
  rewrite existsb_exists. split.
  - intros (y & HI & HE). apply tent_eqb_eq in HE. now subst.
  - intros HI. exists x. split; [exact HI|]. now apply tent_eqb_eq.
Qed.

Lemma q_int_floor q : (0 <= q)%Q -> q_int q = Qfloor q.
Proof.
  intros H. destruct q as [n d]. unfold q_int, Qfloor. cbn [Qnum Qden].
  apply Z.quot_div_nonneg; [|lia]. unfold Qle in H. cbn in H. lia.
Qed.

(** ---- storing ---- *)
Definition job := (abpair * Z * Q)%type.
Definition store1 (t : mtable) (j : job) : mtable := let '(ab, i, k) := j in fst (store ab i k t).
Definition store_all (js : list job) (t : mtable) : mtable := fold_left store1 js t.

Lemma store_ok ab i k t : table_ok t ->
  snd (store ab i k t) = Ok tt /\ table_ok (fst (store ab i k t)).
Proof.
  intros [ND HL]. unfold store.
  destruct (d_get rawkey_eqb (h_data t) (num_key k)) as [[l|x]|] eqn:E.
  - destruct (existsb (tent_eqb (TEnt ab i)) l) eqn:E2; cbn [fst snd]; (split; [reflexivity|]); split; try assumption.
    + unfold ht_raw_set. cbn [h_data]. now apply (d_keys_set_NoDup _ RK).
    + intros q v. unfold ht_raw_set. cbn [h_data]. intros HI.
      assert (ND' : NoDup (d_keys (d_set rawkey_eqb (h_data t) (num_key k) (VList (l ++ [TEnt ab i])))))
        by now apply (d_keys_set_NoDup _ RK).
      apply (d_in_get _ RK) in HI; [|exact ND'].
      destruct (rawkey_eqb (KNum q) (num_key k)) eqn:EK.
      * apply RK in EK. rewrite EK, (d_get_set_same _ RK) in HI. inversion HI. eauto.
      * rewrite (d_get_set_other _ RK) in HI by (intros HH; apply RK in HH; congruence).
        apply (d_get_Some_in _ RK) in HI. eauto.
  - exfalso. apply (d_get_Some_in _ RK) in E. destruct (HL _ _ E) as (l & HH). discriminate.
  - cbn [fst snd]. split; [reflexivity|]. split.
    + unfold ht_raw_set. cbn [h_data]. now apply (d_keys_set_NoDup _ RK).
    + intros q v. unfold ht_raw_set. cbn [h_data]. intros HI.
      assert (ND' : NoDup (d_keys (d_set rawkey_eqb (h_data t) (num_key k) (VList [TEnt ab i]))))
        by now apply (d_keys_set_NoDup _ RK).
      apply (d_in_get _ RK) in HI; [|exact ND'].
      destruct (rawkey_eqb (KNum q) (num_key k)) eqn:EK.
      * apply RK in EK. rewrite EK, (d_get_set_same _ RK) in HI. inversion HI. eauto.
      * rewrite (d_get_set_other _ RK) in HI by (intros HH; apply RK in HH; congruence).
        apply (d_get_Some_in _ RK) in HI. eauto.
Qed.

(** the list under a key, empty if there is none *)
Definition at_key (t : mtable) (k : rawkey) : list tent :=
  match d_get rawkey_eqb (h_data t) k with Some (VList l) => l | _ => [] end.

Lemma stored_at t k x : table_ok t -> stored t k x <-> In x (at_key t k).
Proof.
  intros [ND _]. unfold stored, at_key. split.
  - intros (l & HI & HX). apply (d_in_get _ RK) in HI; [|exact ND]. now rewrite HI.
  - destruct (d_get rawkey_eqb (h_data t) k) as [[l|y]|] eqn:E; try (intros []).
    intros HX. exists l. split; [|exact HX]. now apply (d_get_Some_in _ RK).
Qed.

Lemma store_at ab i k t k2 : table_ok t ->
  at_key (fst (store ab i k t)) k2 =
  at_key t k2 ++ (if rawkey_eqb k2 (num_key k) then if existsb (tent_eqb (TEnt ab i)) (at_key t k2) then [] else [TEnt ab i] else []).
Proof.
  intros [ND HL]. unfold store, at_key.
  destruct (rawkey_eqb k2 (num_key k)) eqn:EK.
  - apply RK in EK. subst k2.
    destruct (d_get rawkey_eqb (h_data t) (num_key k)) as [[l|x]|] eqn:E.
    + destruct (existsb (tent_eqb (TEnt ab i)) l) eqn:E2; cbn [fst].
      * rewrite E. now rewrite app_nil_r.
      * unfold ht_raw_set. cbn [h_data]. now rewrite (d_get_set_same _ RK).
    + exfalso. apply (d_get_Some_in _ RK) in E. destruct (HL _ _ E) as (l & HH). discriminate.
    + cbn [fst existsb]. unfold ht_raw_set. cbn [h_data]. now rewrite (d_get_set_same _ RK).
  - rewrite app_nil_r.
    assert (HN : k2 <> num_key k) by (intros HH; apply RK in HH; congruence).
    destruct (d_get rawkey_eqb (h_data t) (num_key k)) as [[l|x]|] eqn:E; cbn [fst].
    + destruct (existsb (tent_eqb (TEnt ab i)) l); cbn [fst]; [reflexivity|].
      unfold ht_raw_set. cbn [h_data]. now rewrite (d_get_set_other _ RK).
    + reflexivity.
    + unfold ht_raw_set. cbn [h_data]. now rewrite (d_get_set_other _ RK).
Qed.

Lemma store_get_str ab i k t s : d_get rawkey_eqb (h_data (fst (store ab i k t))) (KStr s) = d_get rawkey_eqb (h_data t) (KStr s).
Proof.
  unfold store. destruct (d_get rawkey_eqb (h_data t) (num_key k)) as [[l|x]|] eqn:E; cbn [fst].
  - destruct (existsb (tent_eqb (TEnt ab i)) l); cbn [fst]; [reflexivity|].
    unfold ht_raw_set. cbn [h_data]. apply (d_get_set_other _ RK). discriminate.
  - reflexivity.
  - unfold ht_raw_set. cbn [h_data]. apply (d_get_set_other _ RK). discriminate.
Qed.
Lemma store_acc ab i k t : h_acc (fst (store ab i k t)) = h_acc t /\ h_hist (fst (store ab i k t)) = h_hist t.
Proof.
  unfold store. destruct (d_get rawkey_eqb (h_data t) (num_key k)) as [[l|x]|]; cbn [fst]; try (split; reflexivity).
  destruct (existsb (tent_eqb (TEnt ab i)) l); split; reflexivity.
Qed.
(** keys keep their places, new ones are appended *)
Lemma store_keys ab i k t : exists ks, map fst (h_data (fst (store ab i k t))) = map fst (h_data t) ++ ks /\
  forall x, In x ks -> x = num_key k.
Proof.
  assert (HS : forall v, exists ks, map fst (d_set rawkey_eqb (h_data t) (num_key k) v) = map fst (h_data t) ++ ks /\
                 forall x, In x ks -> x = num_key k).
  { intros v. pose proof (d_keys_set rawkey_eqb (h_data t) (num_key k) v) as H. unfold d_keys in H.
    destruct (d_mem rawkey_eqb (h_data t) (num_key k)) eqn:E; rewrite H.
    - exists []. split; [now rewrite app_nil_r|intros x []].
    - exists [num_key k]. split; [reflexivity|]. intros x [<-|[]]; reflexivity. }
  unfold store. destruct (d_get rawkey_eqb (h_data t) (num_key k)) as [[l|x]|]; cbn [fst].
  - destruct (existsb (tent_eqb (TEnt ab i)) l); cbn [fst]; [exists []; split; [now rewrite app_nil_r|intros y []]|].
    apply HS.
  - exists []. split; [now rewrite app_nil_r|intros y []].
  - apply HS.
Qed.

Lemma store_all_ok js : forall t, table_ok t -> table_ok (store_all js t).
Proof.
  induction js as [|[[ab i] k] r IH]; intros t H; cbn; [exact H|]. apply IH. now apply store_ok.
Qed.
Lemma store_all_str js : forall t s, d_get rawkey_eqb (h_data (store_all js t)) (KStr s) = d_get rawkey_eqb (h_data t) (KStr s).
Proof.
  induction js as [|[[ab i] k] r IH]; intros t s; cbn; [reflexivity|].
  change (d_get rawkey_eqb (h_data (store_all r (fst (store ab i k t)))) (KStr s) = d_get rawkey_eqb (h_data t) (KStr s)).
  rewrite IH. apply store_get_str.
Qed.
Lemma store_all_acc js : forall t, h_acc (store_all js t) = h_acc t /\ h_hist (store_all js t) = h_hist t.
Proof.
  induction js as [|[[ab i] k] r IH]; intros t; cbn; [auto|].
  change (h_acc (store_all r (fst (store ab i k t))) = h_acc t /\ h_hist (store_all r (fst (store ab i k t))) = h_hist t).
  destruct (IH (fst (store ab i k t))) as [-> ->]. apply store_acc.
Qed.
Lemma store_all_app a b t : store_all (a ++ b) t = store_all b (store_all a t).
Proof. apply fold_left_app. Qed.

Lemma store_all_at js : forall t k2, table_ok t ->
  exists n, at_key (store_all js t) k2 = at_key t k2 ++ n /\ NoDup n /\ (forall x, In x n -> ~ In x (at_key t k2)) /\
    (forall x, In x (at_key t k2 ++ n) <-> In x (at_key t k2) \/ exists ab i k, In (ab, i, k) js /\ x = TEnt ab i /\ k2 = num_key k).
Proof.
  induction js as [|[[ab i] k] r IH]; intros t k2 H; cbn.
  - exists []. rewrite app_nil_r. split; [reflexivity|]. split; [constructor|]. split; [intros x []|].
    intros x. split; [now left|]. intros [HX|(? & ? & ? & [] & _)]. exact HX.
  - destruct (store_ok ab i k t H) as [_ H1].
    destruct (IH (fst (store ab i k t)) k2 H1) as (n & E & ND & HN & HX).
    change (store_all r (fst (store ab i k t))) with (store_all r (fst (store ab i k t))) in E.
    pose proof (store_at ab i k t k2 H) as ES.
    set (m := if rawkey_eqb k2 (num_key k) then if existsb (tent_eqb (TEnt ab i)) (at_key t k2) then [] else [TEnt ab i] else []) in *.
    exists (m ++ n).
    split; [etransitivity; [exact E|]; rewrite ES; now rewrite <- app_assoc|].
    assert (Hm : forall x, In x m -> ~ In x (at_key t k2) /\ x = TEnt ab i /\ k2 = num_key k).
    { intros x. unfold m. destruct (rawkey_eqb k2 (num_key k)) eqn:EK; [|intros []].
      destruct (existsb (tent_eqb (TEnt ab i)) (at_key t k2)) eqn:EE; [intros []|].
      intros [<-|[]]. split; [|split; [reflexivity|now apply RK]].
      intros HI. apply existsb_tent in HI. congruence. }
    split.
    { assert (NDm : NoDup m).
      { unfold m. destruct (rawkey_eqb k2 (num_key k)); [|constructor].
        destruct (existsb (tent_eqb (TEnt ab i)) (at_key t k2)); repeat constructor. intros []. }
      clear - NDm ND HN ES. 
      induction m as [|y m' IHm]; cbn; [exact ND|].
      inversion NDm; subst. constructor.
      - rewrite in_app_iff. intros [HI|HI]; [tauto|]. apply (HN y HI). rewrite ES, in_app_iff. right; now left.
      - assert (NoDup (m' ++ n)).
        { clear IHm. revert NDm H1 H2. intros. clear H1 NDm.
          assert (HD : forall x, In x n -> ~ In x m').
          { intros x Hx Hx'. apply (HN x Hx). rewrite ES, in_app_iff. right; now right. }
          clear ES HN. induction m' as [|z m'' IH2]; cbn; [exact ND|]. inversion H2; subst. constructor.
          - rewrite in_app_iff. intros [HI|HI]; [tauto|]. apply (HD z HI). now left.
          - apply IH2; [assumption|]. intros x Hx Hx'. apply (HD x Hx). now right. }
        assumption. }
    split.
    { intros x HI. apply in_app_iff in HI as [HI|HI]; [now apply Hm|].
      intros HC. apply (HN x HI). rewrite ES, in_app_iff. now left. }
    intros x. rewrite app_assoc, <- ES. rewrite HX. rewrite ES, in_app_iff. split.
    + intros [[HI|HI]|(ab' & i' & k' & HI & HE & HK)]; [now left| |].
      * destruct (Hm x HI) as (_ & -> & HK). right. exists ab, i, k. split; [now left|]. auto.
      * right. exists ab', i', k'. split; [now right|]. auto.
    + intros [HI|(ab' & i' & k' & [HI|HI] & HE & HK)]; [left; now left| |].
      * inversion HI; subst ab' i' k'. left. unfold m. rewrite (proj2 (RK _ _) HK).
        destruct (existsb (tent_eqb (TEnt ab i)) (at_key t k2)) eqn:EE.
        -- left. apply existsb_tent in EE. now subst x.
        -- right. subst x. now left.
      * right. exists ab', i', k'. auto.
Qed.

Lemma store_all_keys js : forall t, exists ks, map fst (h_data (store_all js t)) = map fst (h_data t) ++ ks /\
  forall x, In x ks -> exists k, x = num_key k.
Proof.
  induction js as [|[[ab i] k] r IH]; intros t; cbn.
  - exists []. rewrite app_nil_r. split; [reflexivity|intros x []].
  - destruct (IH (fst (store ab i k t))) as (ks & E & HK). destruct (store_keys ab i k t) as (ks1 & E1 & HK1).
    exists (ks1 ++ ks). split.
    + etransitivity; [exact E|]. rewrite E1. now rewrite app_assoc.
    + intros x HI. apply in_app_iff in HI as [HI|HI]; [|auto]. exists k. auto.
Qed.

(** jobs already done *)
Lemma store_all_done js : forall t, table_ok t ->
  (forall ab i k, In (ab, i, k) js -> In (TEnt ab i) (at_key t (num_key k))) -> store_all js t = t.
Proof.
  induction js as [|[[ab i] k] r IH]; intros t H HA; cbn; [reflexivity|].
  assert (E : fst (store ab i k t) = t).
  { unfold store. specialize (HA ab i k (or_introl eq_refl)). unfold at_key in HA.
    destruct (d_get rawkey_eqb (h_data t) (num_key k)) as [[l|x]|]; try (destruct HA; fail).
    apply existsb_tent in HA. now rewrite HA. }
  rewrite E. apply IH; [exact H|]. intros; apply HA; now right.
Qed.

Section Build.
  Variable rd : Q -> Q.
  Variable cfval : abpair -> res Q.
  Variable funcs : list (mpfv -> res mpfv).
  Variable trunc : bool.
  Variable order : abpair -> list setelt -> list setelt.
  Hypothesis order_perm : forall ab l, Permutation (order ab l) l.

  Definition is_pair (x : setelt) : Prop := match x with SPair _ _ => True | SInd _ => False end.

  (** ---- the sets ---- *)
  Lemma set_add_in x s y : is_pair x -> Forall is_pair s ->
    (exists i, (exists f, y = SPair i f) /\ In y (set_add x s)) -> In y s \/ y = x.
  Proof.
    intros _ _ (i & _ & HI). unfold set_add in HI. destruct (existsb (setelt_eqb x) s); [now left|].
    apply in_app_iff in HI as [HI|[HI|[]]]; auto.
  Qed.

  Lemma filtered_funcs_spec flt fs : filtered_funcs funcs flt = Ok fs ->
    Forall is_pair fs /\
    (forall i f, In (SPair i f) fs <-> In i flt /\ py_nth funcs i = Ok f).
  Proof.
    unfold filtered_funcs.
    assert (G : forall l s r, foldM (fun s i => let* f := py_nth funcs i in Ok (set_add (SPair i f) s)) l s = Ok r ->
              (forall i f, In (SPair i f) s -> py_nth funcs i = Ok f) -> Forall is_pair s ->
              Forall is_pair r /\ (forall i f, In (SPair i f) r <-> In (SPair i f) s \/ In i l /\ py_nth funcs i = Ok f)).
    { induction l as [|i l IH]; intros s r HF HS HP; cbn in HF.
      - inversion HF; subst. split; [exact HP|]. intros i f. split; [now left|intros [?|[[] _]]; assumption].
      - destruct (py_nth funcs i) as [f0|e] eqn:E; cbn in HF; [|discriminate].
        assert (HS' : forall j f, In (SPair j f) (set_add (SPair i f0) s) <-> In (SPair j f) s \/ j = i /\ py_nth funcs j = Ok f).
        { intros j f. unfold set_add. destruct (existsb (setelt_eqb (SPair i f0)) s) eqn:EE.
          - split; [now left|]. intros [?|[-> HF2]]; [assumption|].
            apply existsb_exists in EE as (y & HI & HE). destruct y as [i' f'|i']; cbn in HE; [|discriminate].
            apply Z.eqb_eq in HE. subst i'. pose proof (HS _ _ HI). congruence.
          - rewrite in_app_iff. cbn. split.
            + intros [?|[HE|[]]]; [now left|]. inversion HE; subst. now right.
            + intros [?|[-> HF2]]; [now left|]. right; left. congruence. }
        destruct (IH (set_add (SPair i f0) s) r HF) as [P1 P2].
        + intros j f HI. apply HS' in HI as [HI|[_ HI]]; [now apply HS|exact HI].
        + unfold set_add. destruct (existsb (setelt_eqb (SPair i f0)) s); [exact HP|].
          apply Forall_app. split; [exact HP|]. repeat constructor.
        + split; [exact P1|]. intros j f. rewrite P2, HS'. cbn. split.
          * intros [[?|[-> ?]]|[? ?]]; auto.
          * intros [?|[[<-|?] ?]]; auto. }
    intros H. destruct (G flt [] fs H) as [P1 P2]; [intros i f []|constructor|].
    split; [exact P1|]. intros i f. rewrite P2. split; [intros [[]|?]; assumption|now right].
  Qed.

  Definition is_ind (x : setelt) : Prop := match x with SPair _ _ => False | SInd _ => True end.
  Definition bl_ok (bl : list (abpair * list setelt)) : Prop := Forall (fun p => Forall is_ind (snd p)) bl.
  Lemma bl_add_ok bl x bl' : bl_ok bl -> bl_add bl x = Ok bl' -> bl_ok bl'.
  Proof.
    intros H. destruct x as [ab i|]; cbn; [|discriminate]. intros HE; inversion HE; subst bl'; clear HE.
    set (s := match d_get ab_eqb bl ab with Some s => s | None => [] end).
    assert (HS : Forall is_ind (set_add (SInd i) s)).
    { assert (Forall is_ind s).
      { unfold s. destruct (d_get ab_eqb bl ab) as [s0|] eqn:E; [|constructor].
        apply (d_get_Some_in _ ab_eqb_eq) in E. unfold bl_ok in H. rewrite Forall_forall in H. apply (H _ E). }
      unfold set_add. destruct (existsb _ s); [assumption|]. apply Forall_app. split; [assumption|]. repeat constructor. }
    generalize dependent (set_add (SInd i) s). intros l HL. clear s. unfold bl_ok in *.
    induction bl as [|[k v] r IH]; cbn.
    - constructor; [exact HL|constructor].
    - inversion H; subst. destruct (ab_eqb ab k); constructor; auto.
  Qed.
  Lemma blacklist_ok t bl : blacklist t = Ok bl -> bl_ok bl.
  Proof.
    unfold blacklist.
    assert (G1 : forall l bl bl', bl_ok bl -> foldM bl_add l bl = Ok bl' -> bl_ok bl').
    { induction l as [|x l IH]; cbn; intros b b' H HF; [inversion HF; now subst|].
      destruct (bl_add b x) as [b1|e] eqn:E; cbn in HF; [|discriminate]. eapply IH; [|exact HF]. eapply bl_add_ok; eauto. }
    assert (G2 : forall d b b', bl_ok b ->
      foldM (fun bl kv => if is_params_key (fst kv) then Ok bl
                        else match snd kv with VList l => foldM bl_add l bl | VOne _ => Raise ValueError end) d b = Ok b' -> bl_ok b').
    { induction d as [|[k v] d IH]; cbn; intros b b' H HF; [inversion HF; now subst|].
      destruct (is_params_key k); cbn in HF; [eauto|].
      destruct v as [l|x]; cbn in HF; [|discriminate].
      destruct (foldM bl_add l b) as [b1|e] eqn:E; cbn in HF; [|discriminate]. eauto. }
    intros H. eapply G2; [|exact H]. constructor.
  Qed.

  Lemma set_diff_id fs s : Forall is_pair fs -> Forall is_ind s -> set_diff fs s = fs.
  Proof.
    intros HP HI. unfold set_diff. induction fs as [|x r IH]; cbn; [reflexivity|]. inversion HP; subst.
    assert (E : existsb (setelt_eqb x) s = false).
    { apply not_true_iff_false. intros HE. apply existsb_exists in HE as (y & Hy & HE).
      rewrite Forall_forall in HI. apply HI in Hy. destruct x, y; cbn in *; try tauto; discriminate. }
    rewrite E. cbn. now rewrite IH.
  Qed.
  Lemma todo_id fs bl ab : Forall is_pair fs -> bl_ok bl ->
    (match d_get ab_eqb bl ab with Some s => set_diff fs s | None => fs end) = fs.
  Proof.
    intros HP HB. destruct (d_get ab_eqb bl ab) as [s|] eqn:E; [|reflexivity].
    apply set_diff_id; [exact HP|]. apply (d_get_Some_in _ ab_eqb_eq) in E. unfold bl_ok in HB. rewrite Forall_forall in HB.
    exact (HB _ E).
  Qed.

  (** ---- the loops ---- *)
  Definition fjob (ab : abpair) (v : Q) (x : setelt) : list job :=
    match x with
    | SInd _ => []
    | SPair i f =>
        match f (Fin v) with
        | Ok (Fin w) => if Qeq_bool w 0 then [] else [(ab, i, if trunc then rd (frac (Qabs w)) else Qabs w)]
        | _ => []
        end
    end.
  Definition pjob (fs : list setelt) (ab : abpair) : list job :=
    match cfval ab with
    | Ok v => if Qeq_bool v 0 then [] else flat_map (fjob ab v) (order ab fs)
    | Raise _ => []
    end.

  Definition prefix {A} (a b : list A) : Prop := exists c, b = a ++ c.

  Lemma funcs_loop_spec fs ab v : Forall is_pair fs -> forall kb t t' kb' x, table_ok t ->
    funcs_loop rd trunc fs ab v kb t = ((t', kb'), x) ->
    (exists js, prefix js (flat_map (fjob ab v) fs) /\ t' = store_all js t /\
                (x = Ok tt -> js = flat_map (fjob ab v) fs)) /\
    ((forall i f, In (SPair i f) fs -> exists w, f (Fin v) = Ok w) -> x = Ok tt) /\
    (kb = true -> kb' = true) /\
    (forall e, x = Raise e -> exists i f e', In (SPair i f) fs /\ f (Fin v) = Raise e' /\
       (e = e' \/ (kb = false /\ e = UnboundLocalError))).
  Proof.
    induction fs as [|y r IH]; intros HP kb t t' kb' x HT HF.
    - cbn in HF. inversion HF; subst. split; [exists []; split; [exists []; reflexivity|split; auto]|].
      split; [auto|]. split; [auto|]. intros e HE; discriminate.
    - inversion HP as [|? ? HY HP']; subst. destruct y as [i f|i]; [|destruct HY].
      cbn [funcs_loop flat_map] in *. unfold fjob at 1 3. 
      destruct (f (Fin v)) as [k|e] eqn:Ef.
      + assert (GO : forall t1, table_ok t1 -> forall js1, t1 = store_all js1 t ->
                  (match k with Fin w => if Qeq_bool w 0 then [] else [(ab, i, if trunc then rd (frac (Qabs w)) else Qabs w)] | NaN => [] end) = js1 ->
                  funcs_loop rd trunc r ab v true t1 = ((t', kb'), x) ->
            (exists js, prefix js ((match k with Fin w => if Qeq_bool w 0 then [] else [(ab, i, if trunc then rd (frac (Qabs w)) else Qabs w)] | NaN => [] end)
                     ++ flat_map (fjob ab v) r) /\ t' = store_all js t /\
                (x = Ok tt -> js = (match k with Fin w => if Qeq_bool w 0 then [] else [(ab, i, if trunc then rd (frac (Qabs w)) else Qabs w)] | NaN => [] end)
                     ++ flat_map (fjob ab v) r)) /\
            ((forall i0 f0, SPair i f = SPair i0 f0 \/ In (SPair i0 f0) r -> exists w, f0 (Fin v) = Ok w) -> x = Ok tt) /\
            (kb = true -> kb' = true) /\
            (forall e, x = Raise e -> exists i0 f0 e', (SPair i f = SPair i0 f0 \/ In (SPair i0 f0) r) /\ f0 (Fin v) = Raise e' /\
               (e = e' \/ (kb = false /\ e = UnboundLocalError)))).
        { intros t1 HT1 js1 E1 EJ HF1. destruct (IH HP' true t1 t' kb' x HT1 HF1) as ((js & (c & HC) & HS & HX) & HK & HB & HR).
          rewrite EJ. split.
          - exists (js1 ++ js). split; [exists c; rewrite HC; now rewrite app_assoc|].
            split; [rewrite HS, E1, store_all_app; reflexivity|]. intros Hx. now rewrite HX.
          - split; [intros H; apply HK; intros i0 f0 HI; apply (H i0 f0); now right|].
            split; [auto|]. intros e HE. destruct (HR e HE) as (i0 & f0 & e' & HI & HF0 & HO).
            exists i0, f0, e'. split; [now right|]. split; [exact HF0|]. destruct HO as [->|[HH _]]; [now left|discriminate]. }
        destruct k as [w|].
        * cbn [isnormal] in HF. destruct (Qeq_bool w 0) eqn:Ew; cbn [negb] in HF.
          -- apply (GO t HT []); auto.
          -- cbn [absv] in HF. destruct trunc eqn:Etr; cbn [trunc_int] in HF.
             ++ rewrite q_int_floor in HF by apply Qabs_nonneg. fold (frac (Qabs w)) in HF.
                destruct (store_ok ab i (rd (frac (Qabs w))) t HT) as [HO1 HO2].
                destruct (store ab i (rd (frac (Qabs w))) t) as [t1 x1] eqn:ES. cbn in HO1, HO2. subst x1.
                apply (GO t1 HO2 [(ab, i, rd (frac (Qabs w)))]); auto. cbn. now rewrite ES.
             ++ destruct (store_ok ab i (Qabs w) t HT) as [HO1 HO2].
                destruct (store ab i (Qabs w) t) as [t1 x1] eqn:ES. cbn in HO1, HO2. subst x1.
                apply (GO t1 HO2 [(ab, i, Qabs w)]); auto. cbn. now rewrite ES.
        * cbn [isnormal negb] in HF. apply (GO t HT []); auto.
      + inversion HF; subst. split; [exists []; split; [eexists; reflexivity|]; split; [reflexivity|]; intros HH; discriminate|].
        split; [intros H; destruct (H i f (or_introl eq_refl)) as (w & Hw); congruence|].
        split; [auto|]. intros e0 HE. inversion HE; subst. exists i, f, e. split; [now left|]. split; [exact Ef|].
        destruct kb'; auto.
  Qed.

  Lemma order_nil ab : order ab [] = [].
  Proof. pose proof (order_perm ab []) as H. apply Permutation_sym, Permutation_nil in H. exact H. Qed.
  Lemma order_pairs ab fs : Forall is_pair fs -> Forall is_pair (order ab fs).
  Proof.
    intros H. rewrite Forall_forall in *. intros x HI. apply H. eapply Permutation_in; [apply order_perm|exact HI].
  Qed.

  (** when nothing goes wrong *)
  Definition smooth (fs : list setelt) (ab : abpair) : Prop :=
    match cfval ab with
    | Ok v => (v == 0)%Q \/ forall i f, In (SPair i f) fs -> exists w, f (Fin v) = Ok w
    | Raise e => e = ZeroDivisionError
    end.

  Lemma pairs_loop_spec fs bl : Forall is_pair fs -> bl_ok bl -> forall pairs kb t t' kb' x, table_ok t ->
    pairs_loop rd cfval trunc order pairs fs bl kb t = ((t', kb'), x) ->
    (exists js, prefix js (flat_map (pjob fs) pairs) /\ t' = store_all js t /\ (x = Ok tt -> js = flat_map (pjob fs) pairs)) /\
    (Forall (smooth fs) pairs -> x = Ok tt) /\
    (forall e, x = Raise e ->
       (exists ab, In ab pairs /\ cfval ab = Raise e) \/
       (exists ab v i f e', In ab pairs /\ cfval ab = Ok v /\ In (SPair i f) fs /\ f (Fin v) = Raise e' /\
          (e = e' \/ (kb = false /\ e = UnboundLocalError)))).
  Proof.
    intros HP HB. induction pairs as [|ab r IH]; intros kb t t' kb' x HT HF.
    - cbn in HF. inversion HF; subst. split; [exists []; split; [exists []; reflexivity|split; auto]|].
      split; [auto|]. intros e HE; discriminate.
    - cbn [pairs_loop] in HF. rewrite (todo_id fs bl ab HP HB) in HF.
      assert (SKIP : pjob fs ab = [] -> pairs_loop rd cfval trunc order r fs bl kb t = ((t', kb'), x) ->
        (exists js, prefix js (flat_map (pjob fs) (ab :: r)) /\ t' = store_all js t /\ (x = Ok tt -> js = flat_map (pjob fs) (ab :: r))) /\
        (Forall (smooth fs) (ab :: r) -> x = Ok tt) /\
        (forall e, x = Raise e ->
           (exists ab0, In ab0 (ab :: r) /\ cfval ab0 = Raise e) \/
           (exists ab0 v i f e', In ab0 (ab :: r) /\ cfval ab0 = Ok v /\ In (SPair i f) fs /\ f (Fin v) = Raise e' /\
              (e = e' \/ (kb = false /\ e = UnboundLocalError))))).
      { intros HJ HF1. destruct (IH kb t t' kb' x HT HF1) as (HA & HS & HR). cbn [flat_map]. rewrite HJ.
        split; [exact HA|]. split; [intros H; inversion H; auto|].
        intros e HE. destruct (HR e HE) as [(ab0 & HI & HC)|(ab0 & v & i & f & e' & HI & HC)].
        - left. exists ab0. split; [now right|exact HC].
        - right. exists ab0, v, i, f, e'. split; [now right|exact HC]. }
      assert (PJ : fs = [] -> pjob fs ab = []).
      { intros ->. unfold pjob. destruct (cfval ab); [|reflexivity]. rewrite order_nil. now destruct (Qeq_bool a 0). }
      destruct (match d_get ab_eqb bl ab with Some _ => match fs with [] => true | _ :: _ => false end | None => false end) eqn:EL.
      + apply SKIP; [|exact HF]. apply PJ. destruct (d_get ab_eqb bl ab); [|discriminate]. now destruct fs.
      + destruct (cfval ab) as [v|e] eqn:EC.
        * cbn [isnormal] in HF. destruct (Qeq_bool v 0) eqn:Ev; cbn [negb] in HF.
          { apply SKIP; [|exact HF]. unfold pjob. now rewrite EC, Ev. }
          destruct (funcs_loop rd trunc (order ab fs) ab v kb t) as [[t1 kb1] x1] eqn:EF.
          destruct (funcs_loop_spec (order ab fs) ab v (order_pairs ab fs HP) kb t t1 kb1 x1 HT EF) as ((js1 & (c1 & HC1) & HS1 & HX1) & HK1 & HB1 & HR1).
          assert (EJ : pjob fs ab = flat_map (fjob ab v) (order ab fs)) by (unfold pjob; now rewrite EC, Ev).
          destruct x1 as [[]|e].
          -- specialize (HX1 eq_refl). subst js1.
             assert (HT1 : table_ok t1) by (rewrite HS1; now apply store_all_ok).
             destruct (IH kb1 t1 t' kb' x HT1 HF) as ((js & (c & HC) & HS & HX) & HSm & HR). split; [|split].
             ++ exists (pjob fs ab ++ js). cbn [flat_map]. split; [exists c; now rewrite HC, app_assoc|].
                split; [rewrite HS, HS1, EJ, store_all_app; reflexivity|]. intros Hx. now rewrite HX.
             ++ intros H; inversion H; auto.
             ++ intros e HE. destruct (HR e HE) as [(ab0 & HI & HC0)|(ab0 & v0 & i & f & e' & HI & HC0 & HIf & HFf & HO)].
                ** left. exists ab0. split; [now right|exact HC0].
                ** right. exists ab0, v0, i, f, e'. split; [now right|]. split; [exact HC0|]. split; [exact HIf|]. split; [exact HFf|].
                   destruct HO as [->|[HK ->]]; [now left|]. right. split; [|reflexivity].
                   destruct kb; [|reflexivity]. now rewrite (HB1 eq_refl) in HK.
          -- inversion HF; subst. split; [|split].
             ++ exists js1. cbn [flat_map]. split; [exists (c1 ++ flat_map (pjob fs) r); now rewrite EJ, HC1, app_assoc|].
                split; [reflexivity|]. intros HH; discriminate.
             ++ intros H. inversion H as [|? ? H1 H2]; subst. unfold smooth in H1. rewrite EC in H1.
                destruct H1 as [H1|H1]; [apply Qeq_bool_iff in H1; congruence|].
                assert (HH : @Raise unit e = Ok tt); [|discriminate].
                apply HK1. intros i f HI. apply (H1 i f). eapply Permutation_in; [apply order_perm|exact HI].
             ++ intros e0 HE. inversion HE; subst e0. destruct (HR1 e eq_refl) as (i & f & e' & HI & HF0 & HO).
                right. exists ab, v, i, f, e'. split; [now left|]. split; [exact EC|].
                split; [eapply Permutation_in; [apply order_perm|exact HI]|]. split; [exact HF0|exact HO].
        * assert (PJ0 : pjob fs ab = []) by (unfold pjob; now rewrite EC).
          destruct e; try (apply SKIP; [exact PJ0|exact HF]);
          (inversion HF; subst; split; [exists []; split; [eexists; reflexivity|split; [reflexivity|intros HH; discriminate]]|];
           split; [intros H; inversion H as [|? ? H1 H2]; subst; unfold smooth in H1; rewrite EC in H1; discriminate
                  |intros e0 HE; inversion HE; subst e0; left; exists ab; split; [now left|exact EC]]).
  Qed.

  Lemma in_pjob fs ab ab' i k : In (ab', i, k) (pjob fs ab) <->
    ab' = ab /\ exists v f w, cfval ab = Ok v /\ ~ (v == 0)%Q /\ In (SPair i f) fs /\ f (Fin v) = Ok (Fin w) /\ ~ (w == 0)%Q /\
      k = (if trunc then rd (frac (Qabs w)) else Qabs w).
  Proof.
    unfold pjob. split.
    - destruct (cfval ab) as [v|e]; [|intros []]. destruct (Qeq_bool v 0) eqn:Ev; [intros []|].
      intros HI. apply in_flat_map in HI as (y & Hy & HI). destruct y as [j f|j]; cbn in HI; [|destruct HI].
      destruct (f (Fin v)) as [[w|]|] eqn:Ef; try (destruct HI; fail).
      destruct (Qeq_bool w 0) eqn:Ew; [destruct HI|]. destruct HI as [HI|[]]. inversion HI; subst.
      split; [reflexivity|]. exists v, f, w. split; [reflexivity|].
      split; [intros H; apply Qeq_bool_iff in H; congruence|].
      split; [eapply Permutation_in; [apply order_perm|exact Hy]|]. split; [exact Ef|].
      split; [intros H; apply Qeq_bool_iff in H; congruence|reflexivity].
    - intros (-> & v & f & w & EC & Hv & HI & Ef & Hw & ->). rewrite EC.
      destruct (Qeq_bool v 0) eqn:Ev; [apply Qeq_bool_iff in Ev; tauto|].
      apply in_flat_map. exists (SPair i f). split.
      + eapply Permutation_in; [apply Permutation_sym, order_perm|exact HI].
      + cbn. rewrite Ef. destruct (Qeq_bool w 0) eqn:Ew; [apply Qeq_bool_iff in Ew; tauto|]. now left.
  Qed.

  Lemma in_jobs flt fs pairs : filtered_funcs funcs flt = Ok fs -> forall ab i k,
    (exists k', num_key k' = num_key k /\ In (ab, i, k') (flat_map (pjob fs) pairs)) <->
    In ab pairs /\ In i flt /\ gives rd cfval funcs trunc ab i (Qred k).
  Proof.
    intros HF ab i k. destruct (filtered_funcs_spec flt fs HF) as [_ HS]. split.
    - intros (k' & HK & HI). apply in_flat_map in HI as (ab0 & Hab & HI). apply in_pjob in HI as (-> & v & f & w & EC & Hv & HIf & Ef & Hw & HE).
      apply HS in HIf as [HI1 HI2]. split; [exact Hab|]. split; [exact HI1|].
      exists v, f, w. assert (HK' : Qred k' = Qred k) by (apply (f_equal (fun r => match r with KNum q => q | KStr _ => 0%Q end)) in HK; exact HK).
      rewrite <- HK', HE. auto 10.
    - intros (Hab & Hi & v & f & w & EC & Hv & HI2 & Ef & Hw & HE).
      exists (if trunc then rd (frac (Qabs w)) else Qabs w). split; [unfold num_key; now rewrite HE|].
      apply in_flat_map. exists ab. split; [exact Hab|]. apply in_pjob. split; [reflexivity|].
      exists v, f, w. split; [exact EC|]. split; [exact Hv|]. split; [apply HS; auto|]. auto.
  Qed.
End Build.

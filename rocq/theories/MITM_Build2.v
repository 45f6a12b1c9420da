(** Building, continued: what [iter2hashtable] and [build_hashtable] leave. *)
From Coq Require Import Ascii String ZArith QArith Qabs Qround List Bool Lia Lqa Permutation.
From Verif Require Import PyBase PyBase_Proofs Rnd Rnd_Proofs ContFrac_Model Hashtable_Model Hashtable_Proofs Hashtable_Proofs2
  ULCD_Model ULCD_Equiv Rational_Model MITM_Model Spec_MITM MITM_Build.
From Verif Require Enum_Model.
Import ListNotations.
Local Open Scope Z_scope.

(** ---- the fractional part of a number is a number of the same precision ---- *)
Lemma rnd_multiple p m e : ulp_e p (inject_Z m * two_p e) <= e ->
  (rnd p (inject_Z m * two_p e) == inject_Z m * two_p e)%Q.
Proof.
  intros H. set (x := (inject_Z m * two_p e)%Q) in *.
  destruct (Qeq0_dec x) as [Z0|NZ]; [rewrite (rnd_0 p x Z0); now symmetry|].
  rewrite (rnd_nz p x NZ), Qred_correct. set (u := ulp_e p x) in *.
  assert (E : (x * two_p (- u) == inject_Z (m * 2 ^ (e - u)))%Q).
  { unfold x. rewrite inject_Z_mult, <- two_p_Z by lia. replace (e - u) with (e + - u) by lia. rewrite two_p_plus. ring. }
  assert (ER : rne (x * two_p (- u)) = m * 2 ^ (e - u)).
  { apply rne_unique; rewrite E; setoid_replace (inject_Z (m * 2 ^ (e - u)) - inject_Z (m * 2 ^ (e - u)))%Q with 0%Q by ring; cbn.
    - discriminate.
    - intros HH. discriminate HH. }
  rewrite ER, <- E. setoid_replace (x * two_p (- u) * two_p u)%Q with (x * (two_p (- u) * two_p u))%Q by ring.
  rewrite two_p_opp_l. ring.
Qed.

Lemma frac_bounds q : (0 <= frac q < 1)%Q.
Proof.
  unfold frac. pose proof (Qfloor_le q). pose proof (Qlt_floor q) as H1. rewrite inject_Z_plus in H1.
  change (inject_Z 1) with 1%Q in H1. lra.
Qed.

Lemma Qfloor_unique q z : (inject_Z z <= q)%Q -> (q < inject_Z (z + 1))%Q -> Qfloor q = z.
Proof.
  intros H1 H2. pose proof (Qfloor_le q). pose proof (Qlt_floor q).
  assert (Qfloor q < z + 1) by (apply inject_Z_lt_inv; eapply Qle_lt_trans; eauto).
  assert (z < Qfloor q + 1) by (apply inject_Z_lt_inv; eapply Qle_lt_trans; eauto). lia.
Qed.

Lemma rnd_frac p q : (0 <= q)%Q -> (rnd p q == q)%Q -> (rnd p (frac q) == frac q)%Q.
Proof.
  intros Hq HR. destruct (Qeq0_dec q) as [Z0|NZ].
  { assert (E : (frac q == 0)%Q) by (unfold frac; rewrite (Qfloor_comp _ _ Z0); rewrite Z0 at 1; reflexivity). rewrite (rnd_0 p _ E). symmetry. exact E. }
  rewrite (rnd_nz p q NZ), Qred_correct in HR. set (e := ulp_e p q) in *. set (m := rne (q * two_p (- e))) in *.
  destruct (Z_le_gt_dec 0 e) as [He|He].
  { assert (E : (q == inject_Z (m * 2 ^ e))%Q) by (rewrite <- HR, inject_Z_mult, <- two_p_Z by lia; reflexivity).
    assert (EF : (frac q == 0)%Q).
    { unfold frac. rewrite E at 1. rewrite (Qfloor_comp _ _ E), Qfloor_Z. ring. }
    rewrite (rnd_0 p _ EF). symmetry. exact EF. }
  assert (HP : 0 < 2 ^ (- e)) by (apply Z.pow_pos_nonneg; lia).
  assert (E1 : (two_p e * inject_Z (2 ^ (- e)) == 1)%Q).
  { rewrite <- two_p_Z by lia. rewrite <- two_p_plus. replace (e + - e) with 0 by lia. reflexivity. }
  generalize dependent (2 ^ (- e)). intros D HP E1.
  set (f := m mod D).
  pose proof (Z.div_mod m D ltac:(lia)) as HD. pose proof (Z.mod_pos_bound m D HP) as HM. pose proof (two_p_pos e) as P.
  assert (HZ : forall z, (inject_Z z == inject_Z (z * D) * two_p e)%Q).
  { intros z. rewrite inject_Z_mult. setoid_replace (inject_Z z * inject_Z D * two_p e)%Q with (inject_Z z * (two_p e * inject_Z D))%Q by ring.
    rewrite E1. ring. }
  assert (EF : Qfloor q = m / D).
  { apply Qfloor_unique.
    - rewrite (HZ (m / D)). eapply Qle_trans; [|apply Qle_lteq; right; exact HR].
      apply Qmult_le_compat_r; [|lra]. rewrite <- Zle_Qle. nia.
    - rewrite (HZ (m / D + 1)). eapply Qle_lt_trans; [apply Qle_lteq; right; symmetry; exact HR|].
      apply Qmult_lt_compat_r; [lra|]. rewrite <- Zlt_Qlt. nia. }
  assert (EV : (frac q == inject_Z f * two_p e)%Q).
  { unfold frac. rewrite EF. rewrite (HZ (m / D)). transitivity (inject_Z m * two_p e - inject_Z (m / D * D) * two_p e)%Q.
    - now rewrite HR.
    - unfold f. rewrite HD at 1. rewrite (Z.mul_comm (m / D) D), inject_Z_plus. ring. }
  rewrite (rnd_Qeq p _ _ EV), EV.
  destruct (Qeq0_dec (inject_Z f * two_p e)) as [Z1|N1].
  - rewrite (rnd_0 p _ Z1). now symmetry.
  - apply rnd_multiple. unfold ulp_e in *. assert (mag (inject_Z f * two_p e) <= mag q); [|lia].
    apply mag_mono; [exact N1|]. rewrite <- EV. pose proof (frac_bounds q). rewrite !Qabs_pos by lra.
    unfold frac. assert (0 <= Qfloor q).
    { rewrite EF. apply Z.div_pos; [|exact HP].
      assert (inject_Z (-1) < inject_Z m)%Q; [|apply inject_Z_lt_inv in H0; lia].
      change (inject_Z (-1)) with (-1)%Q. nra. }
    assert (inject_Z 0 <= inject_Z (Qfloor q))%Q by now rewrite <- Zle_Qle.
    change (inject_Z 0) with 0%Q in H1. lra.
Qed.

(** ---- iter2hashtable ---- *)
Section Iter.
  Variable rd : Q -> Q.
  Variable cfval : abpair -> res Q.
  Variable funcs : list (mpfv -> res mpfv).
  Variable trunc : bool.
  Variable order : abpair -> list setelt -> list setelt.
  Hypothesis order_perm : forall ab l, Permutation (order ab l) l.

  Lemma iter_spec flt gen validate t t' x : table_ok t ->
    iter2hashtable rd cfval funcs trunc order flt gen validate t = (t', x) ->
    table_ok t' /\ h_acc t' = h_acc t /\ h_hist t' = h_hist t /\
    (forall s, d_get rawkey_eqb (h_data t') (KStr s) = d_get rawkey_eqb (h_data t) (KStr s)) /\
    (forall k, extends (at_key t k) (at_key t' k)) /\
    (forall k e, In e (at_key t' k) -> In e (at_key t k) \/
       exists ab i q, e = TEnt ab i /\ k = KNum q /\ In ab (fst gen) /\ In i flt /\ gives rd cfval funcs trunc ab i q) /\
    (x = Ok tt -> snd gen = Ok tt /\
       forall ab i q, In ab (fst gen) -> In i flt -> gives rd cfval funcs trunc ab i q -> In (TEnt ab i) (at_key t' (KNum q))).
  Proof.
    intros HT. unfold iter2hashtable.
    assert (ID : forall e : exn, table_ok t /\ h_acc t = h_acc t /\ h_hist t = h_hist t /\
      (forall s, d_get rawkey_eqb (h_data t) (KStr s) = d_get rawkey_eqb (h_data t) (KStr s)) /\
      (forall k, extends (at_key t k) (at_key t k)) /\
      (forall k y, In y (at_key t k) -> In y (at_key t k) \/
         exists ab i q, y = TEnt ab i /\ k = KNum q /\ In ab (fst gen) /\ In i flt /\ gives rd cfval funcs trunc ab i q) /\
      (@Raise unit e = Ok tt -> snd gen = Ok tt /\
         forall ab i q, In ab (fst gen) -> In i flt -> gives rd cfval funcs trunc ab i q -> In (TEnt ab i) (at_key t (KNum q)))).
    { intros e. split; [exact HT|]. split; [reflexivity|]. split; [reflexivity|]. split; [reflexivity|].
      split; [intros k; exists []; rewrite app_nil_r; split; [reflexivity|]; split; [constructor|intros ? []]|].
      split; [auto|discriminate]. }
    destruct (filtered_funcs funcs flt) as [fs|e] eqn:EF; [|intros HE; inversion HE; subst; apply ID].
    destruct (if validate then blacklist t else Ok []) as [bl|e] eqn:EB; [|intros HE; inversion HE; subst; apply ID].
    assert (HBL : bl_ok bl).
    { destruct validate; [eapply blacklist_ok; eauto|]. inversion EB; constructor. }
    destruct (filtered_funcs_spec funcs flt fs EF) as [HP HS].
    set (kb := validate && match h_data t with [] => false | _ => true end).
    destruct (pairs_loop rd cfval trunc order (fst gen) fs bl kb t) as [[t1 kb1] x1] eqn:EL.
    destruct (pairs_loop_spec rd cfval trunc order order_perm fs bl HP HBL (fst gen) kb t t1 kb1 x1 HT EL) as ((js & (c & HC) & HST & HX) & _ & _).
    intros HE.
    assert (t1 = t' /\ (x = Ok tt -> x1 = Ok tt /\ snd gen = Ok tt)) as [-> HX'].
    { destruct x1 as [[]|e]; inversion HE; subst; split; auto. discriminate. }
    subst t'. split; [now apply store_all_ok|]. destruct (store_all_acc js t) as [-> ->].
    split; [reflexivity|]. split; [reflexivity|]. split; [intros s; apply store_all_str|].
    split; [|split].
    - intros k. destruct (store_all_at js t k HT) as (n & E & ND & HN & _). exists n. auto.
    - intros k e HI. destruct (store_all_at js t k HT) as (n & E & _ & _ & HX2).
      rewrite E in HI. apply HX2 in HI as [HI|(ab & i & q & HI & -> & ->)]; [now left|]. right.
      exists ab, i, (Qred q). split; [reflexivity|]. split; [reflexivity|].
      apply (in_jobs rd cfval funcs trunc order order_perm flt fs (fst gen) EF ab i q).
      exists q. split; [reflexivity|]. rewrite HC. apply in_app_iff. now left.
    - intros Hx. destruct (HX' Hx) as [Hx1 HG]. specialize (HX Hx1). split; [exact HG|].
      intros ab i q Hab Hi Hg. assert (HQ : Qred q = q).
      { destruct Hg as (v & f & w & _ & _ & _ & _ & _ & ->). apply Qred_complete, Qred_correct. }
      rewrite <- HQ in Hg.
      destruct (proj2 (in_jobs rd cfval funcs trunc order order_perm flt fs (fst gen) EF ab i q) (conj Hab (conj Hi Hg))) as (k' & HK' & HI).
      destruct (store_all_at js t (KNum q) HT) as (n & E & _ & _ & HX2). rewrite E. apply HX2. right.
      exists ab, i, k'. split; [rewrite HX; exact HI|]. split; [reflexivity|]. unfold num_key in *. congruence.
  Qed.

  Definition plain_lists (t : mtable) : Prop :=
    forall k v, In (k, v) (h_data t) -> is_params_key k = false -> exists l, v = VList l /\ ~ In TParams l.
  Lemma blacklist_total t : plain_lists t -> exists bl, blacklist t = Ok bl.
  Proof.
    unfold plain_lists, blacklist. generalize (h_data t). intros d.
    assert (G1 : forall l b, ~ In TParams l -> exists b', foldM bl_add l b = Ok b').
    { induction l as [|[ab i|] l IH]; intros b HN; cbn; [eauto| |exfalso; apply HN; now left].
      apply IH. intros HH; apply HN; now right. }
    assert (G : forall d b, (forall k v, In (k, v) d -> is_params_key k = false -> exists l, v = VList l /\ ~ In TParams l) ->
      exists b', foldM (fun bl kv => if is_params_key (fst kv) then Ok bl
                        else match snd kv with VList l => foldM bl_add l bl | VOne _ => Raise ValueError end) d b = Ok b').
    { induction d0 as [|[k v] d0 IH]; intros b H; cbn; [eauto|].
      assert (H' : forall k v, In (k, v) d0 -> is_params_key k = false -> exists l, v = VList l /\ ~ In TParams l)
        by (intros; eapply H; [right; eassumption|assumption]).
      destruct (is_params_key k) eqn:EK; cbn; [now apply IH|].
      destruct (H k v (or_introl eq_refl) EK) as (l & -> & HL).
      destruct (G1 l b HL) as (b1 & ->). cbn. now apply IH. }
    intros H. now apply G.
  Qed.

  (** every selected index names a function *)
  Lemma filtered_funcs_total flt : (forall i, In i flt -> exists f, py_nth funcs i = Ok f) -> exists fs, filtered_funcs funcs flt = Ok fs.
  Proof.
    unfold filtered_funcs. generalize (@nil setelt). induction flt as [|i flt IH]; intros s H; cbn; [eauto|].
    destruct (H i (or_introl eq_refl)) as (f & ->). cbn. apply IH. intros; apply H; now right.
  Qed.

  Lemma iter_ok flt gen validate t : table_ok t ->
    (forall i, In i flt -> exists f, py_nth funcs i = Ok f) ->
    (validate = true -> plain_lists t) ->
    (forall ab, In ab (fst gen) -> match cfval ab with
                                   | Ok v => (v == 0)%Q \/ forall i f, In i flt -> py_nth funcs i = Ok f -> exists w, f (Fin v) = Ok w
                                   | Raise e => e = ZeroDivisionError end) ->
    snd (iter2hashtable rd cfval funcs trunc order flt gen validate t) = snd gen.
  Proof.
    intros HT HF HV HS. unfold iter2hashtable. destruct (filtered_funcs_total flt HF) as (fs & EF). rewrite EF.
    assert (exists bl, (if validate then blacklist t else Ok []) = Ok bl /\ bl_ok bl) as (bl & EB & HB).
    { destruct validate; [|exists []; split; [reflexivity|constructor]].
      destruct (blacklist_total t (HV eq_refl)) as (bl & E). exists bl. split; [exact E|]. eapply blacklist_ok; eauto. }
    rewrite EB. destruct (filtered_funcs_spec funcs flt fs EF) as [HP HSP].
    destruct (pairs_loop rd cfval trunc order (fst gen) fs bl _ t) as [[t1 kb1] x1] eqn:EL.
    destruct (pairs_loop_spec rd cfval trunc order order_perm fs bl HP HB (fst gen) _ t t1 kb1 x1 HT EL) as (_ & HSm & _).
    assert (x1 = Ok tt) as ->.
    { apply HSm. apply Forall_forall. intros ab HI. specialize (HS ab HI). unfold smooth. destruct (cfval ab) as [v|e]; [|exact HS].
      destruct HS as [HS|HS]; [now left|]. right. intros i f HI2. apply HSP in HI2 as [HI2 HI3]. eauto. }
    reflexivity.
  Qed.
End Iter.

(** a second run *)
Lemma iter_again rd cfval funcs trunc order1 order2 flt1 flt2 gen1 gen2 v1 v2 t t1 :
  (forall ab l, Permutation (order1 ab l) l) -> (forall ab l, Permutation (order2 ab l) l) -> table_ok t ->
  iter2hashtable rd cfval funcs trunc order1 flt1 gen1 v1 t = (t1, Ok tt) ->
  incl flt2 flt1 -> incl (fst gen2) (fst gen1) ->
  fst (iter2hashtable rd cfval funcs trunc order2 flt2 gen2 v2 t1) = t1.
Proof.
  intros P1 P2 HT H1 HF HG.
  destruct (iter_spec rd cfval funcs trunc order1 P1 flt1 gen1 v1 t t1 (Ok tt) HT H1) as (HT1 & _ & _ & _ & _ & _ & HD).
  destruct (HD eq_refl) as [_ HA]. unfold iter2hashtable.
  destruct (filtered_funcs funcs flt2) as [fs|e] eqn:EF; [|reflexivity].
  destruct (if v2 then blacklist t1 else Ok []) as [bl|e] eqn:EB; [|reflexivity].
  assert (HBL : bl_ok bl).
  { destruct v2; [eapply blacklist_ok; eauto|]. inversion EB; constructor. }
  destruct (filtered_funcs_spec funcs flt2 fs EF) as [HP HS].
  destruct (pairs_loop rd cfval trunc order2 (fst gen2) fs bl _ t1) as [[t2 kb2] x2] eqn:EL.
  destruct (pairs_loop_spec rd cfval trunc order2 P2 fs bl HP HBL (fst gen2) _ t1 t2 kb2 x2 HT1 EL) as ((js & (c & HC) & HST & _) & _).
  assert (t2 = t1).
  { rewrite HST. apply store_all_done; [exact HT1|]. intros ab i k HI.
    assert (HJ : In ab (fst gen2) /\ In i flt2 /\ gives rd cfval funcs trunc ab i (Qred k)).
    { apply (in_jobs rd cfval funcs trunc order2 P2 flt2 fs (fst gen2) EF ab i k). exists k. split; [reflexivity|].
      rewrite HC. apply in_app_iff. now left. }
    destruct HJ as (Ha & Hi & Hg). apply (HA ab i (Qred k)); auto. }
  subst t2. destruct x2; rewrite H; reflexivity.
Qed.

(** the black-list is without effect *)
Lemma funcs_loop_kb rd trunc fs ab v kb kb' t :
  fst (fst (funcs_loop rd trunc fs ab v kb t)) = fst (fst (funcs_loop rd trunc fs ab v kb' t)) /\
  (snd (funcs_loop rd trunc fs ab v kb t) = Ok tt <-> snd (funcs_loop rd trunc fs ab v kb' t) = Ok tt).
Proof.
  destruct fs as [|[i f|i] r]; cbn; try tauto.
  destruct (f (Fin v)); cbn; [split; [reflexivity|tauto]|split; [reflexivity|split; discriminate]].
Qed.
Lemma pairs_loop_bl rd cfval trunc order fs bl : Forall is_pair fs -> bl_ok bl -> fs <> [] -> forall pairs kb kb' t,
  fst (fst (pairs_loop rd cfval trunc order pairs fs bl kb t)) = fst (fst (pairs_loop rd cfval trunc order pairs fs [] kb' t)) /\
  (snd (pairs_loop rd cfval trunc order pairs fs bl kb t) = Ok tt <-> snd (pairs_loop rd cfval trunc order pairs fs [] kb' t) = Ok tt).
Proof.
  intros HP HB HN. induction pairs as [|ab r IH]; intros kb kb' t; cbn [pairs_loop]; [cbn; tauto|].
  rewrite (todo_id fs bl ab HP HB). change (d_get ab_eqb [] ab) with (@None (list setelt)). cbn iota.
  assert (EL : (match d_get ab_eqb bl ab with Some _ => match fs with [] => true | _ :: _ => false end | None => false end) = false).
  { destruct (d_get ab_eqb bl ab); [|reflexivity]. destruct fs; [congruence|reflexivity]. }
  rewrite EL.
  destruct (cfval ab) as [v|e].
  - destruct (negb (isnormal (Fin v))); [apply IH|].
    destruct (funcs_loop_kb rd trunc (order ab fs) ab v kb kb' t) as [H1 H2].
    destruct (funcs_loop rd trunc (order ab fs) ab v kb t) as [[t1 k1] [[]|e1]], (funcs_loop rd trunc (order ab fs) ab v kb' t) as [[t2 k2] [[]|e2]];
      cbn in H1, H2; subst t2.
    + apply IH.
    + exfalso. destruct H2 as [H2 _]. specialize (H2 eq_refl). discriminate.
    + exfalso. destruct H2 as [_ H2]. specialize (H2 eq_refl). discriminate.
    + cbn. split; [reflexivity|split; discriminate].
  - destruct e; try (cbn; split; [reflexivity|split; discriminate]). apply IH.
Qed.

Lemma filtered_nil funcs flt fs : filtered_funcs funcs flt = Ok fs -> flt <> [] -> fs <> [].
Proof.
  intros H HN. destruct (filtered_funcs_spec funcs flt fs H) as [_ HS]. destruct flt as [|i r]; [congruence|].
  assert (exists f, py_nth funcs i = Ok f) as (f & Hf).
  { unfold filtered_funcs in H. cbn in H. destruct (py_nth funcs i); [eauto|discriminate]. }
  intros ->. apply (HS i f). split; [now left|exact Hf].
Qed.

Lemma iter_validate rd cfval funcs trunc order flt gen t : flt <> [] ->
  (plain_lists t ->
    fst (iter2hashtable rd cfval funcs trunc order flt gen true t) = fst (iter2hashtable rd cfval funcs trunc order flt gen false t) /\
    (snd (iter2hashtable rd cfval funcs trunc order flt gen true t) = Ok tt <->
     snd (iter2hashtable rd cfval funcs trunc order flt gen false t) = Ok tt)).
Proof.
  intros HN HPL. unfold iter2hashtable. destruct (filtered_funcs funcs flt) as [fs|e] eqn:EF; [|cbn; tauto].
  destruct (blacklist_total t HPL) as (bl & EB). rewrite EB.
  destruct (filtered_funcs_spec funcs flt fs EF) as [HP _].
  pose proof (pairs_loop_bl rd cfval trunc order fs bl HP (blacklist_ok t bl EB) (filtered_nil funcs flt fs EF HN) (fst gen)) as HPB.
  specialize (HPB (true && match h_data t with [] => false | _ => true end) (false && match h_data t with [] => false | _ => true end) t).
  destruct HPB as [H1 H2].
  destruct (pairs_loop rd cfval trunc order (fst gen) fs bl (true && match h_data t with [] => false | _ :: _ => true end) t) as [[t1 k1] [[]|e1]],
           (pairs_loop rd cfval trunc order (fst gen) fs [] (false && match h_data t with [] => false | _ :: _ => true end) t) as [[t2 k2] [[]|e2]];
    cbn in H1, H2 |- *; subst t2.
  - tauto.
  - exfalso. destruct H2 as [H2 _]. specialize (H2 eq_refl). discriminate.
  - exfalso. destruct H2 as [_ H2]. specialize (H2 eq_refl). discriminate.
  - split; [reflexivity|split; discriminate].
Qed.

(** ---- what look-ups can see ---- *)
Definition p_char : ascii := "p"%char.
Definition p_keys (t : mtable) : Prop := forall s v, In (KStr s, v) (h_data t) -> exists r, s = p_char :: r.
Definition p_table (t : mtable) : Prop := table_ok t /\ p_keys t /\ forall a, In a (h_hist t ++ [h_acc t]) -> 0 <= a.

Lemma p_get t s : p_table t -> (forall r, s <> p_char :: r) -> d_get rawkey_eqb (h_data t) (KStr s) = None.
Proof.
  intros (_ & HP & _) HS. destruct (d_get rawkey_eqb (h_data t) (KStr s)) eqn:E; [|reflexivity].
  apply (d_get_Some_in _ RK) in E. destruct (HP _ _ E) as (r & ->). exfalso. now apply (HS r).
Qed.
Lemma p_keys_iff t : NoDup (map fst (h_data t)) ->
  (p_keys t <-> forall s v, d_get rawkey_eqb (h_data t) (KStr s) = Some v -> exists r, s = p_char :: r).
Proof.
  intros ND. split.
  - intros H s v HG. apply (d_get_Some_in _ RK) in HG. eauto.
  - intros H s v HI. apply (d_in_get _ RK) in HI; [|exact ND]. eauto.
Qed.
Lemma lists_iff (t : mtable) : NoDup (map fst (h_data t)) ->
  ((forall q v, In (KNum q, v) (h_data t) -> exists l, v = VList l) <->
   (forall q v, d_get rawkey_eqb (h_data t) (KNum q) = Some v -> exists l, v = VList l)).
Proof.
  intros ND. split; intros H q v HI.
  - apply (d_get_Some_in _ RK) in HI. eauto.
  - apply (d_in_get _ RK) in HI; [|exact ND]. eauto.
Qed.

Lemma contains_p eng t u s : p_table t -> (u = UStr s \/ exists q, u = UNum q /\ eng q = Ok s) -> (forall r, s <> p_char :: r) ->
  ht_contains eng u t = Ok false.
Proof.
  intros HT HU HS. unfold ht_contains, ht_manipulate_key.
  assert (E : (match u with UOther => Raise TypeError | UStr s0 => Ok s0 | UNum q => eng q end) = Ok s).
  { destruct HU as [->|(q & -> & E)]; [reflexivity|exact E]. }
  rewrite E. cbn [bind fst snd]. f_equal.
  assert (HG : forall n, raw_mem (h_data t) (py_take n s) = false).
  { intros n. apply raw_mem_false. unfold raw_get. apply p_get; [exact HT|].
    intros r HH. unfold py_take in HH. destruct s as [|c s'].
    - rewrite !firstn_nil in HH. destruct (0 <=? n); discriminate.
    - destruct (0 <=? n).
      + destruct (Z.to_nat n); [discriminate|]. cbn in HH. inversion HH; subst. now apply (HS s').
      + destruct (Z.to_nat (Z.of_nat (List.length (c :: s')) + n)); [discriminate|]. cbn in HH. inversion HH; subst. now apply (HS s'). }
  clear - HG. induction (h_hist t) as [|a l IH]; cbn [map mem_loop]; [apply HG|]. rewrite HG. apply IH.
Qed.

Lemma p_table_build {O} rd fsqrt ibinom mo order target ra rb v (m : mitm O) :
  (forall ab l, Permutation (order ab l) l) -> p_table (mi_table m) ->
  p_table (mi_table (fst (build_hashtable rd fsqrt ibinom mo order target ra rb v m))).
Proof.
  intros HO (HT & HP & HA). unfold build_hashtable. destruct (rhs_pairs rd fsqrt ibinom mo target m ra rb) as [gen|e]; [|cbn; split; auto].
  destruct (iter2hashtable rd (cf_value rd (mi_iters m)) (mi_funcs m) (mi_trunc m) order (mi_filter m) gen v (mi_table m)) as [t x] eqn:E.
  destruct (iter_spec _ _ _ _ _ HO _ _ _ _ _ _ HT E) as (H1 & H2 & H3 & H4 & _). cbn [fst with_table mi_table].
  split; [exact H1|]. split; [|rewrite H2, H3; exact HA].
  destruct HT as [ND HL]. apply p_keys_iff; [apply H1|]. intros s w HG. rewrite H4 in HG. exact (proj1 (p_keys_iff (mi_table m) ND) HP _ _ HG).
Qed.

Lemma p_table_params (eng : Q -> res text) t : p_table t -> p_table (fst (ht_set eng (UStr (txt "parameters")) (VOne TParams) t)).
Proof.
  intros ((ND & HL) & HP & HA). unfold ht_set, ht_manipulate_key. cbn [bind fst].
  set (olds := map (fun i => py_take (i + 1) (txt "parameters")) (h_hist t)).
  set (cur := py_take (h_acc t + 1) (txt "parameters")).
  assert (ND' : NoDup (map fst (d_set rawkey_eqb (del_olds olds (h_data t)) (KStr cur) (VOne TParams)))).
  { apply (d_keys_set_NoDup _ RK). now apply del_olds_NoDup. }
  assert (HC : exists r, cur = p_char :: r).
  { assert (0 <= h_acc t) by (apply HA, in_app_iff; right; now left). unfold cur, py_take.
    replace (0 <=? h_acc t + 1) with true by (symmetry; apply Z.leb_le; lia).
    replace (Z.to_nat (h_acc t + 1)) with (S (Z.to_nat (h_acc t))) by lia. cbn. eauto. }
  unfold p_table, table_ok. split; [split; [exact ND'|]|split].
  - apply (lists_iff (mkHtab (h_acc t) (h_hist t) _)); [exact ND'|]. cbn [h_data]. intros q v HG.
    rewrite (d_get_set_other _ RK) in HG by discriminate. rewrite del_olds_other in HG by (intros; discriminate).
    exact (proj1 (lists_iff t ND) HL _ _ HG).
  - apply p_keys_iff; [exact ND'|]. cbn [h_data]. intros s v HG.
    destruct (rawkey_eqb (KStr s) (KStr cur)) eqn:E.
    + apply RK in E. inversion E; subst s. exact HC.
    + rewrite (d_get_set_other _ RK) in HG by (intros HH; rewrite HH, (proj2 (RK _ _) eq_refl) in E; discriminate).
      destruct (d_get rawkey_eqb (h_data t) (KStr s)) as [w|] eqn:EG.
      * apply (d_get_Some_in _ RK) in EG. eauto.
      * rewrite del_olds_none in HG by exact EG. discriminate.
  - exact HA.
Qed.

Lemma p_table_join (app t : mtable) : p_table app -> p_table t -> p_table (fst (ht_append app t)).
Proof.
  intros ((ND1 & HL1) & HP1 & HA1) ((ND2 & HL2) & HP2 & HA2).
  assert (ND : NoDup (map fst (h_data (fst (ht_append app t))))) by (apply (append_ok app t); assumption).
  unfold ht_append in *. destruct (negb (h_acc t =? h_acc app)); [split; [split; assumption|split; assumption]|].
  cbn [fst] in *.
  unfold p_table, table_ok. split; [split; [exact ND|]|split].
  - apply (lists_iff (mkHtab _ _ _)); [exact ND|]. cbn [h_data]. intros q v HG.
    rewrite append_get in HG by exact ND1. unfold joined in HG.
    destruct (d_get rawkey_eqb (h_data t) (KNum q)) as [x|] eqn:E1, (d_get rawkey_eqb (h_data app) (KNum q)) as [y|] eqn:E2;
      inversion HG; subst; eauto.
    + exact (proj1 (lists_iff t ND2) HL2 _ _ E1).
    + exact (proj1 (lists_iff app ND1) HL1 _ _ E2).
  - apply p_keys_iff; [exact ND|]. cbn [h_data]. intros s v HG.
    rewrite append_get in HG by exact ND1. unfold joined in HG.
    destruct (d_get rawkey_eqb (h_data t) (KStr s)) as [x|] eqn:E1.
    + apply (d_get_Some_in _ RK) in E1. eauto.
    + apply (d_get_Some_in _ RK) in HG. eauto.
  - cbn [h_hist h_acc]. intros a HI. rewrite !in_app_iff, filter_In in HI. destruct HI as [[HI|[HI _]]|HI].
    + apply HA2, in_app_iff. now left.
    + apply HA1, in_app_iff. now left.
    + apply HA2, in_app_iff. now right.
Qed.

Lemma p_table_new n : 0 <= n -> p_table (ht_new n).
Proof.
  intros H. split; [split; [constructor|intros q v []]|]. split; [intros s v []|]. cbn. intros a [<-|[]]. lia.
Qed.

Lemma built_p {O} (m : mitm O) : built m -> p_table (mi_table m) /\ 0 <= mi_hprec m.
Proof.
  induction 1 as [e n s m Hh HN|rd fsqrt ibinom mo order target ra rb v m HO HB IH|s m Hh HB IH|m HB IH|eng m HB IH|m m2 H1 I1 H2 I2|m m2 H1 I1 H2 I2|m cs HB IH].
  - unfold mitm_new in HN. destruct (enumer_new (s_class s) (s_special s)); cbn in HN; [|discriminate]. inversion HN; subst. cbn.
    split; [now apply p_table_new|exact Hh].
  - split; [now apply p_table_build|]. unfold build_hashtable.
    destruct (rhs_pairs rd fsqrt ibinom mo target m ra rb); [|apply IH].
    destruct (iter2hashtable rd (cf_value rd (mi_iters m)) (mi_funcs m) (mi_trunc m) order (mi_filter m) a v (mi_table m)). apply IH.
  - unfold mitm_redefine. destruct (if isinstance (en_class (mi_enum m)) (s_class s) then _ else _) as [en|e]; cbn; [|exact IH].
    split; [|exact Hh]. destruct IH as [(HT & HP & HA) _]. split; [exact HT|]. split; [exact HP|]. cbn. intros a HI.
    apply in_app_iff in HI as [HI|[<-|[]]]; [now apply HA|lia].
  - cbn. split; [apply p_table_new|]; apply IH.
  - cbn [with_table mi_table mi_hprec]. split; [now apply p_table_params|apply IH].
  - cbn. split; [apply I2|apply I1].
  - cbn [with_table mi_table mi_hprec]. split; [apply p_table_join; [apply I2|apply I1]|apply I1].
  - exact IH.
Qed.

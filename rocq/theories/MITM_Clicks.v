(** Proofs about finding and refining clicks. *)
From Coq Require Import Ascii String ZArith QArith Qabs Qround List Bool Lia Lqa Permutation.
From Verif Require Import PyBase PyBase_Proofs Rnd Rnd_Proofs ContFrac_Model Hashtable_Model Hashtable_Proofs
  ULCD_Model ULCD_Proofs ULCD_Equiv Rational_Model MITM_Model Spec_MITM MITM_Build MITM_Build2.
Import ListNotations.
Local Open Scope Z_scope.
Local Open Scope list_scope.

(** ---- look-ups ---- *)
Lemma loops_tried (t : mtable) s : NoDup (map fst (h_data t)) ->
  let olds := map (fun i => py_take (i + 1) s) (h_hist t) in let cur := py_take (h_acc t + 1) s in
  (mem_loop olds cur (h_data t) = false /\ finds_nothing t s) \/
  (mem_loop olds cur (h_data t) = true /\ exists v, get_loop olds cur (h_data t) = Ok v /\ finds t s v).
Proof.
  intros ND olds cur. unfold finds, finds_nothing, tried, stored_text, olds, cur. clear olds cur.
  assert (HI : forall s v, In (KStr s, v) (h_data t) <-> raw_get (h_data t) s = Some v).
  { intros s0 v. unfold raw_get. split; [apply (d_in_get _ RK); exact ND|apply (d_get_Some_in _ RK)]. }
  generalize (h_acc t). intros a0. induction (h_hist t) as [|a l IH]; cbn [map mem_loop get_loop app].
  - destruct (raw_mem (h_data t) (py_take (a0 + 1) s)) eqn:E.
    + right. split; [reflexivity|]. apply raw_mem_get in E as (v & E). exists v. unfold dict_getitem. rewrite E. split; [reflexivity|].
      exists [], a0, []. split; [reflexivity|]. split; [intros b w []|]. now apply HI.
    + left. split; [reflexivity|]. intros a w [<-|[]] HH. apply HI in HH. apply raw_mem_false in E. congruence.
  - destruct (raw_mem (h_data t) (py_take (a + 1) s)) eqn:E.
    + right. split; [reflexivity|]. apply raw_mem_get in E as (v & E). exists v. unfold dict_getitem. rewrite E. split; [reflexivity|].
      exists [], a, (l ++ [a0]). split; [reflexivity|]. split; [intros b w []|]. now apply HI.
    + assert (HA : forall w, ~ In (KStr (py_take (a + 1) s), w) (h_data t)).
      { intros w HH. apply HI in HH. apply raw_mem_false in E. congruence. }
      destruct IH as [[H1 H2]|[H1 (v & H2 & l1 & b & l2 & H3 & H4 & H5)]].
      * left. split; [exact H1|]. intros b w [<-|Hb]; [apply HA|now apply H2].
      * right. split; [exact H1|]. exists v. split; [exact H2|]. exists (a :: l1), b, l2. split; [cbn; now rewrite H3|].
        split; [intros b' w [<-|Hb]; [apply HA|now apply H4]|exact H5].
Qed.

Lemma finds_unique (t : mtable) s v w : NoDup (map fst (h_data t)) -> finds t s v -> finds t s w -> v = w.
Proof.
  intros ND (l1 & a & l2 & E1 & N1 & S1) (m1 & b & m2 & E2 & N2 & S2).
  assert (HI : forall s v w, stored_text t s v -> stored_text t s w -> v = w).
  { unfold stored_text. intros s0 v0 w0 H1 H2. apply (d_in_get _ RK) in H1; [|exact ND]. apply (d_in_get _ RK) in H2; [|exact ND]. congruence. }
  rewrite E1 in E2. clear E1. revert m1 E2 N2. induction l1 as [|x l1 IH]; intros [|y m1] E2 N2; cbn in E2.
  - inversion E2; subst. eauto.
  - inversion E2; subst. exfalso. eapply N2; [now left|exact S1].
  - inversion E2; subst. exfalso. eapply N1; [now left|exact S2].
  - inversion E2; subst. eapply IH; eauto. intros; apply N1; now right. intros; apply N2; now right.
Qed.
Lemma finds_excl (t : mtable) s v : finds t s v -> finds_nothing t s -> False.
Proof.
  intros (l1 & a & l2 & E1 & N1 & S1) H. apply (H a v); [rewrite E1, in_app_iff; right; now left|exact S1].
Qed.

Lemma key_trunc rd trunc v k : key_of rd trunc v k <-> trunc_int rd trunc (absv v) = Ok k.
Proof.
  split.
  - intros [q|HF]; cbn.
    + destruct trunc; [|reflexivity]. cbn. rewrite q_int_floor by apply Qabs_nonneg. reflexivity.
    + rewrite HF. reflexivity.
  - destruct v as [q|]; cbn; destruct trunc; cbn; intros H; inversion H; subst.
    + rewrite q_int_floor by apply Qabs_nonneg. apply (key_fin rd true q).
    + apply (key_fin rd false q).
    + now constructor.
Qed.
Lemma text_engv eng k s : text_of eng k s <-> engv eng k = Ok s.
Proof.
  split.
  - intros [q s0 H|]; cbn; auto.
  - destruct k; cbn; intros H; [now constructor|]. inversion H. constructor.
Qed.
Lemma vkey_text eng (t : mtable) k : ht_manipulate_key eng t (vkey k) =
  let* s := engv eng k in Ok (map (fun i => py_take (i + 1) s) (h_hist t), py_take (h_acc t + 1) s).
Proof. destruct k; reflexivity. Qed.

Lemma contains_text eng (t : mtable) k s : NoDup (map fst (h_data t)) -> text_of eng k s ->
  (ht_contains eng (vkey k) t = Ok false /\ finds_nothing t s) \/
  (ht_contains eng (vkey k) t = Ok true /\ exists v, ht_get eng (vkey k) t = Ok v /\ finds t s v).
Proof.
  intros ND HT. apply text_engv in HT. unfold ht_contains, ht_get. rewrite vkey_text, HT. cbn [bind fst snd].
  destruct (loops_tried t s ND) as [[-> H]|[-> H]]; auto.
Qed.

Section Clicks.
  Variable rd : Q -> Q.
  Variable eng : Q -> res text.
  Context {O : Type}.
  Variable cls : lhs_class O.
  Variable funcs : list (mpfv -> res mpfv).
  Variable trunc : bool.

  Lemma new_clicks_iff o v cs : new_clicks cls o v = Ok cs <-> exists l, v = VList l /\ Forall2 (click_for cls o) l cs.
  Proof.
    unfold new_clicks. destruct v as [l|x]; [|split; [discriminate|intros (l & HH & _); discriminate]].
    split.
    - intros H. exists l. split; [reflexivity|]. revert cs H. induction l as [|x l IH]; intros cs H; cbn in H.
      + inversion H. constructor.
      + destruct x as [ab i|]; cbn in H; [|discriminate].
        destruct (lc_copy cls o) as [o'|e] eqn:E; cbn in H; [|discriminate].
        destruct (mapM _ l) as [r|e] eqn:EM; cbn in H; [|discriminate]. inversion H; subst. constructor; [|now apply IH].
        exists ab, i, o'. auto.
    - intros (l' & HE & H). inversion HE; subst l'. clear HE. induction H as [|x c l cs (ab & i & o' & -> & HC & ->) H IH]; cbn; [reflexivity|].
      rewrite IH, HC. reflexivity.
  Qed.

  Lemma click_body_iff t o cs : NoDup (map fst (h_data t)) ->
    (click_body rd eng cls trunc t o = Ok cs <-> clicks_of rd eng cls trunc t o cs).
  Proof.
    intros ND. unfold click_body. split.
    - destruct (trunc_int rd trunc (absv (lc_val cls o))) as [k|e] eqn:EK; cbn [bind]; [|discriminate].
      apply key_trunc in EK.
      destruct (engv eng k) as [s|e] eqn:ES.
      2:{ unfold ht_contains. rewrite vkey_text, ES. discriminate. }
      apply text_engv in ES.
      destruct (contains_text eng t k s ND ES) as [[-> HF]|[-> (v & HG & HF)]]; cbn [bind negb].
      + intros H; inversion H. econstructor 1; eauto.
      + destruct (lc_degen cls o) as [o1 [deg|e]] eqn:ED; cbn [bind]; [|discriminate].
        destruct deg.
        * intros H; inversion H. econstructor 2; eauto.
        * rewrite HG. cbn [bind]. intros H. apply new_clicks_iff in H as (l & -> & H). econstructor 3; eauto.
    - intros H.
      assert (HK : forall k s, key_of rd trunc (lc_val cls o) k -> text_of eng k s ->
                trunc_int rd trunc (absv (lc_val cls o)) = Ok k) by (intros k s H1 _; now apply key_trunc).
      destruct H as [k s H1 H2 H3|k s v o1 H1 H2 H3 H4|k s l o1 cs H1 H2 H3 H4 H5]; rewrite (HK k s H1 H2); cbn [bind];
      destruct (contains_text eng t k s ND H2) as [[-> HF]|[-> (w & HG & HF)]]; cbn [bind negb]; try reflexivity;
      try (exfalso; eapply finds_excl; eassumption).
      + rewrite H4. reflexivity.
      + rewrite H4. cbn [bind]. rewrite HG. cbn [bind]. rewrite (finds_unique t s w (VList l) ND HF H3).
        apply new_clicks_iff. eauto.
  Qed.

  Lemma find_clicks_iff t gen cs : NoDup (map fst (h_data t)) ->
    (find_clicks_loop rd eng cls trunc t gen = Ok cs <->
     snd gen = Ok tt /\ exists css, Forall2 (clicks_of rd eng cls trunc t) (fst gen) css /\ cs = List.concat css).
  Proof.
    intros ND. unfold find_clicks_loop.
    assert (G : forall os acc r, foldM (fun acc o => let* n := click_body rd eng cls trunc t o in Ok (acc ++ n)) os acc = Ok r <->
              exists css, Forall2 (clicks_of rd eng cls trunc t) os css /\ r = acc ++ List.concat css).
    { induction os as [|o os IH]; intros acc r; cbn.
      - split.
        + intros H; inversion H. exists []. split; [constructor|]. cbn. now rewrite app_nil_r.
        + intros (css & H & ->). inversion H. cbn. now rewrite app_nil_r.
      - split.
        + destruct (click_body rd eng cls trunc t o) as [n|e] eqn:E; cbn; [|discriminate].
          intros H. apply IH in H as (css & H & ->). exists (n :: css). split; [constructor; [|exact H]; now apply click_body_iff|].
          cbn. now rewrite app_assoc.
        + intros (css & H & ->). inversion H as [|? n ? css' H1 H2]; subst. apply click_body_iff in H1; [|exact ND].
          rewrite H1. cbn. apply IH. exists css'. split; [exact H2|]. now rewrite app_assoc. }
    destruct (foldM _ (fst gen) []) as [l|e] eqn:E.
    - cbn [bind]. assert (G' := proj1 (G _ _ _) E). destruct G' as (css & HC & HL). cbn in HL. subst l.
      destruct (snd gen) as [[]|e]; cbn [bind].
      + split.
        * intros H; inversion H. eauto.
        * intros (_ & css' & HC' & ->). rewrite (proj2 (G (fst gen) [] (List.concat css'))) in E; [inversion E; congruence|]. exists css'. auto.
      + split; [discriminate|intros [HH _]; discriminate].
    - cbn [bind]. split; [discriminate|]. intros (_ & css & HC & ->).
      rewrite (proj2 (G (fst gen) [] (List.concat css))) in E; [discriminate|]. exists css. auto.
  Qed.

  (** nothing stored under a text: no clicks *)
  Lemma find_clicks_none t gen cs : p_table t ->
    (forall q s, eng q = Ok s -> forall r, s <> p_char :: r) ->
    find_clicks_loop rd eng cls trunc t gen = Ok cs -> cs = [].
  Proof.
    intros HP HE H. apply find_clicks_iff in H; [|apply HP]. destruct H as (_ & css & HC & ->).
    assert (HN : forall k s v, text_of eng k s -> finds t s v -> False).
    { intros k s v HT (l1 & a & l2 & _ & _ & HS). destruct HP as (_ & HP & _). destruct (HP _ _ HS) as (r & HR).
      assert (HS2 : forall r, s <> p_char :: r) by (destruct HT; [eauto|discriminate]).
      unfold py_take in HR. destruct s as [|c s'].
      - rewrite !firstn_nil in HR. destruct (0 <=? a + 1); discriminate.
      - destruct (0 <=? a + 1).
        + destruct (Z.to_nat (a + 1)); [discriminate|]. cbn in HR. inversion HR; subst. now apply (HS2 s').
        + destruct (Z.to_nat (Z.of_nat (List.length (c :: s')) + (a + 1))); [discriminate|]. cbn in HR. inversion HR; subst. now apply (HS2 s'). }
    induction HC as [|o c os css HO HC IH]; [reflexivity|]. cbn. rewrite IH, app_nil_r.
    inversion HO; subst; try reflexivity. exfalso; eauto.
  Qed.

  (** ---- refinement ---- *)
  Variable ev : abpair -> Z -> option conv -> res mpfv.
  Variable accuracy : Z.
  Notation keptc := (kept rd eng cls funcs trunc ev accuracy).
  Notation droppedc := (dropped rd eng cls funcs trunc ev accuracy).

  Lemma qlt_iff a b : qlt a b = true <-> (a < b)%Q.
  Proof.
    unfold qlt. rewrite negb_true_iff. split.
    - intros H. apply Qnot_le_lt. intros HH. apply Qle_bool_iff in HH. congruence.
    - intros H. apply not_true_iff_false. intros HH. apply Qle_bool_iff in HH. lra.
  Qed.
  Lemma opposite_iff l r : opposite (Fin l) (Fin r) = true <-> (r * l < 0)%Q.
  Proof.
    cbn. rewrite orb_true_iff, !andb_true_iff, !qlt_iff. split; [intros [[]|[]]; nra|].
    intros H. destruct (Qlt_le_dec 0 l).
    - left. split; [assumption|]. nra.
    - right. assert (l < 0)%Q. { apply Qnot_le_lt. intros HH. assert (l == 0)%Q by lra. rewrite H0 in H. lra. }
      split; [assumption|]. nra.
  Qed.

  Lemma rhs_ok (c : click O) x : (let* f := py_nth funcs (ck_ind c) in let* v := ev (ck_ab c) accuracy (ck_conv c) in f v) = x ->
    (exists f, py_nth funcs (ck_ind c) = Ok f) -> rhs_of funcs ev accuracy c x.
  Proof.
    intros H (f & Hf). exists f. split; [exact Hf|]. rewrite Hf in H. cbn in H.
    destruct (ev (ck_ab c) accuracy (ck_conv c)) as [v|e]; cbn in H; subst; [right|left]; eauto.
  Qed.
  Lemma rhs_fun (c : click O) x y : rhs_of funcs ev accuracy c x -> rhs_of funcs ev accuracy c y -> x = y.
  Proof.
    intros (f & Hf & [(e & H1 & ->)|(v & H1 & ->)]) (g & Hg & [(e' & H2 & ->)|(v' & H2 & ->)]); congruence.
  Qed.
  Lemma rhs_eval (c : click O) x : rhs_of funcs ev accuracy c x ->
    (let* f := py_nth funcs (ck_ind c) in let* v := ev (ck_ab c) accuracy (ck_conv c) in f v) = x.
  Proof.
    intros (f & Hf & [(e & H1 & ->)|(v & H1 & ->)]); rewrite Hf; cbn; rewrite H1; reflexivity.
  Qed.

  Lemma compare_texts_iff a b k1 k2 : key_of rd trunc a k1 -> key_of rd trunc b k2 ->
    (compare_texts eng k1 k2 accuracy = Ok true <-> same_digits rd eng trunc accuracy a b) /\
    (compare_texts eng k1 k2 accuracy = Ok false <-> other_digits rd eng trunc accuracy a b).
  Proof.
    intros H1 H2. unfold compare_texts, same_digits, other_digits.
    replace (accuracy + 1 + 1) with (accuracy + 2) by lia.
    assert (HK : forall v k k', key_of rd trunc v k -> key_of rd trunc v k' -> k = k').
    { intros v k k' A B. apply key_trunc in A, B. congruence. }
    assert (HTX : forall k s s', text_of eng k s -> text_of eng k s' -> s = s').
    { intros k s s' A B. apply text_engv in A, B. congruence. }
    destruct (engv eng k1) as [s1|e1] eqn:E1; cbn [bind].
    - apply text_engv in E1. destruct (engv eng k2) as [s2|e2] eqn:E2; cbn [bind].
      + apply text_engv in E2. split; split.
        * intros H. inversion H as [H']. apply text_eqb_eq in H'. exists k1, k2, s1, s2. auto.
        * intros (k1' & k2' & s1' & s2' & A & B & C & D & E).
          rewrite (HK _ _ _ A H1) in C. rewrite (HK _ _ _ B H2) in D. rewrite (HTX _ _ _ C E1), (HTX _ _ _ D E2) in E.
          f_equal. now apply text_eqb_eq.
        * intros H. inversion H as [H']. exists k1, k2, s1, s2. split; [auto|]. split; [auto|]. split; [auto|]. split; [auto|].
          intros HH. apply text_eqb_eq in HH. congruence.
        * intros (k1' & k2' & s1' & s2' & A & B & C & D & E).
          rewrite (HK _ _ _ A H1) in C. rewrite (HK _ _ _ B H2) in D. rewrite (HTX _ _ _ C E1), (HTX _ _ _ D E2) in E.
          f_equal. apply not_true_iff_false. intros HH. now apply text_eqb_eq in HH.
      + split; (split; [discriminate|]); intros (k1' & k2' & s1' & s2' & A & B & C & D & E);
          rewrite (HK _ _ _ B H2) in D; apply text_engv in D; congruence.
    - split; (split; [discriminate|]); intros (k1' & k2' & s1' & s2' & A & B & C & D & E);
          rewrite (HK _ _ _ A H1) in C; apply text_engv in C; congruence.
  Qed.

  Lemma isnormal_abs r : isnormal (absv (Fin r)) = true <-> ~ (r == 0)%Q.
  Proof.
    cbn. rewrite negb_true_iff. split.
    - intros H HH. apply not_true_iff_false in H. apply H. apply Qeq_bool_iff. rewrite HH. reflexivity.
    - intros H. apply not_true_iff_false. intros HH. apply Qeq_bool_iff in HH. apply H.
      assert (Qabs r <= 0)%Q by lra. apply Qabs_le_iff in H0. lra.
  Qed.

  Lemma py_nth_err {A} (l : list A) i e : py_nth l i = Raise e -> e = IndexError.
  Proof.
    unfold py_nth. destruct (_ || _); [intros H; inversion H; reflexivity|].
    destruct (nth_error _ _); intros H; inversion H; reflexivity.
  Qed.

  Lemma whole_q_int q : whole q (q_int q).
  Proof.
    destruct q as [n d]. unfold whole, q_int, Qle, Qlt, inject_Z, Qminus, Qplus, Qopp. cbn [Qnum Qden].
    pose proof (Z.quot_rem n (Zpos d) ltac:(lia)) as E. split; intros H.
    - pose proof (Z.rem_bound_pos n (Zpos d)). lia.
    - pose proof (Z.rem_bound_pos_neg n (Zpos d)). lia.
  Qed.
  Lemma whole_unique q m n : whole q m -> whole q n -> m = n.
  Proof.
    intros [H1 H2] [H3 H4]. destruct (Qlt_le_dec q 0) as [H|H].
    - apply Qlt_le_weak in H. specialize (H2 H). specialize (H4 H).
      assert (inject_Z m < inject_Z (n + 1))%Q by (rewrite inject_Z_plus; change (inject_Z 1) with 1%Q; lra).
      assert (inject_Z n < inject_Z (m + 1))%Q by (rewrite inject_Z_plus; change (inject_Z 1) with 1%Q; lra).
      apply inject_Z_lt_inv in H0, H5. lia.
    - specialize (H1 H). specialize (H3 H).
      assert (inject_Z m < inject_Z (n + 1))%Q by (rewrite inject_Z_plus; change (inject_Z 1) with 1%Q; lra).
      assert (inject_Z n < inject_Z (m + 1))%Q by (rewrite inject_Z_plus; change (inject_Z 1) with 1%Q; lra).
      apply inject_Z_lt_inv in H0, H5. lia.
  Qed.

  Lemma refine_one_spec c c' b : refine_one rd eng cls funcs trunc ev accuracy c = (c', Ok b) ->
    if b then keptc c c' else droppedc c /\ c' = c.
  Proof.
    destruct c as [[[ab o] i] info]. unfold refine_one.
    destruct (let* f := py_nth funcs i in let* v := ev ab accuracy info in f v) as [x|e] eqn:ER.
    2:{ destruct e; intros H; inversion H; subst. split; [|reflexivity]. left.
        apply rhs_ok; [exact ER|]. cbn.
        destruct (py_nth funcs i) as [f|e] eqn:EN; [eauto|]. apply py_nth_err in EN. subst e. cbn in ER. discriminate. }
    assert (HR : rhs_of funcs ev accuracy (ab, o, i, info) (Ok x)).
    { apply rhs_ok; [exact ER|]. cbn. destruct (py_nth funcs i) as [f|e]; [eauto|]. cbn in ER. discriminate. }
    destruct x as [r|].
    2:{ cbn. intros H; inversion H; subst. split; [|reflexivity]. right; left. exact HR. }
    destruct (isnormal (absv (Fin r))) eqn:EI; cbn [negb].
    2:{ intros H; inversion H; subst. split; [|reflexivity]. right; right; left. exists r. split; [exact HR|].
        destruct (Qeq_dec r 0) as [|HH]; [assumption|]. apply isnormal_abs in HH. congruence. }
    apply isnormal_abs in EI.
    destruct (trunc_int rd trunc (absv (Fin r))) as [k1|e1] eqn:EK1; cbn [bind]; [|intros H; inversion H].
    destruct (trunc_int rd trunc (absv (lc_val cls o))) as [k2|e2] eqn:EK2; cbn [bind]; [|intros H; inversion H].
    apply key_trunc in EK1, EK2.
    destruct (compare_texts_iff _ _ _ _ EK1 EK2) as [CT CF].
    destruct (compare_texts eng k1 k2 accuracy) as [[|]|e] eqn:EC; [| |intros H; inversion H].
    2:{ intros H; inversion H; subst. split; [|reflexivity]. right; right; right. exists r. split; [exact HR|]. split; [exact EI|].
        now apply CF. }
    pose proof (proj1 CT eq_refl) as SD.
    destruct (lc_val cls o) as [l|] eqn:EL.
    2:{ cbn. intros H; inversion H. }
    destruct (opposite (Fin l) (Fin r)) eqn:EO.
    - apply opposite_iff in EO. destruct (lc_flip cls o) as [o1 [[]|e]] eqn:EF; [|intros H; inversion H].
      cbn [negv int_diff].
      destruct (lc_add cls (q_int (rd (r - - l))) o1) as [o2 [[]|e]] eqn:EA; [|intros H; inversion H].
      destruct (lc_canon cls o2) as [o3 [[]|e]] eqn:ECN; intros H; inversion H; subst.
      exists r, l, (q_int (rd (r - - l))), o1, o2, o3. cbn.
      split; [exact HR|]. split; [exact EI|]. split; [exact EL|]. split; [exact SD|].
      split; [left; split; [exact EO|]; split; [exact EF|apply whole_q_int]|]. auto.
    - cbn [negv int_diff].
      destruct (lc_add cls (q_int (rd (r - l))) o) as [o2 [[]|e]] eqn:EA; [|intros H; inversion H].
      destruct (lc_canon cls o2) as [o3 [[]|e]] eqn:ECN; intros H; inversion H; subst.
      exists r, l, (q_int (rd (r - l))), o, o2, o3. cbn.
      split; [exact HR|]. split; [exact EI|]. split; [exact EL|]. split; [exact SD|].
      split; [right; split; [|split; [reflexivity|apply whole_q_int]]|auto].
      apply Qnot_lt_le. intros HH. apply opposite_iff in HH. congruence.
  Qed.

  Lemma kept_refine c c' : keptc c c' -> refine_one rd eng cls funcs trunc ev accuracy c = (c', Ok true).
  Proof.
    intros (r & l & n & o1 & o2 & o3 & HR & HN & HL & HS & HC & HA & HCN & ->). destruct c as [[[ab o] i] info]. cbn [ck_obj ck_ab ck_ind ck_conv] in *.
    unfold refine_one. pose proof (rhs_eval _ _ HR) as HE. cbn [ck_obj ck_ab ck_ind ck_conv] in HE. rewrite HE.
    rewrite (proj2 (isnormal_abs r) HN). cbn [negb]. rewrite HL.
    pose proof (key_fin rd trunc r) as K1. pose proof (key_fin rd trunc l) as K2.
    destruct (compare_texts_iff _ _ _ _ K1 K2) as [CT _]. apply CT in HS.
    apply key_trunc in K1, K2. rewrite K1, K2. cbn [bind]. rewrite HS.
    destruct HC as [(HO & HF & HW)|(HO & -> & HW)].
    - rewrite (proj2 (opposite_iff l r) HO), HF. cbn [negv int_diff].
      rewrite (whole_unique _ _ _ (whole_q_int (rd (r - - l))) HW), HA, HCN. reflexivity.
    - destruct (opposite (Fin l) (Fin r)) eqn:EO; [apply opposite_iff in EO; lra|]. cbn [negv int_diff].
      rewrite (whole_unique _ _ _ (whole_q_int (rd (r - l))) HW), HA, HCN. reflexivity.
  Qed.
  Lemma dropped_refine c : droppedc c -> refine_one rd eng cls funcs trunc ev accuracy c = (c, Ok false).
  Proof.
    destruct c as [[[ab o] i] info]. unfold refine_one.
    intros [HR|[HR|[(r & HR & H0)|(r & HR & HN & HD)]]]; pose proof (rhs_eval _ _ HR) as HE; cbn [ck_obj ck_ab ck_ind ck_conv] in *; rewrite HE.
    - reflexivity.
    - reflexivity.
    - destruct (isnormal (absv (Fin r))) eqn:EI; [apply isnormal_abs in EI; tauto|]. reflexivity.
    - rewrite (proj2 (isnormal_abs r) HN). cbn [negb]. pose proof HD as HD2.
      destruct HD2 as (k1 & k2 & s1 & s2 & K1 & K2 & _). destruct (compare_texts_iff _ _ _ _ K1 K2) as [_ CF]. apply CF in HD.
      apply key_trunc in K1, K2. rewrite K1, K2. cbn [bind]. rewrite HD. reflexivity.
  Qed.
  Lemma kept_dropped c c' : keptc c c' -> droppedc c -> False.
  Proof. intros H1 H2. apply kept_refine in H1. apply dropped_refine in H2. rewrite H1 in H2. inversion H2. Qed.

  Lemma refine_iff cs cs' : refine rd eng cls funcs trunc ev accuracy cs = (cs', Ok tt) <-> selects keptc droppedc cs cs'.
  Proof.
    unfold refine. split.
    - revert cs'. induction cs as [|c r IH]; intros cs'; cbn [refine_loop].
      + intros H; inversion H. constructor.
      + destruct (refine_one rd eng cls funcs trunc ev accuracy c) as [c1 [keep|e]] eqn:E1; [|intros H; inversion H].
        destruct (refine_loop rd eng cls funcs trunc ev accuracy r) as [[all kp] x] eqn:EL.
        apply refine_one_spec in E1. destruct x as [[]|e]; [|intros H; inversion H].
        intros H. inversion H; subst. destruct keep.
        * constructor; [exact E1|]. now apply IH.
        * apply sel_drop; [apply E1|]. now apply IH.
    - intros H. assert (G : exists all, refine_loop rd eng cls funcs trunc ev accuracy cs = ((all, cs'), Ok tt)).
      { induction H as [|c c' l r HK H (all & IH)|c l r HD H (all & IH)]; cbn [refine_loop].
        - exists []. reflexivity.
        - rewrite (kept_refine _ _ HK), IH. eauto.
        - rewrite (dropped_refine _ HD), IH. eauto. }
      destruct G as (all & ->). reflexivity.
  Qed.

  (** an exception: the list keeps its length and its right-hand sides; the clicks up to the failing one have been
      treated already *)
  Lemma refine_raise cs cs' e : refine rd eng cls funcs trunc ev accuracy cs = (cs', Raise e) ->
    exists done c rest done' c', cs = done ++ c :: rest /\ cs' = done' ++ c' :: rest /\
      Forall2 (fun a b => keptc a b \/ (droppedc a /\ b = a)) done done' /\
      refine_one rd eng cls funcs trunc ev accuracy c = (c', Raise e).
  Proof.
    unfold refine. revert cs'. induction cs as [|c r IH]; intros cs'; cbn [refine_loop].
    - intros H; inversion H.
    - destruct (refine_one rd eng cls funcs trunc ev accuracy c) as [c1 [keep|e1]] eqn:E1.
      + destruct (refine_loop rd eng cls funcs trunc ev accuracy r) as [[all kp] [[]|e2]] eqn:EL; intros H; inversion H; subst.
        destruct (IH all eq_refl) as (dn & c2 & rest & dn' & c2' & -> & -> & HF & HE).
        exists (c :: dn), c2, rest, (c1 :: dn'), c2'. split; [reflexivity|]. split; [reflexivity|]. split; [|exact HE].
        constructor; [|exact HF]. apply refine_one_spec in E1. destruct keep; [now left|now right].
      + intros H; inversion H; subst. exists [], c, r, [], c1. repeat split; auto.
  Qed.
End Clicks.

(** ---- exact arithmetic: what a refinement does to the value ---- *)
Section Exact.
  Context {O : Type}.
  Variable cls : lhs_class O.
  Variable good : O -> Prop.
  Hypothesis flip_val : forall o o' l, good o -> lc_flip cls o = (o', Ok tt) -> lc_val cls o = Fin l ->
    good o' /\ exists l', lc_val cls o' = Fin l' /\ (l' == - l)%Q.
  Hypothesis add_val : forall o o' l n, good o -> lc_add cls n o = (o', Ok tt) -> lc_val cls o = Fin l ->
    good o' /\ exists l', lc_val cls o' = Fin l' /\ (l' == l + inject_Z n)%Q.

  Lemma kept_value eng funcs trunc ev accuracy c c' :
    good (ck_obj c) -> kept (fun q => q) eng cls funcs trunc ev accuracy c c' ->
    exists r l l' n o2, rhs_of funcs ev accuracy c (Ok (Fin r)) /\ lc_val cls (ck_obj c) = Fin l /\
      good o2 /\ lc_val cls o2 = Fin l' /\ lc_canon cls o2 = (ck_obj c', Ok tt) /\
      (exists l1, (l1 == l \/ l1 == - l) /\ 0 <= r * l1 /\ l' == l1 + inject_Z n /\
         ((l1 <= l' <= r \/ r <= l' <= l1)) /\ Qabs (r - l') < 1)%Q.
  Proof.
    intros HG (r & l & n & o1 & o2 & o3 & HR & HN & HL & HS & HC & HA & HCN & ->). cbn [ck_obj].
    assert (exists l1, good o1 /\ lc_val cls o1 = Fin l1 /\ (l1 == l \/ l1 == - l)%Q /\ (0 <= r * l1)%Q /\ whole (r - l1) n) as
      (l1 & G1 & V1 & E1 & S1 & W1).
    { destruct HC as [(HO & HF & HW)|(HO & -> & HW)].
      - destruct (flip_val _ _ _ HG HF HL) as (G1 & l1 & V1 & E1). exists l1. split; [exact G1|]. split; [exact V1|].
        split; [now right|]. split; [rewrite E1; lra|]. unfold whole in *. rewrite E1. exact HW.
      - exists l. split; [exact HG|]. split; [exact HL|]. split; [left; reflexivity|]. auto. }
    destruct (add_val _ _ _ _ G1 HA V1) as (G2 & l2 & V2 & E2).
    exists r, l, l2, n, o2. split; [exact HR|]. split; [exact HL|]. split; [exact G2|]. split; [exact V2|]. split; [exact HCN|].
    exists l1. split; [exact E1|]. split; [exact S1|]. split; [exact E2|].
    destruct W1 as [W1 W2]. destruct (Qlt_le_dec (r - l1) 0) as [H|H].
    - assert (H' : (r - l1 <= 0)%Q) by lra. specialize (W2 H'). split.
      + right. rewrite E2. split; [lra|].
        assert (inject_Z n < inject_Z 1)%Q by (change (inject_Z 1) with 1%Q; lra). apply inject_Z_lt_inv in H0.
        assert (inject_Z n <= inject_Z 0)%Q by (rewrite <- Zle_Qle; lia). change (inject_Z 0) with 0%Q in H1. lra.
      + apply Qabs_Qlt_condition. rewrite E2. lra.
    - specialize (W1 H). split.
      + left. rewrite E2. split; [|lra].
        assert (inject_Z (-1) < inject_Z n)%Q by (change (inject_Z (-1)) with (-1)%Q; lra). apply inject_Z_lt_inv in H0.
        assert (inject_Z 0 <= inject_Z n)%Q by (rewrite <- Zle_Qle; lia). change (inject_Z 0) with 0%Q in H1. lra.
      + apply Qabs_Qlt_condition. rewrite E2. lra.
  Qed.
End Exact.

Lemma frac_comp a b : (a == b)%Q -> (frac a == frac b)%Q.
Proof. intros H. unfold frac. rewrite (Qfloor_comp _ _ H). now rewrite H. Qed.

(** Fractional parts that agree leave a difference near 0 or near 1. *)
Lemma near_01 (r l1 l' d : Q) n : (0 <= r * l1)%Q -> (l' == l1 + inject_Z n)%Q -> (Qabs (r - l') < 1)%Q ->
  (Qabs (frac (Qabs r) - frac (Qabs l1)) <= d)%Q -> (Qabs (r - l') <= d \/ 1 - d <= Qabs (r - l'))%Q.
Proof.
  intros HS HE HA HF.
  assert (exists m : Z, (r - l' == inject_Z m + (frac (Qabs r) - frac (Qabs l1)) \/ r - l' == inject_Z m - (frac (Qabs r) - frac (Qabs l1)))%Q) as (m & HM).
  { assert (NEG : (r <= 0)%Q -> (l1 <= 0)%Q -> exists m : Z, (r - l' == inject_Z m - (frac (Qabs r) - frac (Qabs l1)))%Q).
    { intros Hr Hl. exists (- Qfloor (- r) + Qfloor (- l1) - n)%Z.
      rewrite (frac_comp _ _ (Qabs_neg r Hr)), (frac_comp _ _ (Qabs_neg l1 Hl)). unfold frac. rewrite HE. unfold Z.sub. rewrite !inject_Z_plus, !inject_Z_opp. ring. }
    assert (POS : (0 <= r)%Q -> (0 <= l1)%Q -> exists m : Z, (r - l' == inject_Z m + (frac (Qabs r) - frac (Qabs l1)))%Q).
    { intros Hr Hl. exists (Qfloor r - Qfloor l1 - n)%Z.
      rewrite (frac_comp _ _ (Qabs_pos r Hr)), (frac_comp _ _ (Qabs_pos l1 Hl)). unfold frac. rewrite HE. unfold Z.sub. rewrite !inject_Z_plus, !inject_Z_opp. ring. }
    destruct (Qlt_le_dec r 0) as [Hr|Hr].
    - destruct NEG as (m & HM); [lra|nra|]. exists m. now right.
    - destruct (Qlt_le_dec l1 0) as [Hl|Hl].
      + destruct NEG as (m & HM); [nra|lra|]. exists m. now right.
      + destruct POS as (m & HM); [lra|lra|]. exists m. now left. }
  set (e := (frac (Qabs r) - frac (Qabs l1))%Q) in *.
  apply Qabs_le_iff in HF. apply Qabs_Qlt_condition in HA.
  pose proof (frac_bounds (Qabs r)). pose proof (frac_bounds (Qabs l1)).
  assert (HB : (-1 < e < 1)%Q) by (unfold e; lra).
  assert (Hm : -2 < m < 2).
  { split; apply inject_Z_lt_inv; [change (inject_Z (-2)) with (-2)%Q|change (inject_Z 2) with 2%Q]; destruct HM; lra. }
  assert (m = -1 \/ m = 0 \/ m = 1) as [ -> | [ -> | -> ] ] by lia.
  - change (inject_Z (-1)) with (-1)%Q in HM. right. apply Qle_trans with (- (r - l'))%Q; [destruct HM; lra|].
    rewrite <- Qabs_opp. apply Qle_Qabs.
  - change (inject_Z 0) with 0%Q in HM. left. apply Qabs_le_iff. destruct HM; lra.
  - change (inject_Z 1) with 1%Q in HM. right. apply Qle_trans with (r - l')%Q; [destruct HM; lra|]. apply Qle_Qabs.
Qed.

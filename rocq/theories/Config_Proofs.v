(** Facts about texts, regular expressions and file versions. *)
From Coq Require Import Ascii String ZArith List Bool Lia Permutation.
From Coq Require DecimalString DecimalPos DecimalZ DecimalN DecimalFacts.
From Verif Require Import PyBase Hashtable_Model Hashtable_Proofs MITM_Model Results_Model Config_Model Spec_ULCD Spec_Config.
Import ListNotations.
Local Open Scope Z_scope.
Local Open Scope list_scope.

(** ---- integers as texts ---- *)
Lemma is_digit_spec c : is_digit c = true <-> digit_of c <> None.
Proof.
  unfold is_digit, digit_of. rewrite andb_true_iff, !Nat.leb_le.
  destruct (_ && _)%bool eqn:E.
  - rewrite andb_true_iff, !Z.leb_le in E. split; [discriminate|lia].
  - rewrite andb_false_iff, !Z.leb_gt in E. split; [lia|congruence].
Qed.
Lemma digits_val_app a : forall acc b, digits_val (a ++ b) acc = match digits_val a acc with Some x => digits_val b x | None => None end.
Proof. induction a as [|c a IH]; intros acc b; cbn [app digits_val]; [reflexivity|]. destruct (is_digit c); [apply IH|reflexivity]. Qed.
Lemma digits_uint d : forall p, digits_val (txt (DecimalString.NilEmpty.string_of_uint d)) (Zpos p) = Some (Zpos (Pos.of_uint_acc d p)).
Proof.
  induction d; intros p; [reflexivity|..]; unfold txt in *; cbn [DecimalString.NilEmpty.string_of_uint list_ascii_of_string digits_val];
    match goal with |- context [is_digit ?c] => change (is_digit c) with true end; cbv iota;
    match goal with |- context [Z.of_nat ?n] => let v := eval vm_compute in (Z.of_nat n) in change (Z.of_nat n) with v end;
    cbn [Pos.of_uint_acc]; rewrite <- IHd; f_equal; lia.
Qed.
Lemma digits_uint0 d : digits_val (txt (DecimalString.NilEmpty.string_of_uint d)) 0 = Some (Z.of_N (Pos.of_uint d)).
Proof.
  induction d; [reflexivity|..]; unfold txt in *; cbn [DecimalString.NilEmpty.string_of_uint list_ascii_of_string digits_val];
    match goal with |- context [is_digit ?c] => change (is_digit c) with true end; cbv iota;
    match goal with |- context [Z.of_nat ?n] => let v := eval vm_compute in (Z.of_nat n) in change (Z.of_nat n) with v end;
    cbn [Z.add Z.mul Pos.of_uint]; [exact IHd|..]; apply digits_uint.
Qed.
(** The text of a natural number: digits, without a leading zero *)
Lemma z_text_nat n : 0 <= n -> digits_val (z_text n) 0 = Some n /\ z_text n <> [] /\ Forall (fun c => is_digit c = true) (z_text n) /\
  (forall c r, z_text n = c :: r -> c = "0"%char -> r = []).
Proof.
  intros H.
  assert (D : exists d, z_text n = txt (DecimalString.NilEmpty.string_of_uint d) /\ Z.of_N (Pos.of_uint d) = n /\ d <> Decimal.Nil /\
              (forall d', d = Decimal.D0 d' -> d' = Decimal.Nil)).
  { unfold z_text. destruct n as [|p|p]; [|  |lia].
    - exists (Decimal.D0 Decimal.Nil). repeat split; try reflexivity; try discriminate. intros d' E. now injection E.
    - exists (Pos.to_uint p). repeat split.
      + cbn [Z.to_int DecimalString.NilZero.string_of_int]. unfold DecimalString.NilZero.string_of_uint.
        destruct (Pos.to_uint p) eqn:E; try reflexivity. now apply DecimalPos.Unsigned.to_uint_nonnil in E.
      + now rewrite DecimalPos.Unsigned.of_to.
      + apply DecimalPos.Unsigned.to_uint_nonnil.
      + intros d' E. pose proof (DecimalPos.Unsigned.to_of (Pos.to_uint p)) as T. rewrite DecimalPos.Unsigned.of_to in T. cbn [N.to_uint] in T.
        rewrite E in T. rewrite DecimalFacts.unorm_D0 in T. unfold Decimal.unorm in T.
        destruct (Decimal.nzhead d') eqn:N; try discriminate.
        * exfalso. apply (DecimalPos.Unsigned.to_uint_nonzero p). now rewrite E, T.
        * exfalso. now apply DecimalFacts.nzhead_nonzero in N. }
  destruct D as (d & E & V & NN & Z0). rewrite E. split; [now rewrite digits_uint0, V|]. clear V E H.
  split. { destruct d; try discriminate. contradiction. }
  split.
  - clear. induction d; cbn; constructor; auto.
  - intros c r EC C0. destruct d as [|d|d|d|d|d|d|d|d|d|d]; try (injection EC as EC1 EC2; subst c; discriminate). { discriminate EC. }
    injection EC as _ EC2. rewrite (Z0 d eq_refl) in EC2. now subst r.
Qed.
Lemma z_text_neg p : z_text (Zneg p) = "-"%char :: z_text (Zpos p).
Proof. reflexivity. Qed.
Lemma not_blank_digit c : is_digit c = true -> is_blank c = false.
Proof.
  unfold is_digit, is_blank. rewrite andb_true_iff, !Nat.leb_le. intros H. apply orb_false_iff. split; apply andb_false_iff; right; apply Nat.leb_gt; lia.
Qed.
Lemma lstrip_id s : Forall (fun c => is_blank c = false) s -> lstrip s = s.
Proof. intros H. destruct H as [|c s H _]; [reflexivity|]. cbn. now rewrite H. Qed.
Lemma strip_id s : Forall (fun c => is_blank c = false) s -> strip s = s.
Proof. intros H. unfold strip. rewrite (lstrip_id s) by exact H. rewrite lstrip_id by now apply Forall_rev. apply rev_involutive. Qed.
Lemma z_text_blank z : Forall (fun c => is_blank c = false) (z_text z).
Proof.
  destruct z as [|p|p]; [..|rewrite z_text_neg; constructor; [reflexivity|]];
    (eapply Forall_impl; [|apply z_text_nat; lia]); intros c; apply not_blank_digit.
Qed.
Lemma py_int_text z : py_int (z_text z) = Ok z.
Proof.
  unfold py_int. rewrite strip_id by apply z_text_blank.
  assert (P : forall n, 0 <= n -> exists c r, z_text n = c :: r /\ char_eqb c "-"%char = false /\ char_eqb c "+"%char = false).
  { intros n H. destruct (z_text_nat n H) as (_ & NN & D & _). destruct (z_text n) as [|c r]; [contradiction|]. inversion D as [|? ? D1 _]; subst.
    exists c, r. split; [reflexivity|]. unfold char_eqb. split; apply Ascii.eqb_neq; intros ->; discriminate. }
  destruct z as [|p|p].
  - reflexivity.
  - destruct (P (Zpos p)) as (c & r & E & M & L); [lia|]. destruct (z_text_nat (Zpos p)) as (V & _); [lia|]. rewrite E in *. now rewrite M, L, V.
  - rewrite z_text_neg. change (char_eqb "-" "-") with true. cbv iota.
    destruct (z_text_nat (Zpos p)) as (V & NN & _); [lia|]. destruct (z_text (Zpos p)) as [|c r]; [contradiction|]. now rewrite V.
Qed.

(** ---- regular expressions ---- *)
(** [rm r s t]: r can match a prefix of s, leaving t *)
Inductive rm : rx -> text -> text -> Prop :=
| rm_chr p c t : p c = true -> rm (RChr p) (c :: t) t
| rm_plus p c w t : p c = true -> Forall (fun c => p c = true) w -> rm (RPlus p) (c :: w ++ t) t
| rm_star p w t : Forall (fun c => p c = true) w -> rm (RStarLazy p) (w ++ t) t
| rm_opt1 r s t : rm r s t -> rm (ROpt r) s t
| rm_opt0 r s : rm (ROpt r) s s
| rm_seq r1 r2 s t u : rm r1 s t -> rm r2 t u -> rm (RSeq r1 r2) s u
| rm_group n r s t : rm r s t -> rm (RGroup n r) s t
| rm_end0 : rm REnd [] []
| rm_end1 c : nat_of_ascii c = 10%nat -> rm REnd [c] [c]
| rm_empty s : rm REmpty s s.
Section MatchFacts.
  Context {X : Type}.
  Lemma star_g_sound p s (k : text -> option X) x : star_g p s k = Some x ->
    exists w t, s = w ++ t /\ Forall (fun c => p c = true) w /\ k t = Some x.
  Proof.
    induction s as [|c s IH]; cbn [star_g]; intros H; [exists [], []; auto|].
    destruct (p c) eqn:P; [|exists [], (c :: s); auto].
    destruct (star_g p s k) as [y|] eqn:E; [|exists [], (c :: s); auto].
    injection H as ->. destruct (IH eq_refl) as (w & t & -> & F & K). exists (c :: w), t. auto.
  Qed.
  Lemma star_g_complete p w t (k : text -> option X) : Forall (fun c => p c = true) w -> k t <> None -> star_g p (w ++ t) k <> None.
  Proof.
    induction w as [|c w IH]; intros F K; cbn [app].
    - destruct t as [|c t]; cbn [star_g]; [exact K|]. destruct (p c); [|exact K]. destruct (star_g p t k); [discriminate|exact K].
    - inversion F as [|? ? F1 F2]; subst. cbn [star_g]. rewrite F1. specialize (IH F2 K). destruct (star_g p (w ++ t) k); [discriminate|contradiction].
  Qed.
  Lemma star_l_sound p s (k : text -> option X) x : star_l p s k = Some x ->
    exists w t, s = w ++ t /\ Forall (fun c => p c = true) w /\ k t = Some x.
  Proof.
    induction s as [|c s IH]; cbn [star_l]; intros H; destruct (k _) as [y|] eqn:E; try discriminate.
    - injection H as ->. exists [], []. auto.
    - injection H as ->. exists [], (c :: s). auto.
    - destruct (p c) eqn:P; [|discriminate]. destruct (IH H) as (w & t & -> & F & K). exists (c :: w), t. auto.
  Qed.
  Lemma star_l_first p t (k : text -> option X) x : k t = Some x -> forall w, Forall (fun c => p c = true) w ->
    (forall w1 w2, w = w1 ++ w2 -> w2 <> [] -> k (w2 ++ t) = None) -> star_l p (w ++ t) k = Some x.
  Proof.
    intros K. induction w as [|c w IH]; intros F N; cbn [app].
    - destruct t; cbn [star_l]; now rewrite K.
    - inversion F as [|? ? F1 F2]; subst. cbn [star_l]. pose proof (N [] (c :: w) eq_refl) as E. cbn [app] in E. rewrite E by discriminate. rewrite F1.
      apply IH; [exact F2|]. intros w1 w2 -> N2. apply (N (c :: w1) w2); auto.
  Qed.
  Lemma star_l_complete p w t (k : text -> option X) : Forall (fun c => p c = true) w -> k t <> None -> star_l p (w ++ t) k <> None.
  Proof.
    induction w as [|c w IH]; intros F K; cbn [app].
    - destruct t as [|c t]; cbn [star_l]; destruct (k _); congruence.
    - inversion F as [|? ? F1 F2]; subst. cbn [star_l]. rewrite F1. destruct (k (c :: w ++ t)); [discriminate|]. now apply IH.
  Qed.
  Lemma rx_sound r : forall s cs (k : text -> caps -> option X) x, rx_m r s cs k = Some x -> exists t cs', rm r s t /\ k t cs' = Some x.
  Proof.
    induction r; intros s cs k x H; cbn [rx_m] in H.
    - destruct s as [|c s]; [discriminate|]. destruct (p c) eqn:P; [|discriminate]. exists s, cs. split; [now constructor|exact H].
    - destruct s as [|c s]; [discriminate|]. destruct (p c) eqn:P; [|discriminate]. apply star_g_sound in H as (w & t & -> & F & K).
      exists t, cs. split; [now constructor|exact K].
    - apply star_l_sound in H as (w & t & -> & F & K). exists t, cs. split; [now constructor|exact K].
    - destruct (rx_m r s cs k) as [y|] eqn:E.
      + injection H as ->. apply IHr in E as (t & cs' & M & K). exists t, cs'. split; [now constructor|exact K].
      + exists s, cs. split; [apply rm_opt0|exact H].
    - apply IHr1 in H as (t & cs' & M & K). apply IHr2 in K as (u & cs2 & M2 & K). exists u, cs2. split; [econstructor; eauto|exact K].
    - apply IHr in H as (t & cs' & M & K). eexists t, _. split; [now constructor|exact K].
    - destruct s as [|c [|d s]]; [|destruct (Nat.eqb (nat_of_ascii c) 10) eqn:E; [apply Nat.eqb_eq in E|discriminate]|discriminate];
        eexists _, cs; (split; [|exact H]); now constructor.
    - exists s, cs. split; [constructor|exact H].
  Qed.
  Lemma rx_complete r s t : rm r s t -> forall cs (k : text -> caps -> option X), (forall cs', k t cs' <> None) -> rx_m r s cs k <> None.
  Proof.
    induction 1 as [p c t P|p c w t P F|p w t F|r s t M IH|r s|r1 r2 s t u M1 IH1 M2 IH2|n r s t M IH| |c C|s]; intros cs k K; cbn [rx_m].
    - now rewrite P.
    - rewrite P. now apply star_g_complete.
    - now apply star_l_complete.
    - specialize (IH cs k K). destruct (rx_m r s cs k); [discriminate|contradiction].
    - destruct (rx_m r s cs k); [discriminate|apply K].
    - apply IH1. intros cs'. apply IH2. exact K.
    - apply IH. intros cs'. apply K.
    - apply K.
    - rewrite (proj2 (Nat.eqb_eq _ _) C). apply K.
    - apply K.
  Qed.
End MatchFacts.
Lemma re_match_iff r s : re_match r s <> None <-> exists t, rm r s t.
Proof.
  unfold re_match. split.
  - intros H. destruct (rx_m r s [] _) as [x|] eqn:E; [|contradiction]. apply rx_sound in E as (t & _ & M & _). eauto.
  - intros (t & M). eapply rx_complete; [exact M|discriminate].
Qed.
Lemma rm_lits w : forall s t, rm (lits w) s t <-> s = w ++ t.
Proof.
  induction w as [|c w IH]; intros s t; cbn [lits app].
  - split; [intros H; inversion H; reflexivity|intros ->; constructor].
  - split.
    + intros H. inversion H as [| | | | |? ? ? u ? M1 M2| | | |]; subst. inversion M1 as [? d ? P| | | | | | | | |]; subst.
      apply IH in M2. subst. unfold char_eqb in P. apply Ascii.eqb_eq in P. now subst.
    + intros ->. econstructor; [|now apply IH]. constructor. apply Ascii.eqb_refl.
Qed.
Lemma rm_name base : forall pat, rx_of_name base = Some pat -> ~ In "."%char base -> forall s t, rm pat s t <-> s = base ++ t.
Proof.
  induction base as [|c base IH]; intros pat E ND s t; cbn [rx_of_name] in E.
  - injection E as <-. cbn [app]. split; [intros H; inversion H; reflexivity|intros ->; constructor].
  - destruct (special c); [discriminate|]. destruct (rx_of_name base) as [x|]; [|discriminate]. injection E as <-.
    assert (C : char_eqb c "." = false) by (apply Ascii.eqb_neq; intros ->; apply ND; now left). rewrite C.
    assert (ND' : ~ In "."%char base) by (intros I; apply ND; now right). specialize (IH _ eq_refl ND'). split.
    + intros H. inversion H as [| | | | |? ? ? u ? M1 M2| | | |]; subst. inversion M1 as [? d ? P| | | | | | | | |]; subst.
      apply IH in M2. subst. unfold char_eqb in P. apply Ascii.eqb_eq in P. now subst.
    + intros ->. cbn [app]. econstructor; [|now apply IH]. constructor. apply Ascii.eqb_refl.
Qed.
Lemma digit_or_dot_spec c : digit_or_dot c = true <-> digit_of c <> None \/ c = "."%char.
Proof. unfold digit_or_dot, char_eqb. rewrite orb_true_iff, is_digit_spec, Ascii.eqb_eq. reflexivity. Qed.
(** ... of the optional version and the extension *)
Lemma rm_vtail s t : rm (RSeq (ROpt (RGroup 2 (RSeq (lits (txt "_v")) (RPlus digit_or_dot)))) (RGroup 3 (lits (txt ".pkl")))) s t <->
  exists v, version_tail v /\ s = v ++ chars ".pkl" ++ t.
Proof.
  split.
  - intros H. inversion H as [| | | | |? ? ? u ? M1 M2| | | |]; subst. inversion M2 as [| | | | | |? ? ? ? M3| | |]; subst. apply (rm_lits (txt ".pkl")) in M3. subst u.
    inversion M1 as [| | |? ? ? M4|? ?| | | | |]; subst.
    + inversion M4 as [| | | | | |? ? ? ? M5| | |]; subst. inversion M5 as [| | | | |? ? ? w ? M6 M7| | | |]; subst. apply (rm_lits (txt "_v")) in M6. subst s.
      inversion M7 as [|? c w' ? P F| | | | | | | |]; subst. exists (chars "_v" ++ c :: w'). split; [|rewrite <- app_assoc; reflexivity].
      right. exists (c :: w'). split; [discriminate|]. split; [|reflexivity]. constructor; [now apply digit_or_dot_spec|].
      eapply Forall_impl; [|exact F]. intros d D. now apply digit_or_dot_spec.
    + exists []. split; [now left|reflexivity].
  - intros (v & V & ->). destruct V as [->|(w & NN & F & ->)].
    + econstructor; [apply rm_opt0|]. constructor. now apply rm_lits.
    + destruct w as [|c w]; [contradiction|]. inversion F as [|? ? F1 F2]; subst. econstructor; [|constructor; now apply rm_lits].
      apply rm_opt1. constructor. econstructor; [apply rm_lits; rewrite <- app_assoc; reflexivity|].
      apply (rm_plus digit_or_dot c w); [now apply digit_or_dot_spec|]. eapply Forall_impl; [|exact F2]. intros d D. now apply digit_or_dot_spec.
Qed.
Lemma old_iff base pat fn : rx_of_name base = Some pat -> ~ In "."%char base ->
  (match re_match (rx_old pat) fn with Some _ => true | None => false end = true <-> version_file base fn).
Proof.
  intros E ND. assert (R : match re_match (rx_old pat) fn with Some _ => true | None => false end = true <-> re_match (rx_old pat) fn <> None).
  { destruct (re_match _ _); split; congruence. }
  rewrite R, re_match_iff. clear R. unfold rx_old, version_file. split.
  - intros (t & M). inversion M as [| | | | |? ? ? u ? M1 M2| | | |]; subst. inversion M1 as [| | | | | |? ? ? ? M3| | |]; subst.
    apply (rm_name _ _ E ND) in M3. subst fn. apply rm_vtail in M2 as (v & V & ->). eauto.
  - intros (v & rest & V & ->). exists rest. econstructor; [constructor; now apply (rm_name _ _ E ND)|]. apply rm_vtail. eauto.
Qed.

(** ---- sorting ---- *)
Lemma text_leb_spec a : forall b, text_leb a b = true <-> name_le a b.
Proof.
  induction a as [|x a IH]; intros [|y b]; cbn [text_leb].
  - split; [constructor|reflexivity].
  - split; [constructor|reflexivity].
  - split; [discriminate|intros H; inversion H].
  - destruct (Nat.ltb_spec (nat_of_ascii x) (nat_of_ascii y)) as [L|L]; [split; [intros _; now constructor|reflexivity]|].
    destruct (Nat.ltb_spec (nat_of_ascii y) (nat_of_ascii x)) as [G|G].
    + split; [discriminate|]. intros H. inversion H; subst; lia.
    + assert (E : x = y). { rewrite <- (ascii_nat_embedding x), <- (ascii_nat_embedding y). f_equal. lia. } subst y.
      rewrite IH. split; [now constructor|]. intros H. inversion H; subst; [lia|assumption].
Qed.
Lemma name_le_total a : forall b, name_le a b \/ name_le b a.
Proof.
  induction a as [|x a IH]; intros [|y b]; try solve [left; constructor]; try solve [right; constructor].
  destruct (Nat.lt_trichotomy (nat_of_ascii x) (nat_of_ascii y)) as [L|[L|L]]; [left; now apply nl_lt| |right; now apply nl_lt].
  assert (E : x = y). { rewrite <- (ascii_nat_embedding x), <- (ascii_nat_embedding y). f_equal. lia. } subst y.
  destruct (IH b); [left|right]; now constructor.
Qed.
Lemma name_le_refl a : name_le a a.
Proof. induction a; now constructor. Qed.
Lemma name_le_trans a : forall b c, name_le a b -> name_le b c -> name_le a c.
Proof.
  induction a as [|x a IH]; intros b c H1 H2; [constructor|]. inversion H1; subst; inversion H2; subst; try solve [apply nl_lt; lia].
  apply nl_eq. eauto.
Qed.
Lemma ins_perm x l : Permutation (ins_text x l) (x :: l).
Proof. induction l as [|y l IH]; cbn [ins_text]; [reflexivity|]. destruct (text_leb x y); [reflexivity|]. rewrite IH. constructor. Qed.
Lemma sort_perm l : Permutation (sort_texts l) l.
Proof. induction l as [|x l IH]; [reflexivity|]. cbn [sort_texts fold_right]. rewrite ins_perm. now constructor. Qed.
Inductive sorted : list text -> Prop :=
| so_nil : sorted []
| so_cons x l : (forall y, In y l -> name_le x y) -> sorted l -> sorted (x :: l).
Lemma ins_sorted x l : sorted l -> sorted (ins_text x l).
Proof.
  induction 1 as [|y l H S IH]; cbn [ins_text]; [repeat constructor; intros ? []|].
  destruct (text_leb x y) eqn:E.
  - apply text_leb_spec in E. constructor; [|now constructor]. intros z [<-|Z]; [exact E|]. eapply name_le_trans; eauto.
  - constructor; [|exact IH]. intros z Z. apply (Permutation_in _ (ins_perm x l)) in Z. destruct Z as [<-|Z]; [|auto].
    destruct (name_le_total x y) as [L|L]; [apply text_leb_spec in L; congruence|exact L].
Qed.
Lemma sort_sorted l : sorted (sort_texts l).
Proof. induction l as [|x l IH]; [constructor|]. now apply ins_sorted. Qed.
Lemma sorted_last l x r : sorted l -> rev l = x :: r -> forall y, In y l -> name_le y x.
Proof.
  intros S E. assert (EL : l = rev r ++ [x]) by (rewrite <- (rev_involutive l), E; reflexivity). subst l. clear E.
  induction (rev r) as [|z w IH]; cbn [app] in *; intros y Y.
  - destruct Y as [<-|[]]. apply name_le_refl.
  - inversion S as [|? ? S1 S2]; subst. destruct Y as [<-|Y]; [|now apply IH]. apply S1. apply in_or_app. right. now left.
Qed.
(** The last of the old versions: none, or the greatest *)
Lemma old_last pat base listing : rx_of_name base = Some pat -> ~ In "."%char base ->
  match rev (old_versions pat listing) with
  | [] => forall f, In f listing -> ~ version_file base f
  | f :: _ => In f listing /\ version_file base f /\ forall g, In g listing -> version_file base g -> name_le g f
  end.
Proof.
  intros E ND. unfold old_versions.
  set (fl := filter _ listing). assert (IN : forall g, In g (sort_texts fl) <-> In g listing /\ version_file base g).
  { intros g. rewrite (Permutation_in' eq_refl (sort_perm fl)). unfold fl. rewrite filter_In. now rewrite (old_iff base pat g E ND). }
  destruct (rev (sort_texts fl)) as [|f r] eqn:R.
  - intros f I V. assert (X : In f (sort_texts fl)) by now apply IN. apply (f_equal (@rev text)) in R. rewrite rev_involutive in R. now rewrite R in X.
  - assert (X : In f (sort_texts fl)) by (apply in_rev; rewrite R; now left). apply IN in X as [X1 X2]. split; [exact X1|]. split; [exact X2|].
    intros g G V. apply (sorted_last _ _ _ (sort_sorted fl) R). now apply IN.
Qed.

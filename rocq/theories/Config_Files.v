(** The table file chosen by the settings. *)
From Coq Require Import Ascii String ZArith List Bool Lia Permutation.
From Verif Require Import PyBase Hashtable_Model Hashtable_Proofs MITM_Model Results_Model Config_Model Spec_ULCD Spec_Config Config_Proofs.
From Verif Require Rational_Latex.
Import ListNotations.
Local Open Scope Z_scope.
Local Open Scope list_scope.

Lemma plain_not c d : plain_char c -> (let n := nat_of_ascii d in n < 45 \/ n = 46 \/ n = 47 \/ 57 < n < 95 \/ n = 96 \/ 122 < n)%nat -> c <> d.
Proof. unfold plain_char. intros H K ->. cbv zeta in *. lia. Qed.
Lemma plain_no base d : plain base -> (let n := nat_of_ascii d in n < 45 \/ n = 46 \/ n = 47 \/ 57 < n < 95 \/ n = 96 \/ 122 < n)%nat -> ~ In d base.
Proof. intros P K I. apply (proj1 (Forall_forall _ _) P) in I. now apply (plain_not d d I K). Qed.
Lemma plain_dot base : plain base -> ~ In "."%char base.
Proof. intros P. apply plain_no; [exact P|cbn; lia]. Qed.
Lemma plain_slash base : plain base -> ~ In "/"%char base.
Proof. intros P. apply plain_no; [exact P|cbn; lia]. Qed.
Lemma plain_any base : plain base -> Forall (fun c => any_char c = true) base.
Proof.
  apply Forall_impl. intros c P. unfold any_char. apply negb_true_iff, Nat.eqb_neq. unfold plain_char in P. cbv zeta in P. lia.
Qed.
Lemma plain_name base : plain base -> exists pat, rx_of_name base = Some pat.
Proof.
  induction 1 as [|c base P _ (pat & IH)]; cbn [rx_of_name]; [eauto|].
  assert (S : special c = false).
  { unfold special. apply not_true_is_false. intros E. apply existsb_exists in E as (d & I & E). unfold char_eqb in E. apply Ascii.eqb_eq in E. subst d.
    assert (K : forall d, In d (txt "\^$*+?{}[]|()") -> (let n := nat_of_ascii d in n < 45 \/ n = 46 \/ n = 47 \/ 57 < n < 95 \/ n = 96 \/ 122 < n)%nat).
    { clear. intros d D. cbn in D. cbv zeta. repeat (destruct D as [<-|D]; [vm_compute; lia|]). destruct D. }
    exact (plain_not c c P (K c I) eq_refl). }
  rewrite S, IH. eauto.
Qed.
Lemma digits_plain w : digits w -> plain w.
Proof.
  apply Forall_impl. intros c H. apply is_digit_spec in H. unfold is_digit in H. rewrite andb_true_iff, !Nat.leb_le in H. unfold plain_char. cbv zeta. lia.
Qed.
Lemma digits_is w : digits w -> Forall (fun c => is_digit c = true) w.
Proof. apply Forall_impl. intros c H. now apply is_digit_spec. Qed.
Lemma is_digits w : Forall (fun c => is_digit c = true) w -> digits w.
Proof. apply Forall_impl. intros c H. now apply is_digit_spec. Qed.
Lemma dot_split a : forall b x y : list ascii, ~ In "."%char a -> ~ In "."%char b -> a ++ "."%char :: x = b ++ "."%char :: y -> a = b /\ x = y.
Proof.
  induction a as [|c a IH]; intros [|d b] x y A B E; cbn [app] in E.
  - injection E as ->. auto.
  - injection E as <- _. elim B. now left.
  - injection E as -> _. elim A. now left.
  - injection E as -> E. apply IH in E as [-> ->]; auto; intros I; [apply A|apply B]; now right.
Qed.
Lemma plain_app a b : plain a -> plain b -> plain (a ++ b).
Proof. apply Forall_app_2 || (intros; apply Forall_app; auto). Qed.
Lemma plain_v w : plain w -> plain (chars "_v" ++ w).
Proof. intros H. apply Forall_app. split; [|exact H]. repeat constructor; cbn; lia. Qed.

Lemma rm_pkl s t : rm rx_pkl s t -> exists w, s = w ++ chars ".pkl" ++ t.
Proof.
  intros H. inversion H as [| | | | |? ? ? u ? M1 M2| | | |]; subst. inversion M2 as [| | | | | |? ? ? ? M3| | |]; subst. apply (rm_lits (txt ".pkl")) in M3. subst u.
  inversion M1 as [| | | | | |? ? ? ? M4| | |]; subst. inversion M4; subst. eauto.
Qed.
Lemma rm_pkl_ok w t : Forall (fun c => any_char c = true) w -> rm rx_pkl (w ++ chars ".pkl" ++ t) t.
Proof. intros F. econstructor; constructor; [constructor; exact F|now apply rm_lits]. Qed.
Lemma rm_version s t : rm rx_version s t -> exists w d, d <> [] /\ digits d /\ s = w ++ chars "_v" ++ d ++ chars ".pkl" ++ t.
Proof.
  intros H. inversion H as [| | | | |? ? ? u ? M1 M2| | | |]; subst. inversion M2 as [| | | | |? ? ? v ? M3 M4| | | |]; subst.
  inversion M4 as [| | | | | |? ? ? ? M5| | |]; subst. apply (rm_lits (txt ".pkl")) in M5. subst v.
  inversion M3 as [| | | | | |? ? ? ? M6| | |]; subst. inversion M6 as [| | | | |? ? ? x ? M7 M8| | | |]; subst. apply (rm_lits (txt "_v")) in M7. subst u.
  inversion M8 as [|? c d ? P F| | | | | | | |]; subst. inversion M1 as [| | | | | |? ? ? ? M9| | |]; subst. inversion M9; subst.
  eexists _, (c :: d). split; [discriminate|]. split; [apply is_digits; now constructor|]. reflexivity.
Qed.
Lemma rm_version_ok w d t : Forall (fun c => any_char c = true) w -> d <> [] -> digits d -> rm rx_version (w ++ chars "_v" ++ d ++ chars ".pkl" ++ t) t.
Proof.
  intros F N D. apply digits_is in D. destruct d as [|c d]; [contradiction|]. inversion D; subst.
  econstructor; [constructor; constructor; exact F|]. econstructor; [constructor; econstructor; [apply rm_lits; reflexivity|]|constructor; now apply rm_lits].
  now apply (rm_plus is_digit c d).
Qed.
Lemma no_version base : plain base -> unversioned base -> re_match rx_version (base ++ txt ".pkl") = None.
Proof.
  intros P U. destruct (re_match rx_version _) eqn:E; [|reflexivity]. exfalso.
  assert (X : re_match rx_version (base ++ txt ".pkl") <> None) by congruence. apply re_match_iff in X as (t & M). apply rm_version in M as (w & d & N & D & E2).
  assert (W : ~ In "."%char w).
  { intros I. assert (C : count_occ ascii_dec (base ++ txt ".pkl") "."%char = 1%nat).
    { rewrite count_occ_app. rewrite (proj1 (count_occ_not_In ascii_dec base "."%char) (plain_dot _ P)). reflexivity. }
    rewrite E2 in C. rewrite !count_occ_app in C. apply (count_occ_In ascii_dec) in I. change (count_occ ascii_dec (chars ".pkl") "."%char) with 1%nat in C. lia. }
  rewrite !app_assoc in E2. rewrite <- (app_assoc _ (chars ".pkl") t) in E2. change (chars ".pkl" ++ t) with ("."%char :: txt "pkl" ++ t) in E2.
  change (txt ".pkl") with ("."%char :: txt "pkl") in E2. apply dot_split in E2 as [E2 _].
  - apply U. exists w, d. split; [exact N|]. split; [exact D|]. now rewrite <- app_assoc in E2.
  - now apply plain_dot.
  - rewrite !in_app_iff. intros [[I|I]|I]; [auto|cbn in I; intuition discriminate|]. now apply (plain_dot d (digits_plain _ D)).
Qed.
Lemma no_pkl base : plain base -> re_match rx_pkl base = None.
Proof.
  intros P. destruct (re_match rx_pkl base) eqn:E; [|reflexivity]. exfalso.
  assert (X : re_match rx_pkl base <> None) by congruence. apply re_match_iff in X as (t & M). apply rm_pkl in M as (w & ->).
  apply (plain_dot _ P). rewrite !in_app_iff. right. left. now left.
Qed.
Lemma some_match r s t : rm r s t -> exists x, re_match r s = Some x.
Proof. intros M. assert (X : re_match r s <> None) by (apply re_match_iff; eauto). destruct (re_match r s); [eauto|contradiction]. Qed.
Lemma take_pkl base : py_take (-4) (base ++ txt ".pkl") = base.
Proof.
  unfold py_take. change (0 <=? -4) with false. cbv iota. rewrite app_length. change (length (txt ".pkl")) with 4%nat.
  replace (Z.to_nat (Z.of_nat (length base + 4) + -4)) with (length base) by lia. rewrite firstn_app, Nat.sub_diag, firstn_all. apply app_nil_r.
Qed.
Lemma full_name_spec base f g : plain base -> unversioned base -> config_name base f g -> full_name f = g.
Proof.
  intros P U C. unfold full_name. destruct C as [| |w N D].
  - rewrite no_pkl by exact P. rewrite (no_version base P U), take_pkl. reflexivity.
  - destruct (some_match _ _ _ (rm_pkl_ok base [] (plain_any _ P))) as (x & X). rewrite app_nil_r in X. change (txt ".pkl") with (chars ".pkl").
    rewrite X. change (chars ".pkl") with (txt ".pkl"). rewrite (no_version base P U), take_pkl. reflexivity.
  - assert (P2 : plain (base ++ chars "_v" ++ w)) by (apply Forall_app; split; [exact P|apply plain_v; now apply digits_plain]).
    destruct (some_match _ _ _ (rm_pkl_ok (base ++ chars "_v" ++ w) [] (plain_any _ P2))) as (x & X). rewrite app_nil_r in X. rewrite <- !app_assoc in X. rewrite X.
    destruct (some_match _ _ _ (rm_version_ok base w [] (plain_any _ P) N D)) as (y & Y). rewrite app_nil_r in Y. rewrite Y. reflexivity.
Qed.
Lemma search_first r t : re_match r t <> None -> forall w, (forall w1 w2, w = w1 ++ w2 -> w2 <> [] -> re_match r (w2 ++ t) = None) ->
  exists cs x, re_match r t = Some (cs, x) /\ re_search r (w ++ t) = Some (w, cs).
Proof.
  intros M. destruct (re_match r t) as [[cs x]|] eqn:E; [|contradiction]. clear M. intros w N. exists cs, x. split; [reflexivity|]. revert N.
  induction w as [|c w IH]; intros N; cbn [app].
  - destruct t; cbn [re_search]; now rewrite E.
  - cbn [re_search]. pose proof (N [] (c :: w) eq_refl) as K. cbn [app] in K. rewrite K by discriminate. rewrite IH; [reflexivity|].
    intros w1 w2 -> N2. apply (N (c :: w1) w2); auto.
Qed.
Lemma rm_tail s t : rm rx_tail s t -> exists d, d <> [] /\ digits d /\ s = chars "_v" ++ d ++ chars ".pkl" ++ t.
Proof.
  intros H. inversion H as [| | | | |? ? ? u ? M1 M2| | | |]; subst. apply (rm_lits (txt "_v")) in M1. subst s.
  inversion M2 as [| | | | |? ? ? v ? M3 M4| | | |]; subst. inversion M4 as [| | | | |? ? ? x ? M5 M6| | | |]; subst. apply (rm_lits (txt ".pkl")) in M5. subst v.
  inversion M3 as [|? c d ? P F| | | | | | | |]; subst. exists (c :: d). split; [discriminate|]. split; [apply is_digits; now constructor|].
  inversion M6; subst; reflexivity.
Qed.
Lemma stripped_spec base w : plain base -> w <> [] -> digits w -> stripped (base ++ chars "_v" ++ w ++ chars ".pkl") = base.
Proof.
  intros P N D. unfold stripped.
  destruct (search_first rx_tail (chars "_v" ++ w ++ chars ".pkl")) with (w := base) as (cs & x & _ & E).
  - apply re_match_iff. exists []. econstructor; [apply rm_lits; reflexivity|]. apply digits_is in D. destruct w as [|c w]; [contradiction|]. inversion D; subst.
    econstructor; [now apply (rm_plus is_digit c w)|]. econstructor; [apply rm_lits; rewrite app_nil_r; reflexivity|constructor].
  - intros w1 w2 -> N2. destruct (re_match rx_tail _) eqn:E; [|reflexivity]. exfalso.
    match type of E with re_match ?r ?s = _ => assert (X : re_match r s <> None) by congruence end. apply re_match_iff in X as (t & M). apply rm_tail in M as (d & N3 & D3 & E3).
    apply Forall_app in P as [_ P2].
    rewrite !app_assoc in E3. change (chars ".pkl") with ("."%char :: txt "pkl") in E3. rewrite <- (app_assoc (chars "_v" ++ d)) in E3. cbn [app] in E3.
    apply dot_split in E3 as [E3 _].
    + destruct w2 as [|a w2]; [contradiction|]. injection E3 as -> E3. destruct w2 as [|b w2]; [discriminate|]. injection E3 as -> E3.
      assert (I : In "_"%char d) by (rewrite <- E3, !in_app_iff; left; right; now left).
      apply (proj1 (Forall_forall _ _) D3) in I. now apply I.
    + apply plain_dot. apply Forall_app. split; [apply Forall_app; split; [exact P2|repeat constructor; cbn; lia]|now apply digits_plain].
    + apply plain_dot. apply plain_v. now apply digits_plain.
  - now rewrite E.
Qed.
Lemma int_digits n : 0 <= n -> int_chars n <> [] /\ digits (int_chars n).
Proof. intros H. destruct (z_text_nat n H) as (_ & NN & D & _). split; [exact NN|]. now apply is_digits. Qed.
Lemma stripped_full base f g : plain base -> unversioned base -> config_name base f g -> stripped g = base.
Proof.
  intros P U C. destruct C as [| |w N D]; try (unfold version; apply stripped_spec; [exact P|apply int_digits; lia|apply int_digits; lia]).
  now apply stripped_spec.
Qed.

(** ---- the next version ---- *)
Lemma star_g_pkl {X} p (k : text -> option X) d : Forall (fun c => p c = true) d -> p "."%char = true -> p "p"%char = false -> k (txt "pkl") = None ->
  k (txt ".pkl") <> None -> star_g p (d ++ txt ".pkl") k = k (txt ".pkl").
Proof.
  intros F D P K NN. induction F as [|c d F1 F2 IH].
  - cbn [app txt list_ascii_of_string star_g] in *. rewrite D, P. unfold txt in K. cbn [list_ascii_of_string] in K. rewrite K. reflexivity.
  - cbn [app star_g]. rewrite F1, IH. destruct (k (txt ".pkl")); [reflexivity|contradiction].
Qed.
Lemma firstn_pre (a b : text) : firstn (length (a ++ b) - length b) (a ++ b) = a.
Proof. rewrite app_length. replace (length a + length b - length b)%nat with (length a) by lia. rewrite firstn_app, Nat.sub_diag, firstn_all. apply app_nil_r. Qed.
Lemma no_under d : forall x y z, ~ In "."%char x -> Forall (fun c => digit_of c <> None \/ c = "."%char) d -> x ++ "_"%char :: y = d ++ "."%char :: z -> False.
Proof.
  induction d as [|c d IH]; intros [|a x] y z N F E; cbn [app] in E.
  - discriminate.
  - injection E as -> _. apply N. now left.
  - injection E as <- _. inversion F as [|? ? F1 _]; subst. destruct F1 as [F1|F1]; [now apply F1|discriminate].
  - injection E as -> E. inversion F as [|? ? _ F2]; subst. apply (IH x y z); auto. intros I. apply N. now right.
Qed.
Lemma next_spec base n : plain base -> 0 <= n -> next_version (version base n) = Ok (version base (n + 1)).
Proof.
  intros P H. unfold next_version, version. destruct (int_digits n H) as (NN & D). destruct (z_text_nat n H) as (V & _).
  set (w := int_chars n) in *. change (z_text n) with w in V.
  assert (E : rx_m rx_last (base ++ chars "_v" ++ w ++ chars ".pkl") [] (fun t cs => Some (cs, t)) = Some ([(3%nat, txt ".pkl"); (2%nat, txt "_v" ++ w); (1%nat, base)], [])).
  { set (R := RSeq (ROpt (RGroup 2 (RSeq (lits (txt "_v")) (RPlus digit_or_dot)))) (RGroup 3 (lits (txt ".pkl")))).
    set (s := base ++ chars "_v" ++ w ++ chars ".pkl").
    change (rx_m rx_last s [] (fun t cs => Some (cs, t))) with
      (star_l any_char s (fun t => rx_m R t [(1%nat, firstn (length s - length t) s)] (fun t cs => Some (cs, t)))).
    subst s. apply (star_l_first any_char (chars "_v" ++ w ++ chars ".pkl") (fun t => rx_m R t [(1%nat, firstn (length (base ++ chars "_v" ++ w ++ chars ".pkl") - length t) (base ++ chars "_v" ++ w ++ chars ".pkl"))] (fun t cs => Some (cs, t)))); [|now apply plain_any|].
    - cbv beta. rewrite firstn_pre. unfold R. change (chars "_v" ++ w ++ chars ".pkl") with ("_"%char :: "v"%char :: w ++ txt ".pkl").
      change (lits (txt "_v")) with (RSeq (lit "_"%char) (RSeq (lit "v"%char) REmpty)). cbn [rx_m lit].
      change (char_eqb "_" "_") with true. change (char_eqb "v" "v") with true. cbv iota.
      destruct w as [|c w]; [contradiction|]. cbn [app]. apply digits_is in D. inversion D as [|? ? D1 D2]; subst.
      unfold digit_or_dot at 1. rewrite D1. cbn [orb].
      rewrite (star_g_pkl digit_or_dot); try reflexivity.
      + change ("_"%char :: "v"%char :: c :: w ++ txt ".pkl") with ((txt "_v" ++ c :: w) ++ txt ".pkl"). rewrite firstn_pre. reflexivity.
      + eapply Forall_impl; [|exact D2]. intros x X. unfold digit_or_dot. now rewrite X.
      + cbn. discriminate.
    - intros w1 w2 -> N2. cbv beta. match goal with |- rx_m ?r ?t ?cs ?k = None => destruct (rx_m r t cs k) as [x|] eqn:E; [|reflexivity] end.
      exfalso. apply rx_sound in E as (t & _ & M & _). unfold R in M. apply rm_vtail in M as (v & VT & E). apply Forall_app in P as [_ P2].
      destruct VT as [->|(d & NN' & DD & ->)].
      + destruct w2 as [|a w2]; [contradiction|]. injection E as -> _. apply (plain_dot _ P2). now left.
      + destruct w2 as [|a w2]; [contradiction|]. injection E as -> E. destruct w2 as [|b w2]; [discriminate|]. injection E as -> E.
        apply (no_under d w2 ("v"%char :: w ++ chars ".pkl") (txt "pkl" ++ t)); auto. apply plain_dot. inversion P2 as [|? ? _ P3]; subst. now inversion P3. }
  assert (E2 : re_search rx_last (base ++ chars "_v" ++ w ++ chars ".pkl") = Some ([], [(3%nat, txt ".pkl"); (2%nat, txt "_v" ++ w); (1%nat, base)])).
  { change (re_match rx_last (base ++ chars "_v" ++ w ++ chars ".pkl") = Some ([(3%nat, txt ".pkl"); (2%nat, txt "_v" ++ w); (1%nat, base)], [])) in E.
    destruct (base ++ chars "_v" ++ w ++ chars ".pkl"); cbn [re_search]; rewrite E; reflexivity. }
  rewrite E2. cbn [group d_get Nat.eqb]. change (txt "_v" ++ w) with ("_"%char :: "v"%char :: w). cbv iota.
  change w with (z_text n) in *. destruct (z_text n) as [|c r] eqn:Z; [contradiction|]. rewrite <- Z, py_int_text. reflexivity.
Qed.

(** ---- paths ---- *)
Lemma cut_slash_spec f : forall acc h, ~ In "/"%char f -> cut_slash (rev f ++ rev h) acc = cut_slash (rev h) (f ++ acc).
Proof.
  induction f as [|c f IH] using rev_ind; intros acc h N; [reflexivity|].
  rewrite rev_app_distr. cbn [rev app cut_slash]. assert (C : char_eqb c "/" = false).
  { apply Ascii.eqb_neq. intros ->. apply N. apply in_or_app. right. now left. }
  rewrite C, IH, <- app_assoc; [reflexivity|]. intros I. apply N. apply in_or_app. now left.
Qed.
Lemma path_split_spec f dir p : ~ In "/"%char f -> path_of f dir p -> f <> [] ->
  let (d, fn) := path_split p in match d with [] => txt "." | _ => d end = dir /\ fn = f.
Proof.
  intros N H NF. unfold path_split. destruct H as [|d c C].
  - pose proof (cut_slash_spec f [] [] N) as E. cbn [rev app] in E. rewrite !app_nil_r in E. rewrite E. cbn. auto.
  - unfold in_dir. pose proof (cut_slash_spec f [] ((d ++ [c]) ++ chars "/") N) as E. rewrite <- rev_app_distr in E. rewrite <- app_assoc in E. rewrite E.
    rewrite rev_app_distr. change (rev (chars "/")) with ["/"%char]. cbn [app cut_slash]. change (char_eqb "/" "/") with true. cbv iota.
    rewrite rev_involutive. rewrite app_nil_r. cbn [rstrip_slash_rev]. change (char_eqb "/" "/") with true. cbv iota.
    rewrite rev_app_distr. cbn [rev app rstrip_slash_rev]. assert (C2 : char_eqb c "/" = false) by now apply Ascii.eqb_neq. rewrite C2.
    cbn [rev]. rewrite rev_involutive. split; [|reflexivity].
    destruct (d ++ [c]) eqn:Z; [destruct d; discriminate|reflexivity].
Qed.
Lemma path_join_spec f g dir p : path_of f dir p -> path_join dir g = in_dir dir g.
Proof.
  intros [|d c C]; [reflexivity|]. unfold path_join. rewrite rev_app_distr. cbn [rev app].
  assert (C2 : char_eqb c "/" = false) by now apply Ascii.eqb_neq. now rewrite C2.
Qed.
Lemma config_name_slash base f g : plain base -> config_name base f g -> ~ In "/"%char f.
Proof.
  intros P C. destruct C as [| |w N D]; [now apply plain_slash|..]; rewrite !in_app_iff.
  - intros [I|I]; [now apply (plain_slash base)|cbn in I; intuition discriminate].
  - intros [I|[I|[I|I]]]; [now apply (plain_slash base)|cbn in I; intuition discriminate|now apply (plain_slash w (digits_plain _ D))|cbn in I; intuition discriminate].
Qed.
(** The chosen file *)
Lemma gen_spec listdir gen base f g dir p : plain base -> base <> [] -> unversioned base -> config_name base f g -> path_of f dir p ->
  exists pat, rx_of_name base = Some pat /\
  gen_hashtable_filename listdir gen p =
    match rev (old_versions pat (listdir dir)) with
    | [] => Ok (in_dir dir g)
    | l :: _ => let* h := if gen then next_version l else Ok l in Ok (in_dir dir h)
    end.
Proof.
  intros P N U C H. destruct (plain_name base P) as (pat & E). exists pat. split; [exact E|].
  assert (NF : f <> []) by (destruct C; [exact N|..]; destruct base; try discriminate; contradiction).
  pose proof (path_split_spec f dir p (config_name_slash _ _ _ P C) H NF) as S. unfold gen_hashtable_filename.
  destruct (path_split p) as [d fn]. destruct S as [S ->].
  rewrite S. destruct f as [|a f']; [contradiction|]. cbv zeta iota. set (f := a :: f') in *.
  rewrite (full_name_spec base f g P U C), (stripped_full base f g P U C), E, (path_join_spec f g dir p H).
  destruct (rev _) as [|l r]; [reflexivity|]. destruct (if gen then _ else _) as [h|e]; cbn [bind]; [|reflexivity]. now rewrite (path_join_spec f h dir p H).
Qed.

(** ---- order of numbers ---- *)
Lemma digits_bound w : forall acc r, digits_val w acc = Some r -> acc * 10 ^ Z.of_nat (length w) <= r < (acc + 1) * 10 ^ Z.of_nat (length w).
Proof.
  induction w as [|c w IH]; intros acc r H; cbn [digits_val length] in *; [injection H as ->; change (10 ^ Z.of_nat 0) with 1; lia|].
  destruct (is_digit c) eqn:D; [|discriminate]. apply IH in H. unfold is_digit in D. rewrite andb_true_iff, !Nat.leb_le in D.
  rewrite Nat2Z.inj_succ, Z.pow_succ_r by lia. pose proof (Z.pow_pos_nonneg 10 (Z.of_nat (length w)) ltac:(lia) ltac:(lia)). nia.
Qed.
Lemma digits_order u : forall v s acc a b, length u = length v -> digits_val u acc = Some a -> digits_val v acc = Some b -> name_le (u ++ s) (v ++ s) -> a <= b.
Proof.
  induction u as [|x u IH]; intros [|y v] s acc a b L A B N; try discriminate; cbn [digits_val app length] in *.
  - injection A as <-. injection B as <-. lia.
  - destruct (is_digit x) eqn:DX; [|discriminate]. destruct (is_digit y) eqn:DY; [|discriminate]. injection L as L.
    inversion N as [|? ? ? ? LT|? ? ? N2]; subst; [|eapply IH; eauto].
    apply digits_bound in A, B. rewrite <- L in B.
    unfold is_digit in DX, DY. rewrite andb_true_iff, !Nat.leb_le in DX, DY.
    pose proof (Z.pow_pos_nonneg 10 (Z.of_nat (length u)) ltac:(lia) ltac:(lia)). nia.
Qed.
Lemma name_le_prefix p a b : name_le (p ++ a) (p ++ b) -> name_le a b.
Proof. induction p as [|c p IH]; cbn [app]; intros H; [exact H|]. inversion H; subst; [lia|auto]. Qed.
Lemma version_order base a b : 0 <= a -> 0 <= b -> length (int_chars a) = length (int_chars b) -> name_le (version base a) (version base b) -> a <= b.
Proof.
  intros A B L N. unfold version in N. apply name_le_prefix, name_le_prefix in N.
  destruct (z_text_nat a A) as (VA & _). destruct (z_text_nat b B) as (VB & _). exact (digits_order _ _ _ _ _ _ L VA VB N).
Qed.
Lemma version_is base n : 0 <= n -> version_file base (version base n).
Proof.
  intros H. destruct (int_digits n H) as (NN & D). exists (chars "_v" ++ int_chars n), []. split.
  - right. exists (int_chars n). split; [exact NN|]. split; [|reflexivity]. eapply Forall_impl; [|exact D]. auto.
  - unfold version. now rewrite app_nil_r, <- app_assoc.
Qed.
Lemma version_inj base a b : version base a = version base b -> a = b.
Proof.
  unfold version. intros H. apply app_inv_head, app_inv_head in H. apply app_inv_tail in H. revert H. apply Rational_Latex.z_text_inj.
Qed.

(** What is written to a configuration file is read back: proofs for Properties_Ini. *)
From Coq Require Import Ascii String ZArith List Bool Lia.
From Verif Require Import PyBase PyBase_Proofs Hashtable_Model Hashtable_Proofs Results_Model Config_Model Ini_Model Spec_Ini.
Import ListNotations.
Local Open Scope res_scope.
Local Open Scope list_scope.

Lemma ceq a b : char_eqb a b = true <-> a = b.
Proof. unfold char_eqb. apply Ascii.eqb_eq. Qed.
Lemma cneq a b : char_eqb a b = false <-> a <> b.
Proof. unfold char_eqb. apply Ascii.eqb_neq. Qed.
Lemma crefl a : char_eqb a a = true.
Proof. now apply ceq. Qed.
Lemma blank_iff c : is_blank c = true <-> blank c.
Proof.
  unfold is_blank, blank. set (n := nat_of_ascii c). clearbody n. rewrite orb_true_iff, !andb_true_iff, !Nat.leb_le. cbn [In]. lia.
Qed.
Lemma blank_not c : ~ blank c -> is_blank c = false.
Proof. intros H. destruct (is_blank c) eqn:E; [|reflexivity]. now apply blank_iff in E. Qed.
Lemma nl_code c : nat_of_ascii c <> 10%nat -> char_eqb c nl = false.
Proof. intros H. apply cneq. intros ->. now apply H. Qed.
Lemma cr_code c : nat_of_ascii c <> 13%nat -> char_eqb c cr = false.
Proof. intros H. apply cneq. intros ->. now apply H. Qed.

(** ---- lines ---- *)
Lemma oneline_app a b : oneline (a ++ b) <-> oneline a /\ oneline b.
Proof.
  unfold oneline. split.
  - intros H. split; intros c I; apply H, in_or_app; auto.
  - intros [A B] c I. apply in_app_or in I. destruct I; auto.
Qed.
Lemma oneline_cons c s : oneline (c :: s) <-> (nat_of_ascii c <> 10%nat /\ nat_of_ascii c <> 13%nat) /\ oneline s.
Proof.
  unfold oneline. split; [intros H; split; [apply H; now left|intros d I; apply H; now right]|intros [A B] d [<-|I]; auto].
Qed.
Definition nocr (s : text) : Prop := forall c, In c s -> nat_of_ascii c <> 13%nat.
Lemma nocr_app a b : nocr a -> nocr b -> nocr (a ++ b).
Proof. intros A B c I. apply in_app_or in I. destruct I; auto. Qed.
Lemma oneline_nocr s : oneline s -> nocr s.
Proof. intros H c I. now apply H. Qed.
Lemma universal_id s : nocr s -> universal s = s.
Proof.
  induction s as [|c s IH]; intros H; [reflexivity|]. cbn [universal]. rewrite cr_code by (apply H; now left). f_equal. apply IH.
  intros d I. apply H. now right.
Qed.
Lemma lines_app l s : oneline l -> file_lines (l ++ nl :: s) = l :: file_lines s.
Proof.
  induction l as [|c l IH]; intros H; cbn [app file_lines]; [now rewrite crefl|]. apply oneline_cons in H. destruct H as [[A _] B].
  rewrite (nl_code _ A), (IH B). reflexivity.
Qed.

(** ---- blanks ---- *)
Lemma lstrip_id s : trim_start s -> lstrip s = s.
Proof. destruct s as [|c r]; intros H; [reflexivity|]. cbn [lstrip]. now rewrite (blank_not _ (H r c eq_refl)). Qed.
Lemma trim_end_rev s : trim_end s -> trim_start (rev s).
Proof. intros H r c E. apply (H (rev r)). rewrite <- (rev_involutive s), E. reflexivity. Qed.
Lemma rstrip_id s : trim_end s -> rstrip s = s.
Proof. intros H. unfold rstrip. rewrite lstrip_id by now apply trim_end_rev. apply rev_involutive. Qed.
Lemma strip_r s : strip s = rstrip (lstrip s).
Proof. reflexivity. Qed.
Lemma strip_id s : trimmed s -> strip s = s.
Proof. intros [A B]. now rewrite strip_r, (lstrip_id _ A), rstrip_id. Qed.
Lemma strip_blank c s : is_blank c = true -> strip (c :: s) = strip s.
Proof. intros H. unfold strip. cbn [lstrip]. now rewrite H. Qed.
Lemma rstrip_blank s c : is_blank c = true -> rstrip (s ++ [c]) = rstrip s.
Proof. intros H. unfold rstrip. rewrite rev_app_distr. cbn [rev app lstrip]. now rewrite H. Qed.
Lemma trim_end_app a b : b <> [] -> trim_end b -> trim_end (a ++ b).
Proof.
  intros N H r c E. destruct (exists_last N) as (b' & d & ->). rewrite app_assoc in E. apply app_inj_tail in E. destruct E as [_ <-].
  now apply (H b').
Qed.
Lemma trim_start_app a b : a <> [] -> trim_start a -> trim_start (a ++ b).
Proof. destruct a as [|c a]; intros N H r d E; [now elim N|]. injection E as <- <-. now apply (H a). Qed.

(** ---- a line with a setting ---- *)
Lemma cut_first p a c b : (forall x, In x a -> p x = false) -> p c = true -> cut_at p (a ++ c :: b) = Some (a, b).
Proof.
  induction a as [|x a IH]; intros H P; cbn [app cut_at]; [now rewrite P|]. rewrite (H x (or_introl eq_refl)).
  rewrite IH; [reflexivity| |exact P]. intros y I. apply H. now right.
Qed.
Lemma lower_id k : (forall c, In c k -> ~ (65 <= nat_of_ascii c <= 90)%nat) -> lower k = k.
Proof.
  induction k as [|c k IH]; intros H; [reflexivity|]. unfold lower in *. cbn [map]. rewrite IH by (intros; apply H; now right). f_equal.
  unfold lower_char. destruct (Nat.leb 65 (nat_of_ascii c)) eqn:A; [|reflexivity]. destruct (Nat.leb (nat_of_ascii c) 90) eqn:B; [|reflexivity].
  apply Nat.leb_le in A, B. elim (H c (or_introl eq_refl)). now split.
Qed.
Definition setting_line (k l : text) : text := k ++ txt " = " ++ l.
Definition shown (k l : text) : text := match l with [] => k ++ txt " =" | _ => setting_line k l end.
Lemma nonblank_eq : ~ blank "="%char.
Proof. cbn. lia. Qed.
Lemma strip_setting k l : good_key k -> trimmed l -> strip (setting_line k l) = shown k l.
Proof.
  intros (N & _ & (A & _) & _) [_ T]. unfold setting_line, shown. rewrite strip_r, lstrip_id by now apply trim_start_app.
  destruct l as [|c l].
  - change (k ++ txt " = " ++ []) with (k ++ txt " =" ++ [" "%char]). rewrite app_assoc, rstrip_blank by reflexivity. apply rstrip_id.
    apply trim_end_app; [discriminate|]. intros r c E. change (txt " =") with ([" "%char] ++ ["="%char]) in E. apply app_inj_tail in E.
    destruct E as [_ <-]. exact nonblank_eq.
  - change (rstrip (k ++ txt " = " ++ c :: l) = k ++ txt " = " ++ c :: l). apply rstrip_id. rewrite app_assoc. apply trim_end_app; [discriminate|exact T].
Qed.
Lemma key_cut k l : good_key k -> trimmed l -> exists v, cut_at delimiter (shown k l) = Some (k ++ [" "%char], v) /\ strip v = l.
Proof.
  intros (_ & _ & _ & D & _) T.
  assert (E : exists v, shown k l = (k ++ [" "%char]) ++ "="%char :: v /\ strip v = l).
  { unfold shown, setting_line. destruct l as [|c l]; [exists []; split; [now rewrite <- app_assoc|reflexivity]|].
    exists (" "%char :: c :: l). split; [now rewrite <- app_assoc|]. rewrite strip_blank by reflexivity. now apply strip_id. }
  destruct E as (v & E & S). exists v. split; [|exact S]. rewrite E. apply cut_first; [|reflexivity]. intros x I. apply in_app_or in I.
  destruct I as [I|[<-|[]]]; [|reflexivity]. destruct (D x I) as [D' _]. unfold delimiter.
  apply orb_false_iff. split; apply cneq; intros ->; apply D'; cbn; auto.
Qed.
Lemma shown_start k l c r : k = c :: r -> exists r', shown k l = c :: r'.
Proof. intros ->. unfold shown, setting_line. destruct l; cbn [app]; eauto. Qed.
Lemma indent_setting k l : good_key k -> indent (setting_line k l) = 0%nat.
Proof.
  intros (N & _ & (A & _) & _). destruct k as [|c k]; [now elim N|]. unfold setting_line. cbn [app indent]. now rewrite (blank_not _ (A k c eq_refl)).
Qed.

(** ---- dictionaries with text keys ---- *)
Lemma get_none {A} (d : list (text * A)) k : ~ In k (map fst d) -> d_get text_eqb d k = None.
Proof. intros H. apply (d_get_None text_eqb text_eqb_eq). exact H. Qed.
Lemma get_mid {A} (d : list (text * A)) k v : ~ In k (map fst d) -> d_get text_eqb (d ++ [(k, v)]) k = Some v.
Proof.
  induction d as [|[k' v'] d IH]; intros H; cbn [app d_get]; [now rewrite (proj2 (text_eqb_eq k k) eq_refl)|]. cbn [map fst In] in H.
  destruct (text_eqb k k') eqn:E; [apply text_eqb_eq in E; subst; elim H; now left|]. apply IH. tauto.
Qed.
Lemma set_mid {A} (d : list (text * A)) k v v' : ~ In k (map fst d) -> d_set text_eqb (d ++ [(k, v)]) k v' = d ++ [(k, v')].
Proof.
  induction d as [|[k' w] d IH]; intros H; cbn [app d_set]; [now rewrite (proj2 (text_eqb_eq k k) eq_refl)|]. cbn [map fst In] in H.
  destruct (text_eqb k k') eqn:E; [apply text_eqb_eq in E; subst; elim H; now left|]. rewrite IH by tauto. reflexivity.
Qed.
Lemma set_new {A} (d : list (text * A)) k v : ~ In k (map fst d) -> d_set text_eqb d k v = d ++ [(k, v)].
Proof.
  induction d as [|[k' w] d IH]; intros H; cbn [app d_set]; [reflexivity|]. cbn [map fst In] in H.
  destruct (text_eqb k k') eqn:E; [apply text_eqb_eq in E; subst; elim H; now left|]. rewrite IH by tauto. reflexivity.
Qed.
Lemma mem_none {A} (d : list (text * A)) k : ~ In k (map fst d) -> d_mem text_eqb d k = false.
Proof. intros H. unfold d_mem. now rewrite get_none. Qed.

(** ---- reading a setting ---- *)
Definition at_section (pre : list (text * rawsec)) (n : text) (s : rawsec) (o : text) : reader :=
  {| r_secs := pre ++ [(n, s)]; r_cur := Some n; r_opt := o; r_ind := 0; r_bad := false |}.
Lemma sec_at pre n s o : ~ In n (map fst pre) -> sec_of (at_section pre n s o) n = s.
Proof. intros H. unfold sec_of, at_section. cbn [r_secs]. now rewrite get_mid. Qed.
Lemma add_at pre n s k ls l : ~ In n (map fst pre) -> ~ In k (map fst s) -> k <> [] ->
  add_line (at_section pre n (s ++ [(k, ls)]) k) l = Some (at_section pre n (s ++ [(k, ls ++ [l])]) k).
Proof.
  intros P S N. unfold add_line. cbn [at_section r_cur r_opt]. fold (at_section pre n (s ++ [(k, ls)]) k).
  destruct k as [|c k]; [now elim N|]. rewrite (sec_at _ _ _ _ P), (get_mid _ _ _ S). f_equal.
  unfold put. rewrite (sec_at _ _ _ _ P), (set_mid _ _ _ _ S). cbn [at_section r_secs]. rewrite (set_mid _ _ _ _ P). reflexivity.
Qed.
Lemma read_rest pre n s k : ~ In n (map fst pre) -> ~ In k (map fst s) -> k <> [] -> forall more ls,
  Forall (fun x => oneline x /\ trimmed x) more -> Forall not_comment more ->
  foldM read_line (map (cons tab) more) (at_section pre n (s ++ [(k, ls)]) k) = Ok (at_section pre n (s ++ [(k, ls ++ more)]) k).
Proof.
  intros P S N. induction more as [|x more IH]; intros ls F C; [now rewrite app_nil_r|]. cbn [map foldM].
  inversion F as [|? ? [O T] F']; subst. inversion C as [|? ? C1 C']; subst.
  assert (R : read_line (at_section pre n (s ++ [(k, ls)]) k) (tab :: x) = Ok (at_section pre n (s ++ [(k, ls ++ [x])]) k)).
  { unfold read_line. rewrite strip_blank by reflexivity. rewrite (strip_id _ T). destruct x as [|c x].
    - now rewrite (add_at _ _ _ _ _ _ P S N).
    - assert (D : comment_char c = false).
      { pose proof (C1 x c eq_refl) as D. unfold comment_char. apply orb_false_iff. split; apply cneq; intros ->; apply D; cbn; auto. }
      rewrite D. change (indent (tab :: c :: x)) with (Datatypes.S (indent (c :: x))). cbn [at_section r_ind]. cbn [Nat.ltb Nat.leb].
      fold (at_section pre n (s ++ [(k, ls)]) k). now rewrite (add_at _ _ _ _ _ _ P S N). }
  rewrite R. cbn [bind]. rewrite (IH _ F' C'). now rewrite <- app_assoc.
Qed.
Lemma read_first pre n s o k l : ~ In n (map fst pre) -> ~ In k (map fst s) -> good_key k -> trimmed l ->
  read_line (at_section pre n s o) (setting_line k l) = Ok (at_section pre n (s ++ [(k, [l])]) k).
Proof.
  intros P S G T. unfold read_line. rewrite (strip_setting _ _ G T), (indent_setting _ _ G). cbn [at_section r_ind Nat.ltb Nat.leb].
  destruct (key_cut k l G T) as (v & C & V). destruct G as (N & _ & (A & B) & D & H). destruct k as [|c k]; [now elim N|].
  destruct (shown_start (c :: k) l c k eq_refl) as [r' E]. pose proof (H c k eq_refl) as H'. clear H. rewrite E in *.
  assert (X : comment_char c = false).
  { unfold comment_char. apply orb_false_iff. split; apply cneq; intros ->; apply H'; cbn; auto. }
  rewrite X. unfold start_line, header. assert (Y : char_eqb c "["%char = false) by (apply cneq; intros ->; apply H'; cbn; auto).
  rewrite Y. cbn [at_section r_cur r_opt r_secs r_bad]. rewrite C.
  assert (R : rstrip ((c :: k) ++ [" "%char]) = c :: k) by (rewrite rstrip_blank by reflexivity; now apply rstrip_id).
  rewrite R, V. rewrite lower_id by (intros x I; now apply D). fold (at_section pre n s o). rewrite (sec_at _ _ _ _ P), (mem_none _ _ S).
  unfold put. rewrite (sec_at _ _ _ _ P), (set_new _ _ _ S). cbn [at_section r_secs]. rewrite (set_mid _ _ _ _ P). reflexivity.
Qed.

Lemma read_item pre n s o k l ls more : ~ In n (map fst pre) -> ~ In k (map fst s) -> good_key k -> trimmed l ->
  Forall (fun x => oneline x /\ trimmed x) ls -> Forall not_comment ls ->
  foldM read_line (setting_line k l :: map (cons tab) ls ++ more) (at_section pre n s o) = foldM read_line more (at_section pre n (s ++ [(k, l :: ls)]) k).
Proof.
  intros P K G T F C. cbn [foldM]. rewrite (read_first _ _ _ _ _ _ P K G T). cbn [bind]. rewrite foldM_app.
  pose proof (read_rest _ _ _ _ P K (proj1 G) ls [l] F C) as R. apply (f_equal (fun x => bind x (foldM read_line more)) R).
Qed.

(** ---- the lines that are written ---- *)
Lemma write_oneline l : oneline l -> write_value l = l.
Proof.
  induction l as [|c l IH]; intros H; [reflexivity|]. apply oneline_cons in H. destruct H as [[A _] B]. unfold write_value in *. cbn [flat_map].
  rewrite (nl_code _ A), (IH B). reflexivity.
Qed.
Lemma item_lines k : forall ls l s, oneline k -> Forall oneline (l :: ls) ->
  file_lines ((k ++ write_value (unlines l ls)) ++ nl :: s) = (k ++ l) :: map (cons tab) ls ++ file_lines s.
Proof.
  intros ls. revert k. induction ls as [|l' ls IH]; intros k l s K F; inversion F as [|? ? F1 F2]; subst; cbn [unlines map app].
  - rewrite (write_oneline _ F1). apply lines_app, oneline_app. now split.
  - change (ascii_of_nat 10) with nl. unfold write_value. rewrite flat_map_app. cbn [flat_map]. rewrite crefl. fold (write_value l) (write_value (unlines l' ls)).
    rewrite (write_oneline _ F1). cbn [app].
    replace ((k ++ l ++ nl :: tab :: write_value (unlines l' ls)) ++ nl :: s)
      with ((k ++ l) ++ nl :: ([tab] ++ write_value (unlines l' ls)) ++ nl :: s) by (rewrite <- !app_assoc; reflexivity).
    rewrite lines_app by (apply oneline_app; now split). rewrite (IH [tab] l' s); [reflexivity| |exact F2].
    intros c [<-|[]]. cbn. split; discriminate.
Qed.
Lemma write_item_lines k l ls s : oneline k -> Forall oneline (l :: ls) ->
  file_lines (write_item (k, unlines l ls) ++ s) = setting_line k l :: map (cons tab) ls ++ file_lines s.
Proof.
  intros K F. unfold write_item, setting_line.
  replace ((k ++ txt " = " ++ write_value (unlines l ls) ++ [nl]) ++ s) with (((k ++ txt " = ") ++ write_value (unlines l ls)) ++ nl :: s)
    by (rewrite <- !app_assoc; reflexivity).
  rewrite item_lines; [now rewrite <- app_assoc| |exact F]. apply oneline_app. split; [exact K|]. intros c I. cbn in I.
  destruct I as [<-|[<-|[<-|[]]]]; cbn; split; discriminate.
Qed.

(** ---- joining ---- *)
Lemma join_unlines l ls : join_lines (l :: ls) = unlines l ls.
Proof. revert l. induction ls as [|l' ls IH]; intros l; [reflexivity|]. cbn [unlines]. rewrite <- IH. reflexivity. Qed.
Lemma join_blank l ls : join_lines ((l :: ls) ++ [[]]) = unlines l ls ++ [nl].
Proof.
  revert l. induction ls as [|l' ls IH]; intros l; [reflexivity|]. cbn [unlines]. change (ascii_of_nat 10) with nl. rewrite <- app_assoc.
  cbn [app]. rewrite <- IH. reflexivity.
Qed.
Definition joined (s : rawsec) : section := map (fun '(k, ls) => (k, rstrip (join_lines ls))) s.
Lemma joined_keys s : map fst (joined s) = map fst s.
Proof. unfold joined. rewrite map_map. apply map_ext. now intros []. Qed.

(** ---- a section ---- *)
Lemma read_items pre n : ~ In n (map fst pre) -> forall items s o rest,
  Forall (fun kv => good_key (fst kv) /\ good_value (snd kv)) items -> NoDup (map fst s ++ map fst items) ->
  (o = [] /\ s = [] \/ exists s0 l0 ls0, s = s0 ++ [(o, l0 :: ls0)] /\ ~ In o (map fst s0) /\ o <> [] /\ trim_end (unlines l0 ls0)) ->
  exists s', joined s' = joined s ++ items /\
    exists o', foldM read_line (file_lines (flat_map write_item items ++ nl :: rest)) (at_section pre n s o) = foldM read_line (file_lines rest) (at_section pre n s' o').
Proof.
  intros P. induction items as [|[k v] items IH]; intros s o rest F ND L.
  - cbn [flat_map app]. change (nl :: rest) with ([] ++ nl :: rest). rewrite lines_app by (intros c []). cbn [foldM].
    change (read_line (at_section pre n s o) []) with (Ok (match add_line (at_section pre n s o) [] with Some r' => r' | None => at_section pre n s o end)).
    destruct L as [[-> ->]|(s0 & l0 & ls0 & -> & S0 & N0 & T)].
    + exists []. split; [reflexivity|]. exists []. reflexivity.
    + rewrite (add_at _ _ _ _ _ _ P S0 N0). exists (s0 ++ [(o, (l0 :: ls0) ++ [[]])]). split; [|exists o; reflexivity].
      unfold joined. rewrite !map_app, app_nil_r. cbn [map]. rewrite join_blank, join_unlines, rstrip_blank by reflexivity. reflexivity.
  - inversion F as [|? ? [G (l & ls & E & O & C & T)] F']; subst. cbn [fst snd] in *. subst v. cbn [flat_map]. rewrite <- app_assoc.
    assert (O' : Forall oneline (l :: ls)) by (eapply Forall_impl; [|exact O]; now intros a []).
    rewrite (write_item_lines _ _ _ _ (proj1 (proj2 G)) O'). inversion O as [|? ? [O1 T1] O2]; subst.
    assert (K : ~ In k (map fst s)).
    { intros I. apply NoDup_remove_2 in ND. apply ND, in_or_app. now left. }
    destruct (IH (s ++ [(k, l :: ls)]) k rest F') as (s' & J & o' & R).
    + rewrite map_app. cbn [map fst]. rewrite <- app_assoc. exact ND.
    + right. exists s, l, ls. repeat split; auto. apply G.
    + exists s'. split; [|exists o'; rewrite <- R; now apply read_item]. rewrite J. unfold joined. rewrite map_app. cbn [map]. rewrite join_unlines, (rstrip_id _ T), <- app_assoc. reflexivity.
Qed.
Lemma header_name n : good_section_name n -> header (txt "[" ++ n ++ txt "]") = Some n.
Proof.
  intros (N & _ & B & _). unfold header. cbn [txt app list_ascii_of_string]. change (char_eqb "["%char "["%char) with true. cbn iota.
  change (n ++ txt "]") with (n ++ "]"%char :: []). rewrite cut_first; [destruct n; [now elim N|reflexivity]| |reflexivity].
  intros x I. apply cneq. intros <-. exact (B I).
Qed.
Definition section_text (ns : text * section) : text := let '(n, s) := ns in txt "[" ++ n ++ txt "]" ++ [nl] ++ flat_map write_item s ++ [nl].
Lemma strip_header n : strip (txt "[" ++ n ++ txt "]") = txt "[" ++ n ++ txt "]".
Proof.
  apply strip_id. split.
  - intros r c E. injection E as <- _. cbn. lia.
  - rewrite app_assoc. apply trim_end_app; [discriminate|]. intros r c E. change (txt "]") with ([] ++ ["]"%char]) in E. apply app_inj_tail in E.
    destruct E as [_ <-]. cbn. lia.
Qed.
Lemma read_section r n items rest : good_section_name n -> good_section items -> ~ In n (map fst (r_secs r)) -> r_bad r = false ->
  exists s' r', joined s' = items /\ r_secs r' = r_secs r ++ [(n, s')] /\ r_bad r' = false /\
    foldM read_line (file_lines (section_text (n, items) ++ rest)) r = foldM read_line (file_lines rest) r'.
Proof.
  intros G [ND F] P B. unfold section_text.
  replace ((txt "[" ++ n ++ txt "]" ++ [nl] ++ flat_map write_item items ++ [nl]) ++ rest)
    with ((txt "[" ++ n ++ txt "]") ++ nl :: (flat_map write_item items ++ nl :: rest)) by (rewrite <- !app_assoc; reflexivity).
  rewrite lines_app.
  2:{ apply oneline_app. split; [intros c [<-|[]]; cbn; split; discriminate|]. apply oneline_app. split; [apply G|]. intros c [<-|[]]. cbn. split; discriminate. }
  cbn [foldM].
  assert (H : read_line r (txt "[" ++ n ++ txt "]") = Ok (at_section (r_secs r) n [] [])).
  { unfold read_line. rewrite strip_header. pose proof (header_name n G) as H. cbn [txt app list_ascii_of_string] in *.
    change (comment_char "["%char) with false. cbn iota. change (indent ("["%char :: n ++ txt "]")) with 0%nat.
    change (Nat.ltb (r_ind r) 0) with false. cbn iota. unfold start_line. rewrite H. cbn iota beta.
    rewrite (mem_none _ _ P), andb_false_r. unfold at_section. rewrite B. unfold sec_of. rewrite (get_none _ _ P), (set_new _ _ _ P). reflexivity. }
  rewrite H. cbn [bind]. destruct (read_items (r_secs r) n P items [] [] rest F ND (or_introl (conj eq_refl eq_refl))) as (s' & J & o' & R).
  exists s', (at_section (r_secs r) n s' o'). repeat split; auto.
Qed.
Lemma read_sections : forall secs r, Forall (fun ns => good_section_name (fst ns) /\ good_section (snd ns)) secs ->
  NoDup (map fst (r_secs r) ++ map fst secs) -> r_bad r = false ->
  exists r', foldM read_line (file_lines (ini_write secs)) r = Ok r' /\ r_bad r' = false /\
    map (fun '(n, s) => (n, joined s)) (r_secs r') = map (fun '(n, s) => (n, joined s)) (r_secs r) ++ secs.
Proof.
  induction secs as [|[n items] secs IH]; intros r F ND B; [exists r; split; [reflexivity|split; [exact B|now rewrite app_nil_r]]|].
  inversion F as [|? ? [G S] F']; subst. cbn [fst snd] in *.
  assert (P : ~ In n (map fst (r_secs r))).
  { intros I. apply NoDup_remove_2 in ND. apply ND, in_or_app. now left. }
  change (ini_write ((n, items) :: secs)) with (section_text (n, items) ++ ini_write secs).
  destruct (read_section r n items (ini_write secs) G S P B) as (s' & r1 & J & E & B1 & ->).
  destruct (IH r1 F') as (r2 & R & B2 & M); [|exact B1|].
  - rewrite E, map_app, <- app_assoc. exact ND.
  - exists r2. split; [exact R|]. split; [exact B2|]. rewrite M, E, map_app. cbn [map]. rewrite J, <- app_assoc. reflexivity.
Qed.

(** ---- no carriage return is written ---- *)
Lemma nocr_value v : nocr v -> nocr (write_value v).
Proof.
  intros H c I. unfold write_value in I. apply in_flat_map in I. destruct I as (d & D & I). destruct (char_eqb d nl).
  - destruct I as [<-|[<-|[]]]; cbn; discriminate.
  - destruct I as [<-|[]]. now apply H.
Qed.
Lemma nocr_unlines l ls : Forall oneline (l :: ls) -> nocr (unlines l ls).
Proof.
  revert l. induction ls as [|l' ls IH]; intros l F; inversion F as [|? ? F1 F2]; subst; cbn [unlines]; [now apply oneline_nocr|].
  apply nocr_app; [now apply oneline_nocr|]. intros c [<-|I]; [cbn; discriminate|]. now apply (IH l' F2).
Qed.
Lemma nocr_write secs : Forall (fun ns => good_section_name (fst ns) /\ good_section (snd ns)) secs -> nocr (ini_write secs).
Proof.
  intros F c I. unfold ini_write in I. apply in_flat_map in I. destruct I as ([n s] & N & I). rewrite Forall_forall in F.
  destruct (F _ N) as [(_ & G & _) [_ S]]. cbn [fst snd] in *. revert c I.
  assert (L : forall t, In t ["["; "]"]%string -> nocr (txt t)).
  { intros t [<-|[<-|[]]] c [<-|[]]; cbn; discriminate. }
  assert (M : nocr [nl]) by (intros c [<-|[]]; cbn; discriminate).
  change (nocr (txt "[" ++ n ++ txt "]" ++ [nl] ++ flat_map write_item s ++ [nl])).
  apply nocr_app; [apply L; cbn; auto|]. apply nocr_app; [now apply oneline_nocr|]. apply nocr_app; [apply L; cbn; auto|].
  apply nocr_app; [exact M|]. apply nocr_app; [|exact M]. intros c I. apply in_flat_map in I. destruct I as ([k v] & K & I).
  rewrite Forall_forall in S. destruct (S _ K) as [(_ & O & _) (l & ls & E & V & _)]. cbn [fst snd] in *. revert c I. unfold write_item.
  apply nocr_app; [now apply oneline_nocr|]. apply nocr_app; [|apply nocr_app; [|exact M]].
  - intros c [<-|[<-|[<-|[]]]]; cbn; discriminate.
  - apply nocr_value. rewrite E. apply nocr_unlines. eapply Forall_impl; [|exact V]. now intros a [].
Qed.
Lemma read_written secs : Forall (fun ns => good_section_name (fst ns) /\ good_section (snd ns)) secs -> NoDup (map fst secs) ->
  ini_read (ini_write secs) = Ok secs.
Proof.
  intros F ND. unfold ini_read. rewrite universal_id by now apply nocr_write.
  destruct (read_sections secs {| r_secs := []; r_cur := None; r_opt := []; r_ind := 0; r_bad := false |} F ND eq_refl) as (r & -> & B & M).
  cbn [bind]. rewrite B. f_equal. exact M.
Qed.

(** Interpolation, and the configurations that are saved: proofs for Properties_Ini. *)
From Coq Require Import Ascii String ZArith List Bool Lia.
From Verif Require Import PyBase PyBase_Proofs Hashtable_Model Hashtable_Proofs Results_Model Config_Model Config_Proofs Config_Json Config_Round Dist_Model Scripts_Model
  Ini_Model Spec_Ini Ini_Proofs.
Import ListNotations.
Local Open Scope res_scope.
Local Open Scope list_scope.

(** ---- percent signs ---- *)
Lemma np_cons c s : no_percent (c :: s) -> char_eqb c percent = false /\ no_percent s.
Proof. intros H. split; [apply cneq; intros ->; apply H; now left|intros I; apply H; now right]. Qed.
Lemma interpolate_plain d env v : no_percent v -> interpolate (S d) env v = Ok v.
Proof.
  intros H. cbn [interpolate]. generalize (interpolate d env). intros inner. induction v as [|c v IH]; [reflexivity|]. apply np_cons in H as [A B].
  cbn [length interpolate_text]. rewrite A, (IH B). reflexivity.
Qed.
Lemma pairs_plain v : no_percent v -> drop_pairs v = v.
Proof.
  induction v as [|c v IH]; intros H; [reflexivity|]. apply np_cons in H as [A B]. cbn [drop_pairs]. rewrite A. cbn [andb]. rewrite (IH B). now destruct v.
Qed.
Lemma references_plain v : no_percent v -> drop_references (length v) v = v.
Proof.
  induction v as [|c v IH]; intros H; [reflexivity|]. apply np_cons in H as [A B]. cbn [length drop_references]. now rewrite A, (IH B).
Qed.
Lemma has_percent_in v : has_percent v = true <-> In percent v.
Proof.
  unfold has_percent. rewrite existsb_exists. split; [intros (c & I & E); apply ceq in E; now subst|intros I; exists percent; split; [exact I|apply crefl]].
Qed.
Lemma settable_plain v : no_percent v -> settable v = true.
Proof.
  intros H. unfold settable. rewrite (pairs_plain _ H), (references_plain _ H). apply negb_true_iff. destruct (has_percent v) eqn:E; [|reflexivity].
  apply has_percent_in in E. elim (H E).
Qed.
Lemma settable_lone v : lone_percent v -> settable v = false.
Proof.
  intros (a & b & -> & A & B & N). unfold settable. apply negb_false_iff, has_percent_in.
  assert (E : drop_pairs (a ++ percent :: b) = a ++ percent :: b).
  { clear N. induction a as [|c a IH]; cbn [app].
    - cbn [drop_pairs]. destruct b as [|d b]; [reflexivity|]. destruct (np_cons _ _ B) as [D _]. rewrite D, andb_false_r. f_equal. now apply pairs_plain.
    - apply np_cons in A as [A1 A2]. cbn [drop_pairs]. rewrite A1. cbn [andb]. rewrite (IH A2). now destruct a. }
  change "%"%char with percent. rewrite E. clear E B. induction a as [|c a IH]; cbn [app length drop_references].
  - rewrite crefl. destruct b as [|d b]; [now left|]. destruct (char_eqb d "("%char) eqn:D; [apply ceq in D; subst; now elim (N b)|now left].
  - apply np_cons in A as [A1 A2]. rewrite A1. right. now apply IH.
Qed.

(** ---- loading ---- *)
Lemma cast_keys items (l : section) : Forall (fun kv => d_get text_eqb items (fst kv) = Some (snd kv) /\ no_percent (snd kv)) l -> forall c,
  foldM (fun c k => let* v := interpolate 10 (lookup [] items) (match lookup [] items k with Some v => v | None => [] end) in
                    let* x := cast_param_val k v in Ok (d_set text_eqb c k x)) (map fst l) c = cast_all l c.
Proof.
  unfold cast_all. induction l as [|[k v] l IH]; intros F c; [reflexivity|]. inversion F as [|? ? [G P] F']; subst. cbn [map fst snd foldM] in *.
  unfold lookup at 2. rewrite G, (interpolate_plain _ _ _ P). cbn [bind]. destruct (cast_param_val k v); cbn [bind]; [apply (IH F')|reflexivity].
Qed.
Lemma get_in (s : section) : NoDup (map fst s) -> Forall (fun kv => d_get text_eqb s (fst kv) = Some (snd kv)) s.
Proof.
  induction s as [|[k v] s IH]; intros N; [constructor|]. inversion N as [|? ? N1 N2]; subst. constructor; cbn [fst snd d_get].
  - now rewrite (proj2 (text_eqb_eq k k) eq_refl).
  - eapply Forall_impl; [|apply (Forall_and (IH N2) (proj2 (Forall_forall (fun kv => In kv s) s) (fun x I => I)))]. intros [k' v'] [G I]. cbn [fst snd] in *.
    destruct (text_eqb k' k) eqn:E; [|exact G]. apply text_eqb_eq in E. subst. elim N1. now apply (in_map fst) in I.
Qed.
Lemma load_written listdir n items : good_section_name n -> good_section items -> Forall (fun kv => no_percent (snd kv)) items ->
  load_ini listdir (Some (ini_write [(n, items)])) = load listdir (Some items).
Proof.
  intros G S P. unfold load_ini. rewrite read_written; [|constructor; [now split|constructor]|cbn; constructor; [intros []|constructor]]. cbn [bind].
  assert (E : cast_sections [(n, items)] = cast_all items []).
  { destruct G as (_ & _ & _ & D). assert (X : text_eqb n DEFAULT = false).
    { destruct (text_eqb n DEFAULT) eqn:E; [|reflexivity]. apply text_eqb_eq in E. now elim D. }
    assert (Y : text_eqb DEFAULT n = false).
    { destruct (text_eqb DEFAULT n) eqn:E; [|reflexivity]. apply text_eqb_eq in E. now elim D. }
    unfold cast_sections. cbn [filter d_get]. rewrite X, Y. cbn [negb foldM]. unfold options. cbn [map filter]. rewrite app_nil_r.
    rewrite cast_keys; [now destruct (cast_all items [])|]. apply Forall_and; [now apply get_in, S|exact P]. }
  rewrite E. reflexivity.
Qed.

(** ---- saving ---- *)
Lemma checked_ok (f : text -> text) ks items : mapM (fun k => let* v := cfg_set k (f k) in Ok (k, v)) ks = Ok items ->
  Forall (fun kv => settable (snd kv) = true) items -> mapM (fun k => let* v := set_checked k (f k) in Ok (k, v)) ks = Ok items.
Proof.
  revert items. induction ks as [|k ks IH]; intros items H F; [exact H|]. cbn [mapM] in *. unfold set_checked at 1.
  destruct (cfg_set k (f k)) as [v|]; [|discriminate H]. cbn [bind] in *. destruct (mapM _ ks) as [vs|]; [|discriminate H]. cbn [bind] in H. injection H as <-.
  inversion F as [|? ? F1 F2]; subst. cbn [snd] in F1. rewrite F1. cbn [bind]. now rewrite (IH vs eq_refl F2).
Qed.
Lemma checked_bad (f : text -> text) ks items : mapM (fun k => let* v := cfg_set k (f k) in Ok (k, v)) ks = Ok items ->
  Exists (fun kv => settable (snd kv) = false) items -> mapM (fun k => let* v := set_checked k (f k) in Ok (k, v)) ks = Raise ValueError.
Proof.
  revert items. induction ks as [|k ks IH]; intros items H F; cbn [mapM] in *; [injection H as <-; inversion F|]. unfold set_checked at 1.
  destruct (cfg_set k (f k)) as [v|]; [|discriminate H]. cbn [bind] in *. destruct (mapM _ ks) as [vs|]; [|discriminate H]. cbn [bind] in H. injection H as <-.
  destruct (settable v) eqn:E; [|reflexivity]. cbn [bind]. inversion F as [? ? F1|? ? F2]; subst; [cbn [snd] in F1; congruence|]. now rewrite (IH vs eq_refl F2).
Qed.
Lemma mapM_keys (f : text -> res text) ks items : mapM (fun k => let* v := f k in Ok (k, v)) ks = Ok items -> map fst items = ks.
Proof.
  revert items. induction ks as [|k ks IH]; intros items H; cbn [mapM] in H; [now injection H as <-|]. destruct (f k); [|discriminate H]. cbn [bind] in H.
  destruct (mapM _ ks) as [vs|] eqn:E; [|discriminate H]. cbn [bind] in H. injection H as <-. cbn [map fst]. now rewrite (IH vs eq_refl).
Qed.

(** ---- the names of the settings are good ---- *)
Definition upperb (c : ascii) : bool := Nat.leb 65 (nat_of_ascii c) && Nat.leb (nat_of_ascii c) 90.
Definition key_charb (c : ascii) : bool := negb (is_blank c || delimiter c || upperb c || comment_char c || char_eqb c "["%char).
Definition good_keyb (k : text) : bool := match k with [] => false | _ => forallb key_charb k end.
Lemma good_keyb_ok k : good_keyb k = true -> good_key k.
Proof.
  intros H. assert (N : k <> []) by (intros ->; discriminate H). assert (F : forallb key_charb k = true) by (destruct k; [discriminate H|exact H]). clear H.
  rewrite forallb_forall in F.
  assert (A : forall c, In c k -> is_blank c = false /\ delimiter c = false /\ upperb c = false /\ comment_char c = false /\ char_eqb c "["%char = false).
  { intros c I. specialize (F c I). unfold key_charb in F. apply negb_true_iff in F. rewrite !orb_false_iff in F. tauto. }
  assert (B : forall c, In c k -> ~ blank c) by (intros c I D; apply blank_iff in D; destruct (A c I); congruence).
  split; [exact N|]. split; [|split; [|split]].
  - intros c I. split; intros E; apply (B c I); unfold blank; rewrite E; cbn; tauto.
  - split; intros r c ->; apply B; [now left|apply in_or_app; right; now left].
  - intros c I. destruct (A c I) as (_ & D & U & _). split.
    + intros J. cbn in J. destruct J as [<-|[<-|[]]]; discriminate D.
    + intros [X Y]. unfold upperb in U. apply Nat.leb_le in X, Y. rewrite X, Y in U. discriminate U.
  - intros c r ->. destruct (A c (or_introl eq_refl)) as (_ & _ & _ & C & E). intros J. cbn in J. destruct J as [<-|[<-|[<-|[]]]]; discriminate.
Qed.
Lemma keys_good : Forall good_key keys.
Proof. assert (H : forallb good_keyb keys = true) by (vm_compute; reflexivity). rewrite forallb_forall in H. apply Forall_forall. intros k I. now apply good_keyb_ok, H. Qed.
Fixpoint nodupb (l : list text) : bool := match l with [] => true | x :: r => negb (existsb (text_eqb x) r) && nodupb r end.
Lemma nodupb_ok l : nodupb l = true -> NoDup l.
Proof.
  induction l as [|x l IH]; intros H; [constructor|]. cbn [nodupb] in H. apply andb_true_iff in H as [A B]. constructor; [|now apply IH].
  intros I. apply negb_true_iff in A. assert (E : existsb (text_eqb x) l = true) by (apply existsb_exists; exists x; split; [exact I|now apply text_eqb_eq]). congruence.
Qed.
Lemma keys_nodup : NoDup keys.
Proof. apply nodupb_ok. vm_compute. reflexivity. Qed.
Lemma setup_good : good_section_name (txt "Setup").
Proof.
  split; [discriminate|]. split; [|split].
  - intros c I. cbn in I. destruct I as [<-|[<-|[<-|[<-|[<-|[]]]]]]; cbn; split; discriminate.
  - intros I. cbn in I. destruct I as [I|[I|[I|[I|[I|[]]]]]]; discriminate.
  - discriminate.
Qed.
Lemma written_good (f : text -> res text) items : mapM (fun k => let* v := f k in Ok (k, v)) keys = Ok items -> Forall (fun kv => good_value (snd kv)) items -> good_section items.
Proof.
  intros H F. pose proof (mapM_keys f keys items H) as K. split; [rewrite K; exact keys_nodup|]. apply Forall_and; [|exact F].
  pose proof keys_good as G. rewrite <- K in G. apply Forall_forall. intros kv I. rewrite Forall_forall in G. now apply G, in_map.
Qed.

(** ---- the texts of settings are plain ---- *)
Definition okc (c : ascii) : Prop := nat_of_ascii c <> 10%nat /\ nat_of_ascii c <> 13%nat /\ c <> "%"%char.
Definition okcb (c : ascii) : bool := negb (Nat.eqb (nat_of_ascii c) 10 || Nat.eqb (nat_of_ascii c) 13 || char_eqb c "%"%char).
Lemma okcb_ok s : forallb okcb s = true -> Forall okc s.
Proof.
  intros H. apply Forall_forall. intros c I. rewrite forallb_forall in H. specialize (H c I). unfold okcb in H. apply negb_true_iff in H.
  rewrite !orb_false_iff, !Nat.eqb_neq, cneq in H. unfold okc. tauto.
Qed.
Lemma ok_of s : oneline s -> no_percent s -> Forall okc s.
Proof. intros O P. apply Forall_forall. intros c I. destruct (O c I). repeat split; auto. intros ->. exact (P I). Qed.
Lemma plain_of s : Forall okc s -> trimmed s -> plain s.
Proof.
  intros F T. rewrite Forall_forall in F. split; [|split; [exact T|]]; [intros c I; split; apply (F c I)|intros I; now apply (F _ I)].
Qed.
Lemma digit_ok c : is_digit c = true -> okc c.
Proof.
  unfold is_digit, okc. intros H. apply andb_true_iff in H as [A B]. apply Nat.leb_le in A, B.
  split; [lia|]. split; [lia|]. intros ->. vm_compute in A. lia.
Qed.
Lemma ztext_ok z : Forall okc (z_text z).
Proof.
  assert (D : forall n, (0 <= n)%Z -> Forall okc (z_text n)).
  { intros n N. destruct (z_text_nat n N) as (_ & _ & F & _). eapply Forall_impl; [|exact F]. exact digit_ok. }
  destruct z as [|p|p]; [now apply D|now apply D|]. rewrite z_text_neg. constructor; [repeat split; discriminate|now apply D].
Qed.
Lemma commas_ok l : Forall (Forall okc) l -> Forall okc (commas l).
Proof.
  induction l as [|x l IH]; intros F; [constructor|]. inversion F as [|? ? F1 F2]; subst. cbn [commas]. destruct l as [|y l]; [exact F1|].
  apply Forall_app. split; [exact F1|]. apply Forall_app. split; [now apply okcb_ok|now apply IH].
Qed.
Lemma repr_ok : forall j, plain_json j -> Forall okc (json_repr j).
Proof.
  fix IH 1. intros [|b|z|s|l] H.
  - now apply okcb_ok.
  - destruct b; now apply okcb_ok.
  - apply ztext_ok.
  - cbn [json_repr]. destruct H as [A B]. apply Forall_app. split; [now apply okcb_ok|]. apply Forall_app. split; [now apply ok_of|now apply okcb_ok].
  - cbn [json_repr]. apply Forall_app. split; [now apply okcb_ok|]. apply Forall_app. split; [|now apply okcb_ok]. apply commas_ok.
    cbn [plain_json] in H. induction l as [|x l IHl]; [constructor|]. cbn [fold_right] in H. destruct H as [H1 H2]. cbn [map]. constructor; [now apply IH|now apply IHl].
Qed.
Lemma ends_trimmed a s b : ~ blank a -> ~ blank b -> trimmed ([a] ++ s ++ [b]).
Proof.
  intros A B. split.
  - intros r c E. injection E as <- _. exact A.
  - intros r c E. rewrite app_assoc in E. apply app_inj_tail in E as [_ <-]. exact B.
Qed.
Lemma nonblank_trimmed s : Forall (fun c => is_blank c = false) s -> trimmed s.
Proof.
  intros F. rewrite Forall_forall in F. split; intros r c -> D; apply blank_iff in D; rewrite F in D; try discriminate; [now left|apply in_or_app; right; now left].
Qed.
Lemma constb s : forallb okcb s = true -> match s with [] => true | c :: _ => negb (is_blank c) && negb (is_blank (last s c)) end = true -> plain s.
Proof.
  intros A B. apply plain_of; [now apply okcb_ok|]. split.
  - intros r c ->. apply andb_true_iff in B as [B _]. apply negb_true_iff in B. intros D. apply blank_iff in D. congruence.
  - intros r c ->. intros D. apply blank_iff in D. assert (X : forall d, last (r ++ [c]) d = c) by (intros d; apply last_last).
    destruct (r ++ [c]) as [|x y] eqn:E; [now destruct r|]. rewrite X, D, andb_false_r in B. discriminate B.
Qed.
Lemma str_plain v : plain_setting v -> plain (cval_str v).
Proof.
  destruct v as [|b|z|s|l|p|n]; intros H.
  - now apply constb.
  - destruct b; now apply constb.
  - apply plain_of; [apply ztext_ok|apply nonblank_trimmed, z_text_blank].
  - exact H.
  - apply plain_of; [now apply repr_ok|]. cbn [cval_str json_repr]. apply (ends_trimmed "["%char _ "]"%char); cbn; lia.
  - destruct p; now apply constb.
  - cbn [cval_str]. unfold lhs_class. destruct (text_eqb n (txt "ulcd")); now apply constb.
Qed.
Lemma list_index_in x l : forall i j, list_index x l i = Ok j -> In x l.
Proof.
  induction l as [|y l IH]; intros i j H; [discriminate H|]. cbn [list_index] in H. destruct (text_eqb x y) eqn:E; [apply text_eqb_eq in E; now left|right; now apply (IH _ _ H)].
Qed.
Lemma names_plain is : Forall (fun i => 0 <= i < nfuncs)%Z is -> plain (names is).
Proof.
  intros R. unfold names. cbn [jprint]. apply plain_of; [|apply (ends_trimmed "["%char _ "]"%char); cbn; lia].
  apply Forall_app. split; [now apply okcb_ok|]. apply Forall_app. split; [|now apply okcb_ok]. apply commas_ok. rewrite !map_map. apply Forall_map.
  eapply Forall_impl; [|exact R]. intros i I. cbv beta in I. cbn [jprint]. apply Forall_app. split; [now apply okcb_ok|]. apply Forall_app. split; [|now apply okcb_ok].
  assert (B : forallb (fun f => forallb okcb f) POSTPROC_FUNCS = true) by (vm_compute; reflexivity). rewrite forallb_forall in B.
  destruct (func_of i) as (f & Ff & _ & L); [lia|]. unfold fname. rewrite Ff. apply okcb_ok, B. apply list_index_in in L. exact L.
Qed.
Lemma plain_good v : plain v -> good_value v.
Proof.
  intros (O & T & _). exists v, []. split; [reflexivity|]. split; [constructor; [now split|constructor]|]. split; [constructor|apply T].
Qed.

(** What is written to a configuration file is read back (C142), and what a configuration file means (C143). *)
From Coq Require Import Ascii String ZArith List Bool Lia.
From Verif Require Import PyBase PyBase_Proofs Hashtable_Model Hashtable_Proofs Results_Model Config_Model Config_Json Config_Round Dist_Model Scripts_Model
  Ini_Model Spec_Ini Ini_Proofs Ini_Save.
Import ListNotations.
Local Open Scope res_scope.
Local Open Scope list_scope.

(** ---- C142 ---- *)
(** Sections with distinct names, whose settings have good names and values: the text that is written for them is read as
    the same sections, with the same settings in the same order. *)
Theorem C142_read_written secs : Forall (fun ns => good_section_name (fst ns) /\ good_section (snd ns)) secs -> NoDup (map fst secs) ->
  ini_read (ini_write secs) = Ok secs.
Proof. exact (read_written secs). Qed.
(** A loaded configuration whose texts are plain is saved, and loading the text of the file is loading what was saved. *)
Theorem C142_saved listdir items c : load listdir (Some items) = Ok c -> (forall k, In (txt k) (map fst CONFIG_PARAMS_TYPES) -> plain_setting (c_get c k)) ->
  exists items' t, save c = Ok items' /\ save_ini c = Ok t /\ forall listdir', load_ini listdir' (Some t) = load listdir' (Some items').
Proof.
  intros L P. destruct (load_inv _ _ _ L) as (c1 & p0 & hf & pf & op & _ & _ & _ & _ & _ & PF & FN).
  destruct (filter_indices _ _ PF) as (is & -> & R). assert (CF : cg c K_filter = CList (map JInt is)) by (rewrite FN; reflexivity).
  pose proof (save_ok c is CF R) as S. set (items' := map (fun k => (k, saved_text c is k)) keys) in *.
  assert (V : Forall (fun kv => plain (snd kv)) items').
  { apply Forall_map. apply Forall_forall. intros k I. cbn [snd]. unfold saved_text. destruct (text_eqb k K_filter); [now apply names_plain|]. apply str_plain.
    specialize (P (string_of_list_ascii k)). unfold c_get, txt in P. rewrite list_ascii_of_string_of_list_ascii in P. exact (P I). }
  exists items', (ini_write [(txt "Setup", items')]). split; [exact S|].
  assert (M : mapM (fun k => let* v := set_checked k (cval_str (match d_get text_eqb c k with Some v => v | None => CNone end)) in Ok (k, v)) (map fst CONFIG_PARAMS_TYPES) = Ok items').
  { apply checked_ok; [exact S|]. eapply Forall_impl; [|exact V]. intros kv (_ & _ & N). now apply settable_plain. }
  split; [unfold save_ini; now rewrite M|]. intros listdir'. apply load_written; [exact setup_good| |].
  - apply (written_good (fun k => set_checked k (cval_str (match d_get text_eqb c k with Some v => v | None => CNone end))) _ M). eapply Forall_impl; [|exact V]. intros kv H. now apply plain_good.
  - eapply Forall_impl; [|exact V]. intros kv H. apply H.
Qed.
(** The same for the files that distribute_run.py writes, given that the texts written are good. *)
Theorem C142_jobs c i j items : job_items c i j = Ok items -> Forall (fun kv => good_value (snd kv) /\ no_percent (snd kv)) items ->
  exists t, job_ini c i j = Ok t /\ forall listdir, load_ini listdir (Some t) = load listdir (Some items).
Proof.
  intros S V. exists (ini_write [(txt "Setup", items)]).
  assert (M : mapM (fun k => let* v := set_checked k (job_text c i j k) in Ok (k, v)) (map fst CONFIG_PARAMS_TYPES) = Ok items).
  { apply checked_ok; [exact S|]. eapply Forall_impl; [|exact V]. intros kv [_ N]. now apply settable_plain. }
  split; [unfold job_ini; now rewrite M|]. intros listdir. apply load_written; [exact setup_good| |].
  - apply (written_good (fun k => set_checked k (job_text c i j k)) _ M). eapply Forall_impl; [|exact V]. now intros kv [].
  - eapply Forall_impl; [|exact V]. now intros kv [].
Qed.
(** A text with a lone percent sign cannot be saved: the run ends in a ValueError after its results have been written. *)
Theorem C142_lone_percent c items k v : save c = Ok items -> In (k, v) items -> lone_percent v -> save_ini c = Raise ValueError.
Proof.
  intros S I L. unfold save_ini. rewrite (checked_bad _ _ _ S); [reflexivity|]. apply Exists_exists. exists (k, v). split; [exact I|]. now apply settable_lone.
Qed.
(** A file as its lines. *)
Definition file_of (ls : list string) : text := text_of (map txt ls).
Definition small (hf : string) : text := file_of
  ["[Setup]"; "; a comment"; "const=pi"; "i : 3"; "a_coeffs_range = [[[1, 5]],"; "    # inside a value"; "  [[2, 3]]]"; "";
   "postproc_funcs_filter=[""safe_sqrt""]"; "hashtable_file_operation=use"; ("hashtable_file=" ++ hf)]%string.
(** Such a name of a table can come from a file: there the percent sign is doubled. With two doubled percent signs the
    configuration is saved, but under another name of the table. *)
Theorem C142_percent_refuted : exists listdir c c2 t2 c3,
  load_ini listdir (Some (small "100%%")) = Ok c /\ c_get c "hashtable_file" = CStr (txt "./100%_v1.pkl") /\ save_ini c = Raise ValueError /\
  load_ini listdir (Some (small "a%%%%b")) = Ok c2 /\ c_get c2 "hashtable_file" = CStr (txt "./a%%b_v1.pkl") /\ save_ini c2 = Ok t2 /\
  load_ini listdir (Some t2) = Ok c3 /\ c_get c3 "hashtable_file" <> c_get c2 "hashtable_file".
Proof.
  exists (fun _ => map txt ["100%_v1.pkl"; "a%%b_v1.pkl"; "a%b_v1.pkl"]%string). eexists. eexists. eexists. eexists.
  split; [vm_compute; reflexivity|]. split; [vm_compute; reflexivity|]. split; [vm_compute; reflexivity|].
  split; [vm_compute; reflexivity|]. split; [vm_compute; reflexivity|]. split; [vm_compute; reflexivity|].
  split; [vm_compute; reflexivity|]. vm_compute. discriminate.
Qed.
Example C142_ex : exists c t, load_ini (fun _ => [txt "t_v3.pkl"]) (Some (small "t")) = Ok c /\
  c_get c "a_coeffs_range" = CList [JList [JList [JInt 1; JInt 5]]; JList [JList [JInt 2; JInt 3]]] /\
  Forall (fun k => match c_get c k with CNone | CBool _ | CInt _ | CList _ | CStr _ => True | _ => False end) (map string_of_list_ascii (map fst CONFIG_PARAMS_TYPES)) /\
  plain_setting (c_get c "hashtable_file") /\ save_ini c = Ok t /\ firstn 40 t = txt "[Setup]" ++ [nl] ++ txt "const = pi" ++ [nl] ++ txt "ab_polys_type = None" ++ [nl].
Proof.
  eexists. eexists. split; [vm_compute; reflexivity|]. split; [vm_compute; reflexivity|]. split; [vm_compute; repeat constructor|].
  split; [|split; vm_compute; reflexivity]. apply constb; vm_compute; reflexivity.
Qed.
Example C142_lines_ex : good_value (txt "one" ++ [nl] ++ txt "two; three") /\ ~ good_value (txt "one" ++ [nl] ++ txt "; two") /\
  ini_read (ini_write [(txt "S", [(txt "k", txt "one" ++ [nl] ++ txt "; two")])]) = Ok [(txt "S", [(txt "k", txt "one")])].
Proof.
  split; [|split; [|vm_compute; reflexivity]].
  - exists (txt "one"), [txt "two; three"]. split; [reflexivity|]. split; [|split].
    + constructor; [|constructor; [|constructor]]; (split; [apply (constb _); vm_compute; reflexivity|apply (constb _); vm_compute; reflexivity]).
    + constructor; [|constructor]. intros r c E. injection E as <- _. cbn. intros [E|[E|[]]]; discriminate.
    + intros r c E. change (txt "one" ++ [nl] ++ txt "two; three") with ((txt "one" ++ [nl] ++ txt "two; thre") ++ ["e"%char]) in E. apply app_inj_tail in E as [_ <-]. cbn. lia.
  - intros (l & ls & E & F & C & _). destruct ls as [|l2 ls].
    + cbn [unlines] in E. subst l. inversion F as [|? ? [O _] _]; subst. specialize (O nl). cbn in O. destruct O as [O _]; [tauto|]. now apply O.
    + assert (X : cut_at (char_eqb nl) (txt "one" ++ [nl] ++ txt "; two") = Some (l, unlines l2 ls)).
      { rewrite E. cbn [unlines]. apply cut_first; [|reflexivity]. intros x I. inversion F as [|? ? [O _] _]; subst. apply cneq. intros <-. apply (proj1 (O nl I)). reflexivity. }
      vm_compute in X. injection X as _ X. inversion C as [|? ? C1 C2]; subst. destruct l2 as [|c l2].
      * destruct ls; cbn [unlines] in X; discriminate X.
      * assert (c = ";"%char) by (destruct ls; cbn [unlines app] in X; now injection X). subst c. apply (C1 l2 ";"%char eq_refl). cbn. tauto.
Qed.

(** ---- C143 ---- *)
Lemma lstrip_blanks b s : Forall blank b -> lstrip (b ++ s) = lstrip s.
Proof. induction b as [|c b IH]; intros F; [reflexivity|]. inversion F as [|? ? F1 F2]; subst. cbn [app lstrip]. rewrite (proj2 (blank_iff c) F1). now apply IH. Qed.
Lemma rstrip_cons c r : is_blank c = false -> rstrip (c :: r) = c :: rstrip r.
Proof.
  intros H. unfold rstrip. cbn [rev]. assert (E : forall x, lstrip (x ++ [c]) = lstrip x ++ [c]).
  { induction x as [|d x IH]; cbn [app lstrip]; [now rewrite H|]. destruct (is_blank d); [exact IH|reflexivity]. }
  rewrite E, rev_app_distr. reflexivity.
Qed.
Lemma comment_line r l : comment l -> read_line r l = Ok r.
Proof.
  intros (_ & b & c & s & -> & B & I). unfold read_line.
  assert (N : is_blank c = false) by (cbn in I; destruct I as [<-|[<-|[]]]; reflexivity).
  rewrite strip_r, (lstrip_blanks _ _ B). cbn [lstrip]. rewrite N, (rstrip_cons _ _ N).
  assert (C : comment_char c = true) by (cbn in I; destruct I as [<-|[<-|[]]]; reflexivity). now rewrite C.
Qed.
Lemma universal_split n : forall a, (length a <= n)%nat -> exists a', forall x, universal (a ++ nl :: x) = a' ++ nl :: universal x.
Proof.
  induction n as [|n IH]; intros a H.
  - destruct a; [|cbn in H; lia]. exists []. reflexivity.
  - destruct a as [|c a]; [exists []; reflexivity|]. cbn in H. destruct (char_eqb c cr) eqn:E.
    + destruct a as [|d a]; [exists []; intros x; cbn [app universal]; rewrite E, crefl; reflexivity|]. cbn in H. destruct (char_eqb d nl) eqn:D.
      * destruct (IH a) as [a' A]; [lia|]. exists (nl :: a'). intros x. cbn [app universal]. rewrite E, D, A. reflexivity.
      * destruct (IH (d :: a)) as [a' A]; [cbn; lia|]. exists (nl :: a'). intros x. specialize (A x). cbn [app] in *. cbn [universal] in *. rewrite E, D. rewrite A. reflexivity.
    + destruct (IH a) as [a' A]; [lia|]. exists (c :: a'). intros x. cbn [app universal]. rewrite E, A. reflexivity.
Qed.
Lemma universal_oneline l x : oneline l -> universal (l ++ nl :: x) = l ++ nl :: universal x.
Proof.
  induction l as [|c l IH]; intros H; [reflexivity|]. apply oneline_cons in H as [[_ A] B]. cbn [app universal]. rewrite (cr_code _ A), (IH B). reflexivity.
Qed.
Lemma lines_split a x : file_lines (a ++ nl :: x) = file_lines (a ++ [nl]) ++ file_lines x.
Proof.
  induction a as [|c a IH]; cbn [app file_lines]; [now rewrite crefl|]. rewrite IH. destruct (char_eqb c nl); [reflexivity|].
  destruct (file_lines (a ++ [nl])) as [|l ls] eqn:E; [|reflexivity]. exfalso. destruct a as [|d a]; cbn [app file_lines] in E; [rewrite crefl in E; discriminate E|].
  destruct (char_eqb d nl); [discriminate E|]. destruct (file_lines (a ++ [nl])); discriminate E.
Qed.
(** All the lines of a file, after a text that ends with a newline. *)
Lemma read_after a : exists r0, forall x, ini_read (a ++ nl :: x) = (let* r := (let* r := r0 in foldM read_line (file_lines (universal x)) r) in
  if r_bad r then Raise RuntimeError else Ok (map (fun '(n, s) => (n, map (fun '(k, ls) => (k, rstrip (join_lines ls))) s)) (r_secs r))).
Proof.
  destruct (universal_split (length a) a (le_n _)) as [a' A]. exists (foldM read_line (file_lines (a' ++ [nl])) {| r_secs := []; r_cur := None; r_opt := []; r_ind := 0; r_bad := false |}).
  intros x. unfold ini_read. rewrite A, lines_split, foldM_app. reflexivity.
Qed.
Lemma line_first l x : oneline l -> file_lines (universal (l ++ nl :: x)) = l :: file_lines (universal x).
Proof. intros H. rewrite universal_oneline by exact H. now apply lines_app. Qed.
(** A comment line says nothing, wherever it stands, also inside a value. *)
Theorem C143_comments a l b : comment l -> ini_read (a ++ ascii_of_nat 10 :: l ++ ascii_of_nat 10 :: b) = ini_read (a ++ ascii_of_nat 10 :: b) /\
  ini_read (l ++ ascii_of_nat 10 :: b) = ini_read b.
Proof.
  intros C. change (ascii_of_nat 10) with nl. split.
  - destruct (read_after a) as [r0 R]. rewrite !R. f_equal. destruct r0 as [r|e]; [|reflexivity]. cbn [bind]. rewrite (line_first _ _ (proj1 C)). cbn [foldM].
    now rewrite (comment_line _ _ C).
  - unfold ini_read. rewrite (line_first _ _ (proj1 C)). cbn [foldM]. now rewrite (comment_line _ _ C).
Qed.
(** All errors are errors of configparser. *)
Lemma read_line_raise r l e : read_line r l = Raise e -> e = RuntimeError.
Proof.
  unfold read_line. destruct (strip l) as [|c v]; [discriminate|]. destruct (comment_char c); [discriminate|]. destruct (if Nat.ltb _ _ then _ else _); [discriminate|].
  unfold start_line. destruct (header _); [destruct (_ && _); [now intros [= <-]|discriminate]|]. destruct (r_cur r); [|now intros [= <-]].
  destruct (cut_at _ _) as [[k w]|]; [|discriminate]. destruct (d_mem _ _ _); [now intros [= <-]|discriminate].
Qed.
Lemma fold_raise ls : forall r e, foldM read_line ls r = Raise e -> e = RuntimeError.
Proof.
  induction ls as [|l ls IH]; intros r e H; [discriminate H|]. cbn [foldM] in H. destruct (read_line r l) as [r'|e'] eqn:E; cbn [bind] in H; [now apply (IH r')|].
  injection H as <-. now apply (read_line_raise r l).
Qed.
Lemma read_raise t e : ini_read t = Raise e -> e = RuntimeError.
Proof.
  unfold ini_read. destruct (foldM _ _ _) as [r|e'] eqn:E; cbn [bind]; [destruct (r_bad r); [now intros [= <-]|discriminate]|]. intros [= <-]. now apply fold_raise in E.
Qed.
(** The present section has this setting. *)
Definition inside (k : text) (r : reader) : Prop := exists n s, r_cur r = Some n /\ d_get text_eqb (r_secs r) n = Some s /\ d_mem text_eqb s k = true.
Lemma mem_set {A} (d : list (text * A)) k k' v : d_mem text_eqb d k = true -> d_mem text_eqb (d_set text_eqb d k' v) k = true.
Proof.
  unfold d_mem. destruct (text_eqb k k') eqn:E.
  - apply text_eqb_eq in E. subst. now rewrite (d_get_set_same text_eqb text_eqb_eq).
  - rewrite (d_get_set_other text_eqb text_eqb_eq); [easy|]. intros ->. now rewrite (proj2 (text_eqb_eq k' k') eq_refl) in E.
Qed.
Lemma inside_put r n k k' ls : r_cur r = Some n -> (exists s, d_get text_eqb (r_secs r) n = Some s /\ d_mem text_eqb s k = true) ->
  exists s, d_get text_eqb (put r n k' ls) n = Some s /\ d_mem text_eqb s k = true.
Proof.
  intros _ (s & G & M). unfold put. rewrite (d_get_set_same text_eqb text_eqb_eq). eexists. split; [reflexivity|]. unfold sec_of. rewrite G. now apply mem_set.
Qed.
Lemma inside_line k r l r' : no_header l -> inside k r -> read_line r l = Ok r' -> inside k r'.
Proof.
  intros [O H] (n & s & C & G & M) R. unfold read_line in R. destruct (strip l) as [|c v] eqn:S.
  - injection R as <-. unfold add_line. rewrite C. destruct (r_opt r) as [|o1 o] eqn:OO; [exists n, s; auto|].
    destruct (inside_put r n k (r_opt r) ((match d_get text_eqb (sec_of r n) (o1 :: o) with Some ls => ls | None => [] end) ++ [[]]) C (ex_intro _ s (conj G M))) as (s' & G' & M').
    rewrite OO in G'. exists n, s'. auto.
  - destruct (comment_char c); [injection R as <-; exists n, s; auto|].
    destruct (if Nat.ltb (r_ind r) (indent l) then add_line r (c :: v) else None) as [r1|] eqn:A.
    + injection R as <-. destruct (Nat.ltb (r_ind r) (indent l)); [|discriminate A]. unfold add_line in A. rewrite C in A. destruct (r_opt r) as [|o1 o] eqn:OO; [discriminate A|].
      injection A as <-. destruct (inside_put r n k (o1 :: o) ((match d_get text_eqb (sec_of r n) (o1 :: o) with Some ls => ls | None => [] end) ++ [c :: v]) C (ex_intro _ s (conj G M))) as (s' & G' & M').
      exists n, s'. auto.
    + unfold start_line in R. assert (NH : header (c :: v) = None).
      { unfold header. destruct (char_eqb c "["%char) eqn:E; [|reflexivity]. exfalso. apply ceq in E. subst c.
        assert (B : exists b x, Forall blank b /\ l = b ++ x /\ lstrip l = x).
        { clear. induction l as [|c l IH]; [exists [], []; auto|]. cbn [lstrip]. destruct (is_blank c) eqn:E; [|exists [], (c :: l); auto].
          destruct IH as (b & x & F & -> & L). exists (c :: b), x. repeat split; auto. constructor; [now apply blank_iff|exact F]. }
        destruct B as (b & x & F & E & L). rewrite strip_r, L in S. destruct x as [|d x]; [discriminate S|].
        destruct (is_blank d) eqn:D.
        - assert (X : lstrip (d :: x) = d :: x). { rewrite E, lstrip_blanks in L by exact F. exact L. } cbn [lstrip] in X. rewrite D in X.
          assert (Y : (length (lstrip x) <= length x)%nat) by (clear; induction x as [|c x IH]; cbn [lstrip]; [lia|]; destruct (is_blank c); cbn; lia).
          rewrite X in Y. cbn in Y. lia.
        - rewrite (rstrip_cons _ _ D) in S. injection S as -> _. now apply (H b x F). }
      rewrite NH, C in R. destruct (cut_at delimiter (c :: v)) as [[k' w]|]; [|injection R as <-; exists n, s; auto].
      destruct (d_mem text_eqb (sec_of r n) (lower (rstrip k'))); [discriminate R|]. injection R as <-.
      destruct (inside_put r n k (lower (rstrip k')) [strip w] C (ex_intro _ s (conj G M))) as (s' & G' & M'). exists n, s'. auto.
Qed.
Lemma sets_line k l r : good_key k -> sets k l -> read_line r l = Raise RuntimeError \/ exists r', read_line r l = Ok r' /\ inside k r' /\ ~ inside k r /\ r_cur r <> None.
Proof.
  intros G (d & v & -> & D & O). pose proof G as (N & _ & (A & B) & K & H). destruct k as [|c k]; [now elim N|].
  assert (NB : is_blank c = false) by (apply blank_not; now apply (A k)).
  assert (ND : is_blank d = false) by (cbn in D; destruct D as [<-|[<-|[]]]; reflexivity).
  assert (S : exists v', strip ((c :: k) ++ d :: v) = (c :: k) ++ d :: v').
  { rewrite strip_r, lstrip_id by (apply trim_start_app; [discriminate|exact A]). exists (rstrip v). unfold rstrip. rewrite rev_app_distr. cbn [rev]. rewrite <- !app_assoc.
    assert (E : forall x y, lstrip (x ++ d :: y) = lstrip x ++ d :: y).
    { intros x y. induction x as [|e x IH]; cbn [app lstrip]; [now rewrite ND|]. destruct (is_blank e); [exact IH|reflexivity]. }
    cbn [app]. rewrite E, rev_app_distr. cbn [rev]. rewrite rev_app_distr, rev_involutive. cbn [rev app]. rewrite <- !app_assoc. reflexivity. }
  destruct S as [v' S]. unfold read_line. rewrite S. cbn [app]. pose proof (H c k eq_refl) as H'.
  assert (X : comment_char c = false) by (unfold comment_char; apply orb_false_iff; split; apply cneq; intros ->; apply H'; cbn; auto).
  rewrite X. cbn [indent]. rewrite NB. change (Nat.ltb (r_ind r) 0) with false. cbv iota. unfold start_line, header.
  assert (Y : char_eqb c "["%char = false) by (apply cneq; intros ->; apply H'; cbn; auto). rewrite Y.
  destruct (r_cur r) as [n|] eqn:C; [|now left].
  assert (Z : cut_at delimiter (c :: k ++ d :: v') = Some (c :: k, v')).
  { apply (cut_first delimiter (c :: k)); [|cbn in D; destruct D as [<-|[<-|[]]]; reflexivity]. intros x I. destruct (K x I) as [K' _]. unfold delimiter.
    apply orb_false_iff. split; apply cneq; intros ->; apply K'; cbn; auto. }
  rewrite Z, (rstrip_id _ B), lower_id by (intros x I; now apply K). destruct (d_mem text_eqb (sec_of r n) (c :: k)) eqn:M; [now left|]. right. eexists. split; [reflexivity|]. split.
  - exists n, (d_set text_eqb (sec_of r n) (c :: k) [strip v']). cbn [r_cur r_secs]. split; [reflexivity|]. unfold put. rewrite (d_get_set_same text_eqb text_eqb_eq). split; [reflexivity|].
    unfold d_mem. now rewrite (d_get_set_same text_eqb text_eqb_eq).
  - split; [|discriminate]. intros (n' & s & C' & G' & M'). rewrite C in C'. injection C' as <-. unfold sec_of in M. rewrite G' in M. congruence.
Qed.
Lemma inside_lines k ls : Forall no_header ls -> forall r r', inside k r -> foldM read_line ls r = Ok r' -> inside k r'.
Proof.
  induction ls as [|l ls IH]; intros F r r' I R; [now injection R as <-|]. inversion F as [|? ? F1 F2]; subst. cbn [foldM] in R.
  destruct (read_line r l) as [r1|] eqn:E; [|discriminate R]. apply (IH F2 r1 r'); [now apply (inside_line k r l)|exact R].
Qed.
Lemma text_lines ls x : Forall oneline ls -> file_lines (universal (text_of ls ++ x)) = ls ++ file_lines (universal x).
Proof.
  induction ls as [|l ls IH]; intros F; [reflexivity|]. inversion F as [|? ? F1 F2]; subst. unfold text_of in *. cbn [flat_map].
  change (ascii_of_nat 10) with nl in *. rewrite <- !app_assoc. cbn [app]. rewrite (line_first _ _ F1), (IH F2). reflexivity.
Qed.
(** A setting that is given twice in a section is an error: neither value is used. *)
Theorem C143_given_twice a k l ms l' b : good_key k -> sets k l -> sets k l' -> Forall no_header ms ->
  ini_read (a ++ ascii_of_nat 10 :: text_of (l :: ms ++ [l']) ++ b) = Raise RuntimeError.
Proof.
  intros G S S' F. change (ascii_of_nat 10) with nl. destruct (read_after a) as [r0 R]. destruct (ini_read _) as [s|e] eqn:X; [exfalso|now rewrite (read_raise _ _ X)].
  rewrite R in X. destruct r0 as [r|e]; [|discriminate X]. cbn [bind] in X.
  assert (OL : forall x, sets k x -> oneline x).
  { intros x (d & v & -> & D & O). apply oneline_app. split; [apply G|]. apply oneline_cons. split; [|exact O]. cbn in D. destruct D as [<-|[<-|[]]]; cbn; split; discriminate. }
  rewrite text_lines in X.
  2:{ constructor; [now apply OL|]. apply Forall_app. split; [eapply Forall_impl; [|exact F]; intros x H; apply H|constructor; [now apply OL|constructor]]. }
  cbn [app foldM] in X. destruct (sets_line k l r G S) as [E|(r1 & E & I & _)]; rewrite E in X; [discriminate X|]. cbn [bind] in X. rewrite <- app_assoc, foldM_app in X.
  destruct (foldM read_line ms r1) as [r2|] eqn:M; [|discriminate X]. cbn [bind app foldM] in X. pose proof (inside_lines k ms F r1 r2 I M) as I2.
  destruct (sets_line k l' r2 G S') as [E2|(r3 & _ & _ & N & _)]; [rewrite E2 in X; discriminate X|now apply N].
Qed.
(** Nothing may be set before the first section. *)
Theorem C143_no_section ls k l b : Forall (fun x => comment x \/ empty_line x) ls -> good_key k -> sets k l ->
  ini_read (text_of (ls ++ [l]) ++ b) = Raise RuntimeError.
Proof.
  intros F G S. destruct (ini_read _) as [s|e] eqn:X; [exfalso|now rewrite (read_raise _ _ X)]. unfold ini_read in X.
  assert (OL : oneline l).
  { destruct S as (d & v & -> & D & O). apply oneline_app. split; [apply G|]. apply oneline_cons. split; [|exact O]. cbn in D. destruct D as [<-|[<-|[]]]; cbn; split; discriminate. }
  rewrite text_lines in X.
  2:{ apply Forall_app. split; [eapply Forall_impl; [|exact F]; intros x [H|H]; apply H|constructor; [exact OL|constructor]]. }
  rewrite <- app_assoc, foldM_app in X. set (r0 := {| r_secs := []; r_cur := None; r_opt := []; r_ind := 0; r_bad := false |}) in X.
  assert (E : foldM read_line ls r0 = Ok r0).
  { clear X. induction ls as [|x ls IH]; [reflexivity|]. inversion F as [|? ? F1 F2]; subst. cbn [foldM]. assert (E : read_line r0 x = Ok r0).
    { destruct F1 as [C|[_ B]]; [now apply comment_line|]. unfold read_line. rewrite strip_r. pose proof (lstrip_blanks x [] B) as L. rewrite app_nil_r in L. rewrite L. reflexivity. }
    rewrite E. now apply IH. }
  rewrite E in X. cbn [bind app foldM] in X. destruct (sets_line k l r0 G S) as [E2|(r1 & _ & _ & _ & N)]; [rewrite E2 in X; discriminate X|now apply N].
Qed.
(** A semicolon after a value is part of the value: there are no comments at the end of a line. *)
Theorem C143_end_of_line_comment_refuted : exists t, let f (e : string) := file_of ["[Setup]"; "const=pi" ++ e]%string in
  t = f " ; the constant"%string /\ ini_read (f ""%string) = Ok [(txt "Setup", [(txt "const", txt "pi")])] /\
  ini_read t = Ok [(txt "Setup", [(txt "const", txt "pi ; the constant")])].
Proof. eexists. split; [reflexivity|]. split; vm_compute; reflexivity. Qed.
(** A setting on a line of its own that is indented more than the setting before it is lost in the value of that one. *)
Theorem C143_indented_refuted : exists t, t = file_of ["[Setup]"; "const=pi"; "  i=3"]%string /\ sets (txt "i") (txt "i=3") /\
  ini_read t = Ok [(txt "Setup", [(txt "const", txt "pi" ++ [nl] ++ txt "i=3")])].
Proof.
  eexists. split; [reflexivity|]. split; [|vm_compute; reflexivity]. exists "="%char, (txt "3"). split; [reflexivity|]. split; [now left|]. intros c [<-|[]]. cbn. split; discriminate.
Qed.
Example C143_ex : comment (txt "  ; note") /\ good_key (txt "const") /\ sets (txt "const") (txt "const= e") /\ no_header (txt "i = 3 ; [x]") /\ empty_line (txt "  ") /\
  ini_read (file_of ["# settings"; "[Setup]"; "Const = pi"; "  ; note"; "file = %(const)s"]%string) = Ok [(txt "Setup", [(txt "const", txt "pi"); (txt "file", txt "%(const)s")])] /\
  interpolate 10 (lookup [] [(txt "const", txt "pi")]) (txt "%(CONST)s_100%%") = Ok (txt "pi_100%") /\
  ini_read (file_of ["[Setup]"; "const=pi"; "i = 3 ; [x]"; "const= e"]%string) = Raise RuntimeError /\
  ini_read (file_of ["; settings"; "  "; "const= e"; "[Setup]"]%string) = Raise RuntimeError.
Proof.
  assert (O : forall s, forallb okcb (txt s) = true -> oneline (txt s)).
  { intros s H c I. pose proof (okcb_ok _ H) as F. rewrite Forall_forall in F. split; apply (F c I). }
  split; [|split; [|split; [|split; [|split; [|vm_compute; tauto]]]]].
  - split; [now apply O|]. exists (txt "  "), ";"%char, (txt " note"). split; [reflexivity|]. split; [repeat constructor; cbn; tauto|cbn; tauto].
  - now apply good_keyb_ok.
  - exists "="%char, (txt " e"). split; [reflexivity|]. split; [now left|now apply O].
  - split; [now apply O|]. intros [|c b] r F E; [discriminate E|]. inversion F as [|? ? B _]; subst. injection E as <- _. cbn in B. lia.
  - split; [now apply O|]. repeat constructor; cbn; tauto.
Qed.

Print Assumptions C142_read_written.
Print Assumptions C142_saved.
Print Assumptions C142_jobs.
Print Assumptions C142_lone_percent.
Print Assumptions C142_percent_refuted.
Print Assumptions C143_comments.
Print Assumptions C143_given_twice.
Print Assumptions C143_no_section.
Print Assumptions C143_end_of_line_comment_refuted.
Print Assumptions C143_indented_refuted.

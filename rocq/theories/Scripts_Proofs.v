(** Lemmas about the scripts. *)
From Coq Require Import Ascii String ZArith QArith List Bool Lia.
From Verif Require Import PyBase PyBase_Proofs Rnd Hashtable_Model Hashtable_Proofs ULCD_Model Rational_Model MITM_Model Results_Model Config_Model
  Spec_MITM Spec_ULCD Spec_Config Config_Proofs Config_Json Config_Files Config_Round Dist_Model Main_Model Spec_Main Scripts_Model Spec_Scripts.
From Coq Require Qcanon.
From Verif Require Rational_Proofs Rational_Latex Main_Proofs.
Import ListNotations.
Local Open Scope Z_scope.
Local Open Scope list_scope.
Local Open Scope res_scope.

Lemma teq_refl a : text_eqb a a = true.
Proof. now apply text_eqb_eq. Qed.
Lemma part_under i p : In "_"%char (part_name i p).
Proof. unfold part_name. rewrite !in_app_iff. right. left. now left. Qed.
Lemma path_under h : In "_"%char h -> castf path_parser h = Ok (CStr (lower (strip h))).
Proof.
  intros I. assert (X : In "_"%char (lower (strip h))).
  { unfold lower. apply in_map_iff. exists "_"%char. split; [reflexivity|]. now apply strip_keeps. }
  set (n := lower (strip h)) in *. assert (Y : forall w, ~ In "_"%char w -> text_eqb n w = false).
  { intros w W. destruct (text_eqb n w) eqn:E; [|reflexivity]. apply text_eqb_eq in E. rewrite E in X. contradiction. }
  unfold castf. rewrite strip_lower. fold n. rewrite Y by (cbn; intuition discriminate).
  unfold path_parser, string_parser. fold n. cbv zeta. rewrite !Y; [reflexivity|..]; cbn; intuition discriminate.
Qed.

(** ---- the settings of a job ---- *)
Definition K_a := txt "a_coeffs_range".
Definition K_b := txt "b_coeffs_range".
Definition job_saved (c : config) (is : list Z) (i : Z) (j : job) (k : text) : text := if text_eqb k K_filter then names is else job_text c i j k.
Lemma job_text_eq c i j k : job_text c i j k =
  if text_eqb k K_a then cval_str (CList (ranges_json (fst j))) else if text_eqb k K_b then cval_str (CList (ranges_json (snd j)))
  else if text_eqb k K_file then part_name i (cval_str (cg c k)) else cval_str (cg c k).
Proof. reflexivity. Qed.
Lemma job_items_ok c is i j : cg c K_filter = CList (map JInt is) -> Forall (fun i => 0 <= i < nfuncs) is ->
  job_items c i j = Ok (map (fun k => (k, job_saved c is i j k)) keys).
Proof.
  intros F R. unfold job_items. fold keys. apply mapM_ok. intros k _. unfold job_saved. destruct (text_eqb k K_filter) eqn:E.
  - apply text_eqb_eq in E. subst k. rewrite job_text_eq. change (text_eqb K_filter K_a) with false. change (text_eqb K_filter K_b) with false.
    change (text_eqb K_filter K_file) with false. cbv iota. rewrite F, filter_set; [reflexivity|]. eapply Forall_impl; [|exact R]. cbv beta. intros; lia.
  - unfold cfg_set. fold K_filter. now rewrite E.
Qed.
Lemma ranges_plain r : plain_val (CList (ranges_json r)).
Proof.
  cbn [plain_val]. induction r as [|p r IH]; cbn [ranges_json map ints fold_right]; [exact I|]. split; [|exact IH].
  clear IH. induction p as [|ab p IH]; cbn [map ints fold_right]; [exact I|]. split; [cbn; tauto|exact IH].
Qed.
Lemma key_a : In (K_a, json_parser) CONFIG_PARAMS_TYPES. Proof. cbn; tauto. Qed.
Lemma key_b : In (K_b, json_parser) CONFIG_PARAMS_TYPES. Proof. cbn; tauto. Qed.

Section Jobs.
  Variables (listdir listdir' : text -> list text) (items : list (text * text)) (c : config).
  Hypothesis L : load listdir (Some items) = Ok c.
  Lemma loaded_parts : exists hf op is, cg c K_file = CStr hf /\ cg c K_op = CStr op /\ is_op op /\ cg c K_filter = CList (map JInt is) /\
    Forall (fun i => 0 <= i < nfuncs) is /\
    (match cg c K_only with CStr s => text_eqb s (txt "auto") = false | _ => True end) /\
    (forall k, In k keys -> k <> K_file -> k <> K_filter -> k <> K_lhs -> ~ In k json_keys -> cast_param_val k (cval_str (cg c k)) = Ok (cg c k)) /\
    good lhs_type_parser (cg c K_lhs).
  Proof.
    destruct (load_inv _ _ _ L) as (c1 & p0 & hf & pf & op & C & F & O & IO & G & P & FN).
    destruct (filter_indices _ _ P) as (is & -> & R). exists hf, op, is. rewrite !FN.
    split; [reflexivity|]. split; [exact O|]. split; [exact IO|]. split; [reflexivity|]. split; [exact R|]. split; [apply not_auto|]. split.
    - intros k I N1 N2 N3 N4. rewrite !FN. eapply simple_again; eauto.
    - rewrite lhs_final. exact (loaded_good items c1 K_lhs lhs_type_parser C key_lhs).
  Qed.
  Lemma job_back i j : cg c K_lhs = CNone -> plain_val (cg c (txt "ab_polys_special_params")) -> plain_val (cg c (txt "lhs_params")) ->
    exists its hf op, job_items c i j = Ok its /\ cg c K_file = CStr hf /\ cg c K_op = CStr op /\
    forall p', gen_hashtable_filename listdir' (text_eqb op (txt "generate")) (lower (strip (part_name i hf))) = Ok p' ->
    exists c', load listdir' (Some its) = Ok c' /\ cg c' K_file = CStr p' /\ cg c' K_a = CList (ranges_json (fst j)) /\ cg c' K_b = CList (ranges_json (snd j)) /\
      forall k, In k keys -> ~ In k [K_file; K_a; K_b] -> cg c' k = cg c k.
  Proof.
    intros NL PS PL. destruct loaded_parts as (hf & op & is & CP & CO & IO & CF & R & NA & SA & _).
    assert (R2 : Forall (fun i => - nfuncs <= i < nfuncs) is) by (eapply Forall_impl; [|exact R]; cbv beta; intros; lia).
    destruct (filter_back is R2) as (fv & FB1 & FB2). rewrite (mod_id is R) in FB2.
    set (x := fun k => if text_eqb k K_file then CStr (lower (strip (part_name i hf))) else if text_eqb k K_filter then fv
      else if text_eqb k K_a then CList (ranges_json (fst j)) else if text_eqb k K_b then CList (ranges_json (snd j)) else cg c k).
    assert (A : forall k, In k keys -> cast_param_val k (job_saved c is i j k) = Ok (x k)).
    { intros k I. unfold job_saved, x. rewrite job_text_eq. destruct (text_eqb k K_file) eqn:E1.
      - apply text_eqb_eq in E1. subst k. change (text_eqb K_file K_filter) with false. change (text_eqb K_file K_a) with false. change (text_eqb K_file K_b) with false.
        cbv iota. rewrite (param _ _ key_file), CP. cbn [cval_str]. apply path_under, part_under.
      - destruct (text_eqb k K_filter) eqn:E2; [apply text_eqb_eq in E2; subst k; rewrite (param _ _ key_filter); exact FB1|].
        destruct (text_eqb k K_a) eqn:E5; [apply text_eqb_eq in E5; subst k; rewrite (param _ _ key_a); apply again_json, ranges_plain|].
        destruct (text_eqb k K_b) eqn:E6; [apply text_eqb_eq in E6; subst k; rewrite (param _ _ key_b); apply again_json, ranges_plain|].
        destruct (text_eqb k K_lhs) eqn:E3; [apply text_eqb_eq in E3; subst k; rewrite (param _ _ key_lhs), NL; apply again_none|].
        destruct (existsb (text_eqb k) json_keys) eqn:E4.
        + apply in_json in E4. rewrite (param _ _ (keys_json k E4)). apply again_json. cbn in E4.
          destruct E4 as [<-|[<-|[<-|[<-|[]]]]]; [exact PS|discriminate E5|discriminate E6|exact PL].
        + apply SA; try (now apply key_eq); [exact I|]. intros J. apply in_json in J. congruence. }
    exists (map (fun k => (k, job_saved c is i j k)) keys), hf, op. split; [now apply job_items_ok|]. split; [exact CP|]. split; [exact CO|]. intros p' G'.
    destruct (cast_all_ok (job_saved c is i j) x keys [] keys_NoDup A) as (c1' & C' & K').
    assert (K : forall k f, In (k, f) CONFIG_PARAMS_TYPES -> cg c1' k = x k).
    { intros k f I. rewrite K'. destruct (in_dec _ _ _) as [_|N]; [reflexivity|]. exfalso. apply N. exact (in_keys k f I). }
    destruct (load_ok listdir' _ c1' (lower (strip (part_name i hf))) p' (CList (map JInt is)) op C') as (c' & L' & FN').
    - rewrite (K _ _ key_file). reflexivity.
    - rewrite (K K_op str_parser) by (cbn; tauto). exact CO.
    - exact IO.
    - exact G'.
    - rewrite (K _ _ key_filter). exact FB2.
    - exists c'. split; [exact L'|]. split; [rewrite FN'; reflexivity|].
      split; [rewrite FN'; change (cg c1' K_a = CList (ranges_json (fst j))); rewrite (K _ _ key_a); reflexivity|].
      split; [rewrite FN'; change (cg c1' K_b = CList (ranges_json (snd j))); rewrite (K _ _ key_b); reflexivity|].
      intros k I NF. rewrite FN'. unfold final.
      destruct (text_eqb k K_file) eqn:E1; [exfalso; apply NF; apply text_eqb_eq in E1; subst; now left|]. destruct (text_eqb k K_filter) eqn:E2; [apply text_eqb_eq in E2; subst k; now rewrite CF|].
      destruct (text_eqb k K_a) eqn:E5; [exfalso; apply NF; apply text_eqb_eq in E5; subst; cbn; tauto|].
      destruct (text_eqb k K_b) eqn:E6; [exfalso; apply NF; apply text_eqb_eq in E6; subst; cbn; tauto|].
      unfold keys in I. apply in_map_iff in I as ((k', f) & E & I). cbn [fst] in E. subst k'.
      assert (XK : cg c1' k = cg c k) by (rewrite (K k f I); unfold x; now rewrite E1, E2, E5, E6).
      destruct (text_eqb k K_textual) eqn:E3.
      { exfalso. apply text_eqb_eq in E3. subst k. assert (NT : existsb (fun kf => text_eqb K_textual (fst kf)) CONFIG_PARAMS_TYPES = false) by (vm_compute; reflexivity).
        assert (TT : existsb (fun kf => text_eqb K_textual (fst kf)) CONFIG_PARAMS_TYPES = true) by (apply existsb_exists; exists (K_textual, f); split; [exact I|now apply text_eqb_eq]). congruence. }
      destruct (text_eqb k K_only) eqn:E4; [|exact XK]. apply text_eqb_eq in E4. subst k. rewrite XK.
      destruct (cg c K_only) as [| | |s| | |]; try reflexivity. now rewrite NA.
  Qed.
  Lemma job_not_back i j n : cg c K_lhs = CLhs n -> exists its, job_items c i j = Ok its /\ load listdir' (Some its) = Raise ValueError.
  Proof.
    intros NL. destruct loaded_parts as (hf & op & is & CP & CO & IO & CF & R & NA & SA & GL).
    assert (R2 : Forall (fun i => - nfuncs <= i < nfuncs) is) by (eapply Forall_impl; [|exact R]; cbv beta; intros; lia).
    destruct (filter_back is R2) as (fv & FB1 & FB2).
    assert (LR : cast_param_val K_lhs (job_saved c is i j K_lhs) = Raise ValueError).
    { unfold job_saved. rewrite job_text_eq. change (text_eqb K_lhs K_filter) with false. change (text_eqb K_lhs K_a) with false. change (text_eqb K_lhs K_b) with false.
      change (text_eqb K_lhs K_file) with false. cbv iota. rewrite (param _ _ key_lhs), NL. apply lhs_again. now rewrite <- NL. }
    exists (map (fun k => (k, job_saved c is i j k)) keys). split; [now apply job_items_ok|]. rewrite load_rest.
    rewrite (cast_all_raise _ ValueError); [reflexivity| |exists K_lhs, (job_saved c is i j K_lhs); split; [apply in_map_iff; exists K_lhs; split; [reflexivity|exact (in_keys _ _ key_lhs)]|exact LR]].
    intros k v I. apply in_map_iff in I as (k' & E & I). injection E as -> <-. unfold job_saved. destruct (text_eqb k K_filter) eqn:E2.
    - left. exists fv. apply text_eqb_eq in E2. subst k. rewrite (param _ _ key_filter). exact FB1.
    - destruct (text_eqb k K_lhs) eqn:E3; [right; apply text_eqb_eq in E3; subst k; exact LR|]. rewrite job_text_eq.
      destruct (text_eqb k K_a) eqn:E5; [left; apply text_eqb_eq in E5; subst k; rewrite (param _ _ key_a); eexists; apply again_json, ranges_plain|].
      destruct (text_eqb k K_b) eqn:E6; [left; apply text_eqb_eq in E6; subst k; rewrite (param _ _ key_b); eexists; apply again_json, ranges_plain|].
      destruct (text_eqb k K_file) eqn:E1; [left; apply text_eqb_eq in E1; subst k; rewrite (param _ _ key_file); eexists; apply path_under, part_under|].
      destruct (existsb (text_eqb k) json_keys) eqn:E4; [apply in_json in E4; rewrite (param _ _ (keys_json k E4)); apply json_val_error|].
      left. eexists. apply SA; try (now apply key_eq); [exact I|]. intros J. apply in_json in J. congruence.
  Qed.
End Jobs.

(** ---- paths ---- *)
Definition here_or_dir (h : text) : Prop := h = [] \/ exists h', h = h' ++ txt "/".
Lemma cut_name h f : here_or_dir h -> ~ In "/"%char f -> cut_slash (rev (h ++ f)) [] = (h, f).
Proof.
  intros H N. pose proof (cut_slash_spec f [] h N) as E. rewrite <- rev_app_distr in E. rewrite E, app_nil_r. destruct H as [->|(h' & ->)]; [reflexivity|].
  rewrite rev_app_distr. change (rev (txt "/")) with ["/"%char]. cbn [app cut_slash]. change (char_eqb "/" "/") with true. cbv iota.
  cbn [rev]. rewrite rev_involutive. reflexivity.
Qed.
Lemma cut_dot_spec e : forall acc r, ~ In "."%char e -> cut_dot (rev (r ++ "."%char :: e)) acc = Some (r, "."%char :: e ++ acc).
Proof.
  induction e as [|c e IH] using rev_ind; intros acc r N.
  - rewrite rev_app_distr. cbn [rev app cut_dot]. change (char_eqb "." ".") with true. cbv iota. now rewrite rev_involutive.
  - replace (r ++ "."%char :: e ++ [c]) with ((r ++ "."%char :: e) ++ [c]) by (rewrite <- app_assoc; reflexivity).
    rewrite rev_app_distr. cbn [rev app cut_dot]. assert (C : char_eqb c "." = false).
    { apply Ascii.eqb_neq. intros ->. apply N. apply in_or_app. right. now left. }
    rewrite C, IH by (intros I; apply N; apply in_or_app; now left). now rewrite <- app_assoc.
Qed.
Lemma not_all_dots r : (exists c, In c r /\ c <> "."%char) -> forallb (char_eqb "."%char) r = false.
Proof.
  intros (c & I & N). apply not_true_is_false. intros F. rewrite forallb_forall in F. apply F in I. apply Ascii.eqb_eq in I. congruence.
Qed.
Lemma splitext_name h r e : here_or_dir h -> ~ In "/"%char r -> ~ In "/"%char e -> ~ In "."%char e -> (exists c, In c r /\ c <> "."%char) ->
  splitext (h ++ r ++ "."%char :: e) = (h ++ r, "."%char :: e).
Proof.
  intros H N1 N2 N3 X. unfold splitext. rewrite cut_name; [|exact H|].
  - rewrite cut_dot_spec by exact N3. rewrite not_all_dots by exact X. now rewrite app_nil_r.
  - rewrite in_app_iff. intros [I|[I|I]]; [auto|discriminate|auto].
Qed.
Lemma cut_dot_inv rs : forall acc a e, cut_dot rs acc = Some (a, e) -> exists e', e = "."%char :: e' /\ rev rs ++ acc = a ++ e.
Proof.
  induction rs as [|c rs IH]; intros acc a e H; cbn [cut_dot] in H; [discriminate|]. destruct (char_eqb c ".") eqn:C.
  - injection H as <- <-. apply Ascii.eqb_eq in C. subst c. exists acc. split; [reflexivity|]. cbn [rev]. now rewrite <- app_assoc.
  - apply IH in H as (e' & -> & E). exists e'. split; [reflexivity|]. rewrite <- E. cbn [rev]. now rewrite <- app_assoc.
Qed.
Lemma is_pkl f : ~ In "/"%char f -> (text_eqb (snd (splitext f)) (txt ".pkl") = true <-> pkl_name f).
Proof.
  intros N. rewrite text_eqb_eq. split.
  - intros E. unfold splitext in E. pose proof (cut_name [] f (or_introl eq_refl) N) as C. cbn [app] in C. rewrite C in E.
    destruct (cut_dot (rev f) []) as [[a e]|] eqn:D; [|discriminate E]. destruct (forallb _ a) eqn:F; [discriminate E|]. cbn [snd] in E. subst e.
    apply cut_dot_inv in D as (e' & _ & D). rewrite rev_involutive, app_nil_r in D. exists a. split; [exact D|].
    assert (X : existsb (fun c => negb (char_eqb "." c)) a = true).
    { clear -F. induction a as [|c a IH]; cbn [forallb existsb] in *; [discriminate|]. destruct (char_eqb "." c); cbn in *; auto. }
    apply existsb_exists in X as (c & I & X). exists c. split; [exact I|]. intros ->. discriminate X.
  - intros (s & -> & X). change (s ++ chars ".pkl") with ([] ++ s ++ "."%char :: txt "pkl"). rewrite splitext_name; [reflexivity|now left| | | |exact X].
    + intros I. apply N. apply in_or_app. now left.
    + cbn. intuition discriminate.
    + cbn. intuition discriminate.
Qed.
Lemma join_name d n : (exists d' c, d = d' ++ [c] /\ c <> "/"%char) -> ~ In "/"%char n -> os_join d n = in_dir d n.
Proof.
  intros (d' & c & -> & C) N. assert (P : path_join (d' ++ [c]) n = in_dir (d' ++ [c]) n) by (apply (path_join_spec n n _ (in_dir (d' ++ [c]) n)); now constructor).
  unfold os_join. destruct n as [|x n]; [exact P|]. destruct (char_eqb x "/") eqn:E; [|exact P]. apply Ascii.eqb_eq in E. subst x. exfalso. apply N. now left.
Qed.
Lemma split_in d n : (exists d' c, d = d' ++ [c] /\ c <> "/"%char) -> ~ In "/"%char n -> path_split (in_dir d n) = (d, n).
Proof.
  intros (d' & c & -> & C) N. unfold path_split, in_dir. replace ((d' ++ [c]) ++ chars "/" ++ n) with (((d' ++ [c]) ++ txt "/") ++ n) by (now rewrite <- app_assoc).
  rewrite cut_name; [|right; eauto|exact N]. rewrite !rev_app_distr. change (rev (txt "/")) with ["/"%char]. cbn [rev app rstrip_slash_rev].
  change (char_eqb "/" "/") with true. cbv iota. assert (E : char_eqb c "/" = false) by (now apply Ascii.eqb_neq). rewrite E. cbv iota. cbn [rev]. now rewrite rev_involutive.
Qed.

(** ---- the files of the jobs ---- *)
Lemma has_all_set c k x : has_all c = true -> has_all (d_set text_eqb c k x) = true.
Proof.
  unfold has_all. rewrite !forallb_forall. intros H k' I. specialize (H k' I). unfold d_mem in *. destruct (text_eqb k' k) eqn:E.
  - apply text_eqb_eq in E. subst k'. now rewrite (d_get_set_same _ text_eqb_eq).
  - rewrite (d_get_set_other _ text_eqb_eq); [exact H|]. intros ->. now rewrite teq_refl in E.
Qed.
Lemma mem_set (c : config) k x k' : d_mem text_eqb c k' = true -> d_mem text_eqb (d_set text_eqb c k x) k' = true.
Proof.
  intros H. unfold d_mem in *. destruct (text_eqb k' k) eqn:E.
  - apply text_eqb_eq in E. subst k'. now rewrite (d_get_set_same _ text_eqb_eq).
  - rewrite (d_get_set_other _ text_eqb_eq); [exact H|]. intros ->. now rewrite teq_refl in E.
Qed.
Lemma fill_has_all c : has_all (fill c) = true.
Proof.
  unfold fill, has_all. generalize (map fst CONFIG_PARAMS_TYPES) as ks.
  assert (G : forall ks (c : config) k, (In k ks \/ d_mem text_eqb c k = true) ->
    d_mem text_eqb (fold_left (fun c k => if d_mem text_eqb c k then c else d_set text_eqb c k CNone) ks c) k = true).
  { induction ks as [|k ks IH]; intros c0 k' [I|I]; cbn [fold_left] in *; [destruct I|exact I| |].
    - destruct I as [->|I]; apply IH; [|now left]. right. destruct (d_mem text_eqb c0 k') eqn:E; [exact E|].
      unfold d_mem. now rewrite (d_get_set_same _ text_eqb_eq).
    - apply IH. right. destruct (d_mem text_eqb c0 k); [exact I|now apply mem_set]. }
  intros ks. apply forallb_forall. intros k I. apply G. now left.
Qed.
Lemma inj_ok {A} (a b : A) : Ok a = Ok b -> a = b.
Proof. congruence. Qed.
Lemma set_file_has_all listdir c c' : has_all c = true -> set_hashtable_file listdir c = Ok c' -> has_all c' = true.
Proof. intros H S. unfold set_hashtable_file in S. apply bind_inv in S as (hf & _ & S). apply inj_ok in S. subst c'. now apply has_all_set. Qed.
Lemma set_postproc_has_all c c' : has_all c = true -> set_postproc c = Ok c' -> has_all c' = true.
Proof. intros H S. unfold set_postproc in S. apply bind_inv in S as (hf & _ & S). apply inj_ok in S. subst c'. now apply has_all_set, has_all_set. Qed.
Lemma check_has_all c c' : has_all c = true -> check_operation c = Ok c' -> has_all c' = true.
Proof.
  intros A H. unfold check_operation in H. destruct (c_get c "hashtable_file_operation"); try discriminate. destruct (existsb _ _); [|discriminate].
  destruct (c_get c "gen_hashtable_only"); try (apply inj_ok in H; subst c'; exact A). destruct (text_eqb _ _); apply inj_ok in H; subst c'; [now apply has_all_set|exact A].
Qed.
Lemma loaded_has_all listdir items c : load listdir (Some items) = Ok c -> has_all c = true.
Proof.
  unfold load. intros H. apply bind_inv in H as (c1 & _ & H). pose proof (fill_has_all c1) as F. cbv beta in H. revert F H. generalize (fill c1). intros c0 F H.
  apply bind_inv in H as (c2 & S & H). apply bind_inv in H as (c3 & P & H).
  exact (check_has_all _ _ (set_postproc_has_all _ _ (set_file_has_all _ _ _ F S) P) H).
Qed.
Lemma all_some_map_back {A B} (f : A -> option B) (g : B -> A) l : (forall b, f (g b) = Some b) -> all_some f (map g l) = Some l.
Proof. intros H. induction l as [|x l IH]; cbn [map all_some]; [reflexivity|]. now rewrite H, IH. Qed.
Lemma ranges_known c k r : ranges_setting c k r -> as_ranges (c_get c k) = Some r.
Proof.
  unfold ranges_setting. intros ->. unfold as_ranges, j_list. apply all_some_map_back. intros p. cbn. apply all_some_map_back. intros [x y]. reflexivity.
Qed.
Lemma named_slash stem ext : file_name stem ext -> ~ In "/"%char (named stem ext).
Proof. intros (A & B & _) I. unfold named in I. rewrite !in_app_iff in I. destruct I as [I|[I|I]]; [auto|cbn in I; intuition discriminate|auto]. Qed.
Lemma split_named stem ext : file_name stem ext -> splitext (named stem ext) = (stem, chars "." ++ ext).
Proof. intros (A & B & C & D). exact (splitext_name [] stem ext (or_introl eq_refl) A B C D). Qed.
Lemma job_name stem ext i : 0 <= i -> file_name stem ext -> file_name (stem ++ chars "_" ++ int_chars i) ext.
Proof.
  intros H (A & B & C & c & D & E). split; [|split; [exact B|split; [exact C|]]].
  - rewrite !in_app_iff. intros [I|[I|I]]; [auto|cbn in I; intuition discriminate|]. now apply (plain_slash _ (digits_plain _ (proj2 (int_digits i H)))).
  - exists c. split; [apply in_or_app; now left|exact E].
Qed.
Lemma dir_end stem n : 0 <= n -> exists d' c, jobs_dir stem n = d' ++ [c] /\ c <> "/"%char.
Proof.
  intros H. destruct (int_digits n H) as (NN & D). unfold jobs_dir. destruct (exists_last NN) as (l & c & E). rewrite E.
  exists (stem ++ chars "_dist_" ++ l), c. split; [now rewrite <- !app_assoc|]. intros ->.
  apply (plain_slash _ (digits_plain _ D)). rewrite E. apply in_or_app. right. now left.
Qed.
Lemma job_path_eq stem ext n i : 0 <= n -> 0 <= i -> file_name stem ext -> job_path (named stem ext) (jobs_dir stem n) i = job_file stem ext n i.
Proof.
  intros N I F. unfold job_path, job_file. rewrite (split_named _ _ F). cbn [fst snd].
  replace (stem ++ txt "_" ++ z_text i ++ chars "." ++ ext) with (named (stem ++ chars "_" ++ int_chars i) ext) by (unfold named; now rewrite <- !app_assoc).
  apply join_name; [now apply dir_end|]. now apply named_slash, job_name.
Qed.
Lemma dist_dir_eq stem ext k : file_name stem ext -> dist_dir (named stem ext) k = jobs_dir stem (2 ^ k).
Proof. intros F. unfold dist_dir. now rewrite (split_named _ _ F). Qed.
Lemma job_file_inj stem ext n i i' : job_file stem ext n i = job_file stem ext n i' -> i = i'.
Proof.
  unfold job_file, in_dir, named. intros E. apply app_inv_head, app_inv_head in E. apply app_inv_tail in E.
  apply app_inv_head, app_inv_head in E. now apply Rational_Latex.z_text_inj.
Qed.
Section Write.
  Variables (listdir : text -> list text) (items : list (text * text)) (c : config).
  Hypothesis L : load listdir (Some items) = Ok c.
  Lemma items_exist i j : exists its, job_items c i j = Ok its.
  Proof.
    destruct (loaded_parts listdir items c L) as (hf & op & is & _ & _ & _ & CF & R & _). eexists. eapply job_items_ok; eassumption.
  Qed.
  Lemma write_jobs_gen cf d dd (path : Z -> text) : (forall i, 0 <= i -> job_path cf d i = path i) ->
    (forall i f w, 0 <= i -> In dd (w_dirs w) -> open_write (path i) f w = (write_file (path i) f w, Ok tt)) -> (forall i i', path i = path i' -> i = i') ->
    forall js i w, 0 <= i -> In dd (w_dirs w) ->
    exists w', write_jobs c cf d i js w = (w', Ok tt) /\ w_tables w' = w_tables w /\ w_dirs w' = w_dirs w /\
      (forall m j, nth_error js m = Some j -> exists its, job_items c (i + Z.of_nat m) j = Ok its /\ file_at w' (path (i + Z.of_nat m)) = Some (OConf its)) /\
      (forall p, (forall m, (m < length js)%nat -> p <> path (i + Z.of_nat m)) -> file_at w' p = file_at w p).
  Proof.
    intros JP OW INJ. induction js as [|j js IH]; intros i w I D; cbn [write_jobs].
    - exists w. split; [reflexivity|]. split; [reflexivity|]. split; [reflexivity|]. split; [|reflexivity]. intros [|m] j E; discriminate E.
    - destruct (items_exist i j) as (its & J). rewrite J, JP, OW by assumption.
      destruct (IH (i + 1) (write_file (path i) (OConf its) w) ltac:(lia) D) as (w' & E & T & DD & FS & FO).
      exists w'. split; [exact E|]. split; [exact T|]. split; [exact DD|]. split.
      + intros [|m] j' EJ; cbn [nth_error] in EJ.
        * injection EJ as <-. exists its. rewrite Z.add_0_r. split; [exact J|]. rewrite FO, Main_Proofs.file_same; [reflexivity|].
          intros m _ X. apply INJ in X. lia.
        * destruct (FS m j' EJ) as (its' & A & B). exists its'. replace (i + Z.of_nat (S m)) with (i + 1 + Z.of_nat m) by lia. auto.
      + intros p P. rewrite FO.
        * apply Main_Proofs.file_other. intros X. apply (P 0%nat); [cbn; lia|]. now rewrite Z.add_0_r.
        * intros m M. replace (i + 1 + Z.of_nat m) with (i + Z.of_nat (S m)) by lia. apply P. cbn. lia.
  Qed.
  Lemma open_in d nm f w : dir_path d -> ~ In "/"%char nm -> In d (w_dirs w) -> open_write (in_dir d nm) f w = (write_file (in_dir d nm) f w, Ok tt).
  Proof.
    intros D N I. unfold open_write. rewrite split_in by assumption. cbn [fst]. apply Main_Proofs.is_dir_iff in I. revert I. generalize (in_dir d nm). destruct d; [reflexivity|]. intros p ->. reflexivity.
  Qed.
  Lemma write_jobs_ok stem ext n : 0 <= n -> file_name stem ext -> forall js i w, 0 <= i -> In (jobs_dir stem n) (w_dirs w) ->
    exists w', write_jobs c (named stem ext) (jobs_dir stem n) i js w = (w', Ok tt) /\ w_tables w' = w_tables w /\ w_dirs w' = w_dirs w /\
      (forall m j, nth_error js m = Some j -> exists its, job_items c (i + Z.of_nat m) j = Ok its /\ file_at w' (job_file stem ext n (i + Z.of_nat m)) = Some (OConf its)) /\
      (forall p, (forall m, (m < length js)%nat -> p <> job_file stem ext n (i + Z.of_nat m)) -> file_at w' p = file_at w p).
  Proof.
    intros N F. apply (write_jobs_gen (named stem ext) (jobs_dir stem n) (jobs_dir stem n) (job_file stem ext n)).
    - intros i I. now apply job_path_eq.
    - intros i f w I D. apply open_in; [now apply dir_end|now apply named_slash, job_name|exact D].
    - apply job_file_inj.
  Qed.
End Write.
Lemma exponent_ok log2 n k q : log2 n = Ok q -> (q == inject_Z k)%Q -> exponent log2 n = Ok k.
Proof.
  intros H E. unfold exponent. rewrite H. cbn [bind]. rewrite (Qred_complete _ _ E), (Qcanon.Qred_identity (inject_Z k)) by (cbn; apply Z.gcd_1_r).
  cbn [inject_Z Qden Z.eqb Pos.eqb]. f_equal. now apply Rational_Proofs.q_int_of.
Qed.
(** ---- the table of a job ---- *)
Lemma pad2_two i : pad2 i = two_digits i.
Proof. reflexivity. Qed.
Lemma two_digits_ok i : 0 <= i -> two_digits i <> [] /\ digits (two_digits i).
Proof.
  intros H. destruct (int_digits i H) as (NN & D). unfold two_digits. destruct (i <? 10); [|auto]. split; [discriminate|]. constructor; [cbn; discriminate|exact D].
Qed.
Lemma part_plain base i : 0 <= i -> plain base -> plain (part base i) /\ part base i <> [] /\ unversioned (part base i).
Proof.
  intros H P. destruct (two_digits_ok i H) as (NN & D). split; [|split].
  - apply Forall_app. split; [exact P|]. apply Forall_app. split; [repeat constructor; cbn; lia|now apply digits_plain].
  - unfold part. destruct base; discriminate.
  - intros (a & w & NW & DW & E). unfold part in E. revert w NW DW E. generalize (two_digits i) D NN. clear D NN H.
    induction l as [|x l IH] using rev_ind; intros D NN w NW DW E; [contradiction|]. destruct (exists_last NW) as (w' & y & ->).
    rewrite !app_assoc in E. apply app_inj_tail in E as [E _]. apply Forall_app in D as [D _]. apply Forall_app in DW as [DW _].
    rewrite <- !app_assoc in E. destruct l as [|x' l'] eqn:EL; destruct w' as [|y' w''] eqn:EW.
    + rewrite !app_nil_r in E. change (chars "_part") with (chars "_par" ++ ["t"%char]) in E. change (chars "_v") with (chars "_" ++ ["v"%char]) in E.
      rewrite !app_assoc in E. apply app_inj_tail in E as [_ E]. discriminate E.
    + rewrite <- EW in *. destruct (@exists_last _ w' ltac:(rewrite EW; discriminate)) as (w3 & z & Z). rewrite Z in *. apply Forall_app in DW as [_ DW]. inversion DW as [|? ? DZ _]; subst.
      rewrite app_nil_r in E. change (chars "_part") with (chars "_par" ++ ["t"%char]) in E. rewrite !app_assoc in E. apply app_inj_tail in E as [_ E]. subst z. now apply DZ.
    + rewrite <- EL in *. destruct (@exists_last _ l ltac:(rewrite EL; discriminate)) as (l3 & z & Z). rewrite Z in *. apply Forall_app in D as [_ D]. inversion D as [|? ? DZ _]; subst.
      rewrite app_nil_r in E. change (chars "_v") with (chars "_" ++ ["v"%char]) in E. rewrite !app_assoc in E. apply app_inj_tail in E as [_ E]. subst z. now apply DZ.
    + apply (IH D ltac:(discriminate) (y' :: w'')); [discriminate|exact DW|exact E].
Qed.
Lemma plain_path_same p : Forall (fun c => plain_char c \/ c = "."%char \/ c = "/"%char) p -> lower (strip p) = p.
Proof.
  intros F. rewrite strip_id.
  - unfold lower. induction F as [|x p FX _ IH]; cbn [map]; [reflexivity|]. f_equal; [|exact IH]. unfold lower_char.
    destruct FX as [FX|[->| ->]]; [|reflexivity|reflexivity]. unfold plain_char in FX. cbv zeta in FX.
    destruct (_ && _) eqn:E; [|reflexivity]. rewrite andb_true_iff, !Nat.leb_le in E. lia.
  - eapply Forall_impl; [|exact F]. intros x [FX|[->| ->]]; [|reflexivity|reflexivity]. unfold is_blank. apply not_true_is_false. intros E.
    unfold plain_char in FX. cbv zeta in FX. cbv zeta in E. rewrite orb_true_iff, !andb_true_iff, !Nat.leb_le in E. lia.
Qed.
Lemma part_name_eq dir tab i : plain_dir dir -> plain tab -> tab <> [] -> part_name i (in_dir dir (tab ++ chars ".pkl")) = in_dir dir (part tab i ++ chars ".pkl").
Proof.
  intros (_ & d' & c & D & C) P NN. unfold part_name. replace (in_dir dir (tab ++ chars ".pkl")) with ((dir ++ txt "/") ++ tab ++ "."%char :: txt "pkl") by (unfold in_dir; now rewrite <- app_assoc).
  rewrite splitext_name.
  - cbn [fst snd]. unfold in_dir, part. rewrite pad2_two, <- !app_assoc. reflexivity.
  - right. eauto.
  - now apply plain_slash.
  - cbn. intuition discriminate.
  - cbn. intuition discriminate.
  - destruct tab as [|x tab]; [contradiction|]. exists x. split; [now left|]. intros ->. apply (plain_dot _ P). now left.
Qed.
Lemma int_list_ints j : int_list j -> ints j.
Proof.
  revert j. fix IH 2. intros j [z|l F]; [exact I|]. cbn [ints]. induction F as [|x l FX F IHF]; cbn [fold_right]; [exact I|]. split; [now apply IH|exact IHF].
Qed.
Lemma plain_setting_val c k : plain_setting c k -> plain_val (c_get c k).
Proof.
  intros [->|[(z & ->)|(l & -> & F)]]; cbn [plain_val]; [exact I|exact I|]. apply (int_list_ints (JList l)). now constructor.
Qed.

(** ---- settings files in other directories ---- *)
Lemma split_named_in h stem ext : file_name stem ext -> splitext (in_dir h (named stem ext)) = (in_dir h stem, chars "." ++ ext).
Proof.
  intros (A & B & C & D). unfold in_dir, named. replace (h ++ chars "/" ++ stem ++ chars "." ++ ext) with ((h ++ txt "/") ++ stem ++ "."%char :: ext) by (now rewrite <- app_assoc).
  rewrite splitext_name; [|right; eauto|assumption..]. now rewrite <- app_assoc.
Qed.
Lemma dist_dir_in h stem ext k : file_name stem ext -> dist_dir (in_dir h (named stem ext)) k = jobs_dir (in_dir h stem) (2 ^ k).
Proof. intros F. unfold dist_dir. now rewrite (split_named_in _ _ _ F). Qed.
Lemma in_dir_app h a b : in_dir h a ++ b = in_dir h (a ++ b).
Proof. unfold in_dir. now rewrite <- !app_assoc. Qed.
Lemma join_rel d p : dir_path d -> (forall r, p <> "/"%char :: r) -> os_join d p = in_dir d p.
Proof.
  intros (d' & c & -> & C) N. assert (P : path_join (d' ++ [c]) p = in_dir (d' ++ [c]) p).
  { unfold path_join. rewrite rev_app_distr. cbn [rev app]. assert (E : char_eqb c "/" = false) by (now apply Ascii.eqb_neq). now rewrite E. }
  unfold os_join. destruct p as [|x p]; [exact P|]. destruct (char_eqb x "/") eqn:E; [|exact P]. apply Ascii.eqb_eq in E. subst x. now elim (N p).
Qed.
Lemma job_path_rel h stem ext n i : 0 <= n -> 0 <= i -> file_name stem ext -> h <> [] -> (forall r, h <> "/"%char :: r) ->
  job_path (in_dir h (named stem ext)) (jobs_dir (in_dir h stem) n) i = in_dir (in_dir (jobs_dir (in_dir h stem) n) h) (named (stem ++ chars "_" ++ int_chars i) ext).
Proof.
  intros N I F NH NS. unfold job_path. rewrite (split_named_in _ _ _ F). cbn [fst snd].
  replace (in_dir h stem ++ txt "_" ++ z_text i ++ chars "." ++ ext) with (in_dir h (named (stem ++ chars "_" ++ int_chars i) ext)) by (unfold named; now rewrite in_dir_app, <- !app_assoc).
  rewrite join_rel; [|now apply dir_end|].
  - unfold in_dir. now rewrite <- !app_assoc.
  - intros r. unfold in_dir. destruct h as [|x h]; [contradiction|]. intros [= -> _]. now elim (NS h).
Qed.
Lemma job_path_abs h stem ext n i : file_name stem ext -> 
  job_path (in_dir ("/"%char :: h) (named stem ext)) (jobs_dir (in_dir ("/"%char :: h) stem) n) i = in_dir ("/"%char :: h) (named (stem ++ chars "_" ++ int_chars i) ext).
Proof.
  intros F. unfold job_path. rewrite (split_named_in _ _ _ F). cbn [fst snd].
  replace (in_dir ("/"%char :: h) stem ++ txt "_" ++ z_text i ++ chars "." ++ ext) with (in_dir ("/"%char :: h) (named (stem ++ chars "_" ++ int_chars i) ext)) by (unfold named; now rewrite in_dir_app, <- !app_assoc).
  reflexivity.
Qed.

(** ---- joining ---- *)
Lemma held_files w d : dir_path d -> forall listing ss, bare listing -> held w d listing ss -> Forall2 (fun f s => table_at w f = Some s) (join_files listing d) ss.
Proof.
  intros D listing ss B H. unfold join_files. induction H as [|n l s ss P T H IH|n l ss P H IH]; cbn [filter map]; [constructor| |].
  - inversion B as [|? ? B1 B2]; subst. rewrite (proj2 (is_pkl n B1) P). cbn [map]. constructor; [|now apply IH]. now rewrite join_name.
  - inversion B as [|? ? B1 B2]; subst. destruct (text_eqb (snd (splitext n)) (txt ".pkl")) eqn:E; [now apply (is_pkl n B1) in E|now apply IH].
Qed.
Lemma with_table_id {A} (m : mitm A) : with_table m (mi_table m) = m.
Proof. destruct m. reflexivity. Qed.
Lemma load_table_ok w f s : tables_built w -> table_at w f = Some s -> load_table w f = Ok s.
Proof.
  intros B T. unfold load_table, table_at in *. rewrite T, Main_Proofs.unpickle_same; [destruct s; reflexivity|].
  exact (B _ _ (Main_Proofs.table_in _ _ _ T)).
Qed.
Definition tables_of (ss : list saved) : list mtable := map (fun s => mi_table (sv_mitm s)) ss.
Lemma join_rest_tables w : tables_built w -> forall fs ss s, Forall2 (fun f s => table_at w f = Some s) fs ss ->
  join_rest w fs s = let* t := join_tables (mi_table (sv_mitm s) :: tables_of ss) in Ok {| sv_mitm := with_table (sv_mitm s) t; sv_gen := sv_gen s |}.
Proof.
  intros B fs ss s F. revert s. induction F as [|f a fs ss T F IH]; intros s.
  - cbn [join_rest tables_of map join_tables foldM bind]. rewrite with_table_id. destruct s; reflexivity.
  - cbn [join_rest tables_of map]. rewrite (load_table_ok _ _ _ B T). cbn [bind]. unfold join_tables. cbn [foldM].
    destruct (ht_append (mi_table (sv_mitm a)) (mi_table (sv_mitm s))) as [t [[]|e]]; cbn [bind]; [|reflexivity].
    rewrite IH. cbn [sv_mitm sv_gen]. unfold join_tables. fold (tables_of ss). reflexivity.
Qed.
Lemma join_main_tables w listing d out s ss : tables_built w -> dir_path d -> bare listing -> held w d listing (s :: ss) ->
  join_main listing d out w = match join_tables (tables_of (s :: ss)) with
    | Ok t => (write_table out {| sv_mitm := with_table (sv_mitm s) t; sv_gen := sv_gen s |} w, Ok tt)
    | Raise e => (w, Raise e)
    end.
Proof.
  intros B D N H. apply held_files in H; [|assumption..]. unfold join_main. inversion H as [|f ? fs ? T F E1]; subst.
  rewrite (load_table_ok _ _ _ B T). cbn [bind]. rewrite (join_rest_tables w B fs ss s F). cbn [tables_of map]. fold (tables_of ss).
  destruct (join_tables _); reflexivity.
Qed.
Lemma join_mismatch (ts : list mtable) : forall t, (exists a, In a ts /\ h_acc a <> h_acc t) -> join_tables (t :: ts) = Raise TypeError.
Proof.
  unfold join_tables. induction ts as [|b ts IH]; intros t (a & I & N); [destruct I|]. cbn [foldM]. unfold ht_append.
  destruct (h_acc t =? h_acc b) eqn:E; cbn [negb bind]; [|reflexivity]. apply Z.eqb_eq in E. apply IH. exists a. cbn [h_acc]. destruct I as [->|I]; [congruence|auto].
Qed.
Lemma join_built : forall (ms : list (mitm Empty_set)) m t, built m -> Forall built ms -> join_tables (map mi_table (m :: ms)) = Ok t -> built (with_table m t).
Proof.
  unfold join_tables. cbn [map]. induction ms as [|a ms IH]; intros m t B F J; cbn [map foldM] in J.
  - apply inj_ok in J. subst t. now rewrite with_table_id.
  - inversion F as [|? ? BA BF]; subst. pose proof (B_join m a B BA) as BJ. destruct (ht_append (mi_table a) (mi_table m)) as [u [[]|e]]; cbn [bind] in J; [|discriminate].
    cbn [fst] in BJ. apply (IH (with_table m u) t BJ BF). exact J.
Qed.
Lemma join_acc (ts : list mtable) : forall t j, join_tables (t :: ts) = Ok j -> h_acc j = h_acc t.
Proof.
  unfold join_tables. induction ts as [|b ts IH]; intros t j J; cbn [foldM] in J; [now injection J as ->|]. unfold ht_append in J.
  destruct (negb (h_acc t =? h_acc b)); cbn [bind] in J; [discriminate|]. now apply IH in J.
Qed.

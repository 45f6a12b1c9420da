(** Properties of the configuration files that come with the program. *)
From Coq Require Import Ascii String ZArith QArith List Bool Lia Permutation.
From Verif Require Import PyBase PyBase_Proofs Rnd ContFrac_Model Hashtable_Model Hashtable_Proofs ULCD_Model Rational_Model MITM_Model Results_Model
  Config_Model Consts_Model Main_Model Shipped_Model Spec_ULCD Spec_MITM Spec_Config Spec_Rational Spec_Main Main_Proofs Properties_Main Shipped_Proofs.
From Verif Require Properties_Config.
Import ListNotations.
Local Open Scope Z_scope.
Local Open Scope list_scope.

(** ---- C123: runs with the shipped files ---- *)
(** With the numbers of mpmath every run with a shipped file, except the one that extends the table for Apery's constant,
    ends with an exception and changes nothing on the disk, whatever tables are there: the searches because the values
    that are looked up cannot be made, the others because the table cannot be made. *)
Theorem C123_mpmath v listdir n f w : env_ok v -> v_eng v = eng_pinned -> v_kind v = KMpf -> In (n, f) shipped ->
  n <> txt "config_apery_extend_hashtable.ini" -> exists e, run v listdir (Some f) w = (w, Some (Raise e)).
Proof.
  intros VO VE VK I N. destruct (sorts n f I) as [S|[S _]]; [|contradiction].
  destruct (run_conf v listdir f w (users_files f S)) as [E|(p & c & U & E & _)]; [exact E|]. rewrite E.
  destruct (run_with v c import_ctx w) as [w' r] eqn:H.
  assert (w' = w /\ r <> Some (Ok tt)) as [-> R]; [|destruct (raised v c import_ctx w w r (us_typed _ _ _ U) H R) as (e & ->); eauto].
  destruct S as [S|S].
  - pose proof (proj1 (forallb_forall _ _) users_op f S) as O. cbn beta in O. apply text_eqb_eq in O.
    assert (OP : operation c "use") by (unfold operation; rewrite (us_op _ _ _ U); fold (op_of f); now rewrite O).
    assert (NT : ~ table_only c) by (unfold table_only; rewrite (us_only _ _ _ U); fold (op_of f); rewrite O; discriminate).
    destruct (us_rat _ _ _ U) as (r1 & r2 & r3 & s1 & s2 & s3 & A & F).
    destruct (C87_mpmath_search v c import_ctx w w' r VE VK NT) as (E1 & E2 & E3); [right; split; [exact (us_lhs _ _ _ U)|eapply rational_some; eauto]|exact H|].
    split; [|exact E3]. apply world_eq; auto. eapply C84_use_reads_only; eauto.
  - pose proof (proj1 (forallb_forall _ _) makers_op f S) as O. cbn beta in O. apply text_eqb_eq in O.
    eapply (cannot_make v c import_ctx w w' r VO (makers_make f p c S (us_conf _ _ _ U))); [|exact H].
    unfold operation. rewrite (us_op _ _ _ U). fold (op_of f). now rewrite O.
Qed.
(** The table of a file is not there: no file of a version of it holds a table. (Such a file may be listed: the
    hashtable_apery_v1.pkl of the repository is a pointer of git LFS.) *)
Definition base_of (f : list (text * text)) : text := firstn (length (item f "hashtable_file") - 4) (item f "hashtable_file").
Definition no_table (w : world) (f : list (text * text)) : Prop := forall h, version_file (base_of f) h -> table_at w (txt "./" ++ h) = None.
Definition base_fine (f : list (text * text)) : bool :=
  forallb (fun c => let n := Z.of_nat (nat_of_ascii c) in ((97 <=? n) && (n <=? 122) || (48 <=? n) && (n <=? 57) || (n =? 95) || (n =? 45)) && negb (Ascii.eqb c "v")) (base_of f)
  && negb (text_eqb (base_of f) []) && text_eqb (item f "hashtable_file") (base_of f ++ txt ".pkl").
Lemma bases_fine : forallb base_fine files = true.
Proof. vm_compute. reflexivity. Qed.
Lemma base_ok f : In f files -> plain (base_of f) /\ base_of f <> [] /\ unversioned (base_of f) /\ item f "hashtable_file" = base_of f ++ chars ".pkl".
Proof.
  intros I. pose proof (proj1 (forallb_forall _ _) bases_fine f I) as B. unfold base_fine in B. apply andb_true_iff in B as [B B3]. apply andb_true_iff in B as [B1 B2].
  rewrite forallb_forall in B1. split; [|split; [|split]].
  - apply Forall_forall. intros c C. specialize (B1 c C). cbv zeta in B1. unfold plain_char. cbv zeta. apply andb_true_iff in B1 as [B1 _].
    repeat rewrite orb_true_iff in B1. repeat rewrite andb_true_iff in B1. lia.
  - intros E. rewrite E in B2. discriminate B2.
  - intros (a & w & _ & _ & E). assert (X : In "v"%char (base_of f)) by (rewrite E; apply in_or_app; right; cbn; tauto). specialize (B1 _ X). discriminate B1.
  - apply text_eqb_eq in B3. exact B3.
Qed.
Lemma obtain_missing v c m0 w p op : has_all c = true -> typed c -> c_get c "hashtable_file_operation" = CStr op -> op = txt "use" \/ op = txt "expand" ->
  table_path c p -> table_at w p = None -> exists e, run_with v c m0 w = (w, Some (Raise e)).
Proof.
  intros HA T OP O TP TA. unfold run_with, main_with. rewrite HA. cbn [negb]. destruct (as_garg (c_get c "i")) as [i|] eqn:EI; [|now destruct (ty_i c T)].
  fold (choose v). destruct (choose v (c_get c "const") i) as [[g name]|e] eqn:EC; [|eexists; reflexivity].
  unfold obtain. rewrite OP, TP. cbn [as_path]. unfold table_at in TA. rewrite TA. destruct O as [-> | ->]; eexists; reflexivity.
Qed.
(** A search, or the extension of a table, whose table is not there: an exception, and nothing is changed; with any
    numbers. This holds for nine of the files. *)
Theorem C123_missing v listdir n f w : In (n, f) shipped -> op_of f <> txt "generate" -> no_table w f ->
  exists e, run v listdir (Some f) w = (w, Some (Raise e)).
Proof.
  intros I G N. apply in_files in I. destruct (run_conf v listdir f w I) as [E|(p & c & U & E & EG)]; [exact E|]. rewrite E.
  destruct (base_ok f I) as (B1 & B2 & B3 & B4).
  destruct (text_eqb (op_of f) (txt "generate")) eqn:EO; [apply text_eqb_eq in EO; contradiction|].
  destruct (Properties_Config.C58_use listdir (base_of f) _ _ _ _ B1 B2 B3 (cn_pkl _) (po_here _)) as (h & H1 & H2). rewrite <- B4, EG in H1. injection H1 as ->.
  assert (V : version_file (base_of f) h).
  { destruct H2 as [(_ & V & _)|(-> & _)]; [exact V|]. exists (chars "_v1"), []. split; [right; exists (chars "1"); repeat split; [discriminate|constructor; [left; discriminate|constructor]]|].
    unfold version. now rewrite app_nil_r. }
  pose proof (proj1 (forallb_forall _ _) files_ops f I) as FO. cbn beta in FO. apply existsb_exists in FO as (o & IO & EO2). apply text_eqb_eq in EO2. subst o.
  eapply (obtain_missing v c import_ctx w (in_dir (chars ".") h) (op_of f)).
  - exact (us_all _ _ _ U).
  - exact (us_typed _ _ _ U).
  - exact (us_op _ _ _ U).
  - cbn [map In] in IO. destruct IO as [IO|[IO|[IO|[]]]]; [left; now rewrite IO|congruence|right; now rewrite IO].
  - exact (us_path _ _ _ U).
  - apply (N h V).
Qed.
(** The command of the README, python main.py: without tables the search of config.ini does not come to work. *)
Theorem C123_readme v listdir read prog w : read (txt "config.ini") = Some ini_default -> no_table w ini_default ->
  exists e, command v listdir read [prog] w = (w, Some (Raise e)).
Proof.
  intros R N. unfold command. rewrite R. apply (C123_missing v listdir (txt "config.ini")); [now left|vm_compute; discriminate|exact N].
Qed.
(** Extending the table for Apery's constant: whatever happens, the results and the list of tables stay as they are. *)
Theorem C123_extend v listdir w w' r : run v listdir (Some ini_apery_extend_hashtable) w = (w', r) ->
  w_files w' = w_files w /\ w_dirs w' = w_dirs w /\ map fst (w_tables w') = map fst (w_tables w).
Proof.
  intros H. assert (I : In ini_apery_extend_hashtable files) by (unfold files; cbn [In]; tauto).
  destruct (run_conf v listdir _ w I) as [(e & E)|(p & c & U & E & _)]; rewrite E in H; [injection H as <- _; auto|].
  assert (O : op_of ini_apery_extend_hashtable = txt "expand") by (vm_compute; reflexivity).
  destruct (C91_table_only v c import_ctx w w' r H) as [E1 E2]; [unfold table_only; rewrite (us_only _ _ _ U); fold (op_of ini_apery_extend_hashtable); rewrite O; reflexivity|].
  split; [exact E1|]. split; [exact E2|]. apply (C85_expand_in_place v c import_ctx w w' r H). unfold operation. rewrite (us_op _ _ _ U).
  fold (op_of ini_apery_extend_hashtable). now rewrite O.
Qed.
(** From a disk without tables no sequence of runs with the shipped files gets anywhere: every one ends with an exception. *)
Inductive shipped_runs : world -> world -> Prop :=
| sr_none w : shipped_runs w w
| sr_more v listdir n f w w1 w2 r : shipped_runs w w1 -> env_ok v -> v_eng v = eng_pinned -> v_kind v = KMpf -> In (n, f) shipped ->
    run v listdir (Some f) w1 = (w2, r) -> shipped_runs w w2.
Lemma no_tables_raise v listdir n f w : env_ok v -> v_eng v = eng_pinned -> v_kind v = KMpf -> In (n, f) shipped -> w_tables w = [] ->
  exists e, run v listdir (Some f) w = (w, Some (Raise e)).
Proof.
  intros VO VE VK I T. destruct (sorts n f I) as [S|[S ->]].
  - destruct (text_eqb n (txt "config_apery_extend_hashtable.ini")) eqn:E.
    + apply text_eqb_eq in E. subst n. exfalso. assert (J : In f [ini_apery_extend_hashtable]).
      { rewrite <- extender. apply in_map_iff. exists (txt "config_apery_extend_hashtable.ini", f). split; [reflexivity|]. apply filter_In. now split. }
      destruct J as [<-|[]]. assert (X : op_of ini_apery_extend_hashtable = txt "use" \/ op_of ini_apery_extend_hashtable = txt "generate").
      { destruct S as [S|S]; [left|right]; apply text_eqb_eq; [exact (proj1 (forallb_forall _ _) users_op _ S)|exact (proj1 (forallb_forall _ _) makers_op _ S)]. }
      vm_compute in X. destruct X; discriminate.
    + apply (C123_mpmath v listdir n f w); auto. intros ->. now rewrite (proj2 (text_eqb_eq _ _) eq_refl) in E.
  - subst n. assert (IF : In ini_apery_extend_hashtable files) by (unfold files; cbn [In]; tauto).
    destruct (run_conf v listdir _ w IF) as [E|(p & c & U & E & _)]; [exact E|]. rewrite E.
    apply (obtain_missing v c import_ctx w p (txt "expand")); [exact (us_all _ _ _ U)|exact (us_typed _ _ _ U)| |now right|exact (us_path _ _ _ U)|unfold table_at; now rewrite T].
    rewrite (us_op _ _ _ U). f_equal.
Qed.
Theorem C123_fresh w w' : w_tables w = [] -> shipped_runs w w' -> w' = w /\
  forall v listdir n f, env_ok v -> v_eng v = eng_pinned -> v_kind v = KMpf -> In (n, f) shipped -> exists e, run v listdir (Some f) w' = (w', Some (Raise e)).
Proof.
  intros T H. assert (E : w' = w).
  { induction H as [w|v listdir n f w w1 w2 r H IH VO VE VK I R]; [reflexivity|]. specialize (IH T). subst w1.
    destruct (no_tables_raise v listdir n f w VO VE VK I T) as (e & E). rewrite E in R. now injection R as <- _. }
  subst w'. split; [reflexivity|]. intros v listdir n f VO VE VK I. now apply (no_tables_raise v listdir n f w).
Qed.
(** A disk with a table: that of config.ini, as another run may have left it. *)
Definition w_general : world := {| w_tables := map (fun '(_, s) => (txt "./hashtable_general_v1.pkl", s)) (w_tables w1); w_dirs := []; w_files := [] |}.
Example C123_ex : env_ok env_ex /\ v_eng env_ex = eng_pinned /\ v_kind env_ex = KMpf /\ In (txt "config.ini", ini_default) shipped /\
  keys_of w_general "./hashtable_general_v1.pkl" = Some 2%nat /\
  load (dir_list w_general) (Some ini_default) = conf ini_default (txt "./hashtable_general_v1.pkl") /\
  no_table w1 ini_default /\ keys_of w1 "./pi_v1.pkl" = Some 2%nat /\
  map (fun f => snd (run env_ex (dir_list w1) (Some f) w1)) [ini_default; ini_apery_extend_hashtable; ini_e_search_inter_lin] = repeat (Some (Raise RuntimeError)) 3 /\
  command env_ex (dir_list w1) (fun _ => None) (map txt ["main.py"; "--help"]%string) w1 = (w1, Some (Ok tt)).
Proof.
  split; [intros ab l; apply Permutation_refl|]. split; [reflexivity|]. split; [reflexivity|]. split; [now left|]. split; [vm_compute; reflexivity|].
  split; [vm_compute; reflexivity|]. split; [|split; [vm_compute; reflexivity|split; [vm_compute; reflexivity|reflexivity]]].
  intros h (v & rest & _ & ->). assert (E : map fst (w_tables w1) = [txt "./pi_v1.pkl"]) by (vm_compute; reflexivity).
  unfold table_at. apply (d_get_None _ text_eqb_eq). unfold d_keys. rewrite E. intros [H|[]]. discriminate H.
Qed.

(** ---- C124: the searches "for e" ---- *)
Lemma txt_inj a b : txt a = txt b -> a = b.
Proof. intros H. rewrite <- (string_of_list_ascii_of_string a), <- (string_of_list_ascii_of_string b). unfold txt in H. now rewrite H. Qed.
Definition e_set (c : config) : config := d_set text_eqb c (txt "const") (CStr (txt "e")).
Lemma twin_confs p : exists c, conf ini_pi_search_inter_cubic p = Ok c /\ conf ini_e_search_inter_cubic p = Ok (e_set c) /\
  (exists i, save c = Ok i) /\ (exists i, save (e_set c) = Ok i) /\ has_all c = true /\ has_all (e_set c) = true /\
  c_get c "i" = CInt 3 /\ c_get c "const" = CStr (txt "pi") /\ operation c "use".
Proof.
  eexists. split; [vm_compute; reflexivity|]. split; [vm_compute; reflexivity|].
  split; [eexists; vm_compute; reflexivity|]. split; [eexists; vm_compute; reflexivity|]. vm_compute. repeat split.
Qed.
Lemma e_set_other c k : k <> "const"%string -> c_get (e_set c) k = c_get c k.
Proof. intros N. unfold c_get, e_set. rewrite (d_get_set_other _ text_eqb_eq); [reflexivity|]. intros E. now apply txt_inj in E. Qed.
Lemma same_refl w : same_but_settings w w.
Proof. repeat split; auto. Qed.
Lemma twin_runs v listdir w w1 w2 r1 r2 : run v listdir (Some ini_e_search_inter_cubic) w = (w1, r1) -> run v listdir (Some ini_pi_search_inter_cubic) w = (w2, r2) ->
  r1 = r2 /\ same_but_settings w1 w2.
Proof.
  intros H1 H2. unfold run, main in H1, H2. rewrite load_shipped in H1, H2 by (unfold files; cbn [In]; tauto).
  assert (X : item ini_e_search_inter_cubic "hashtable_file_operation" = item ini_pi_search_inter_cubic "hashtable_file_operation" /\
              item ini_e_search_inter_cubic "hashtable_file" = item ini_pi_search_inter_cubic "hashtable_file") by (vm_compute; split; reflexivity).
  destruct X as [X1 X2]. rewrite X1, X2 in H1. destruct (gen_hashtable_filename _ _ _) as [p|e].
  2: { injection H1 as <- <-. injection H2 as <- <-. split; [reflexivity|apply same_refl]. }
  destruct (twin_confs p) as (c & C1 & C2 & (i & S1) & (i' & S2) & A1 & A2 & GI & GC & OP). rewrite C2 in H1. rewrite C1 in H2.
  eapply (C92_unread v (e_set c) c import_ctx w w1 w2 r1 r2 "use" i' i); try eassumption.
  - unfold operation. rewrite e_set_other by discriminate. exact OP.
  - cbn. tauto.
  - now apply complete_has.
  - now apply complete_has.
  - split.
    + intros k K. apply e_set_other. intros ->. apply K. vm_compute. tauto.
    + intros _. unfold good_constant, index_ok. rewrite e_set_other by discriminate. split; (split; [right; eauto|]).
      * exists "e"%string. split; [|cbn; tauto]. unfold c_get, e_set. now rewrite (d_get_set_same _ text_eqb_eq).
      * exists "pi"%string. split; [exact GC|cbn; tauto].
Qed.
(** Each file named after a search for e does the same as the one named after the same search for pi: the same outcome,
    and the same disk but for the copies of the settings. Two of them also say that they are for pi. *)
Definition twins : list (string * string) :=
  [("config_e_search_-4_to_5.ini", "config_pi_search_-4_to_5.ini"); ("config_e_search_inter_cubic.ini", "config_pi_search_inter_cubic.ini");
   ("config_e_search_inter_lin.ini", "config_pi_search_inter_lin.ini")]%string.
Definition named (n : string) : list (list (text * text)) := map snd (filter (fun x => text_eqb (fst x) (txt n)) shipped).
Lemma in_named n f : In (txt n, f) shipped -> In f (named n).
Proof. intros I. apply in_map_iff. exists (txt n, f). split; [reflexivity|]. apply filter_In. split; [exact I|]. cbn [fst]. now apply text_eqb_eq. Qed.
Lemma same_texts : ini_e_search_m4_to_5 = ini_pi_search_m4_to_5 /\ ini_e_search_inter_lin = ini_pi_search_inter_lin.
Proof. vm_compute. split; reflexivity. Qed.
Theorem C124_search_for_e_refuted v listdir n n' f f' w w1 w2 r1 r2 : In (n, n') twins -> In (txt n, f) shipped -> In (txt n', f') shipped ->
  run v listdir (Some f) w = (w1, r1) -> run v listdir (Some f') w = (w2, r2) -> r1 = r2 /\ same_but_settings w1 w2.
Proof.
  intros T I I' H H'. apply in_named in I. apply in_named in I'. unfold twins in T. cbn [In] in T. destruct same_texts as [S1 S2].
  assert (L : named "config_e_search_-4_to_5.ini" = [ini_e_search_m4_to_5] /\ named "config_pi_search_-4_to_5.ini" = [ini_pi_search_m4_to_5] /\
    named "config_e_search_inter_cubic.ini" = [ini_e_search_inter_cubic] /\ named "config_pi_search_inter_cubic.ini" = [ini_pi_search_inter_cubic] /\
    named "config_e_search_inter_lin.ini" = [ini_e_search_inter_lin] /\ named "config_pi_search_inter_lin.ini" = [ini_pi_search_inter_lin]) by (vm_compute; repeat split; reflexivity).
  destruct L as (L1 & L2 & L3 & L4 & L5 & L6).
  destruct T as [T|[T|[T|[]]]]; injection T as <- <-; [rewrite L1 in I; rewrite L2 in I'|rewrite L3 in I; rewrite L4 in I'|rewrite L5 in I; rewrite L6 in I'];
    destruct I as [<-|[]]; destruct I' as [<-|[]].
  - rewrite S1 in H. rewrite H in H'. injection H' as -> ->. split; [reflexivity|apply same_refl].
  - exact (twin_runs v listdir w w1 w2 r1 r2 H H').
  - rewrite S2 in H. rewrite H in H'. injection H' as -> ->. split; [reflexivity|apply same_refl].
Qed.
Example C124_ex : In ("config_e_search_inter_cubic.ini", "config_pi_search_inter_cubic.ini")%string twins /\
  In (txt "config_e_search_inter_cubic.ini", ini_e_search_inter_cubic) shipped /\ In (txt "config_pi_search_inter_cubic.ini", ini_pi_search_inter_cubic) shipped /\
  map (fun f => string_of_list_ascii (item f "const")) [ini_e_search_m4_to_5; ini_e_search_inter_cubic; ini_e_search_inter_lin] = ["pi"; "e"; "pi"]%string.
Proof. split; [cbn; tauto|]. split; [do 4 right; left; reflexivity|]. split; [do 10 right; left; reflexivity|]. vm_compute. reflexivity. Qed.

Print Assumptions C123_mpmath.
Print Assumptions C123_missing.
Print Assumptions C123_readme.
Print Assumptions C123_extend.
Print Assumptions C123_fresh.
Print Assumptions C124_search_for_e_refuted.

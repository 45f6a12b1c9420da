(** Claims about the settings file. *)
From Coq Require Import Ascii String ZArith List Bool Lia.
From Verif Require Import PyBase Hashtable_Model Hashtable_Proofs MITM_Model Results_Model Config_Model Spec_ULCD Spec_Config Config_Proofs Config_Files Config_Json Config_Round.
Import ListNotations.
Local Open Scope Z_scope.
Local Open Scope list_scope.
Local Open Scope res_scope.

(** ---- C58 ---- *)
(** Using or expanding a table: the greatest existing version by name; the given name when there is none. *)
Theorem C58_use listdir base f g dir p : plain base -> base <> [] -> unversioned base -> config_name base f g -> path_of f dir p ->
  exists h, gen_hashtable_filename listdir false p = Ok (in_dir dir h) /\
  ((In h (listdir dir) /\ version_file base h /\ forall h', In h' (listdir dir) -> version_file base h' -> name_le h' h) \/
   (h = g /\ forall h', In h' (listdir dir) -> ~ version_file base h')).
Proof.
  intros P N U C H. destruct (gen_spec listdir false base f g dir p P N U C H) as (pat & E & G).
  pose proof (old_last pat base (listdir dir) E (plain_dot _ P)) as O. rewrite G. destruct (rev _) as [|l r].
  - exists g. split; [reflexivity|]. right. now split.
  - exists l. split; [reflexivity|]. now left.
Qed.
(** Generating a table: when the version numbers in the directory have the same number of digits, the file chosen is the
    one after the last, and does not exist. *)
Theorem C58_generate_new listdir base f g dir p L : plain base -> base <> [] -> unversioned base -> config_name base f g -> path_of f dir p ->
  (forall h, In h (listdir dir) -> version_file base h -> exists n, 0 <= n /\ length (int_chars n) = L /\ h = version base n) ->
  (exists h, In h (listdir dir) /\ version_file base h) ->
  exists m, gen_hashtable_filename listdir true p = Ok (in_dir dir (version base (m + 1))) /\
    0 <= m /\ In (version base m) (listdir dir) /\ ~ In (version base (m + 1)) (listdir dir) /\
    forall n, 0 <= n -> In (version base n) (listdir dir) -> n <= m.
Proof.
  intros P N U C H V (h0 & I0 & V0). destruct (gen_spec listdir true base f g dir p P N U C H) as (pat & E & G).
  pose proof (old_last pat base (listdir dir) E (plain_dot _ P)) as O. rewrite G. destruct (rev _) as [|l r].
  - exfalso. exact (O h0 I0 V0).
  - destruct O as (O1 & O2 & O3). destruct (V l O1 O2) as (m & M1 & M2 & ->). rewrite next_spec by assumption. cbn [bind].
    assert (MX : forall n, 0 <= n -> In (version base n) (listdir dir) -> n <= m).
    { intros n A B. pose proof (version_is base n A) as VN. destruct (V _ B VN) as (n' & A' & B' & E'). apply version_inj in E'. subst n'.
      apply (version_order base); [exact A|exact M1|congruence|now apply O3]. }
    exists m. split; [reflexivity|]. split; [exact M1|]. split; [exact O1|]. split; [|exact MX].
    intros I. apply MX in I; lia.
Qed.
Theorem C58_generate_first listdir base f g dir p : plain base -> base <> [] -> unversioned base -> config_name base f g -> path_of f dir p ->
  (forall h, In h (listdir dir) -> ~ version_file base h) ->
  gen_hashtable_filename listdir true p = Ok (in_dir dir g) /\ ~ In g (listdir dir).
Proof.
  intros P N U C H V. destruct (gen_spec listdir true base f g dir p P N U C H) as (pat & E & G).
  pose proof (old_last pat base (listdir dir) E (plain_dot _ P)) as O. rewrite G. destruct (rev _) as [|l r].
  - split; [reflexivity|]. intros I. apply (V g I). destruct C as [| |w NN D]; try (apply version_is; lia).
    exists (chars "_v" ++ w), []. split; [|now rewrite app_nil_r, <- app_assoc].
    right. exists w. split; [exact NN|]. split; [|reflexivity]. eapply Forall_impl; [|exact D]. auto.
  - exfalso. destruct O as (O1 & O2 & _). exact (V l O1 O2).
Qed.
(** From version 10 to version 89, version 9 is the greatest by name: the next table generated overwrites version 10. *)
Theorem C58_generate_overwrites_refuted listdir base f g dir p : plain base -> base <> [] -> unversioned base -> config_name base f g -> path_of f dir p ->
  (forall h, In h (listdir dir) -> version_file base h -> exists n, 0 <= n <= 89 /\ h = version base n) ->
  In (version base 9) (listdir dir) ->
  gen_hashtable_filename listdir true p = Ok (in_dir dir (version base 10)).
Proof.
  intros P N U C H V I9. destruct (gen_spec listdir true base f g dir p P N U C H) as (pat & E & G).
  pose proof (old_last pat base (listdir dir) E (plain_dot _ P)) as O. rewrite G. pose proof (version_is base 9 ltac:(lia)) as V9. destruct (rev _) as [|l r].
  - exfalso. exact (O _ I9 V9).
  - destruct O as (O1 & O2 & O3). destruct (V l O1 O2) as (m & M & ->). pose proof (O3 _ I9 V9) as LE.
    unfold version in LE. apply name_le_prefix, name_le_prefix in LE. apply text_leb_spec in LE.
    assert (M9 : m = 9).
    { assert (B : forallb (fun k => negb (text_leb (int_chars 9 ++ chars ".pkl") (int_chars (Z.of_nat k) ++ chars ".pkl")) || Nat.eqb k 9) (seq 0 90) = true) by (vm_compute; reflexivity).
      rewrite forallb_forall in B. specialize (B (Z.to_nat m)). rewrite in_seq, Z2Nat.id in B by lia. specialize (B ltac:(lia)). rewrite LE in B. cbn [negb orb] in B.
      apply Nat.eqb_eq in B. lia. }
    subst m. now rewrite next_spec.
Qed.
(** A backup copy beside the table counts as a version, comes after it, and is used in its place. *)
Theorem C58_backup_used_refuted : exists listdir p, listdir (chars "tables") = [version (chars "pi") 1; version (chars "pi") 1 ++ chars ".bak"] /\
  p = in_dir (chars "tables") (version (chars "pi") 1) /\
  gen_hashtable_filename listdir false p = Ok (in_dir (chars "tables") (version (chars "pi") 1 ++ chars ".bak")).
Proof. exists (fun _ => [version (chars "pi") 1; version (chars "pi") 1 ++ chars ".bak"]), (in_dir (chars "tables") (version (chars "pi") 1)). repeat split; vm_compute; reflexivity. Qed.
(** A dot in the name stands for any character: the table of another constant is used. *)
Theorem C58_dot_refuted : exists listdir p, listdir (chars "tables") = [version (chars "zeta.3") 1; version (chars "zeta_3") 1] /\
  p = in_dir (chars "tables") (chars "zeta.3") /\
  gen_hashtable_filename listdir false p = Ok (in_dir (chars "tables") (version (chars "zeta_3") 1)).
Proof. exists (fun _ => [version (chars "zeta.3") 1; version (chars "zeta_3") 1]), (in_dir (chars "tables") (chars "zeta.3")). repeat split; vm_compute; reflexivity. Qed.
Example C58_ex : let listdir := fun d => if text_eqb d (chars "tables") then map chars ["pi_v1.pkl"; "notes.txt"; "pi_v3.pkl"; "pi_v2.pkl"; "e_v7.pkl"]%string else [] in
  gen_hashtable_filename listdir true (chars "tables/pi.pkl") = Ok (chars "tables/pi_v4.pkl") /\
  gen_hashtable_filename listdir false (chars "tables/pi") = Ok (chars "tables/pi_v3.pkl") /\
  gen_hashtable_filename listdir true (chars "phi") = Ok (chars "./phi_v1.pkl") /\
  gen_hashtable_filename (fun _ => map chars ["pi_v9.pkl"; "pi_v10.pkl"]%string) true (chars "tables/pi") = Ok (chars "tables/pi_v10.pkl") /\
  plain (chars "pi") /\ unversioned (chars "pi").
Proof.
  cbv zeta. repeat split; try (vm_compute; reflexivity).
  - repeat constructor; cbn; lia.
  - intros (a & w & N & D & E). destruct w as [|c w]; [contradiction|]. apply (f_equal (@length ascii)) in E. rewrite !app_length in E. cbn in E. lia.
Qed.

(** ---- C59 ---- *)
(** Indices of post-processing functions written to a configuration and read back. Indices from the end of the list
    come back as indices from the start. *)
Theorem C59_indices_survive is : Forall (fun i => - 24 <= i < 24) is ->
  exists t v, cfg_set (txt "postproc_funcs_filter") (cval_str (CList (map JInt is))) = Ok t /\
    cast_param_val (txt "postproc_funcs_filter") t = Ok v /\
    gen_postproc_filter v = Ok (CList (map JInt (map (fun i => if i <? 0 then i + 24 else i) is))).
Proof.
  intros F. assert (N : nfuncs = 24) by (vm_compute; reflexivity). rewrite <- N in F. destruct (filter_back is F) as (v & A & B).
  exists (names is), v. split; [exact (filter_set is F)|]. split; [rewrite (param _ _ key_filter); exact A|]. rewrite B. do 3 f_equal. apply map_ext_in. intros i I.
  rewrite Forall_forall in F. specialize (F i I). rewrite N in *. destruct (Z.ltb_spec i 0).
  - symmetry. apply (Z.mod_unique i 24 (-1)); lia.
  - apply Z.mod_small. lia.
Qed.
(** An index outside of the list cannot be written. *)
Theorem C59_bad_index is i : In i is -> ~ - 24 <= i < 24 -> cfg_set (txt "postproc_funcs_filter") (cval_str (CList (map JInt is))) = Raise IndexError.
Proof.
  intros I N. cbn [cval_str]. destruct (ints_repr _ (ints_ints is)) as [E J]. rewrite E. unfold cfg_set.
  rewrite (proj2 (text_eqb_eq (txt "postproc_funcs_filter") (txt "postproc_funcs_filter")) eq_refl). cbn [andb].
  assert (NE : negb (match jprint (JList (map JInt is)) with [] => true | _ => false end) = true) by (destruct (jfirst (JList (map JInt is))) as (c & r & -> & _); reflexivity).
  rewrite NE, loads_ok by exact J. cbn [bind].
  assert (X : mapM json_func (map JInt is) = Raise IndexError).
  { clear -I N. assert (L : Z.of_nat (length POSTPROC_FUNCS) = 24) by (vm_compute; reflexivity).
    assert (Y : forall j, (exists f, py_nth POSTPROC_FUNCS j = Ok f) \/ py_nth POSTPROC_FUNCS j = Raise IndexError).
    { intros j. unfold py_nth. destruct (_ || _); [now right|]. destruct (nth_error _ _); [left; eauto|now right]. }
    assert (Z : py_nth POSTPROC_FUNCS i = Raise IndexError).
    { unfold py_nth. rewrite L. destruct (Z.ltb_spec i 0).
      - assert (C : (i + 24 <? 0) = true) by (apply Z.ltb_lt; lia). now rewrite C.
      - assert (C : (24 <=? i) = true) by (apply Z.leb_le; lia). now rewrite C, orb_true_r. }
    induction is as [|a is IH]; [destruct I|]. cbn [map mapM json_func]. destruct (Y a) as [(f & E)|E]; rewrite E; cbn [bind]; [|reflexivity].
    destruct I as [->|I]; [congruence|]. now rewrite IH. }
  now rewrite X.
Qed.
Example C59_ex : cfg_set (txt "postproc_funcs_filter") (txt "[0, 3]") = Ok (txt "[""lambda x: x"", ""lambda x: safe_inverse(x**2)""]") /\
  (let* v := cast_param_val (txt "postproc_funcs_filter") (txt "[""lambda x: x"", ""lambda x: safe_inverse(x**2)""]") in gen_postproc_filter v) = Ok (CList [JInt 0; JInt 3]) /\
  cfg_set (txt "postproc_funcs_filter") (txt "[0, 24]") = Raise IndexError.
Proof. vm_compute. repeat split. Qed.

(** ---- C82 ---- *)
(** A loaded configuration without a left-hand side, whose lists contain integers only, can be saved and loaded again:
    every setting comes back, except that the version of the table file is chosen anew. *)
Theorem C82_saved_reloads_without_lhs listdir items c listdir' : load listdir (Some items) = Ok c -> c_get c "lhs_type" = CNone ->
  Forall (fun k => match c_get c k with CNone | CInt _ => True | CList l => ints (JList l) | _ => False end)
         ["ab_polys_special_params"; "a_coeffs_range"; "b_coeffs_range"; "lhs_params"]%string ->
  exists items' p op, save c = Ok items' /\ c_get c "hashtable_file" = CStr p /\ c_get c "hashtable_file_operation" = CStr op /\
  forall p', gen_hashtable_filename listdir' (text_eqb op (txt "generate")) (lower (strip p)) = Ok p' ->
  exists c', load listdir' (Some items') = Ok c' /\ c_get c' "hashtable_file" = CStr p' /\
    forall k, In (txt k) (map fst CONFIG_PARAMS_TYPES) -> k <> "hashtable_file"%string -> c_get c' k = c_get c k.
Proof.
  intros L N J. destruct (roundtrip listdir items c listdir' L N) as (items' & p & op & S & P & O & H).
  { intros k I. unfold json_keys in I. apply in_map_iff in I as (k' & <- & I). rewrite Forall_forall in J. exact (J k' I). }
  exists items', p, op. split; [exact S|]. split; [exact P|]. split; [exact O|]. intros p' G. destruct (H p' G) as (c' & L' & F' & A). exists c'. split; [exact L'|]. split; [exact F'|].
  intros k I NK. apply (A (txt k) I). intros E. apply NK. unfold K_file, txt in E. apply (f_equal string_of_list_ascii) in E. now rewrite !string_of_list_ascii_of_string in E.
Qed.
(** The configuration saved with the results of a run, which always has a left-hand side, cannot be loaded. *)
Theorem C82_results_config_reloads_refuted listdir items c n listdir' : load listdir (Some items) = Ok c -> c_get c "lhs_type" = CLhs n ->
  exists items', save c = Ok items' /\ load listdir' (Some items') = Raise ValueError.
Proof. exact (no_roundtrip listdir items c n listdir'). Qed.
(** What is written for the left-hand side: the two classes, as python shows them. *)
Theorem C82_lhs_written listdir items c n : load listdir (Some items) = Ok c -> c_get c "lhs_type" = CLhs n ->
  exists items', save c = Ok items' /\
    ((n = txt "ulcd" /\ In (txt "lhs_type", txt "{'enum': <class 'lhs_evaluators.ULCDEnumerator'>, 'eval': <class 'lhs_evaluators.ULCDEvaluator'>}") items') \/
     (n = txt "rationalfunc" /\ In (txt "lhs_type", txt "{'enum': <class 'lhs_evaluators.RationalFuncEnumerator'>, 'eval': <class 'lhs_evaluators.RationalFuncEvaluator'>}") items')).
Proof.
  intros L N. change (cg c K_lhs = CLhs n) in N. destruct (load_inv _ _ _ L) as (c1 & p0 & hf & pf & op & C & F & O & IO & G & P & FN).
  destruct (filter_indices _ _ P) as (is & -> & R). assert (CF : cg c K_filter = CList (map JInt is)) by (rewrite FN; reflexivity).
  exists (map (fun k => (k, saved_text c is k)) keys). split; [now apply save_ok|].
  assert (W : In (K_lhs, cval_str (CLhs n)) (map (fun k => (k, saved_text c is k)) keys)).
  { apply in_map_iff. exists K_lhs. split; [|exact (in_keys _ _ key_lhs)]. unfold saved_text. change (text_eqb K_lhs K_filter) with false. cbv iota. rewrite N. reflexivity. }
  pose proof (loaded_good items c1 K_lhs lhs_type_parser C key_lhs) as GL. rewrite FN, lhs_final in N. rewrite N in GL.
  assert (E : n = txt "ulcd" \/ n = txt "rationalfunc").
  { destruct GL as [GL|[t GL]]; [discriminate GL|]. unfold lhs_type_parser in GL. destruct (string_parser t) as [| | |u| | |]; try discriminate GL.
    destruct (existsb (text_eqb u) LHS_TYPES) eqn:EX; [|discriminate GL]. assert (u = n) by congruence. subst u.
    apply existsb_exists in EX as (y & I & Ey). apply text_eqb_eq in Ey. subst y. unfold LHS_TYPES in I. destruct I as [I|[I|[]]]; [right|left]; symmetry; exact I. }
  destruct E as [-> | ->]; [left|right]; (split; [reflexivity|exact W]).
Qed.
(** Texts inside a list are written with apostrophes, which cannot be read back. *)
Theorem C82_texts_in_lists_refuted : exists listdir items c items', load listdir (Some items) = Ok c /\ c_get c "lhs_type" = CNone /\
  c_get c "a_coeffs_range" = CList [JStr (txt "x")] /\ save c = Ok items' /\ In (txt "a_coeffs_range", txt "['x']") items' /\ load listdir (Some items') = Raise ValueError.
Proof.
  exists (fun _ => [txt "pi_v2.pkl"]), (map (fun '(k, v) => (txt k, txt v)) [("a_coeffs_range", "[""x""]"); ("postproc_funcs_filter", "[]"); ("hashtable_file_operation", "use"); ("hashtable_file", "pi")]%string).
  eexists. eexists. split; [vm_compute; reflexivity|]. split; [vm_compute; reflexivity|]. split; [vm_compute; reflexivity|]. split; [vm_compute; reflexivity|]. split; [vm_compute; tauto|vm_compute; reflexivity].
Qed.
Definition sample (lhs : list (text * text)) : list (text * text) := map (fun '(k, v) => (txt k, txt v))
  [("const", "pi"); ("ab_polys_type", "Normal"); ("a_coeffs_range", "[[[1, 5]], [[-2, 3]]]"); ("i", " 7"); ("is_test", "TRUE");
   ("postproc_funcs_filter", "[""safe_inverse"", ""lambda x: x""]"); ("hashtable_file_operation", "use"); ("gen_hashtable_only", "auto"); ("hashtable_file", "Tables/pi")]%string ++ lhs.
Example C82_ex : exists c, load (fun _ => [txt "pi_v2.pkl"]) (Some (sample [])) = Ok c /\ c_get c "lhs_type" = CNone /\
  c_get c "a_coeffs_range" = CList [JList [JList [JInt 1; JInt 5]]; JList [JList [JInt (-2); JInt 3]]] /\ c_get c "postproc_funcs_filter" = CList [JInt 1; JInt 0] /\
  c_get c "hashtable_file" = CStr (txt "tables/pi_v2.pkl") /\ c_get c "gen_hashtable_only" = CBool false /\
  match (let* items := save c in load (fun _ => [txt "pi_v2.pkl"]) (Some items)) with
  | Ok c' => map (d_get text_eqb c') (map fst CONFIG_PARAMS_TYPES) = map (d_get text_eqb c) (map fst CONFIG_PARAMS_TYPES)
  | Raise _ => False
  end.
Proof. eexists. split; [vm_compute; reflexivity|]. vm_compute. repeat split. Qed.
Example C82_lhs_ex : exists c, load (fun _ => [txt "pi_v2.pkl"]) (Some (sample [(txt "lhs_type", txt "ULCD")])) = Ok c /\ c_get c "lhs_type" = CLhs (txt "ulcd").
Proof. eexists. split; vm_compute; reflexivity. Qed.

(** ---- C83 ---- *)
(** Which settings a file must give *)
Theorem C83_required listdir items c : load listdir (Some items) = Ok c ->
  Forall (fun k => In (txt k) (map fst items)) ["hashtable_file"; "hashtable_file_operation"; "postproc_funcs_filter"]%string /\
  exists op, c_get c "hashtable_file_operation" = CStr op /\ In op [txt "generate"; txt "expand"; txt "use"].
Proof.
  intros L. destruct (load_inv _ _ _ L) as (c1 & p0 & hf & pf & op & C & F & O & IO & G & P & FN). clear L.
  assert (K : forall k, cg c1 k <> CNone -> In k (map fst items)).
  { intros k N. destruct (cast_all_inv items [] c1 C k) as [[E _]|(v & I & _)]; [contradiction|]. apply in_map_iff. exists (k, v). split; [reflexivity|exact I]. }
  split.
  - repeat constructor; apply K; [fold K_file; congruence|fold K_op; congruence|]. fold K_filter. intros E. rewrite E in P. discriminate.
  - exists op. split; [change (cg c K_op = CStr op); rewrite FN; exact O|]. unfold is_op in IO. rewrite existsb_exists in IO. destruct IO as (x & I & E). apply text_eqb_eq in E. now subst.
Qed.
(** Settings that the file does not give are None: the default values of the optional ones are never used. *)
Theorem C83_defaults_refuted listdir items c k : load listdir (Some items) = Ok c -> In (txt k) (map fst CONFIG_PARAMS_TYPES) -> ~ In (txt k) (map fst items) -> c_get c k = CNone.
Proof.
  intros L I N. destruct (C83_required listdir items c L) as [R _]. destruct (load_inv _ _ _ L) as (c1 & p0 & hf & pf & op & C & F & O & IO & G & P & FN). clear L.
  change (c_get c k) with (cg c (txt k)). rewrite FN. assert (E : cg c1 (txt k) = CNone).
  { destruct (cast_all_inv items [] c1 C (txt k)) as [[E _]|(v & J & _)]; [exact E|]. exfalso. apply N. apply in_map_iff. exists (txt k, v). split; [reflexivity|exact J]. }
  inversion R as [|? ? R1 R2]; subst. inversion R2 as [|? ? R3 R4]; subst. inversion R4 as [|? ? R5 _]; subst. unfold final.
  destruct (text_eqb (txt k) K_file) eqn:E1; [apply text_eqb_eq in E1; rewrite E1 in N; contradiction|].
  destruct (text_eqb (txt k) K_filter) eqn:E2; [apply text_eqb_eq in E2; rewrite E2 in N; contradiction|].
  destruct (text_eqb (txt k) K_textual) eqn:E3.
  { exfalso. apply text_eqb_eq in E3. rewrite E3 in I. assert (NT : existsb (text_eqb K_textual) (map fst CONFIG_PARAMS_TYPES) = false) by (vm_compute; reflexivity).
    assert (TT : existsb (text_eqb K_textual) (map fst CONFIG_PARAMS_TYPES) = true) by (apply existsb_exists; exists K_textual; split; [exact I|now apply text_eqb_eq]). congruence. }
  rewrite E. now destruct (text_eqb (txt k) K_only).
Qed.
(** The function indices are those of the functions named *)
Theorem C83_functions listdir items c : load listdir (Some items) = Ok c ->
  exists ns is, c_get c "postproc_funcs_filter" = CList (map JInt is) /\ Forall2 (fun n i => 0 <= i /\ nth_error POSTPROC_FUNCS (Z.to_nat i) = Some n) ns is /\
    (c_get c "postproc_funcs_filter_textual" = CList (map JStr ns) \/ (c_get c "postproc_funcs_filter_textual" = CStr [] /\ ns = [])).
Proof.
  intros L. destruct (load_inv _ _ _ L) as (c1 & p0 & hf & pf & op & C & F & O & IO & G & P & FN). clear L.
  assert (T : c_get c "postproc_funcs_filter_textual" = cg c1 K_filter) by (change (cg c K_textual = cg c1 K_filter); rewrite FN; reflexivity).
  assert (FF : c_get c "postproc_funcs_filter" = pf) by (change (cg c K_filter = pf); rewrite FN; reflexivity).
  rewrite T, FF. clear T FF.
  assert (LI : forall x l i j, 0 <= i -> list_index x l i = Ok j -> i <= j /\ nth_error l (Z.to_nat (j - i)) = Some x).
  { induction l as [|y l IH]; intros i j Hi H; cbn [list_index] in H; [discriminate|]. destruct (text_eqb x y) eqn:E.
    - injection H as <-. apply text_eqb_eq in E. subst y. rewrite Z.sub_diag. split; [lia|reflexivity].
    - apply IH in H as [H1 H2]; [|lia]. split; [lia|]. replace (Z.to_nat (j - i)) with (S (Z.to_nat (j - (i + 1)))) by lia. exact H2. }
  unfold gen_postproc_filter in P. destruct (cg c1 K_filter) as [| | |s|l| |]; try discriminate.
  - destruct s as [|a s].
    + injection P as <-. exists [], []. split; [reflexivity|]. split; [constructor|right; now split].
    + exfalso. cbn [mapM] in P. assert (X : list_index [a] POSTPROC_FUNCS 0 = Raise ValueError).
      { assert (LL : forallb (fun f => Nat.ltb 1 (length f)) POSTPROC_FUNCS = true) by (vm_compute; reflexivity). revert LL. generalize 0. generalize POSTPROC_FUNCS.
        induction l as [|y l IH]; intros z LL; cbn [list_index]; [reflexivity|]. cbn [forallb] in LL. apply andb_true_iff in LL as [L1 L2]. destruct (text_eqb [a] y) eqn:E; [|now apply IH].
        apply text_eqb_eq in E. subst y. discriminate. }
      rewrite X in P. discriminate.
  - destruct (mapM json_index l) as [is|] eqn:M; cbn [bind] in P; [|discriminate]. injection P as <-.
    assert (X : exists ns, l = map JStr ns /\ Forall2 (fun n i => 0 <= i /\ nth_error POSTPROC_FUNCS (Z.to_nat i) = Some n) ns is).
    { clear -M LI. revert is M. induction l as [|j l IH]; intros is M; cbn [mapM] in M; [injection M as <-; exists []; split; [reflexivity|constructor]|].
      destruct (json_index j) as [i|] eqn:E; cbn [bind] in M; [|discriminate]. destruct (mapM json_index l) as [is'|]; cbn [bind] in M; [|discriminate]. injection M as <-.
      destruct (IH is' eq_refl) as (ns & -> & F2). destruct j as [| | |s|]; try discriminate. cbn [json_index] in E. apply LI in E as [E1 E2]; [|lia]. rewrite Z.sub_0_r in E2.
      exists (s :: ns). split; [reflexivity|]. constructor; [split; assumption|exact F2]. }
    destruct X as (ns & -> & F2). exists ns, is. split; [reflexivity|]. split; [exact F2|now left].
Qed.
(** Each setting given once is read according to its type: numbers as integers, yes-or-no settings as booleans (in any
    case), polynomial types by name, ranges as lists, and texts in small letters without surrounding blanks. *)
Theorem C83_types listdir items c k v : load listdir (Some items) = Ok c -> NoDup (map fst items) -> In (txt k, v) items ->
  (In k number_settings -> (forall z, v = int_chars z -> c_get c k = CInt z) /\ (c_get c k = CNone \/ exists z, c_get c k = CInt z)) /\
  (In k boolean_settings -> (lower v = chars "true" -> c_get c k = CBool true) /\ (lower v = chars "false" -> c_get c k = CBool false) /\ (c_get c k = CNone \/ exists b, c_get c k = CBool b)) /\
  (k = "ab_polys_type"%string -> (lower v = chars "normal" -> c_get c k = CPoly PNormal) /\ (lower v = chars "indexed" -> c_get c k = CPoly PIndexed) /\
     (lower v = chars "sparse" -> c_get c k = CPoly PSparse) /\ (c_get c k = CNone \/ exists p, c_get c k = CPoly p)) /\
  (In k ["a_coeffs_range"; "b_coeffs_range"; "ab_polys_special_params"; "lhs_params"]%string -> forall l, ints (JList l) -> v = json_repr (JList l) -> c_get c k = CList l) /\
  (k = "const"%string -> plain v -> v <> chars "none" -> v <> chars "true" -> v <> chars "false" -> c_get c k = CStr v).
Proof.
  intros L ND IV. destruct (load_inv _ _ _ L) as (c1 & p0 & hf & pf & op & C & F & O & IO & G & P & FN). clear L F O IO G P.
  assert (V : cast_param_val (txt k) v = Ok (cg c1 (txt k))).
  { destruct (cast_all_inv items [] c1 C (txt k)) as [[_ N]|(v' & I & E)]; [exfalso; apply N; apply in_map_iff; exists (txt k, v); split; [reflexivity|exact IV]|].
    assert (v' = v) as ->; [|exact E]. clear -ND IV I. induction items as [|(a, b) items IH]; [destruct I|]. cbn [map fst] in ND. inversion ND as [|? ? N1 N2]; subst.
    assert (NA : forall w, In (a, w) items -> False) by (intros w J; apply N1, in_map_iff; exists (a, w); now split).
    destruct I as [I|I], IV as [J|J].
    - congruence.
    - injection I as -> ->. exfalso. eapply NA, J.
    - injection J as -> ->. exfalso. eapply NA, I.
    - now apply IH. }
  assert (K : forall f, text_eqb (txt k) K_file = false -> text_eqb (txt k) K_filter = false -> text_eqb (txt k) K_textual = false -> text_eqb (txt k) K_only = false ->
    In (txt k, f) CONFIG_PARAMS_TYPES -> castf f v = Ok (c_get c k)).
  { intros f E1 E2 E3 E4 I. change (c_get c k) with (cg c (txt k)). rewrite FN. unfold final. rewrite E1, E2, E3, E4, <- (param _ _ I). exact V. }
  clear V FN C.
  assert (B : forall s, lower v = s -> strip s = s -> strip (lower v) = s) by (intros s -> E; exact E).
  repeat split.
  - intros z ->. cut (castf int_parser (int_chars z) = Ok (CInt z)); [|refine (again_int (CInt z) (or_intror (ex_intro _ (z_text z) _))); unfold int_parser; now rewrite py_int_text].
    intros E. cut (castf int_parser (int_chars z) = Ok (c_get c k)); [congruence|]. cbn [In number_settings] in H. apply K; destruct H as [<-|[<-|[<-|[<-|[<-|[<-|[<-|[<-|[<-|[]]]]]]]]]]; try reflexivity; cbn [CONFIG_PARAMS_TYPES map In]; tauto.
  - cut (castf int_parser v = Ok (c_get c k)).
    { unfold castf, int_parser. destruct (text_eqb (strip (lower v)) (txt "none")); [intros E; left; congruence|]. destruct (py_int v) as [z|]; cbn [bind]; [|discriminate]. intros E. right. exists z; congruence. }
    cbn [In number_settings] in H. apply K; destruct H as [<-|[<-|[<-|[<-|[<-|[<-|[<-|[<-|[<-|[]]]]]]]]]]; try reflexivity; cbn [CONFIG_PARAMS_TYPES map In]; tauto.
  - intros E. cut (castf bool_parser v = Ok (c_get c k)); [|cbn [In boolean_settings] in H; apply K; destruct H as [<-|[<-|[<-|[]]]]; try reflexivity; cbn [CONFIG_PARAMS_TYPES map In]; tauto].
    unfold castf, bool_parser. rewrite E. match goal with |- ?A = Ok _ -> _ => let y := eval vm_compute in A in change A with y end. congruence.
  - intros E. cut (castf bool_parser v = Ok (c_get c k)); [|cbn [In boolean_settings] in H; apply K; destruct H as [<-|[<-|[<-|[]]]]; try reflexivity; cbn [CONFIG_PARAMS_TYPES map In]; tauto].
    unfold castf, bool_parser. rewrite E. match goal with |- ?A = Ok _ -> _ => let y := eval vm_compute in A in change A with y end. congruence.
  - cut (castf bool_parser v = Ok (c_get c k)); [|cbn [In boolean_settings] in H; apply K; destruct H as [<-|[<-|[<-|[]]]]; try reflexivity; cbn [CONFIG_PARAMS_TYPES map In]; tauto].
    unfold castf, bool_parser. destruct (text_eqb (strip (lower v)) (txt "none")); [intros E; left; congruence|]. destruct (text_eqb (lower v) (txt "false")); [intros E; right; exists false; congruence|]. destruct (text_eqb (lower v) (txt "true")); [intros E; right; exists true; congruence|discriminate].
  - intros E. subst k. cut (castf poly_type_parser v = Ok (c_get c "ab_polys_type")); [|apply K; try reflexivity; cbn [CONFIG_PARAMS_TYPES map In]; tauto].
    unfold castf, poly_type_parser, string_parser. rewrite <- !strip_lower, E. match goal with |- ?A = Ok _ -> _ => let y := eval vm_compute in A in change A with y end. congruence.
  - intros E. subst k. cut (castf poly_type_parser v = Ok (c_get c "ab_polys_type")); [|apply K; try reflexivity; cbn [CONFIG_PARAMS_TYPES map In]; tauto].
    unfold castf, poly_type_parser, string_parser. rewrite <- !strip_lower, E. match goal with |- ?A = Ok _ -> _ => let y := eval vm_compute in A in change A with y end. congruence.
  - intros E. subst k. cut (castf poly_type_parser v = Ok (c_get c "ab_polys_type")); [|apply K; try reflexivity; cbn [CONFIG_PARAMS_TYPES map In]; tauto].
    unfold castf, poly_type_parser, string_parser. rewrite <- !strip_lower, E. match goal with |- ?A = Ok _ -> _ => let y := eval vm_compute in A in change A with y end. congruence.
  - subst k. cut (castf poly_type_parser v = Ok (c_get c "ab_polys_type")); [|apply K; try reflexivity; cbn [CONFIG_PARAMS_TYPES map In]; tauto].
    unfold castf, poly_type_parser. destruct (text_eqb (strip (lower v)) (txt "none")); [intros E; left; congruence|]. destruct (string_parser v); try discriminate. destruct (d_get _ _ _) as [q|]; [|discriminate]. intros E. right. exists q; congruence.
  - intros H l J ->. cut (castf json_parser (json_repr (JList l)) = Ok (c_get c k)); [|cbn [In] in H; apply K; destruct H as [<-|[<-|[<-|[<-|[]]]]]; try reflexivity; cbn [CONFIG_PARAMS_TYPES map In]; tauto].
    rewrite (again_json (CList l) J : castf json_parser (json_repr (JList l)) = _). congruence.
  - intros -> PV N1 N2 N3. cut (castf str_parser v = Ok (c_get c "const")); [|apply K; try reflexivity; cbn [CONFIG_PARAMS_TYPES map In]; tauto].
    assert (LV : lower v = v).
    { clear -PV. induction PV as [|a v H PV IH]; [reflexivity|]. unfold lower in *. cbn [map]. f_equal; [|exact IH]. revert H. unfold plain_char. destruct a as [[] [] [] [] [] [] [] []]; cbn; intros H; try reflexivity; exfalso; revert H; vm_compute; intuition congruence. }
    assert (SV : strip v = v).
    { apply strip_id. eapply Forall_impl; [|exact PV]. intros a. unfold plain_char. destruct a as [[] [] [] [] [] [] [] []]; cbn; intros H; try reflexivity; exfalso; revert H; vm_compute; intuition congruence. }
    assert (Y : forall s, v <> s -> text_eqb v s = false) by (intros s N; destruct (text_eqb v s) eqn:E; [apply text_eqb_eq in E; contradiction|reflexivity]).
    unfold castf, str_parser, string_parser. rewrite LV, SV, LV, (Y _ N1 : text_eqb v (txt "none") = false), (Y _ N2 : text_eqb v (txt "true") = false), (Y _ N3 : text_eqb v (txt "false") = false). congruence.
Qed.
Example C83_ex : exists c, load (fun _ => []) (Some (sample [])) = Ok c /\ c_get c "validate_hashtable_extend_no_replication" = CNone /\ c_get c "i" = CInt 7 /\
  load (fun _ => []) (Some [(txt "hashtable_file", txt "x"); (txt "hashtable_file_operation", txt "use")]) = Raise TypeError /\
  load (fun _ => []) (Some (sample [(txt "postproc_funcs_filter", txt "[""sin""]")])) = Raise ValueError.
Proof. eexists. split; [vm_compute; reflexivity|]. vm_compute. repeat split. Qed.

Print Assumptions C58_use.
Print Assumptions C58_generate_new.
Print Assumptions C58_generate_first.
Print Assumptions C58_generate_overwrites_refuted.
Print Assumptions C58_backup_used_refuted.
Print Assumptions C58_dot_refuted.
Print Assumptions C59_indices_survive.
Print Assumptions C59_bad_index.
Print Assumptions C82_saved_reloads_without_lhs.
Print Assumptions C82_results_config_reloads_refuted.
Print Assumptions C82_lhs_written.
Print Assumptions C82_texts_in_lists_refuted.
Print Assumptions C83_required.
Print Assumptions C83_defaults_refuted.
Print Assumptions C83_functions.
Print Assumptions C83_types.

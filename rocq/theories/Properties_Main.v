(** Properties of whole runs of the program. *)
From Coq Require Import Ascii String ZArith QArith List Bool Lia Permutation.
From Verif Require Import PyBase PyBase_Proofs Rnd ContFrac_Model Hashtable_Model Hashtable_Proofs ULCD_Model Rational_Model MITM_Model Results_Model
  Config_Model Consts_Model Main_Model Spec_MITM MITM_Build MITM_Build2 MITM_Clicks Properties_MITM Spec_Rational Rational_Enum Properties_Rational Spec_Main Main_Proofs.
From Verif Require Import Properties_MITM2.
From Verif Require Enum_Roots Properties_ULCD Properties_Config Properties_Results.
Import ListNotations.
Local Open Scope Z_scope.
Local Open Scope list_scope.

(** ---- concrete runs for the examples ---- *)
(** The numbers are those of mpmath: they have no to_eng_string and no is_normal. *)
Definition env_at (t1 t2 : string) : env := {| v_pi := []; v_e := []; v_fsqrt := Enum_Roots.isqrt53; v_ibinom := ib_ex; v_masks := fun l => l;
  v_order := fun _ l => l; v_target := None; v_eng := eng_pinned; v_kind := KMpf; v_pgcd := fun _ _ => [1];
  v_sq := fun q => q; v_est := fun _ => Raise ValueError; v_req := fun _ _ => Ok 1; v_acc10 := fun _ => 1%Q;
  v_roots := fun _ => []; v_upar := fun _ => []; v_rpar := fun _ => [];
  v_irq := None; v_t1 := txt t1; v_t2 := txt t2; v_pdf := Ok tt |}.
Definition env_ex : env := env_at "161126_1345" "161126_1345".
Definition conf_ex (const op only range funcs lhs : string) : list (text * text) := map (fun '(k, v) => (txt k, txt v))
  [("const", const); ("ab_polys_type", "normal"); ("a_coeffs_range", range); ("b_coeffs_range", "[[[1, 2]]]");
   ("hashtable_num_of_iterations", "4"); ("hashtable_precision", "8"); ("postproc_funcs_filter", funcs);
   ("hashtable_file_operation", op); ("hashtable_file", "pi.pkl"); ("gen_hashtable_only", only);
   ("first_filtering_num_of_iterations", "5"); ("first_filtering_precision", "5");
   ("second_filtering_max_num_of_iterations", "5"); ("second_filtering_precision", "5");
   ("third_filtering_max_num_of_iterations", "5"); ("third_filtering_precision", "5");
   ("lhs_type", "ulcd"); ("lhs_params", lhs)]%string.
(** One left-hand side, and none at all (the last number must be bigger than the third one). *)
Definition one_lhs : string := "[[1, 2], [1, 2], [0, 1], [1, 2]]".
Definition no_lhs : string := "[[1, 2], [1, 2], [5, 6], [1, 2]]".
Definition w0 : world := {| w_tables := []; w_dirs := []; w_files := [] |}.
Definition start (v : env) (conf : list (text * text)) (w : world) : world * option (res unit) := run v (dir_list w) (Some conf) w.
Definition gen1 : list (text * text) := conf_ex "pi" "generate" "auto" "[[[1, 2], [1, 2]]]" "[""lambda x: x""]" one_lhs.
Definition exp1 : list (text * text) := conf_ex "pi" "expand" "auto" "[[[1, 3], [1, 2]]]" "[""lambda x: x""]" one_lhs.
Definition w1 : world := fst (start env_ex gen1 w0).
Definition w2 : world := fst (start env_ex exp1 w1).
(** The number of keys of a table. *)
Definition keys_of (w : world) (p : string) : option nat := option_map (fun s => length (h_data (mi_table (sv_mitm s)))) (table_at w (txt p)).
Lemma has_keys w p n : keys_of w p = Some n -> exists s, table_at w (txt p) = Some s /\ length (h_data (mi_table (sv_mitm s))) = n.
Proof. unfold keys_of. destruct (table_at w (txt p)) as [s|]; [|discriminate]. intros H. injection H as <-. exists s. auto. Qed.
Lemma ran v conf w r : snd (start v conf w) = r -> run v (dir_list w) (Some conf) w = (fst (start v conf w), r).
Proof. intros <-. apply surjective_pairing. Qed.

Lemma h1 : history w1.
Proof.
  eapply (H_run env_ex (dir_list w0) (Some gen1) w0); [now apply H_empty|intros ab l; apply Permutation_refl|intros q s [=]| |apply surjective_pairing].
  intros c L h E. vm_compute in L. injection L as <-. vm_compute in E. injection E as <-. lia.
Qed.
Lemma h2 : history w2.
Proof.
  eapply (H_run env_ex (dir_list w1) (Some exp1) w1); [exact h1|intros ab l; apply Permutation_refl|intros q s [=]| |apply surjective_pairing].
  intros c L h E. vm_compute in L. injection L as <-. vm_compute in E. injection E as <-. lia.
Qed.

(** ---- C84: which table files a run changes ---- *)
(** No run touches another table file than the one in its settings, and the operation 'use' touches none. *)
Theorem C84_only_named_file : forall v c m0 w w' r p, run_with v c m0 w = (w', r) -> ~ table_path c p -> table_at w' p = table_at w p.
Proof.
  intros v c m0 w w' r p H N. apply run_course in H.
  assert (E : forall m g1 x w1 x1, (if is_use c then (w, Some (Ok x)) else extend_in v c m g1 x w) = (w1, Some (Ok x1)) -> table_at w1 p = table_at w p).
  { intros m g1 x w1 x1 HX. destruct (is_use c); [injection HX as <- _; reflexivity|].
    destruct (extend_ok _ _ _ _ _ _ _ _ HX) as (ra & rb & q & x0 & t & _ & _ & HP & _ & _ & _ & ->).
    unfold table_at. cbn [write_table w_tables]. apply (d_get_set_other _ text_eqb_eq). intros ->. contradiction. }
  destruct H as [r0 _|i g name m g1 x w1 x1 _ _ HO HX _|i g name m g1 x w1 x1 w2 r0 _ _ HO HX _ HF]; [reflexivity|eauto|].
  apply fae_cases, searched_tables in HF. unfold table_at in *. rewrite HF. eauto.
Qed.
Theorem C84_use_reads_only : forall v c m0 w w' r, run_with v c m0 w = (w', r) -> operation c "use" -> w_tables w' = w_tables w.
Proof.
  intros v c m0 w w' r H U. apply is_use_iff in U. apply run_course in H.
  destruct H as [r0 _|i g name m g1 x w1 x1 _ _ HO HX _|i g name m g1 x w1 x1 w2 r0 _ _ HO HX _ HF]; [reflexivity| |].
  - rewrite U in HX. now injection HX as <- _.
  - rewrite U in HX. apply fae_cases, searched_tables in HF. rewrite HF. now injection HX as <- _.
Qed.


(** Generating: either the run stops without any effect, or the named file is written anew; then its numeric keys hold
    the values of the enumerated pairs and selected functions, for the settings of this run, and nothing else. *)
Theorem C84_generate : forall v c m0 w w' r p, env_ok v -> operation c "generate" -> table_path c p -> run_with v c m0 w = (w', r) ->
  (w' = w /\ r <> Some (Ok tt)) \/
  exists s cl sp pairs is n, table_at w' p = Some s /\
    c_get c "ab_polys_type" = CPoly cl /\ as_special (c_get c "ab_polys_special_params") = Some sp /\
    ints_setting c "postproc_funcs_filter" is /\ c_get c "hashtable_num_of_iterations" = CInt n /\
    enumerates v {| en_class := cl; en_special := sp |} true c pairs /\
    forall q e, stored (mi_table (sv_mitm s)) (KNum q) e <->
      exists ab i, e = TEnt ab i /\ In ab pairs /\ In i is /\ records v n ab i q.
Proof.
  intros v c m0 w w' r p VO G TP H. pose proof (not_use _ _ G ltac:(discriminate)) as U.
  destruct (run_writes _ _ _ _ _ _ _ H U TP) as [S|(i & g & name & m & g1 & x & w1 & x1 & _ & _ & HO & HX & HT)]; [now left|right].
  destruct HO as [p0 s0 O0 _ _|p0 s0 st y O0 _ _ _ _|st n y O0 HS HN HM].
  - now apply (op_excl _ _ _ O0) in G.
  - now apply (op_excl _ _ _ O0) in G.
  - unfold mitm_new in HM. destruct (enumer_new (s_class st) (s_special st)) as [en|e0] eqn:EN; cbn [bind] in HM; [|discriminate].
    assert (EE : en = {| en_class := s_class st; en_special := s_special st |}) by
      (unfold enumer_new in EN; destruct (s_class st), (s_special st); congruence).
    destruct (settings_read _ _ _ _ _ HS) as (F1 & F2 & F3 & F4 & F5 & F6 & F7).
    injection HM as <-. destruct (extend_table v c _ _ _ _ _ _ (s_filter st) VO HX) as (pairs & HE & HI); cbn [mi_table mi_filter mi_trunc mi_funcs]; auto.
    { apply ok_new. }
    cbn [mi_table mi_enum mi_exp_only mi_iters] in HE, HI.
    exists {| sv_mitm := x1; sv_gen := g |}, (s_class st), (s_special st), pairs, (s_filter st), n. cbn [sv_mitm].
    repeat (split; [assumption|]). split; [unfold as_int in HN; destruct (c_get c "hashtable_num_of_iterations"); congruence|].
    split; [now rewrite <- EE|]. intros q e. rewrite (HI q e). split; [|now right].
    intros [S|S]; [|exact S]. now apply stored_new in S.
Qed.
(** Expanding: all that was in the file stays and the values for the settings of this run are added, but with the number
    of iterations of the object in the file; the enumerator in the file is kept when its class fits (see C74). *)
Theorem C84_expand : forall v c m0 w w' r p, env_ok v -> tables_built w -> operation c "expand" -> table_path c p -> run_with v c m0 w = (w', r) ->
  (w' = w /\ r <> Some (Ok tt)) \/
  exists s0 s cl sp en pairs is, table_at w p = Some s0 /\ table_at w' p = Some s /\
    c_get c "ab_polys_type" = CPoly cl /\ as_special (c_get c "ab_polys_special_params") = Some sp /\
    (en = mi_enum (sv_mitm s0) /\ (cl = PNormal \/ cl = en_class en) \/
     en = {| en_class := cl; en_special := sp |} /\ cl <> PNormal /\ cl <> en_class (mi_enum (sv_mitm s0))) /\
    ints_setting c "postproc_funcs_filter" is /\ enumerates v en (mi_exp_only (sv_mitm s0)) c pairs /\
    forall q e, stored (mi_table (sv_mitm s)) (KNum q) e <->
      stored (mi_table (sv_mitm s0)) (KNum q) e \/
      exists ab i, e = TEnt ab i /\ In ab pairs /\ In i is /\ records v (mi_iters (sv_mitm s0)) ab i q.
Proof.
  intros v c m0 w w' r p VO B G TP H. pose proof (not_use _ _ G ltac:(discriminate)) as U.
  destruct (run_writes _ _ _ _ _ _ _ H U TP) as [S|(i & g & name & m & g1 & x & w1 & x1 & _ & _ & HO & HX & HT)]; [now left|right].
  destruct HO as [p0 s0 O0 _ _|p0 s0 st y O0 TP0 T0 HS HR|st n y O0 HS HN HM].
  - now apply (op_excl _ _ _ O0) in G.
  - assert (p0 = p) as -> by (unfold table_path in *; congruence).
    pose proof (B _ _ (table_in _ _ _ T0)) as BS. rewrite (unpickle_same _ BS) in HR.
    destruct (settings_read _ _ _ _ _ HS) as (F1 & F2 & F3 & F4 & F5 & F6 & F7).
    unfold mitm_redefine in HR. set (x0 := sv_mitm s0) in *.
    destruct (if isinstance (en_class (mi_enum x0)) (s_class st) then Ok (mi_enum x0) else enumer_new (s_class st) (s_special st)) as [en|e0] eqn:EN; [|discriminate].
    injection HR as <-.
    assert (HT0 : table_ok (mi_table x0)) by exact (proj1 (proj1 (built_p _ BS))).
    destruct (extend_table v c _ _ _ _ _ _ (s_filter st) VO HX) as (pairs & HE & HI); cbn [mi_table mi_filter mi_trunc mi_funcs]; auto.
    cbn [mi_table mi_enum mi_exp_only mi_iters] in HE, HI.
    exists s0, {| sv_mitm := x1; sv_gen := g |}, (s_class st), (s_special st), en, pairs, (s_filter st). cbn [sv_mitm]. fold x0.
    repeat (split; [assumption|]). split.
    { destruct (isinstance (en_class (mi_enum x0)) (s_class st)) eqn:EI.
      - injection EN as <-. left. split; [reflexivity|]. destruct (en_class (mi_enum x0)), (s_class st); cbn in EI; try discriminate; auto.
      - right. split; [unfold enumer_new in EN; destruct (s_class st), (s_special st); congruence|].
        destruct (en_class (mi_enum x0)), (s_class st); cbn in EI; try discriminate; split; discriminate. }
    repeat (split; [assumption|]). exact HI.
  - now apply (op_excl _ _ _ O0) in G.
Qed.
(** For the normal class the pairs are those of the ranges that pass the filters. *)
Theorem C84_normal_pairs : forall v en ex c pairs, enumerates v en ex c pairs -> en_class en = PNormal -> forall ab, In ab pairs <-> normal_pair v ex c ab.
Proof. exact enumerates_normal. Qed.
Example C84_ex : env_ok env_ex /\ snd (start env_ex gen1 w0) = Some (Ok tt) /\ snd (start env_ex exp1 w1) = Some (Ok tt) /\
  map (keys_of w1) ["./pi_v1.pkl"; "./pi_v2.pkl"]%string = [Some 2%nat; None] /\
  map (keys_of w2) ["./pi_v1.pkl"; "./pi_v2.pkl"]%string = [Some 3%nat; None].
Proof. split; [intros ab l; apply Permutation_refl|]. vm_compute. repeat split. Qed.

(** ---- C85: versions of table files ---- *)
(** Expanding never makes a new file, although the settings file promises "save to v_latest+1": the file that was loaded
    is overwritten. *)
Theorem C85_expand_in_place : forall v c m0 w w' r, run_with v c m0 w = (w', r) -> operation c "expand" -> map fst (w_tables w') = map fst (w_tables w).
Proof.
  intros v c m0 w w' r H OP. pose proof (not_use _ _ OP ltac:(discriminate)) as U. apply run_course in H.
  assert (E : forall i g name m g1 x w1 x1, as_garg (c_get c "i") = Some i -> obtain_in v c g name m0 w = Some (Ok (m, g1, x)) ->
    extend_in v c m g1 x w = (w1, Some (Ok x1)) -> map fst (w_tables w1) = map fst (w_tables w)).
  { intros i g name m g1 x w1 x1 _ HO HX. destruct (extend_ok _ _ _ _ _ _ _ _ HX) as (ra & rb & q & x0 & t & _ & _ & HP & _ & _ & _ & ->).
    apply obtain_ok in HO. destruct HO as [p s O0 _ _|p s st y O0 TP T _ _|st n y O0 _ _ _].
    - now apply (op_excl _ _ _ O0) in OP.
    - assert (p = q) as -> by (unfold table_path in *; congruence). cbn [write_table w_tables]. apply table_in in T.
      match goal with |- context [d_set _ _ _ ?a] => generalize a as s' end. revert T. clear. induction (w_tables w) as [|[k a] d IH]; intros T s'; [destruct T|].
      cbn [d_set map fst]. destruct (text_eqb q k) eqn:E; [apply text_eqb_eq in E; now subst|]. cbn [map fst]. f_equal. apply IH.
      destruct T as [T|T]; [|exact T]. injection T as -> _. rewrite text_eqb_refl in E. discriminate.
    - now apply (op_excl _ _ _ O0) in OP. }
  destruct H as [r0 _|i g name m g1 x w1 x1 HI HC HO HX _|i g name m g1 x w1 x1 w2 r0 HI HC HO HX _ HF]; [reflexivity| |]; rewrite U in HX.
  - eauto.
  - apply fae_cases, searched_tables in HF. rewrite HF. eauto.
Qed.
Theorem C85_next_version_refuted : exists v listdir items w w' s s', history w /\ run v listdir (Some items) w = (w', Some (Ok tt)) /\
  listdir = dir_list w /\ In (txt "hashtable_file_operation", txt "expand") items /\ In (txt "hashtable_file", txt "pi.pkl") items /\
  map fst (w_tables w') = [txt "./pi_v1.pkl"] /\ table_at w (txt "./pi_v1.pkl") = Some s /\ table_at w' (txt "./pi_v1.pkl") = Some s' /\
  length (h_data (mi_table (sv_mitm s))) <> length (h_data (mi_table (sv_mitm s'))).
Proof.
  exists env_ex, (dir_list w1), exp1, w1, w2.
  destruct (has_keys w1 "./pi_v1.pkl" 2) as (s & E1 & L1); [vm_compute; reflexivity|].
  destruct (has_keys w2 "./pi_v1.pkl" 3) as (s' & E2 & L2); [vm_compute; reflexivity|].
  exists s, s'. split; [exact h1|]. split; [apply ran; vm_compute; reflexivity|]. split; [reflexivity|].
  split; [cbn; tauto|]. split; [cbn; tauto|]. split; [vm_compute; reflexivity|]. split; [exact E1|]. split; [exact E2|]. congruence.
Qed.
(** Generating overwrites an existing table as soon as there are ten versions (see C58). *)
Definition saved_of (w : world) (p : string) : list (text * saved) := match table_at w (txt p) with Some s => [(txt "./pi_v10.pkl", s)] | None => [] end.
Definition w9_of (wa wb : world) : world :=
  {| w_tables := (map (fun '(_, s) => (txt "./pi_v9.pkl", s)) (w_tables wa)) ++ saved_of wb "./pi_v1.pkl"; w_dirs := []; w_files := [] |}.
Lemma w9_built wa wb : tables_built wa -> tables_built wb -> tables_built (w9_of wa wb).
Proof.
  intros B1 B2 p x I. cbn [w9_of w_tables] in I. apply in_app_iff in I as [I|I].
  - apply in_map_iff in I as ([p0 x0] & E & I). injection E as <- <-. exact (B1 _ _ I).
  - unfold saved_of in I. destruct (table_at wb (txt "./pi_v1.pkl")) as [x0|] eqn:T; [|destruct I]. destruct I as [I|[]]. injection I as <- <-.
    exact (B2 _ _ (table_in _ _ _ T)).
Qed.
Definition w9 : world := w9_of w1 w2.
Theorem C85_generate_new_file_refuted : exists v items w w' s s', tables_built w /\
  run v (dir_list w) (Some items) w = (w', Some (Ok tt)) /\
  In (txt "hashtable_file_operation", txt "generate") items /\ In (txt "hashtable_file", txt "pi.pkl") items /\
  map fst (w_tables w) = [txt "./pi_v9.pkl"; txt "./pi_v10.pkl"] /\ map fst (w_tables w') = map fst (w_tables w) /\
  table_at w (txt "./pi_v10.pkl") = Some s /\ table_at w' (txt "./pi_v10.pkl") = Some s' /\
  length (h_data (mi_table (sv_mitm s'))) <> length (h_data (mi_table (sv_mitm s))).
Proof.
  exists env_ex, gen1, w9, (fst (start env_ex gen1 w9)).
  destruct (has_keys w9 "./pi_v10.pkl" 3) as (s & E1 & L1); [vm_compute; reflexivity|].
  destruct (has_keys (fst (start env_ex gen1 w9)) "./pi_v10.pkl" 2) as (s' & E2 & L2); [vm_compute; reflexivity|].
  exists s, s'. split.
  - apply w9_built; apply history_built; [exact h1|exact h2].
  - split; [apply ran; vm_compute; reflexivity|]. split; [cbn; tauto|]. split; [cbn; tauto|]. split; [vm_compute; reflexivity|].
    split; [vm_compute; reflexivity|]. split; [exact E1|]. split; [exact E2|]. congruence.
Qed.

(** ---- C86: the constant of a run ---- *)
Lemma stops v c m0 w i e : complete c -> as_garg (c_get c "i") = Some i -> choose v (c_get c "const") i = Raise e -> run_with v c m0 w = (w, Some (Raise e)).
Proof.
  intros C HI HC. unfold run_with, main_with. rewrite (has_all_complete _ C). cbn [negb]. rewrite HI. unfold choose in HC. now rewrite HC.
Qed.
(** A constant that is not in the list is refused before anything else happens ... *)
Theorem C86_unknown : forall v c m0 w, complete c -> index_ok c -> (forall s, c_get c "const" = CStr (txt s) -> ~ In s known_constants) ->
  run_with v c m0 w = (w, Some (Raise ValueError)).
Proof.
  intros v c m0 w C I N. destruct (as_garg_ok _ I) as (i & HI). apply (stops _ _ _ _ i); [exact C|exact HI|]. apply choose_unknown.
  intros s E J. unfold const_names in J. apply in_map_iff in J as (s' & <- & J). exact (N s' E J).
Qed.
(** ... but so are two that are: the branch for their index reads a variable that does not exist. *)
Theorem C86_feig_percolation : forall v c m0 w s, complete c -> index_ok c -> In s ["feig"; "percolation"]%string -> c_get c "const" = CStr (txt s) ->
  In s known_constants /\ run_with v c m0 w = (w, Some (Raise NameError)).
Proof.
  intros v c m0 w s C I S E. split; [destruct S as [<-|[<-|[]]]; vm_compute; tauto|].
  destruct (as_garg_ok _ I) as (i & HI). apply (stops _ _ _ _ i); [exact C|exact HI|]. rewrite E. apply choose_feig.
  destruct S as [<-|[<-|[]]]; auto.
Qed.
(** With zeta a table can be made but never searched; nor a table that was made for zeta. *)
Theorem C86_zeta : forall v c m0 w w' r, ~ table_only c ->
  (~ operation c "use" /\ c_get c "const" = CStr (txt "zeta")) \/
  (operation c "use" /\ forall p s, table_path c p -> table_at w p = Some s -> exists i l, sv_gen s = CPart (GDict l) i) ->
  run_with v c m0 w = (w', r) -> w_files w' = w_files w /\ w_dirs w' = w_dirs w /\ r <> Some (Ok tt).
Proof.
  intros v c m0 w w' r NT Z H. destruct (run_search _ _ _ _ _ _ H NT) as [S|(i & g & name & m & g1 & x & w1 & x1 & n & HI & HC & HO & E1 & E2 & _ & _ & HF)]; [exact S|].
  assert (G : indexed_gen g1).
  { destruct Z as [[NU Z]|[U Z]].
    - rewrite Z in HC. apply choose_zeta in HC. subst g.
      destruct HO as [p s O0 _ _|p s st y O0 _ _ _ _|st k y O0 _ _ _]; [contradiction| |]; exists (GDict zeta_consts), i; (split; [reflexivity|discriminate]).
    - destruct HO as [p s O0 TP T|p s st y O0 _ _ _ _|st k y O0 _ _ _]; [|now apply (op_excl _ _ _ O0) in U|now apply (op_excl _ _ _ O0) in U].
      destruct (Z _ _ TP T) as (j & l & E). rewrite E. exists (GDict l), j. split; [reflexivity|discriminate]. }
  destruct (fae_indexed _ _ _ _ _ _ _ _ G HF) as [-> R]. auto.
Qed.
(** The name under which results are reported: the configured one, but in the operation 'use' the one that is stored with
    the table. The constant in the settings has no influence then, but the settings saved with the results show it. *)
Theorem C86_name : forall v c m0 w w', run_with v c m0 w = (w', Some (Ok tt)) -> ~ table_only c ->
  exists n rows, file_at w' (dir_of (v_t2 v) ++ txt "/results.csv") = Some (OCsv (n, rows)) /\
    (~ operation c "use" -> c_get c "const" = CStr n) /\
    (operation c "use" -> exists p s, table_path c p /\ table_at w p = Some s /\ n = mi_name (sv_mitm s)).
Proof.
  intros v c m0 w w' H NT. destruct (run_search _ _ _ _ _ _ H NT) as [(_ & _ & S)|(i & g & name & m & g1 & x & wa & x1 & n & HI & HC & HO & _ & _ & EN & _ & HF)]; [congruence|].
  apply fae_cases, search_export in HF as [[_ R]|(O & rd & cls & lat & par & cs & r1 & R & HX)]; [congruence|]. injection R as <-.
  destruct (export_done _ _ _ _ _ _ _ _ _ _ _ HX) as (_ & _ & _ & _ & rows & es & items & _ & F & _).
  exists (mi_name x1), rows. split; [exact F|]. rewrite EN. split.
  - intros NU. destruct (choose_ok _ _ _ _ _ HC) as (E & _).
    destruct HO as [p s O0 _ _|p s st y O0 _ _ HS HR|st k y O0 HS _ HM]; [contradiction| |]; rewrite E; f_equal; symmetry.
    + destruct (settings_read _ _ _ _ _ HS) as (_ & _ & _ & _ & _ & F6 & _). rewrite <- F6. unfold mitm_redefine in HR.
      match type of HR with context [match ?z with _ => _ end] => destruct z; [|discriminate] end. now injection HR as <-.
    + destruct (settings_read _ _ _ _ _ HS) as (_ & _ & _ & _ & _ & F6 & _). rewrite <- F6. unfold mitm_new in HM.
      destruct (enumer_new _ _); cbn [bind] in HM; [|discriminate]. now injection HM as <-.
  - intros U. destruct HO as [p s O0 TP T|p s st y O0 _ _ _ _|st k y O0 _ _ _]; [|now apply (op_excl _ _ _ O0) in U|now apply (op_excl _ _ _ O0) in U].
    exists p, s. auto.
Qed.
Definition use_none (const : string) : list (text * text) := conf_ex const "use" "auto" "[[[1, 3], [1, 2]]]" "[""lambda x: x""]" no_lhs.
Definition csv_name (w : world) : list (option text) :=
  map (fun p => match file_at w (txt p) with Some (OCsv (n, _)) => Some n | _ => None end) ["results/161126_1345/results.csv"; "results/161126_1346/results.csv"]%string.
Example C86_ex : snd (start env_ex (use_none "e") w1) = Some (Ok tt) /\ csv_name (fst (start env_ex (use_none "e") w1)) = [Some (txt "pi"); None] /\
  map (fun k => snd (start env_ex (conf_ex k "generate" "false" "[[[1, 2], [1, 2]]]" "[""lambda x: x""]" no_lhs) w1)) ["tau"; "feig"; "zeta"; "e"]%string =
  map Some [Raise ValueError; Raise NameError; Raise TypeError; Ok tt].
Proof. vm_compute. repeat split. Qed.

(** ---- C87: whole histories of runs report nothing ---- *)
(** Starting without tables, no sequence of runs, whatever their settings and outcomes, ever reports a result, even if the
    numbers had all methods that the code uses. *)
Theorem C87_no_results : forall w, history w -> no_reports w.
Proof. intros w H. exact (proj2 (history_both w H)). Qed.
(** With the numbers of mpmath a search for anything at all ends with an exception, and no results are written. *)
Definition some_ulcd (c : config) : Prop :=
  exists ru rl rc rdd us ls cs ds u l k d, as_ulcd (c_get c "lhs_params") = Some [ru; rl; rc; rdd] /\
    ulc_range ru = Ok us /\ ulc_range rl = Ok ls /\ ulc_range rc = Ok cs /\ d_range rdd = Ok ds /\
    In u us /\ In l ls /\ In k cs /\ In d ds /\ d <> 0 /\ l <> 0 /\ Z.abs k < Z.abs d.
Definition some_rational (c : config) : Prop :=
  exists num den force p q, as_rational (c_get c "lhs_params") = Some (num, den, force) /\
    Forall2 (fun c lh => fst lh <= c < snd lh) p num /\ Forall2 (fun c lh => fst lh <= c < snd lh) q den /\
    nonzero_poly p /\ nonzero_poly q /\
    (forall lp lq, true_length p lp -> true_length q lq -> ~ (lp < 2 /\ lq < 2)%nat /\ (force = true -> (lq <= lp)%nat)).
Theorem C87_mpmath_search : forall v c m0 w w' r, v_eng v = eng_pinned -> v_kind v = KMpf -> ~ table_only c ->
  (c_get c "lhs_type" = CLhs (txt "ulcd") /\ some_ulcd c) \/ (c_get c "lhs_type" = CLhs (txt "rationalfunc") /\ some_rational c) ->
  run_with v c m0 w = (w', r) -> w_files w' = w_files w /\ w_dirs w' = w_dirs w /\ r <> Some (Ok tt).
Proof.
  intros v c m0 w w' r VE VK NT L H.
  destruct (run_search _ _ _ _ _ _ H NT) as [S|(i & g & name & m & g1 & x & wa & x1 & n & HI & HC & HO & E1 & E2 & EN & EL & HF)]; [exact S|].
  assert (w' = wa /\ r <> Some (Ok tt)) as [-> R]; [|auto].
  unfold fae_in, find_and_export in HF. rewrite EL in HF. destruct (call0 g1 m) as [m1 [y|e]]; [|injection HF as <- <-; split; [reflexivity|discriminate]].
  destruct L as [[L U]|[L U]]; rewrite EL in L; injection L as ->.
  - rewrite text_eqb_refl in HF. destruct U as (ru & rl & rc & rdd & us & ls & cs & ds & u & l & k & d & HP & R1 & R2 & R3 & R4 & I1 & I2 & I3 & I4 & D & NL & A).
    rewrite HP in HF. set (rs := [ru; rl; rc; rdd]) in *.
    assert (exists en, uenum_new rs y = Ok en) as (en & HN) by (unfold uenum_new, rs; rewrite R1; cbn [bind]; rewrite R2; cbn [bind]; rewrite R3; cbn [bind]; rewrite R4; eexists; reflexivity).
    assert (F : exists s e, find_clicks (rnd (mp_prec m1)) (v_eng v) (ulcd_class (rnd (mp_prec m1))) (ulcd_enum (rnd (mp_prec m1)) rs) (with_target (retype x1) y) = (s, Raise e)).
    { destruct (Qeq_dec y 0) as [Y|Y].
      - assert (ue_x en = y) as EX by (unfold uenum_new, rs in HN; rewrite R1 in HN; cbn [bind] in HN; rewrite R2 in HN; cbn [bind] in HN; rewrite R3 in HN; cbn [bind] in HN; rewrite R4 in HN; injection HN as <-; reflexivity).
        eapply find_fails; [unfold ulcd_enum; cbn [mi_target with_target]; rewrite HN; cbn [bind]; rewrite (Properties_ULCD.C39_zero_constant _ en) by (now rewrite EX); reflexivity|reflexivity].
      - destruct (Properties_ULCD.C39_enum (rnd (mp_prec m1)) rs y en HN Y) as (ru' & rl' & rc' & rd' & us' & ls' & cs' & ds' & ys & okb & ER & R1' & R2' & R3' & R4' & HL & HM & HK & _).
        unfold rs in ER. injection ER as <- <- <- <-.
        assert (us' = us /\ ls' = ls /\ cs' = cs /\ ds' = ds) as (-> & -> & -> & ->) by (repeat split; congruence).
        assert (I : In (u, l, k, d) (map fst ys)) by (rewrite HM; apply filter_In; split; [repeat apply in_prod; assumption|now apply HK]).
        destruct ys as [|[p z] ys]; [destruct I|]. rewrite VE.
        eexists; eexists. eapply (C36_pinned _ _ _ _ _ (mkUlcd p y z)); [|reflexivity].
        unfold ulcd_enum. cbn [mi_target with_target]. rewrite HN. cbn [bind]. rewrite HL. reflexivity. }
    destruct F as (s & e & F).
    pose proof (search_fails v _ _ _ (fun o n => (o, Ok (ulcd_latex (ul_params o) n))) (v_upar v) (mi_funcs x1) (mi_trunc x1) c y x1 wa s e F) as HS.
    unfold search_in in HS. rewrite HS in HF. injection HF as <- <-. split; [reflexivity|discriminate].
  - change (text_eqb (txt "rationalfunc") (txt "ulcd")) with false in HF. cbv iota in HF.
    destruct U as (num & den & force & p & q & HP & PASS). rewrite HP in HF.
    destruct INVERSE_POSTPROC_PAIRS as [inv|e0] eqn:EI; [|injection HF as <- <-; split; [reflexivity|discriminate]].
    assert (F : exists s e, find_clicks (rnd (mp_prec m1)) (v_eng v) (rat_class (v_kind v) (rnd (mp_prec m1)) (v_pgcd v) inv) (rational_enum (v_kind v) (rnd (mp_prec m1)) (num, den, force)) (with_target (retype x1) y) = (s, Raise e)).
    { rewrite VK. destruct (renum_new num den force y) as [en|e1] eqn:HN.
      - eapply find_fails; [unfold rational_enum; cbn [mi_target with_target]; rewrite HN; cbn [bind]; reflexivity|].
        apply yields_mpf. destruct (C71_mpf_enum (rnd (mp_prec m1)) num den force y en HN) as [[_ HR]|[NP _]]; [|exfalso; apply NP; exists p, q; exact PASS].
        destruct (renum_list_mpf (rnd (mp_prec m1)) en) as [[(p1 & q1 & J1 & J2 & C) _]|[_ HR']]; [|congruence].
        exists p1, q1. split; [now apply in_prod|exact C].
      - unfold find_clicks, rational_enum. cbn [mi_target with_target]. rewrite HN. cbn [bind]. eexists; eexists; reflexivity. }
    destruct F as (s & e & F).
    pose proof (search_fails v _ _ _ (rf_latex (v_kind v) (rnd (mp_prec m1)) (v_pgcd v)) (v_rpar v) (mi_funcs x1) (mi_trunc x1) c y x1 wa s e F) as HS.
    unfold search_in in HS. rewrite HS in HF. injection HF as <- <-. split; [reflexivity|discriminate].
Qed.
Example C87_ex : history w2 /\ snd (start env_ex (conf_ex "pi" "use" "auto" "[[[1, 3], [1, 2]]]" "[""lambda x: x""]" one_lhs) w2) = Some (Raise AttributeError) /\
  snd (start env_ex (use_none "pi") w2) = Some (Ok tt).
Proof. split; [exact h2|]. vm_compute. split; reflexivity. Qed.

(** ---- C88: interrupting the last stage ---- *)
(** When the last refinement is interrupted after n clicks, the list that goes on to the export is the list before the
    stage: clicks that were found to agree have their left-hand side adjusted; clicks that were found not to agree stay, as
    do those that were not reached. The hypothesis says that no interrupt
    comes out of the treatment of a single click. (An interrupt after the refinement keeps what the steps before have left.) *)
Theorem C88_interrupt : forall (O : Type) v rd (cls : MITM_Model.lhs_class O) funcs trunc n3 a3 cs l n, v_irq v = Some (0%nat, n) ->
  let ev := ev_conv rd (v_req v) (v_acc10 v) (v_target v) n3 in
  (forall c, In c cs -> snd (refine_one rd (v_eng v) cls funcs trunc ev a3 c) <> Raise KeyboardInterrupt) ->
  last_in v rd cls funcs trunc n3 a3 cs = (l, Ok tt) ->
  Forall2 (fun c c' => kept rd (v_eng v) cls funcs trunc ev a3 c c' \/ (dropped rd (v_eng v) cls funcs trunc ev a3 c /\ c' = c)) (firstn n cs) (firstn n l) /\
  skipn n l = skipn n cs.
Proof.
  intros O v rd cls funcs trunc n3 a3 cs l n VI ev HK H. unfold last_in, last_stage in H. rewrite VI in H. unfold refine_cut in H. fold ev in H.
  destruct (refine_loop rd (v_eng v) cls funcs trunc ev a3 (firstn n cs)) as [[all kept0] x] eqn:E.
  assert (NI : forall cs0 all kept0 x, refine_loop rd (v_eng v) cls funcs trunc ev a3 cs0 = ((all, kept0), x) ->
     (forall c, In c cs0 -> snd (refine_one rd (v_eng v) cls funcs trunc ev a3 c) <> Raise KeyboardInterrupt) -> x <> Raise KeyboardInterrupt).
  { clear. induction cs0 as [|c cs0 IH]; intros all kept0 x E X; cbn [refine_loop] in E; [injection E as _ _ <-; discriminate|].
    pose proof (X c (or_introl eq_refl)) as XC.
    destruct (refine_one rd (v_eng v) cls funcs trunc ev a3 c) as [c' [b|e]] eqn:E1; [|injection E as _ _ <-; exact (fun Z => XC (f_equal (fun r => match r with Ok _ => Ok true | Raise z => Raise z end) Z))].
    destruct (refine_loop rd (v_eng v) cls funcs trunc ev a3 cs0) as [[all0 k0] x0] eqn:E2. injection E as _ _ <-.
    apply (IH all0 k0 x0 eq_refl). intros d I. apply X. now right. }
  assert (X : l = all ++ skipn n cs /\ x = Ok tt).
  { destruct x as [[]|e]; [injection H as <-; auto|]. exfalso. apply (NI _ _ _ _ E); [intros c I; apply HK; rewrite <- (firstn_skipn n cs); apply in_app_iff; now left|].
    destruct e; try discriminate. reflexivity. }
  destruct X as [-> ->].
  assert (G : forall cs0 all kept0 x, refine_loop rd (v_eng v) cls funcs trunc ev a3 cs0 = ((all, kept0), x) -> x = Ok tt ->
     Forall2 (fun c c' => kept rd (v_eng v) cls funcs trunc ev a3 c c' \/ (dropped rd (v_eng v) cls funcs trunc ev a3 c /\ c' = c)) cs0 all).
  { clear. induction cs0 as [|c cs0 IH]; intros all kept0 x E X; cbn [refine_loop] in E; [injection E as <- _ _; constructor|].
    destruct (refine_one rd (v_eng v) cls funcs trunc ev a3 c) as [c' [b|e]] eqn:E1; [|injection E as _ _ <-; discriminate].
    destruct (refine_loop rd (v_eng v) cls funcs trunc ev a3 cs0) as [[all0 k0] x0] eqn:E2. injection E as <- _ <-.
    constructor; [|now apply (IH all0 k0 x0)]. apply MITM_Clicks.refine_one_spec in E1. destruct b; [now left|]. right. destruct E1 as [E1 ->]. auto. }
  pose proof (G _ _ _ _ E eq_refl) as F.
  assert (L : length (firstn n cs) = length all) by (clear - F; induction F; cbn; congruence).
  rewrite firstn_length in L. destruct (Nat.le_gt_cases n (length cs)) as [C|C].
  - assert (length all = n) as LA by lia. rewrite firstn_app, skipn_app, LA, Nat.sub_diag. cbn [firstn skipn].
    rewrite (firstn_all2 all) by lia. rewrite (skipn_all2 all) by lia. rewrite app_nil_r. split; [exact F|reflexivity].
  - rewrite (skipn_all2 cs) in * by lia. rewrite app_nil_r. rewrite (firstn_all2 all) by lia. rewrite (skipn_all2 all) by lia. auto.
Qed.
(** Two clicks, interrupted after the first one: it fails the test and stays. *)
Definition irq_at (k n : nat) : env := {| v_pi := []; v_e := []; v_fsqrt := Enum_Roots.isqrt53; v_ibinom := ib_ex; v_masks := fun l => l;
  v_order := fun _ l => l; v_target := None; v_eng := eng7; v_kind := KMpf; v_pgcd := fun _ _ => [1];
  v_sq := fun q => q; v_est := fun _ => Raise ValueError; v_req := fun _ _ => Ok 1; v_acc10 := fun _ => 1%Q;
  v_roots := fun _ => []; v_upar := fun _ => []; v_rpar := fun _ => [];
  v_irq := Some (k, n); v_t1 := []; v_t2 := []; v_pdf := Ok tt |}.
Definition clicks_ex : list (click ulcd) :=
  [(([[1]], [[1]]), mkUlcd (0, 1, 0, 2) (23 # 10) (23 # 20), 0, None); (([[2]], [[1]]), mkUlcd (0, 1, 0, 2) (23 # 10) (23 # 20), 0, None)].
Definition exact (q : Q) : Q := q.
Example C88_ex : forall n, (n <= 2)%nat ->
  (forall c, In c clicks_ex -> snd (refine_one exact eng7 (ulcd_class exact) [fun v => Ok v] true (ev_conv exact (fun _ _ => Ok 1) (fun _ => 1%Q) None 9) 4 c) <> Raise KeyboardInterrupt) /\
  let (l, r) := last_in (irq_at 0 n) exact (ulcd_class exact) [fun v => Ok v] true 9 4 clicks_ex in r = Ok tt /\ map (fun c => ck_ab c) l = map (fun c => ck_ab c) clicks_ex.
Proof.
  intros n N. split; [intros c [<-|[<-|[]]]; vm_compute; discriminate|]. destruct n as [|[|[|n]]]; [..|lia]; vm_compute; auto.
Qed.

(** ---- C89: the files of a search ---- *)
(** A search that ends without an exception makes the directory of its minute, writes the four files there, and changes
    no other file. *)
Theorem C89_four_files : forall v c m0 w w', run_with v c m0 w = (w', Some (Ok tt)) -> ~ table_only c ->
  ~ In (dir_of (v_t1 v)) (w_dirs w) /\
  (forall d, In d (w_dirs w') <-> In d (w_dirs w) \/ d = txt "results" \/ d = dir_of (v_t1 v)) /\
  (forall p, ~ in_results (v_t2 v) p -> file_at w' p = file_at w p) /\
  exists name rows es items, save c = Ok items /\
    file_at w' (dir_of (v_t2 v) ++ txt "/results.csv") = Some (OCsv (name, rows)) /\
    file_at w' (dir_of (v_t2 v) ++ txt "/results.tex") = Some (OTex es) /\
    file_at w' (dir_of (v_t2 v) ++ txt "/results.pdf") = Some OPdf /\
    file_at w' (dir_of (v_t2 v) ++ txt "/config.ini") = Some (OConf items).
Proof.
  intros v c m0 w w' H NT. destruct (run_search _ _ _ _ _ _ H NT) as [(_ & _ & S)|(i & g & name & m & g1 & x & wa & x1 & n & HI & HC & HO & E1 & E2 & EN & _ & HF)]; [congruence|].
  apply fae_cases, search_export in HF as [[_ R]|(O & rd & cls & lat & par & cs & r1 & R & HX)]; [congruence|]. injection R as <-.
  destruct (export_done _ _ _ _ _ _ _ _ _ _ _ HX) as (D1 & _ & D3 & D4 & rows & es & items & HS & F).
  unfold file_at in D4 at 2. rewrite E1 in D4. rewrite E2 in D1, D3. split; [exact D1|]. split; [exact D3|]. split; [exact D4|].
  exists (mi_name x1), rows, es, items. auto.
Qed.
(** A second search within the same minute, and one during which the minute changes, write nothing and end with an
    exception ... *)
Theorem C89_minute : forall v c m0 w w' r, run_with v c m0 w = (w', r) -> ~ table_only c ->
  In (dir_of (v_t1 v)) (w_dirs w) \/ (v_t1 v <> v_t2 v /\ ~ In (dir_of (v_t2 v)) (w_dirs w)) -> w_files w' = w_files w /\ r <> Some (Ok tt).
Proof.
  intros v c m0 w w' r H NT B. destruct (run_search _ _ _ _ _ _ H NT) as [(F & _ & S)|(i & g & name & m & g1 & x & wa & x1 & n & HI & HC & HO & E1 & E2 & EN & _ & HF)]; [auto|].
  apply fae_cases, search_export in HF as [[-> R]|(O & rd & cls & lat & par & cs & r1 & -> & HX)]; [auto|].
  rewrite <- E2 in B. destruct (export_early _ _ _ _ _ _ _ _ _ _ _ _ HX B) as [F R]. split; [congruence|]. intros [= E]. congruence.
Qed.
(** ... but if another process has already made the directory of the next minute, the results of that process are replaced. *)
Definition use_at (t1 t2 : string) (w : world) : world := fst (start (env_at t1 t2) (use_none "pi") w).
Definition tex_of (w : world) (p : string) : option (list text) := match file_at w (txt p) with Some (OTex l) => Some l | _ => None end.
Definition w_other : world := {| w_tables := w_tables w1; w_dirs := map txt ["results"; "results/161126_1346"]%string;
  w_files := [(txt "results/161126_1346/results.tex", OTex [txt "x=1"])] |}.
Theorem C89_results_kept_refuted : exists v items w w', run v (dir_list w) (Some items) w = (w', Some (Ok tt)) /\
  tex_of w "results/161126_1346/results.tex" = Some [txt "x=1"] /\ tex_of w' "results/161126_1346/results.tex" = Some [] /\
  map fst (w_files w') = map (fun n => txt "results/161126_1346/" ++ n) (txt "results.tex" :: map txt ["results.csv"; "results.pdf"; "config.ini"]%string).
Proof.
  exists (env_at "161126_1345" "161126_1346"), (use_none "pi"), w_other, (use_at "161126_1345" "161126_1346" w_other).
  split; [apply ran; vm_compute; reflexivity|]. vm_compute. repeat split.
Qed.
Example C89_ex : snd (start env_ex (use_none "pi") w1) = Some (Ok tt) /\
  map fst (w_files (use_at "161126_1345" "161126_1345" w1)) = map (fun n => txt "results/161126_1345/" ++ n) result_names /\
  snd (start env_ex (use_none "pi") (use_at "161126_1345" "161126_1345" w1)) = Some (Raise RuntimeError) /\
  snd (start (env_at "161126_1345" "161126_1346") (use_none "pi") w1) = Some (Raise RuntimeError).
Proof. vm_compute. repeat split. Qed.

(** ---- C90: the settings saved with the results ---- *)
(** No search can be repeated with the settings that are saved beside its results. *)
Theorem C90_rerun : forall v listdir items w w', run v listdir (Some items) w = (w', Some (Ok tt)) ->
  (forall c, load listdir (Some items) = Ok c -> ~ table_only c) ->
  exists saved, file_at w' (dir_of (v_t2 v) ++ txt "/config.ini") = Some (OConf saved) /\
    forall v' listdir' w0, run v' listdir' (Some saved) w0 = (w0, Some (Raise ValueError)).
Proof.
  intros v ld items w w' H NT. rewrite run_run_with in H. destruct (load ld (Some items)) as [c|e] eqn:L; [|congruence]. specialize (NT c eq_refl).
  destruct (C89_four_files _ _ _ _ _ H NT) as (_ & _ & _ & name & rows & es & its & HS & _ & _ & _ & F).
  destruct (run_search _ _ _ _ _ _ H NT) as [(_ & _ & S)|(i & g & nm & m & g1 & x & wa & x1 & n & _ & _ & _ & _ & _ & _ & EL & _)]; [congruence|].
  exists its. split; [exact F|]. intros v' ld' wz. rewrite run_run_with.
  destruct (Properties_Config.C82_results_config_reloads_refuted ld items c n ld' L EL) as (its' & HS' & R).
  pose proof (eq_trans (eq_sym HS) HS') as EI. assert (its = its') as -> by congruence. clear EI HS'. rewrite R. reflexivity.
Qed.
Example C90_ex : exists saved, file_at (use_at "161126_1345" "161126_1345" w1) (txt "results/161126_1345/config.ini") = Some (OConf saved) /\
  snd (start env_ex saved w1) = Some (Raise ValueError) /\ length saved = 23%nat.
Proof. eexists. split; [vm_compute; reflexivity|]. vm_compute. split; reflexivity. Qed.

(** ---- C91: tables only ---- *)
(** With gen_hashtable_only no directory and no file of results is made. *)
Theorem C91_table_only : forall v c m0 w w' r, run_with v c m0 w = (w', r) -> table_only c -> w_files w' = w_files w /\ w_dirs w' = w_dirs w.
Proof.
  intros v c m0 w w' r H T. apply run_course in H.
  destruct H as [r0 N|i g name m g1 x w1 x1 HI HC HO HX HT|i g name m g1 x w1 x1 w2 r0 HI HC HO HX HT HF]; [auto| |unfold table_only in T; congruence].
  destruct (extend_same _ _ _ _ _ _ _ _ HX) as (E1 & E2 & _). auto.
Qed.
(** What the text of the setting means: everything asks for the table only, except 'false', 'none', nothing, and 'auto'
    together with the operation 'use'. *)
Theorem C91_setting : forall listdir items c op, load listdir (Some items) = Ok c -> operation c op ->
  (table_only c -> exists v, In (txt "gen_hashtable_only", v) items /\ only_text (txt op) v) /\
  (forall v, In (txt "gen_hashtable_only", v) items -> (forall v', In (txt "gen_hashtable_only", v') items -> v' = v) ->
     (table_only c <-> only_text (txt op) v)).
Proof.
  intros ld items c op L OP. destruct (Config_Round.load_inv _ _ _ L) as (c1 & p & hf & pf & op1 & C & F & O & IO & G & P & FN). clear L.
  assert (op1 = txt op) as ->. { unfold operation in OP. change (c_get c "hashtable_file_operation") with (Config_Round.cg c Config_Round.K_op) in OP.
    rewrite FN in OP. change (Config_Round.final c1 hf pf op1 Config_Round.K_op) with (Config_Round.cg c1 Config_Round.K_op) in OP. congruence. }
  unfold table_only. change (c_get c "gen_hashtable_only") with (Config_Round.cg c Config_Round.K_only). rewrite FN. clear FN F G P OP IO O.
  change (Config_Round.final c1 hf pf (txt op) Config_Round.K_only) with
    (match Config_Round.cg c1 Config_Round.K_only with CStr s => if text_eqb s (txt "auto") then CBool (negb (text_eqb (txt op) (txt "use"))) else CStr s | v => v end).
  assert (K : forall v x, cast_param_val (txt "gen_hashtable_only") v = Ok x ->
    (truthy (match x with CStr s => if text_eqb s (txt "auto") then CBool (negb (text_eqb (txt op) (txt "use"))) else CStr s | v => v end) = true <-> only_text (txt op) v)).
  { intros v x E. change (cast_param_val (txt "gen_hashtable_only") v) with (if text_eqb (strip (lower v)) (txt "none") then Ok CNone else str_parser v) in E.
    rewrite Config_Round.strip_lower in E. unfold str_parser, string_parser in E. unfold only_text. cbv zeta. set (s := lower (strip v)) in *.
    destruct (text_eqb s (txt "none")) eqn:E1; [injection E as <-; apply text_eqb_eq in E1; cbn [truthy]; split; [discriminate|tauto]|].
    destruct (text_eqb s (txt "false")) eqn:E2; [injection E as <-; apply text_eqb_eq in E2; cbn [truthy]; split; [discriminate|tauto]|].
    assert (N1 : s <> txt "none") by (intros Q; apply text_eqb_eq in Q; congruence). assert (N2 : s <> txt "false") by (intros Q; apply text_eqb_eq in Q; congruence).
    destruct (text_eqb s (txt "true")) eqn:E3.
    { injection E as <-. apply text_eqb_eq in E3. cbn [truthy]. split; [|reflexivity]. intros _. rewrite E3. repeat split; discriminate. }
    injection E as <-. destruct (text_eqb s (txt "auto")) eqn:E4; cbn [truthy].
    - apply text_eqb_eq in E4. rewrite negb_true_iff. split.
      + intros U. split; [rewrite E4; discriminate|]. repeat (split; [assumption|]). intros _ Q. apply text_eqb_eq in Q. congruence.
      + intros (_ & _ & _ & Q). specialize (Q E4). destruct (text_eqb (txt op) (txt "use")) eqn:E5; [apply text_eqb_eq in E5; contradiction|reflexivity].
    - assert (N3 : s <> txt "auto") by (intros Q; apply text_eqb_eq in Q; congruence). destruct s as [|a s0]; split; try discriminate; try tauto.
      intros _. repeat (split; [assumption || discriminate|]). intros Q; contradiction. }
  split.
  - intros T. destruct (Config_Round.cast_all_inv items [] c1 C Config_Round.K_only) as [[E _]|(v & I & E)].
    + rewrite E in T. discriminate.
    + exists v. split; [exact I|]. revert E T. generalize (Config_Round.cg c1 Config_Round.K_only). intros x E T. apply (K v x E). now destruct x.
  - intros v I U. destruct (Config_Round.cast_all_inv items [] c1 C Config_Round.K_only) as [[E N]|(v' & I' & E)].
    + exfalso. apply N. apply in_map_iff. exists (txt "gen_hashtable_only", v). split; [reflexivity|exact I].
    + rewrite (U v' I') in E. revert E. generalize (Config_Round.cg c1 Config_Round.K_only). intros x E. rewrite <- (K v x E). now destruct x.
Qed.
(** So 'no' means yes: the run makes a table, and no search. *)
Theorem C91_no_refuted : exists v items w', In (txt "gen_hashtable_only", txt "No") items /\
  run v (dir_list w0) (Some items) w0 = (w', Some (Ok tt)) /\ w_dirs w' = [] /\ keys_of w' "./pi_v1.pkl" = Some 2%nat.
Proof.
  exists env_ex, (conf_ex "pi" "generate" "No" "[[[1, 2], [1, 2]]]" "[""lambda x: x""]" no_lhs),
    (fst (start env_ex (conf_ex "pi" "generate" "No" "[[[1, 2], [1, 2]]]" "[""lambda x: x""]" no_lhs) w0)).
  split; [cbn; tauto|]. split; [apply ran; vm_compute; reflexivity|]. vm_compute. split; reflexivity.
Qed.
Example C91_ex : map (fun t => length (w_dirs (fst (start env_ex (conf_ex "pi" "generate" t "[[[1, 2], [1, 2]]]" "[""lambda x: x""]" no_lhs) w0))))
  ["no"; "0"; "auto"; " False"; "none"; ""]%string = [0; 0; 0; 2; 2; 2]%nat.
Proof. vm_compute. reflexivity. Qed.

(** ---- C92: settings without effect ---- *)
Lemma choose_good v c : good_constant c -> exists i g name, as_garg (c_get c "i") = Some i /\ choose v (c_get c "const") i = Ok (g, name).
Proof.
  intros (I & s & E & S). destruct (as_garg_ok _ I) as (i & HI). rewrite E. exists i. unfold choose, choose_const.
  destruct S as [<-|[<-|[<-|[<-|[<-|[<-|[]]]]]]]; eexists; eexists; (split; [exact HI|reflexivity]).
Qed.
(** Settings that a run does not read: two runs whose settings differ only there have the same outcome and leave the same
    disk, except for the copies of the settings. So there is never a test run nor a run without the validation pass; the
    number of iterations is ignored when a table is expanded; and with 'use' everything about the table is ignored,
    including the constant and the list of functions. *)
Theorem C92_unread : forall v c c' m0 w w1 w2 r1 r2 op i i', operation c op -> operation c' op -> In op ["generate"; "expand"; "use"]%string ->
  complete c -> complete c' -> agree_on_read op c c' -> save c = Ok i -> save c' = Ok i' ->
  run_with v c m0 w = (w1, r1) -> run_with v c' m0 w = (w2, r2) -> r1 = r2 /\ same_but_settings w1 w2.
Proof.
  intros v c c' m0 w w1 w2 r1 r2 op its its' OP OP' IOP C C' [A GC] S S' H1 H2.
  assert (R : forall w0, same_but_settings w0 w0) by (intros wz; repeat split; auto).
  assert (L : forall k, In k read_later -> c_get c k = c_get c' k).
  { intros k K. apply A. destruct IOP as [<-|[<-|[<-|[]]]]; vm_compute; vm_compute in K; intuition congruence. }
  unfold run_with, main_with in H1, H2. rewrite (has_all_complete _ C) in H1. rewrite (has_all_complete _ C') in H2. cbn [negb] in H1, H2.
  fold (choose v) in H1, H2. fold (obtain_in v) in H1, H2. fold (extend_in v) in H1, H2. fold (is_use c) in H1. fold (is_use c') in H2. fold (fae_in v) in H1, H2.
  assert (EO : truthy (c_get c "gen_hashtable_only") = truthy (c_get c' "gen_hashtable_only")).
  { rewrite (A "gen_hashtable_only"%string); [reflexivity|]. destruct IOP as [<-|[<-|[<-|[]]]]; vm_compute; intuition congruence. }
  assert (EF : c_get c "hashtable_file" = c_get c' "hashtable_file").
  { apply A. destruct IOP as [<-|[<-|[<-|[]]]]; vm_compute; intuition congruence. }
  rewrite EO in H1.
  destruct (string_dec op "use") as [->|NU].
  - destruct (GC eq_refl) as [G G']. destruct (choose_good v c G) as (j & g & nm & J1 & J2). destruct (choose_good v c' G') as (j' & g' & nm' & J1' & J2').
    rewrite J1, J2 in H1. rewrite J1', J2' in H2.
    assert (OE : obtain_in v c g nm m0 w = obtain_in v c' g' nm' m0 w).
    { unfold obtain_in, obtain. rewrite OP, OP', EF. destruct (as_path _) as [p|]; [|reflexivity].
      change (existsb (text_eqb (txt "use")) [txt "use"; txt "expand"]) with true. change (text_eqb (txt "use") (txt "expand")) with false. reflexivity. }
    rewrite OE in H1. destruct (obtain_in v c' g' nm' m0 w) as [[[[m g1] x]|e]|]; try (rewrite H1 in H2; injection H2 as <- <-; auto).
    rewrite (proj2 (is_use_iff _) OP) in H1. rewrite (proj2 (is_use_iff _) OP') in H2.
    destruct (truthy _); [rewrite H1 in H2; injection H2 as <- <-; auto|]. eapply (fae_agree v c c'); eauto.
  - assert (N0 : String.eqb op "use" = false) by now apply String.eqb_neq.
    assert (Q : forall k, In k ["i"; "const"; "postproc_funcs_filter"; "hashtable_precision"; "ab_polys_type"; "ab_polys_special_params"; "a_coeffs_range"; "b_coeffs_range"]%string -> c_get c k = c_get c' k).
    { intros k K. apply A. destruct IOP as [<-|[<-|[<-|[]]]]; [| |contradiction]; vm_compute; vm_compute in K; intuition congruence. }
    rewrite (Q "i"%string), (Q "const"%string) in H1 by (cbn; tauto).
    destruct (as_garg _) as [j|]; [|rewrite H1 in H2; injection H2 as <- <-; auto].
    destruct (choose v _ j) as [[g nm]|e]; [|rewrite H1 in H2; injection H2 as <- <-; auto].
    assert (SE : forall m, settings_of (v_sq v) c nm m = settings_of (v_sq v) c' nm m).
    { intros m. unfold settings_of. rewrite (Q "postproc_funcs_filter"%string), (Q "hashtable_precision"%string), (Q "ab_polys_type"%string), (Q "ab_polys_special_params"%string) by (cbn; tauto). reflexivity. }
    assert (OE : obtain_in v c g nm m0 w = obtain_in v c' g nm m0 w).
    { unfold obtain_in, obtain. rewrite OP, OP', EF, SE. destruct (as_path _) as [p|]; [|reflexivity].
      destruct (existsb _ _) eqn:EX; [reflexivity|]. destruct (text_eqb (txt op) (txt "generate")) eqn:EG; [|reflexivity].
      rewrite (A "hashtable_num_of_iterations"%string); [reflexivity|]. destruct IOP as [<-|[<-|[<-|[]]]]; [|discriminate EG|contradiction]. vm_compute. intuition congruence. }
    rewrite OE in H1. destruct (obtain_in v c' g nm m0 w) as [[[[m g1] x]|e]|]; try (rewrite H1 in H2; injection H2 as <- <-; auto).
    assert (U : is_use c = false /\ is_use c' = false) by (destruct IOP as [<-|[<-|[<-|[]]]]; [| |contradiction]; split; eapply not_use; eauto; discriminate). destruct U as [U U'].
    rewrite U in H1. rewrite U' in H2.
    assert (XE : extend_in v c m g1 x w = extend_in v c' m g1 x w).
    { unfold extend_in, extend. rewrite (Q "a_coeffs_range"%string), (Q "b_coeffs_range"%string), EF by (cbn; tauto). reflexivity. }
    rewrite XE in H1. destruct (extend_in v c' m g1 x w) as [w3 [[x1|e]|]]; try (rewrite H1 in H2; injection H2 as <- <-; auto).
    destruct (truthy _); [rewrite H1 in H2; injection H2 as <- <-; auto|]. eapply (fae_agree v c c'); eauto.
Qed.
(** The setting print_surprising_nonexp_contfracs is read, and not only for printing: the fractions to be printed are classified, and an
    exception of that is not caught; nor is one of making the text of the left-hand side. *)
Definition printing_raises (v : env) (e : exn) : Prop := (exists cf, v_est v cf = Raise e) \/ exists q, v_eng v q = Raise e.
Lemma stages_print {O} v rd (cls : MITM_Model.lhs_class O) funcs trunc n1 a1 n2 a2 cs :
  stages_in v rd cls funcs trunc true n1 a1 n2 a2 cs = stages_in v rd cls funcs trunc false n1 a1 n2 a2 cs \/
  exists e l, printing_raises v e /\ stages_in v rd cls funcs trunc true n1 a1 n2 a2 cs = (l, Raise e).
Proof.
  unfold stages_in, Main_Model.stages, seq_steps. cbn [fold_left].
  destruct (refine _ _ _ _ _ _ a1 cs) as [c1 [[]|e]]; [|now left].
  destruct (filter_uniq cls c1) as [c2 [[]|e]]; [|now left].
  destruct (C78_printing O rd (v_eng v) cls (v_est v) (v_target v) c2) as [->|(c & cf1 & e & _ & _ & E & ->)]; [now left|].
  right. exists e, c2. split; [|reflexivity]. destruct E as [E|E]; [left; eauto|right]. unfold engv in E. destruct (lc_val cls _); [eauto|discriminate].
Qed.
Definition read_printing : string := "print_surprising_nonexp_contfracs"%string.
Lemma search_print {O} v rd (cls : MITM_Model.lhs_class O) lat par funcs tr enum c c' i i' y x w w1 w2 r1 r2 :
  (forall k, k <> read_printing -> c_get c k = c_get c' k) -> truthy (c_get c' read_printing) = false -> save c = Ok i -> save c' = Ok i' ->
  search_in v rd cls lat par funcs tr enum c y x w = (w1, r1) -> search_in v rd cls lat par funcs tr enum c' y x w = (w2, r2) ->
  (r1 = r2 /\ same_but_settings w1 w2) \/ exists e, printing_raises v e /\ r1 = Some (Raise e) /\ w1 = w.
Proof.
  assert (R : forall w0, same_but_settings w0 w0) by (intros w0; repeat split; auto).
  intros A T S S' H1 H2. unfold read_printing in T. unfold search_in, search in H1, H2. rewrite T in H2.
  destruct (find_clicks _ _ _ _ _) as [s1 [u|e]]; [|rewrite H1 in H2; injection H2 as <- <-; left; auto].
  rewrite (A "first_filtering_num_of_iterations"%string), (A "first_filtering_precision"%string), (A "second_filtering_max_num_of_iterations"%string),
    (A "second_filtering_precision"%string), (A "third_filtering_max_num_of_iterations"%string), (A "third_filtering_precision"%string) in H1 by discriminate.
  repeat match type of H1 with context [match as_int ?z with _ => _ end] => destruct (as_int z); [|rewrite H1 in H2; injection H2 as <- <-; left; auto] end.
  fold (@stages_in O v) in H1, H2.
  match type of H2 with context [stages_in v rd cls funcs tr false ?n1 ?a1 ?n2 ?a2 ?cs] =>
    assert (Q : stages_in v rd cls funcs tr (truthy (c_get c "print_surprising_nonexp_contfracs")) n1 a1 n2 a2 cs = stages_in v rd cls funcs tr false n1 a1 n2 a2 cs \/
      exists e l, printing_raises v e /\ stages_in v rd cls funcs tr (truthy (c_get c "print_surprising_nonexp_contfracs")) n1 a1 n2 a2 cs = (l, Raise e))
  end.
  { clear T. destruct (truthy _); [apply stages_print|now left]. }
  destruct Q as [Q|(e & l & E & Q)]; rewrite Q in H1.
  2: { injection H1 as <- <-. right. exists e. auto. }
  clear Q. destruct (stages_in v rd cls funcs tr false _ _ _ _ _) as [cs [u'|e]]; [|rewrite H1 in H2; injection H2 as <- <-; left; auto].
  destruct (last_stage _ _ _ _ _ _ _ _ _ _ _ _ _) as [cs' [u''|e]]; [|rewrite H1 in H2; injection H2 as <- <-; left; auto].
  fold (@export_in O v) in H1, H2.
  destruct (export_in v rd cls lat par funcs c (mi_name s1) cs' w) as [wa ra] eqn:E1.
  destruct (export_in v rd cls lat par funcs c' (mi_name s1) cs' w) as [wb rb] eqn:E2.
  injection H1 as <- <-. injection H2 as <- <-. destruct (export_agree _ _ _ _ _ _ _ _ _ _ _ _ _ _ _ _ _ S S' E1 E2) as [-> Q]. left. auto.
Qed.
Lemma fae_print v c c' i i' m g x w w1 w2 r1 r2 :
  (forall k, k <> read_printing -> c_get c k = c_get c' k) -> truthy (c_get c' read_printing) = false -> save c = Ok i -> save c' = Ok i' ->
  fae_in v c m g x w = (w1, r1) -> fae_in v c' m g x w = (w2, r2) ->
  (r1 = r2 /\ same_but_settings w1 w2) \/ exists e, printing_raises v e /\ r1 = Some (Raise e) /\ w1 = w.
Proof.
  assert (R : forall w0, same_but_settings w0 w0) by (intros w0; repeat split; auto).
  intros A T S S' H1 H2. unfold fae_in, find_and_export in H1, H2.
  rewrite (A "lhs_type"%string), (A "lhs_params"%string) in H1 by discriminate.
  destruct (c_get c' "lhs_type"); try (rewrite H1 in H2; injection H2 as <- <-; left; auto).
  destruct (call0 g m) as [m1 [y|e]]; [|rewrite H1 in H2; injection H2 as <- <-; left; auto].
  destruct (text_eqb name (txt "ulcd")).
  - destruct (as_ulcd _) as [rs|]; [|rewrite H1 in H2; injection H2 as <- <-; left; auto]. eapply search_print; eauto.
  - destruct (as_rational _) as [p|]; [|rewrite H1 in H2; injection H2 as <- <-; left; auto].
    destruct INVERSE_POSTPROC_PAIRS as [inv|e]; [|rewrite H1 in H2; injection H2 as <- <-; left; auto]. eapply search_print; eauto.
Qed.
(** Asking for the surprising fractions to be printed: the same outcome and the same disk but for the copies of the settings, unless the
    classification of a fraction or the text of a left-hand side raises an exception, which then ends the run; the table is left as without it, and there are no results. *)
Theorem C92_printing : forall v c c' m0 w w1 w2 r1 r2 i i', complete c -> complete c' ->
  (forall k, k <> "print_surprising_nonexp_contfracs"%string -> c_get c k = c_get c' k) -> c_get c' "print_surprising_nonexp_contfracs" = CBool false ->
  save c = Ok i -> save c' = Ok i' -> run_with v c m0 w = (w1, r1) -> run_with v c' m0 w = (w2, r2) ->
  (r1 = r2 /\ same_but_settings w1 w2) \/
  exists e, printing_raises v e /\ r1 = Some (Raise e) /\ w_tables w1 = w_tables w2 /\ w_dirs w1 = w_dirs w /\ w_files w1 = w_files w.
Proof.
  intros v c c' m0 w w1 w2 r1 r2 its its' C C' A T S S' H1 H2.
  assert (R : forall w0, same_but_settings w0 w0) by (intros wz; repeat split; auto).
  assert (T' : truthy (c_get c' read_printing) = false) by (unfold read_printing; now rewrite T). clear T.
  unfold run_with, main_with in H1, H2. rewrite (has_all_complete _ C) in H1. rewrite (has_all_complete _ C') in H2. cbn [negb] in H1, H2.
  fold (choose v) in H1, H2. fold (obtain_in v) in H1, H2. fold (extend_in v) in H1, H2. fold (is_use c) in H1. fold (is_use c') in H2. fold (fae_in v) in H1, H2.
  assert (EO : forall g nm, obtain_in v c g nm m0 w = obtain_in v c' g nm m0 w).
  { intros g nm. unfold obtain_in, obtain, settings_of.
    rewrite (A "hashtable_file"%string), (A "hashtable_file_operation"%string), (A "hashtable_num_of_iterations"%string), (A "postproc_funcs_filter"%string),
      (A "hashtable_precision"%string), (A "ab_polys_type"%string), (A "ab_polys_special_params"%string) by discriminate. reflexivity. }
  assert (EX : forall m g x, extend_in v c m g x w = extend_in v c' m g x w).
  { intros m g x. unfold extend_in, extend. rewrite (A "a_coeffs_range"%string), (A "b_coeffs_range"%string), (A "hashtable_file"%string) by discriminate. reflexivity. }
  assert (EU : is_use c = is_use c') by (unfold is_use; now rewrite (A "hashtable_file_operation"%string) by discriminate).
  rewrite EU, (A "i"%string), (A "const"%string), (A "gen_hashtable_only"%string) in H1 by discriminate.
  destruct (as_garg _) as [j|]; [|rewrite H1 in H2; injection H2 as <- <-; left; auto].
  destruct (choose v _ j) as [[g nm]|e]; [|rewrite H1 in H2; injection H2 as <- <-; left; auto].
  rewrite EO in H1. destruct (obtain_in v c' g nm m0 w) as [[[[m g1] x]|e]|]; try (rewrite H1 in H2; injection H2 as <- <-; left; auto).
  rewrite EX in H1.
  destruct (if is_use c' then _ else _) as [w3 [[x1|e]|]] eqn:EE; try (rewrite H1 in H2; injection H2 as <- <-; left; auto).
  destruct (truthy (c_get c' "gen_hashtable_only")); [rewrite H1 in H2; injection H2 as <- <-; left; auto|].
  destruct (fae_print v c c' its its' _ _ _ _ _ _ _ _ A T' S S' H1 H2) as [Q|(e & E & -> & ->)]; [now left|].
  right. exists e. split; [exact E|]. split; [reflexivity|].
  rewrite <- EX in EE. apply (fae_cases v) in H2. apply searched_tables in H2. split; [now symmetry|].
  rewrite EX in EE. destruct (extend_same v c' _ _ _ _ _ _ EE) as (F & D & _). auto.
Qed.
Lemma complete_has c : has_all c = true -> complete c.
Proof.
  unfold has_all. intros H k I. rewrite forallb_forall in H. specialize (H k I). unfold d_mem in H. destruct (d_get text_eqb c k) as [x|] eqn:E; [|discriminate].
  exists x. now apply (d_get_Some_in _ text_eqb_eq).
Qed.
(** The settings that may differ, for an expansion. *)
Example C92_ex : exists c c' i i', load (dir_list w1) (Some exp1) = Ok c /\
  load (dir_list w1) (Some (exp1 ++ map (fun '(k, v) => (txt k, txt v)) [("is_test", "true"); ("hashtable_num_of_iterations", "77")]%string)) = Ok c' /\
  operation c "expand" /\ complete c /\ save c = Ok i /\ save c' = Ok i' /\ c_get c "is_test" <> c_get c' "is_test" /\
  c_get c "hashtable_num_of_iterations" <> c_get c' "hashtable_num_of_iterations" /\ snd (run_with env_ex c' import_ctx w1) = Some (Ok tt).
Proof.
  do 4 eexists. split; [vm_compute; reflexivity|]. split; [vm_compute; reflexivity|]. split; [reflexivity|].
  split; [|split; [vm_compute; reflexivity|split; [vm_compute; reflexivity|vm_compute; repeat split; discriminate]]].
  apply complete_has. vm_compute. reflexivity.
Qed.
Example C92_printing_ex : exists c c' i i', load (dir_list w1) (Some (exp1 ++ [(txt "print_surprising_nonexp_contfracs", txt "false")])) = Ok c' /\
  load (dir_list w1) (Some (exp1 ++ [(txt "print_surprising_nonexp_contfracs", txt "true")])) = Ok c /\
  complete c /\ complete c' /\ save c = Ok i /\ save c' = Ok i' /\ c_get c' "print_surprising_nonexp_contfracs" = CBool false /\
  c_get c "print_surprising_nonexp_contfracs" = CBool true /\ c_get c "hashtable_file" = c_get c' "hashtable_file".
Proof.
  do 4 eexists. split; [vm_compute; reflexivity|]. split; [vm_compute; reflexivity|].
  split; [apply complete_has; vm_compute; reflexivity|]. split; [apply complete_has; vm_compute; reflexivity|].
  split; [vm_compute; reflexivity|]. split; [vm_compute; reflexivity|]. vm_compute. repeat split.
Qed.

(** ---- C93: functions that do not work ---- *)
(** When a function of the list does not work with mpmath numbers (see C79), generating a table stops with an exception as
    soon as the ranges contain a fraction with a value other than zero, and nothing is written. *)
Theorem C93_generate : forall v c m0 w w' r cl sp is i n pairs ab q, env_ok v -> run_with v c m0 w = (w', r) -> operation c "generate" ->
  c_get c "ab_polys_type" = CPoly cl -> as_special (c_get c "ab_polys_special_params") = Some sp ->
  ints_setting c "postproc_funcs_filter" is -> In i is -> 0 <= i < 24 -> ~ In i [0; 2; 4; 6; 8; 10] ->
  c_get c "hashtable_num_of_iterations" = CInt n -> enumerates v {| en_class := cl; en_special := sp |} true c pairs -> In ab pairs ->
  cf_value (rnd bits50) n ab = Ok q -> ~ (q == 0)%Q -> w' = w /\ r <> Some (Ok tt).
Proof.
  intros v c m0 w w' r cl sp is i n pairs ab q VO H G HCl HSp HIs Ii I24 NW HN HE IA HV HQ. pose proof (not_use _ _ G ltac:(discriminate)) as U.
  apply run_course in H.
  assert (X : forall g name m g1 x w1 x1, obtain_in v c g name m0 w = Some (Ok (m, g1, x)) -> extend_in v c m g1 x w = (w1, Some (Ok x1)) -> False).
  { intros g name m g1 x wx x1 HO HX. apply obtain_ok in HO. destruct HO as [p0 s0 O0 _ _|p0 s0 st y O0 _ _ _ _|st k y O0 HS HK HM];
      [now apply (op_excl _ _ _ O0) in G|now apply (op_excl _ _ _ O0) in G|].
    destruct (settings_read _ _ _ _ _ HS) as (F1 & F2 & F3 & F4 & F5 & F6 & F7).
    rewrite HN in HK. injection HK as <-. rewrite HCl in F3. injection F3 as F3. rewrite HSp in F4. injection F4 as F4.
    pose proof (ints_fun _ _ _ _ HIs F1) as F0. unfold mitm_new in HM.
    destruct (enumer_new (s_class st) (s_special st)) as [en|e0] eqn:EN; cbn [bind] in HM; [|discriminate].
    assert (EE : en = {| en_class := cl; en_special := sp |}) by (unfold enumer_new in EN; destruct (s_class st), (s_special st); congruence).
    injection HM as <-. destruct (extend_ok _ _ _ _ _ _ _ _ HX) as (ra & rb & p & x0 & t & RA & RB & _ & HB & _).
    destruct HE as (ra' & rb' & z & RA' & RB' & Z1 & Z2 & HP).
    rewrite (ranges_fun _ _ _ _ RA' (ranges_read _ _ _ RA)) in HP. rewrite (ranges_fun _ _ _ _ RB' (ranges_read _ _ _ RB)) in HP.
    match type of HB with build_hashtable _ _ _ _ _ _ _ _ _ ?M = _ => set (M0 := M) in * end.
    change (rnd (mp_prec (set_dps DECIMAL_PREC))) with (rnd bits50) in HB.
    rewrite (rhs_pairs_dep _ _ _ _ _ z M0) in HP by (unfold M0; cbn [mi_enum mi_exp_only]; congruence).
    destruct (Properties_Results.C79_build _ (rnd bits50) (v_sq v) (v_fsqrt v) (v_ibinom v) (v_masks v) (v_order v) (v_target v) ra rb true M0 pairs (Ok tt) ab i q VO) as (e & E); auto.
    - unfold M0; cbn [mi_filter]; now rewrite <- F0.
    - unfold Properties_Results.mpf_works. destruct (existsb (Z.eqb i) [0; 2; 4; 6; 8; 10]) eqn:EX; [|reflexivity]. exfalso. apply NW. apply existsb_exists in EX as (j & J & E). apply Z.eqb_eq in E. now subst.
    - rewrite HB in E. discriminate. }
  destruct H as [r0 N|j g name m g1 x w1 x1 HI HC HO HX HT|j g name m g1 x w1 x1 w2 r0 HI HC HO HX HT HF]; [auto| |]; rewrite U in HX; exfalso; eauto.
Qed.
Example C93_ex : map (fun f => snd (start env_ex (conf_ex "pi" "generate" "auto" "[[[1, 2], [1, 2]]]" f one_lhs) w0))
  ["[""lambda x: x"", ""lambda x: x**2""]"; "[""lambda x: x"", ""safe_inverse""]"]%string = map Some [Ok tt; Raise AttributeError].
Proof. vm_compute. reflexivity. Qed.

Print Assumptions C84_only_named_file.
Print Assumptions C84_use_reads_only.
Print Assumptions C84_generate.
Print Assumptions C84_expand.
Print Assumptions C84_normal_pairs.
Print Assumptions C85_expand_in_place.
Print Assumptions C85_next_version_refuted.
Print Assumptions C85_generate_new_file_refuted.
Print Assumptions C86_unknown.
Print Assumptions C86_feig_percolation.
Print Assumptions C86_zeta.
Print Assumptions C86_name.
Print Assumptions C87_no_results.
Print Assumptions C87_mpmath_search.
Print Assumptions C88_interrupt.
Print Assumptions C89_four_files.
Print Assumptions C89_minute.
Print Assumptions C89_results_kept_refuted.
Print Assumptions C90_rerun.
Print Assumptions C91_table_only.
Print Assumptions C91_setting.
Print Assumptions C91_no_refuted.
Print Assumptions C92_unread.
Print Assumptions C92_printing.
Print Assumptions C93_generate.

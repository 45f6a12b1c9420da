(** Lemmas about whole runs of the program. *)
From Coq Require Import Ascii String ZArith QArith List Bool Lia Permutation.
From Verif Require Import PyBase PyBase_Proofs Rnd ContFrac_Model Hashtable_Model Hashtable_Proofs ULCD_Model Rational_Model MITM_Model Results_Model
  Config_Model Consts_Model Main_Model Spec_MITM MITM_Build MITM_Build2 MITM_Clicks Properties_MITM Rational_Enum Properties_Rational Spec_Main.
Import ListNotations.
Local Open Scope Z_scope.
Local Open Scope list_scope.

(** ---- the parts of main in an environment ---- *)
Definition choose v := choose_const (v_pi v) (v_e v).
Definition obtain_in v := obtain (v_sq v).
Definition extend_in v := extend (v_fsqrt v) (v_ibinom v) (v_masks v) (v_order v) (v_target v) (v_eng v).
Definition fae_in v := find_and_export (v_target v) (v_eng v) (v_kind v) (v_pgcd v) (v_est v) (v_req v) (v_acc10 v) (v_roots v) (v_upar v)
  (v_rpar v) (v_irq v) (v_t1 v) (v_t2 v) (v_pdf v).
Definition export_in {O} v := @export (v_target v) (v_eng v) (v_t1 v) (v_t2 v) (v_pdf v) O.
Definition search_in {O} v := @search (v_target v) (v_eng v) (v_est v) (v_req v) (v_acc10 v) (v_roots v) (v_irq v) (v_t1 v) (v_t2 v) (v_pdf v) O.
Definition stages_in {O} v := @stages (v_target v) (v_eng v) (v_est v) (v_req v) (v_acc10 v) O.
Definition last_in {O} v := @last_stage (v_target v) (v_eng v) (v_req v) (v_acc10 v) (v_roots v) (v_irq v) O.

Definition is_use (c : config) : bool := match c_get c "hashtable_file_operation" with CStr op => text_eqb op (txt "use") | _ => false end.

(** How a run goes. *)
Inductive course (v : env) (c : config) (m0 : mpctx) (w : world) : world -> option (res unit) -> Prop :=
| K_stop : forall r, r <> Some (Ok tt) -> course v c m0 w w r
| K_only : forall i g name m g1 x w1 x1, as_garg (c_get c "i") = Some i -> choose v (c_get c "const") i = Ok (g, name) ->
    obtain_in v c g name m0 w = Some (Ok (m, g1, x)) ->
    (if is_use c then (w, Some (Ok x)) else extend_in v c m g1 x w) = (w1, Some (Ok x1)) ->
    truthy (c_get c "gen_hashtable_only") = true -> course v c m0 w w1 (Some (Ok tt))
| K_search : forall i g name m g1 x w1 x1 w' r, as_garg (c_get c "i") = Some i -> choose v (c_get c "const") i = Ok (g, name) ->
    obtain_in v c g name m0 w = Some (Ok (m, g1, x)) ->
    (if is_use c then (w, Some (Ok x)) else extend_in v c m g1 x w) = (w1, Some (Ok x1)) ->
    truthy (c_get c "gen_hashtable_only") = false -> fae_in v c m g1 x1 w1 = (w', r) -> course v c m0 w w' r.

Lemma extend_stop v c m g x w w1 r : extend_in v c m g x w = (w1, r) -> (forall x1, r <> Some (Ok x1)) -> w1 = w.
Proof.
  unfold extend_in, extend. intros H N.
  destruct (as_ranges (c_get c "a_coeffs_range")) as [ra|]; [|congruence].
  destruct (as_ranges (c_get c "b_coeffs_range")) as [rb|]; [|congruence].
  destruct (as_path (c_get c "hashtable_file")) as [p|]; [|congruence].
  destruct (build_hashtable _ _ _ _ _ _ _ _ _ _) as [y [u|e]]; [|congruence].
  destruct (ht_set _ _ _ _) as [t [u'|e]]; [|congruence].
  exfalso. injection H as <- <-. eapply N; reflexivity.
Qed.

Lemma run_course v c m0 w w' r : run_with v c m0 w = (w', r) -> course v c m0 w w' r.
Proof.
  unfold run_with, main_with. destruct (has_all c); cbn [negb]; intros H; [|injection H as <- <-; constructor; discriminate].
  destruct (as_garg (c_get c "i")) as [i|] eqn:EI; [|injection H as <- <-; constructor; discriminate].
  fold (choose v) in H. destruct (choose v (c_get c "const") i) as [[g name]|e] eqn:EC; [|injection H as <- <-; constructor; discriminate].
  fold (obtain_in v) in H. destruct (obtain_in v c g name m0 w) as [[[[m g1] x]|e]|] eqn:EO; try (injection H as <- <-; constructor; discriminate).
  fold (extend_in v) in H. fold (is_use c) in H. fold (fae_in v) in H.
  destruct (if is_use c then (w, Some (Ok x)) else extend_in v c m g1 x w) as [w1 [[x1|e]|]] eqn:EX.
  - destruct (truthy (c_get c "gen_hashtable_only")) eqn:ET.
    + injection H as <- <-. eapply K_only; eauto.
    + eapply K_search; eauto.
  - injection H as <- <-. assert (w1 = w) as ->; [|constructor; discriminate].
    destruct (is_use c); [congruence|]. eapply extend_stop; [exact EX|discriminate].
  - injection H as <- <-. assert (w1 = w) as ->; [|constructor; discriminate].
    destruct (is_use c); [congruence|]. eapply extend_stop; [exact EX|discriminate].
Qed.

Lemma extend_ok v c m g x w w1 x1 : extend_in v c m g x w = (w1, Some (Ok x1)) ->
  exists ra rb p x0 t, as_ranges (c_get c "a_coeffs_range") = Some ra /\ as_ranges (c_get c "b_coeffs_range") = Some rb /\
    table_path c p /\ build_hashtable (rnd (mp_prec m)) (v_fsqrt v) (v_ibinom v) (v_masks v) (v_order v) (v_target v) ra rb true x = (x0, Ok tt) /\
    ht_set (v_eng v) (UStr (txt "parameters")) (VOne TParams) (mi_table x0) = (t, Ok tt) /\ x1 = with_table x0 t /\
    w1 = write_table p {| sv_mitm := x1; sv_gen := g |} w.
Proof.
  unfold extend_in, extend. intros H.
  destruct (as_ranges (c_get c "a_coeffs_range")) as [ra|] eqn:E1; [|congruence].
  destruct (as_ranges (c_get c "b_coeffs_range")) as [rb|] eqn:E2; [|congruence].
  destruct (as_path (c_get c "hashtable_file")) as [p|] eqn:E3; [|congruence].
  destruct (build_hashtable _ _ _ _ _ _ _ _ _ _) as [x0 [[]|e]] eqn:E4; [|congruence].
  destruct (ht_set _ _ _ _) as [t [[]|e]] eqn:E5; [|congruence].
  exists ra, rb, p, x0, t. injection H as <- <-. repeat split; auto.
  unfold table_path, as_path in *. destruct (c_get c "hashtable_file"); congruence.
Qed.

(** ---- the search ---- *)
Inductive searched (v : env) (c : config) (x : mitm Empty_set) (w : world) : world -> option (res unit) -> Prop :=
| S_stop : forall r, r <> Some (Ok tt) -> searched v c x w w r
| S_export : forall (O : Type) rd (cls : MITM_Model.lhs_class O) enum lat par s1 surp n1 a1 n2 a2 n3 a3 cs2 cs3 y w' r,
    find_clicks rd (v_eng v) cls enum (with_target (retype x) y) = (s1, Ok tt) ->
    stages_in v rd cls (mi_funcs x) (mi_trunc x) surp n1 a1 n2 a2 (mi_params s1) = (cs2, Ok tt) ->
    last_in v rd cls (mi_funcs x) (mi_trunc x) n3 a3 cs2 = (cs3, Ok tt) ->
    export_in v rd cls lat par (mi_funcs x) c (mi_name s1) cs3 w = (w', r) -> searched v c x w w' (Some r).

Lemma search_cases {O} v rd (cls : MITM_Model.lhs_class O) enum lat par c y x w w' r :
  search_in v rd cls lat par (mi_funcs x) (mi_trunc x) enum c y x w = (w', r) -> searched v c x w w' r.
Proof.
  unfold search_in, search. intros H.
  destruct (find_clicks _ _ _ _ _) as [s1 [[]|e]] eqn:E1; [|injection H as <- <-; constructor; discriminate].
  repeat match type of H with context [match as_int ?z with _ => _ end] => destruct (as_int z); [|injection H as <- <-; constructor; discriminate] end.
  match type of H with context [stages _ _ _ _ _ _ _ _ _ _ ?n1 ?a1 ?n2 ?a2 _] => fold (@stages_in O v) in H end.
  match type of H with context [match ?s with _ => _ end] => destruct s as [cs2 [[]|e]] eqn:E2; [|injection H as <- <-; constructor; discriminate] end.
  fold (@last_in O v) in H.
  match type of H with context [match ?s with _ => _ end] => destruct s as [cs3 [[]|e]] eqn:E3; [|injection H as <- <-; constructor; discriminate] end.
  fold (@export_in O v) in H.
  match type of H with context [let (_, _) := ?s in _] => destruct s as [w2 r2] eqn:E4 end.
  injection H as <- <-. eapply S_export; eauto.
Qed.

Lemma fae_cases v c m g x w w' r : fae_in v c m g x w = (w', r) -> searched v c x w w' r.
Proof.
  unfold fae_in, find_and_export. intros H.
  destruct (c_get c "lhs_type"); try (injection H as <- <-; constructor; discriminate).
  destruct (call0 g m) as [m1 [y|e]]; [|injection H as <- <-; constructor; discriminate].
  destruct (text_eqb name (txt "ulcd")).
  - destruct (as_ulcd _); [|injection H as <- <-; constructor; discriminate].
    eapply (search_cases v); exact H.
  - destruct (as_rational _); [|injection H as <- <-; constructor; discriminate].
    destruct INVERSE_POSTPROC_PAIRS; [|injection H as <- <-; constructor; discriminate].
    eapply (search_cases v); exact H.
Qed.

(** ---- no clicks stay no clicks ---- *)
Lemma stages_nil {O} v rd (cls : MITM_Model.lhs_class O) funcs trunc surp n1 a1 n2 a2 : stages_in v rd cls funcs trunc surp n1 a1 n2 a2 [] = ([], Ok tt).
Proof. reflexivity. Qed.
Lemma last_nil {O} v rd (cls : MITM_Model.lhs_class O) funcs trunc n3 a3 : last_in v rd cls funcs trunc n3 a3 [] = ([], Ok tt).
Proof.
  unfold last_in, last_stage. destruct (v_irq v) as [[[|k] n]|]; [|destruct k as [|[|[|k]]]; try reflexivity|reflexivity].
  - unfold refine_cut. rewrite firstn_nil, skipn_nil. reflexivity.
  - cbn [firstn last_steps]. rewrite firstn_nil. reflexivity.
Qed.

(** ---- results on the disk ---- *)
Lemma is_dir_iff p w : is_dir p w = true <-> In p (w_dirs w).
Proof.
  unfold is_dir. rewrite existsb_exists. split.
  - intros (x & I & E). apply text_eqb_eq in E. now subst.
  - intros I. exists p. split; [exact I|]. now apply text_eqb_eq.
Qed.

Lemma text_eqb_refl a : text_eqb a a = true.
Proof. now apply text_eqb_eq. Qed.
Lemma text_eqb_neq a b : text_eqb a b = false <-> a <> b.
Proof. rewrite <- text_eqb_eq. destruct (text_eqb a b); split; congruence. Qed.
Lemma dir_of_is t : results_dir ++ txt "/" ++ t = dir_of t.
Proof. reflexivity. Qed.
(** The disk after os.mkdir('results') where it is missing. *)
Definition base (w : world) : world := if is_dir results_dir w then w else fst (mkdir results_dir w).
Lemma base_tables w : w_tables (base w) = w_tables w.
Proof. unfold base, mkdir. destruct (is_dir results_dir w); reflexivity. Qed.
Lemma base_files w : w_files (base w) = w_files w.
Proof. unfold base, mkdir. destruct (is_dir results_dir w); reflexivity. Qed.
Lemma base_dirs w p : In p (w_dirs (base w)) <-> In p (w_dirs w) \/ p = txt "results".
Proof.
  unfold base, mkdir. destruct (is_dir results_dir w) eqn:E; cbn [fst w_dirs].
  - apply is_dir_iff in E. split; [tauto|]. intros [H | ->]; assumption.
  - rewrite in_app_iff. cbn [In]. unfold results_dir. split; [intros [H|[H|[]]]|intros [H|H]]; auto.
Qed.
Definition with_dir (p : text) (w : world) : world := {| w_tables := w_tables w; w_dirs := w_dirs w ++ [p]; w_files := w_files w |}.
Lemma dir_of_neq t : dir_of t <> txt "results".
Proof. unfold dir_of. intros H. apply (f_equal (@List.length _)) in H. rewrite app_length in H. cbn in H. lia. Qed.

(** The whole of export, step by step. *)
Lemma export_steps {O} v rd (cls : MITM_Model.lhs_class O) lat par funcs c name cs w w' r :
  export_in v rd cls lat par funcs c name cs w = (w', r) ->
  (In (dir_of (v_t1 v)) (w_dirs w) /\ w' = base w /\ r = Raise RuntimeError) \/
  (~ In (dir_of (v_t1 v)) (w_dirs w) /\
   let w1 := with_dir (dir_of (v_t1 v)) (base w) in let d := dir_of (v_t2 v) in
   let csv := export_to_csv rd funcs (v_target v) (engv (v_eng v)) (lc_val cls) par name cs in
   let eqns := snd (results_as_eqns rd lat funcs (v_target v) POSTPROC_FUNCS_LATEX name POSTPROC_FUNCS true 5 cs) in
   (w' = w1 /\ ((exists e, csv = Raise e /\ r = Raise e) \/ (~ In d (w_dirs w1) /\ r = Raise RuntimeError))) \/
   (exists f, csv = Ok f /\ In d (w_dirs w1) /\
    let w2 := write_file (d ++ txt "/results.csv") (OCsv f) w1 in
    (w' = w2 /\ exists e, eqns = Raise e /\ r = Raise e) \/
    (exists es, eqns = Ok es /\
     let w3 := write_file (d ++ txt "/results.tex") (OTex es) w2 in
     (w' = w3 /\ exists e, v_pdf v = Raise e /\ r = Raise e) \/
     (v_pdf v = Ok tt /\
      let w4 := write_file (d ++ txt "/results.pdf") OPdf w3 in
      (w' = w4 /\ exists e, save c = Raise e /\ r = Raise e) \/
      (exists items, save c = Ok items /\ w' = write_file (d ++ txt "/config.ini") (OConf items) w4 /\ r = Ok tt))))).
Proof.
  unfold export_in, export. rewrite !dir_of_is. fold (base w). unfold mkdir. intros H.
  destruct (is_dir (dir_of (v_t1 v)) (base w)) eqn:E1.
  - left. injection H as <- <-. apply is_dir_iff, base_dirs in E1. destruct E1 as [E1|E1]; [auto|]. now apply dir_of_neq in E1.
  - right. split; [intros I; assert (is_dir (dir_of (v_t1 v)) (base w) = true) by (apply is_dir_iff, base_dirs; auto); congruence|].
    cbv zeta. fold (with_dir (dir_of (v_t1 v)) (base w)) in H. set (w1 := with_dir (dir_of (v_t1 v)) (base w)) in *.
    destruct (export_to_csv _ _ _ _ _ _ _ _) as [f|e]; [|injection H as <- <-; left; eauto].
    unfold write_in at 1 in H. destruct (is_dir (dir_of (v_t2 v)) w1) eqn:E2.
    2:{ injection H as <- <-. left. split; [reflexivity|]. right. split; [|reflexivity]. intros I. apply is_dir_iff in I. congruence. }
    right. exists f. split; [reflexivity|]. split; [now apply is_dir_iff|].
    destruct (results_as_eqns _ _ _ _ _ _ _ _ _ _) as [cs' [es|e]]; cbn [snd]; [|injection H as <- <-; left; eauto].
    right. exists es. split; [reflexivity|].
    assert (D : forall p f z, is_dir (dir_of (v_t2 v)) (write_file p f z) = is_dir (dir_of (v_t2 v)) z) by reflexivity.
    unfold write_in in H. rewrite D, E2 in H. cbn [fst] in H.
    destruct (v_pdf v) as [[]|e]; [|injection H as <- <-; left; eauto]. right. split; [reflexivity|].
    rewrite D, D, E2 in H. cbn [fst] in H. destruct (save c) as [items|e]; [|injection H as <- <-; left; eauto]. right. exists items.
    rewrite D, D, D, E2 in H. injection H as <- <-. auto.
Qed.

Lemma export_tables {O} v rd (cls : MITM_Model.lhs_class O) lat par funcs c name cs w w' r :
  export_in v rd cls lat par funcs c name cs w = (w', r) -> w_tables w' = w_tables w.
Proof.
  intros H. apply export_steps in H. cbv zeta in H.
  destruct H as [(_ & -> & _)|(_ & [(-> & _)|(f & _ & _ & [(-> & _)|(es & _ & [(-> & _)|(_ & [(-> & _)|(it & _ & -> & _)])])])])];
    exact (base_tables w).
Qed.

Lemma file_other p q f w : p <> q -> file_at (write_file p f w) q = file_at w q.
Proof. intros N. unfold file_at, write_file. cbn [w_files]. apply (d_get_set_other _ text_eqb_eq). congruence. Qed.
Lemma file_same p f w : file_at (write_file p f w) p = Some f.
Proof. unfold file_at, write_file. cbn [w_files]. apply (d_get_set_same _ text_eqb_eq). Qed.
Lemma base_file w t p : file_at (with_dir t (base w)) p = file_at w p.
Proof. unfold file_at, with_dir. cbn [w_files]. now rewrite base_files. Qed.
Lemma in_results_csv t : in_results t (dir_of t ++ txt "/results.csv").
Proof. exists (txt "results.csv"). split; [now left|reflexivity]. Qed.
Lemma in_results_tex t : in_results t (dir_of t ++ txt "/results.tex").
Proof. exists (txt "results.tex"). split; [right; now left|reflexivity]. Qed.
Lemma in_results_pdf t : in_results t (dir_of t ++ txt "/results.pdf").
Proof. exists (txt "results.pdf"). split; [do 2 right; now left|reflexivity]. Qed.
Lemma in_results_conf t : in_results t (dir_of t ++ txt "/config.ini").
Proof. exists (txt "config.ini"). split; [do 3 right; now left|reflexivity]. Qed.

Lemma export_files {O} v rd (cls : MITM_Model.lhs_class O) lat par funcs c name cs w w' r p :
  export_in v rd cls lat par funcs c name cs w = (w', r) -> ~ in_results (v_t2 v) p -> file_at w' p = file_at w p.
Proof.
  intros H N. apply export_steps in H. cbv zeta in H.
  assert (forall q, in_results (v_t2 v) q -> q <> p) as NQ by (intros q Q E; subst; contradiction).
  destruct H as [(_ & -> & _)|(_ & [(-> & _)|(f & _ & _ & [(-> & _)|(es & _ & [(-> & _)|(_ & [(-> & _)|(it & _ & -> & _)])])])])].
  - unfold file_at. now rewrite base_files.
  - apply base_file.
  - rewrite file_other by apply NQ, in_results_csv. apply base_file.
  - rewrite file_other by apply NQ, in_results_tex. rewrite file_other by apply NQ, in_results_csv. apply base_file.
  - rewrite file_other by apply NQ, in_results_pdf. rewrite file_other by apply NQ, in_results_tex. rewrite file_other by apply NQ, in_results_csv. apply base_file.
  - rewrite file_other by apply NQ, in_results_conf. rewrite file_other by apply NQ, in_results_pdf. rewrite file_other by apply NQ, in_results_tex.
    rewrite file_other by apply NQ, in_results_csv. apply base_file.
Qed.

Lemma d_set_in {A} (d : list (text * A)) p a q b : In (q, b) (d_set text_eqb d p a) -> In (q, b) d \/ (q = p /\ b = a).
Proof.
  induction d as [|[k x] d IH]; cbn [d_set]; [intros [[= <- <-]|[]]; auto|].
  destruct (text_eqb p k) eqn:E.
  - apply text_eqb_eq in E. subst. intros [[= <- <-]|I]; [auto|left; now right].
  - intros [[= <- <-]|I]; [left; now left|]. destruct (IH I) as [J|J]; [left; now right|auto].
Qed.
Lemma quiet_write p f w : no_reports w -> reports_nothing f -> no_reports (write_file p f w).
Proof. intros N R q g I. apply d_set_in in I as [I|(-> & ->)]; [exact (N _ _ I)|exact R]. Qed.
Lemma quiet_base w t : no_reports w -> no_reports (with_dir t (base w)).
Proof. intros N q g I. cbn [with_dir w_files] in I. rewrite base_files in I. exact (N _ _ I). Qed.

Lemma export_quiet {O} v rd (cls : MITM_Model.lhs_class O) lat par funcs c name w w' r :
  export_in v rd cls lat par funcs c name [] w = (w', r) -> no_reports w -> no_reports w'.
Proof.
  intros H N. apply export_steps in H. cbv zeta in H.
  destruct H as [(_ & -> & _)|(_ & [(-> & _)|(f & F & _ & H)])].
  - intros q g I. rewrite base_files in I. exact (N _ _ I).
  - now apply quiet_base.
  - assert (N2 : no_reports (write_file (dir_of (v_t2 v) ++ txt "/results.csv") (OCsv f) (with_dir (dir_of (v_t1 v)) (base w)))).
    { apply quiet_write; [now apply quiet_base|]. cbn in F. injection F as <-. reflexivity. }
    destruct H as [(-> & _)|(es & E & H)]; [exact N2|]. cbn in E. injection E as <-.
    pose proof (quiet_write (dir_of (v_t2 v) ++ txt "/results.tex") (OTex []) _ N2 eq_refl) as N3.
    destruct H as [(-> & _)|(_ & H)]; [exact N3|].
    pose proof (quiet_write (dir_of (v_t2 v) ++ txt "/results.pdf") OPdf _ N3 I) as N4.
    destruct H as [(-> & _)|(it & _ & -> & _)]; [exact N4|]. now apply quiet_write.
Qed.

(** ---- effects of the search ---- *)
Lemma searched_tables v c x w w' r : searched v c x w w' r -> w_tables w' = w_tables w.
Proof. intros [r0 _|]; [reflexivity|]. eapply export_tables; eassumption. Qed.
Lemma searched_files v c x w w' r p : searched v c x w w' r -> ~ in_results (v_t2 v) p -> file_at w' p = file_at w p.
Proof. intros [r0 _|] N; [reflexivity|]. eapply export_files; eassumption. Qed.
Lemma searched_quiet v c x w w' r : searched v c x w w' r -> p_table (mi_table x) ->
  (forall q s, v_eng v q = Ok s -> forall k, s <> p_char :: k) -> no_reports w -> no_reports w'.
Proof.
  intros [r0 _|O rd cls enum lat par s1 surp n1 a1 n2 a2 n3 a3 cs2 cs3 y w1 r1 HF HS HL HX] HP HE N; [exact N|].
  assert (Z : mi_params s1 = []).
  { unfold find_clicks in HF. cbn [mi_target mi_trunc mi_table with_target retype] in HF.
    destruct (enum y) as [gen|e]; cbn [bind] in HF; [|discriminate].
    destruct (find_clicks_loop rd (v_eng v) cls (mi_trunc x) (mi_table x) gen) as [cs|e] eqn:EC; [|discriminate].
    injection HF as <-. cbn. eapply find_clicks_none; [exact HP|exact HE|exact EC]. }
  rewrite Z, stages_nil in HS. injection HS as <-. rewrite last_nil in HL. injection HL as <-.
  eapply export_quiet; eassumption.
Qed.

(** ---- the object of a run ---- *)
Lemma unpickle_same s : built (sv_mitm s) -> unpickle s = sv_mitm s.
Proof.
  intros B. unfold unpickle. destruct (built_p _ B) as [[HT _] _].
  rewrite unpickle_reduce by exact (proj1 HT). destruct (sv_mitm s). reflexivity.
Qed.
Lemma settings_hprec v c name m st : settings_of (v_sq v) c name m = Some st -> precision_ok c -> 0 <= s_hprec st.
Proof.
  unfold settings_of. intros H P. destruct (as_ints _); [|discriminate]. unfold precision_ok in P.
  destruct (c_get c "hashtable_precision") eqn:E; cbn [as_int] in H; try discriminate.
  destruct (c_get c "ab_polys_type"); try discriminate. destruct (as_special _); [|discriminate]. injection H as <-. cbn. now apply P.
Qed.
Definition op_text (c : config) : option text := match c_get c "hashtable_file_operation" with CStr s => Some s | _ => None end.
Lemma is_use_iff c : is_use c = true <-> operation c "use".
Proof.
  unfold is_use, operation. destruct (c_get c "hashtable_file_operation"); split; try discriminate.
  - intros E. apply text_eqb_eq in E. now subst.
  - intros [= ->]. apply text_eqb_refl.
Qed.

Inductive obtained (v : env) (c : config) (g : cgen) (name : text) (m0 : mpctx) (w : world) : mpctx -> cgen -> mitm Empty_set -> Prop :=
| O_use : forall p s, operation c "use" -> table_path c p -> table_at w p = Some s ->
    obtained v c g name m0 w m0 (sv_gen s) (refresh (v_sq v) m0 (unpickle s))
| O_expand : forall p s st x, operation c "expand" -> table_path c p -> table_at w p = Some s ->
    settings_of (v_sq v) c name (set_dps DECIMAL_PREC) = Some st -> mitm_redefine st (unpickle s) = (x, Ok tt) ->
    obtained v c g name m0 w (set_dps DECIMAL_PREC) g x
| O_generate : forall st n x, operation c "generate" -> settings_of (v_sq v) c name (set_dps DECIMAL_PREC) = Some st ->
    as_int (c_get c "hashtable_num_of_iterations") = Some n -> mitm_new true n st = Ok x ->
    obtained v c g name m0 w (set_dps DECIMAL_PREC) g x.

Lemma obtain_ok v c g name m0 w m g1 x : obtain_in v c g name m0 w = Some (Ok (m, g1, x)) -> obtained v c g name m0 w m g1 x.
Proof.
  unfold obtain_in, obtain. destruct (c_get c "hashtable_file_operation") eqn:EO; try discriminate.
  destruct (as_path (c_get c "hashtable_file")) as [p|] eqn:EP; [|discriminate].
  assert (TP : table_path c p) by (unfold table_path, as_path in *; destruct (c_get c "hashtable_file"); congruence).
  destruct (existsb (text_eqb s) [txt "use"; txt "expand"]) eqn:E1.
  - destruct (d_get text_eqb (w_tables w) p) as [s0|] eqn:ET; [|discriminate].
    destruct (text_eqb s (txt "expand")) eqn:E2.
    + apply text_eqb_eq in E2. subst s. destruct (settings_of _ _ _ _) as [st|] eqn:ES; [|discriminate].
      destruct (mitm_redefine st (unpickle s0)) as [y [[]|e]] eqn:ER; [|discriminate].
      intros H. injection H as <- <- <-. eapply O_expand; eauto.
    + cbn [existsb] in E1. rewrite E2 in E1. rewrite !orb_false_r in E1. apply text_eqb_eq in E1. subst s.
      intros H. injection H as <- <- <-. eapply O_use; eauto.
  - destruct (text_eqb s (txt "generate")) eqn:E2; [|discriminate]. apply text_eqb_eq in E2. subst s.
    destruct (settings_of _ _ _ _) as [st|] eqn:ES; [|discriminate].
    destruct (as_int (c_get c "hashtable_num_of_iterations")) as [n|] eqn:EN; [|discriminate].
    destruct (mitm_new true n st) as [y|e] eqn:ER; cbn [bind]; [|discriminate].
    intros H. injection H as <- <- <-. eapply O_generate; eauto.
Qed.

Lemma table_in w p s : table_at w p = Some s -> In (p, s) (w_tables w).
Proof. apply (d_get_Some_in _ text_eqb_eq). Qed.
Lemma obtained_built v c g name m0 w m g1 x : obtained v c g name m0 w m g1 x -> tables_built w -> precision_ok c -> is_use c = false -> built x.
Proof.
  intros [p s U _ _|p s st y E P T S R|st n y G S N R] B HP NU.
  - apply is_use_iff in U. congruence.
  - pose proof (B _ _ (table_in _ _ _ T)) as BS. rewrite (unpickle_same _ BS) in R.
    pose proof (B_redefine st (sv_mitm s) (settings_hprec _ _ _ _ _ S HP) BS) as BR. rewrite R in BR. exact BR.
  - eapply B_new; [exact (settings_hprec _ _ _ _ _ S HP)|exact R].
Qed.
Lemma obtained_table v c g name m0 w m g1 x : obtained v c g name m0 w m g1 x -> tables_built w -> precision_ok c -> p_table (mi_table x).
Proof.
  intros H B HP. destruct (is_use c) eqn:E.
  - destruct H as [p s U P T|p s st y U P T S R|st n y G S N R].
    + pose proof (B _ _ (table_in _ _ _ T)) as BS. rewrite (unpickle_same _ BS). exact (proj1 (built_p _ BS)).
    + apply is_use_iff in E. unfold operation in *. rewrite E in U. discriminate.
    + apply is_use_iff in E. unfold operation in *. rewrite E in G. discriminate.
  - exact (proj1 (built_p _ (obtained_built _ _ _ _ _ _ _ _ _ H B HP E))).
Qed.
Lemma extend_built v c m g x w w1 x1 : env_ok v -> extend_in v c m g x w = (w1, Some (Ok x1)) -> built x -> tables_built w -> tables_built w1 /\ built x1.
Proof.
  intros VO H BX BW. destruct (extend_ok _ _ _ _ _ _ _ _ H) as (ra & rb & p & x0 & t & _ & _ & _ & HB & HS & E & W).
  assert (B0 : built x0).
  { pose proof (B_build (rnd (mp_prec m)) (v_fsqrt v) (v_ibinom v) (v_masks v) (v_order v) (v_target v) ra rb true x VO BX) as B. rewrite HB in B. exact B. }
  assert (B1 : built x1).
  { pose proof (B_params (v_eng v) x0 B0) as B. rewrite HS in B. now subst. }
  split; [|exact B1]. subst w1. intros q s I. cbn [write_table w_tables] in I. apply d_set_in in I as [I|(-> & ->)]; [exact (BW _ _ I)|exact B1].
Qed.

(** Every world that the program makes from built tables has built tables, and no result is reported. *)
Lemma run_built v c m0 w w' r : env_ok v -> precision_ok c -> run_with v c m0 w = (w', r) -> tables_built w -> tables_built w'.
Proof.
  intros VO HP H B. apply run_course in H. destruct H as [r0 _|i g name m g1 x w1 x1 _ _ HO HX _|i g name m g1 x w1 x1 w2 r0 _ _ HO HX _ HF]; [exact B| |].
  - destruct (is_use c) eqn:U; [injection HX as <- <-; exact B|].
    eapply (extend_built v); [exact VO|exact HX|eapply obtained_built; [apply obtain_ok; exact HO|exact B|exact HP|exact U]|exact B].
  - assert (B1 : tables_built w1).
    { destruct (is_use c) eqn:U; [injection HX as <- <-; exact B|].
      eapply (extend_built v); [exact VO|exact HX|eapply obtained_built; [apply obtain_ok; exact HO|exact B|exact HP|exact U]|exact B]. }
    apply fae_cases, searched_tables in HF. unfold tables_built in *. rewrite HF. exact B1.
Qed.
Lemma run_quiet v c m0 w w' r : env_ok v -> precision_ok c -> (forall q s, v_eng v q = Ok s -> forall k, s <> p_char :: k) ->
  run_with v c m0 w = (w', r) -> tables_built w -> no_reports w -> no_reports w'.
Proof.
  intros VO HP HE H B N. apply run_course in H. destruct H as [r0 _|i g name m g1 x w1 x1 _ _ HO HX _|i g name m g1 x w1 x1 w2 r0 _ _ HO HX _ HF]; [exact N| |].
  - destruct (is_use c) eqn:U; [injection HX as <- <-; exact N|].
    destruct (extend_ok _ _ _ _ _ _ _ _ HX) as (ra & rb & p & x0 & t & _ & _ & _ & _ & _ & _ & ->). exact N.
  - apply obtain_ok in HO. assert (N1 : no_reports w1 /\ p_table (mi_table x1)).
    { destruct (is_use c) eqn:U; [injection HX as <- <-; split; [exact N|eapply obtained_table; eauto]|].
      pose proof (obtained_built _ _ _ _ _ _ _ _ _ HO B HP U) as BX.
      destruct (extend_built v c m g1 x w w1 x1 VO HX BX B) as [_ B1].
      destruct (extend_ok _ _ _ _ _ _ _ _ HX) as (ra & rb & p & x0 & t & _ & _ & _ & _ & _ & _ & ->).
      split; [exact N|exact (proj1 (built_p _ B1))]. }
    apply fae_cases in HF. eapply searched_quiet; [exact HF|apply N1|exact HE|apply N1].
Qed.

(** ---- contents of the table file ---- *)
Lemma params_get eng (t t1 : mtable) u q : ht_set eng (UStr (txt "parameters")) (VOne TParams) t = (t1, u) ->
  d_get rawkey_eqb (h_data t1) (KNum q) = d_get rawkey_eqb (h_data t) (KNum q).
Proof.
  unfold ht_set, ht_manipulate_key. cbn [bind]. intros H. injection H as <- _. cbn [h_data].
  rewrite (d_get_set_other _ RK) by discriminate. apply del_olds_other. discriminate.
Qed.
Lemma params_ok eng (t t1 : mtable) u : ht_set eng (UStr (txt "parameters")) (VOne TParams) t = (t1, u) -> table_ok t -> table_ok t1.
Proof.
  intros H [ND HL]. assert (ND' : NoDup (map fst (h_data t1))).
  { unfold ht_set, ht_manipulate_key in H. cbn [bind] in H. injection H as <- _. cbn [h_data]. apply (d_keys_set_NoDup _ RK). now apply del_olds_NoDup. }
  split; [exact ND'|]. intros q v HI. apply (d_in_get _ RK) in HI; [|exact ND']. rewrite (params_get _ _ _ _ q H) in HI.
  apply (HL q). now apply (d_get_Some_in _ RK).
Qed.
Lemma params_stored eng (t t1 : mtable) u q e : ht_set eng (UStr (txt "parameters")) (VOne TParams) t = (t1, u) -> table_ok t ->
  stored t1 (KNum q) e <-> stored t (KNum q) e.
Proof.
  intros H HT. rewrite (stored_at t1 _ _ (params_ok _ _ _ _ H HT)), (stored_at t _ _ HT). unfold at_key.
  now rewrite (params_get _ _ _ _ q H).
Qed.

Lemma all_some_map {A B} (f : A -> option B) (g : B -> A) l r : (forall a b, f a = Some b -> a = g b) -> all_some f l = Some r -> l = map g r.
Proof.
  intros H. revert r. induction l as [|a l IH]; intros r; cbn [all_some]; [intros [= <-]; reflexivity|].
  destruct (f a) as [b|] eqn:E; [|discriminate]. destruct (all_some f l) as [bs|]; [|discriminate]. intros [= <-]. cbn [map].
  now rewrite <- (H _ _ E), <- (IH bs eq_refl).
Qed.
Lemma ints_read c k l : as_ints (c_get c k) = Some l -> ints_setting c k l.
Proof.
  unfold ints_setting, as_ints. destruct (c_get c k); try discriminate. intros H. f_equal. eapply (all_some_map j_int); [|exact H].
  intros j z HJ. destruct j; try discriminate. now injection HJ as ->.
Qed.
Lemma ranges_read c k l : as_ranges (c_get c k) = Some l -> ranges_setting c k l.
Proof.
  unfold ranges_setting, as_ranges. destruct (c_get c k); try discriminate. intros H. f_equal. eapply (all_some_map (j_list j_pair)); [|exact H].
  intros j z E. destruct j; try discriminate. cbn [j_list] in E. f_equal. eapply (all_some_map j_pair); [|exact E].
  intros a x HA. unfold j_pair in HA. destruct a as [| | | |[|[] [|[] [|]]]]; try discriminate. injection HA as <-. reflexivity.
Qed.
Lemma map_inj {A B} (f : A -> B) l l' : (forall a b, f a = f b -> a = b) -> map f l = map f l' -> l = l'.
Proof. intros H. revert l'. induction l as [|a l IH]; intros [|b l'] E; try discriminate; [reflexivity|]. cbn in E. apply (f_equal (fun x => (hd_error x, tl x))) in E.
  cbn in E. apply pair_equal_spec in E as [E1 E2]. injection E1 as E1. now rewrite (H _ _ E1), (IH _ E2). Qed.
Lemma ranges_fun c k l l' : ranges_setting c k l -> ranges_setting c k l' -> l = l'.
Proof.
  unfold ranges_setting. intros -> H. injection H as H. eapply map_inj; [|exact H]. intros a b E. injection E as E.
  eapply map_inj; [|exact E]. intros [a1 a2] [b1 b2] E'. cbn in E'. injection E' as <- <-. reflexivity.
Qed.
Lemma ints_fun c k l l' : ints_setting c k l -> ints_setting c k l' -> l = l'.
Proof. unfold ints_setting. intros -> H. injection H as H. eapply map_inj; [|exact H]. now intros a b [= ->]. Qed.

Lemma rhs_pairs_dep {O O'} rd fs ib mo tg (x : mitm O) (y : mitm O') ra rb : mi_enum x = mi_enum y -> mi_exp_only x = mi_exp_only y ->
  rhs_pairs rd fs ib mo tg x ra rb = rhs_pairs rd fs ib mo tg y ra rb.
Proof. intros E1 E2. unfold rhs_pairs, enum_set, manip_of. now rewrite E1, E2. Qed.

Lemma settings_read v c name m st : settings_of (v_sq v) c name m = Some st ->
  ints_setting c "postproc_funcs_filter" (s_filter st) /\ c_get c "hashtable_precision" = CInt (s_hprec st) /\
  c_get c "ab_polys_type" = CPoly (s_class st) /\ as_special (c_get c "ab_polys_special_params") = Some (s_special st) /\
  s_trunc st = true /\ s_name st = name /\ s_funcs st = EVALUATED_POSTPROC_FUNCS (mpf_ops (rnd (mp_prec m)) (v_sq v)).
Proof.
  unfold settings_of. intros H. destruct (as_ints _) as [l|] eqn:E1; [|discriminate]. destruct (as_int _) as [h|] eqn:E2; [|discriminate].
  destruct (c_get c "ab_polys_type") eqn:E3; try discriminate. destruct (as_special _) as [sp|] eqn:E4; [|discriminate].
  injection H as <-. cbn. split; [now apply ints_read|]. split; [|auto]. unfold as_int in E2. destruct (c_get c "hashtable_precision"); congruence.
Qed.

(** The table after extend, in terms of the table before. *)
Lemma extend_table v c m g x w w1 x1 is : env_ok v -> extend_in v c m g x w = (w1, Some (Ok x1)) -> table_ok (mi_table x) ->
  mp_prec m = bits50 -> mi_filter x = is -> mi_trunc x = true -> mi_funcs x = EVALUATED_POSTPROC_FUNCS (mpf_ops (rnd bits50) (v_sq v)) ->
  exists pairs, enumerates v (mi_enum x) (mi_exp_only x) c pairs /\
    (forall q e, stored (mi_table x1) (KNum q) e <->
       stored (mi_table x) (KNum q) e \/ exists ab i, e = TEnt ab i /\ In ab pairs /\ In i is /\ records v (mi_iters x) ab i q).
Proof.
  intros VO H HT HM HF HR HU. destruct (extend_ok _ _ _ _ _ _ _ _ H) as (ra & rb & p & x0 & t & RA & RB & _ & HB & HS & E & _).
  rewrite HM in HB.
  assert (exists pairs y, rhs_pairs (rnd bits50) (v_fsqrt v) (v_ibinom v) (v_masks v) (v_target v) x ra rb = Ok (pairs, y)) as (pairs & y & HP).
  { unfold build_hashtable in HB. destruct (rhs_pairs _ _ _ _ _ _ _ _) as [[ps y]|e]; [eauto|discriminate]. }
  destruct (C48_build _ _ _ _ _ _ _ _ _ _ _ _ _ _ _ VO HT HP HB) as (EM & HT0 & HX & _ & HN & HC).
  destruct (HC eq_refl) as [-> HG]. exists pairs. split.
  - exists ra, rb, x. auto using ranges_read.
  - intros q e. subst x1. cbn [mi_table with_table]. rewrite (params_stored _ _ _ _ q e HS HT0). rewrite HU, HR in HN, HG. split.
    + intros S. apply HN in S as [S|(ab & i & q0 & -> & K & I1 & I2 & G)]; [now left|]. right. injection K as <-. rewrite HF in I2. exists ab, i. auto.
    + intros [S|(ab & i & -> & I1 & I2 & G)]; [|apply HG; congruence || auto].
      apply (stored_at _ _ _ HT0). apply (stored_at _ _ _ HT) in S.
      destruct (HX (KNum q) _ _ (proj2 (entries_at _ _ _ HT) eq_refl) (proj2 (entries_at _ _ _ HT0) eq_refl)) as (n & -> & _).
      apply in_app_iff. now left.
Qed.

Lemma enumerates_normal v en ex c pairs : enumerates v en ex c pairs -> en_class en = PNormal -> forall ab, In ab pairs <-> normal_pair v ex c ab.
Proof.
  intros (ra & rb & x & RA & RB & EN & EX & HP) HC [qa qb].
  destruct (C48_pairs _ (rnd bits50) (v_fsqrt v) (v_ibinom v) (v_masks v) (v_target v) x ra rb) as (ps & HP' & HI); [now rewrite EN|].
  assert (ps = pairs) as -> by (rewrite HP in HP'; now injection HP' as ->).
  rewrite HI, EX. unfold normal_pair. cbn [fst snd]. split.
  - intros (pa & pb & I1 & I2 & C1 & C2 & R & D). exists ra, rb, pa, pb. auto 10.
  - intros (ra' & rb' & pa & pb & RA' & RB' & I1 & I2 & C1 & C2 & R & D).
    rewrite <- (ranges_fun _ _ _ _ RA RA') in I1. rewrite <- (ranges_fun _ _ _ _ RB RB') in I2. exists pa, pb. auto 10.
Qed.
Lemma stored_new h q e : ~ stored (ht_new h) (KNum q) e.
Proof. intros (l & I & _). destruct I. Qed.
Lemma ok_new h : table_ok (ht_new h).
Proof. split; [constructor|intros q v []]. Qed.

(** The table file that a run leaves. *)
Lemma run_writes v c m0 w w' r p : run_with v c m0 w = (w', r) -> is_use c = false -> table_path c p ->
  (w' = w /\ r <> Some (Ok tt)) \/
  exists i g name m g1 x w1 x1, as_garg (c_get c "i") = Some i /\ choose v (c_get c "const") i = Ok (g, name) /\
    obtained v c g name m0 w m g1 x /\ extend_in v c m g1 x w = (w1, Some (Ok x1)) /\ table_at w' p = Some {| sv_mitm := x1; sv_gen := g1 |}.
Proof.
  intros H U TP. apply run_course in H.
  assert (E : forall m g1 x w1 x1, extend_in v c m g1 x w = (w1, Some (Ok x1)) -> table_at w1 p = Some {| sv_mitm := x1; sv_gen := g1 |}).
  { intros m g1 x w1 x1 HX. destruct (extend_ok _ _ _ _ _ _ _ _ HX) as (ra & rb & q & x0 & t & _ & _ & HP & _ & _ & _ & ->).
    assert (p = q) as <- by (unfold table_path in *; congruence).
    unfold table_at. cbn [write_table w_tables]. apply (d_get_set_same _ text_eqb_eq). }
  destruct H as [r0 N|i g name m g1 x w1 x1 HI HC HO HX _|i g name m g1 x w1 x1 w2 r0 HI HC HO HX _ HF]; [now left| |]; right; rewrite U in HX.
  - exists i, g, name, m, g1, x, w1, x1. repeat (split; [assumption || (now apply obtain_ok)|]). eauto.
  - exists i, g, name, m, g1, x, w1, x1. repeat (split; [assumption || (now apply obtain_ok)|]).
    apply fae_cases, searched_tables in HF. unfold table_at in *. rewrite HF. eauto.
Qed.
Lemma op_excl c a b : operation c a -> operation c b -> txt a = txt b.
Proof. unfold operation. congruence. Qed.
Lemma not_use c a : operation c a -> txt a <> txt "use" -> is_use c = false.
Proof. intros O N. destruct (is_use c) eqn:E; [|reflexivity]. apply is_use_iff in E. now rewrite (op_excl _ _ _ O E) in N. Qed.

(** ---- runs that search ---- *)
Lemma extend_same v c m g x w w1 x1 : (if is_use c then (w, Some (Ok x)) else extend_in v c m g x w) = (w1, Some (Ok x1)) ->
  w_files w1 = w_files w /\ w_dirs w1 = w_dirs w /\ mi_name x1 = mi_name x.
Proof.
  destruct (is_use c); [intros [= <- <-]; auto|]. intros H.
  destruct (extend_ok _ _ _ _ _ _ _ _ H) as (ra & rb & p & x0 & t & _ & _ & _ & HB & _ & -> & ->). repeat split.
  cbn [with_table mi_name]. unfold build_hashtable in HB. destruct (rhs_pairs _ _ _ _ _ _ _ _); [|discriminate].
  destruct (iter2hashtable _ _ _ _ _ _ _ _ _). injection HB as <- _. reflexivity.
Qed.
Lemma fae_lhs v c m g x w w' : fae_in v c m g x w = (w', Some (Ok tt)) -> exists n, c_get c "lhs_type" = CLhs n.
Proof. unfold fae_in, find_and_export. destruct (c_get c "lhs_type"); try discriminate. eauto. Qed.
Lemma find_name {O} rd eng (cls : MITM_Model.lhs_class O) enum m s r : find_clicks rd eng cls enum m = (s, r) -> mi_name s = mi_name m.
Proof. unfold find_clicks. destruct (bind _ _); intros H; injection H as <- _; reflexivity. Qed.

(** What a run changes besides the tables, in every case. *)
Lemma run_search v c m0 w w' r : run_with v c m0 w = (w', r) -> ~ table_only c ->
  (w_files w' = w_files w /\ w_dirs w' = w_dirs w /\ r <> Some (Ok tt)) \/
  exists i g name m g1 x w1 x1 n, as_garg (c_get c "i") = Some i /\ choose v (c_get c "const") i = Ok (g, name) /\
    obtained v c g name m0 w m g1 x /\ w_files w1 = w_files w /\ w_dirs w1 = w_dirs w /\ mi_name x1 = mi_name x /\
    c_get c "lhs_type" = CLhs n /\ fae_in v c m g1 x1 w1 = (w', r).
Proof.
  intros H NT. apply run_course in H.
  destruct H as [r0 N|i g name m g1 x w1 x1 HI HC HO HX HT|i g name m g1 x w1 x1 w2 r0 HI HC HO HX _ HF]; [now left|contradiction|].
  destruct (extend_same _ _ _ _ _ _ _ _ HX) as (E1 & E2 & E3).
  destruct (c_get c "lhs_type") eqn:EL;
    try (left; unfold fae_in, find_and_export in HF; rewrite EL in HF; injection HF as <- <-; repeat split; congruence).
  right. exists i, g, name, m, g1, x, w1, x1, name0. repeat (split; [assumption || (now apply obtain_ok) || reflexivity|]). exact HF.
Qed.
(** The two cases of a search. *)
Lemma search_export v c x w w' r : searched v c x w w' r ->
  (w' = w /\ r <> Some (Ok tt)) \/
  exists (O : Type) rd (cls : MITM_Model.lhs_class O) lat par cs r1, r = Some r1 /\
    export_in v rd cls lat par (mi_funcs x) c (mi_name x) cs w = (w', r1).
Proof.
  intros [r0 N|O rd cls enum lat par s1 surp n1 a1 n2 a2 n3 a3 cs2 cs3 y w1 r1 HF _ _ HX]; [left; auto|right].
  apply find_name in HF. cbn in HF. rewrite HF in HX. exists O, rd, cls, lat, par, cs3, r1. auto.
Qed.
(** A finished export: the four files, and nothing else. *)
Lemma export_done {O} v rd (cls : MITM_Model.lhs_class O) lat par funcs c name cs w w' :
  export_in v rd cls lat par funcs c name cs w = (w', Ok tt) ->
  ~ In (dir_of (v_t1 v)) (w_dirs w) /\ (v_t1 v = v_t2 v \/ In (dir_of (v_t2 v)) (w_dirs w)) /\
  (forall d, In d (w_dirs w') <-> In d (w_dirs w) \/ d = txt "results" \/ d = dir_of (v_t1 v)) /\
  (forall p, ~ in_results (v_t2 v) p -> file_at w' p = file_at w p) /\
  exists rows es items, save c = Ok items /\
    file_at w' (dir_of (v_t2 v) ++ txt "/results.csv") = Some (OCsv (name, rows)) /\
    file_at w' (dir_of (v_t2 v) ++ txt "/results.tex") = Some (OTex es) /\
    file_at w' (dir_of (v_t2 v) ++ txt "/results.pdf") = Some OPdf /\
    file_at w' (dir_of (v_t2 v) ++ txt "/config.ini") = Some (OConf items).
Proof.
  intros H. pose proof (fun p => export_files _ _ _ _ _ _ _ _ _ _ _ _ p H) as FO. apply export_steps in H. cbv zeta in H.
  destruct H as [(_ & _ & [=])|(N & [(_ & [(e & _ & [=])|(_ & [=])])|(f & F & D & [(_ & e & _ & [=])|(es & E & [(_ & e & _ & [=])|(_ & [(_ & e & _ & [=])|(items & S & -> & _)])])])])].
  split; [exact N|]. split; [|split; [|split; [exact FO|]]].
  - cbn [with_dir w_dirs] in D. apply in_app_iff in D as [D|[D|[]]].
    + apply base_dirs in D as [D|D]; [now right|]. now apply dir_of_neq in D.
    + left. unfold dir_of in D. now apply app_inv_head in D.
  - intros d. cbn [write_file with_dir w_dirs]. rewrite in_app_iff, base_dirs. cbn [In]. intuition congruence.
  - unfold export_to_csv in F. destruct (mapM _ cs) as [rows|]; cbn [bind] in F; [|discriminate]. injection F as <-.
    exists rows, es, items. split; [exact S|].
    assert (NE : forall a b : text, a <> b -> dir_of (v_t2 v) ++ a <> dir_of (v_t2 v) ++ b) by (intros a b NE E'; apply app_inv_head in E'; contradiction).
    repeat split.
    + rewrite !file_other by (apply NE; discriminate). apply file_same.
    + rewrite !file_other by (apply NE; discriminate). apply file_same.
    + rewrite !file_other by (apply NE; discriminate). apply file_same.
    + apply file_same.
Qed.
(** An export that must stop early. *)
Lemma export_early {O} v rd (cls : MITM_Model.lhs_class O) lat par funcs c name cs w w' r :
  export_in v rd cls lat par funcs c name cs w = (w', r) ->
  In (dir_of (v_t1 v)) (w_dirs w) \/ (v_t1 v <> v_t2 v /\ ~ In (dir_of (v_t2 v)) (w_dirs w)) -> w_files w' = w_files w /\ r <> Ok tt.
Proof.
  intros H B. apply export_steps in H. cbv zeta in H.
  destruct H as [(_ & -> & ->)|(N & [(-> & W)|(f & F & D & _)])].
  - split; [apply base_files|discriminate].
  - split; [exact (base_files w)|]. destruct W as [(e & _ & ->)|(_ & ->)]; discriminate.
  - exfalso. destruct B as [B|[B1 B2]]; [contradiction|]. cbn [with_dir w_dirs] in D. apply in_app_iff in D as [D|[D|[]]].
    + apply base_dirs in D as [D|D]; [contradiction|]. now apply dir_of_neq in D.
    + unfold dir_of in D. now apply app_inv_head in D.
Qed.

(** ---- histories ---- *)
Lemma run_run_with v ld file w : run v ld file w = match load ld file with Raise e => (w, Some (Raise e)) | Ok c => run_with v c import_ctx w end.
Proof. reflexivity. Qed.
Lemma history_both w : history w -> tables_built w /\ no_reports w.
Proof.
  induction 1 as [w T F|v ld file w w' r H [B N] VO NT P R].
  - split; [intros p s I; rewrite T in I; destruct I|intros p f I; rewrite F in I; destruct I].
  - rewrite run_run_with in R. destruct (load ld file) as [c|e] eqn:L; [|injection R as <- _; auto].
    split; [eapply run_built; eauto|eapply run_quiet; eauto].
Qed.
Lemma history_built w : history w -> tables_built w.
Proof. apply history_both. Qed.

(** ---- constants ---- *)
Lemma has_all_complete c : complete c -> has_all c = true.
Proof.
  unfold has_all, complete. generalize (map fst CONFIG_PARAMS_TYPES) as ks. intros ks H. apply forallb_forall. intros k I.
  destruct (H k I) as (x & J). clear - J. unfold d_mem. destruct (d_get text_eqb c k) eqn:E; [reflexivity|].
  exfalso. exact (proj1 (d_get_None _ text_eqb_eq c k) E (in_map fst _ _ J)).
Qed.
Lemma as_garg_ok c : index_ok c -> exists i, as_garg (c_get c "i") = Some i.
Proof. intros [H|(n & H)]; rewrite H; eexists; reflexivity. Qed.
Definition const_names : list text := map txt ["e"; "pi"; "feig"; "euler_masch"; "percolation"; "zeta"; "phi"; "apery"]%string.
Lemma gen_names v i : map fst (consts_generators (v_pi v) (v_e v) i) = const_names.
Proof. unfold consts_generators. rewrite map_map. reflexivity. Qed.
Lemma choose_ok v k i g name : choose v k i = Ok (g, name) -> k = CStr name /\ In name const_names /\ d_get text_eqb (consts_generators (v_pi v) (v_e v) i) name = Some g.
Proof.
  unfold choose, choose_const. destruct k as [| | |s| | |]; try discriminate. destruct (d_get text_eqb _ s) as [g0|] eqn:E; [|discriminate].
  destruct (text_eqb s (txt "feig") || text_eqb s (txt "percolation")); [discriminate|]. intros H. injection H as <- <-.
  split; [reflexivity|]. split; [|exact E]. rewrite <- (gen_names v i). apply (d_get_Some_in _ text_eqb_eq) in E. exact (in_map fst _ _ E).
Qed.
Lemma choose_unknown v k i : (forall s, k = CStr s -> ~ In s const_names) -> choose v k i = Raise ValueError.
Proof.
  intros H. unfold choose, choose_const. destruct k as [| | |s| | |]; try reflexivity. destruct (d_get text_eqb _ s) as [g0|] eqn:E; [|reflexivity].
  exfalso. apply (H s eq_refl). rewrite <- (gen_names v i). apply (d_get_Some_in _ text_eqb_eq) in E. exact (in_map fst _ _ E).
Qed.
Lemma choose_feig v s i : s = txt "feig" \/ s = txt "percolation" -> choose v (CStr s) i = Raise NameError.
Proof.
  intros H. unfold choose, choose_const. destruct (d_get text_eqb _ s) as [g0|] eqn:E.
  - destruct H as [-> | ->]; reflexivity.
  - exfalso. apply (d_get_None _ text_eqb_eq) in E. unfold d_keys in E. rewrite gen_names in E. apply E. destruct H as [-> | ->]; vm_compute; tauto.
Qed.
Lemma choose_zeta v i g name : choose v (CStr (txt "zeta")) i = Ok (g, name) -> g = CPart (GDict zeta_consts) i.
Proof.
  unfold choose, choose_const. assert (E : d_get text_eqb (consts_generators (v_pi v) (v_e v) i) (txt "zeta") = Some (CPart (GDict zeta_consts) i)).
  { unfold consts_generators. generalize (GConst (e_const (v_e v))) (GConst (pi_const (v_pi v))) (GList feig_consts) (GConst euler_masch_const)
      (GList percolation_consts) (GDict zeta_consts) (GConst phi_const) (GConst apery_q). intros. reflexivity. }
  rewrite E. change (text_eqb (txt "zeta") (txt "feig") || text_eqb (txt "zeta") (txt "percolation")) with false. now intros [= <- _].
Qed.
(** A generator with an index never works (see C63). *)
Definition indexed_gen (g : cgen) : Prop := exists b i, g = CPart b i /\ forall c, b <> GConst c.
Lemma fae_indexed v c m g x w w' r : indexed_gen g -> fae_in v c m g x w = (w', r) -> w' = w /\ r <> Some (Ok tt).
Proof.
  intros (b & i & -> & N). unfold fae_in, find_and_export. destruct (c_get c "lhs_type"); try (intros H; injection H as <- <-; split; [reflexivity|discriminate]).
  unfold call0, call_gen. cbn [tl]. destruct b as [q|l|l]; [exfalso; exact (N q eq_refl)| |]; cbn [call_body]; intros H; injection H as <- <-; split; (reflexivity || discriminate).
Qed.

(** ---- searches that fail ---- *)
Lemma find_fails {O} rd eng (cls : MITM_Model.lhs_class O) enum (m : mitm O) gen e :
  enum (mi_target m) = Ok gen -> snd gen = Raise e -> exists s e', find_clicks rd eng cls enum m = (s, Raise e').
Proof.
  intros H G. unfold find_clicks. rewrite H. cbn [bind]. unfold find_clicks_loop. rewrite G.
  destruct (foldM _ _ _) as [l|e0]; cbn [bind]; eauto.
Qed.
Lemma search_fails {O} v rd (cls : MITM_Model.lhs_class O) enum lat par funcs trunc c y x w s e :
  find_clicks rd (v_eng v) cls enum (with_target (retype x) y) = (s, Raise e) ->
  search_in v rd cls lat par funcs trunc enum c y x w = (w, Some (Raise e)).
Proof. intros H. unfold search_in, search. now rewrite H. Qed.
Lemma yields_mpf rd en l : (exists p q, In (p, q) l /\ cand_okb (re_force en) (re_x en) p q = true) -> snd (renum_yields KMpf rd en l) = Raise AttributeError.
Proof.
  induction l as [|[p q] l IH]; intros (p0 & q0 & I & C); [destruct I|]. cbn [renum_yields].
  destruct (all_zero p) eqn:AP.
  - destruct I as [I|I]; [injection I as -> ->; unfold cand_okb in C; rewrite AP in C; discriminate|].
    destruct (renum_yields KMpf rd en l) as [ys x]. cbn [snd] in *. eauto.
  - rewrite (body_mpf rd en p q AP). destruct (cand_okb (re_force en) (re_x en) p q) eqn:E; [reflexivity|].
    destruct I as [I|I]; [injection I as -> ->; congruence|].
    destruct (renum_yields KMpf rd en l) as [ys x]. cbn [snd] in *. eauto.
Qed.

(** ---- settings that are not read ---- *)
Lemma export_agree {O} v rd (cls : MITM_Model.lhs_class O) lat par funcs c c' i i' name cs w w1 w2 r1 r2 : save c = Ok i -> save c' = Ok i' ->
  export_in v rd cls lat par funcs c name cs w = (w1, r1) -> export_in v rd cls lat par funcs c' name cs w = (w2, r2) ->
  r1 = r2 /\ same_but_settings w1 w2.
Proof.
  assert (R : forall w0, same_but_settings w0 w0) by (intros w0; repeat split; auto).
  intros S S'. unfold export_in, export. rewrite S, S'. intros H1 H2.
  destruct (mkdir _ _) as [w3 [u|e]]; [|rewrite H1 in H2; injection H2 as <- <-; auto].
  destruct (export_to_csv _ _ _ _ _ _ _ _) as [f|e]; [|rewrite H1 in H2; injection H2 as <- <-; auto].
  destruct (write_in _ _ (OCsv f) w3) as [w4 [u'|e]]; [|rewrite H1 in H2; injection H2 as <- <-; auto].
  destruct (results_as_eqns _ _ _ _ _ _ _ _ _ _) as [? [es|e]]; [|rewrite H1 in H2; injection H2 as <- <-; auto].
  destruct (v_pdf v) as [u''|e]; [|rewrite H1 in H2; injection H2 as <- <-; auto].
  match type of H1 with write_in ?d _ _ ?w5 = _ => set (w6 := w5) in *; set (d0 := d) in * end. unfold write_in in H1, H2.
  destruct (is_dir d0 w6); [|rewrite H1 in H2; injection H2 as <- <-; auto].
  injection H1 as <- <-. injection H2 as <- <-. split; [reflexivity|]. split; [reflexivity|]. split; [reflexivity|].
  intros p. unfold file_at. cbn [write_file w_files]. set (q := d0 ++ txt "/" ++ txt "config.ini"). destruct (text_eqb p q) eqn:E.
  - apply text_eqb_eq in E. subst p. right. exists i, i'. now rewrite !(d_get_set_same _ text_eqb_eq).
  - left. rewrite !(d_get_set_other _ text_eqb_eq); [reflexivity| |]; intros ->; rewrite text_eqb_refl in E; discriminate.
Qed.
Definition read_later : list string := ["lhs_type"; "lhs_params"; "first_filtering_num_of_iterations"; "first_filtering_precision";
  "second_filtering_max_num_of_iterations"; "second_filtering_precision"; "third_filtering_max_num_of_iterations"; "third_filtering_precision"; "print_surprising_nonexp_contfracs"]%string.
Lemma search_agree {O} v rd (cls : MITM_Model.lhs_class O) lat par funcs tr enum c c' i i' y x w w1 w2 r1 r2 :
  (forall k, In k read_later -> c_get c k = c_get c' k) -> save c = Ok i -> save c' = Ok i' ->
  search_in v rd cls lat par funcs tr enum c y x w = (w1, r1) -> search_in v rd cls lat par funcs tr enum c' y x w = (w2, r2) ->
  r1 = r2 /\ same_but_settings w1 w2.
Proof.
  assert (R : forall w0, same_but_settings w0 w0) by (intros w0; repeat split; auto).
  intros A S S'. unfold search_in, search. intros H1 H2.
  destruct (find_clicks _ _ _ _ _) as [s1 [u|e]]; [|rewrite H1 in H2; injection H2 as <- <-; auto].
  repeat match type of H1 with context [c_get c ?k] => rewrite (A k) in H1 by (cbn; tauto) end.
  repeat match type of H1 with context [match as_int ?z with _ => _ end] => destruct (as_int z); [|rewrite H1 in H2; injection H2 as <- <-; auto] end.
  destruct (stages _ _ _ _ _ _ _ _ _ _ _ _ _ _ _) as [cs [u'|e]]; [|rewrite H1 in H2; injection H2 as <- <-; auto].
  destruct (last_stage _ _ _ _ _ _ _ _ _ _ _ _ _) as [cs' [u''|e]]; [|rewrite H1 in H2; injection H2 as <- <-; auto].
  fold (@export_in O v) in H1, H2.
  destruct (export_in v rd cls lat par funcs c (mi_name s1) cs' w) as [wa ra] eqn:E1.
  destruct (export_in v rd cls lat par funcs c' (mi_name s1) cs' w) as [wb rb] eqn:E2.
  injection H1 as <- <-. injection H2 as <- <-. destruct (export_agree _ _ _ _ _ _ _ _ _ _ _ _ _ _ _ _ _ S S' E1 E2) as [-> Q]. auto.
Qed.
Lemma fae_agree v c c' i i' m g x w w1 w2 r1 r2 :
  (forall k, In k read_later -> c_get c k = c_get c' k) -> save c = Ok i -> save c' = Ok i' ->
  fae_in v c m g x w = (w1, r1) -> fae_in v c' m g x w = (w2, r2) -> r1 = r2 /\ same_but_settings w1 w2.
Proof.
  assert (R : forall w0, same_but_settings w0 w0) by (intros w0; repeat split; auto).
  intros A S S'. unfold fae_in, find_and_export. intros H1 H2.
  rewrite (A "lhs_type"%string) in H1 by (cbn; tauto). rewrite (A "lhs_params"%string) in H1 by (cbn; tauto).
  destruct (c_get c' "lhs_type"); try (rewrite H1 in H2; injection H2 as <- <-; auto).
  destruct (call0 g m) as [m1 [y|e]]; [|rewrite H1 in H2; injection H2 as <- <-; auto].
  destruct (text_eqb name (txt "ulcd")).
  - destruct (as_ulcd _) as [rs|]; [|rewrite H1 in H2; injection H2 as <- <-; auto]. eapply search_agree; eauto.
  - destruct (as_rational _) as [p|]; [|rewrite H1 in H2; injection H2 as <- <-; auto].
    destruct INVERSE_POSTPROC_PAIRS as [inv|e]; [|rewrite H1 in H2; injection H2 as <- <-; auto]. eapply search_agree; eauto.
Qed.

(** The texts of the configuration files that come with the program, and the settings that they hold (C144). *)
From Coq Require Import Ascii String ZArith List Bool Lia.
From Verif Require Import PyBase PyBase_Proofs Hashtable_Model Hashtable_Proofs Results_Model Config_Model Shipped_Model Fixtures_Model
  Ini_Model IniFiles_Model Ini_Save.
Import ListNotations.
Local Open Scope res_scope.
Local Open Scope list_scope.

(** A text that holds exactly these settings, in one section, without percent signs. *)
Definition holds (t : text) (items : list (text * text)) : Prop :=
  ini_read t = Ok [(txt "Setup", items)] /\ nodupb (map fst items) && negb (existsb (fun kv => has_percent (snd kv)) items) = true.
Lemma holds_load t items listdir : holds t items -> load_ini listdir (Some t) = load listdir (Some items).
Proof.
  intros [R B]. apply andb_true_iff in B as [N P]. apply nodupb_ok in N. apply negb_true_iff in P. unfold load_ini. rewrite R. cbn [bind].
  assert (E : cast_sections [(txt "Setup", items)] = cast_all items []).
  { unfold cast_sections. change (d_get text_eqb [(txt "Setup", items)] DEFAULT) with (@None section). cbn [filter].
    change (text_eqb (txt "Setup") DEFAULT) with false. cbn [negb foldM]. unfold options. cbn [map filter]. rewrite app_nil_r.
    rewrite cast_keys; [now destruct (cast_all items [])|]. apply Forall_and; [now apply get_in|]. apply Forall_forall. intros kv I J.
    assert (X : existsb (fun kv => has_percent (snd kv)) items = true) by (apply existsb_exists; exists kv; split; [exact I|now apply has_percent_in]). congruence. }
  rewrite E. reflexivity.
Qed.
Ltac file := split; [vm_compute; reflexivity|vm_compute; reflexivity].
Lemma h_default : holds text_default ini_default. Proof. file. Qed.
Lemma h_apery : holds text_apery ini_apery. Proof. file. Qed.
Lemma h_apery_extend_hashtable : holds text_apery_extend_hashtable ini_apery_extend_hashtable. Proof. file. Qed.
Lemma h_e_search_m4_to_5 : holds text_e_search_m4_to_5 ini_e_search_m4_to_5. Proof. file. Qed.
Lemma h_e_search_inter_cubic : holds text_e_search_inter_cubic ini_e_search_inter_cubic. Proof. file. Qed.
Lemma h_e_search_inter_lin : holds text_e_search_inter_lin ini_e_search_inter_lin. Proof. file. Qed.
Lemma h_pi_m4_to_5 : holds text_pi_m4_to_5 ini_pi_m4_to_5. Proof. file. Qed.
Lemma h_pi_interlaced_cubic : holds text_pi_interlaced_cubic ini_pi_interlaced_cubic. Proof. file. Qed.
Lemma h_pi_interlaced_linear : holds text_pi_interlaced_linear ini_pi_interlaced_linear. Proof. file. Qed.
Lemma h_pi_search_m4_to_5 : holds text_pi_search_m4_to_5 ini_pi_search_m4_to_5. Proof. file. Qed.
Lemma h_pi_search_inter_cubic : holds text_pi_search_inter_cubic ini_pi_search_inter_cubic. Proof. file. Qed.
Lemma h_pi_search_inter_lin : holds text_pi_search_inter_lin ini_pi_search_inter_lin. Proof. file. Qed.
Lemma hf_apery_sanitycheck : holds fixtext_apery_sanitycheck fix_apery_sanitycheck. Proof. file. Qed.
Lemma hf_apery_sanitycheck_with_big_lhs : holds fixtext_apery_sanitycheck_with_big_lhs fix_apery_sanitycheck_with_big_lhs. Proof. file. Qed.
Lemma hf_gen_hashtable_benchmark : holds fixtext_gen_hashtable_benchmark fix_gen_hashtable_benchmark. Proof. file. Qed.
Lemma hf_pi_sanitycheck : holds fixtext_pi_sanitycheck fix_pi_sanitycheck. Proof. file. Qed.
(** Loading the text of a configuration file that comes with the program is loading the settings that Shipped_Model lists
    for it, whatever tables there are; so all that is proved of these settings is true of the files. *)
Theorem C144_shipped : Forall2 (fun f g => fst f = fst g /\ forall listdir, load_ini listdir (Some (snd f)) = load listdir (Some (snd g))) shipped_texts shipped.
Proof.
  unfold shipped_texts, shipped. cbn [map].
  constructor; [split; [reflexivity|intros listdir; exact (holds_load _ _ listdir h_default)]|].
  constructor; [split; [reflexivity|intros listdir; exact (holds_load _ _ listdir h_apery)]|].
  constructor; [split; [reflexivity|intros listdir; exact (holds_load _ _ listdir h_apery_extend_hashtable)]|].
  constructor; [split; [reflexivity|intros listdir; exact (holds_load _ _ listdir h_e_search_m4_to_5)]|].
  constructor; [split; [reflexivity|intros listdir; exact (holds_load _ _ listdir h_e_search_inter_cubic)]|].
  constructor; [split; [reflexivity|intros listdir; exact (holds_load _ _ listdir h_e_search_inter_lin)]|].
  constructor; [split; [reflexivity|intros listdir; exact (holds_load _ _ listdir h_pi_m4_to_5)]|].
  constructor; [split; [reflexivity|intros listdir; exact (holds_load _ _ listdir h_pi_interlaced_cubic)]|].
  constructor; [split; [reflexivity|intros listdir; exact (holds_load _ _ listdir h_pi_interlaced_linear)]|].
  constructor; [split; [reflexivity|intros listdir; exact (holds_load _ _ listdir h_pi_search_m4_to_5)]|].
  constructor; [split; [reflexivity|intros listdir; exact (holds_load _ _ listdir h_pi_search_inter_cubic)]|].
  constructor; [split; [reflexivity|intros listdir; exact (holds_load _ _ listdir h_pi_search_inter_lin)]|].
  constructor.
Qed.
(** The same for the files of the tests. *)
Theorem C144_fixtures : Forall2 (fun f g => fst f = fst g /\ forall listdir, load_ini listdir (Some (snd f)) = load listdir (Some (snd g))) fixture_texts fixtures.
Proof.
  unfold fixture_texts, fixtures. cbn [map].
  constructor; [split; [reflexivity|intros listdir; exact (holds_load _ _ listdir hf_apery_sanitycheck)]|].
  constructor; [split; [reflexivity|intros listdir; exact (holds_load _ _ listdir hf_apery_sanitycheck_with_big_lhs)]|].
  constructor; [split; [reflexivity|intros listdir; exact (holds_load _ _ listdir hf_gen_hashtable_benchmark)]|].
  constructor; [split; [reflexivity|intros listdir; exact (holds_load _ _ listdir hf_pi_sanitycheck)]|].
  constructor.
Qed.
Example C144_ex : exists c, load_ini (fun _ => [txt "hashtable_general_v4.pkl"]) (Some text_default) = Ok c /\ c_get c "const" = CStr (txt "pi") /\
  c_get c "hashtable_file" = CStr (txt "./hashtable_general_v4.pkl").
Proof. eexists. split; [rewrite (holds_load _ _ _ h_default); vm_compute; reflexivity|]. split; vm_compute; reflexivity. Qed.

Print Assumptions C144_shipped.
Print Assumptions C144_fixtures.

(** Claims C130, C131 (the configuration files that come with the tests). *)
From Coq Require Import Ascii String ZArith QArith List Bool Lia Permutation.
From Verif Require Import PyBase PyBase_Proofs Rnd Rnd_Proofs ContFrac_Model Hashtable_Model Hashtable_Proofs ULCD_Model Rational_Model MITM_Model Results_Model
  Config_Model Consts_Model Main_Model Shipped_Model Fixtures_Model Spec_Enum Spec_MITM Spec_Config Spec_Rational Spec_Main Main_Proofs Properties_Main Shipped_Proofs Fixtures_Proofs.
From Verif Require Properties_Shipped Enum_Model Properties_MITM Properties_Enum Properties_Config.
Import ListNotations.
Local Open Scope Z_scope.
Local Open Scope list_scope.

(** ---- C130: runs with the files of the tests ---- *)
(** With the numbers of mpmath every run with one of these files ends with an exception and changes nothing on the disk. *)
Theorem C130_mpmath : forall v listdir n f w, env_ok v -> (forall l, Permutation (v_masks v l) l) -> In (n, f) fixtures ->
  exists e, run v listdir (Some f) w = (w, Some (Raise e)).
Proof.
  intros v listdir n f w VO VM I. apply in_fixtures in I. unfold run, main. rewrite (load_parsed _ f (proj1 (forallb_forall _ _) fixtures_parsed f I)).
  destruct (gen_hashtable_filename _ _ _) as [p|e]; [|eexists; reflexivity]. destruct (fixture_makes f p I) as (c & E & M). rewrite E.
  destruct (run_with v c import_ctx w) as [w' r] eqn:H. destruct (cannot_make2 v c import_ctx w w' r VO VM M H) as [-> N].
  destruct (raised v c import_ctx w w r (m2_typed c M) H N) as (e & ->). fold (run_with v c import_ctx w). rewrite H. eauto.
Qed.
(** No sequence of runs with these files and the shipped ones gets anywhere from a disk without tables. *)
Inductive all_runs : world -> world -> Prop :=
| ar_none w : all_runs w w
| ar_more v listdir n f w w1 w2 r : all_runs w w1 -> env_ok v -> (forall l, Permutation (v_masks v l) l) -> v_eng v = eng_pinned -> v_kind v = KMpf ->
    In (n, f) (shipped ++ fixtures) -> run v listdir (Some f) w1 = (w2, r) -> all_runs w w2.
Theorem C130_sequences : forall w w', w_tables w = [] -> all_runs w w' -> w' = w.
Proof.
  intros w w' T H. induction H as [w|v listdir n f w w1 w2 r H IH VO VM VE VK I R]; [reflexivity|]. specialize (IH T). subst w1.
  assert (X : exists e, run v listdir (Some f) w = (w, Some (Raise e))).
  { apply in_app_or in I as [I|I]; [eapply Properties_Shipped.no_tables_raise; eauto|eapply C130_mpmath; eauto]. }
  destruct X as (e & E). rewrite E in R. now injection R as <- _.
Qed.
Example C130_ex : env_ok env_ex /\ (forall l, Permutation (v_masks env_ex l) l) /\
  map (fun f => snd (run env_ex (dir_list w1) (Some f) w1)) [fix_pi_sanitycheck] = [Some (Raise AttributeError)].
Proof. split; [intros ab l; apply Permutation_refl|]. split; [intros l; apply Permutation_refl|]. vm_compute. reflexivity. Qed.

(** ---- C131: what the sanity checks look for is there ---- *)
(** The fraction of the check for pi is the only one of its ranges; that of the check for Apery's constant is among those of its ranges. *)
Theorem C131_pi_listed : forall v listdir c, load listdir (Some fix_pi_sanitycheck) = Ok c ->
  exists pairs, enumerates v {| en_class := PNormal; en_special := None |} true c pairs /\ forall ab, In ab pairs <-> ab = ([[1; 2]], [[0; 0; 1]]).
Proof.
  intros v listdir c L. rewrite (load_parsed _ _ (proj1 (forallb_forall _ _) fixtures_parsed fix_pi_sanitycheck ltac:(cbn; tauto))) in L.
  destruct (gen_hashtable_filename _ _ _) as [p|e]; [|discriminate].
  assert (X : exists c, conf fix_pi_sanitycheck p = Ok c /\ ranges_setting c "a_coeffs_range" [[(1, 2); (2, 3)]] /\ ranges_setting c "b_coeffs_range" [[(0, 1); (0, 1); (1, 2)]])
    by (eexists; split; [vm_compute; reflexivity|]; split; vm_compute; reflexivity).
  destruct X as (c' & E & RA & RB). rewrite L in E. injection E as <-.
  set (x := {| mi_enum := {| en_class := PNormal; en_special := None |}; mi_iters := 200; mi_exp_only := true; mi_target := 0%Q; mi_name := []; mi_filter := [];
    mi_trunc := true; mi_hprec := 8; mi_prec := 50; mi_table := mkHtab 8 [] []; mi_funcs := []; mi_params := [] |} : mitm Empty_set).
  destruct (Properties_MITM.C48_pairs Empty_set (rnd bits50) (v_fsqrt v) (v_ibinom v) (v_masks v) (v_target v) x [[(1, 2); (2, 3)]] [[(0, 1); (0, 1); (1, 2)]] eq_refl) as (pairs & E & HP).
  exists pairs. split; [exists [[(1, 2); (2, 3)]], [[(0, 1); (0, 1); (1, 2)]], x; repeat split; assumption|].
  intros [qa qb]. rewrite HP. split.
  - intros (pa & pb & IA & IB & CA & CB & _).
    assert (pa = [[1; 2]]) as ->.
    { inversion IA as [|? ? ? ? IA1 IA2]; subst. inversion IA2; subst. inversion IA1 as [|a ? ? ? A1 A2]; subst. inversion A2 as [|b ? ? ? B1 B2]; subst. inversion B2; subst. cbn in A1, B1. f_equal. f_equal; [lia|]. f_equal. lia. }
    assert (pb = [[0; 0; 1]]) as ->.
    { inversion IB as [|? ? ? ? IA1 IA2]; subst. inversion IA2; subst. inversion IA1 as [|a ? ? ? A1 A2]; subst. inversion A2 as [|b ? ? ? B1 B2]; subst. inversion B2 as [|d ? ? ? D1 D2]; subst. inversion D2; subst.
      cbn in A1, B1, D1. f_equal. f_equal; [lia|]. f_equal; [lia|]. f_equal. lia. }
    apply collapse_one in CA. apply collapse_one in CB. now subst.
  - intros [= -> ->]. exists [[1; 2]], [[0; 0; 1]]. split; [inr|]. split; [inr|]. split; [now apply collapse_one|]. split; [now apply collapse_one|].
    split; [intros q [<-|[]]; apply (Properties_Enum.C28_constants (v_fsqrt v) 2 0 1); lia|].
    intros _ a b da db [= <-] [= <-] DA DB. rewrite (degree_unique _ da 1 DA), (degree_unique _ db 2 DB) by deg. lia.
Qed.
Theorem C131_apery_listed : forall v listdir c, (forall l, Permutation (v_masks v l) l) -> load listdir (Some fix_apery_sanitycheck) = Ok c ->
  exists pairs, enumerates v {| en_class := PSparse; en_special := Some (4, 7) |} true c pairs /\ In ([[2; 8; 10; 3]], [[0; 0; 0; 0; 0; -2; 4]]) pairs.
Proof.
  intros v listdir c VM L. rewrite (load_parsed _ _ (proj1 (forallb_forall _ _) fixtures_parsed fix_apery_sanitycheck ltac:(cbn; tauto))) in L.
  destruct (gen_hashtable_filename _ _ _) as [p|e]; [|discriminate]. set (ra := [[(2, 3); (8, 9); (10, 11); (3, 4)]]). set (rb := [[(-2, -1); (4, 5)]]).
  assert (X : exists c, conf fix_apery_sanitycheck p = Ok c /\ ranges_setting c "a_coeffs_range" ra /\ ranges_setting c "b_coeffs_range" rb)
    by (eexists; split; [vm_compute; reflexivity|]; split; vm_compute; reflexivity).
  destruct X as (c' & E & RA & RB). rewrite L in E. injection E as <-.
  set (x := {| mi_enum := {| en_class := PSparse; en_special := Some (4, 7) |}; mi_iters := 200; mi_exp_only := true; mi_target := 0%Q; mi_name := []; mi_filter := [];
    mi_trunc := true; mi_hprec := 8; mi_prec := 50; mi_table := mkHtab 8 [] []; mi_funcs := []; mi_params := [] |} : mitm Empty_set).
  destruct (Properties_MITM.C48_pairs_sparse Empty_set (rnd bits50) (v_fsqrt v) (v_ibinom v) (v_masks v) (v_target v) x ra rb 4 7 4 2 eq_refl eq_refl VM ltac:(lia) ltac:(lia)
    ltac:(discriminate) ltac:(discriminate) ltac:(repeat constructor) ltac:(repeat constructor)) as (pairs & E & HP).
  exists pairs. split; [exists ra, rb, x; repeat split; assumption|]. apply HP. cbv zeta.
  exists [[2; 8; 10; 3]], [[-2; 4]], [[0; 1; 2; 3]], [[5; 6]], [[2; 8; 10; 3]], [[0; 0; 0; 0; 0; -2; 4]]. split; [inr|]. split; [inr|].
  split; [split; [reflexivity|split; [reflexivity|]]; intros [|k] Hk; [|cbn in Hk; lia]; cbn [nth]; place; exfalso; lia|].
  split.
  { split; [reflexivity|split; [reflexivity|]]; intros [|k] Hk; [|cbn in Hk; lia]; cbn [nth]. place.
    assert (H : i = 0 \/ i = 1 \/ i = 2 \/ i = 3 \/ i = 4) by lia. destruct H as [->|[->|[->|[->| ->]]]]; reflexivity. }
  split; [now apply collapse_one|]. split; [now apply collapse_one|]. split.
  - intros q [<-|[]]. destruct (Enum_Model.has_integer_roots (v_fsqrt v) [0; 0; 0; 0; 0; -2; 4]) eqn:R; [|reflexivity].
    apply (Properties_Enum.C28_linear (v_fsqrt v) 5 0 (-2) 4) in R; try lia. destruct R as (y & Y & V). exfalso. cbn [app repeat pval] in V. nia.
  - intros _ a b da db [= <-] [= <-] DA DB. rewrite (degree_unique _ da 3 DA), (degree_unique _ db 6 DB) by deg. lia.
Qed.

Print Assumptions C130_mpmath.
Print Assumptions C130_sequences.
Print Assumptions C131_pi_listed.
Print Assumptions C131_apery_listed.

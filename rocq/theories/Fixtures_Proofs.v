(** Proofs about the configuration files that come with the tests. *)
From Coq Require Import Ascii String ZArith QArith List Bool Lia Permutation.
From Verif Require Import PyBase PyBase_Proofs Rnd Rnd_Proofs ContFrac_Model Hashtable_Model Hashtable_Proofs ULCD_Model Rational_Model MITM_Model Results_Model
  Config_Model Consts_Model Main_Model Shipped_Model Fixtures_Model Spec_Enum Spec_MITM Spec_Config Spec_Rational Spec_Main Main_Proofs Properties_Main Shipped_Proofs.
From Verif Require Enum_Model Properties_MITM Properties_Enum Properties_Config.
Import ListNotations.
Local Open Scope Z_scope.
Local Open Scope list_scope.

(** What the four files have in common: the operation, the functions, the number of iterations. *)
Definition fixture_files : list (list (text * text)) := [fix_apery_sanitycheck; fix_apery_sanitycheck_with_big_lhs; fix_gen_hashtable_benchmark; fix_pi_sanitycheck].
Lemma in_fixtures n f : In (n, f) fixtures -> In f fixture_files.
Proof. intros H. apply (in_map snd) in H. exact H. Qed.
Lemma fixtures_parsed : forallb parsed fixture_files = true.
Proof. vm_compute. reflexivity. Qed.
(** The ranges hold a fraction with positive coefficients: of the class [cl] with the parameters [sp]. *)
Definition witness (cl : pclass) (sp : option (Z * Z)) (ra rb : list (list (Z * Z))) (a b : list Z) : Prop :=
  match cl, sp with
  | PNormal, _ => in_ranges ra [a] /\ in_ranges rb [b]
  | PSparse, Some (na, nb) => 0 <= na /\ 0 <= nb /\ (exists r s, ra = [r] /\ rb = [s]) /\
      exists p q m k, in_ranges ra [p] /\ in_ranges rb [q] /\ (length m = length p /\ increasing 0 na m /\ placed na p m a) /\ (length k = length q /\ increasing 0 nb k /\ placed nb q k b)
  | _, _ => False
  end.
Record makes2 (c : config) : Prop := {
  m2_op : c_get c "hashtable_file_operation" = CStr (txt "generate");
  m2_typed : typed c;
  m2_funcs : exists is, ints_setting c "postproc_funcs_filter" is /\ In 1 is;
  m2_iters : c_get c "hashtable_num_of_iterations" = CInt 200;
  m2_pairs : exists cl sp ra rb a b da db, c_get c "ab_polys_type" = CPoly cl /\ as_special (c_get c "ab_polys_special_params") = Some sp /\
    ranges_setting c "a_coeffs_range" ra /\ ranges_setting c "b_coeffs_range" rb /\ witness cl sp ra rb a b /\
    (forall fsqrt, Enum_Model.has_integer_roots fsqrt b = false) /\ is_degree a da /\ is_degree b db /\ db <= 2 * da /\
    (exists q, cf_value (rnd bits50) 200 ([a], [b]) = Ok q /\ ~ (q == 0)%Q) }.
Lemma collapse_one p q : collapses [p] q <-> q = [p].
Proof.
  split; [|intros ->; right; split; [intros r n E; discriminate E|reflexivity]]. intros [(r & n & E & _)|[_ E]]; [discriminate E|exact E].
Qed.
Lemma degree_unique p d d' : is_degree p d -> is_degree p d' -> d = d'.
Proof.
  intros [[-> F]|(D & N & Z)] [[-> F']|(D' & N' & Z')]; auto.
  - exfalso. apply N'. rewrite Forall_forall in F. apply F, nth_In. lia.
  - exfalso. apply N. rewrite Forall_forall in F'. apply F', nth_In. lia.
  - destruct (Z.lt_trichotomy d d') as [L|[E|L]]; [|exact E|].
    + exfalso. apply N'. apply Z. lia.
    + exfalso. apply N. apply Z'. lia.
Qed.
Lemma cannot_make2 v c m0 w w' r : env_ok v -> (forall l, Permutation (v_masks v l) l) -> makes2 c -> run_with v c m0 w = (w', r) -> w' = w /\ r <> Some (Ok tt).
Proof.
  intros VO VM [M1 M2 (is & M3 & M3') M4 (cl & sp & ra & rb & a & b & da & db & H1 & H2 & RA & RB & W & NR & DA & DB & DL & q & EV & NQ)] H.
  set (x := {| mi_enum := {| en_class := cl; en_special := sp |}; mi_iters := 200; mi_exp_only := true; mi_target := 0%Q; mi_name := []; mi_filter := is;
    mi_trunc := true; mi_hprec := 8; mi_prec := 50; mi_table := mkHtab 8 [] []; mi_funcs := []; mi_params := [] |} : mitm Empty_set).
  assert (K : Properties_MITM.kept_pair (v_fsqrt v) true [b] [a] [b]).
  { split; [intros p [<-|[]]; apply NR|]. intros _ a' b' da' db' [= <-] [= <-] D1 D2. rewrite (degree_unique _ _ _ D1 DA), (degree_unique _ _ _ D2 DB). exact DL. }
  assert (P : exists pairs, rhs_pairs (rnd bits50) (v_fsqrt v) (v_ibinom v) (v_masks v) (v_target v) x ra rb = Ok (pairs, Ok tt) /\ In ([a], [b]) pairs).
  { destruct cl; cbn [witness] in W.
    - destruct W as [IA IB]. destruct (Properties_MITM.C48_pairs Empty_set (rnd bits50) (v_fsqrt v) (v_ibinom v) (v_masks v) (v_target v) x ra rb eq_refl) as (pairs & E & HP).
      exists pairs. split; [exact E|]. apply HP. exists [a], [b]. split; [exact IA|]. split; [exact IB|]. split; [now apply collapse_one|]. split; [now apply collapse_one|]. exact K.
    - contradiction.
    - destruct sp as [[na nb]|]; [|contradiction]. destruct W as (Na & Nb & (r1 & s1 & ER & ES) & p & q' & m & k & IA & IB & PA & PB).
      destruct (Properties_MITM.C48_pairs_sparse Empty_set (rnd bits50) (v_fsqrt v) (v_ibinom v) (v_masks v) (v_target v) x ra rb na nb (length r1) (length s1) eq_refl eq_refl VM Na Nb) as (pairs & E & HP);
        [rewrite ER; discriminate|rewrite ES; discriminate|rewrite ER; repeat constructor|rewrite ES; repeat constructor|].
      exists pairs. split; [exact E|]. apply HP. exists [p], [q'], [m], [k], [a], [b]. split; [exact IA|]. split; [exact IB|]. cbv zeta.
      split; [split; [reflexivity|split; [reflexivity|]]; intros [|i] Hi; [exact PA|cbn in Hi; lia]|].
      split; [split; [reflexivity|split; [reflexivity|]]; intros [|i] Hi; [exact PB|cbn in Hi; lia]|].
      split; [now apply collapse_one|]. split; [now apply collapse_one|]. exact K. }
  destruct P as (pairs & E & I).
  eapply (C93_generate v c m0 w w' r cl sp is 1 200 pairs ([a], [b]) q); try eassumption; try lia.
  - cbn. intuition lia.
  - exists ra, rb, x. repeat split; assumption.
Qed.

(** ---- the values ---- *)
Definition checked (a b : list Z) : bool :=
  forallb (fun i => posb (coef_at_r (rnd bits50) (map (map (fun i => rnd bits50 (inject_Z i))) [a]) i)) (zrange 0 200) &&
  forallb (fun i => posb (coef_at_r (rnd bits50) (map (map (fun i => rnd bits50 (inject_Z i))) [b]) i)) (zrange 1 200).
Lemma checked_pos a b : checked a b = true -> exists q, cf_value (rnd bits50) 200 ([a], [b]) = Ok q /\ ~ (q == 0)%Q.
Proof.
  intros C. unfold checked in C. apply andb_true_iff in C as [F F1].
  destruct (mapM_pos _ _ F) as (av & EA & FA). destruct (mapM_pos _ _ F1) as (bv & EB & FB).
  assert (L1 : length av = 200%nat) by (rewrite <- (mapM_length _ _ _ EA); reflexivity).
  assert (L2 : length bv = 199%nat) by (rewrite <- (mapM_length _ _ _ EB); reflexivity).
  assert (X : exists q, eval_contfrac (rnd bits50) av (Some bv) = Ok q /\ (0 < q)%Q).
  { unfold eval_contfrac. rewrite L1, L2. cbn [Nat.eqb Nat.add]. change (Nat.eqb 200 199) with false. change (Nat.eqb 200 (199 + 1)) with true. cbv iota.
    apply fold_pos; [vm_compute; discriminate| |].
    - apply Forall_forall. intros [x y] I. split; [apply in_combine_l in I; apply in_rev in I|apply in_combine_r in I; apply in_rev in I]; cbn [fst snd].
      + rewrite Forall_forall in FA. apply FA. rewrite (app_removelast_last 0%Q) by (intros ->; discriminate L1). apply in_or_app. now left.
      + rewrite Forall_forall in FB. now apply FB.
    - rewrite Forall_forall in FA. apply FA. rewrite (app_removelast_last (l := av) 0%Q) at 2 by (intros ->; discriminate L1). apply in_or_app. right. now left. }
  destruct X as (q & E & Q). exists q. split; [|intros H; rewrite H in Q; discriminate Q].
  unfold cf_value, eval_dec_contfrac_by_polys. cbn [fst snd norm_coeffs bind]. fold (map (map (fun i => rnd bits50 (inject_Z i))) [a]). rewrite EA. cbn [bind]. rewrite EB. exact E.
Qed.
Lemma checked_1 : checked [1; 2] [0; 0; 1] = true.
Proof. vm_compute. reflexivity. Qed.
Lemma checked_2 : checked [2; 8; 10; 3] [-2; 4; 0; 0; 0; 0; 0] = true.
Proof. vm_compute. reflexivity. Qed.
Lemma checked_3 : checked [2; 8; 10; 3; 0] [-2; 4; 0; 0; 0; 0; 0; 0] = true.
Proof. vm_compute. reflexivity. Qed.

(** ---- the files ---- *)
Lemma lin_roots j fsqrt : Enum_Model.has_integer_roots fsqrt ([-2; 4] ++ repeat 0 j) = false.
Proof.
  destruct (Enum_Model.has_integer_roots fsqrt ([-2; 4] ++ repeat 0 j)) eqn:E; [|reflexivity].
  apply (Properties_Enum.C28_linear fsqrt 0 j (-2) 4) in E; try lia. destruct E as (x & X & V). exfalso. cbn [app repeat pval] in V.
  assert (Z0 : forall k y, pval (repeat 0 k) y = 0) by (induction k as [|k IH]; intros y; cbn [repeat pval]; [reflexivity|rewrite IH; lia]). rewrite Z0 in V. lia.
Qed.
Lemma deg_at p d : 0 <= d < Z.of_nat (length p) -> nth (Z.to_nat d) p 0 <> 0 -> Forall (fun c => c = 0) (skipn (S (Z.to_nat d)) p) -> is_degree p d.
Proof.
  intros D N F. right. split; [exact D|]. split; [exact N|]. intros j J.
  assert (E : nth j p 0 = nth (j - S (Z.to_nat d)) (skipn (S (Z.to_nat d)) p) 0).
  { rewrite <- (firstn_skipn (S (Z.to_nat d)) p) at 1. rewrite app_nth2; rewrite firstn_length_le by lia; [reflexivity|lia]. }
  rewrite E. destruct (nth_in_or_default (j - S (Z.to_nat d)) (skipn (S (Z.to_nat d)) p) 0) as [I|I]; [|exact I]. rewrite Forall_forall in F. now apply F.
Qed.
Ltac deg := apply deg_at; [cbn; lia|vm_compute; discriminate|vm_compute; repeat constructor].
Ltac fix1 fs := constructor; [vm_compute; reflexivity|apply typedb_ok; vm_compute; reflexivity|exists fs; split; [vm_compute; reflexivity|cbn; tauto]|vm_compute; reflexivity|].
Ltac place := split; [reflexivity|]; split; [cbn; lia|]; split; [reflexivity|]; split;
  [intros j Hj; cbn in Hj; destruct j as [|[|[|[|j]]]]; try reflexivity; exfalso; lia
  |intros i Hi Ni; cbn [In] in Ni].
Ltac five := split; [vm_compute; reflexivity|]; split; [vm_compute; reflexivity|]; split; [vm_compute; reflexivity|]; split; [vm_compute; reflexivity|].
Ltac inr := repeat (constructor; cbn; try lia).
Lemma makes_apery p : exists c, conf fix_apery_sanitycheck p = Ok c /\ makes2 c.
Proof.
  eexists. split; [vm_compute; reflexivity|]. fix1 [1; 0; 2; 3; 10; 11].
  exists PSparse, (Some (4, 7)), [[(2, 3); (8, 9); (10, 11); (3, 4)]], [[(-2, -1); (4, 5)]], [2; 8; 10; 3], [-2; 4; 0; 0; 0; 0; 0], 3, 1. five.
  split; [|split; [exact (lin_roots 5)|split; [deg|split; [deg|split; [lia|exact (checked_pos _ _ checked_2)]]]]].
  split; [lia|]. split; [lia|]. split; [eexists _, _; split; reflexivity|]. exists [2; 8; 10; 3], [-2; 4], [0; 1; 2; 3], [0; 1]. split; [inr|]. split; [inr|]. split.
  - place. exfalso. lia.
  - place. assert (H : i = 2 \/ i = 3 \/ i = 4 \/ i = 5 \/ i = 6) by lia. destruct H as [->|[->|[->|[->| ->]]]]; reflexivity.
Qed.
Lemma makes_big p : exists c, conf fix_apery_sanitycheck_with_big_lhs p = Ok c /\ makes2 c.
Proof.
  eexists. split; [vm_compute; reflexivity|]. fix1 [1; 0; 2; 3; 10; 11].
  exists PSparse, (Some (5, 8)), [[(2, 4); (8, 10); (10, 11); (3, 4)]], [[(-2, -1); (4, 7)]], [2; 8; 10; 3; 0], [-2; 4; 0; 0; 0; 0; 0; 0], 3, 1. five.
  split; [|split; [exact (lin_roots 6)|split; [deg|split; [deg|split; [lia|exact (checked_pos _ _ checked_3)]]]]].
  split; [lia|]. split; [lia|]. split; [eexists _, _; split; reflexivity|]. exists [2; 8; 10; 3], [-2; 4], [0; 1; 2; 3], [0; 1]. split; [inr|]. split; [inr|]. split.
  - place. assert (i = 4) as -> by lia. reflexivity.
  - place. assert (H : i = 2 \/ i = 3 \/ i = 4 \/ i = 5 \/ i = 6 \/ i = 7) by lia. destruct H as [->|[->|[->|[->|[->| ->]]]]]; reflexivity.
Qed.
Lemma makes_bench p : exists c, conf fix_gen_hashtable_benchmark p = Ok c /\ makes2 c.
Proof.
  eexists. split; [vm_compute; reflexivity|]. fix1 [1; 0; 2; 3; 10; 11].
  exists PSparse, (Some (4, 7)), [[(0, 4); (6, 9); (9, 11); (3, 4)]], [[(-2, 1); (4, 7)]], [2; 8; 10; 3], [-2; 4; 0; 0; 0; 0; 0], 3, 1. five.
  split; [|split; [exact (lin_roots 5)|split; [deg|split; [deg|split; [lia|exact (checked_pos _ _ checked_2)]]]]].
  split; [lia|]. split; [lia|]. split; [eexists _, _; split; reflexivity|]. exists [2; 8; 10; 3], [-2; 4], [0; 1; 2; 3], [0; 1]. split; [inr|]. split; [inr|]. split.
  - place. exfalso. lia.
  - place. assert (H : i = 2 \/ i = 3 \/ i = 4 \/ i = 5 \/ i = 6) by lia. destruct H as [->|[->|[->|[->| ->]]]]; reflexivity.
Qed.
Lemma makes_pi p : exists c, conf fix_pi_sanitycheck p = Ok c /\ makes2 c.
Proof.
  eexists. split; [vm_compute; reflexivity|]. fix1 [0; 1; 2; 3; 10; 11].
  exists PNormal, None, [[(1, 2); (2, 3)]], [[(0, 1); (0, 1); (1, 2)]], [1; 2], [0; 0; 1], 1, 2. five.
  split; [|split; [intros fsqrt; apply (Properties_Enum.C28_constants fsqrt 2 0 1); lia|split; [deg|split; [deg|split; [lia|exact (checked_pos _ _ checked_1)]]]]].
  split; inr.
Qed.
Lemma fixture_makes f p : In f fixture_files -> exists c, conf f p = Ok c /\ makes2 c.
Proof.
  intros I. cbn [fixture_files In] in I. destruct I as [<-|[<-|[<-|[<-|[]]]]]; [apply makes_apery|apply makes_big|apply makes_bench|apply makes_pi].
Qed.

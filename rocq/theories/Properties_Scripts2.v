(** Splitting a search, running the jobs and joining their tables. *)
From Coq Require Import Ascii String ZArith QArith List Bool Lia Permutation.
From Verif Require Import PyBase PyBase_Proofs Rnd Hashtable_Model Hashtable_Proofs ULCD_Model Rational_Model MITM_Model Results_Model Config_Model Consts_Model
  Spec_ULCD Spec_Enum Spec_Config Spec_MITM Spec_Dist Config_Proofs Config_Files MITM_Build MITM_Build2 Dist_Model Main_Model Spec_Main Scripts_Model Spec_Scripts Scripts_Proofs
  Main_Proofs Properties_Scripts.
From Verif Require Properties_Dist Properties_Main.
Import ListNotations.
Local Open Scope Z_scope.
Local Open Scope list_scope.
Local Open Scope res_scope.

(** The object that a run with the operation 'generate' begins with. *)
Definition fresh (sq : Q -> Q) (c : config) (x : mitm Empty_set) : Prop :=
  exists name st n, c_get c "const" = CStr name /\ settings_of sq c name (set_dps DECIMAL_PREC) = Some st /\
    as_int (c_get c "hashtable_num_of_iterations") = Some n /\ mitm_new true n st = Ok x.
Lemma fresh_same sq c x y : fresh sq c x -> fresh sq c y -> x = y.
Proof. intros (n1 & s1 & i1 & A1 & B1 & C1 & D1) (n2 & s2 & i2 & A2 & B2 & C2 & D2). congruence. Qed.
Lemma choose_name v cv i g name : choose v cv i = Ok (g, name) -> cv = CStr name.
Proof.
  unfold choose, choose_const. destruct cv; try discriminate. destruct (d_get text_eqb _ s); [|discriminate]. destruct (_ || _); [discriminate|]. congruence.
Qed.
Lemma gen_run v c m0 w w' a b p : env_ok v -> masks_ok v -> operation c "generate" -> table_path c p -> ranges_setting c "a_coeffs_range" a ->
  ranges_setting c "b_coeffs_range" b -> c_get c "lhs_type" = CNone -> run_with v c m0 w = (w', Some (Ok tt)) ->
  exists x s, fresh (v_sq v) c x /\ w' = write_table p s w /\
    Properties_Dist.run_of (rnd bits50) (v_fsqrt v) (v_ibinom v) (v_target v) (v_eng v) x (a, b) (mi_table (sv_mitm s)).
Proof.
  intros VO MO G TP RA RB NL H. apply run_course in H. pose proof (not_use _ _ G ltac:(discriminate)) as U.
  inversion H as [r N|i g name m g1 x w1 x1 HI HC HO HX HT|i g name m g1 x w1 x1 w2 r HI HC HO HX HT HF]; subst; [congruence| |].
  - rewrite U in HX. apply obtain_ok in HO. destruct HO as [p0 s0 O0 _ _|p0 s0 st y O0 _ _ _ _|st n y O0 HS HN HM].
    + now apply (op_excl _ _ _ O0) in G.
    + now apply (op_excl _ _ _ O0) in G.
    + destruct (extend_ok _ _ _ _ _ _ _ _ HX) as (ra & rb & p1 & x0 & t & ER & EB & TP1 & BH & HS2 & -> & ->).
      rewrite (ranges_known _ _ _ RA) in ER. injection ER as <-. rewrite (ranges_known _ _ _ RB) in EB. injection EB as <-.
      assert (p1 = p) as -> by (unfold table_path in *; congruence).
      exists y, {| sv_mitm := with_table x0 t; sv_gen := g |}. split; [|split; [reflexivity|]].
      * exists name, st, n. split; [exact (choose_name _ _ _ _ _ HC)|]. auto.
      * exists (v_masks v), (v_order v), true, x0. split; [exact MO|]. split; [exact VO|]. split; [exact BH|]. cbn [sv_mitm with_table mi_table]. now rewrite HS2.
  - exfalso. unfold fae_in, find_and_export in HF. rewrite NL in HF. discriminate.
Qed.
Definition keys_read : list string := ["const"; "ab_polys_type"; "ab_polys_special_params"; "postproc_funcs_filter"; "hashtable_precision"; "hashtable_num_of_iterations"; "lhs_type"; "hashtable_file_operation"]%string.
Lemma job_reads c j f c' k : job_of c j f c' -> In k keys_read -> c_get c' k = c_get c k.
Proof.
  intros (_ & _ & _ & H) I. apply H.
  - unfold keys_read in I. cbn in I. repeat (destruct I as [<-|I]; [cbn; tauto|]). destruct I.
  - unfold keys_read in I. cbn in I. repeat (destruct I as [<-|I]; [cbn; intuition discriminate|]). destruct I.
Qed.
Lemma job_fresh sq c j f c' x : job_of c j f c' -> fresh sq c' x -> fresh sq c x.
Proof.
  intros J (name & st & n & A & B & C & D). pose proof (fun k => job_reads c j f c' k J) as R. exists name, st, n.
  rewrite <- (R "const"%string) by (cbn; tauto). rewrite <- (R "hashtable_num_of_iterations"%string) by (cbn; tauto). unfold settings_of in *.
  rewrite (R "postproc_funcs_filter"%string), (R "hashtable_precision"%string), (R "ab_polys_type"%string), (R "ab_polys_special_params"%string) in B by (cbn; tauto). auto.
Qed.
(** ---- the names of the tables of the jobs ---- *)
Lemma two_digits_val i : 0 <= i -> digits_val (two_digits i) 0 = Some i.
Proof.
  intros H. destruct (z_text_nat i H) as (V & _). unfold two_digits. change (int_chars i) with (z_text i). destruct (i <? 10); [|exact V].
  change (chars "0" ++ z_text i) with ("0"%char :: z_text i). cbn [digits_val]. change (is_digit "0") with true. cbv iota. exact V.
Qed.
Lemma two_digits_inj i i' : 0 <= i -> 0 <= i' -> two_digits i = two_digits i' -> i = i'.
Proof. intros H H' E. apply (f_equal (fun t => digits_val t 0)) in E. rewrite !two_digits_val in E by assumption. congruence. Qed.
(** Digits that are followed by something else. *)
Lemma digits_cut w : forall w' (x y : list ascii), digits w -> digits w' -> (forall c r, x = c :: r -> digit_of c = None) -> (forall c r, y = c :: r -> digit_of c = None) ->
  w ++ x = w' ++ y -> w = w'.
Proof.
  induction w as [|c w IH]; intros [|c' w'] x y D D' X Y E; cbn [app] in E.
  - reflexivity.
  - apply X in E. apply Forall_inv in D'. now destruct D'.
  - symmetry in E. apply Y in E. apply Forall_inv in D. now destruct D.
  - injection E as -> E. f_equal. inversion D; inversion D'; subst. now apply (IH w' x y).
Qed.
Definition table_name (tab : list ascii) (i : Z) : list ascii := version (part tab i) 1.
Lemma table_name_eq tab i : table_name tab i = tab ++ chars "_part" ++ two_digits i ++ chars "_v1.pkl".
Proof. unfold table_name, version, part. rewrite <- !app_assoc. reflexivity. Qed.
Lemma other_version tab i i' : 0 <= i -> 0 <= i' -> version_file (part tab i) (table_name tab i') -> i = i'.
Proof.
  intros H H' (v & rest & V & E). rewrite table_name_eq in E. unfold part in E. rewrite <- !app_assoc in E. apply app_inv_head, app_inv_head in E.
  apply two_digits_inj; [exact H|exact H'|]. symmetry. eapply digits_cut; [now apply two_digits_ok|now apply two_digits_ok| | |exact E].
  - intros c r [= <- _]. reflexivity.
  - intros c r X. destruct V as [->|(u & _ & _ & ->)]; injection X as <- _; reflexivity.
Qed.
Lemma table_name_inj tab i i' : 0 <= i -> 0 <= i' -> table_name tab i = table_name tab i' -> i = i'.
Proof.
  intros H H' E. apply (other_version tab i i' H H'). rewrite <- E. unfold table_name. apply version_is. lia.
Qed.
Lemma table_names_nodup tab l : NoDup l -> (forall i, In i l -> 0 <= i) -> NoDup (map (table_name tab) l).
Proof.
  induction 1 as [|i l NI ND IH]; intros H; cbn [map]; constructor; [|apply IH; intros j J; apply H; now right].
  intros I. apply in_map_iff in I as (i' & E & I'). apply table_name_inj in E; [subst; contradiction|apply H; now right|apply H; now left].
Qed.
Lemma table_name_pkl tab i : table_name tab i = (tab ++ chars "_part" ++ two_digits i ++ chars "_v1") ++ chars ".pkl".
Proof. rewrite table_name_eq, <- !app_assoc. reflexivity. Qed.
Lemma table_name_slash tab i : 0 <= i -> plain tab -> ~ In "/"%char (table_name tab i).
Proof.
  intros H P. rewrite table_name_eq, !in_app_iff. destruct (two_digits_ok i H) as (_ & D). intros [I|[I|[I|I]]].
  - now apply (plain_slash _ P).
  - cbn in I. intuition discriminate.
  - now apply (plain_slash _ (digits_plain _ D)).
  - cbn in I. intuition discriminate.
Qed.
Lemma table_name_ext tab i : pkl_name (table_name tab i).
Proof.
  rewrite table_name_pkl. eexists. split; [reflexivity|]. exists "p"%char. split; [|discriminate]. rewrite !in_app_iff. right. left. cbn. tauto.
Qed.

(** ---- running the jobs ---- *)
Section Jobs.
  Variables (v0 : env) (c : config) (stem ext dir tab : list ascii) (n : Z) (js : list space) (w1 : world).
  Hypothesis G : operation c "generate".
  Hypothesis NL : c_get c "lhs_type" = CNone.
  Hypothesis PO : precision_ok c.
  Hypothesis JS : forall i, 0 <= i < n -> exists j its, nth_error js (Z.to_nat i) = Some j /\ file_at w1 (job_file stem ext n i) = Some (OConf its) /\
    forall listdir, (forall h, In h (listdir dir) -> ~ version_file (part tab i) h) ->
      exists c', load listdir (Some its) = Ok c' /\ job_of c j (in_dir dir (table_name tab i)) c'.
  Definition good_table (w : world) (i : Z) : Prop :=
    exists j x s eng, nth_error js (Z.to_nat i) = Some j /\ fresh (v_sq v0) c x /\ table_at w (in_dir dir (table_name tab i)) = Some s /\
      Properties_Dist.run_of (rnd bits50) (v_fsqrt v0) (v_ibinom v0) (v_target v0) eng x j (mi_table (sv_mitm s)).
  Definition inv (done : list Z) (w : world) : Prop :=
    w_files w = w_files w1 /\ tables_built w /\ (forall i, In i done -> good_table w i) /\
    forall m, ~ In "/"%char m -> table_at w (in_dir dir m) <> None -> exists i, In i done /\ m = table_name tab i.
  Lemma jobs_inv fs w w2 : job_runs v0 dir fs w w2 -> forall is done, fs = map (job_file stem ext n) is -> NoDup (is ++ done) ->
    Forall (fun i => 0 <= i < n) (is ++ done) -> inv done w -> inv (is ++ done) w2.
  Proof.
    induction 1 as [w|f fs v listdir its w w' w'' HF SM VO MO LS HR H IH]; intros is done E ND R I.
    - destruct is; [exact I|discriminate].
    - destruct is as [|i is]; [discriminate|]. cbn [map] in E. injection E as -> ->. cbn [app] in ND, R. inversion ND as [|? ? NI ND']; subst. inversion R as [|? ? RI RR]; subst.
      assert (I' : inv (i :: done) w').
      { destruct I as (IF & IB & IG & IO). destruct (JS i RI) as (j & its' & J & FJ & LD).
        unfold file_at in HF, FJ. rewrite IF, FJ in HF. injection HF as ->.
        destruct (LD listdir) as (c' & LC & JO).
        { intros h IH' V. destruct V as (vt & rest & V & ->). destruct LS as (_ & B & LS). unfold bare in B. rewrite Forall_forall in B. pose proof (B _ IH') as BH.
          rewrite app_assoc in IH', BH. apply LS in IH'; [|exact BH]. apply IO in IH' as (i' & ID & E); [|exact BH]. apply NI. apply in_or_app. right.
          assert (i = i') as ->; [|exact ID]. apply (other_version tab i i'); [lia| |].
          - apply Forall_app in RR as [_ RR]. rewrite Forall_forall in RR. apply RR in ID. lia.
          - rewrite <- E, <- app_assoc. exists vt, rest. auto. }
        unfold run, main in HR. rewrite LC in HR. destruct JO as (RA & RB & TP & RO). assert (JO : job_of c j (in_dir dir (table_name tab i)) c') by (unfold job_of; auto).
        pose proof (fun k => job_reads _ _ _ _ k JO) as RD.
        assert (G' : operation c' "generate") by (unfold operation; rewrite (RD "hashtable_file_operation"%string) by (cbn; tauto); exact G).
        assert (NL' : c_get c' "lhs_type" = CNone) by (rewrite (RD "lhs_type"%string) by (cbn; tauto); exact NL).
        assert (PO' : precision_ok c') by (intros h EH; apply PO; rewrite <- (RD "hashtable_precision"%string) by (cbn; tauto); exact EH).
        fold (run_with v c' import_ctx w) in HR.
        pose proof (run_built v c' import_ctx w w' _ VO PO' HR IB) as IB'.
        destruct (gen_run v c' import_ctx w w' (fst j) (snd j) _ VO MO G' TP RA RB NL' HR) as (x & s & FX & -> & RU).
        destruct SM as (S1 & S2 & S3 & S4). rewrite S1, S2, S3 in RU. rewrite S4 in FX. apply (job_fresh _ _ _ _ _ _ JO) in FX.
        split; [exact IF|]. split; [exact IB'|]. split.
        - intros i' [<-|ID].
          + exists j, x, s, (v_eng v). split; [exact J|]. split; [exact FX|]. split; [unfold table_at, write_table; cbn [w_tables]; apply (d_get_set_same _ text_eqb_eq)|].
            destruct j as [ja jb]. exact RU.
          + destruct (IG i' ID) as (j' & x' & s' & eng' & A & B & C & D). exists j', x', s', eng'. split; [exact A|]. split; [exact B|]. split; [|exact D].
            unfold table_at, write_table. cbn [w_tables]. rewrite (d_get_set_other _ text_eqb_eq); [exact C|]. unfold in_dir. intros X.
            apply app_inv_head, app_inv_head, table_name_inj in X; [|apply Forall_app in RR as [_ RR]; rewrite Forall_forall in RR; apply RR in ID; lia|lia].
            subst i'. apply NI. apply in_or_app. now right.
        - intros m NM T. destruct (text_eqb m (table_name tab i)) eqn:EM.
          + apply text_eqb_eq in EM. exists i. split; [now left|exact EM].
          + unfold table_at, write_table in T. cbn [w_tables] in T. rewrite (d_get_set_other _ text_eqb_eq) in T.
            * destruct (IO m NM T) as (i' & ID & EI). exists i'. split; [now right|exact EI].
            * unfold in_dir. intros X. apply app_inv_head, app_inv_head in X. subst m. now rewrite teq_refl in EM. }
      assert (PM : Permutation (is ++ i :: done) (i :: is ++ done)) by (apply Permutation_sym, Permutation_middle).
      specialize (IH is (i :: done) eq_refl). assert (IX : inv (is ++ i :: done) w'').
      { apply IH; [eapply Permutation_NoDup; [apply Permutation_sym; exact PM|exact ND]|eapply Permutation_Forall; [apply Permutation_sym; exact PM|exact R]|exact I']. }
      destruct IX as (A & B & C & D). split; [exact A|]. split; [exact B|]. split.
      + intros i' II. apply C. eapply Permutation_in; [apply Permutation_sym; exact PM|exact II].
      + intros m NM T. destruct (D m NM T) as (i' & II & EI). exists i'. split; [eapply Permutation_in; [exact PM|exact II]|exact EI].
  Qed.
End Jobs.
Lemma run_of_eng {A} rd fsqrt ib tg eng eng' (x : mitm A) s t : Properties_Dist.run_of rd fsqrt ib tg eng x s t -> Properties_Dist.run_of rd fsqrt ib tg eng' x s t.
Proof. intros H. exact H. Qed.
Lemma fresh_ok sq c x : fresh sq c x -> precision_ok c -> mi_table x = ht_new (mi_hprec x) /\ 0 <= mi_hprec x /\
  c_get c "ab_polys_type" = CPoly (en_class (mi_enum x)) /\ as_special (c_get c "ab_polys_special_params") = Some (en_special (mi_enum x)).
Proof.
  intros (name & st & n & _ & S & _ & M) P. unfold settings_of in S. destruct (as_ints _) as [flt|]; [|discriminate]. destruct (as_int (c_get c "hashtable_precision")) as [hp|] eqn:HP; [|discriminate].
  destruct (c_get c "ab_polys_type") as [| | | | |cl|] eqn:CL; try discriminate. destruct (as_special _) as [sp|] eqn:SP; [|discriminate]. injection S as <-.
  unfold mitm_new in M. cbn [s_class s_special s_hprec] in M. assert (HH : 0 <= hp).
  { unfold as_int in HP. destruct (c_get c "hashtable_precision") eqn:E; try discriminate. injection HP as ->. now apply P. }
  unfold enumer_new in M. destruct cl; [| |destruct sp; [|discriminate]]; cbn [bind] in M; apply inj_ok in M; subst x; cbn [mi_table mi_hprec mi_enum en_class en_special]; auto.
Qed.
Lemma fits_fitting v c x s : fresh (v_sq v) c x -> precision_ok c -> fits v c s -> Properties_Dist.fitting (v_ibinom v) x s.
Proof.
  intros F P H. destruct (fresh_ok _ _ _ F P) as (_ & _ & CL & SP). unfold fits in H. rewrite CL in H. unfold Properties_Dist.fitting.
  destruct (en_class (mi_enum x)); [exact I|exact H|]. destruct H as (na & nb & ka & kb & E & R). rewrite E in SP. cbn in SP. injection SP as SP. exists na, nb, ka, kb. auto.
Qed.
Lemma Forall2_numbers {A B} (R : A -> B -> Prop) (f : Z -> B) : forall (js : list A) k, (forall i j, nth_error js i = Some j -> R j (f (Z.of_nat (k + i)))) ->
  Forall2 R js (map f (map Z.of_nat (seq k (length js)))).
Proof.
  induction js as [|j js IH]; intros k H; cbn [length seq map]; constructor.
  - specialize (H 0%nat j eq_refl). now rewrite Nat.add_0_r in H.
  - apply IH. intros i x E. specialize (H (S i) x E). now rewrite Nat.add_succ_r in H.
Qed.
Definition tb (w : world) (p : list ascii) : mtable := match table_at w p with Some s => mi_table (sv_mitm s) | None => ht_new 0 end.
Definition pk (n : list ascii) : bool := text_eqb (snd (splitext n)) (txt ".pkl").
Lemma held_all w d : forall l, bare l -> (forall n, In n l -> pkl_name n -> table_at w (in_dir d n) <> None) ->
  exists ss, held w d l ss /\ tables_of ss = map (fun n => tb w (in_dir d n)) (filter pk l).
Proof.
  induction l as [|n l IH]; intros B H; [exists []; split; [constructor|reflexivity]|]. inversion B as [|? ? B1 B2]; subst.
  destruct IH as (ss & IH & E); [exact B2|intros m M; apply H; now right|]. cbn [filter]. destruct (pk n) eqn:P.
  - apply (is_pkl n B1) in P. destruct (table_at w (in_dir d n)) as [s|] eqn:T; [|now exfalso; apply (H n (or_introl eq_refl) P)]. exists (s :: ss).
    split; [now apply held_pkl|]. cbn [tables_of map]. fold (tables_of ss). unfold tb at 1. rewrite T. now f_equal.
  - exists ss. split; [|exact E]. apply held_other; [|exact IH]. intros Q. apply (is_pkl n B1) in Q. unfold pk in P. congruence.
Qed.
Lemma numbers_in n i : In i (numbers n) <-> 0 <= i < n.
Proof.
  unfold numbers. rewrite in_map_iff. split.
  - intros (k & <- & I). apply in_seq in I. lia.
  - intros H. exists (Z.to_nat i). rewrite in_seq. split; lia.
Qed.
Lemma numbers_nodup n : NoDup (numbers n).
Proof. unfold numbers. apply FinFun.Injective_map_NoDup; [|apply seq_NoDup]. intros a b. apply Nat2Z.inj. Qed.

Lemma Forall2_in_r {A B} (R : A -> B -> Prop) l l' : Forall2 R l l' -> forall y, In y l' -> exists x, In x l /\ R x y.
Proof.
  induction 1 as [|x y l l' H F IH]; intros z I; [destruct I|]. destruct I as [<-|I]; [exists x; split; [now left|exact H]|].
  destruct (IH z I) as (u & U & V). exists u. split; [now right|exact V].
Qed.

(** A search is split by distribute_run, the jobs are run, each once and in any order, and their tables are joined by
    join_hashtables: the joint table holds under every number the same entries as the table of one run over the whole
    space, and for the normal class the same ones with their multiplicities. *)
Theorem C103_split_run_join : forall v0 log2 listdir n k q stem ext items c a b dir tab fs w w1 w2 listing out,
  file_name stem ext -> 0 <= k -> log2 n = Ok q -> (q == inject_Z k)%Q ->
  file_at w (named stem ext) = Some (OConf items) -> load listdir (Some items) = Ok c ->
  ranges_setting c "a_coeffs_range" a -> ranges_setting c "b_coeffs_range" b -> a <> [] -> b <> [] -> bounded (2 ^ 52) (a, b) ->
  k <= halvings (hd [] a) + halvings (hd [] b) ->
  operation c "generate" -> c_get c "lhs_type" = CNone -> plain_setting c "ab_polys_special_params" -> plain_setting c "lhs_params" ->
  plain_dir dir -> plain tab -> tab <> [] -> table_path c (in_dir dir (tab ++ chars ".pkl")) ->
  precision_ok c -> fits v0 c (a, b) -> tables_built w ->
  (forall m, ~ In "/"%char m -> table_at w (in_dir dir m) = None) ->
  dist_main log2 listdir n (named stem ext) w = (w1, Some (Ok tt)) ->
  Permutation fs (map (job_file stem ext (2 ^ k)) (numbers (2 ^ k))) -> job_runs v0 dir fs w1 w2 -> lists w2 dir listing ->
  exists w3 joint, join_main listing dir out w2 = (w3, Ok tt) /\ table_at w3 out = Some joint /\
    forall v wS wS' single, same_machine v0 v -> env_ok v -> masks_ok v -> run v listdir (Some items) wS = (wS', Some (Ok tt)) ->
      table_at wS' (in_dir dir (tab ++ chars ".pkl")) = Some single ->
      (forall q e, stored (mi_table (sv_mitm joint)) (KNum q) e <-> stored (mi_table (sv_mitm single)) (KNum q) e) /\
      (c_get c "ab_polys_type" = CPoly PNormal -> forall q l l', Properties_MITM.entries (mi_table (sv_mitm joint)) (KNum q) l ->
        Properties_MITM.entries (mi_table (sv_mitm single)) (KNum q) l' -> Permutation l l').
Proof.
  intros v0 log2 listdir n k q stem ext items c a b dir tab fs w w1 w2 listing out FN K0 L Q FA LD RA RB NA NB BD KH G NL PS1 PS2 PD PT TN TP PO FT TB NT DM PF JR LI.
  pose proof (proj2 PD : dir_path dir) as DP.
  destruct (dist_ok log2 listdir n k q stem ext items c a b w FN K0 L Q FA LD RA RB NA NB BD KH) as (w1' & js & DM' & SP & LEN & _ & WT & WD & _ & _ & JS).
  rewrite DM in DM'. injection DM' as <-.
  assert (N2 : 0 < 2 ^ k) by (apply Z.pow_pos_nonneg; lia).
  apply Permutation_map_inv in PF as (is & -> & PI).
  assert (INV : inv v0 c dir tab js w1 (is ++ []) w2).
  { eapply (jobs_inv v0 c stem ext dir tab (2 ^ k) js w1 G NL PO); [|exact JR|reflexivity| | |].
    - intros i RI. destruct (nth_error js (Z.to_nat i)) as [j|] eqn:EJ; [|apply nth_error_None in EJ; lia].
      destruct (JS _ _ EJ) as (its & A & _ & B). rewrite Z2Nat.id in A by lia. exists j, its. split; [exact EJ|]. split; [exact A|]. intros ld HL.
      destruct (B NL PS1 PS2 ld dir tab PD PT TN TP) as (c' & C1 & C2); [rewrite Z2Nat.id by lia; exact HL|]. rewrite Z2Nat.id in C2 by lia. exists c'. auto.
    - rewrite app_nil_r. eapply Permutation_NoDup; [exact PI|apply numbers_nodup].
    - rewrite app_nil_r. apply Forall_forall. intros i II. apply numbers_in. eapply Permutation_in; [apply Permutation_sym; exact PI|exact II].
    - split; [reflexivity|]. split; [intros p s I; rewrite WT in I; now apply (TB p s)|]. split; [intros i []|]. intros m NM T. exfalso. apply T. unfold table_at. rewrite WT. now apply NT. }
  rewrite app_nil_r in INV. destruct INV as (_ & TB2 & GT & OT).
  assert (II : forall i, In i is <-> 0 <= i < 2 ^ k).
  { intros i. rewrite <- numbers_in. split; apply Permutation_in; [apply Permutation_sym|]; exact PI. }
  destruct LI as (LN & LB & LL). pose proof LB as LB'. unfold bare in LB'. rewrite Forall_forall in LB'.
  destruct (held_all w2 dir listing LB) as (ss & HS & ES).
  { intros m IM (r & -> & _). pose proof (LL r [] ) as X. rewrite app_nil_r in X. apply X; [now apply LB'|exact IM]. }
  set (T := fun m => tb w2 (in_dir dir m)) in *.
  assert (PM : Permutation (map (table_name tab) (numbers (2 ^ k))) (filter pk listing)).
  { apply NoDup_Permutation.
    - apply table_names_nodup; [apply numbers_nodup|intros i I; apply numbers_in in I; lia].
    - now apply NoDup_filter.
    - intros m. rewrite in_map_iff, filter_In. split.
      + intros (i & <- & I). apply numbers_in in I. assert (NS : ~ In "/"%char (table_name tab i)) by (apply table_name_slash; [lia|exact PT]).
        split; [|now apply is_pkl, table_name_ext]. destruct (GT i) as (j & x & s & eng & _ & _ & TA & _); [now apply II|].
        pose proof (LL (tab ++ chars "_part" ++ two_digits i ++ chars "_v1") []) as X. rewrite app_nil_r, <- table_name_pkl in X. apply X; [exact NS|congruence].
      + intros (IM & P). pose proof (LB' m IM) as NS. apply (is_pkl m NS) in P as (r & -> & _). pose proof (LL r []) as X. rewrite app_nil_r in X.
        apply (X NS) in IM. destruct (OT _ NS IM) as (i & I & E). exists i. split; [symmetry; exact E|]. apply numbers_in. now apply II. }
  assert (X0 : exists x0, fresh (v_sq v0) c x0) by (destruct (GT 0) as (j & x & _ & _ & _ & F & _); [apply II; lia|now exists x]). destruct X0 as (x0 & F0).
  set (ts := map (fun i => T (table_name tab i)) (numbers (2 ^ k))).
  assert (HR : Forall2 (Properties_Dist.run_of (rnd bits50) (v_fsqrt v0) (v_ibinom v0) (v_target v0) (v_eng v0) x0) js ts).
  { unfold ts, numbers. replace (Z.to_nat (2 ^ k)) with (length js) by lia. apply (Forall2_numbers _ (fun i => T (table_name tab i))). intros i j EJ. cbn [plus].
    destruct (GT (Z.of_nat i)) as (j' & x & s & eng & EJ' & F & TA & RU).
    { apply II. assert (i < length js)%nat by (apply nth_error_Some; intros X; pose proof (eq_trans (eq_sym EJ) X) as X'; discriminate X'). lia. }
    rewrite Nat2Z.id in EJ'. pose proof (eq_trans (eq_sym EJ) EJ') as X. injection X as <-. rewrite <- (fresh_same _ _ _ _ F F0). unfold T, tb. rewrite TA. exact RU. }
  assert (PTS : Permutation ts (tables_of ss)) by (rewrite ES; unfold ts; rewrite <- map_map; now apply Permutation_map).
  destruct (fresh_ok _ _ _ F0 PO) as (H0 & HP & CL & _). pose proof (fits_fitting v0 c x0 (a, b) F0 PO FT) as FF.
  destruct (Properties_Dist.pairs_from_points (rnd bits50) (v_fsqrt v0) (v_ibinom v0) (v_target v0) x0) as (R & HRR & _).
  pose proof (Properties_Dist.split_fitting (v_ibinom v0) x0 (Z.to_nat k) (a, b) js SP FF) as FJ.
  assert (AC : forall t, In t ts -> p_table t /\ h_acc t = h_acc (mi_table x0)).
  { intros t IT. destruct (Forall2_in_r _ _ _ HR t IT) as (j & IJ & RU). rewrite Forall_forall in FJ. specialize (FJ j IJ).
    pose proof (Properties_Dist.run_table _ _ _ _ _ _ R j t (fun mo pairs y HM => HRR j mo pairs y HM FJ) H0 HP RU) as (A & B & _). auto. }
  assert (AC' : forall t, In t (tables_of ss) -> p_table t /\ h_acc t = h_acc (mi_table x0)) by (intros t IT; apply AC; eapply Permutation_in; [apply Permutation_sym; exact PTS|exact IT]).
  destruct ss as [|s ss].
  { exfalso. apply Permutation_length in PTS. unfold ts in PTS. rewrite map_length in PTS. unfold numbers in PTS. rewrite map_length, seq_length in PTS. cbn in PTS. lia. }
  destruct (Properties_Dist.join_at (tables_of (s :: ss))) as (j & J1 & _); [discriminate|apply Forall_forall; intros t IT; now apply AC'|intros t1 t2 I1 I2; now rewrite (proj2 (AC' _ I1)), (proj2 (AC' _ I2))|].
  rewrite (join_main_tables w2 listing dir out s ss TB2 DP LB HS), J1. eexists. eexists. split; [reflexivity|].
  split; [unfold table_at, write_table; cbn [w_tables]; apply (d_get_set_same _ text_eqb_eq)|]. cbn [sv_mitm with_table mi_table].
  intros v wS wS' single SM VO MO HR1 TS. unfold run, main in HR1. rewrite LD in HR1. fold (run_with v c import_ctx wS) in HR1.
  destruct (gen_run v c import_ctx wS wS' a b _ VO MO G TP RA RB NL HR1) as (x & s1 & FX & -> & RU).
  destruct SM as (S1 & S2 & S3 & S4). rewrite S1, S2, S3 in RU. rewrite S4 in FX. apply (fresh_same _ _ _ _ FX) in F0 as ->.
  unfold table_at, write_table in TS. cbn [w_tables] in TS. rewrite (d_get_set_same _ text_eqb_eq) in TS. injection TS as <-. split.
  - destruct (Properties_Dist.C57_same_entries _ _ _ _ _ _ x0 (a, b) (Z.to_nat k) js ts _ _ H0 HP BD FF SP HR PTS RU) as (j' & J' & E). rewrite J1 in J'. injection J' as <-. exact E.
  - intros CN. rewrite CL in CN. injection CN as CN.
    destruct (Properties_Dist.C57_same_lists _ _ _ _ _ _ x0 (a, b) (Z.to_nat k) js ts _ _ CN H0 HP BD SP HR PTS RU) as (j' & J' & E). rewrite J1 in J'. injection J' as <-. exact E.
Qed.

Lemma lists_none w d : w_tables w = [] -> lists w d [].
Proof. intros E. split; [constructor|]. split; [constructor|]. intros r s _. split; [intros []|]. intros T. exfalso. apply T. unfold table_at. now rewrite E. Qed.
Lemma lists_write w d l m x : lists w d l -> ~ In "/"%char m -> ~ In m l -> lists (write_table (in_dir d m) x w) d (m :: l).
Proof.
  intros (N & B & L) S I. split; [now constructor|]. split; [now constructor|]. intros r s H. unfold table_at, write_table. cbn [w_tables].
  destruct (text_eqb m (r ++ chars ".pkl" ++ s)) eqn:E.
  - apply text_eqb_eq in E. subst m. rewrite (d_get_set_same _ text_eqb_eq). split; [discriminate|now left].
  - assert (X : m <> r ++ chars ".pkl" ++ s) by (intros ->; now rewrite teq_refl in E). rewrite (d_get_set_other _ text_eqb_eq).
    + fold (table_at w (in_dir d (r ++ chars ".pkl" ++ s))). rewrite <- (L r s H). split; [intros [Y|Y]; [now apply X in Y|exact Y]|now right].
    + unfold in_dir. intros Y. apply app_inv_head, app_inv_head in Y. congruence.
Qed.
Definition jobs_dir_ex (i : Z) (d : text) : list text := if i =? 1 then [table_name (chars "pi_v1") 0] else [].
Definition job_its (i : Z) : list (text * text) :=
  match file_at (fst (dist_main log2_ex no_files 2 (chars "config.ini") (jobs_world false))) (job_file (chars "config") (chars "ini") 2 i) with Some (OConf its) => its | _ => [] end.
Definition job_conf (i : Z) : config := match load (jobs_dir_ex i) (Some (job_its i)) with Ok c => c | Raise _ => [] end.
Lemma job_ok i w : i = 0 \/ i = 1 -> exists s, run Properties_Main.env_ex (jobs_dir_ex i) (Some (job_its i)) w = (write_table (in_dir (chars ".") (table_name (chars "pi_v1") i)) s w, Some (Ok tt)).
Proof.
  intros H. assert (LD : load (jobs_dir_ex i) (Some (job_its i)) = Ok (job_conf i)) by (destruct H as [-> | ->]; vm_compute; reflexivity).
  assert (R : snd (run_with Properties_Main.env_ex (job_conf i) import_ctx w) = Some (Ok tt)) by (destruct H as [-> | ->]; vm_compute; reflexivity).
  unfold run, main. rewrite LD. fold (run_with Properties_Main.env_ex (job_conf i) import_ctx w). destruct (run_with _ _ _ w) as [w' r] eqn:E. cbn [snd] in R. subst r.
  assert (RS : exists a b, ranges_setting (job_conf i) "a_coeffs_range" a /\ ranges_setting (job_conf i) "b_coeffs_range" b).
  { destruct H as [-> | ->]; [exists [[(1, 3); (1, 2)]], [[(1, 2)]]|exists [[(3, 5); (1, 2)]], [[(1, 2)]]]; split; vm_compute; reflexivity. }
  destruct RS as (a & b & RA & RB).
  destruct (gen_run Properties_Main.env_ex (job_conf i) import_ctx w w' a b (in_dir (chars ".") (table_name (chars "pi_v1") i))) as (x & s & _ & -> & _);
    [intros ab l; apply Permutation_refl|intros l; apply Permutation_refl|destruct H as [-> | ->]; vm_compute; reflexivity|destruct H as [-> | ->]; vm_compute; reflexivity|exact RA|exact RB|
     destruct H as [-> | ->]; vm_compute; reflexivity|exact E|].
  now exists s.
Qed.
Example C103_ex : exists w1 w2 fs listing,
  dist_main log2_ex no_files 2 (chars "config.ini") (jobs_world false) = (w1, Some (Ok tt)) /\
  Permutation fs (map (job_file (chars "config") (chars "ini") (2 ^ 1)) (numbers (2 ^ 1))) /\ length fs = 2%nat /\
  job_runs Properties_Main.env_ex (chars ".") fs w1 w2 /\ lists w2 (chars ".") listing /\ length listing = 2%nat /\
  operation (jobs_config false) "generate" /\ c_get (jobs_config false) "lhs_type" = CNone /\
  plain_setting (jobs_config false) "ab_polys_special_params" /\ plain_setting (jobs_config false) "lhs_params" /\
  plain_dir (chars ".") /\ plain (chars "pi_v1") /\ table_path (jobs_config false) (in_dir (chars ".") (chars "pi_v1" ++ chars ".pkl")) /\
  precision_ok (jobs_config false) /\ fits Properties_Main.env_ex (jobs_config false) ([[(1, 5); (1, 2)]], [[(1, 2)]]) /\ tables_built (jobs_world false) /\
  snd (run Properties_Main.env_ex no_files (Some (jobs_conf false)) (jobs_world false)) = Some (Ok tt).
Proof.
  set (w1 := fst (dist_main log2_ex no_files 2 (chars "config.ini") (jobs_world false))).
  destruct (job_ok 0 w1 (or_introl eq_refl)) as (s0 & R0). set (wa := write_table _ s0 w1) in R0.
  destruct (job_ok 1 wa (or_intror eq_refl)) as (s1 & R1). set (wb := write_table _ s1 wa) in R1.
  assert (T0 : w_tables w1 = []) by (vm_compute; reflexivity).
  pose proof (lists_none w1 (chars ".") T0) as L0.
  assert (La : lists wa (chars ".") [table_name (chars "pi_v1") 0]) by (apply lists_write; [exact L0|cbn; intuition discriminate|intros []]).
  assert (Lb : lists wb (chars ".") [table_name (chars "pi_v1") 1; table_name (chars "pi_v1") 0]).
  { apply lists_write; [exact La|cbn; intuition discriminate|]. intros [E|[]]. apply table_name_inj in E; lia. }
  assert (F0 : file_at w1 (job_file (chars "config") (chars "ini") 2 0) = Some (OConf (job_its 0))) by (vm_compute; reflexivity).
  assert (F1 : file_at wa (job_file (chars "config") (chars "ini") 2 1) = Some (OConf (job_its 1))) by (change (file_at w1 (job_file (chars "config") (chars "ini") 2 1) = Some (OConf (job_its 1))); vm_compute; reflexivity).
  exists w1, wb, [job_file (chars "config") (chars "ini") 2 0; job_file (chars "config") (chars "ini") 2 1], [table_name (chars "pi_v1") 1; table_name (chars "pi_v1") 0].
  split; [unfold w1; vm_compute; reflexivity|]. split; [apply Permutation_refl|]. split; [reflexivity|]. split.
  { assert (SM : same_machine Properties_Main.env_ex Properties_Main.env_ex) by (repeat split).
    assert (VO : env_ok Properties_Main.env_ex) by (intros ab l; apply Permutation_refl). assert (MO : masks_ok Properties_Main.env_ex) by (intros l; apply Permutation_refl).
    eapply JR_cons; [exact F0|exact SM|exact VO|exact MO| |exact R0|]; [exact L0|]. eapply JR_cons; [exact F1|exact SM|exact VO|exact MO| |exact R1|]; [exact La|apply JR_nil]. }
  split; [exact Lb|]. split; [reflexivity|]. split; [vm_compute; reflexivity|]. split; [vm_compute; reflexivity|]. split; [left; vm_compute; reflexivity|]. split; [left; vm_compute; reflexivity|].
  split; [split; [constructor; [right; now left|constructor]|exists [], "."%char; split; [reflexivity|discriminate]]|].
  split; [repeat (apply Forall_cons; [unfold plain_char; cbn; lia|]); apply Forall_nil|]. split; [vm_compute; reflexivity|].
  split; [intros h E; vm_compute in E; injection E as <-; lia|]. split; [vm_compute; exact I|]. split; [intros p s []|]. vm_compute. reflexivity.
Qed.

Print Assumptions C103_split_run_join.

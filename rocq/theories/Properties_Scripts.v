(** Properties of the scripts that split a search into jobs, start them and join their tables. *)
From Coq Require Import Ascii String ZArith QArith List Bool Lia Permutation.
From Verif Require Import PyBase PyBase_Proofs Rnd Hashtable_Model Hashtable_Proofs ULCD_Model Rational_Model MITM_Model Results_Model Config_Model
  Spec_ULCD Spec_Enum Spec_Config Spec_MITM Spec_Dist Config_Proofs Config_Json Config_Files Config_Round MITM_Build MITM_Build2 Dist_Model Main_Model Spec_Main Scripts_Model Spec_Scripts Scripts_Proofs.
From Verif Require Rational_Latex Properties_Dist Properties_Config Properties_Main Main_Proofs.
Import ListNotations.
Local Open Scope Z_scope.
Local Open Scope list_scope.
Local Open Scope res_scope.

(** ---- C100: splitting a search into jobs ---- *)
Lemma dist_ok : forall log2 listdir n k q stem ext items c a b w,
  file_name stem ext -> 0 <= k -> log2 n = Ok q -> (q == inject_Z k)%Q ->
  file_at w (named stem ext) = Some (OConf items) -> load listdir (Some items) = Ok c ->
  ranges_setting c "a_coeffs_range" a -> ranges_setting c "b_coeffs_range" b -> a <> [] -> b <> [] -> bounded (2 ^ 52) (a, b) ->
  k <= halvings (hd [] a) + halvings (hd [] b) ->
  exists w' js, dist_main log2 listdir n (named stem ext) w = (w', Some (Ok tt)) /\
    split_params (a, b) (Z.to_nat k) = Ok js /\ Z.of_nat (length js) = 2 ^ k /\ partition (a, b) js /\
    w_tables w' = w_tables w /\ (forall d, In d (w_dirs w') <-> In d (w_dirs w) \/ d = jobs_dir stem (2 ^ k)) /\
    (forall p, (forall i, 0 <= i < 2 ^ k -> p <> job_file stem ext (2 ^ k) i) -> file_at w' p = file_at w p) /\
    (forall i, 0 <= i < 2 ^ k -> exists its, file_at w' (job_file stem ext (2 ^ k) i) = Some (OConf its)) /\
    forall i j, nth_error js i = Some j -> exists its, file_at w' (job_file stem ext (2 ^ k) (Z.of_nat i)) = Some (OConf its) /\
      (forall name listdir', c_get c "lhs_type" = CLhs name -> load listdir' (Some its) = Raise ValueError) /\
      (c_get c "lhs_type" = CNone -> plain_setting c "ab_polys_special_params" -> plain_setting c "lhs_params" ->
       forall listdir' dir tab, plain_dir dir -> plain tab -> tab <> [] -> table_path c (in_dir dir (tab ++ chars ".pkl")) ->
       (forall h, In h (listdir' dir) -> ~ version_file (part tab (Z.of_nat i)) h) ->
       exists c', load listdir' (Some its) = Ok c' /\ job_of c j (in_dir dir (version (part tab (Z.of_nat i)) 1)) c').
Proof.
  intros log2 listdir n k q stem ext items c a b w FN K LG QK FC L RA RB NA NB BD RM.
  assert (P2 : 0 <= 2 ^ k) by (apply Z.pow_nonneg; lia).
  pose proof (Properties_Dist.C56_split a b (Z.to_nat k) NA NB BD) as SP. cbv zeta in SP. destruct SP as [SP _].
  rewrite Z2Nat.id in SP by exact K. destruct (SP RM) as (js & SJ & LJ & PJ).
  assert (ZL : Z.of_nat (length js) = 2 ^ k) by (rewrite LJ, Nat2Z.inj_pow, Z2Nat.id by exact K; reflexivity).
  set (d := jobs_dir stem (2 ^ k)). set (w1 := if is_dir d w then w else fst (mkdir d w)).
  assert (D1 : forall x, In x (w_dirs w1) <-> In x (w_dirs w) \/ x = d).
  { intros x. unfold w1. destruct (is_dir d w) eqn:E.
    - apply Main_Proofs.is_dir_iff in E. split; [now left|]. intros [I| ->]; assumption.
    - unfold mkdir. rewrite E. cbn [fst w_dirs]. rewrite in_app_iff. cbn. intuition congruence. }
  assert (T1 : w_tables w1 = w_tables w) by (unfold w1, mkdir; destruct (is_dir d w); reflexivity).
  assert (F1 : forall p, file_at w1 p = file_at w p) by (unfold w1, mkdir; destruct (is_dir d w); reflexivity).
  destruct (write_jobs_ok listdir items c L stem ext (2 ^ k) P2 FN js 0 w1 ltac:(lia) (proj2 (D1 _) (or_intror eq_refl))) as (w' & E & T & DD & FS & FO).
  exists w', js. split.
  { unfold dist_main. rewrite (exponent_ok _ _ _ _ LG QK). unfold read_conf. unfold file_at in FC. rewrite FC, L, (loaded_has_all _ _ _ L). cbn [negb].
    cbv zeta. rewrite (dist_dir_eq _ _ _ FN). fold d. fold w1. rewrite (ranges_known _ _ _ RA), (ranges_known _ _ _ RB).
    match goal with |- context [split_params ?x ?y] => change (split_params x y) with (split_params (a, b) (Z.to_nat k)) end. rewrite SJ. fold d in E. now rewrite E. }
  split; [exact SJ|]. split; [exact ZL|]. split; [exact PJ|]. split; [congruence|]. split; [intros x; rewrite DD; apply D1|]. split.
  { intros p P. rewrite FO, F1; [reflexivity|]. intros m M. cbn [Z.add]. apply P. lia. }
  split.
  { intros i I. destruct (nth_error js (Z.to_nat i)) as [j|] eqn:J; [|apply nth_error_None in J; lia].
    destruct (FS _ _ J) as (its & _ & X). cbn [Z.add] in X. rewrite Z2Nat.id in X by lia. eauto. }
  intros i j J. destruct (FS _ _ J) as (its & IT & X). cbn [Z.add] in IT, X. exists its. split; [exact X|]. split.
  - intros name listdir' NL. destruct (job_not_back listdir listdir' items c L (Z.of_nat i) j name NL) as (its' & A & B). congruence.
  - intros NL PS PL listdir' dir tab PD PT NT TP NV.
    destruct (job_back listdir listdir' items c L (Z.of_nat i) j NL (plain_setting_val _ _ PS) (plain_setting_val _ _ PL)) as (its' & hf & op & A & B & C & D).
    assert (its' = its) as -> by congruence. change (cg c K_file) with (c_get c "hashtable_file") in B. rewrite TP in B.
    assert (HF : hf = in_dir dir (tab ++ chars ".pkl")) by congruence.
    destruct (part_plain tab (Z.of_nat i) ltac:(lia) PT) as (QP & QN & QU).
    assert (LS : lower (strip (part_name (Z.of_nat i) hf)) = in_dir dir (part tab (Z.of_nat i) ++ chars ".pkl")).
    { rewrite HF, part_name_eq by assumption. apply plain_path_same. destruct PD as (PD & _). apply Forall_app. split; [exact PD|]. constructor; [auto|].
      apply Forall_app. split; [eapply Forall_impl; [|exact QP]; auto|]. change (chars ".pkl") with ["."%char; "p"%char; "k"%char; "l"%char].
      apply Forall_cons; [right; now left|]. repeat (apply Forall_cons; [left; unfold plain_char; cbn; lia|]). apply Forall_nil. }
    rewrite LS in D. destruct PD as (PD & d' & c0 & -> & C0).
    destruct (gen_spec listdir' (text_eqb op (txt "generate")) (part tab (Z.of_nat i)) _ _ (d' ++ [c0]) _ QP QN QU (cn_pkl _) (po_dir _ d' c0 C0)) as (pat & EP & G).
    pose proof (old_last pat (part tab (Z.of_nat i)) (listdir' (d' ++ [c0])) EP (plain_dot _ QP)) as OL. destruct (rev _) as [|l r].
    + destruct (D _ G) as (c' & LC & H1 & H2 & H3 & H4). exists c'. split; [exact LC|]. split; [exact H2|]. split; [exact H3|]. split; [exact H1|].
      intros key IK NK. apply (H4 (txt key)); [exact IK|]. cbn [In] in *. intros Y. apply NK.
      destruct Y as [Y|[Y|[Y|[]]]]; [right; right; left|left|right; left]; apply (f_equal string_of_list_ascii) in Y;
        unfold K_file, K_a, K_b, txt in Y; rewrite !string_of_list_ascii_of_string in Y; exact Y.
    + exfalso. destruct OL as (O1 & O2 & _). exact (NV _ O1 O2).
Qed.
(** The command of distribute_run.py with a settings file in the current directory: it writes one file for each job and
    nothing else; the jobs are a partition of the search. *)
Theorem C100_job_files : forall log2 listdir n k q stem ext items c a b w,
  file_name stem ext -> 0 <= k -> log2 n = Ok q -> (q == inject_Z k)%Q ->
  file_at w (named stem ext) = Some (OConf items) -> load listdir (Some items) = Ok c ->
  ranges_setting c "a_coeffs_range" a -> ranges_setting c "b_coeffs_range" b -> a <> [] -> b <> [] -> bounded (2 ^ 52) (a, b) ->
  k <= halvings (hd [] a) + halvings (hd [] b) ->
  exists w' js, dist_main log2 listdir n (named stem ext) w = (w', Some (Ok tt)) /\
    Z.of_nat (length js) = 2 ^ k /\ partition (a, b) js /\
    w_tables w' = w_tables w /\ (forall d, In d (w_dirs w') <-> In d (w_dirs w) \/ d = jobs_dir stem (2 ^ k)) /\
    (forall p, (forall i, 0 <= i < 2 ^ k -> p <> job_file stem ext (2 ^ k) i) -> file_at w' p = file_at w p) /\
    (forall i, 0 <= i < 2 ^ k -> exists its, file_at w' (job_file stem ext (2 ^ k) i) = Some (OConf its)) /\
    forall i j, nth_error js i = Some j -> exists its, file_at w' (job_file stem ext (2 ^ k) (Z.of_nat i)) = Some (OConf its) /\
      (** with a left-hand side the settings of the job cannot be read *)
      (forall name listdir', c_get c "lhs_type" = CLhs name -> load listdir' (Some its) = Raise ValueError) /\
      (** without one they are those of the search, for this part of it and with a table of its own *)
      (c_get c "lhs_type" = CNone -> plain_setting c "ab_polys_special_params" -> plain_setting c "lhs_params" ->
       forall listdir' dir tab, plain_dir dir -> plain tab -> tab <> [] -> table_path c (in_dir dir (tab ++ chars ".pkl")) ->
       (forall h, In h (listdir' dir) -> ~ version_file (part tab (Z.of_nat i)) h) ->
       exists c', load listdir' (Some its) = Ok c' /\ job_of c j (in_dir dir (version (part tab (Z.of_nat i)) 1)) c').
Proof.
  intros log2 listdir n k q stem ext items c a b w FN K LG QK FC L RA RB NA NB BD RM.
  destruct (dist_ok log2 listdir n k q stem ext items c a b w FN K LG QK FC L RA RB NA NB BD RM) as (w' & js & D & _ & R). exists w', js. now split.
Qed.
(** A search that cannot be split so often: the directory stays behind, and nothing else changes. *)
Theorem C100_too_many : forall log2 listdir n k q stem ext items c a b w,
  file_name stem ext -> 0 <= k -> log2 n = Ok q -> (q == inject_Z k)%Q ->
  file_at w (named stem ext) = Some (OConf items) -> load listdir (Some items) = Ok c ->
  ranges_setting c "a_coeffs_range" a -> ranges_setting c "b_coeffs_range" b -> a <> [] -> b <> [] -> bounded (2 ^ 52) (a, b) ->
  halvings (hd [] a) + halvings (hd [] b) < k ->
  exists w', dist_main log2 listdir n (named stem ext) w = (w', Some (Raise ValueError)) /\
    w_tables w' = w_tables w /\ w_files w' = w_files w /\ In (jobs_dir stem (2 ^ k)) (w_dirs w').
Proof.
  intros log2 listdir n k q stem ext items c a b w FN K LG QK FC L RA RB NA NB BD RM.
  pose proof (Properties_Dist.C56_split a b (Z.to_nat k) NA NB BD) as SP. cbv zeta in SP. destruct SP as [_ SP].
  rewrite Z2Nat.id in SP by exact K. set (d := jobs_dir stem (2 ^ k)). exists (if is_dir d w then w else fst (mkdir d w)). split.
  { unfold dist_main. rewrite (exponent_ok _ _ _ _ LG QK). unfold read_conf. unfold file_at in FC. rewrite FC, L, (loaded_has_all _ _ _ L). cbn [negb].
    cbv zeta. rewrite (dist_dir_eq _ _ _ FN). fold d. rewrite (ranges_known _ _ _ RA), (ranges_known _ _ _ RB).
    match goal with |- context [split_params ?x ?y] => change (split_params x y) with (split_params (a, b) (Z.to_nat k)) end. now rewrite (SP RM). }
  destruct (is_dir d w) eqn:E; [apply Main_Proofs.is_dir_iff in E; auto|]. unfold mkdir. rewrite E. cbn. split; [reflexivity|]. split; [reflexivity|].
  apply in_or_app. right. now left.
Qed.
(** A number of jobs whose logarithm is not an integer is refused. *)
Theorem C100_not_power : forall log2 listdir n q configfile w, log2 n = Ok q -> (forall k, ~ (q == inject_Z k)%Q) ->
  dist_main log2 listdir n configfile w = (w, Some (Raise ValueError)).
Proof.
  intros log2 listdir n q configfile w LG NK. unfold dist_main, exponent. rewrite LG. cbn [bind].
  destruct (Zpos (Qden (Qred q)) =? 1) eqn:E; [|reflexivity]. apply Z.eqb_eq in E. exfalso. apply (NK (Qnum (Qred q))).
  rewrite <- (Qred_correct q) at 1. unfold Qeq, inject_Z. cbn [Qnum Qden]. now rewrite E.
Qed.
(** run_distributed_configs.py on the directory of the jobs: one command for each of them, provided that the extension of
    the settings file is .ini; no command at all otherwise. *)
Definition command (p : list ascii) : list ascii := chars "start cmd.exe /k python main.py " ++ p.
Lemma ext_of stem ext : file_name stem ext -> snd (splitext (named stem ext)) = chars "." ++ ext.
Proof. intros F. now rewrite (split_named _ _ F). Qed.
Lemma filter_all {A} (f : A -> bool) l : (forall x, In x l -> f x = true) -> filter f l = l.
Proof. induction l as [|x l IH]; intros H; cbn [filter]; [reflexivity|]. rewrite (H x) by now left. rewrite IH by (intros; apply H; now right). reflexivity. Qed.
Theorem C100_started : forall stem ext n is listing, file_name stem ext -> 0 <= n -> Forall (fun i => 0 <= i) is ->
  Permutation listing (map (fun i => named (stem ++ chars "_" ++ int_chars i) ext) is) ->
  (ext = chars "ini" -> Permutation (start_jobs listing (jobs_dir stem n)) (map (fun i => command (job_file stem ext n i)) is)) /\
  (ext <> chars "ini" -> start_jobs listing (jobs_dir stem n) = []).
Proof.
  intros stem ext n is listing F N NI P. rewrite Forall_forall in NI. unfold start_jobs. split.
  - intros ->. assert (FA : filter (fun f => text_eqb (snd (splitext f)) (txt ".ini")) listing = listing).
    { apply filter_all. intros x I. apply (Permutation_in x P) in I. apply in_map_iff in I as (i & <- & I).
      rewrite ext_of by (apply job_name; auto). reflexivity. }
    rewrite FA. eapply perm_trans; [apply Permutation_map; exact P|]. rewrite map_map.
    match goal with |- Permutation ?l ?l' => assert (E : l = l'); [|rewrite E; apply Permutation_refl] end.
    apply map_ext_in. intros i I. unfold command, job_file. f_equal. apply join_name; [now apply dir_end|]. apply named_slash, job_name; auto.
  - intros NE. assert (FA : filter (fun f => text_eqb (snd (splitext f)) (txt ".ini")) listing = []); [|now rewrite FA].
    destruct (filter (fun f => text_eqb (snd (splitext f)) (txt ".ini")) listing) as [|x l] eqn:E; [reflexivity|]. exfalso. assert (I : In x (x :: l)) by now left. rewrite <- E in I.
    apply filter_In in I as [I X]. apply (Permutation_in x P) in I. apply in_map_iff in I as (i & <- & I). rewrite ext_of in X by (apply job_name; auto).
    apply text_eqb_eq in X. apply NE. change (txt ".ini") with (chars "." ++ chars "ini") in X. now apply app_inv_head in X.
Qed.

(** ---- C101: settings files in other directories ---- *)
(** A relative path with a directory: the directory of the jobs is made next to the settings file, but the path of the
    directory is repeated in the names of the jobs: no job is written and the script stops. *)
Theorem C101_relative_fails : forall log2 listdir n k q h stem ext items c a b w,
  dir_path h -> (forall r, h <> "/"%char :: r) -> file_name stem ext -> 0 <= k -> log2 n = Ok q -> (q == inject_Z k)%Q ->
  file_at w (in_dir h (named stem ext)) = Some (OConf items) -> load listdir (Some items) = Ok c ->
  ranges_setting c "a_coeffs_range" a -> ranges_setting c "b_coeffs_range" b -> a <> [] -> b <> [] -> bounded (2 ^ 52) (a, b) ->
  k <= halvings (hd [] a) + halvings (hd [] b) ->
  ~ In (in_dir (jobs_dir (in_dir h stem) (2 ^ k)) h) (w_dirs w) ->
  exists w', dist_main log2 listdir n (in_dir h (named stem ext)) w = (w', Some (Raise RuntimeError)) /\
    w_tables w' = w_tables w /\ w_files w' = w_files w /\ In (jobs_dir (in_dir h stem) (2 ^ k)) (w_dirs w').
Proof.
  intros log2 listdir n k q h stem ext items c a b w DH NS FN K LG QK FC L RA RB NA NB BD RM ND.
  assert (P2 : 0 <= 2 ^ k) by (apply Z.pow_nonneg; lia).
  pose proof (Properties_Dist.C56_split a b (Z.to_nat k) NA NB BD) as SP. cbv zeta in SP. destruct SP as [SP _].
  rewrite Z2Nat.id in SP by exact K. destruct (SP RM) as (js & SJ & LJ & PJ).
  set (d := jobs_dir (in_dir h stem) (2 ^ k)) in *. set (w1 := if is_dir d w then w else fst (mkdir d w)).
  assert (D1 : forall x, In x (w_dirs w1) <-> In x (w_dirs w) \/ x = d).
  { intros x. unfold w1. destruct (is_dir d w) eqn:E.
    - apply Main_Proofs.is_dir_iff in E. split; [now left|]. intros [I| ->]; assumption.
    - unfold mkdir. rewrite E. cbn [fst w_dirs]. rewrite in_app_iff. cbn. intuition congruence. }
  assert (NH : h <> []) by (destruct DH as (h' & c0 & -> & _); destruct h'; discriminate).
  assert (W : write_jobs c (in_dir h (named stem ext)) d 0 js w1 = (w1, Raise RuntimeError)).
  { destruct js as [|j js]; [exfalso; cbn [length] in LJ; pose proof (Nat.pow_nonzero 2 (Z.to_nat k)); lia|]. cbn [write_jobs].
    destruct (items_exist listdir items c L 0 j) as (its & ->). unfold d. rewrite job_path_rel by (assumption || lia). fold d.
    unfold open_write. rewrite split_in; [|destruct DH as (h' & c0 & -> & C0); exists (in_dir d h'), c0; split; [unfold in_dir; now rewrite <- !app_assoc|exact C0]|now apply named_slash, job_name].
    cbn [fst]. assert (NI : is_dir (in_dir d h) w1 = false).
    { apply not_true_is_false. intros X. apply Main_Proofs.is_dir_iff, D1 in X as [X|X]; [contradiction|].
      apply (f_equal (@length ascii)) in X. unfold in_dir in X. rewrite !app_length in X. cbn in X. lia. }
    assert (NN : in_dir d h <> []) by (unfold in_dir; destruct d; discriminate). revert NI NN. destruct (in_dir d h); [contradiction|]. intros ->. reflexivity. }
  exists w1. split.
  { unfold dist_main. rewrite (exponent_ok _ _ _ _ LG QK). unfold read_conf. unfold file_at in FC. rewrite FC, L, (loaded_has_all _ _ _ L). cbn [negb].
    cbv zeta. rewrite (dist_dir_in _ _ _ _ FN). fold d. fold w1. rewrite (ranges_known _ _ _ RA), (ranges_known _ _ _ RB).
    match goal with |- context [split_params ?x ?y] => change (split_params x y) with (split_params (a, b) (Z.to_nat k)) end. rewrite SJ. now rewrite W. }
  split; [unfold w1, mkdir; destruct (is_dir d w); reflexivity|]. split; [unfold w1, mkdir; destruct (is_dir d w); reflexivity|]. apply D1. now right.
Qed.
(** An absolute path: the jobs are written beside the settings file; the directory of the jobs is made but not used. *)
Theorem C101_absolute : forall log2 listdir n k q h stem ext items c a b w,
  dir_path ("/"%char :: h) -> file_name stem ext -> 0 <= k -> log2 n = Ok q -> (q == inject_Z k)%Q ->
  file_at w (in_dir ("/"%char :: h) (named stem ext)) = Some (OConf items) -> load listdir (Some items) = Ok c ->
  ranges_setting c "a_coeffs_range" a -> ranges_setting c "b_coeffs_range" b -> a <> [] -> b <> [] -> bounded (2 ^ 52) (a, b) ->
  k <= halvings (hd [] a) + halvings (hd [] b) -> In ("/"%char :: h) (w_dirs w) ->
  exists w', dist_main log2 listdir n (in_dir ("/"%char :: h) (named stem ext)) w = (w', Some (Ok tt)) /\
    w_tables w' = w_tables w /\ In (jobs_dir (in_dir ("/"%char :: h) stem) (2 ^ k)) (w_dirs w') /\
    (forall i, 0 <= i < 2 ^ k -> exists its, file_at w' (in_dir ("/"%char :: h) (named (stem ++ chars "_" ++ int_chars i) ext)) = Some (OConf its)) /\
    (forall p, (forall i, 0 <= i < 2 ^ k -> p <> in_dir ("/"%char :: h) (named (stem ++ chars "_" ++ int_chars i) ext)) -> file_at w' p = file_at w p).
Proof.
  intros log2 listdir n k q h stem ext items c a b w DH FN K LG QK FC L RA RB NA NB BD RM HD.
  assert (P2 : 0 <= 2 ^ k) by (apply Z.pow_nonneg; lia).
  pose proof (Properties_Dist.C56_split a b (Z.to_nat k) NA NB BD) as SP. cbv zeta in SP. destruct SP as [SP _].
  rewrite Z2Nat.id in SP by exact K. destruct (SP RM) as (js & SJ & LJ & PJ).
  assert (ZL : Z.of_nat (length js) = 2 ^ k) by (rewrite LJ, Nat2Z.inj_pow, Z2Nat.id by exact K; reflexivity).
  set (d := jobs_dir (in_dir ("/"%char :: h) stem) (2 ^ k)) in *. set (w1 := if is_dir d w then w else fst (mkdir d w)).
  assert (D1 : forall x, In x (w_dirs w1) <-> In x (w_dirs w) \/ x = d).
  { intros x. unfold w1. destruct (is_dir d w) eqn:E.
    - apply Main_Proofs.is_dir_iff in E. split; [now left|]. intros [I| ->]; assumption.
    - unfold mkdir. rewrite E. cbn [fst w_dirs]. rewrite in_app_iff. cbn. intuition congruence. }
  assert (F1 : forall p, file_at w1 p = file_at w p) by (unfold w1, mkdir; destruct (is_dir d w); reflexivity).
  destruct (write_jobs_gen listdir items c L (in_dir ("/"%char :: h) (named stem ext)) d ("/"%char :: h)
    (fun i => in_dir ("/"%char :: h) (named (stem ++ chars "_" ++ int_chars i) ext))) with (js := js) (i := 0) (w := w1) as (w' & E & T & DD & FS & FO).
  - intros i _. now apply job_path_abs.
  - intros i f w2 I D. apply open_in; [exact DH|now apply named_slash, job_name|exact D].
  - intros i i' X. unfold in_dir, named in X. apply app_inv_head, app_inv_head, app_inv_tail, app_inv_head, app_inv_head in X. now apply Rational_Latex.z_text_inj.
  - lia.
  - apply D1. now left.
  - exists w'. split.
    { unfold dist_main. rewrite (exponent_ok _ _ _ _ LG QK). unfold read_conf. unfold file_at in FC. rewrite FC, L, (loaded_has_all _ _ _ L). cbn [negb].
      cbv zeta. rewrite (dist_dir_in _ _ _ _ FN). fold d. fold w1. rewrite (ranges_known _ _ _ RA), (ranges_known _ _ _ RB).
      match goal with |- context [split_params ?x ?y] => change (split_params x y) with (split_params (a, b) (Z.to_nat k)) end. rewrite SJ. now rewrite E. }
    split; [rewrite T; unfold w1, mkdir; destruct (is_dir d w); reflexivity|]. split; [rewrite DD; apply D1; now right|]. split.
    + intros i I. destruct (nth_error js (Z.to_nat i)) as [j|] eqn:J; [|apply nth_error_None in J; lia].
      destruct (FS _ _ J) as (its & _ & X). cbn [Z.add] in X. rewrite Z2Nat.id in X by lia. eauto.
    + intros p P. rewrite FO, F1; [reflexivity|]. intros m M. cbn [Z.add]. apply P. lia.
Qed.

(** ---- C102: joining the tables of a directory ---- *)
(** The output file holds the first object of the directory, with the entries of all tables one after the other; nothing
    else changes, and it does not matter whether the output file existed. *)
Theorem C102_join : forall w listing d out s ss, tables_built w -> dir_path d -> bare listing -> held w d listing (s :: ss) ->
  (forall s', In s' ss -> h_acc (mi_table (sv_mitm s')) = h_acc (mi_table (sv_mitm s))) ->
  exists w' t, join_main listing d out w = (w', Ok tt) /\
    table_at w' out = Some {| sv_mitm := with_table (sv_mitm s) t; sv_gen := sv_gen s |} /\
    (forall p, p <> out -> table_at w' p = table_at w p) /\ w_dirs w' = w_dirs w /\ w_files w' = w_files w /\ tables_built w' /\
    h_acc t = h_acc (mi_table (sv_mitm s)) /\
    forall q l, Properties_MITM.entries t (KNum q) l <->
      exists ls, Forall2 (fun s' l' => Properties_MITM.entries (mi_table (sv_mitm s')) (KNum q) l') (s :: ss) ls /\ l = concat ls.
Proof.
  intros w listing d out s ss B D N H A. rewrite (join_main_tables _ _ _ _ _ _ B D N H).
  assert (BS : Forall (fun s' => built (sv_mitm s')) (s :: ss)).
  { apply Forall_forall. intros s' I. clear A. revert I. generalize dependent (s :: ss). intros l H I. induction H as [|n l0 s0 l P T H IH|n l0 l P H IH]; [destruct I| |].
    - inversion N; subst. destruct I as [->|I]; [exact (B _ _ (Main_Proofs.table_in _ _ _ T))|auto].
    - inversion N; subst. auto. }
  assert (PT : Forall p_table (tables_of (s :: ss))).
  { unfold tables_of. apply Forall_map. eapply Forall_impl; [|exact BS]. intros s' Q. exact (proj1 (built_p _ Q)). }
  destruct (Properties_Dist.join_at (tables_of (s :: ss))) as (j & J1 & J2 & J3); [discriminate|exact PT| |].
  { assert (G : forall t, In t (tables_of (s :: ss)) -> h_acc t = h_acc (mi_table (sv_mitm s))).
    { intros t I. apply in_map_iff in I as (s' & <- & [->|I]); auto. }
    intros a b Ia Ib. now rewrite (G a Ia), (G b Ib). }
  rewrite J1. eexists. exists j. split; [reflexivity|]. split; [unfold table_at, write_table; cbn [w_tables]; apply (d_get_set_same _ text_eqb_eq)|]. split.
  { intros p P. unfold table_at, write_table. cbn [w_tables]. now apply (d_get_set_other _ text_eqb_eq). }
  split; [reflexivity|]. split; [reflexivity|]. split.
  { intros p x I. cbn [w_tables write_table] in I. apply Main_Proofs.d_set_in in I as [I|[_ ->]]; [exact (B _ _ I)|]. cbn [sv_mitm].
    inversion BS as [|? ? B1 B2]; subst. apply (join_built (map sv_mitm ss) (sv_mitm s) j B1); [now apply Forall_map|]. rewrite <- J1. unfold tables_of. cbn [map]. now rewrite map_map. }
  split; [exact (join_acc _ _ _ J1)|].
  intros q l. assert (TK : Forall (fun s' => table_ok (mi_table (sv_mitm s'))) (s :: ss)).
  { eapply Forall_impl; [|exact BS]. intros s' Q. exact (proj1 (proj1 (built_p _ Q))). }
  rewrite (Properties_MITM.entries_at _ _ _ (proj1 J2)), J3. unfold tables_of. rewrite map_map. split.
  - intros ->. eexists. split; [|reflexivity]. clear - TK. induction TK; cbn [map]; constructor; [now apply Properties_MITM.entries_at|exact IHTK].
  - intros (ls & F & ->). f_equal. clear - TK F. revert ls F. induction TK as [|x l TX TK IH]; intros ls F; inversion F as [|? y ? ls' F1 F2]; subst; cbn [map]; [reflexivity|].
    f_equal; [|now apply IH]. now apply (Properties_MITM.entries_at _ _ _ TX).
Qed.
(** A directory without tables: an IndexError. *)
Theorem C102_empty : forall w listing d out, dir_path d -> bare listing -> held w d listing [] -> join_main listing d out w = (w, Raise IndexError).
Proof.
  intros w listing d out D N H. apply held_files in H; [|assumption..]. inversion H as [E|]; subst. unfold join_main. now rewrite <- E.
Qed.
(** Tables of different precisions are not joined; no file is written. *)
Theorem C102_precisions : forall w listing d out s ss s', tables_built w -> dir_path d -> bare listing -> held w d listing (s :: ss) ->
  In s' ss -> h_acc (mi_table (sv_mitm s')) <> h_acc (mi_table (sv_mitm s)) -> join_main listing d out w = (w, Raise TypeError).
Proof.
  intros w listing d out s ss s' B D N H I A. rewrite (join_main_tables _ _ _ _ _ _ B D N H). cbn [tables_of map]. rewrite join_mismatch; [reflexivity|].
  exists (mi_table (sv_mitm s')). split; [|exact A]. apply in_map_iff. eauto.
Qed.
(** When the output lies in the directory itself and is listed first, joining a second time doubles all entries. *)
Theorem C102_twice : forall w listing d o s ss w1, tables_built w -> dir_path d -> bare (o :: listing) -> pkl_name o -> ~ In o listing -> held w d listing (s :: ss) ->
  (forall s', In s' ss -> h_acc (mi_table (sv_mitm s')) = h_acc (mi_table (sv_mitm s))) ->
  join_main listing d (in_dir d o) w = (w1, Ok tt) ->
  exists w2 s1 s2, join_main (o :: listing) d (in_dir d o) w1 = (w2, Ok tt) /\ table_at w1 (in_dir d o) = Some s1 /\ table_at w2 (in_dir d o) = Some s2 /\
    forall q l1 l2, Properties_MITM.entries (mi_table (sv_mitm s1)) (KNum q) l1 -> Properties_MITM.entries (mi_table (sv_mitm s2)) (KNum q) l2 -> l2 = l1 ++ l1.
Proof.
  intros w listing d o s ss w1 B D N P NI H A J. inversion N as [|? ? N1 N2]; subst.
  destruct (C102_join w listing d (in_dir d o) s ss B D N2 H A) as (w1' & t & J' & T1 & O1 & _ & _ & B1 & A1 & E1). rewrite J in J'. injection J' as <-.
  assert (H1 : held w1 d (o :: listing) ({| sv_mitm := with_table (sv_mitm s) t; sv_gen := sv_gen s |} :: s :: ss)).
  { apply held_pkl; [exact P|exact T1|]. clear A E1 J. clear N T1. revert O1 NI N2 H. generalize (s :: ss). intros l O1 NI N2 H.
    induction H as [|n l0 s0 l Q T H IH|n l0 l Q H IH]; [constructor| |]; inversion N2; subst.
    - apply held_pkl; [exact Q| |apply IH; [intros I; apply NI; now right|assumption]]. rewrite O1; [exact T|].
      unfold in_dir. intros X. apply app_inv_head, app_inv_head in X. subst n. apply NI. now left.
    - apply held_other; [exact Q|]. apply IH; [intros I; apply NI; now right|assumption]. }
  destruct (C102_join w1 (o :: listing) d (in_dir d o) _ _ B1 D N H1) as (w2 & t2 & J2 & T2 & _ & _ & _ & _ & _ & E2).
  { intros s' [<-|I]; cbn [sv_mitm with_table mi_table]; [now rewrite A1|]. rewrite A1. now apply A. }
  exists w2. do 2 eexists. split; [exact J2|]. split; [exact T1|]. split; [exact T2|]. cbn [sv_mitm with_table mi_table].
  intros q l1 l2 L1 L2. apply E2 in L2 as (ls2 & F2 & ->). inversion F2 as [|? x ? ls3 X1 X2]; subst. cbn [sv_mitm with_table mi_table] in X1.
  assert (BT : table_ok t).
  { pose proof (B1 _ _ (Main_Proofs.table_in _ _ _ T1)) as Q. cbn [sv_mitm] in Q. exact (proj1 (proj1 (built_p _ Q))). }
  apply (Properties_MITM.entries_at _ _ _ BT) in X1. pose proof (proj1 (Properties_MITM.entries_at _ _ _ BT) L1) as Y. subst x. rewrite <- Y.
  cbn [concat]. f_equal. assert (L3 : Properties_MITM.entries t (KNum q) (concat ls3)) by (apply E1; eauto).
  apply (Properties_MITM.entries_at _ _ _ BT) in L3. congruence.
Qed.
(** ---- examples ---- *)
Definition log2_ex (n : Z) : res Q := if n =? 4 then Ok 2%Q else if n =? 2 then Ok 1%Q else if n =? 8 then Ok 3%Q else if n =? 3 then Ok (1585 # 1000)%Q else Raise ValueError.
Definition no_files (d : text) : list text := [].
(** Ranges for four a polynomials; with or without a left-hand side. *)
Definition jobs_conf (lhs : bool) : list (text * text) :=
  filter (fun kv => lhs || negb (text_eqb (fst kv) (txt "lhs_type") || text_eqb (fst kv) (txt "lhs_params")))
    (Properties_Main.conf_ex "pi" "generate" "auto" "[[[1, 5], [1, 2]]]" "[""lambda x: x""]" Properties_Main.one_lhs).
Definition jobs_world (lhs : bool) : world := {| w_tables := []; w_dirs := []; w_files := [(txt "config.ini", OConf (jobs_conf lhs))] |}.
Definition jobs_config (lhs : bool) : config := match load no_files (Some (jobs_conf lhs)) with Ok c => c | Raise _ => [] end.
Lemma jobs_hyps lhs : file_name (chars "config") (chars "ini") /\ file_at (jobs_world lhs) (named (chars "config") (chars "ini")) = Some (OConf (jobs_conf lhs)) /\
  load no_files (Some (jobs_conf lhs)) = Ok (jobs_config lhs) /\ ranges_setting (jobs_config lhs) "a_coeffs_range" [[(1, 5); (1, 2)]] /\
  ranges_setting (jobs_config lhs) "b_coeffs_range" [[(1, 2)]] /\ bounded (2 ^ 52) ([[(1, 5); (1, 2)]], [[(1, 2)]]) /\
  halvings (hd [] [[(1, 5); (1, 2)]]) + halvings (hd [] [[(1, 2)]]) = 2.
Proof.
  split; [|split; [reflexivity|split; [destruct lhs; vm_compute; reflexivity|split; [destruct lhs; vm_compute; reflexivity|split; [destruct lhs; vm_compute; reflexivity|split; [|reflexivity]]]]]].
  - split; [cbn; intuition discriminate|]. split; [cbn; intuition discriminate|]. split; [cbn; intuition discriminate|]. exists "c"%char. split; [now left|discriminate].
  - intros p r HP HR. cbn in HP. repeat (destruct HP as [<-|HP]; [cbn in HR; repeat (destruct HR as [<-|HR]; [cbn; lia|]); destruct HR|]). destruct HP.
Qed.
Example C100_ex : exists w' its c', dist_main log2_ex no_files 4 (chars "config.ini") (jobs_world false) = (w', Some (Ok tt)) /\
  In (chars "config_dist_4") (w_dirs w') /\ file_at w' (chars "config_dist_4/config_2.ini") = Some (OConf its) /\
  load no_files (Some its) = Ok c' /\ table_path c' (chars "./pi_v1_part02_v1.pkl") /\ ranges_setting c' "a_coeffs_range" [[(3, 4); (1, 2)]] /\
  start_jobs (map (fun i => named (chars "config_" ++ int_chars i) (chars "ini")) [0; 1; 2; 3]) (chars "config_dist_4") =
    map command [chars "config_dist_4/config_0.ini"; chars "config_dist_4/config_1.ini"; chars "config_dist_4/config_2.ini"; chars "config_dist_4/config_3.ini"] /\
  snd (dist_main log2_ex no_files 8 (chars "config.ini") (jobs_world false)) = Some (Raise ValueError) /\
  snd (dist_main log2_ex no_files 3 (chars "config.ini") (jobs_world false)) = Some (Raise ValueError).
Proof.
  eexists. eexists. eexists. split; [vm_compute; reflexivity|]. split; [vm_compute; auto|]. split; [vm_compute; reflexivity|]. split; [vm_compute; reflexivity|].
  repeat split; vm_compute; reflexivity.
Qed.
(** The jobs of a search with a left-hand side, such as the one of the settings file that comes with the program, cannot
    be run: their settings are refused. *)
Theorem C100_jobs_run_refuted : exists log2 listdir stem ext items c w w', file_name stem ext /\ file_at w (named stem ext) = Some (OConf items) /\
  load listdir (Some items) = Ok c /\ c_get c "lhs_type" <> CNone /\ dist_main log2 listdir 4 (named stem ext) w = (w', Some (Ok tt)) /\
  forall i, 0 <= i < 4 -> exists its, file_at w' (job_file stem ext 4 i) = Some (OConf its) /\
    forall v listdir' w2, run v listdir' (Some its) w2 = (w2, Some (Raise ValueError)).
Proof.
  destruct (jobs_hyps true) as (H1 & H2 & H3 & H4 & H5 & H6 & H7).
  destruct (C100_job_files log2_ex no_files 4 2 2%Q _ _ _ _ _ _ _ H1 ltac:(lia) eq_refl ltac:(reflexivity) H2 H3 H4 H5 ltac:(discriminate) ltac:(discriminate) H6 ltac:(rewrite H7; lia))
    as (w' & js & D & LJ & _ & _ & _ & _ & _ & J). change (2 ^ 2) with 4 in *.
  exists log2_ex, no_files, (chars "config"), (chars "ini"), (jobs_conf true), (jobs_config true), (jobs_world true), w'.
  split; [exact H1|]. split; [exact H2|]. split; [exact H3|]. split; [vm_compute; discriminate|]. split; [exact D|]. intros i I.
  destruct (nth_error js (Z.to_nat i)) as [j|] eqn:E; [|apply nth_error_None in E; lia]. destruct (J _ _ E) as (its & F & NL & _). rewrite Z2Nat.id in F by lia.
  exists its. split; [exact F|]. intros v listdir' w2. unfold run, main. rewrite (NL (txt "ulcd") listdir'); [reflexivity|]. vm_compute. reflexivity.
Qed.
Example C101_ex : snd (dist_main log2_ex no_files 4 (chars "sub/config.ini") {| w_tables := []; w_dirs := [chars "sub"]; w_files := [(txt "sub/config.ini", OConf (jobs_conf false))] |}) = Some (Raise RuntimeError) /\
  (let w' := fst (dist_main log2_ex no_files 2 (chars "/sub/config.ini") {| w_tables := []; w_dirs := [chars "/sub"]; w_files := [(txt "/sub/config.ini", OConf (jobs_conf false))] |}) in
   w_dirs w' = [chars "/sub"; chars "/sub/config_dist_2"] /\ map fst (w_files w') = [chars "/sub/config.ini"; chars "/sub/config_0.ini"; chars "/sub/config_1.ini"]).
Proof. vm_compute. auto. Qed.
(** The script says that it aborts when the output file exists, but it goes on and overwrites it. *)
Theorem C102_existing_kept_refuted : exists w listing d out s w', tables_built w /\ dir_path d /\ bare listing /\ table_at w out = Some s /\
  join_main listing d out w = (w', Ok tt) /\ table_at w' out <> Some s.
Proof.
  destruct (Properties_Main.has_keys Properties_Main.w1 "./pi_v1.pkl" 2) as (s1 & T1 & K1); [vm_compute; reflexivity|].
  destruct (Properties_Main.has_keys Properties_Main.w2 "./pi_v1.pkl" 3) as (s2 & T2 & K2); [vm_compute; reflexivity|].
  set (w := {| w_tables := [(txt "jobs/a.pkl", s1); (txt "out.pkl", s2)]; w_dirs := []; w_files := [] |}).
  assert (B : tables_built w).
  { intros p s [I|[I|[]]]; injection I as <- <-.
    - exact (proj1 (Main_Proofs.history_both _ Properties_Main.h1) _ _ (Main_Proofs.table_in _ _ _ T1)).
    - exact (proj1 (Main_Proofs.history_both _ Properties_Main.h2) _ _ (Main_Proofs.table_in _ _ _ T2)). }
  assert (D : dir_path (txt "jobs")) by (exists (txt "job"), "s"%char; split; [reflexivity|discriminate]).
  assert (N : bare [txt "a.pkl"]) by (constructor; [cbn; intuition discriminate|constructor]).
  assert (H : held w (txt "jobs") [txt "a.pkl"] [s1]).
  { apply held_pkl; [exists (txt "a"); split; [reflexivity|exists "a"%char; split; [now left|discriminate]]|reflexivity|constructor]. }
  exists w, [txt "a.pkl"], (txt "jobs"), (txt "out.pkl"), s2. eexists. split; [exact B|]. split; [exact D|]. split; [exact N|]. split; [reflexivity|].
  split; [rewrite (join_main_tables _ _ _ _ _ _ B D N H); reflexivity|].
  unfold table_at, write_table. cbn [w_tables]. rewrite (d_get_set_same _ text_eqb_eq). intros X. injection X as X. subst s2. cbn in K2. congruence.
Qed.
Example C102_ex : exists w listing d s ss, tables_built w /\ dir_path d /\ bare listing /\ held w d listing (s :: ss) /\ ss <> [] /\ length listing = 3%nat /\
  (forall s', In s' ss -> h_acc (mi_table (sv_mitm s')) = h_acc (mi_table (sv_mitm s))).
Proof.
  destruct (Properties_Main.has_keys Properties_Main.w1 "./pi_v1.pkl" 2) as (s1 & T1 & K1); [vm_compute; reflexivity|].
  set (w := {| w_tables := [(txt "jobs/a.pkl", s1); (txt "jobs/b.pkl", s1)]; w_dirs := []; w_files := [] |}).
  exists w, [txt "a.pkl"; txt "readme.txt"; txt "b.pkl"], (txt "jobs"), s1, [s1]. split; [|split; [|split; [|split; [|split; [discriminate|split; [reflexivity|intros s' [<-|[]]; reflexivity]]]]]].
  - intros p s [I|[I|[]]]; injection I as <- <-; exact (proj1 (Main_Proofs.history_both _ Properties_Main.h1) _ _ (Main_Proofs.table_in _ _ _ T1)).
  - exists (txt "job"), "s"%char; split; [reflexivity|discriminate].
  - repeat constructor; cbn; intuition discriminate.
  - apply held_pkl; [exists (txt "a"); split; [reflexivity|exists "a"%char; split; [now left|discriminate]]|reflexivity|].
    apply held_other; [intros (x & E & _); apply (f_equal (@rev ascii)) in E; rewrite rev_app_distr in E; discriminate E|].
    apply held_pkl; [exists (txt "b"); split; [reflexivity|exists "b"%char; split; [now left|discriminate]]|reflexivity|constructor].
Qed.

Print Assumptions C100_job_files.
Print Assumptions C100_too_many.
Print Assumptions C100_not_power.
Print Assumptions C100_started.
Print Assumptions C101_relative_fails.
Print Assumptions C101_absolute.
Print Assumptions C102_join.
Print Assumptions C102_empty.
Print Assumptions C102_precisions.
Print Assumptions C102_twice.
Print Assumptions C100_jobs_run_refuted.
Print Assumptions C102_existing_kept_refuted.

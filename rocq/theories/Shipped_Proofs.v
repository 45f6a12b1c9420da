(** Proofs about the configuration files that come with the program. *)
From Coq Require Import Ascii String ZArith QArith List Bool Lia Permutation.
From Verif Require Import PyBase PyBase_Proofs Rnd ContFrac_Model Hashtable_Model Hashtable_Proofs ULCD_Model Rational_Model MITM_Model Results_Model
  Config_Model Consts_Model Main_Model Shipped_Model Spec_MITM Spec_Config Spec_Rational Spec_Main Main_Proofs Properties_Main.
From Verif Require Import Rnd_Proofs.
From Coq Require Import Lqa.
From Verif Require Import Spec_ULCD Spec_Enum.
From Verif Require Enum_Model Properties_MITM Properties_Enum Properties_Config.
Import ListNotations.
Local Open Scope Z_scope.
Local Open Scope list_scope.

(** ---- settings that the model covers ---- *)
(** The types that the program expects. *)
Record typed (c : config) : Prop := {
  ty_i : as_garg (c_get c "i") <> None;
  ty_filter : as_ints (c_get c "postproc_funcs_filter") <> None;
  ty_hprec : as_int (c_get c "hashtable_precision") <> None;
  ty_class : exists cl, c_get c "ab_polys_type" = CPoly cl;
  ty_special : as_special (c_get c "ab_polys_special_params") <> None;
  ty_iters : as_int (c_get c "hashtable_num_of_iterations") <> None;
  ty_a : as_ranges (c_get c "a_coeffs_range") <> None;
  ty_b : as_ranges (c_get c "b_coeffs_range") <> None;
  ty_path : as_path (c_get c "hashtable_file") <> None;
  ty_f : forall k, In k ["first_filtering_num_of_iterations"; "first_filtering_precision"; "second_filtering_max_num_of_iterations";
    "second_filtering_precision"; "third_filtering_max_num_of_iterations"; "third_filtering_precision"]%string -> as_int (c_get c k) <> None;
  ty_lhs : c_get c "lhs_type" = CLhs (txt "rationalfunc") /\ as_rational (c_get c "lhs_params") <> None \/
    c_get c "lhs_type" = CLhs (txt "ulcd") /\ as_ulcd (c_get c "lhs_params") <> None }.
Lemma search_typed {O} v rd (cls : MITM_Model.lhs_class O) lat par funcs trunc enum c y x w : typed c ->
  snd (search_in v rd cls lat par funcs trunc enum c y x w) <> None.
Proof.
  intros T. unfold search_in, search. destruct (find_clicks _ _ _ _ _) as [s1 [[]|e]]; [|discriminate].
  pose proof (ty_f c T) as F.
  destruct (as_int (c_get c "first_filtering_num_of_iterations")) eqn:E1; [|exfalso; eapply F; [|exact E1]; cbn; tauto].
  destruct (as_int (c_get c "first_filtering_precision")) eqn:E2; [|exfalso; eapply F; [|exact E2]; cbn; tauto].
  destruct (as_int (c_get c "second_filtering_max_num_of_iterations")) eqn:E3; [|exfalso; eapply F; [|exact E3]; cbn; tauto].
  destruct (as_int (c_get c "second_filtering_precision")) eqn:E4; [|exfalso; eapply F; [|exact E4]; cbn; tauto].
  destruct (as_int (c_get c "third_filtering_max_num_of_iterations")) eqn:E5; [|exfalso; eapply F; [|exact E5]; cbn; tauto].
  destruct (as_int (c_get c "third_filtering_precision")) eqn:E6; [|exfalso; eapply F; [|exact E6]; cbn; tauto].
  match goal with |- context [match ?z with (_, _) => _ end] => destruct z as [cs [[]|e]] end; [|discriminate].
  match goal with |- context [match ?z with (_, _) => _ end] => destruct z as [cs2 [[]|e]] end; [|discriminate].
  match goal with |- context [match ?z with (_, _) => _ end] => destruct z as [w2 r2] end. discriminate.
Qed.
Lemma run_typed v c m0 w : typed c -> snd (run_with v c m0 w) <> None.
Proof.
  intros T. unfold run_with, main_with. destruct (has_all c); [|discriminate]. cbn [negb].
  destruct (as_garg (c_get c "i")) as [i|] eqn:EI; [|now destruct (ty_i c T)].
  fold (choose v). destruct (choose v (c_get c "const") i) as [[g name]|e] eqn:EC; [|discriminate].
  assert (ST : forall m, exists st, settings_of (v_sq v) c name m = Some st).
  { intros m. unfold settings_of. pose proof (ty_filter c T). pose proof (ty_hprec c T). pose proof (ty_special c T). destruct (ty_class c T) as (cl & CL). rewrite CL.
    destruct (as_ints _); [|congruence]. destruct (as_int _); [|congruence]. destruct (as_special _); [|congruence]. eexists; reflexivity. }
  fold (obtain_in v). destruct (obtain_in v c g name m0 w) as [[[[m g1] x]|e]|] eqn:EO; [|discriminate|].
  - fold (extend_in v). fold (is_use c). fold (fae_in v).
    destruct (if is_use c then (w, Some (Ok x)) else extend_in v c m g1 x w) as [w1 [[x1|e]|]] eqn:EX; [|discriminate|].
    + destruct (truthy _); [discriminate|]. unfold fae_in, find_and_export. destruct (ty_lhs c T) as [[L P]|[L P]]; rewrite L; (destruct (call0 g1 m) as [m1 [y|e]]; [|discriminate]).
      * change (text_eqb (txt "rationalfunc") (txt "ulcd")) with false. cbv iota.
        destruct (as_rational _) as [p|]; [|congruence]. destruct INVERSE_POSTPROC_PAIRS as [inv|e] eqn:EI2; [|exfalso; vm_compute in EI2; discriminate].
        apply search_typed, T.
      * change (text_eqb (txt "ulcd") (txt "ulcd")) with true. cbv iota. destruct (as_ulcd _) as [p|]; [|congruence]. apply search_typed, T.
    + destruct (is_use c); [congruence|]. unfold extend_in, extend in EX. pose proof (ty_a c T). pose proof (ty_b c T). pose proof (ty_path c T).
      destruct (as_ranges (c_get c "a_coeffs_range")); [|congruence]. destruct (as_ranges (c_get c "b_coeffs_range")); [|congruence]. destruct (as_path _); [|congruence].
      destruct (build_hashtable _ _ _ _ _ _ _ _ _ _) as [? [[]|]]; [|discriminate]. destruct (ht_set _ _ _ _) as [? [[]|]]; discriminate.
  - exfalso. unfold obtain_in, obtain in EO. pose proof (ty_path c T) as TP. pose proof (ty_iters c T) as TI.
    destruct (c_get c "hashtable_file_operation") as [| | |op| | |]; try discriminate. destruct (as_path _) as [path|]; [|congruence].
    destruct (existsb _ _).
    + destruct (d_get text_eqb (w_tables w) path) as [s|]; [|discriminate]. destruct (text_eqb op (txt "expand")); [|discriminate].
      destruct (ST (set_dps DECIMAL_PREC)) as (st & E). rewrite E in EO. discriminate.
    + destruct (text_eqb op (txt "generate")); [|discriminate]. destruct (ST (set_dps DECIMAL_PREC)) as (st & E). rewrite E in EO. destruct (as_int _); [discriminate|congruence].
Qed.

(** ---- the shipped files when they are loaded ---- *)
(** The settings, for a given name of the table file. *)
Definition conf (f : list (text * text)) (p : text) : res config :=
  match cast_all f [] with
  | Ok c1 => match set_postproc (d_set text_eqb (fill c1) (txt "hashtable_file") (CStr p)) with Ok c3 => check_operation c3 | Raise e => Raise e end
  | Raise e => Raise e
  end.
Definition item (f : list (text * text)) (k : string) : text := match d_get text_eqb f (txt k) with Some v => v | None => [] end.
Definition all_shipped (P : list (text * text) -> Prop) : Prop := forall n f, In (n, f) shipped -> P f.
Definition files : list (list (text * text)) :=
  [ini_default; ini_apery; ini_apery_extend_hashtable; ini_e_search_m4_to_5; ini_e_search_inter_cubic; ini_e_search_inter_lin;
   ini_pi_m4_to_5; ini_pi_interlaced_cubic; ini_pi_interlaced_linear; ini_pi_search_m4_to_5; ini_pi_search_inter_cubic; ini_pi_search_inter_lin].
Lemma in_files n f : In (n, f) shipped -> In f files.
Proof. intros H. apply (in_map snd) in H. exact H. Qed.
Definition parsed (f : list (text * text)) : bool :=
  match cast_all f [] with
  | Ok c1 => match c_get (fill c1) "hashtable_file", c_get (fill c1) "hashtable_file_operation" with
             | CStr a, CStr b => text_eqb a (item f "hashtable_file") && text_eqb b (item f "hashtable_file_operation")
             | _, _ => false
             end
  | _ => false
  end.
Lemma files_parsed : forallb parsed files = true.
Proof. vm_compute. reflexivity. Qed.
Lemma load_parsed listdir f : parsed f = true -> load listdir (Some f) =
  match gen_hashtable_filename listdir (text_eqb (item f "hashtable_file_operation") (txt "generate")) (item f "hashtable_file") with Ok p => conf f p | Raise e => Raise e end.
Proof.
  intros P. unfold parsed in P. unfold load, conf. destruct (cast_all f []) as [c1|e]; [|discriminate].
  cbn [bind]. unfold set_hashtable_file. destruct (c_get (fill c1) "hashtable_file"); try discriminate. destruct (c_get (fill c1) "hashtable_file_operation"); try discriminate.
  apply andb_true_iff in P as [P1 P2]. apply text_eqb_eq in P1 as ->. apply text_eqb_eq in P2 as ->.
  destruct (gen_hashtable_filename _ _ _) as [p|e]; [|reflexivity]. cbn [bind]. destruct (set_postproc _); reflexivity.
Qed.
Lemma load_shipped listdir f : In f files -> load listdir (Some f) =
  match gen_hashtable_filename listdir (text_eqb (item f "hashtable_file_operation") (txt "generate")) (item f "hashtable_file") with Ok p => conf f p | Raise e => Raise e end.
Proof. intros I. apply load_parsed, (proj1 (forallb_forall _ _) files_parsed f I). Qed.
Definition plainly (c : config) : Prop := exists i s, as_garg (c_get c "i") = Some i /\ c_get c "const" = CStr s /\ In s (map txt ["pi"; "e"; "apery"]%string).
Record usable (f : list (text * text)) (p : text) (c : config) : Prop := {
  us_conf : conf f p = Ok c;
  us_typed : typed c;
  us_lhs : c_get c "lhs_type" = CLhs (txt "rationalfunc");
  us_all : has_all c = true;
  us_path : table_path c p;
  us_const : plainly c;
  us_op : c_get c "hashtable_file_operation" = CStr (item f "hashtable_file_operation");
  us_only : truthy (c_get c "gen_hashtable_only") = negb (text_eqb (item f "hashtable_file_operation") (txt "use"));
  us_rat : exists r1 r2 r3 s1 s2 s3, as_rational (c_get c "lhs_params") = Some ([r1; r2; r3], [s1; s2; s3], true) /\
    Forall (fun lh => fst lh <= 0 /\ 1 < snd lh) [r1; r2; r3; s1; s2; s3] }.
Definition is_some {A} (x : option A) : bool := match x with Some _ => true | None => false end.
Definition typedb (c : config) : bool :=
  is_some (as_garg (c_get c "i")) && is_some (as_ints (c_get c "postproc_funcs_filter")) && is_some (as_int (c_get c "hashtable_precision")) &&
  match c_get c "ab_polys_type" with CPoly _ => true | _ => false end && is_some (as_special (c_get c "ab_polys_special_params")) &&
  is_some (as_int (c_get c "hashtable_num_of_iterations")) && is_some (as_ranges (c_get c "a_coeffs_range")) && is_some (as_ranges (c_get c "b_coeffs_range")) &&
  is_some (as_path (c_get c "hashtable_file")) && forallb (fun k => is_some (as_int (c_get c k)))
    ["first_filtering_num_of_iterations"; "first_filtering_precision"; "second_filtering_max_num_of_iterations";
     "second_filtering_precision"; "third_filtering_max_num_of_iterations"; "third_filtering_precision"]%string &&
  match c_get c "lhs_type" with
  | CLhs n => text_eqb n (txt "rationalfunc") && is_some (as_rational (c_get c "lhs_params")) || text_eqb n (txt "ulcd") && is_some (as_ulcd (c_get c "lhs_params"))
  | _ => false
  end.
Lemma typedb_ok c : typedb c = true -> typed c.
Proof.
  assert (S : forall A (x : option A), is_some x = true -> x <> None) by (intros A [x|]; [discriminate|intros [=]]).
  unfold typedb. intros H. repeat (apply andb_true_iff in H; destruct H as [H ?]). constructor; auto.
  - destruct (c_get c "ab_polys_type"); try discriminate. eauto.
  - intros k K. rewrite forallb_forall in *. auto.
  - destruct (c_get c "lhs_type") as [| | | | | |n]; try discriminate.
    match goal with X : _ || _ = true |- _ => apply orb_true_iff in X as [X|X]; apply andb_true_iff in X as [X1 X2]; apply text_eqb_eq in X1 as -> end; auto.
Qed.
Definition ratb (c : config) : bool :=
  match as_rational (c_get c "lhs_params") with
  | Some ([r1; r2; r3], [s1; s2; s3], true) => forallb (fun lh => (fst lh <=? 0) && (1 <? snd lh)) [r1; r2; r3; s1; s2; s3]
  | _ => false
  end.
Definition usableb (f : list (text * text)) (c : config) : bool :=
  typedb c && has_all c && match c_get c "const" with CStr s => existsb (text_eqb s) (map txt ["pi"; "e"; "apery"]%string) | _ => false end &&
  match c_get c "hashtable_file_operation" with CStr s => text_eqb s (item f "hashtable_file_operation") | _ => false end &&
  Bool.eqb (truthy (c_get c "gen_hashtable_only")) (negb (text_eqb (item f "hashtable_file_operation") (txt "use"))) && ratb c &&
  match c_get c "lhs_type" with CLhs n => text_eqb n (txt "rationalfunc") | _ => false end.
Lemma usableb_ok f p c : conf f p = Ok c -> table_path c p -> usableb f c = true -> usable f p c.
Proof.
  intros E TP H. unfold usableb in H. do 6 (apply andb_true_iff in H; destruct H as [H ?]). pose proof (typedb_ok c H) as T. constructor; auto.
  - destruct (c_get c "lhs_type"); try discriminate. f_equal. now apply text_eqb_eq.
  - unfold plainly. pose proof (ty_i c T). destruct (as_garg (c_get c "i")) as [i|]; [|congruence]. destruct (c_get c "const") as [| | |s| | |]; try discriminate.
    exists i, s. split; [reflexivity|]. split; [reflexivity|]. match goal with X : existsb _ _ = true |- _ => apply existsb_exists in X as (s' & I & X); apply text_eqb_eq in X as -> end. exact I.
  - destruct (c_get c "hashtable_file_operation"); try discriminate. f_equal. now apply text_eqb_eq.
  - now apply eqb_prop.
  - unfold ratb in *. destruct (as_rational (c_get c "lhs_params")) as [[[[|r1 [|r2 [|r3 [|r4 l]]]] [|s1 [|s2 [|s3 [|s4 l']]]]] []]|]; try discriminate.
    exists r1, r2, r3, s1, s2, s3. split; [reflexivity|]. apply Forall_forall. intros x I.
    match goal with X : forallb _ _ = true |- _ => rewrite forallb_forall in X; specialize (X x I); apply andb_true_iff in X as [X1 X2] end.
    apply Z.leb_le in X1. apply Z.ltb_lt in X2. split; assumption.
Qed.
Lemma files_usable p : forallb (fun f => match conf f p with Ok c => usableb f c | Raise _ => false end) files = true.
Proof. vm_compute. reflexivity. Qed.
Lemma conf_path f p c : In f files -> conf f p = Ok c -> table_path c p.
Proof.
  intros I E. assert (X : map (fun f => match conf f p with Ok c => Some (c_get c "hashtable_file") | Raise _ => None end) files = map (fun _ => Some (CStr p)) files)
    by (vm_compute; reflexivity).
  assert (Y : forall l g h, map g l = map h l -> forall x : list (text * text), In x l -> g x = h x :> option cval).
  { induction l as [|y l IH]; intros g h EE x J; [destruct J|]. cbn [map] in EE. injection EE as E1 E2. destruct J as [<-|J]; [exact E1|now apply (IH g h)]. }
  pose proof (Y _ _ _ X f I) as Z. cbn beta in Z. rewrite E in Z. now injection Z.
Qed.
Lemma conf_usable f p : In f files -> exists c, usable f p c.
Proof.
  intros I. pose proof (proj1 (forallb_forall _ _) (files_usable p) f I) as B. cbn beta in B. destruct (conf f p) as [c|e] eqn:E; [|discriminate].
  exists c. apply usableb_ok; auto. now apply (conf_path f).
Qed.

(** ---- C123: runs with the shipped files ---- *)
(** The operation and the table of a file. *)
Definition op_of (f : list (text * text)) : text := item f "hashtable_file_operation".
Lemma files_ops : forallb (fun f => existsb (text_eqb (op_of f)) (map txt ["use"; "generate"; "expand"]%string)) files = true.
Proof. vm_compute. reflexivity. Qed.
Lemma run_conf v listdir f w : In f files ->
  (exists e, run v listdir (Some f) w = (w, Some (Raise e))) \/
  exists p c, usable f p c /\ run v listdir (Some f) w = run_with v c import_ctx w /\
    gen_hashtable_filename listdir (text_eqb (op_of f) (txt "generate")) (item f "hashtable_file") = Ok p.
Proof.
  intros I. unfold run, main. rewrite (load_shipped _ f I). fold (op_of f). destruct (gen_hashtable_filename _ _ _) as [p|e]; [|left; eexists; reflexivity].
  destruct (conf_usable f p I) as (c & U). rewrite (us_conf _ _ _ U). right. exists p, c. split; [exact U|]. split; reflexivity.
Qed.
Lemma raised v c m0 w w' r : typed c -> run_with v c m0 w = (w', r) -> r <> Some (Ok tt) -> exists e, r = Some (Raise e).
Proof.
  intros T H N. pose proof (run_typed v c m0 w T) as X. rewrite H in X. cbn [snd] in X. destruct r as [[[]|e]|]; [congruence|eauto|congruence].
Qed.
Lemma rational_some c r1 r2 r3 s1 s2 s3 : as_rational (c_get c "lhs_params") = Some ([r1; r2; r3], [s1; s2; s3], true) ->
  Forall (fun lh => fst lh <= 0 /\ 1 < snd lh) [r1; r2; r3; s1; s2; s3] -> some_rational c.
Proof.
  intros R F. repeat match goal with H : Forall _ (_ :: _) |- _ => apply Forall_cons_iff in H; destruct H as [? H] end.
  exists [r1; r2; r3], [s1; s2; s3], true, [0; 1; 0], [1; 0; 0]. split; [exact R|].
  split; [repeat constructor; lia|]. split; [repeat constructor; lia|]. split; [exists 1; cbn; lia|]. split; [exists 1; cbn; lia|].
  intros lp lq (P1 & P2 & P3) (Q1 & Q2 & Q3).
  assert (lp = 2%nat) as ->.
  { destruct lp as [|[|[|[|lp]]]]; [exfalso; specialize (P2 1%nat ltac:(lia)); discriminate P2|exfalso; specialize (P2 1%nat ltac:(lia)); discriminate P2|reflexivity| |cbn in P1; lia].
    destruct P3 as [P3|P3]; [discriminate|]. now cbn in P3. }
  split; [lia|]. intros _. destruct lq as [|[|[|[|lq]]]]; [lia|lia|lia| |cbn in Q1; lia]. destruct Q3 as [Q3|Q3]; [discriminate|]. now cbn in Q3.
Qed.
Lemma fold_pos p l : 1 <= p -> Forall (fun ab => 0 < fst ab /\ 0 < snd ab)%Q l -> forall r, (0 < r)%Q -> exists q, foldM (eval_step (rnd p)) l r = Ok q /\ (0 < q)%Q.
Proof.
  intros P. induction l as [|[a b] l IH]; intros F r R; [exists r; split; [reflexivity|exact R]|]. apply Forall_cons_iff in F as [[A B] F].
  cbn [foldM]. unfold eval_step at 1. destruct (Qeq_bool r 0) eqn:E; [apply Qeq_bool_iff in E; rewrite E in R; discriminate R|]. cbn [bind]. apply IH; [exact F|].
  unfold radd, rdiv. apply rnd_pos; [exact P|]. cbn [fst snd] in *.
  assert (0 < rnd p (b / r))%Q by (apply rnd_pos; [exact P|apply Qlt_shift_div_l; [exact R|now rewrite Qmult_0_l]]). lra.
Qed.
Definition posb (x : res Q) : bool := match x with Ok q => 0 <? Qnum q | Raise _ => false end.
Lemma mapM_pos {A} (f : A -> res Q) l : forallb (fun x => posb (f x)) l = true -> exists r, mapM f l = Ok r /\ Forall (fun q => 0 < q)%Q r.
Proof.
  induction l as [|x l IH]; cbn [forallb]; intros H; [exists []; split; [reflexivity|constructor]|]. apply andb_true_iff in H as [H1 H2]. destruct (IH H2) as (r & E & F).
  unfold posb in H1. cbn [mapM]. destruct (f x) as [q|e]; [|discriminate]. cbn [bind]. rewrite E. cbn [bind]. exists (q :: r). split; [reflexivity|]. constructor; [|exact F].
  apply Z.ltb_lt in H1. unfold Qlt. cbn. lia.
Qed.
Lemma mapM_length {A B} (f : A -> res B) l r : mapM f l = Ok r -> length l = length r.
Proof.
  revert r. induction l as [|a l IH]; cbn [mapM]; intros r H; [now injection H as <-|].
  destruct (f a); [|discriminate H]. cbn [bind] in H. destruct (mapM f l) eqn:E; [|discriminate H]. cbn [bind] in H. injection H as <-.
  cbn [length]. f_equal. now apply IH.
Qed.
Lemma ones_pos p : p = [1; 0; 0] \/ p = [1; 0] -> exists q, cf_value (rnd bits50) 200 ([p], [p]) = Ok q /\ ~ (q == 0)%Q.
Proof.
  intros P. set (l := map (map (fun i => rnd bits50 (inject_Z i))) [p]).
  assert (F : forallb (fun i => posb (coef_at_r (rnd bits50) l i)) (zrange 0 200) = true) by (destruct P as [-> | ->]; vm_compute; reflexivity).
  destruct (mapM_pos _ _ F) as (av & EA & FA).
  assert (F1 : forallb (fun i => posb (coef_at_r (rnd bits50) l i)) (zrange 1 200) = true).
  { change (zrange 0 200) with (0 :: zrange 1 200) in F. cbn [forallb] in F. now apply andb_true_iff in F as [_ F]. }
  destruct (mapM_pos _ _ F1) as (bv & EB & FB).
  assert (L1 : length av = 200%nat) by (rewrite <- (mapM_length _ _ _ EA); reflexivity).
  assert (L2 : length bv = 199%nat) by (rewrite <- (mapM_length _ _ _ EB); reflexivity).
  assert (X : exists q, eval_contfrac (rnd bits50) av (Some bv) = Ok q /\ (0 < q)%Q).
  { unfold eval_contfrac. rewrite L1, L2. cbn [Nat.eqb Nat.add]. change (Nat.eqb 200 199) with false. change (Nat.eqb 200 (199 + 1)) with true. cbv iota.
    apply fold_pos; [vm_compute; discriminate| |].
    - apply Forall_forall. intros [x y] I. split; [apply in_combine_l in I; apply in_rev in I|apply in_combine_r in I; apply in_rev in I]; cbn [fst snd].
      + rewrite Forall_forall in FA. apply FA. rewrite (app_removelast_last 0%Q) by (intros ->; discriminate L1). apply in_or_app. now left.
      + rewrite Forall_forall in FB. now apply FB.
    - rewrite Forall_forall in FA. apply FA. rewrite (app_removelast_last (l := av) 0%Q) at 2 by (intros ->; discriminate L1). apply in_or_app. right. now left. }
  destruct X as (q & E & Q). exists q. split; [|intros H; rewrite H in Q; discriminate Q].
  unfold cf_value, eval_dec_contfrac_by_polys. cbn [fst snd norm_coeffs bind]. fold l. rewrite EA. cbn [bind]. rewrite EB. exact E.
Qed.
(** The tables that the shipped files ask for cannot be made: their functions include the inverse, and their ranges the
    fraction 1 + 1/(1 + 1/(1 + ...)). *)
Record makes (c : config) : Prop := {
  mk_class : c_get c "ab_polys_type" = CPoly PNormal;
  mk_special : exists sp, as_special (c_get c "ab_polys_special_params") = Some sp;
  mk_funcs : exists is, ints_setting c "postproc_funcs_filter" is /\ In 1 is;
  mk_iters : c_get c "hashtable_num_of_iterations" = CInt 200;
  mk_ranges : exists ra rb p k, ranges_setting c "a_coeffs_range" ra /\ ranges_setting c "b_coeffs_range" rb /\ (p = [1; 0; 0] \/ p = [1; 0]) /\
    (k = 0%nat \/ k = 1%nat) /\ in_ranges ra (repeat p (S k)) /\ in_ranges rb (repeat p (S k)) }.
Lemma collapse_ones p k : k = 0%nat \/ k = 1%nat -> Spec_Enum.collapses (repeat p (S k)) [p].
Proof. intros [-> | ->]; [right; split; [intros q n E; discriminate E|reflexivity]|left; exists p, 0%nat; split; reflexivity]. Qed.
Lemma ones_degree p d : p = [1; 0; 0] \/ p = [1; 0] -> Spec_Enum.is_degree p d -> d = 0.
Proof.
  intros P [[_ F]|(D & N & _)]; [exfalso; destruct P as [-> | ->]; apply Forall_cons_iff in F as [F _]; discriminate F|].
  destruct (Z.eq_dec d 0) as [E|E]; [exact E|]. exfalso. apply N. assert (exists m, Z.to_nat d = S m) as (m & ->) by (exists (Z.to_nat (d - 1)); lia).
  destruct P as [-> | ->]; destruct m as [|[|[|m]]]; reflexivity.
Qed.
Lemma cannot_make v c m0 w w' r : env_ok v -> makes c -> operation c "generate" -> run_with v c m0 w = (w', r) -> w' = w /\ r <> Some (Ok tt).
Proof.
  intros VO [M1 [sp M2] (is & M3 & M3') M4 (ra & rb & p & k & RA & RB & P & K & IA & IB)] G H.
  set (x := {| mi_enum := {| en_class := PNormal; en_special := sp |}; mi_iters := 200; mi_exp_only := true; mi_target := 0%Q; mi_name := []; mi_filter := is;
    mi_trunc := true; mi_hprec := 8; mi_prec := 50; mi_table := mkHtab 8 [] []; mi_funcs := []; mi_params := [] |} : mitm Empty_set).
  destruct (Properties_MITM.C48_pairs Empty_set (rnd bits50) (v_fsqrt v) (v_ibinom v) (v_masks v) (v_target v) x ra rb eq_refl) as (pairs & E & HP).
  destruct (ones_pos p P) as (q & EV & NQ).
  eapply (C93_generate v c m0 w w' r PNormal sp is 1 200 pairs ([p], [p]) q); try eassumption; try lia.
  - cbn. intuition lia.
  - exists ra, rb, x. repeat split; assumption.
  - apply HP. exists (repeat p (S k)), (repeat p (S k)). repeat split; try assumption; try (now apply collapse_ones).
    + intros b IB'. apply repeat_spec in IB'. subst b.
      destruct P as [-> | ->]; [apply (Properties_Enum.C28_constants (v_fsqrt v) 0 2 1); lia|apply (Properties_Enum.C28_constants (v_fsqrt v) 0 1 1); lia].
    + intros _ a b da db [= <-] [= <-] DA DB. apply (ones_degree p) in DA; [|exact P]. apply (ones_degree p) in DB; [|exact P]. lia.
Qed.
Ltac makes1 := constructor; [vm_compute; reflexivity|eexists; vm_compute; reflexivity|exists [1; 0; 2; 3; 10; 11]; split; [vm_compute; reflexivity|now left]|vm_compute; reflexivity|].
Ltac inr1 := split; [|split; [|split; [auto|split; [auto|]]]]; [vm_compute; reflexivity|vm_compute; reflexivity|].
Lemma makes_normal p : exists c, conf ini_pi_m4_to_5 p = Ok c /\ makes c.
Proof.
  eexists. split; [vm_compute; reflexivity|]. makes1. set (r := [[(-7, 8); (-7, 8); (-7, 8)]]). exists r, r, [1; 0; 0], 0%nat. inr1.
  split; repeat (constructor; cbn; try lia).
Qed.
Lemma makes_cubic p : exists c, conf ini_pi_interlaced_cubic p = Ok c /\ makes c.
Proof.
  eexists. split; [vm_compute; reflexivity|]. makes1. set (q := [(-2, 2); (-2, 2); (-2, 2)]). set (r := [q; q]). exists r, r, [1; 0; 0], 1%nat. inr1.
  split; repeat (constructor; cbn; try lia).
Qed.
Lemma makes_linear p : exists c, conf ini_pi_interlaced_linear p = Ok c /\ makes c.
Proof.
  eexists. split; [vm_compute; reflexivity|]. makes1. set (q := [(-4, 4); (-4, 4)]). set (r := [q; q]). exists r, r, [1; 0], 1%nat. inr1.
  split; repeat (constructor; cbn; try lia).
Qed.
Definition makers : list (list (text * text)) := [ini_pi_m4_to_5; ini_pi_interlaced_cubic; ini_pi_interlaced_linear].
Definition users : list (list (text * text)) :=
  [ini_default; ini_apery; ini_e_search_m4_to_5; ini_e_search_inter_cubic; ini_e_search_inter_lin; ini_pi_search_m4_to_5; ini_pi_search_inter_cubic; ini_pi_search_inter_lin].
Lemma makers_make f p c : In f makers -> conf f p = Ok c -> makes c.
Proof.
  intros I E. assert (X : exists c', conf f p = Ok c' /\ makes c').
  { cbn [makers In] in I. destruct I as [<-|[<-|[<-|[]]]]; [apply makes_normal|apply makes_cubic|apply makes_linear]. }
  destruct X as (c' & E' & M). rewrite E in E'. now injection E' as ->.
Qed.
Lemma makers_op : forallb (fun f => text_eqb (op_of f) (txt "generate")) makers = true.
Proof. vm_compute. reflexivity. Qed.
Lemma users_op : forallb (fun f => text_eqb (op_of f) (txt "use")) users = true.
Proof. vm_compute. reflexivity. Qed.
Lemma extender : map snd (filter (fun x => text_eqb (fst x) (txt "config_apery_extend_hashtable.ini")) shipped) = [ini_apery_extend_hashtable].
Proof. vm_compute. reflexivity. Qed.
Lemma others : map snd (filter (fun x => negb (text_eqb (fst x) (txt "config_apery_extend_hashtable.ini"))) shipped) =
  [ini_default; ini_apery; ini_e_search_m4_to_5; ini_e_search_inter_cubic; ini_e_search_inter_lin;
   ini_pi_m4_to_5; ini_pi_interlaced_cubic; ini_pi_interlaced_linear; ini_pi_search_m4_to_5; ini_pi_search_inter_cubic; ini_pi_search_inter_lin].
Proof. vm_compute. reflexivity. Qed.
Lemma sorts n f : In (n, f) shipped -> (In f users \/ In f makers) \/ n = txt "config_apery_extend_hashtable.ini" /\ f = ini_apery_extend_hashtable.
Proof.
  intros I. destruct (text_eqb n (txt "config_apery_extend_hashtable.ini")) eqn:E.
  - right. pose proof E as E0. apply text_eqb_eq in E0. split; [exact E0|].
    assert (J : In f [ini_apery_extend_hashtable]); [|destruct J as [<-|[]]; reflexivity].
    rewrite <- extender. apply in_map_iff. exists (n, f). split; [reflexivity|]. apply filter_In. split; [exact I|]. cbn [fst]. exact E.
  - left. assert (J : In f [ini_default; ini_apery; ini_e_search_m4_to_5; ini_e_search_inter_cubic; ini_e_search_inter_lin;
      ini_pi_m4_to_5; ini_pi_interlaced_cubic; ini_pi_interlaced_linear; ini_pi_search_m4_to_5; ini_pi_search_inter_cubic; ini_pi_search_inter_lin]).
    { rewrite <- others. apply in_map_iff. exists (n, f). split; [reflexivity|]. apply filter_In. split; [exact I|]. cbn [fst]. now rewrite E. }
    cbn [In] in J. unfold users, makers. cbn [In]. tauto.
Qed.
Lemma users_files f : In f users \/ In f makers -> In f files.
Proof. unfold users, makers, files. cbn [In]. tauto. Qed.
Lemma world_eq w w' : w_tables w' = w_tables w -> w_files w' = w_files w -> w_dirs w' = w_dirs w -> w' = w.
Proof. destruct w, w'. cbn. now intros -> -> ->. Qed.

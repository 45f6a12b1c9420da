(** C63 (cleaning a table) and C64 (indexed constants). *)
From Coq Require Import Ascii String ZArith QArith List Bool Lia.
From Verif Require Import PyBase PyBase_Proofs Rnd ContFrac_Model Hashtable_Model Hashtable_Proofs MITM_Model Tools_Model Spec_Tools
  Tools_Proofs Consts_Model Enum_Model Spec_Enum Enum_Roots Properties_Enum.
Import ListNotations.
Local Open Scope Z_scope.
Local Open Scope list_scope.

(** ---- C63 ---- *)
(** A table with settings and text keys that address themselves: the new file holds the cleaned table, with the test of
    the code for integer roots, and no other file is touched. *)
Theorem C63_clean : forall eng fsqrt p (files : list (text * mtable)) (t : mtable),
  d_get text_eqb files p = Some t ->
  NoDup (map fst (h_data t)) -> self_addressed t -> entry_lists (h_data t) ->
  (forall k, In k (map fst (h_data t)) -> exists s, k = KStr s) ->
  In (KStr (txt "parameters")) (map fst (h_data t)) ->
  exists (files' : list (text * mtable)) (t' : mtable),
    fix_main eng fsqrt p files = (files', Ok tt) /\
    d_get text_eqb files' (fixed_name p) = Some t' /\
    cleaned (fun ab => exists b, In b (snd ab) /\ has_integer_roots fsqrt b = true) (h_data t) (h_data t') /\
    h_acc t' = h_acc t /\ h_hist t' = h_hist t /\
    forall p', p' <> fixed_name p -> d_get text_eqb files' p' = d_get text_eqb files p'.
Proof.
  intros eng fsqrt p files t F ND SA EL TX P. unfold fix_main. rewrite F, (fix_table_ok eng fsqrt t ND SA EL TX P).
  eexists _, _. split; [reflexivity|]. split; [apply (d_get_set_same _ text_eqb_eq)|].
  split; [|split; [reflexivity|split; [reflexivity|]]].
  - cbn [with_data h_data]. pose proof (clean_spec fsqrt (h_data t) EL) as C.
    assert (EQ : forall ab, b_roots fsqrt ab = true <-> exists b, In b (snd ab) /\ has_integer_roots fsqrt b = true)
      by (intros ab; unfold b_roots; apply existsb_exists).
    revert C. generalize (clean fsqrt (h_data t)). generalize (h_data t).
    assert (K : forall l l', kept (fun ab => b_roots fsqrt ab = true) l l' ->
      kept (fun ab => exists b, In b (snd ab) /\ has_integer_roots fsqrt b = true) l l').
    { intros l l' H. induction H.
      - constructor.
      - apply kp_good; [rewrite <- EQ; assumption|assumption].
      - apply kp_bad; [apply EQ; assumption|assumption]. }
    intros d d' H. induction H.
    + constructor.
    + now apply cl_settings.
    + apply cl_keep; auto.
    + apply cl_drop; auto.
  - intros p' N. apply (d_get_set_other _ text_eqb_eq). exact N.
Qed.
(** The input file is never overwritten. *)
Theorem C63_input_kept : forall eng fsqrt p (files : list (text * mtable)),
  fixed_name p <> p /\ d_get text_eqb (fst (fix_main eng fsqrt p files)) p = d_get text_eqb files p /\
  (forall e, snd (fix_main eng fsqrt p files) = Raise e -> fst (fix_main eng fsqrt p files) = files).
Proof.
  intros eng fsqrt p files. pose proof (fixed_name_neq p) as N. split; [exact N|]. unfold fix_main.
  destruct (d_get text_eqb files p) as [t|] eqn:E; [|split; [exact E|reflexivity]].
  destruct (fix_table eng fsqrt t) as [t'|e]; cbn [fst snd].
  - split; [|discriminate]. rewrite (d_get_set_other _ text_eqb_eq); [exact E|]. intros C; apply N; symmetry; exact C.
  - split; [exact E|reflexivity].
Qed.
(** The name of the output: _fixed before the extension. *)
Theorem C63_name : forall dir base c ext,
  (dir = [] \/ exists d, dir = d ++ txt "/") -> ~ In "/"%char base -> ~ In "/"%char ext -> ~ In "."%char ext ->
  c <> "."%char -> c <> "/"%char ->
  fixed_name (dir ++ c :: base ++ txt "." ++ ext) = dir ++ c :: base ++ txt "_fixed" ++ txt "." ++ ext.
Proof.
  intros dir base c ext _ NB NE NED C1 C2. unfold fixed_name, splitext.
  assert (R : rev (dir ++ c :: base ++ txt "." ++ ext) = rev ext ++ "."%char :: rev base ++ c :: rev dir).
  { rewrite rev_app_distr. cbn [rev]. rewrite !rev_app_distr. change (rev (txt ".")) with ["."%char].
    rewrite <- !app_assoc. reflexivity. }
  rewrite R, splitext_rev_app by (rewrite <- in_rev; assumption). cbn [splitext_rev].
  replace (is_char "." "/") with false by reflexivity. replace (is_char "." ".") with true by reflexivity.
  rewrite has_stem_app.
  - cbn [fst snd]. rewrite rev_app_distr. cbn [rev]. rewrite !rev_involutive, app_nil_r, <- !app_assoc. reflexivity.
  - cbn [has_stem]. destruct (is_char c "/") eqn:E; [apply Ascii.eqb_eq in E; contradiction|].
    destruct (is_char c ".") eqn:E2; [apply Ascii.eqb_eq in E2; contradiction|reflexivity].
  - rewrite <- in_rev. exact NB.
Qed.
(** A table without settings is refused; so is every table with a number among its keys, which is what every table
    built by the program has. *)
Theorem C63_no_settings : forall eng fsqrt p (files : list (text * mtable)) (t : mtable), d_get text_eqb files p = Some t ->
  ~ In (KStr (txt "parameters")) (map fst (h_data t)) -> fix_main eng fsqrt p files = (files, Raise ValueError).
Proof.
  intros eng fsqrt p files t F N. unfold fix_main. rewrite F. unfold fix_table.
  change (KStr (txt "parameters")) with params_key in *. unfold d_keys. now rewrite (list_remove_none _ N).
Qed.
Theorem C63_numbers_refuted : forall fsqrt p (files : list (text * mtable)) (t : mtable) q, d_get text_eqb files p = Some t ->
  In (KNum q) (map fst (h_data t)) -> exists e, fix_main eng_pinned fsqrt p files = (files, Raise e).
Proof.
  intros fsqrt p files t q F I. unfold fix_main. rewrite F. unfold fix_table, d_keys. fold params_key.
  destruct (list_remove params_key (map fst (h_data t))) as [ks|e] eqn:E; [|cbn [bind]; eauto]. cbn [bind].
  assert (IK : In (KNum q) ks).
  { clear F. revert ks E I. induction (map fst (h_data t)) as [|k r IH]; intros ks E I; [destruct I|].
    cbn [list_remove] in E. destruct (rawkey_eqb params_key k) eqn:EK.
    - apply RK in EK. injection E as <-. destruct I as [->|I]; [discriminate|exact I].
    - destruct (list_remove params_key r) as [r'|] eqn:ER; [|discriminate]. injection E as <-.
      destruct I as [->|I]; [now left|right; now apply IH]. }
  destruct (fix_keys_num eng_pinned fsqrt ks t q (fun _ => eq_refl) IK) as (t' & e & ->). cbn [bind]. eauto.
Qed.
(** With b polynomials of degree one (times a power of the variable) the entries that go are exactly those with a
    positive integer root. *)
Definition simple_b (b : list Z) : Prop :=
  exists k j c0 c1, b = repeat 0 k ++ [c0; c1] ++ repeat 0 j /\ c0 <> 0 /\ c1 <> 0 /\ Z.abs c0 < 2 ^ 53 /\ Z.abs c1 < 2 ^ 53.
Theorem C63_clean_linear : forall eng fsqrt p (files : list (text * mtable)) (t : mtable),
  d_get text_eqb files p = Some t ->
  NoDup (map fst (h_data t)) -> self_addressed t -> entry_lists (h_data t) ->
  (forall k, In k (map fst (h_data t)) -> exists s, k = KStr s) ->
  In (KStr (txt "parameters")) (map fst (h_data t)) ->
  (forall k l ab i b, In (k, VList l) (h_data t) -> In (TEnt ab i) l -> In b (snd ab) -> simple_b b) ->
  exists t' : mtable, d_get text_eqb (fst (fix_main eng fsqrt p files)) (fixed_name p) = Some t' /\
    cleaned (fun ab => exists b x, In b (snd ab) /\ 0 < x /\ pval b x = 0) (h_data t) (h_data t').
Proof.
  intros eng fsqrt p files t F ND SA EL TX P LB.
  destruct (C63_clean eng fsqrt p files t F ND SA EL TX P) as (files' & t' & E & G & C & _).
  exists t'. rewrite E. split; [exact G|]. clear E G F ND SA EL TX P.
  assert (EQ : forall ab : abpair, (forall b, In b (snd ab) -> simple_b b) ->
    (exists b, In b (snd ab) /\ has_integer_roots fsqrt b = true) <-> exists b x, In b (snd ab) /\ 0 < x /\ pval b x = 0).
  { intros ab H. split.
    - intros (b & I & R). destruct (H b I) as (k & j & c0 & c1 & -> & N0 & N1 & B0 & B1).
      apply C28_linear in R; try assumption. destruct R as (x & L & R). exists (repeat 0 k ++ [c0; c1] ++ repeat 0 j), x. auto.
    - intros (b & x & I & L & R). exists b. split; [exact I|]. destruct (H b I) as (k & j & c0 & c1 & -> & N0 & N1 & B0 & B1).
      apply C28_linear; try assumption. eauto. }
  assert (K : forall l l', (forall ab i, In (TEnt ab i) l -> forall b, In b (snd ab) -> simple_b b) ->
    kept (fun ab => exists b, In b (snd ab) /\ has_integer_roots fsqrt b = true) l l' ->
    kept (fun ab => exists b x, In b (snd ab) /\ 0 < x /\ pval b x = 0) l l').
  { intros l l' HB H. induction H.
    - constructor.
    - apply kp_good; [rewrite <- EQ; [assumption|apply (HB ab i); now left]|]. apply IHkept. intros ab' i' I. apply (HB ab' i'). now right.
    - apply kp_bad; [apply EQ; [apply (HB ab i); now left|assumption]|]. apply IHkept. intros ab' i' I. apply (HB ab' i'). now right. }
  induction C.
  - constructor.
  - apply cl_settings. apply IHC. intros; eapply LB; eauto. right; eassumption.
  - apply cl_keep; try assumption.
    + apply K; [|assumption]. intros ab i I b Ib. eapply LB; [now left|exact I|exact Ib].
    + apply IHC. intros; eapply LB; eauto. right; eassumption.
  - apply cl_drop; try assumption.
    + apply K; [|assumption]. intros ab i I b Ib. eapply LB; [now left|exact I|exact Ib].
    + apply IHC. intros; eapply LB; eauto. right; eassumption.
Qed.
(** For quadratics the test is another one (C29): an entry with a root stays. *)
Definition quad_table : mtable :=
  mkHtab 12 [] [(KStr (txt "0.5"), VList [TEnt ([[1]], [[6; -5; 1]]) 0]); (KStr (txt "parameters"), VOne TParams)].
Theorem C63_quadratic_refuted : forall eng fsqrt, good_sqrt (2 ^ 43) fsqrt ->
  exists p (files : list (text * mtable)) (t t' : mtable), d_get text_eqb files p = Some t /\ snd (fix_main eng fsqrt p files) = Ok tt /\
    d_get text_eqb (fst (fix_main eng fsqrt p files)) (fixed_name p) = Some t' /\
    (exists k l ab i, In (k, VList l) (h_data t') /\ In (TEnt ab i) l /\ exists b x, In b (snd ab) /\ 0 < x /\ pval b x = 0).
Proof.
  intros eng fsqrt HS.
  assert (R : has_integer_roots fsqrt [6; -5; 1] = false).
  { destruct (has_integer_roots fsqrt [6; -5; 1]) eqn:E; [|reflexivity]. exfalso.
    change [6; -5; 1] with (repeat 0 0 ++ [6; -5; 1] ++ repeat 0 0) in E.
    apply C29_quadratic in E; try lia; try assumption. destruct E as [x Hx]. nia. }
  exists (txt "t.pkl"), [(txt "t.pkl", quad_table)], quad_table, quad_table. split; [reflexivity|].
  assert (F : fix_table eng fsqrt quad_table = Ok quad_table).
  { rewrite fix_table_ok.
    - unfold clean, clean_item, sieve, quad_table. cbn [h_data flat_map fst snd filter with_data].
      unfold b_roots. cbn [snd existsb]. rewrite R. reflexivity.
    - repeat constructor; cbn; intuition discriminate.
    - intros s I N. split; [|intros a []]. cbn in I. destruct I as [I|[I|[]]]; injection I as <-; [reflexivity|]. now destruct N.
    - intros k v I N. cbn in I. destruct I as [I|[I|[]]]; injection I as <- <-.
      + eexists. split; [reflexivity|]. intros x [<-|[]]. eauto.
      + now destruct N.
    - intros k I. cbn in I. destruct I as [<-|[<-|[]]]; eauto.
    - right. now left. }
  unfold fix_main. cbn [d_get]. rewrite (proj2 (text_eqb_eq _ _) eq_refl), F.
  split; [reflexivity|]. split; [apply (d_get_set_same _ text_eqb_eq)|].
  eexists _, _, _, _. split; [left; reflexivity|]. split; [left; reflexivity|]. exists [6; -5; 1], 2.
  split; [left; reflexivity|]. split; [lia|reflexivity].
Qed.
(** Joined tables may have a key of an older accuracy beside a longer one; then the list of the longer one is not
    cleaned. *)
Definition joined_table : mtable :=
  mkHtab 12 [3] [(KStr (txt "0.12"), VList [TEnt ([[1]], [[1; 1]]) 0]); (KStr (txt "0.1234"), VList [TEnt ([[1]], [[-2; 1]]) 0]);
                 (KStr (txt "parameters"), VOne TParams)].
Theorem C63_old_keys_refuted : forall eng fsqrt,
  exists p (files : list (text * mtable)) (t' : mtable), snd (fix_main eng fsqrt p files) = Ok tt /\
    d_get text_eqb (fst (fix_main eng fsqrt p files)) (fixed_name p) = Some t' /\
    (exists k l ab i, In (k, VList l) (h_data t') /\ In (TEnt ab i) l /\ exists b, In b (snd ab) /\ has_integer_roots fsqrt b = true).
Proof.
  intros eng fsqrt. exists (txt "t.pkl"), [(txt "t.pkl", joined_table)], joined_table.
  split; [reflexivity|]. split; [reflexivity|]. eexists _, _, _, _. split; [right; left; reflexivity|].
  split; [left; reflexivity|]. exists [-2; 1]. split; [left; reflexivity|]. vm_compute. reflexivity.
Qed.
Example C63_ex : let t := mkHtab 12 [3] [(KStr (txt "0.5"), VList [TEnt ([[1]], [[-2; 1]]) 0; TEnt ([[1]], [[2; 1]]) 0; TEnt ([[2]], [[1]; [-6; 2]]) 1]);
                                         (KStr (txt "0.71"), VList [TEnt ([[3]], [[-4; 2]]) 0]); (KStr (txt "parameters"), VOne TParams)] in
  self_addressed t /\ fix_main eng_pinned isqrt53 (txt "a/t.pkl") [(txt "a/t.pkl", t)] =
  ([(txt "a/t.pkl", t); (txt "a/t_fixed.pkl", mkHtab 12 [3] [(KStr (txt "0.5"), VList [TEnt ([[1]], [[2; 1]]) 0]); (KStr (txt "parameters"), VOne TParams)])], Ok tt).
Proof.
  cbn zeta. split.
  - intros s I N. cbn in I. destruct I as [I|[I|[I|[]]]]; injection I as <-; try (split; [reflexivity|intros a [<-|[]]; left; reflexivity]).
    now destruct N.
  - vm_compute. reflexivity.
Qed.

(** ---- C64 ---- *)
(** The generators with an index: gen_percolation_consts, gen_feig_consts, gen_zeta_consts. *)
Definition takes_index (b : gbody) : Prop := b = GList percolation_consts \/ b = GList feig_consts \/ b = GDict zeta_consts.
(** Called with the index alone they raise TypeError, after having made the index the number of working digits. *)
Theorem C64_index_taken_for_precision : forall b m i, takes_index b ->
  snd (call_gen b [GInt i] m) = Raise TypeError /\
  (i <> 0 -> mp_dps (fst (call_gen b [GInt i] m)) = Z.max 1 i) /\ (i = 0 -> fst (call_gen b [GInt i] m) = m).
Proof.
  intros b m i H. unfold call_gen. cbn [tl fst snd set_precision]. split; [|split].
  - destruct H as [-> | [-> | ->]]; reflexivity.
  - intros N. rewrite (proj2 (Z.eqb_neq _ _) N). reflexivity.
  - intros ->. reflexivity.
Qed.
(** No single argument works; with a precision (or None) before the index they do. *)
Theorem C64_needs_two : forall b m args q, takes_index b -> snd (call_gen b args m) = Ok q ->
  exists prec i, args = [prec; GInt i] /\
    exists c, q = rnd (mp_prec (fst (call_gen b args m))) c /\
      match b with GList l => py_nth l i = Ok c | GDict l => d_get Z.eqb l i = Some c | GConst _ => False end.
Proof.
  intros b m args q H E. destruct args as [|prec [|x [|y r]]].
  - destruct H as [-> | [-> | ->]]; discriminate.
  - destruct H as [-> | [-> | ->]]; discriminate.
  - unfold call_gen in *. cbn [tl fst snd] in *. exists prec. destruct H as [-> | [-> | ->]]; destruct x as [|i]; cbn [call_body] in E; try discriminate.
    + exists i. split; [reflexivity|]. destruct (py_nth percolation_consts i) as [c|] eqn:N; [|discriminate].
      exists c. split; [now injection E as <-|reflexivity].
    + exists i. split; [reflexivity|]. destruct (py_nth feig_consts i) as [c|] eqn:N; [|discriminate].
      exists c. split; [now injection E as <-|reflexivity].
    + exists i. split; [reflexivity|]. destruct (d_get Z.eqb zeta_consts i) as [c|] eqn:N; [|discriminate].
      exists c. split; [now injection E as <-|reflexivity].
  - destruct H as [-> | [-> | ->]]; destruct x; cbn in E; discriminate.
Qed.
(** Every index in range is served that way. *)
Theorem C64_two_work : forall m prec i, 2 <= i <= 20 -> exists q, snd (call_gen (GDict zeta_consts) [prec; GInt i] m) = Ok q.
Proof.
  intros m prec i H. unfold call_gen. cbn [tl snd call_body].
  assert (G : exists c, d_get Z.eqb zeta_consts i = Some c).
  { unfold zeta_consts. assert (D : exists s, d_get Z.eqb zeta_texts i = Some s).
    { assert (I : In i (zrange 2 21)) by (apply in_zrange; lia). cbn in I. repeat (destruct I as [<-|I]; [eexists; reflexivity|]). destruct I. }
    destruct D as (s & D). exists (const s). revert D. generalize zeta_texts. induction l as [|[j s'] l IH]; [discriminate|].
    cbn [d_get map]. destruct (Z.eqb i j); [intros E; injection E as <-; reflexivity|exact IH]. }
  destruct G as (c & ->). eexists. reflexivity.
Qed.
(** Everything else fails, and how: an index out of range, None for an index, or another number of arguments. *)
Theorem C64_exceptions : forall b m args e, takes_index b -> snd (call_gen b args m) = Raise e ->
  (exists prec i, args = [prec; GInt i] /\
    ((b = GDict zeta_consts /\ ~ 2 <= i <= 20 /\ e = KeyError) \/
     (b = GList percolation_consts /\ ~ -2 <= i < 2 /\ e = IndexError) \/ (b = GList feig_consts /\ ~ -4 <= i < 4 /\ e = IndexError))) \/
  (exists prec, args = [prec; GNone] /\ e = if match b with GDict _ => true | _ => false end then KeyError else TypeError) \/
  (length args <> 2%nat /\ e = TypeError).
Proof.
  intros b m args e H E.
  assert (PN : forall (l : list Q) i e', py_nth l i = Raise e' -> ~ - Z.of_nat (length l) <= i < Z.of_nat (length l) /\ e' = IndexError).
  { intros l i e' N. unfold py_nth in N. destruct ((_ <? 0) || _) eqn:B.
    - injection N as <-. split; [|reflexivity]. apply orb_true_iff in B as [B|B]; [apply Z.ltb_lt in B|apply Z.leb_le in B]; destruct (i <? 0) eqn:S; [apply Z.ltb_lt in S|apply Z.ltb_ge in S|apply Z.ltb_lt in S|apply Z.ltb_ge in S]; lia.
    - exfalso. apply orb_false_iff in B as [B1 B2]. apply Z.ltb_ge in B1. apply Z.leb_gt in B2. destruct (nth_error l _) eqn:X; [discriminate|]. apply nth_error_None in X. lia. }
  destruct args as [|prec [|x [|y args]]].
  - right. right. split; [discriminate|]. destruct H as [-> | [-> | ->]]; now injection E as <-.
  - right. right. split; [discriminate|]. destruct H as [-> | [-> | ->]]; now injection E as <-.
  - destruct x as [|i].
    + right. left. exists prec. split; [reflexivity|]. destruct H as [-> | [-> | ->]]; now injection E as <-.
    + left. exists prec, i. split; [reflexivity|]. unfold call_gen in E. cbn [tl snd] in E. destruct H as [-> | [-> | ->]]; cbn [call_body] in E.
      * right. left. destruct (py_nth percolation_consts i) as [c|e'] eqn:N; [discriminate|]. injection E as <-. destruct (PN _ _ _ N) as [P1 P2]. auto.
      * right. right. destruct (py_nth feig_consts i) as [c|e'] eqn:N; [discriminate|]. injection E as <-. destruct (PN _ _ _ N) as [P1 P2]. auto.
      * left. split; [reflexivity|]. split.
        -- intros R. destruct (C64_two_work m prec i R) as (q & Q2). unfold call_gen in Q2. cbn [tl snd call_body] in Q2. rewrite E in Q2. discriminate.
        -- destruct (d_get Z.eqb zeta_consts i); [discriminate|]. now injection E as <-.
  - right. right. split; [discriminate|]. unfold call_gen in E. cbn [tl snd] in E. destruct H as [-> | [-> | ->]]; destruct x; now injection E as <-.
Qed.
Example C64_ex : snd (call_gen (GDict zeta_consts) [GInt 3] import_ctx) = Raise TypeError /\
  fst (call_gen (GDict zeta_consts) [GInt 3] import_ctx) = mkMp 3 13 /\
  (exists q, snd (call_gen (GDict zeta_consts) [GInt 3; GInt 3] import_ctx) = Ok q /\ Qeq_bool q (4924 # 4096) = true).
Proof. split; [reflexivity|]. split; [vm_compute; reflexivity|]. eexists. split; [vm_compute; reflexivity|]. vm_compute. reflexivity. Qed.

Print Assumptions C63_clean.
Print Assumptions C63_input_kept.
Print Assumptions C63_name.
Print Assumptions C63_no_settings.
Print Assumptions C63_numbers_refuted.
Print Assumptions C63_clean_linear.
Print Assumptions C63_quadratic_refuted.
Print Assumptions C63_old_keys_refuted.
Print Assumptions C64_index_taken_for_precision.
Print Assumptions C64_needs_two.
Print Assumptions C64_two_work.
Print Assumptions C64_exceptions.

(** Loading a configuration, and loading what was saved. *)
From Coq Require Import Ascii String ZArith List Bool Lia.
From Verif Require Import PyBase PyBase_Proofs Hashtable_Model Hashtable_Proofs MITM_Model Results_Model Config_Model Spec_ULCD Spec_Config Config_Proofs Config_Json.
Import ListNotations.
Local Open Scope Z_scope.
Local Open Scope list_scope.
Local Open Scope res_scope.

(** ---- texts again ---- *)
Lemma lower_idem s : lower (lower s) = lower s.
Proof.
  unfold lower. rewrite map_map. apply map_ext. intros c. unfold lower_char.
  destruct ((Nat.leb 65 (nat_of_ascii c)) && (Nat.leb (nat_of_ascii c) 90)) eqn:E; [|now rewrite E].
  rewrite andb_true_iff, !Nat.leb_le in E. rewrite nat_ascii_embedding by lia.
  assert (X : (Nat.leb 65 (nat_of_ascii c + 32)) && (Nat.leb (nat_of_ascii c + 32) 90) = false) by (apply andb_false_iff; right; apply Nat.leb_gt; lia).
  now rewrite X.
Qed.
Lemma lower_blank c : is_blank (lower_char c) = is_blank c.
Proof.
  unfold lower_char. destruct ((Nat.leb 65 (nat_of_ascii c)) && (Nat.leb (nat_of_ascii c) 90)) eqn:E; [|reflexivity].
  rewrite andb_true_iff, !Nat.leb_le in E. unfold is_blank. rewrite nat_ascii_embedding by lia.
  assert (F : forall n, (33 <= n)%nat -> (Nat.leb 28 n && Nat.leb n 32 || (Nat.leb 9 n && Nat.leb n 13)) = false).
  { intros n L. apply orb_false_iff. split; apply andb_false_iff; right; apply Nat.leb_gt; lia. }
  cbv zeta. rewrite !F; [reflexivity|lia|lia].
Qed.
Lemma lstrip_lower s : lstrip (lower s) = lower (lstrip s).
Proof. induction s as [|c s IH]; [reflexivity|]. cbn [lower map lstrip]. rewrite lower_blank. destruct (is_blank c); [exact IH|reflexivity]. Qed.
Lemma strip_lower s : strip (lower s) = lower (strip s).
Proof. unfold strip. rewrite lstrip_lower. unfold lower at 1. rewrite <- map_rev. fold (lower (rev (lstrip s))). rewrite lstrip_lower. unfold lower. now rewrite map_rev. Qed.
Lemma lstrip_first s : lstrip s = [] \/ exists c r, lstrip s = c :: r /\ is_blank c = false.
Proof. induction s as [|c s IH]; [now left|]. cbn [lstrip]. destruct (is_blank c) eqn:B; [exact IH|right; eauto]. Qed.
Lemma lstrip_idem s : lstrip (lstrip s) = lstrip s.
Proof. destruct (lstrip_first s) as [->|(c & r & -> & B)]; [reflexivity|]. cbn [lstrip]. now rewrite B. Qed.
Lemma lstrip_suffix s : exists p, s = p ++ lstrip s.
Proof. induction s as [|c s (p & IH)]; [now exists []|]. cbn [lstrip]. destruct (is_blank c); [exists (c :: p); cbn [app]; now rewrite <- IH|now exists []]. Qed.
Lemma strip_idem s : strip (strip s) = strip s.
Proof.
  unfold strip. set (a := lstrip s). assert (E : lstrip (rev (lstrip (rev a))) = rev (lstrip (rev a))).
  { destruct (lstrip_suffix (rev a)) as (p & P). apply (f_equal (@rev ascii)) in P. rewrite rev_involutive, rev_app_distr in P.
    destruct (rev (lstrip (rev a))) as [|c r] eqn:R; [reflexivity|]. cbn [app] in P.
    destruct (lstrip_first s) as [E|(c' & r' & E & B)]; fold a in E; rewrite E in P; [discriminate|]. injection P as P _. subst c'. cbn [lstrip]. now rewrite B. }
  now rewrite E, rev_involutive, lstrip_idem.
Qed.
Lemma norm_idem s : lower (strip (lower (strip s))) = lower (strip s).
Proof. now rewrite strip_lower, strip_idem, lower_idem. Qed.

(** ---- parsers applied to what they gave ---- *)
Definition castf (f : text -> res cval) (v : text) : res cval := if text_eqb (strip (lower v)) (txt "none") then Ok CNone else f v.
Definition good (f : text -> res cval) (x : cval) : Prop := x = CNone \/ exists v, f v = Ok x.
Lemma castf_good f v x : castf f v = Ok x -> good f x.
Proof. unfold castf. destruct (text_eqb _ _); [intros [= <-]; now left|right; eauto]. Qed.
Lemma again_none f : castf f (cval_str CNone) = Ok CNone.
Proof. reflexivity. Qed.
Lemma string_cases v : string_parser v = CNone \/ (exists b, string_parser v = CBool b) \/
  exists s, string_parser v = CStr s /\ s = lower (strip v) /\ text_eqb s (txt "none") = false /\ text_eqb s (txt "false") = false /\ text_eqb s (txt "true") = false.
Proof.
  unfold string_parser. destruct (text_eqb _ (txt "none")) eqn:E1; [now left|]. destruct (text_eqb _ (txt "false")) eqn:E2; [right; left; eauto|].
  destruct (text_eqb _ (txt "true")) eqn:E3; [right; left; eauto|]. right. right. eexists. repeat split; assumption.
Qed.
Lemma string_again s : lower (strip s) = s -> text_eqb s (txt "none") = false -> text_eqb s (txt "false") = false -> text_eqb s (txt "true") = false -> string_parser s = CStr s.
Proof. intros E A B C. unfold string_parser. now rewrite E, A, B, C. Qed.
Lemma again_str x : good str_parser x -> castf str_parser (cval_str x) = Ok x.
Proof.
  intros [->|(v & H)]; [apply again_none|]. unfold str_parser in H. injection H as <-.
  destruct (string_cases v) as [E|[(b & E)|(s & E & ES & A & B & C)]]; rewrite E; [reflexivity|destruct b; reflexivity|].
  cbn [cval_str]. assert (N : lower (strip s) = s) by (rewrite ES; apply norm_idem). unfold castf. rewrite strip_lower, N, A. unfold str_parser. now rewrite string_again.
Qed.
Lemma again_bool x : good bool_parser x -> castf bool_parser (cval_str x) = Ok x.
Proof.
  intros [->|(v & H)]; [apply again_none|]. unfold bool_parser in H. destruct (text_eqb _ _); [injection H as <-; reflexivity|].
  destruct (text_eqb _ _); [injection H as <-; reflexivity|discriminate].
Qed.
Lemma z_text_not_none z : text_eqb (strip (lower (z_text z))) (txt "none") = false.
Proof.
  rewrite strip_lower, strip_id by apply z_text_blank. destruct (z_text_first z) as (c & r & -> & I). cbn in I.
  repeat (destruct I as [<-|I]; [reflexivity|]). destruct I.
Qed.
Lemma again_int x : good int_parser x -> castf int_parser (cval_str x) = Ok x.
Proof.
  intros [->|(v & H)]; [apply again_none|]. unfold int_parser in H. destruct (py_int v) as [z|]; [|discriminate]. injection H as <-.
  cbn [cval_str]. unfold castf. rewrite z_text_not_none. unfold int_parser. now rewrite py_int_text.
Qed.
Lemma again_poly x : good poly_type_parser x -> castf poly_type_parser (cval_str x) = Ok x.
Proof.
  intros [->|(v & H)]; [apply again_none|]. unfold poly_type_parser in H. destruct (string_parser v); try discriminate.
  destruct (d_get _ _ _) as [p|]; [|discriminate]. injection H as <-. destruct p; vm_compute; reflexivity.
Qed.
Lemma bracket_not_none s : text_eqb (strip (lower ("["%char :: s))) (txt "none") = false.
Proof.
  rewrite strip_lower. change (strip ("["%char :: s)) with (rev (lstrip (rev s ++ ["["%char]))).
  assert (E : forall t, exists u, lstrip (t ++ ["["%char]) = u ++ ["["%char]).
  { induction t as [|c t (u & IH)]; [now exists []|]. cbn [app lstrip]. destruct (is_blank c); [exists u; exact IH|now exists (c :: t)]. }
  destruct (E (rev s)) as (u & ->). rewrite rev_app_distr. reflexivity.
Qed.
(** Values that JSON shows as Python does *)
Definition plain_val (x : cval) : Prop := match x with CNone | CInt _ => True | CList l => ints (JList l) | _ => False end.
Lemma again_json x : plain_val x -> castf json_parser (cval_str x) = Ok x.
Proof.
  destruct x as [|b|z|s|l|p|n]; intros H; try destruct H; [reflexivity|..].
  - cbn [cval_str]. unfold castf. rewrite z_text_not_none. unfold json_parser. change (z_text z) with (jprint (JInt z)). now rewrite loads_ok.
  - unfold castf. cbn [cval_str]. destruct (ints_repr (JList l) H) as [E J]. rewrite E. cbn [jprint].
    change (txt "[" ++ ?x) with ("["%char :: x). rewrite bracket_not_none. change ("["%char :: ?x) with (txt "[" ++ x).
    change (txt "[" ++ commas (map jprint l) ++ txt "]") with (jprint (JList l)). unfold json_parser. now rewrite loads_ok.
Qed.

(** ---- the dictionary of settings ---- *)
Definition cg (c : config) (k : text) : cval := match d_get text_eqb c k with Some v => v | None => CNone end.
Lemma cg_same c k v : cg (d_set text_eqb c k v) k = v.
Proof. unfold cg. now rewrite (d_get_set_same _ text_eqb_eq). Qed.
Lemma cg_other c k k' v : k' <> k -> cg (d_set text_eqb c k v) k' = cg c k'.
Proof. intros N. unfold cg. now rewrite (d_get_set_other _ text_eqb_eq) by exact N. Qed.
Lemma cg_if c k k' v : cg (d_set text_eqb c k v) k' = if text_eqb k' k then v else cg c k'.
Proof.
  destruct (text_eqb k' k) eqn:E; [apply text_eqb_eq in E; subst; apply cg_same|]. apply cg_other. intros ->.
  assert (X : text_eqb k k = true) by now apply text_eqb_eq. congruence.
Qed.
Lemma cast_all_inv items : forall c c1, cast_all items c = Ok c1 ->
  forall k, (cg c1 k = cg c k /\ ~ In k (map fst items)) \/ exists v, In (k, v) items /\ cast_param_val k v = Ok (cg c1 k).
Proof.
  induction items as [|(k0, v0) items IH]; intros c c1 H k; cbn [cast_all foldM] in H; [injection H as <-; left; split; [reflexivity|intros []]|].
  destruct (cast_param_val k0 v0) as [x|] eqn:E; cbn [bind] in H; [|discriminate]. destruct (IH _ _ H k) as [[A B]|(v & I & A)].
  - rewrite cg_if in A. destruct (text_eqb k k0) eqn:K.
    + apply text_eqb_eq in K. subst k0. right. exists v0. split; [now left|]. now rewrite A.
    + left. split; [exact A|]. cbn [map fst]. intros [->|I]; [|auto]. assert (X : text_eqb k k = true) by now apply text_eqb_eq. congruence.
  - right. exists v. split; [now right|exact A].
Qed.
Lemma cast_all_ok (t : text -> text) (x : text -> cval) ks : forall c, NoDup ks -> (forall k, In k ks -> cast_param_val k (t k) = Ok (x k)) ->
  exists c1, cast_all (map (fun k => (k, t k)) ks) c = Ok c1 /\ forall k, cg c1 k = if in_dec (list_eq_dec ascii_dec) k ks then x k else cg c k.
Proof.
  induction ks as [|k0 ks IH]; intros c ND H; cbn [map cast_all foldM]; [exists c; split; reflexivity|].
  inversion ND as [|? ? N1 N2]; subst. rewrite (H k0) by now left. cbn [bind].
  destruct (IH (d_set text_eqb c k0 (x k0)) N2) as (c1 & E & G); [intros k I; apply H; now right|]. exists c1. split; [exact E|].
  intros k. rewrite G, cg_if. destruct (in_dec (list_eq_dec ascii_dec) k (k0 :: ks)) as [I|NI]; destruct (in_dec (list_eq_dec ascii_dec) k ks) as [I'|NI']; auto.
  - destruct I as [->|I]; [|contradiction]. assert (X : text_eqb k k = true) by now apply text_eqb_eq. now rewrite X.
  - exfalso. apply NI. now right.
  - destruct (text_eqb k k0) eqn:K; [|reflexivity]. apply text_eqb_eq in K. subst. exfalso. apply NI. now left.
Qed.
Lemma cast_all_raise items e : forall c, (forall k v, In (k, v) items -> (exists x, cast_param_val k v = Ok x) \/ cast_param_val k v = Raise e) ->
  (exists k v, In (k, v) items /\ cast_param_val k v = Raise e) -> cast_all items c = Raise e.
Proof.
  induction items as [|(k0, v0) items IH]; intros c H (k & v & I & E); [destruct I|]. cbn [cast_all foldM].
  destruct (H k0 v0 (or_introl eq_refl)) as [(x & X)|X]; rewrite X; cbn [bind]; [|reflexivity].
  apply IH; [intros k' v' I'; apply H; now right|]. destruct I as [[= -> ->]|I]; [congruence|eauto].
Qed.
Definition keys : list text := map fst CONFIG_PARAMS_TYPES.
Lemma keys_NoDup : NoDup keys.
Proof.
  assert (D : forall l : list text, (fix nd (l : list text) := match l with [] => true | x :: r => negb (existsb (text_eqb x) r) && nd r end) l = true -> NoDup l).
  { induction l as [|a l IH]; intros H; constructor; apply andb_true_iff in H as [H1 H2]; [|auto]. intros I. apply negb_true_iff in H1.
    assert (X : existsb (text_eqb a) l = true) by (apply existsb_exists; exists a; split; [exact I|now apply text_eqb_eq]). congruence. }
  apply D. vm_compute. reflexivity.
Qed.
Lemma param k f : In (k, f) CONFIG_PARAMS_TYPES -> forall v, cast_param_val k v = castf f v.
Proof.
  intros I v. unfold cast_param_val. assert (E : d_get text_eqb CONFIG_PARAMS_TYPES k = Some f).
  { pose proof keys_NoDup as ND. unfold keys in ND. revert I ND. generalize CONFIG_PARAMS_TYPES. induction l as [|(a, b) l IH]; intros I ND; [destruct I|destruct I as [I|I]].
    - injection I as -> ->. cbn [d_get]. assert (X : text_eqb k k = true) by now apply text_eqb_eq. now rewrite X.
    - cbn [map fst] in ND. inversion ND as [|? ? N1 N2]; subst. cbn [d_get]. destruct (text_eqb k a) eqn:K; [|now apply IH].
      apply text_eqb_eq in K. subst a. exfalso. apply N1. apply in_map_iff. exists (k, f). now split. }
  now rewrite E.
Qed.

(** ---- loading ---- *)
Definition K_file := txt "hashtable_file".
Definition K_op := txt "hashtable_file_operation".
Definition K_filter := txt "postproc_funcs_filter".
Definition K_textual := txt "postproc_funcs_filter_textual".
Definition K_only := txt "gen_hashtable_only".
Definition final (c1 : config) (hf : text) (pf : cval) (op : text) (k : text) : cval :=
  if text_eqb k K_file then CStr hf
  else if text_eqb k K_filter then pf
  else if text_eqb k K_textual then cg c1 K_filter
  else if text_eqb k K_only then match cg c1 k with CStr s => if text_eqb s (txt "auto") then CBool (negb (text_eqb op (txt "use"))) else CStr s | v => v end
  else cg c1 k.
Definition is_op (op : text) : Prop := existsb (text_eqb op) [txt "generate"; txt "expand"; txt "use"] = true.
Lemma fill_same ks : forall c k, cg (fold_left (fun c k => if d_mem text_eqb c k then c else d_set text_eqb c k CNone) ks c) k = cg c k.
Proof.
  induction ks as [|a ks IH]; intros c k; cbn [fold_left]; [reflexivity|]. rewrite IH. destruct (d_mem text_eqb c a) eqn:M; [reflexivity|].
  rewrite cg_if. destruct (text_eqb k a) eqn:E; [|reflexivity]. apply text_eqb_eq in E. subst a. unfold cg. unfold d_mem in M. destruct (d_get text_eqb c k); [discriminate|reflexivity].
Qed.
Lemma op_generate op (v : cval) : v = CStr op -> match v with CStr s => text_eqb s (txt "generate") | _ => false end = text_eqb op (txt "generate").
Proof. now intros ->. Qed.
Ltac get := repeat match goal with |- context [text_eqb (txt ?a) (txt ?b)] => let r := eval vm_compute in (text_eqb (txt a) (txt b)) in change (text_eqb (txt a) (txt b)) with r; cbv iota end.
Definition c4_of (c2 : config) (hf : text) (pf : cval) : config :=
  let c3 := d_set text_eqb c2 K_file (CStr hf) in d_set text_eqb (d_set text_eqb c3 K_textual (cg c3 K_filter)) K_filter pf.
Lemma load_eq listdir items : load listdir (Some items) =
  let* c1 := cast_all items [] in
  let* hf := match cg (fill c1) K_file with
             | CStr p => gen_hashtable_filename listdir (match cg (fill c1) K_op with CStr s => text_eqb s (txt "generate") | _ => false end) p
             | _ => Raise TypeError
             end in
  let* pf := gen_postproc_filter (cg (fill c1) K_filter) in
  check_operation (c4_of (fill c1) hf pf).
Proof.
  cbn [load]. destruct (cast_all items []) as [c1|]; cbn [bind]; [|reflexivity]. generalize (fill c1). intros c2.
  assert (E : forall hf, cg (d_set text_eqb c2 K_file (CStr hf)) K_filter = cg c2 K_filter) by (intros; rewrite cg_if; reflexivity).
  unfold set_hashtable_file. change (c_get c2 "hashtable_file") with (cg c2 K_file). change (c_get c2 "hashtable_file_operation") with (cg c2 K_op).
  destruct (match cg c2 K_file with CStr p => _ | _ => _ end) as [hf|]; cbn [bind]; [|reflexivity].
  unfold set_postproc. change (c_get (d_set text_eqb c2 (txt "hashtable_file") (CStr hf)) "postproc_funcs_filter") with (cg (d_set text_eqb c2 K_file (CStr hf)) K_filter).
  unfold c4_of. cbv zeta. rewrite E. destruct (gen_postproc_filter _) as [pf|]; cbn [bind]; reflexivity.
Qed.
Lemma c4_get c2 hf pf k : cg (c4_of c2 hf pf) k = if text_eqb k K_filter then pf else if text_eqb k K_textual then cg c2 K_filter else if text_eqb k K_file then CStr hf else cg c2 k.
Proof. unfold c4_of. cbv zeta. rewrite !cg_if. change (text_eqb K_filter K_file) with false. reflexivity. Qed.
Lemma stage3_ok c2 hf pf op : cg c2 K_op = CStr op -> is_op op -> exists c, check_operation (c4_of c2 hf pf) = Ok c /\ forall k, cg c k = final c2 hf pf op k.
Proof.
  intros O IO. pose proof (c4_get c2 hf pf) as C4. set (c4 := c4_of c2 hf pf) in *. clearbody c4. unfold check_operation. change (c_get c4 "hashtable_file_operation") with (cg c4 K_op). change (c_get c4 "gen_hashtable_only") with (cg c4 K_only).
  assert (DO : cg c4 K_only = cg c2 K_only) by (rewrite C4; reflexivity). assert (OO : cg c4 K_op = cg c2 K_op) by (rewrite C4; reflexivity).
  rewrite OO, DO, O. unfold is_op in IO. rewrite IO.
  assert (D : forall k, text_eqb k K_only = false -> cg c4 k = final c2 hf pf op k).
  { intros k N. rewrite C4. unfold final. rewrite N. destruct (text_eqb k K_file) eqn:E1; [|reflexivity]. apply text_eqb_eq in E1. subst k. reflexivity. }
  assert (FO : final c2 hf pf op K_only = match cg c2 K_only with CStr s => if text_eqb s (txt "auto") then CBool (negb (text_eqb op (txt "use"))) else CStr s | v => v end) by reflexivity.
  assert (ALL : forall c, (forall k, text_eqb k K_only = false -> cg c k = cg c4 k) -> cg c K_only = final c2 hf pf op K_only -> forall k, cg c k = final c2 hf pf op k).
  { intros c A B k. destruct (text_eqb k K_only) eqn:E; [apply text_eqb_eq in E; now subst|]. rewrite A by exact E. now apply D. }
  destruct (cg c2 K_only) as [|b|z|s|l|q|n] eqn:V; try (eexists; split; [reflexivity|]; apply ALL; [reflexivity|]; rewrite DO, FO; reflexivity).
  destruct (text_eqb s (txt "auto")) eqn:A; eexists; (split; [reflexivity|]); apply ALL; try reflexivity.
  - intros k N. rewrite cg_if. fold K_only. now rewrite N.
  - rewrite cg_if. fold K_only. rewrite (proj2 (text_eqb_eq K_only K_only) eq_refl), FO. reflexivity.
  - rewrite DO, FO. reflexivity.
Qed.
Lemma check_op c op_ : check_operation c = Ok op_ -> exists op, cg c K_op = CStr op /\ is_op op.
Proof.
  unfold check_operation. change (c_get c "hashtable_file_operation") with (cg c K_op). destruct (cg c K_op) as [| | |op| | |]; try discriminate.
  intros H. exists op. split; [reflexivity|]. unfold is_op. destruct (existsb _ _); [reflexivity|discriminate H].
Qed.
Lemma fill_get c1 k : cg (fill c1) k = cg c1 k.
Proof. apply fill_same. Qed.
Lemma final_ext c1 c2 hf pf op k : (forall k, cg c2 k = cg c1 k) -> final c2 hf pf op k = final c1 hf pf op k.
Proof. intros H. unfold final. now rewrite !H. Qed.
Definition rest_of (listdir : text -> list text) (c2 : config) : res config :=
  let* hf := match cg c2 K_file with
             | CStr p => gen_hashtable_filename listdir (match cg c2 K_op with CStr s => text_eqb s (txt "generate") | _ => false end) p
             | _ => Raise TypeError
             end in
  let* pf := gen_postproc_filter (cg c2 K_filter) in
  check_operation (c4_of c2 hf pf).
Lemma load_rest listdir items : load listdir (Some items) = let* c1 := cast_all items [] in rest_of listdir (fill c1).
Proof. exact (load_eq listdir items). Qed.
Lemma rest_ok listdir c1 c2 p hf pf op : (forall k, cg c2 k = cg c1 k) -> cg c1 K_file = CStr p -> cg c1 K_op = CStr op -> is_op op ->
  gen_hashtable_filename listdir (text_eqb op (txt "generate")) p = Ok hf -> gen_postproc_filter (cg c1 K_filter) = Ok pf ->
  exists c, rest_of listdir c2 = Ok c /\ forall k, cg c k = final c1 hf pf op k.
Proof.
  intros C2 F O IO G P. unfold rest_of. rewrite !C2, F, O, G. cbn [bind]. rewrite P. cbn [bind].
  destruct (stage3_ok c2 hf pf op) as (c & E & K); [now rewrite C2|exact IO|]. exists c. split; [exact E|]. intros k. rewrite K. now apply final_ext.
Qed.
Lemma rest_inv listdir c1 c2 c : (forall k, cg c2 k = cg c1 k) -> rest_of listdir c2 = Ok c ->
  exists p hf pf op, cg c1 K_file = CStr p /\ cg c1 K_op = CStr op /\ is_op op /\
    gen_hashtable_filename listdir (text_eqb op (txt "generate")) p = Ok hf /\ gen_postproc_filter (cg c1 K_filter) = Ok pf /\
    forall k, cg c k = final c1 hf pf op k.
Proof.
  intros C2 H. pose proof H as H0. unfold rest_of in H. rewrite !C2 in H.
  destruct (cg c1 K_file) as [| | |p| | |] eqn:F; try discriminate H.
  destruct (gen_hashtable_filename _ _ p) as [hf|] eqn:G; cbn [bind] in H; [|discriminate H].
  destruct (gen_postproc_filter _) as [pf|] eqn:P; cbn [bind] in H; [|discriminate H].
  apply check_op in H as (op & O & IO). rewrite c4_get, !C2 in O. change (cg c1 K_op = CStr op) in O. rewrite O in G.
  destruct (rest_ok listdir c1 c2 p hf pf op C2 F O IO G P) as (c' & E & K). rewrite H0 in E. injection E as <-.
  exists p, hf, pf, op. repeat split; auto.
Qed.
Lemma load_ok listdir items c1 p hf pf op : cast_all items [] = Ok c1 -> cg c1 K_file = CStr p -> cg c1 K_op = CStr op -> is_op op ->
  gen_hashtable_filename listdir (text_eqb op (txt "generate")) p = Ok hf -> gen_postproc_filter (cg c1 K_filter) = Ok pf ->
  exists c, load listdir (Some items) = Ok c /\ forall k, cg c k = final c1 hf pf op k.
Proof.
  intros C F O IO G P. rewrite load_rest, C. cbn [bind]. apply (rest_ok listdir c1 (fill c1) p); auto. apply fill_get.
Qed.
Lemma bind_inv {A B} (x : res A) (f : A -> res B) c : bind x f = Ok c -> exists a, x = Ok a /\ f a = Ok c.
Proof. destruct x as [a|e]; [|discriminate]. intros H. exists a. now split. Qed.
Lemma load_inv listdir items c : load listdir (Some items) = Ok c ->
  exists c1 p hf pf op, cast_all items [] = Ok c1 /\ cg c1 K_file = CStr p /\ cg c1 K_op = CStr op /\ is_op op /\
    gen_hashtable_filename listdir (text_eqb op (txt "generate")) p = Ok hf /\ gen_postproc_filter (cg c1 K_filter) = Ok pf /\
    forall k, cg c k = final c1 hf pf op k.
Proof.
  intros H. rewrite load_rest in H. apply bind_inv in H as (c1 & C & H). pose proof (fill_get c1) as F. cbv beta in H. revert F H. generalize (fill c1). intros c2 F H.
  destruct (rest_inv listdir c1 c2 c F H) as (p & hf & pf & op & R). exists c1, p, hf, pf, op. split; [exact C|exact R].
Qed.

(** ---- the post-processing functions ---- *)
Definition nfuncs : Z := Z.of_nat (length POSTPROC_FUNCS).
Lemma list_index_spec x l : forall i j, list_index x l i = Ok j -> i <= j < i + Z.of_nat (length l).
Proof.
  induction l as [|y l IH]; intros i j H; cbn [list_index length] in *; [discriminate|]. destruct (text_eqb x y); [injection H as <-; lia|]. apply IH in H. lia.
Qed.
Lemma mapM_ok {A B} (f : A -> res B) (g : A -> B) l : (forall x, In x l -> f x = Ok (g x)) -> mapM f l = Ok (map g l).
Proof.
  induction l as [|x l IH]; intros H; cbn [mapM map]; [reflexivity|]. rewrite (H x) by now left. cbn [bind]. rewrite IH by (intros; apply H; now right). reflexivity.
Qed.
Lemma mapM_inv {A B} (P : B -> Prop) (f : A -> res B) l : (forall x y, f x = Ok y -> P y) -> forall ys, mapM f l = Ok ys -> Forall P ys.
Proof.
  intros H. induction l as [|x l IH]; intros ys E; cbn [mapM] in E; [injection E as <-; constructor|].
  destruct (f x) as [y|] eqn:FX; cbn [bind] in E; [|discriminate]. destruct (mapM f l) as [zs|]; cbn [bind] in E; [|discriminate]. injection E as <-. constructor; eauto.
Qed.
Lemma filter_indices v pf : gen_postproc_filter v = Ok pf -> exists is, pf = CList (map JInt is) /\ Forall (fun i => 0 <= i < nfuncs) is.
Proof.
  assert (Y : forall s i, list_index s POSTPROC_FUNCS 0 = Ok i -> 0 <= i < nfuncs) by (intros s i X; apply list_index_spec in X; exact X).
  unfold gen_postproc_filter. destruct v as [| | |s|l| |]; try discriminate; intros H; destruct (mapM _ _) as [is|] eqn:E; cbn [bind] in H; try discriminate; injection H as <-; exists is; (split; [reflexivity|]).
  - revert E. apply mapM_inv. intros c. apply Y.
  - revert E. apply mapM_inv. intros j i. destruct j; try discriminate. apply Y.
Qed.
Lemma func_of i : - nfuncs <= i < nfuncs ->
  exists f, py_nth POSTPROC_FUNCS i = Ok f /\ str_ok f /\ list_index f POSTPROC_FUNCS 0 = Ok (i mod nfuncs).
Proof.
  intros H. assert (N : nfuncs = 24) by (vm_compute; reflexivity). rewrite N in *.
  assert (B : forallb (fun k => match py_nth POSTPROC_FUNCS (Z.of_nat k - 24) with
      | Ok f => forallb (fun c => negb (char_eqb c """"%char) && negb (char_eqb c "\"%char || Nat.ltb (nat_of_ascii c) 32)) f &&
                match list_index f POSTPROC_FUNCS 0 with Ok j => j =? (Z.of_nat k - 24) mod 24 | _ => false end
      | _ => false end) (seq 0 48) = true) by (vm_compute; reflexivity).
  rewrite forallb_forall in B. specialize (B (Z.to_nat (i + 24))). rewrite in_seq, Z2Nat.id in B by lia. replace (i + 24 - 24) with i in B by lia.
  specialize (B ltac:(lia)). destruct (py_nth POSTPROC_FUNCS i) as [f|]; [|discriminate]. exists f. apply andb_true_iff in B as [B1 B2]. split; [reflexivity|]. split.
  - rewrite forallb_forall in B1. apply Forall_forall. intros c C. apply B1 in C. rewrite andb_true_iff, !negb_true_iff in C. exact C.
  - destruct (list_index f POSTPROC_FUNCS 0) as [j|]; [|discriminate]. apply Z.eqb_eq in B2. now rewrite B2.
Qed.
Definition fname (i : Z) : text := match py_nth POSTPROC_FUNCS i with Ok f => f | Raise _ => [] end.
Definition names (is : list Z) : text := jprint (JList (map JStr (map fname is))).
Lemma ints_ints is : ints (JList (map JInt is)).
Proof. cbn [ints]. induction is as [|i is IH]; cbn [map fold_right]; [exact I|]. split; [exact I|exact IH]. Qed.
Lemma filter_set is : Forall (fun i => - nfuncs <= i < nfuncs) is -> cfg_set K_filter (cval_str (CList (map JInt is))) = Ok (names is).
Proof.
  intros F. cbn [cval_str]. destruct (ints_repr _ (ints_ints is)) as [E J]. rewrite E. unfold cfg_set.
  rewrite (proj2 (text_eqb_eq K_filter (txt "postproc_funcs_filter")) eq_refl). cbn [andb].
  assert (NE : negb (match jprint (JList (map JInt is)) with [] => true | _ => false end) = true) by (destruct (jfirst (JList (map JInt is))) as (c & r & -> & _); reflexivity).
  rewrite NE, loads_ok by exact J. cbn [bind].
  rewrite (mapM_ok json_func (fun j => match j with JInt i => fname i | _ => [] end)).
  - cbn [bind]. unfold names. cbn [jprint]. do 2 f_equal. f_equal. rewrite !map_map. reflexivity.
  - intros j I. apply in_map_iff in I as (i & <- & I). cbn [json_func]. rewrite Forall_forall in F. destruct (func_of i (F i I)) as (f & Ff & _). unfold fname. now rewrite Ff.
Qed.
Lemma names_ok is : Forall (fun i => - nfuncs <= i < nfuncs) is -> jok (JList (map JStr (map fname is))).
Proof.
  intros F. apply jok_list. rewrite map_map. apply Forall_map. eapply Forall_impl; [|exact F]. intros i H. cbn [jok]. destruct (func_of i H) as (f & Ff & S & _). unfold fname. now rewrite Ff.
Qed.
Lemma filter_back is : Forall (fun i => - nfuncs <= i < nfuncs) is ->
  exists v, castf json_parser (names is) = Ok v /\ gen_postproc_filter v = Ok (CList (map JInt (map (fun i => i mod nfuncs) is))).
Proof.
  intros F. exists (CList (map JStr (map fname is))). split.
  - unfold castf, names. cbn [jprint]. change (txt "[" ++ ?x) with ("["%char :: x). rewrite bracket_not_none. change ("["%char :: ?x) with (txt "[" ++ x).
    change (txt "[" ++ commas (map jprint (map JStr (map fname is))) ++ txt "]") with (jprint (JList (map JStr (map fname is)))). unfold json_parser. rewrite loads_ok by now apply names_ok. reflexivity.
  - cbn [gen_postproc_filter]. rewrite (mapM_ok json_index (fun j => match j with JStr f => match list_index f POSTPROC_FUNCS 0 with Ok i => i | _ => 0 end | _ => 0 end)).
    + cbn [bind]. rewrite !map_map. do 2 f_equal. apply map_ext_in. intros i I. rewrite Forall_forall in F. destruct (func_of i (F i I)) as (f & Ff & _ & L). unfold fname. now rewrite Ff, L.
    + intros j I. rewrite map_map in I. apply in_map_iff in I as (i & <- & I). rewrite Forall_forall in F. destruct (func_of i (F i I)) as (f & Ff & _ & L). unfold fname. rewrite Ff. cbn [json_index]. now rewrite L.
Qed.

(** ---- the settings after loading ---- *)
Lemma loaded_good items c1 k f : cast_all items [] = Ok c1 -> In (k, f) CONFIG_PARAMS_TYPES -> good f (cg c1 k).
Proof.
  intros C I. destruct (cast_all_inv items [] c1 C k) as [[E _]|(v & _ & E)]; [left; exact E|]. rewrite (param k f I) in E. now apply castf_good in E.
Qed.
Lemma path_good p : good path_parser (CStr p) -> lower (strip p) = p /\ text_eqb p (txt "none") = false /\ text_eqb p (txt "false") = false /\ text_eqb p (txt "true") = false.
Proof.
  intros [E|(v & E)]; [discriminate|]. unfold path_parser in E. destruct (string_cases v) as [X|[(b & X)|(s & X & ES & A)]]; rewrite X in E; try discriminate.
  injection E as <-. split; [rewrite ES; apply norm_idem|exact A].
Qed.
(** A chosen file has a slash in its path *)
Lemma join_slash d f : d <> [] -> In "/"%char (path_join d f).
Proof.
  intros N. unfold path_join. destruct (rev d) as [|c r] eqn:R; [apply (f_equal (@rev ascii)) in R; rewrite rev_involutive in R; contradiction|].
  destruct (char_eqb c "/") eqn:C; rewrite !in_app_iff.
  - left. apply Ascii.eqb_eq in C. subst c. apply in_rev. rewrite R. now left.
  - right. left. now left.
Qed.
Lemma cut_nonnil rs : forall acc, acc <> [] -> snd (cut_slash rs acc) <> [].
Proof. induction rs as [|c rs IH]; intros acc H; cbn [cut_slash]; [exact H|]. destruct (char_eqb c "/"); [exact H|]. apply IH. discriminate. Qed.
Lemma split_empty p d : path_split p = (d, []) -> p = [] \/ In "/"%char p.
Proof.
  unfold path_split. intros H. destruct (cut_slash (rev p) []) as [h t] eqn:E. injection H as _ ->. destruct (rev p) as [|c r] eqn:R; [left|right].
  - apply (f_equal (@rev ascii)) in R. now rewrite rev_involutive in R.
  - cbn [cut_slash] in E. destruct (char_eqb c "/") eqn:C.
    + apply Ascii.eqb_eq in C. subst c. apply in_rev. rewrite R. now left.
    + exfalso. apply (cut_nonnil r [c]); [discriminate|]. now rewrite E.
Qed.
Lemma gen_slash listdir g p h : gen_hashtable_filename listdir g p = Ok h -> h = [] \/ In "/"%char h.
Proof.
  unfold gen_hashtable_filename. destruct (path_split p) as [d fn] eqn:S. set (dir := match d with [] => txt "." | _ => d end).
  assert (N : dir <> []) by (unfold dir; destruct d; discriminate). clearbody dir.
  destruct fn as [|c fn]; [intros [= <-]; now apply split_empty in S|]. cbv zeta. destruct (rx_of_name _) as [pat|]; [|discriminate].
  destruct (rev _) as [|l r]; [intros [= <-]; right; now apply join_slash|]. destruct (if g then _ else _) as [h'|]; cbn [bind]; [|discriminate]. intros [= <-]. right. now apply join_slash.
Qed.
Lemma lstrip_keeps c s : is_blank c = false -> In c s -> In c (lstrip s).
Proof.
  intros B. induction s as [|a s IH]; intros I; [destruct I|]. cbn [lstrip]. destruct (is_blank a) eqn:A; [|exact I]. destruct I as [->|I]; [congruence|auto].
Qed.
Lemma strip_keeps c s : is_blank c = false -> In c s -> In c (strip s).
Proof. intros B I. unfold strip. apply -> in_rev. apply lstrip_keeps; [exact B|]. apply -> in_rev. now apply lstrip_keeps. Qed.
Lemma path_again listdir g p h : gen_hashtable_filename listdir g p = Ok h -> castf path_parser h = Ok (CStr (lower (strip h))).
Proof.
  intros G. assert (X : lower (strip h) = [] \/ In "/"%char (lower (strip h))).
  { destruct (gen_slash _ _ _ _ G) as [->|I]; [now left|right]. unfold lower. apply in_map_iff. exists "/"%char. split; [reflexivity|]. now apply strip_keeps. }
  set (n := lower (strip h)) in *. assert (Y : forall w, ~ In "/"%char w -> w <> [] -> text_eqb n w = false).
  { intros w W NW. destruct (text_eqb n w) eqn:E; [|reflexivity]. apply text_eqb_eq in E. destruct X as [X|X]; [congruence|]. rewrite E in X. contradiction. }
  unfold castf. rewrite strip_lower. fold n. rewrite Y; [|cbn; intuition discriminate|discriminate].
  unfold path_parser, string_parser. fold n. cbv zeta. rewrite !Y; [reflexivity|..]; try discriminate; cbn; intuition discriminate.
Qed.

(** ---- saving and loading again ---- *)
Definition json_keys : list text := map txt ["ab_polys_special_params"; "a_coeffs_range"; "b_coeffs_range"; "lhs_params"]%string.
Definition saved_text (c : config) (is : list Z) (k : text) : text := if text_eqb k K_filter then names is else cval_str (cg c k).
Lemma save_ok c is : cg c K_filter = CList (map JInt is) -> Forall (fun i => 0 <= i < nfuncs) is -> save c = Ok (map (fun k => (k, saved_text c is k)) keys).
Proof.
  intros F R. unfold save. fold keys. apply mapM_ok. intros k _. fold (cg c k). unfold saved_text. destruct (text_eqb k K_filter) eqn:E.
  - apply text_eqb_eq in E. subst k. rewrite F, filter_set; [reflexivity|]. eapply Forall_impl; [|exact R]. cbv beta. intros; lia.
  - unfold cfg_set. fold K_filter. now rewrite E.
Qed.
Lemma castf_str f : f = str_parser -> forall x, good f x -> castf f (cval_str x) = Ok x.
Proof. intros -> x. apply again_str. Qed.
Definition val_ok (k : text) (x : cval) (t : text) : Prop := cast_param_val k t = Ok x.
Lemma key_eq k k' : text_eqb k k' = false -> k <> k'.
Proof. intros E ->. rewrite (proj2 (text_eqb_eq k' k') eq_refl) in E. discriminate. Qed.
Lemma in_json k : In k json_keys <-> existsb (text_eqb k) json_keys = true.
Proof. rewrite existsb_exists. split; [intros I; exists k; split; [exact I|now apply text_eqb_eq]|intros (x & I & E); apply text_eqb_eq in E; now subst]. Qed.
Definition K_lhs := txt "lhs_type".
(** Every setting that is neither a list, nor the left-hand side, nor the file, comes back as it was. *)
Lemma simple_again items c1 listdir p hf pf op k : cast_all items [] = Ok c1 -> gen_hashtable_filename listdir (text_eqb op (txt "generate")) p = Ok hf ->
  In k keys -> k <> K_file -> k <> K_filter -> k <> K_lhs -> ~ In k json_keys ->
  cast_param_val k (cval_str (final c1 hf pf op k)) = Ok (final c1 hf pf op k).
Proof.
  intros C G I N1 N2 N3 N4. unfold keys in I. apply in_map_iff in I as ((k', f) & E & I). cbn [fst] in E. subst k'. rewrite (param k f I).
  pose proof (loaded_good items c1 k f C I) as GD.
  assert (FN : k <> K_only -> final c1 hf pf op k = cg c1 k).
  { intros NO. unfold final. destruct (text_eqb k K_file) eqn:E1; [apply text_eqb_eq in E1; contradiction|]. destruct (text_eqb k K_filter) eqn:E2; [apply text_eqb_eq in E2; contradiction|].
    destruct (text_eqb k K_textual) eqn:E3.
    - exfalso. apply text_eqb_eq in E3. subst k. assert (NT : existsb (fun kf => text_eqb K_textual (fst kf)) CONFIG_PARAMS_TYPES = false) by (vm_compute; reflexivity).
      assert (TT : existsb (fun kf => text_eqb K_textual (fst kf)) CONFIG_PARAMS_TYPES = true) by (apply existsb_exists; exists (K_textual, f); split; [exact I|now apply text_eqb_eq]). congruence.
    - destruct (text_eqb k K_only) eqn:E4; [apply text_eqb_eq in E4; contradiction|reflexivity]. }
  destruct (text_eqb k K_only) eqn:EO.
  - apply text_eqb_eq in EO. subst k. assert (Ff : f = str_parser).
    { cbn in I. repeat (destruct I as [I|I]; [try discriminate I; injection I as <-; reflexivity|]). destruct I. }
    subst f. change (final c1 hf pf op K_only) with (match cg c1 K_only with CStr s => if text_eqb s (txt "auto") then CBool (negb (text_eqb op (txt "use"))) else CStr s | v => v end).
    destruct (cg c1 K_only) as [|b|z|s|l|q|n] eqn:V; try now apply again_str. destruct (text_eqb s (txt "auto")); [|now apply again_str]. destruct (negb _); reflexivity.
  - rewrite FN by now apply key_eq. clear FN.
    unfold CONFIG_PARAMS_TYPES in I. cbn [map] in I.
    repeat (destruct I as [I|I]; [injection I as <- <-; first [now apply again_str|now apply again_bool|now apply again_int|now apply again_poly|exfalso; now apply N3|exfalso; now apply N2|exfalso; now apply N1|exfalso; apply N4; cbn; tauto]|]). destruct I.
Qed.
Lemma not_auto c1 hf pf op : match final c1 hf pf op K_only with CStr s => text_eqb s (txt "auto") = false | _ => True end.
Proof.
  change (final c1 hf pf op K_only) with (match cg c1 K_only with CStr s => if text_eqb s (txt "auto") then CBool (negb (text_eqb op (txt "use"))) else CStr s | v => v end).
  destruct (cg c1 K_only) as [| | |s| | |]; try exact I. destruct (text_eqb s (txt "auto")) eqn:A; [exact I|exact A].
Qed.
Lemma mod_id is : Forall (fun i => 0 <= i < nfuncs) is -> map (fun i => i mod nfuncs) is = is.
Proof. induction 1 as [|i is H _ IH]; cbn [map]; [reflexivity|]. now rewrite IH, Z.mod_small by exact H. Qed.
Lemma lhs_final c1 hf pf op : final c1 hf pf op K_lhs = cg c1 K_lhs.
Proof. reflexivity. Qed.
Lemma json_val_error s : (exists x, castf json_parser s = Ok x) \/ castf json_parser s = Raise ValueError.
Proof.
  unfold castf. destruct (text_eqb _ _); [left; eauto|]. unfold json_parser, json_loads. destruct (jv _ _) as [[v t]|]; [|now right].
  destruct (jws t); [left; eexists; reflexivity|now right].
Qed.
(** The text of the left-hand side classes is no name of a left-hand side *)
Lemma lhs_again n : good lhs_type_parser (CLhs n) -> castf lhs_type_parser (cval_str (CLhs n)) = Raise ValueError.
Proof.
  intros [E|(v & E)]; [discriminate|]. unfold lhs_type_parser in E. destruct (string_parser v) as [| | |t| | |]; try discriminate.
  destruct (existsb _ _) eqn:X; [|discriminate]. injection E as <-. cbn [existsb LHS_TYPES] in X. rewrite orb_false_r in X. apply orb_true_iff in X as [X|X]; apply text_eqb_eq in X; subst t; vm_compute; reflexivity.
Qed.
Lemma keys_json k : In k json_keys -> In (k, json_parser) CONFIG_PARAMS_TYPES.
Proof. intros I. cbn in I. repeat (destruct I as [<-|I]; [cbn; tauto|]). destruct I. Qed.
Lemma key_file : In (K_file, path_parser) CONFIG_PARAMS_TYPES. Proof. cbn; tauto. Qed.
Lemma key_filter : In (K_filter, json_parser) CONFIG_PARAMS_TYPES. Proof. cbn; tauto. Qed.
Lemma key_lhs : In (K_lhs, lhs_type_parser) CONFIG_PARAMS_TYPES. Proof. cbn; tauto. Qed.
Lemma in_keys k f : In (k, f) CONFIG_PARAMS_TYPES -> In k keys.
Proof. intros I. unfold keys. apply in_map_iff. now exists (k, f). Qed.
Lemma roundtrip listdir items c listdir' : load listdir (Some items) = Ok c -> cg c K_lhs = CNone -> (forall k, In k json_keys -> plain_val (cg c k)) ->
  exists items' p op, save c = Ok items' /\ cg c K_file = CStr p /\ cg c K_op = CStr op /\
  forall p', gen_hashtable_filename listdir' (text_eqb op (txt "generate")) (lower (strip p)) = Ok p' ->
  exists c', load listdir' (Some items') = Ok c' /\ cg c' K_file = CStr p' /\ forall k, In k keys -> k <> K_file -> cg c' k = cg c k.
Proof.
  intros L NL PV. destruct (load_inv _ _ _ L) as (c1 & p0 & hf & pf & op & C & F & O & IO & G & P & FN).
  destruct (filter_indices _ _ P) as (is & -> & R).
  assert (CF : cg c K_filter = CList (map JInt is)) by (rewrite FN; reflexivity).
  assert (CP : cg c K_file = CStr hf) by (rewrite FN; reflexivity).
  assert (CO : cg c K_op = CStr op) by (rewrite FN; exact O).
  assert (R2 : Forall (fun i => - nfuncs <= i < nfuncs) is) by (eapply Forall_impl; [|exact R]; cbv beta; intros; lia).
  destruct (filter_back is R2) as (fv & FB1 & FB2). rewrite (mod_id is R) in FB2.
  set (x := fun k => if text_eqb k K_file then CStr (lower (strip hf)) else if text_eqb k K_filter then fv else cg c k).
  assert (A : forall k, In k keys -> cast_param_val k (saved_text c is k) = Ok (x k)).
  { intros k I. unfold saved_text, x. destruct (text_eqb k K_file) eqn:E1.
    - apply text_eqb_eq in E1. subst k. change (text_eqb K_file K_filter) with false. cbv iota. rewrite (param _ _ key_file), CP. cbn [cval_str]. exact (path_again _ _ _ _ G).
    - destruct (text_eqb k K_filter) eqn:E2; [apply text_eqb_eq in E2; subst k; rewrite (param _ _ key_filter); exact FB1|].
      destruct (text_eqb k K_lhs) eqn:E3; [apply text_eqb_eq in E3; subst k; rewrite (param _ _ key_lhs), NL; apply again_none|].
      destruct (existsb (text_eqb k) json_keys) eqn:E4; [apply in_json in E4; rewrite (param _ _ (keys_json k E4)); apply again_json; now apply PV|].
      rewrite !FN. eapply simple_again; [exact C|exact G|exact I|now apply key_eq|now apply key_eq|now apply key_eq|]. intros J. apply in_json in J. congruence. }
  exists (map (fun k => (k, saved_text c is k)) keys), hf, op. split; [now apply save_ok|]. split; [exact CP|]. split; [exact CO|]. intros p' G'.
  destruct (cast_all_ok (saved_text c is) x keys [] keys_NoDup A) as (c1' & C' & K').
  assert (K : forall k f, In (k, f) CONFIG_PARAMS_TYPES -> cg c1' k = x k).
  { intros k f I. rewrite K'. destruct (in_dec _ _ _) as [_|N]; [reflexivity|]. exfalso. apply N. exact (in_keys k f I). }
  destruct (load_ok listdir' _ c1' (lower (strip hf)) p' (CList (map JInt is)) op C') as (c' & L' & FN').
  - rewrite (K _ _ key_file). reflexivity.
  - rewrite (K K_op str_parser) by (cbn; tauto). exact CO.
  - exact IO.
  - exact G'.
  - rewrite (K _ _ key_filter). exact FB2.
  - exists c'. split; [exact L'|]. split; [rewrite FN'; reflexivity|]. intros k I NF. rewrite FN'. unfold final.
    destruct (text_eqb k K_file) eqn:E1; [apply text_eqb_eq in E1; contradiction|]. destruct (text_eqb k K_filter) eqn:E2; [apply text_eqb_eq in E2; subst k; now rewrite CF|].
    unfold keys in I. apply in_map_iff in I as ((k', f) & E & I). cbn [fst] in E. subst k'.
    assert (XK : cg c1' k = cg c k) by (rewrite (K k f I); unfold x; now rewrite E1, E2).
    destruct (text_eqb k K_textual) eqn:E3.
    { exfalso. apply text_eqb_eq in E3. subst k. assert (NT : existsb (fun kf => text_eqb K_textual (fst kf)) CONFIG_PARAMS_TYPES = false) by (vm_compute; reflexivity).
      assert (TT : existsb (fun kf => text_eqb K_textual (fst kf)) CONFIG_PARAMS_TYPES = true) by (apply existsb_exists; exists (K_textual, f); split; [exact I|now apply text_eqb_eq]). congruence. }
    destruct (text_eqb k K_only) eqn:E4; [|exact XK]. apply text_eqb_eq in E4. subst k. rewrite XK. pose proof (not_auto c1 hf (CList (map JInt is)) op) as NA. rewrite <- FN in NA.
    destruct (cg c K_only) as [| | |s| | |]; try reflexivity. now rewrite NA.
Qed.
Lemma no_roundtrip listdir items c n listdir' : load listdir (Some items) = Ok c -> cg c K_lhs = CLhs n ->
  exists items', save c = Ok items' /\ load listdir' (Some items') = Raise ValueError.
Proof.
  intros L NL. destruct (load_inv _ _ _ L) as (c1 & p0 & hf & pf & op & C & F & O & IO & G & P & FN).
  destruct (filter_indices _ _ P) as (is & -> & R).
  assert (CF : cg c K_filter = CList (map JInt is)) by (rewrite FN; reflexivity).
  assert (CP : cg c K_file = CStr hf) by (rewrite FN; reflexivity).
  assert (R2 : Forall (fun i => - nfuncs <= i < nfuncs) is) by (eapply Forall_impl; [|exact R]; cbv beta; intros; lia).
  destruct (filter_back is R2) as (fv & FB1 & FB2).
  pose proof (loaded_good items c1 K_lhs lhs_type_parser C key_lhs) as GL. rewrite FN, lhs_final in NL. rewrite NL in GL. rewrite <- lhs_final with (hf := hf) (pf := CList (map JInt is)) (op := op), <- FN in NL.
  assert (LR : cast_param_val K_lhs (saved_text c is K_lhs) = Raise ValueError).
  { unfold saved_text. change (text_eqb K_lhs K_filter) with false. cbv iota. rewrite (param _ _ key_lhs), NL. now apply lhs_again. }
  exists (map (fun k => (k, saved_text c is k)) keys). split; [now apply save_ok|]. rewrite load_rest.
  rewrite (cast_all_raise _ ValueError); [reflexivity| |exists K_lhs, (saved_text c is K_lhs); split; [apply in_map_iff; exists K_lhs; split; [reflexivity|exact (in_keys _ _ key_lhs)]|exact LR]].
  intros k v I. apply in_map_iff in I as (k' & E & I). injection E as -> <-. unfold saved_text. destruct (text_eqb k K_filter) eqn:E2.
  - left. exists fv. apply text_eqb_eq in E2. subst k. rewrite (param _ _ key_filter). exact FB1.
  - destruct (text_eqb k K_file) eqn:E1; [left; apply text_eqb_eq in E1; subst k; rewrite (param _ _ key_file), CP; eexists; exact (path_again _ _ _ _ G)|].
    destruct (text_eqb k K_lhs) eqn:E3; [right; apply text_eqb_eq in E3; subst k; exact LR|].
    destruct (existsb (text_eqb k) json_keys) eqn:E4; [apply in_json in E4; rewrite (param _ _ (keys_json k E4)); apply json_val_error|].
    left. rewrite !FN. eexists. eapply simple_again; [exact C|exact G|exact I|now apply key_eq|now apply key_eq|now apply key_eq|]. intros J. apply in_json in J. congruence.
Qed.

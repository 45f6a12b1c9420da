(** Properties C56 and C57: distributing a search. *)
From Coq Require Import Ascii String ZArith QArith Qabs List Bool Lia Permutation.
From Verif Require Import PyBase PyBase_Proofs Rnd ContFrac_Model Hashtable_Model Hashtable_Proofs Hashtable_Proofs2 Spec_Enum
  ULCD_Model Rational_Model MITM_Model Spec_MITM MITM_Build MITM_Build2 Properties_MITM Dist_Model Spec_Dist Dist_Proofs.
From Verif Require Enum_Model Enum_Proofs Enum_Proofs2 Enum_Roots Properties_Enum.
Import ListNotations.
Local Open Scope Z_scope.
Local Open Scope list_scope.

(** ---- C56 ---- *)
(** 2^k jobs that partition the space, exactly when the ranges of the first a and the first b polynomial can be halved
    k times; otherwise ValueError. *)
Theorem C56_split : forall a b k, a <> [] -> b <> [] -> bounded (2 ^ 52) (a, b) ->
  let room := halvings (hd [] a) + halvings (hd [] b) in
  (Z.of_nat k <= room -> exists js, split_params (a, b) k = Ok js /\ length js = (2 ^ k)%nat /\ partition (a, b) js) /\
  (room < Z.of_nat k -> split_params (a, b) k = Raise ValueError).
Proof.
  intros a b k HA HB HS room. pose proof (split_spec k (a, b) (conj HA (conj HB HS))) as H.
  assert (EC : cap (a, b) = room) by (unfold room; destruct a, b; try congruence; reflexivity).
  destruct (split_params (a, b) k) as [js|e].
  - destruct H as (C & L & P & _). split; [|intros; lia]. intros _. exists js. auto.
  - destruct H as (C & ->). split; [intros; lia|reflexivity].
Qed.
(** No job is empty if the space is not. *)
Theorem C56_nonempty : forall a b k js, bounded (2 ^ 52) (a, b) -> split_params (a, b) k = Ok js ->
  (exists x, in_space (a, b) x) -> Forall (fun j => exists x, in_space j x) js.
Proof.
  intros a b k js HB HS [x [HX HY]]. cbn [fst snd] in *.
  assert (NE : nonempty_job (a, b)).
  { assert (G : forall r ps, in_ranges r ps -> forall p rg, In p r -> In rg p -> fst rg < snd rg).
    { clear. induction 1 as [|c p ps r H1 H2 IH]; intros p' rg HP HR; [destruct HP|]. destruct HP as [->|HP]; [|eauto].
      clear - H1 HR. induction H1; [destruct HR|]. destruct HR as [->|HR]; [lia|auto]. }
    intros p rg HP HR. cbn [fst snd] in HP. apply in_app_or in HP. destruct HP as [HP|HP]; [eapply (G a)|eapply (G b)]; eauto. }
  assert (WIT : forall r : iranges, (forall p rg, In p r -> In rg p -> fst rg < snd rg) -> in_ranges r (map (map fst) r)).
  { clear. induction r as [|p r IH]; intros H; [constructor|]. cbn [map]. constructor.
    - assert (HP : forall rg, In rg p -> fst rg < snd rg) by (intros; apply (H p); [now left|assumption]).
      clear - HP. induction p as [|rg p IH]; cbn; constructor; [specialize (HP rg (or_introl eq_refl)); lia|]. apply IH. intros; apply HP. now right.
    - apply IH. intros; apply (H p0); [now right|assumption]. }
  assert (JN : Forall nonempty_job js).
  { destruct k as [|k]; [cbn in HS; injection HS as <-; now constructor|].
    destruct a as [|a0 a]; [discriminate|]. destruct b as [|b0 b]; [discriminate|].
    pose proof (split_spec (S k) (a0 :: a, b0 :: b)) as H. rewrite HS in H. apply H; [|exact NE]. split; [discriminate|split; [discriminate|exact HB]]. }
  revert JN. apply Forall_impl. intros [ja jb] JN. exists (map (map fst) ja, map (map fst) jb).
  split; cbn [fst snd]; apply WIT; intros p rg HP HR; apply (JN p rg); auto; cbn [fst snd]; apply in_or_app; auto.
Qed.
Theorem C56_empty_interlace : forall a b k, (a = [] \/ b = []) -> split_params (a, b) (S k) = Raise IndexError.
Proof. intros a b k [-> | ->]; cbn; [reflexivity|]. destruct a; reflexivity. Qed.
(** Beyond the precision of a float the middle of a range may lie outside of it: values of a job that do not belong to
    the original space. *)
Theorem C56_large_refuted : exists a b js j x, split_params (a, b) 1 = Ok js /\ In j js /\ in_space j x /\ ~ in_space (a, b) x.
Proof.
  exists [[(2 ^ 54 + 1, 2 ^ 54 + 3)]], [[(1, 2)]]. eexists. exists ([[(2 ^ 54, 2 ^ 54 + 3)]], [[(1, 2)]]), ([[2 ^ 54]], [[1]]).
  split; [vm_compute; reflexivity|]. split; [right; left; reflexivity|]. split.
  - split; repeat constructor; cbn; lia.
  - intros [H _]. cbn [fst] in H. inversion H as [|? ? ? ? H1 _]; subst. inversion H1 as [|? ? ? ? H2 _]; subst. cbn in H2. lia.
Qed.
Example C56_ex : split_params ([[(-3, 0); (0, 1)]; [(0, 9)]], [[(0, 1); (-1, 2)]]) 2 =
    Ok [([[(-3, -2); (0, 1)]; [(0, 9)]], [[(0, 1); (-1, 2)]]); ([[(-2, -1); (0, 1)]; [(0, 9)]], [[(0, 1); (-1, 2)]]);
        ([[(-1, 0); (0, 1)]; [(0, 9)]], [[(0, 1); (-1, 0)]]); ([[(-1, 0); (0, 1)]; [(0, 9)]], [[(0, 1); (0, 2)]])] /\
  bounded (2 ^ 52) ([[(-3, 0); (0, 1)]; [(0, 9)]], [[(0, 1); (-1, 2)]]) /\
  halvings [(-3, 0); (0, 1)] + halvings [(0, 1); (-1, 2)] = 2 /\
  split_params ([[(-3, 0); (0, 1)]; [(0, 9)]], [[(0, 1); (-1, 2)]]) 3 = Raise ValueError.
Proof.
  split; [vm_compute; reflexivity|]. split; [|split; vm_compute; reflexivity].
  intros p r HP HR. cbn in HP. repeat (destruct HP as [<-|HP]; [cbn in HR; repeat (destruct HR as [<-|HR]; [cbn; lia|]); destruct HR|]). destruct HP.
Qed.

(** ---- C57 ---- *)
Section Runs.
  Context {O : Type}.
  Variables (rd : Q -> Q) (fsqrt : Z -> Q) (ibinom : Z -> Z -> Z) (target : option Q) (eng : Q -> res text) (m0 : mitm O).
  (** A successful run of the search program on a space: building and storing the settings (main.py:107-112). The
      orders in which python iterates over its sets may differ from run to run. *)
  Definition run_of (s : space) (t : mtable) : Prop :=
    exists mo order v m', (forall l, Permutation (mo l) l) /\ (forall ab l, Permutation (order ab l) l) /\
      build_hashtable rd fsqrt ibinom mo order target (fst s) (snd s) v m0 = (m', Ok tt) /\
      t = fst (ht_set eng (UStr (txt "parameters")) (VOne TParams) (mi_table m')).
  (** What is needed of the binomial coefficients, and of the sizes for the sparse class. *)
  Definition fitting (s : space) : Prop :=
    match en_class (mi_enum m0) with
    | PNormal => True
    | PIndexed => forall n j, (j <= n)%nat -> ibinom (Z.of_nat n) (Z.of_nat j) = pascal n j
    | PSparse => exists na nb ka kb, en_special (mi_enum m0) = Some (na, nb) /\ 0 <= na /\ 0 <= nb /\ fst s <> [] /\ snd s <> [] /\
                   Forall (fun r => length r = ka) (fst s) /\ Forall (fun r => length r = kb) (snd s)
    end.

  (** The pairs enumerated for a space are those made from its points. *)
  Lemma pairs_from_points : exists R : point -> abpair -> Prop,
    (forall s mo pairs y, (forall l, Permutation (mo l) l) -> fitting s ->
      rhs_pairs rd fsqrt ibinom mo target m0 (fst s) (snd s) = Ok (pairs, y) ->
      forall ab, In ab pairs <-> exists x, in_space s x /\ R x ab) /\
    (en_class (mi_enum m0) = PNormal -> forall x ab, R x ab -> collapses (fst x) (fst ab) /\ collapses (snd x) (snd ab)).
  Proof.
    unfold fitting. destruct (en_class (mi_enum m0)) eqn:EC.
    - exists (fun x ab => collapses (fst x) (fst ab) /\ collapses (snd x) (snd ab) /\
        (forall p, In p (snd x) -> Enum_Model.has_integer_roots fsqrt p = false) /\
        (mi_exp_only m0 = true -> forall a b da db, fst ab = [a] -> snd ab = [b] -> is_degree a da -> is_degree b db -> db <= 2 * da)).
      split; [|tauto]. intros s mo pairs y _ _ HP [qa qb].
      destruct (C48_pairs O rd fsqrt ibinom mo target m0 (fst s) (snd s) EC) as (pairs' & HP' & HI). rewrite HP in HP'. injection HP' as <- ->.
      rewrite HI. cbn [fst snd]. split.
      + intros (pa & pb & A1 & A2 & A3 & A4 & A5 & A6). exists (pa, pb). split; [split; assumption|]. cbn [fst snd]. auto.
      + intros ([pa pb] & [A1 A2] & A3 & A4 & A5 & A6). exists pa, pb. cbn [fst snd] in *. auto 10.
    - pose (ex := Forall2 (fun p q : list Z => length q = length p /\ forall x, pval q x = shifted_powers p (Z.of_nat (length p) - 1) x)).
      exists (fun x ab => exists pa pb, ex (fst x) pa /\ ex (snd x) pb /\ Enum_Proofs2.passes (enum_set m0) (Enum_Model.has_integer_roots fsqrt) pa pb /\
        collapses pa (fst ab) /\ collapses pb (snd ab)).
      split; [|discriminate]. intros s mo pairs y _ HF HP [qa qb]. unfold rhs_pairs, manip_of in HP. rewrite EC in HP.
      destruct (Properties_Enum.C24_enumeration rd fsqrt (enum_set m0) ibinom target (fst s) (snd s) eq_refl HF) as (out & HG & HI).
      assert (HP2 : pairs = map pair_of out).
      { destruct (en_special (mi_enum m0)) as [[? ?]|]; cbn [bind] in HP; rewrite HG in HP; injection HP as <- _; reflexivity. }
      subst pairs. rewrite in_map_iff. split.
      + intros (it & E & HIt). apply HI in HIt. destruct HIt as (a & b & pa & pb & qa' & qb' & A1 & A2 & A3 & A4 & A5 & A6 & A7 & ->).
        cbn in E. injection E as <- <-. exists (a, b). split; [split; assumption|]. exists pa, pb. auto.
      + intros ([a b] & [A1 A2] & pa & pb & A3 & A4 & A5 & A6 & A7). exists (Enum_Model.IPair qa qb). split; [reflexivity|]. apply HI.
        exists a, b, pa, pb, qa, qb. cbn [fst snd] in *. repeat split; auto; apply A5.
    - pose (places := fun n (ps ms qs : list (list Z)) => length ms = length ps /\ length qs = length ps /\
        forall i, (i < length ps)%nat -> length (nth i ms []) = length (nth i ps []) /\ increasing 0 n (nth i ms []) /\
          placed n (nth i ps []) (nth i ms []) (nth i qs [])).
      exists (fun x ab => exists na nb ma mb pa pb, en_special (mi_enum m0) = Some (na, nb) /\ places na (fst x) ma pa /\ places nb (snd x) mb pb /\
        Enum_Proofs2.passes (enum_set m0) (Enum_Model.has_integer_roots fsqrt) pa pb /\ collapses pa (fst ab) /\ collapses pb (snd ab)).
      split; [|discriminate]. intros s mo pairs y HM (na & nb & ka & kb & HS & Na & Nb & E1 & E2 & K1 & K2) HP [qa qb].
      unfold rhs_pairs, manip_of in HP. rewrite EC, HS in HP.
      destruct (Properties_Enum.C25_enumeration rd fsqrt (enum_set m0) mo na nb target (fst s) (snd s) ka kb eq_refl HM Na Nb E1 E2 K1 K2) as (out & HG & HI).
      assert (HP2 : pairs = map pair_of out).
      { destruct (Enum_Model.sparse_factor ibinom na nb (fst s) (snd s)); cbn [bind] in HP; [|discriminate]. rewrite HG in HP; injection HP as <- _; reflexivity. }
      subst pairs. rewrite in_map_iff. split.
      + intros (it & E & HIt). apply HI in HIt. destruct HIt as (a & b & ma & mb & pa & pb & qa' & qb' & A1 & A2 & A3 & A4 & A5 & A6 & A7 & ->).
        cbn in E. injection E as <- <-. exists (a, b). split; [split; assumption|]. exists na, nb, ma, mb, pa, pb. auto 10.
      + intros ([a b] & [A1 A2] & na' & nb' & ma & mb & pa & pb & HS' & A3 & A4 & A5 & A6 & A7). rewrite HS in HS'. injection HS' as <- <-.
        exists (Enum_Model.IPair qa qb). split; [reflexivity|]. apply HI.
        exists a, b, ma, mb, pa, pb, qa, qb. cbn [fst snd] in *. destruct A3 as (P1 & P2 & P3), A4 as (P4 & P5 & P6), A5 as (P7 & P8).
        repeat split; auto; try apply P3; try apply P6; auto.
  Qed.

  Lemma params_at t q : at_key (fst (ht_set eng (UStr (txt "parameters")) (VOne TParams) t)) (KNum q) = at_key t (KNum q).
  Proof.
    unfold ht_set, ht_manipulate_key, at_key. cbn [bind fst h_data].
    rewrite (d_get_set_other _ RK) by discriminate. rewrite del_olds_other by (intros; discriminate). reflexivity.
  Qed.
  Lemma params_acc t : h_acc (fst (ht_set eng (UStr (txt "parameters")) (VOne TParams) t)) = h_acc t.
  Proof. reflexivity. Qed.

  Lemma run_table (R : point -> abpair -> Prop) s t :
    (forall mo pairs y, (forall l, Permutation (mo l) l) -> rhs_pairs rd fsqrt ibinom mo target m0 (fst s) (snd s) = Ok (pairs, y) ->
      forall ab, In ab pairs <-> exists x, in_space s x /\ R x ab) ->
    mi_table m0 = ht_new (mi_hprec m0) -> 0 <= mi_hprec m0 -> run_of s t ->
    p_table t /\ h_acc t = h_acc (mi_table m0) /\ (forall q, NoDup (at_key t (KNum q))) /\
    (forall q e, In e (at_key t (KNum q)) <-> exists ab i x, e = TEnt ab i /\ in_space s x /\ R x ab /\ In i (mi_filter m0) /\
       gives rd (cf_value rd (mi_iters m0)) (mi_funcs m0) (mi_trunc m0) ab i q).
  Proof.
    intros HR H0 HP (mo & order & v & m' & HM & HO & HB & ->). destruct s as [sa sb]. cbn [fst snd] in *.
    assert (P0 : p_table (mi_table m0)) by (rewrite H0; now apply p_table_new).
    assert (P1 : p_table (mi_table m')).
    { pose proof (p_table_build rd fsqrt ibinom mo order target sa sb v m0 HO P0) as H. rewrite HB in H. exact H. }
    destruct (rhs_pairs rd fsqrt ibinom mo target m0 sa sb) as [[pairs y]|e] eqn:EP.
    2:{ unfold build_hashtable in HB. rewrite EP in HB. discriminate. }
    destruct (C48_build O rd fsqrt ibinom mo order target sa sb v m0 m' pairs y (Ok tt) HO (proj1 P0) EP HB) as (_ & TK & HE & _ & HN & HC).
    destruct (HC eq_refl) as [_ HC']. clear HC.
    assert (N0 : forall k e, ~ stored (mi_table m0) k e) by (intros k e (l & HI & _); rewrite H0 in HI; exact HI).
    split; [now apply p_table_params|]. split; [|split].
    - rewrite params_acc. unfold build_hashtable in HB. rewrite EP in HB.
      destruct (iter2hashtable rd (cf_value rd (mi_iters m0)) (mi_funcs m0) (mi_trunc m0) order (mi_filter m0) (pairs, y) v (mi_table m0)) as [t x] eqn:EI.
      injection HB as <- ->. destruct (iter_spec _ _ _ _ _ HO _ _ _ _ _ _ (proj1 P0) EI) as (_ & HA & _). exact HA.
    - intros q. rewrite params_at. destruct (HE (KNum q) [] (at_key (mi_table m') (KNum q))) as (n & -> & ND & _).
      + right. split; [reflexivity|]. intros w. rewrite H0. intros [].
      + apply entries_at; [exact TK|reflexivity].
      + exact ND.
    - intros q e. rewrite params_at, <- (stored_at _ _ _ TK). split.
      + intros HI. destruct (HN _ _ HI) as [HX|(ab & i & q' & -> & EQ & H1 & H2 & H3)]; [destruct (N0 _ _ HX)|]. injection EQ as <-.
        apply (HR mo pairs y HM EP) in H1. destruct H1 as (x & X1 & X2). exists ab, i, x. auto.
      + intros (ab & i & x & -> & X1 & X2 & H2 & H3). apply HC'; auto. apply (HR mo pairs y HM EP). exists x. auto.
  Qed.

  Lemma join_p_table : forall r t j, Forall p_table (t :: r) -> join_tables (t :: r) = Ok j -> p_table j.
  Proof.
    induction r as [|a r IH]; intros t j H HJ; inversion H as [|? ? P1 P2]; subst.
    - cbn in HJ. injection HJ as <-. exact P1.
    - inversion P2 as [|? ? P3 P4]; subst. unfold join_tables in *. cbn [foldM] in HJ.
      pose proof (p_table_join a t P3 P1) as PJ. destruct (ht_append a t) as [acc [u|e]]; cbn [bind] in HJ; [|discriminate].
      apply (IH acc); [constructor; assumption|exact HJ].
  Qed.
  Lemma at_key_entries t q : table_ok t -> Hashtable_Proofs2.entries (KNum q) t = at_key t (KNum q).
  Proof.
    intros [ND HL]. unfold Hashtable_Proofs2.entries, at_key. destruct (d_get rawkey_eqb (h_data t) (KNum q)) as [w|] eqn:E; [|reflexivity].
    apply (d_get_Some_in _ RK) in E. destruct (HL _ _ E) as (l & ->). reflexivity.
  Qed.
  Lemma join_at ts : ts <> [] -> Forall p_table ts -> (forall a b, In a ts -> In b ts -> h_acc a = h_acc b) ->
    exists j, join_tables ts = Ok j /\ p_table j /\ forall q, at_key j (KNum q) = concat (map (fun t => at_key t (KNum q)) ts).
  Proof.
    intros NE HP HA. destruct ts as [|t r]; [congruence|].
    destruct (join_all r t) as (j & J1 & _ & _ & J4).
    - revert HP. apply Forall_impl. intros a ((ND & _) & _). exact ND.
    - apply Forall_forall. intros a HI. apply HA; [now right|now left].
    - exists j. split; [exact J1|]. assert (PJ : p_table j) by (eapply join_p_table; eauto). split; [exact PJ|].
      intros q. rewrite <- (at_key_entries j q (proj1 PJ)), J4. f_equal. apply map_ext_in. intros a HI.
      apply at_key_entries. rewrite Forall_forall in HP. apply (HP a HI).
  Qed.

  (** Splitting keeps what is needed of the ranges. *)
  Lemma set_hi_length i v r : length (set_hi i v r) = length r.
  Proof. revert i. induction r as [|[lo hi] r IH]; intros [|i]; cbn; auto. Qed.
  Lemma set_lo_length i v r : length (set_lo i v r) = length r.
  Proof. revert i. induction r as [|[lo hi] r IH]; intros [|i]; cbn; auto. Qed.
  Lemma split_fitting k : forall j js, split_params j k = Ok js -> fitting j -> Forall fitting js.
  Proof.
    unfold fitting. destruct (en_class (mi_enum m0)).
    1,2: intros; apply Forall_forall; auto.
    assert (G : forall k j js ka kb, split_params j k = Ok js -> fst j <> [] -> snd j <> [] ->
      Forall (fun r => length r = ka) (fst j) -> Forall (fun r => length r = kb) (snd j) ->
      Forall (fun j' => fst j' <> [] /\ snd j' <> [] /\ Forall (fun r => length r = ka) (fst j') /\ Forall (fun r => length r = kb) (snd j')) js).
    { clear. induction k as [|k IH]; intros [a b] js ka kb H Na Nb Ka Kb; [cbn in H; injection H as <-; auto|].
      destruct a as [|a0 a]; [cbn in Na; congruence|]. destruct b as [|b0 b]; [cbn in Nb; congruence|]. cbn [split_params] in H.
      cbn [fst snd] in *. inversion Ka as [|? ? Ka1 Ka2]; subst. inversion Kb as [|? ? Kb1 Kb2]; subst.
      assert (ST : forall j1 j2, match split_params j1 k with Ok l1 => match split_params j2 k with Ok l2 => Ok (l1 ++ l2) | Raise e => Raise e end | Raise e => Raise e end = Ok js ->
        fst j1 <> [] -> snd j1 <> [] -> fst j2 <> [] -> snd j2 <> [] ->
        Forall (fun r => length r = length a0) (fst j1) -> Forall (fun r => length r = length b0) (snd j1) ->
        Forall (fun r => length r = length a0) (fst j2) -> Forall (fun r => length r = length b0) (snd j2) ->
        Forall (fun j' => fst j' <> [] /\ snd j' <> [] /\ Forall (fun r => length r = length a0) (fst j') /\ Forall (fun r => length r = length b0) (snd j')) js).
      { intros j1 j2 HJ H1 H2 H3 H4 H5 H6 H7 H8. destruct (split_params j1 k) as [l1|] eqn:E1; [|discriminate].
        destruct (split_params j2 k) as [l2|] eqn:E2; [|discriminate]. injection HJ as <-. apply Forall_app. split; [eapply (IH j1)|eapply (IH j2)]; eauto. }
      destruct (first_wide a0) as [i|]; cbn [bind fst snd on_first] in H.
      - eapply ST; [exact H| | | | | | | |]; cbn [fst snd]; try discriminate; constructor; rewrite ?set_hi_length, ?set_lo_length; auto.
      - destruct (first_wide b0) as [i|]; cbn [bind fst snd on_first] in H; [|discriminate].
        eapply ST; [exact H| | | | | | | |]; cbn [fst snd]; try discriminate; constructor; rewrite ?set_hi_length, ?set_lo_length; auto. }
    intros j js H (na & nb & ka & kb & HS & Na & Nb & E1 & E2 & K1 & K2).
    pose proof (G k j js ka kb H E1 E2 K1 K2) as HG. revert HG. apply Forall_impl. intros j' (A & B & C & D). exists na, nb, ka, kb. auto 10.
  Qed.
  Lemma split_partition k j js : bounded (2 ^ 52) j -> split_params j k = Ok js -> js <> [] /\ partition j js.
  Proof.
    intros HB HS. destruct k as [|k].
    - cbn in HS. injection HS as <-. split; [discriminate|]. split.
      + intros x. split; [intros H; exists j; split; [now left|exact H]|intros (j' & [<-|[]] & H); exact H].
      + constructor; constructor.
    - destruct j as [[|a0 a] [|b0 b]]; try discriminate.
      pose proof (split_spec (S k) (a0 :: a, b0 :: b)) as H. rewrite HS in H.
      destruct H as (_ & L & P & _); [split; [discriminate|split; [discriminate|exact HB]]|].
      split; [|exact P]. intros ->. cbn [length] in L. pose proof (Nat.pow_nonzero 2 (S k)). lia.
  Qed.
End Runs.

(** Joining the tables of the jobs, in any order, gives under every number the same set of entries as one run over
    the whole space. *)
Theorem C57_same_entries : forall (O : Type) rd fsqrt ibinom target eng (m0 : mitm O) s k js ts ts' single,
  mi_table m0 = ht_new (mi_hprec m0) -> 0 <= mi_hprec m0 -> bounded (2 ^ 52) s -> fitting ibinom m0 s ->
  split_params s k = Ok js -> Forall2 (run_of rd fsqrt ibinom target eng m0) js ts -> Permutation ts ts' ->
  run_of rd fsqrt ibinom target eng m0 s single ->
  exists joint, join_tables ts' = Ok joint /\ forall q e, stored joint (KNum q) e <-> stored single (KNum q) e.
Proof.
  intros O rd fsqrt ib target eng m0 s k js ts ts' single H0 HP HB HF HS HR PM H1.
  destruct (pairs_from_points rd fsqrt ib target m0) as (R & HRR & _).
  destruct (split_partition k s js HB HS) as (NE & PA & _).
  pose proof (split_fitting ib m0 k s js HS HF) as FJ.
  assert (RT : forall s', fitting ib m0 s' -> forall t, run_of rd fsqrt ib target eng m0 s' t -> _) by
    (intros s' HF' t HT; exact (run_table rd fsqrt ib target eng m0 R s' t (fun mo pairs y HM => HRR s' mo pairs y HM HF') H0 HP HT)).
  assert (F2 : forall t, In t ts -> exists j, In j js /\ run_of rd fsqrt ib target eng m0 j t).
  { clear - HR. induction HR; intros t HI; [destruct HI|]. destruct HI as [->|HI]; [exists x; split; [now left|assumption]|].
    destruct (IHHR t HI) as (j & ? & ?). exists j. split; [now right|assumption]. }
  assert (F1 : forall j, In j js -> exists t, In t ts /\ run_of rd fsqrt ib target eng m0 j t).
  { clear - HR. induction HR; intros j HI; [destruct HI|]. destruct HI as [->|HI]; [exists y; split; [now left|assumption]|].
    destruct (IHHR j HI) as (t & ? & ?). exists t. split; [now right|assumption]. }
  rewrite Forall_forall in FJ.
  destruct (join_at ts') as (joint & J1 & J2 & J3).
  - intros ->. apply Permutation_sym, Permutation_nil in PM. subst ts. inversion HR; subst. now apply NE.
  - apply Forall_forall. intros t HI. apply (Permutation_in t (Permutation_sym PM)) in HI. destruct (F2 t HI) as (j & HJ & HT).
    exact (proj1 (RT j (FJ j HJ) t HT)).
  - assert (G : forall a, In a ts' -> h_acc a = h_acc (mi_table m0)).
    { intros t HI. apply (Permutation_in t (Permutation_sym PM)) in HI. destruct (F2 t HI) as (j & HJ & HT).
      destruct (RT j (FJ j HJ) t HT) as (_ & HA & _). exact HA. }
    intros a b Ia Ib. rewrite (G a Ia), (G b Ib). reflexivity.
  - exists joint. split; [exact J1|]. intros q e. destruct (RT s HF single H1) as (P1 & _ & _ & SI).
    rewrite (stored_at _ _ _ (proj1 J2)), (stored_at _ _ _ (proj1 P1)), J3, SI, in_concat. split.
    + intros (l & HL & HE). apply in_map_iff in HL. destruct HL as (t & <- & HI). apply (Permutation_in t (Permutation_sym PM)) in HI.
      destruct (F2 t HI) as (j & HJ & HT). destruct (RT j (FJ j HJ) t HT) as (_ & _ & _ & SJ). apply SJ in HE.
      destruct HE as (ab & i & x & -> & X1 & X2 & X3). exists ab, i, x. split; [reflexivity|]. split; [apply PA; eauto|auto].
    + intros (ab & i & x & -> & X1 & X2 & X3). apply PA in X1. destruct X1 as (j & HJ & X1). destruct (F1 j HJ) as (t & HI & HT).
      exists (at_key t (KNum q)). split; [apply in_map_iff; exists t; split; [reflexivity|]; exact (Permutation_in t PM HI)|].
      destruct (RT j (FJ j HJ) t HT) as (_ & _ & _ & SJ). apply SJ. exists ab, i, x. auto.
Qed.

(** For the normal class nothing is stored twice either: the lists are the same up to order. *)
Theorem C57_same_lists : forall (O : Type) rd fsqrt ibinom target eng (m0 : mitm O) s k js ts ts' single,
  en_class (mi_enum m0) = PNormal ->
  mi_table m0 = ht_new (mi_hprec m0) -> 0 <= mi_hprec m0 -> bounded (2 ^ 52) s ->
  split_params s k = Ok js -> Forall2 (run_of rd fsqrt ibinom target eng m0) js ts -> Permutation ts ts' ->
  run_of rd fsqrt ibinom target eng m0 s single ->
  exists joint, join_tables ts' = Ok joint /\
    forall q l l', Properties_MITM.entries joint (KNum q) l -> Properties_MITM.entries single (KNum q) l' -> Permutation l l'.
Proof.
  intros O rd fsqrt ib target eng m0 s k js ts ts' single EC H0 HP HB HS HR PM H1.
  destruct (pairs_from_points rd fsqrt ib target m0) as (R & HRR & HRC). specialize (HRC EC).
  assert (FT : forall s, fitting ib m0 s) by (intros s'; unfold fitting; now rewrite EC).
  destruct (split_partition k s js HB HS) as (NE & PA & PD).
  assert (RT : forall s' t, run_of rd fsqrt ib target eng m0 s' t -> _) by
    (intros s' t HT; exact (run_table rd fsqrt ib target eng m0 R s' t (fun mo pairs y HM => HRR s' mo pairs y HM (FT s')) H0 HP HT)).
  assert (PT : Forall p_table ts').
  { apply Forall_forall. intros t HI. apply (Permutation_in t (Permutation_sym PM)) in HI.
    clear - HR RT HI. induction HR; [destruct HI|]. destruct HI as [->|HI]; [exact (proj1 (RT _ _ H))|auto]. }
  assert (AC : forall a, In a ts' -> h_acc a = h_acc (mi_table m0)).
  { intros t HI. apply (Permutation_in t (Permutation_sym PM)) in HI.
    clear - HR RT HI. induction HR; [destruct HI|]. destruct HI as [->|HI]; [exact (proj1 (proj2 (RT _ _ H)))|auto]. }
  destruct (join_at ts') as (joint & J1 & J2 & J3).
  - intros ->. apply Permutation_sym, Permutation_nil in PM. subst ts. inversion HR; subst. now apply NE.
  - exact PT.
  - intros a b Ia Ib. rewrite (AC a Ia), (AC b Ib). reflexivity.
  - exists joint. split; [exact J1|]. intros q l l' HL HL'. destruct (RT s single H1) as (P1 & _ & ND1 & SI).
    apply (entries_at _ _ _ (proj1 J2)) in HL. apply (entries_at _ _ _ (proj1 P1)) in HL'. subst l l'. rewrite J3.
    assert (PC : Permutation (concat (map (fun t => at_key t (KNum q)) ts')) (concat (map (fun t => at_key t (KNum q)) ts))).
    { rewrite <- !flat_map_concat_map. apply Permutation_flat_map. now apply Permutation_sym. }
    rewrite PC.
    (* a point is determined by the pair made from it *)
    assert (INJ : forall r ps ps' qs, in_ranges r ps -> in_ranges r ps' -> collapses ps qs -> collapses ps' qs -> ps = ps').
    { intros r ps ps' qs I1 I2 C1 C2. assert (LE : length ps = length ps').
      { pose proof (Enum_Proofs.Forall2_len _ _ _ I1). pose proof (Enum_Proofs.Forall2_len _ _ _ I2). congruence. }
      destruct C1 as [(p & n & -> & ->)|[N1 ->]], C2 as [(p' & n' & -> & E2)|[N2 E2]].
      - injection E2 as <-. rewrite !repeat_length in LE. now rewrite LE.
      - subst ps'. rewrite repeat_length in LE. discriminate.
      - subst ps. rewrite repeat_length in LE. discriminate.
      - exact E2. }
    apply NoDup_Permutation; [|apply ND1|].
    + assert (INJS : forall x x' ab, in_space s x -> in_space s x' -> R x ab -> R x' ab -> x = x').
      { intros [xa xb] [ya yb] ab [A1 A2] [A3 A4] HX HY. apply HRC in HX. apply HRC in HY. cbn [fst snd] in *. destruct HX, HY.
        f_equal; [eapply (INJ (fst s)); eauto|eapply (INJ (snd s)); eauto]. }
      assert (INC : forall j, In j js -> forall x, in_space j x -> in_space s x) by (intros j HJ x HX; apply PA; eauto).
      clear - HR RT PD INJS INC. induction HR as [|j t js ts HT HR IH]; cbn [map concat]; [constructor|].
      inversion PD as [|? ? PD1 PD2]; subst. destruct (RT j t HT) as (_ & _ & NDj & SJ).
      assert (ND2 : NoDup (concat (map (fun t => at_key t (KNum q)) ts))) by (apply IH; [exact PD2|intros; eapply INC; [right; eassumption|eassumption]]).
      assert (APP : forall (A : Type) (l1 l2 : list A), NoDup l1 -> NoDup l2 -> (forall x, In x l1 -> ~ In x l2) -> NoDup (l1 ++ l2)).
      { clear. induction l1 as [|x l1 IH]; intros l2 N1 N2 HD; [exact N2|]. inversion N1; subst. cbn. constructor.
        - rewrite in_app_iff. intros [HX|HX]; [contradiction|]. apply (HD x); [now left|exact HX].
        - apply IH; auto. intros y HY. apply HD. now right. }
      apply APP; [apply NDj|exact ND2|]. intros e HE HE2. apply SJ in HE. destruct HE as (ab & i & x & -> & X1 & X2 & _).
      apply in_concat in HE2. destruct HE2 as (l & HL & HE2). apply in_map_iff in HL. destruct HL as (t' & <- & HT').
      assert (exists j', In j' js /\ run_of rd fsqrt ib target eng m0 j' t') as (j' & HJ' & HR').
      { clear - HR HT'. induction HR; [destruct HT'|]. destruct HT' as [->|HT']; [exists x; split; [now left|assumption]|].
        destruct (IHHR HT') as (j & ? & ?). exists j. split; [now right|assumption]. }
      destruct (RT j' t' HR') as (_ & _ & _ & SJ'). apply SJ' in HE2. destruct HE2 as (ab' & i' & x' & EQ & Y1 & Y2 & _). injection EQ as <- <-.
      assert (x = x') as <-.
      { apply (INJS x x' ab); auto; [apply (INC j); [now left|exact X1]|apply (INC j'); [now right|exact Y1]]. }
      rewrite Forall_forall in PD1. apply (PD1 j' HJ' x). auto.
    + assert (F2 : forall t, In t ts -> exists j, In j js /\ run_of rd fsqrt ib target eng m0 j t).
      { clear - HR. induction HR; intros t HI; [destruct HI|]. destruct HI as [->|HI]; [exists x; split; [now left|assumption]|].
        destruct (IHHR t HI) as (j & ? & ?). exists j. split; [now right|assumption]. }
      assert (F1 : forall j, In j js -> exists t, In t ts /\ run_of rd fsqrt ib target eng m0 j t).
      { clear - HR. induction HR; intros j HI; [destruct HI|]. destruct HI as [->|HI]; [exists y; split; [now left|assumption]|].
        destruct (IHHR j HI) as (t & ? & ?). exists t. split; [now right|assumption]. }
      intros e. rewrite SI, in_concat. split.
      * intros (l & HL & HE). apply in_map_iff in HL. destruct HL as (t & <- & HI).
        destruct (F2 t HI) as (j & HJ & HT). destruct (RT j t HT) as (_ & _ & _ & SJ). apply SJ in HE.
        destruct HE as (ab & i & x & -> & X1 & X2 & X3). exists ab, i, x. split; [reflexivity|]. split; [apply PA; eauto|auto].
      * intros (ab & i & x & -> & X1 & X2 & X3). apply PA in X1. destruct X1 as (j & HJ & X1). destruct (F1 j HJ) as (t & HI & HT).
        exists (at_key t (KNum q)). split; [apply in_map_iff; exists t; split; [reflexivity|exact HI]|].
        destruct (RT j t HT) as (_ & _ & _ & SJ). apply SJ. exists ab, i, x. auto.
Qed.
(** A concrete distributed search: two jobs, three entries under one number. *)
Definition space_ex : space := ([[(1, 3); (1, 2)]], [[(1, 3)]]).
Definition jobs_ex : list space := [([[(1, 2); (1, 2)]], [[(1, 3)]]); ([[(2, 3); (1, 2)]], [[(1, 3)]])].
Definition tab_ex (s : space) : mtable :=
  fst (ht_set eng_pinned (UStr (txt "parameters")) (VOne TParams) (mi_table (fst
    (build_hashtable (rnd 60) Enum_Roots.isqrt53 ib_ex (fun l => l) (fun _ l => l) None (fst s) (snd s) true (m_ex PNormal [0; 1] 6))))).
Example C57_ex : split_params space_ex 1 = Ok jobs_ex /\ bounded (2 ^ 52) space_ex /\
  run_of (rnd 60) Enum_Roots.isqrt53 ib_ex None eng_pinned (m_ex PNormal [0; 1] 6) space_ex (tab_ex space_ex) /\
  Forall2 (run_of (rnd 60) Enum_Roots.isqrt53 ib_ex None eng_pinned (m_ex PNormal [0; 1] 6)) jobs_ex (map tab_ex jobs_ex) /\
  match join_tables (rev (map tab_ex jobs_ex)) with
  | Ok j => (length (h_data j), ht_get eng_pinned (UStr (txt "parameters")) j) = (9%nat, Ok (VList [TParams; TParams]))
  | Raise _ => False end.
Proof.
  assert (RUN : forall s, snd (build_hashtable (rnd 60) Enum_Roots.isqrt53 ib_ex (fun l => l) (fun _ l => l) None (fst s) (snd s) true (m_ex PNormal [0; 1] 6)) = Ok tt ->
    run_of (rnd 60) Enum_Roots.isqrt53 ib_ex None eng_pinned (m_ex PNormal [0; 1] 6) s (tab_ex s)).
  { intros s H. unfold run_of, tab_ex. exists (fun l => l), (fun _ l => l), true.
    destruct (build_hashtable _ _ _ _ _ _ _ _ _ _) as [m' x]. cbn [snd fst] in *. subst x. exists m'. repeat split; intros; apply Permutation_refl. }
  split; [vm_compute; reflexivity|]. split; [|split; [|split]].
  - intros p r HP HR. cbn in HP. repeat (destruct HP as [<-|HP]; [cbn in HR; repeat (destruct HR as [<-|HR]; [cbn; lia|]); destruct HR|]). destruct HP.
  - apply RUN. vm_compute. reflexivity.
  - repeat constructor; apply RUN; vm_compute; reflexivity.
  - vm_compute. reflexivity.
Qed.
(** With the sparse class two jobs may find the same pair, which is then stored twice. *)
Definition m_sp : mitm ulcd :=
  with_table {| mi_enum := {| en_class := PSparse; en_special := Some (3, 1) |}; mi_iters := 5; mi_exp_only := true; mi_target := 3; mi_name := [];
     mi_filter := [0]; mi_trunc := true; mi_hprec := 6; mi_prec := 60; mi_table := ht_new 6; mi_funcs := [f_id]; mi_params := [] |} (ht_new 6).
Definition tab_sp (s : space) : mtable :=
  fst (ht_set eng_pinned (UStr (txt "parameters")) (VOne TParams) (mi_table (fst
    (build_hashtable (rnd 60) Enum_Roots.isqrt53 ib_ex (fun l => l) (fun _ l => l) None (fst s) (snd s) true m_sp)))).
Definition s_sp : space := ([[(0, 2); (0, 2)]], [[(1, 2)]]).
Definition js_sp : list space := [([[(0, 1); (0, 2)]], [[(1, 2)]]); ([[(1, 2); (0, 2)]], [[(1, 2)]])].
Definition q_sp : Q := match h_data (tab_sp s_sp) with (KNum q, _) :: _ => q | _ => 0%Q end.
Theorem C57_sparse_lists_refuted : exists s js joint q e,
  split_params s 1 = Ok js /\ bounded (2 ^ 52) s /\ fitting ib_ex m_sp s /\
  Forall2 (run_of (rnd 60) Enum_Roots.isqrt53 ib_ex None eng_pinned m_sp) js (map tab_sp js) /\
  run_of (rnd 60) Enum_Roots.isqrt53 ib_ex None eng_pinned m_sp s (tab_sp s) /\
  join_tables (map tab_sp js) = Ok joint /\
  Properties_MITM.entries (tab_sp s) (KNum q) [e] /\ Properties_MITM.entries joint (KNum q) [e; e].
Proof.
  assert (RUN : forall s, snd (build_hashtable (rnd 60) Enum_Roots.isqrt53 ib_ex (fun l => l) (fun _ l => l) None (fst s) (snd s) true m_sp) = Ok tt ->
    run_of (rnd 60) Enum_Roots.isqrt53 ib_ex None eng_pinned m_sp s (tab_sp s)).
  { intros s H. unfold run_of, tab_sp. exists (fun l => l), (fun _ l => l), true.
    destruct (build_hashtable _ _ _ _ _ _ _ _ _ _) as [m' x]. cbn [snd fst] in *. subst x. exists m'. repeat split; intros; apply Permutation_refl. }
  exists s_sp, js_sp, (match join_tables (map tab_sp js_sp) with Ok j => j | Raise _ => ht_new 0 end), q_sp, (TEnt ([[0; 1; 0]], [[1]]) 0).
  split; [vm_compute; reflexivity|]. split; [|split; [|split; [|split; [|split; [|split]]]]].
  - intros p r HP HR. cbn in HP. repeat (destruct HP as [<-|HP]; [cbn in HR; repeat (destruct HR as [<-|HR]; [cbn; lia|]); destruct HR|]). destruct HP.
  - exists 3, 1, 2%nat, 1%nat. repeat split; try discriminate; repeat constructor.
  - repeat constructor; apply RUN; vm_compute; reflexivity.
  - apply RUN; vm_compute; reflexivity.
  - vm_compute; reflexivity.
  - left. vm_compute. auto.
  - left. vm_compute. auto.
Qed.

Print Assumptions C56_split.
Print Assumptions C56_nonempty.
Print Assumptions C56_empty_interlace.
Print Assumptions C56_large_refuted.
Print Assumptions C57_same_entries.
Print Assumptions C57_same_lists.
Print Assumptions C57_sparse_lists_refuted.

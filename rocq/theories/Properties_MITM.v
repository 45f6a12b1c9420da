(** Properties C36, C48, C49, C74-C76: building the table. *)
From Coq Require Import Ascii String ZArith QArith Qabs Qround List Bool Lia Lqa Permutation Sorted.
From Verif Require Import PyBase PyBase_Proofs Rnd Rnd_Proofs ContFrac_Model Hashtable_Model Hashtable_Proofs Spec_Enum
  ULCD_Model Rational_Model MITM_Model Spec_MITM MITM_Build MITM_Build2 MITM_Clicks.
From Verif Require Enum_Model Enum_Proofs Enum_Proofs2 Enum_Roots Properties_Enum.
Import ListNotations.
Local Open Scope Z_scope.
Local Open Scope list_scope.

(** ---- a concrete search object for the examples ---- *)
Definition f_id (v : mpfv) : res mpfv := Ok v.
Definition f_inv (v : mpfv) : res mpfv :=
  match v with Fin q => if Qeq_bool q 0 then Raise ZeroDivisionError else Ok (Fin (rnd 60 (/ q))) | NaN => Ok NaN end.
Definition s_ex (c : pclass) (flt : list Z) (h : Z) : msettings :=
  {| s_target := rnd 60 (22 # 7); s_name := txt "pi"; s_filter := flt; s_trunc := true; s_hprec := h; s_class := c;
     s_special := Some (2, 2); s_prec := 60; s_funcs := [f_id; f_inv] |}.
Definition m_ex (c : pclass) (flt : list Z) (h : Z) : mitm ulcd :=
  match mitm_new true 6 (s_ex c flt h) with Ok m => m | Raise _ => mitm_reset (mitm_reset
    {| mi_enum := {| en_class := c; en_special := None |}; mi_iters := 0; mi_exp_only := true; mi_target := 0; mi_name := [];
       mi_filter := []; mi_trunc := true; mi_hprec := 0; mi_prec := 0; mi_table := ht_new 0; mi_funcs := []; mi_params := [] |}) end.
Definition ib_ex (n k : Z) : Z := pascal (Z.to_nat n) (Z.to_nat k).
Definition bld (v : bool) (m : mitm ulcd) : mitm ulcd * res unit :=
  build_hashtable (rnd 60) Enum_Roots.isqrt53 ib_ex (fun l => l) (fun _ l => l) None [[(1, 3); (1, 2)]] [[(1, 3)]] v m.

(** ---- C36 ---- *)
(** Numbers are written by [eng] as texts that do not begin with a 'p'. *)
Definition eng_numeric (eng : Q -> res text) : Prop := forall q s, eng q = Ok s -> forall r, s <> "p"%char :: r.

(** However an object was made (building, new settings, loading and joining tables, ...), looking for clicks with
    any left-hand sides and any kind of numbers either raises or reports nothing. *)
Theorem C36_no_clicks : forall (O : Type) rd eng (cls : lhs_class O) enum (m m' : mitm O),
  built m -> eng_numeric eng -> find_clicks rd eng cls enum m = (m', Ok tt) -> mi_params m' = [].
Proof.
  intros O rd eng cls enum m m' HB HE HF. unfold find_clicks in HF.
  destruct (enum (mi_target m)) as [gen|e] eqn:EG; cbn [bind] in HF; [|discriminate].
  destruct (find_clicks_loop rd eng cls (mi_trunc m) (mi_table m) gen) as [cs|e] eqn:EC; [|discriminate].
  inversion HF; subst. cbn. eapply find_clicks_none; [exact (proj1 (built_p m HB))|exact HE|exact EC].
Qed.
(** No number is a member of such a table; indexing with a number raises KeyError. *)
Theorem C36_invisible : forall (O : Type) eng (m : mitm O) q s,
  built m -> eng_numeric eng -> eng q = Ok s ->
  ht_contains eng (UNum q) (mi_table m) = Ok false /\ ht_get eng (UNum q) (mi_table m) = Raise KeyError.
Proof.
  intros O eng m q s HB HE HS. destruct (built_p m HB) as [HP _].
  assert (N : forall r, s <> p_char :: r) by (intros r; exact (HE q s HS r)).
  split; [eapply contains_p; [exact HP|right; eauto|exact N]|].
  pose proof (contains_p eng (mi_table m) (UNum q) s HP (or_intror (ex_intro _ q (conj eq_refl HS))) N) as HC.
  unfold ht_contains in HC. unfold ht_get. unfold ht_manipulate_key in *. rewrite HS in *. cbn [bind] in *.
  injection HC as HC. remember (map (fun i => py_take (i + 1) s) (h_hist (mi_table m))) as olds. clear Heqolds.
  induction olds as [|k r IH]; cbn in HC |- *.
  - unfold dict_getitem, raw_get. unfold raw_mem, d_mem in HC. destruct (d_get _ _ _); [discriminate|reflexivity].
  - destruct (raw_mem (h_data (mi_table m)) k); [discriminate|]. auto.
Qed.
(** With the numbers of mpmath, which have no such method, the first finite left-hand side already ends the search. *)
Theorem C36_pinned : forall (O : Type) rd (cls : lhs_class O) enum (m : mitm O) o os x q,
  enum (mi_target m) = Ok (o :: os, x) -> lc_val cls o = Fin q ->
  find_clicks rd eng_pinned cls enum m = (m, Raise AttributeError).
Proof.
  intros O rd cls enum m o os x q HE HV. unfold find_clicks. rewrite HE. cbn [bind].
  assert (EK : exists r, trunc_int rd (mi_trunc m) (absv (Fin q)) = Ok (Fin r)).
  { unfold trunc_int. destruct (mi_trunc m); cbn; eauto. }
  destruct EK as (r & EK).
  unfold find_clicks_loop. cbn [fst foldM]. unfold click_body at 1. rewrite HV, EK. reflexivity.
Qed.
(** The entries are there all the same. *)
Example C36_ex : snd (bld true (m_ex PNormal [0; 1] 6)) = Ok tt /\
  length (h_data (mi_table (fst (bld true (m_ex PNormal [0; 1] 6))))) = 8%nat /\
  stored (mi_table (fst (bld true (m_ex PNormal [0; 1] 6))))
    (KNum (Qred (rnd 60 (frac (Qabs (match cf_value (rnd 60) 6 ([[1; 1]], [[2]]) with Ok v => v | Raise _ => 0 end)))))) (TEnt ([[1; 1]], [[2]]) 0).
Proof.
  split; [vm_compute; reflexivity|]. split; [vm_compute; reflexivity|].
  exists [TEnt ([[1; 1]], [[2]]) 0]. split; [|now left]. vm_compute. auto 10.
Qed.

(** ---- C48 ---- *)
(** [l] is the list of entries under the key [k]; no list counts as an empty one. *)
Definition entries (t : mtable) (k : rawkey) (l : list tent) : Prop :=
  In (k, VList l) (h_data t) \/ (l = [] /\ forall v, ~ In (k, VList v) (h_data t)).
Lemma entries_at t k l : table_ok t -> entries t k l <-> l = at_key t k.
Proof.
  intros [ND _]. unfold entries, at_key. split.
  - intros [HI|[-> HN]].
    + apply (d_in_get _ RK) in HI; [|exact ND]. now rewrite HI.
    + destruct (d_get rawkey_eqb (h_data t) k) as [[v|y]|] eqn:E; try reflexivity.
      exfalso. apply (HN v). now apply (d_get_Some_in _ RK).
  - intros ->. destruct (d_get rawkey_eqb (h_data t) k) as [[v|y]|] eqn:E.
    + left. now apply (d_get_Some_in _ RK).
    + right. split; [reflexivity|]. intros v HI. apply (d_in_get _ RK) in HI; [|exact ND]. congruence.
    + right. split; [reflexivity|]. intros v HI. apply (d_in_get _ RK) in HI; [|exact ND]. congruence.
Qed.

(** Every object that arises has a well-formed table. *)
Theorem C48_tables : forall (O : Type) (m : mitm O), built m -> table_ok (mi_table m).
Proof. intros O m H. destruct (built_p m H) as [[HT _] _]. exact HT. Qed.

(** Building, for every class of enumerators, any order of iteration over the set of functions and whatever the
    outcome: only the table changes; every list is extended by new, pairwise different entries; every new entry belongs
    to an enumerated pair, a selected function and the key that these give; after success all of them are there. *)
Theorem C48_build : forall (O : Type) rd fsqrt ibinom mo order target ra rb v (m m' : mitm O) pairs y x,
  (forall ab l, Permutation (order ab l) l) -> table_ok (mi_table m) ->
  rhs_pairs rd fsqrt ibinom mo target m ra rb = Ok (pairs, y) ->
  build_hashtable rd fsqrt ibinom mo order target ra rb v m = (m', x) ->
  m' = with_table m (mi_table m') /\ table_ok (mi_table m') /\
  (forall k l l', entries (mi_table m) k l -> entries (mi_table m') k l' -> extends l l') /\
  (forall s w, In (KStr s, w) (h_data (mi_table m')) <-> In (KStr s, w) (h_data (mi_table m))) /\
  (forall k e, stored (mi_table m') k e -> stored (mi_table m) k e \/
     exists ab i q, e = TEnt ab i /\ k = KNum q /\ In ab pairs /\ In i (mi_filter m) /\
       gives rd (cf_value rd (mi_iters m)) (mi_funcs m) (mi_trunc m) ab i q) /\
  (x = Ok tt -> y = Ok tt /\
     forall ab i q, In ab pairs -> In i (mi_filter m) ->
       gives rd (cf_value rd (mi_iters m)) (mi_funcs m) (mi_trunc m) ab i q -> stored (mi_table m') (KNum q) (TEnt ab i)).
Proof.
  intros O rd fsqrt ib mo order target ra rb v m m' pairs y x HO HT HP HB.
  unfold build_hashtable in HB. rewrite HP in HB.
  destruct (iter2hashtable rd (cf_value rd (mi_iters m)) (mi_funcs m) (mi_trunc m) order (mi_filter m) (pairs, y) v (mi_table m))
    as [t x'] eqn:EI. inversion HB; subst m' x'. cbn [mi_table with_table].
  destruct (iter_spec _ _ _ _ _ HO _ _ _ _ _ _ HT EI) as (HT' & HA & HH & HS & HE & HN & HC).
  split; [reflexivity|]. split; [exact HT'|]. split; [|split; [|split]].
  - intros k l l' H1 H2. apply (entries_at _ k l HT) in H1. apply (entries_at _ k l' HT') in H2. subst. apply HE.
  - intros s w. split; intros HI.
    + apply (d_get_Some_in _ RK). rewrite <- HS. apply (d_in_get _ RK); [exact (proj1 HT')|exact HI].
    + apply (d_get_Some_in _ RK). rewrite HS. apply (d_in_get _ RK); [exact (proj1 HT)|exact HI].
  - intros k e HI. apply (stored_at _ k e HT') in HI. destruct (HN k e HI) as [HO'|HX]; [left; now apply (stored_at _ k e HT)|right].
    exact HX.
  - intros HX. destruct (HC HX) as (HY & HG). split; [exact HY|]. intros ab i q H1 H2 H3. apply (stored_at _ _ _ HT'). now apply HG.
Qed.

(** The pairs of the normal class are those of the coefficient ranges that pass the filters, with interlaces of
    identical polynomials collapsed. *)
Theorem C48_pairs : forall (O : Type) rd fsqrt ibinom mo target (m : mitm O) ra rb, en_class (mi_enum m) = PNormal ->
  exists pairs, rhs_pairs rd fsqrt ibinom mo target m ra rb = Ok (pairs, Ok tt) /\
    forall qa qb, In (qa, qb) pairs <->
      exists pa pb, in_ranges ra pa /\ in_ranges rb pb /\ collapses pa qa /\ collapses pb qb /\
        (forall p, In p pb -> Enum_Model.has_integer_roots fsqrt p = false) /\
        (mi_exp_only m = true -> forall a b da db, qa = [a] -> qb = [b] -> is_degree a da -> is_degree b db -> db <= 2 * da).
Proof.
  intros O rd fsqrt ib mo target m ra rb HC.
  destruct (Properties_Enum.C21_enumeration rd fsqrt (enum_set m) target ra rb eq_refl) as (L & out & _ & HL & HG & HF).
  exists (map pair_of out). split.
  - unfold rhs_pairs, manip_of. rewrite HC. destruct (en_special (mi_enum m)) as [[na nb]|]; cbn [bind]; rewrite HG; reflexivity.
  - assert (CU : forall ps q q', collapses ps q -> collapses ps q' -> q = q') by (intros; eapply Enum_Proofs.collapses_fun; eauto).
    intros qa qb. rewrite in_map_iff. split.
    + intros (it & HI & HIn).
      assert (exists x, In x L /\ exists qa' qb', collapses (fst x) qa' /\ collapses (snd x) qb' /\ it = Enum_Model.IPair qa' qb') as (x & HX & HX2).
      { clear - HF HIn. induction HF; [destruct HIn|]. destruct HIn as [->|HI]; [exists x; split; [now left|assumption]|].
        destruct (IHHF HI) as (z & Hz & H'). exists z. split; [now right|assumption]. }
      destruct x as [pa pb]. cbn [fst snd] in HX2. destruct HX2 as (qa' & qb' & C1 & C2 & ->). cbn in HI. inversion HI; subst qa' qb'.
      apply HL in HX. destruct HX as (R1 & R2 & PR & PE). exists pa, pb. repeat split; auto.
      intros HE a b da db -> -> D1 D2. eapply PE; eauto.
    + intros (pa & pb & R1 & R2 & C1 & C2 & PR & PE).
      assert (HX : In (pa, pb) L).
      { apply HL. repeat split; auto. intros HE a b da db CA CB D1 D2. eapply (PE HE); [exact (CU _ _ _ C1 CA)|exact (CU _ _ _ C2 CB)|exact D1|exact D2]. }
      assert (exists it, In it out /\ exists qa' qb', collapses pa qa' /\ collapses pb qb' /\ it = Enum_Model.IPair qa' qb') as (it & HI & qa' & qb' & C3 & C4 & ->).
      { clear - HF HX. induction HF; [destruct HX|]. destruct HX as [->|HI]; [exists y; split; [now left|assumption]|].
        destruct (IHHF HI) as (z & Hz & H'). exists z. split; [now right|assumption]. }
      exists (Enum_Model.IPair qa' qb'). split; [|exact HI]. cbn. rewrite (CU _ _ _ C1 C3), (CU _ _ _ C2 C4). reflexivity.
Qed.

(** The filters of the enumeration. *)
Definition kept_pair (fsqrt : Z -> Q) (exp_only : bool) (pb qa qb : list (list Z)) : Prop :=
  (forall p, In p pb -> Enum_Model.has_integer_roots fsqrt p = false) /\
  (exp_only = true -> forall a b da db, qa = [a] -> qb = [b] -> is_degree a da -> is_degree b db -> db <= 2 * da).
Lemma passes_kept (O : Type) (m : mitm O) fsqrt pa pb qa qb : collapses pa qa -> collapses pb qb ->
  (Enum_Proofs2.passes (enum_set m) (Enum_Model.has_integer_roots fsqrt) pa pb <-> kept_pair fsqrt (mi_exp_only m) pb qa qb).
Proof.
  intros C1 C2. assert (CU : forall ps q q', collapses ps q -> collapses ps q' -> q = q') by (intros; eapply Enum_Proofs.collapses_fun; eauto).
  unfold Enum_Proofs2.passes, kept_pair. cbn. split; intros [H1 H2]; (split; [auto|]); intros HE a b da db.
  - intros -> -> D1 D2. eapply H2; eauto.
  - intros CA CB D1 D2. eapply (H2 HE); [exact (CU _ _ _ C1 CA)|exact (CU _ _ _ C2 CB)|exact D1|exact D2].
Qed.
(** The same for the indexed class: the coefficients of the ranges are those of a polynomial in shifted powers. *)
Theorem C48_pairs_indexed : forall (O : Type) rd fsqrt ibinom mo target (m : mitm O) ra rb, en_class (mi_enum m) = PIndexed ->
  (forall n j, (j <= n)%nat -> ibinom (Z.of_nat n) (Z.of_nat j) = pascal n j) ->
  exists pairs, rhs_pairs rd fsqrt ibinom mo target m ra rb = Ok (pairs, Ok tt) /\
    forall qa qb, In (qa, qb) pairs <->
      exists a b pa pb, in_ranges ra a /\ in_ranges rb b /\
        let expands := Forall2 (fun p q => length q = length p /\ forall x, pval q x = shifted_powers p (Z.of_nat (length p) - 1) x) in
        expands a pa /\ expands b pb /\ collapses pa qa /\ collapses pb qb /\ kept_pair fsqrt (mi_exp_only m) pb qa qb.
Proof.
  intros O rd fsqrt ib mo target m ra rb HC HB.
  destruct (Properties_Enum.C24_enumeration rd fsqrt (enum_set m) ib target ra rb eq_refl HB) as (out & HG & HF).
  exists (map pair_of out). split.
  - unfold rhs_pairs, manip_of. rewrite HC. destruct (en_special (mi_enum m)) as [[na nb]|]; cbn [bind]; rewrite HG; reflexivity.
  - intros qa qb. rewrite in_map_iff. cbv zeta. split.
    + intros (it & HI & HIn). apply HF in HIn. destruct HIn as (a & b & pa & pb & qa' & qb' & R1 & R2 & E1 & E2 & P & C1 & C2 & ->). cbn in HI. injection HI as -> ->.
      apply (passes_kept O m fsqrt pa pb qa qb C1 C2) in P. exists a, b, pa, pb. auto 10.
    + intros (a & b & pa & pb & R1 & R2 & E1 & E2 & C1 & C2 & P). apply (passes_kept O m fsqrt pa pb qa qb C1 C2) in P. exists (Enum_Model.IPair qa qb). split; [reflexivity|]. apply HF.
      cbv zeta. exists a, b, pa, pb, qa, qb. auto 10.
Qed.
(** The same for the sparse class: the coefficients of the ranges are placed at increasing positions of longer polynomials,
    in every way. *)
Theorem C48_pairs_sparse : forall (O : Type) rd fsqrt ibinom mo target (m : mitm O) ra rb na nb ka kb, en_class (mi_enum m) = PSparse -> en_special (mi_enum m) = Some (na, nb) ->
  (forall l, Permutation (mo l) l) -> 0 <= na -> 0 <= nb ->
  ra <> [] -> rb <> [] -> Forall (fun r => length r = ka) ra -> Forall (fun r => length r = kb) rb ->
  exists pairs, rhs_pairs rd fsqrt ibinom mo target m ra rb = Ok (pairs, Ok tt) /\
    forall qa qb, In (qa, qb) pairs <->
      exists a b ma mb pa pb, in_ranges ra a /\ in_ranges rb b /\
        let places n ps ms qs := length ms = length ps /\ length qs = length ps /\
          forall i, (i < length ps)%nat -> length (nth i ms []) = length (nth i ps []) /\ increasing 0 n (nth i ms []) /\ placed n (nth i ps []) (nth i ms []) (nth i qs []) in
        places na a ma pa /\ places nb b mb pb /\ collapses pa qa /\ collapses pb qb /\ kept_pair fsqrt (mi_exp_only m) pb qa qb.
Proof.
  intros O rd fsqrt ib mo target m ra rb na nb ka kb HC HS HM Na Nb NRa NRb Ka Kb.
  destruct (Properties_Enum.C25_enumeration rd fsqrt (enum_set m) mo na nb target ra rb ka kb eq_refl HM Na Nb NRa NRb Ka Kb) as (out & HG & HF).
  exists (map pair_of out). split.
  - unfold rhs_pairs, manip_of. rewrite HC, HS. unfold Enum_Model.sparse_factor. destruct ra; [contradiction|]. destruct rb; [contradiction|]. cbn [bind]. rewrite HG. reflexivity.
  - intros qa qb. rewrite in_map_iff. cbv zeta. cbv zeta in HF. split.
    + intros (it & HI & HIn). apply HF in HIn. destruct HIn as (a & b & ma & mb & pa & pb & qa' & qb' & R1 & R2 & E1 & E2 & P & C1 & C2 & ->). cbn in HI. injection HI as -> ->.
      apply (passes_kept O m fsqrt pa pb qa qb C1 C2) in P. exists a, b, ma, mb, pa, pb. auto 10.
    + intros (a & b & ma & mb & pa & pb & R1 & R2 & E1 & E2 & C1 & C2 & P). apply (passes_kept O m fsqrt pa pb qa qb C1 C2) in P. exists (Enum_Model.IPair qa qb). split; [reflexivity|]. apply HF.
      exists a, b, ma, mb, pa, pb, qa, qb. auto 10.
Qed.

(** Building succeeds (ends as the enumeration does) when the selected functions exist, do not raise at the values of the fractions, and the
    fractions raise nothing but ZeroDivisionError. *)
Theorem C48_succeeds : forall (O : Type) rd fsqrt ibinom mo order target ra rb v (m : mitm O) pairs y,
  (forall ab l, Permutation (order ab l) l) -> table_ok (mi_table m) ->
  rhs_pairs rd fsqrt ibinom mo target m ra rb = Ok (pairs, y) ->
  (forall i, In i (mi_filter m) -> exists f, py_nth (mi_funcs m) i = Ok f) ->
  (v = true -> plain_lists (mi_table m)) ->
  (forall ab, In ab pairs -> match cf_value rd (mi_iters m) ab with
     | Ok q => (q == 0)%Q \/ forall i f, In i (mi_filter m) -> py_nth (mi_funcs m) i = Ok f -> exists w, f (Fin q) = Ok w
     | Raise e => e = ZeroDivisionError end) ->
  snd (build_hashtable rd fsqrt ibinom mo order target ra rb v m) = y.
Proof.
  intros O rd fsqrt ib mo order target ra rb v m pairs y HO HT HP HF HV HC. unfold build_hashtable. rewrite HP.
  pose proof (iter_ok rd (cf_value rd (mi_iters m)) (mi_funcs m) (mi_trunc m) order HO (mi_filter m) (pairs, y) v (mi_table m) HT HF HV HC) as H.
  destruct (iter2hashtable _ _ _ _ _ _ _ _ _) as [t x]. exact H.
Qed.

(** With rounding to [p] bits the key of a value of that precision is exactly its fractional part, at least 0 and
    below 1. *)
Theorem C48_key : forall p cfval funcs ab i k,
  (forall f v w, In f funcs -> f (Fin v) = Ok (Fin w) -> (rnd p w == w)%Q) ->
  gives (rnd p) cfval funcs true ab i k ->
  (0 <= k < 1)%Q /\ exists v f w n, cfval ab = Ok v /\ In f funcs /\ f (Fin v) = Ok (Fin w) /\ (Qabs w == inject_Z n + k)%Q.
Proof.
  intros p cfval funcs ab i k HP (v & f & w & HV & _ & HF & HW & _ & ->).
  assert (IN : In f funcs).
  { unfold py_nth in HF. match type of HF with (if ?b then _ else _) = _ => destruct b end; [discriminate|].
    match type of HF with match ?x with _ => _ end = _ => destruct x eqn:E end; [|discriminate]. inversion HF; subst. eapply nth_error_In; eauto. }
  assert (EW : (rnd p (Qabs w) == Qabs w)%Q).
  { pose proof (HP f v w IN HW) as HR. apply Qabs_case; intros; [exact HR|]. rewrite rnd_opp, HR. reflexivity. }
  pose proof (rnd_frac p (Qabs w) (Qabs_nonneg w) EW) as EF. rewrite Qred_correct, EF.
  split; [apply frac_bounds|]. exists v, f, w, (Qfloor (Qabs w)). repeat split; auto. rewrite Qred_correct, EF. unfold frac. ring.
Qed.

Example C48_pairs_ex : 
  rhs_pairs (rnd 60) Enum_Roots.isqrt53 ib_ex (fun l => l) None (m_ex PIndexed [0; 1] 6) [[(1, 2); (1, 3)]] [[(1, 2)]] = Ok ([([[1; 2]], [[1]]); ([[2; 3]], [[1]])], Ok tt) /\
  rhs_pairs (rnd 60) Enum_Roots.isqrt53 ib_ex (fun l => l) None (m_ex PSparse [0; 1] 6) [[(3, 4)]] [[(5, 6)]] =
    Ok ([([[3; 0]], [[5; 0]]); ([[0; 3]], [[5; 0]]); ([[0; 3]], [[0; 5]])], Ok tt) /\
  (forall n j, (j <= n)%nat -> ib_ex (Z.of_nat n) (Z.of_nat j) = pascal n j) /\
  en_special (mi_enum (m_ex PSparse [0; 1] 6)) = Some (2, 2).
Proof. split; [vm_compute; reflexivity|]. split; [vm_compute; reflexivity|]. split; [|reflexivity]. intros n j _. unfold ib_ex. now rewrite !Nat2Z.id. Qed.
Example C48_ex : rhs_pairs (rnd 60) Enum_Roots.isqrt53 ib_ex (fun l => l) None (m_ex PNormal [0; 1] 6) [[(1, 3); (1, 2)]] [[(1, 3)]] =
  Ok ([([[1; 1]], [[1]]); ([[1; 1]], [[2]]); ([[2; 1]], [[1]]); ([[2; 1]], [[2]])], Ok tt) /\
  built (m_ex PNormal [0; 1] 6) /\ snd (bld true (m_ex PNormal [0; 1] 6)) = Ok tt /\
  plain_lists (mi_table (fst (bld true (m_ex PNormal [0; 1] 6)))).
Proof.
  split; [vm_compute; reflexivity|]. split; [eapply (B_new true 6 (s_ex PNormal [0; 1] 6)); [vm_compute; discriminate|reflexivity]|].
  split; [vm_compute; reflexivity|].
  assert (H : Forall (fun kv => exists l, snd kv = VList l /\ forallb (fun x => match x with TParams => false | _ => true end) l = true)
                (h_data (mi_table (fst (bld true (m_ex PNormal [0; 1] 6)))))).
  { vm_compute. repeat constructor; eexists; split; reflexivity. }
  intros k v HI _. rewrite Forall_forall in H. destruct (H _ HI) as (l & E & HL). exists l. split; [exact E|].
  intros HT. rewrite forallb_forall in HL. specialize (HL _ HT). discriminate.
Qed.

(** ---- C49 ---- *)
Lemma iter_fixed rd cfval funcs trunc order flt gen v t : (forall ab l, Permutation (order ab l) l) -> table_ok t ->
  (forall ab i q, In ab (fst gen) -> In i flt -> gives rd cfval funcs trunc ab i q -> stored t (KNum q) (TEnt ab i)) ->
  fst (iter2hashtable rd cfval funcs trunc order flt gen v t) = t.
Proof.
  intros HO HT HG. unfold iter2hashtable. destruct (filtered_funcs funcs flt) as [fs|e] eqn:EF; [|reflexivity].
  destruct (if v then blacklist t else Ok []) as [bl|e] eqn:EB; [|reflexivity].
  assert (BL : bl_ok bl).
  { destruct v; [now apply (blacklist_ok t)|]. inversion EB. constructor. }
  destruct (filtered_funcs_spec funcs flt fs EF) as [HP HF].
  destruct (pairs_loop rd cfval trunc order (fst gen) fs bl (v && match h_data t with [] => false | _ :: _ => true end) t)
    as [[t1 k1] x] eqn:EP.
  destruct (pairs_loop_spec rd cfval trunc order HO fs bl HP BL _ _ _ _ _ _ HT EP) as ((js & (rest & EJ) & -> & _) & _).
  assert (ED : store_all js t = t).
  { apply store_all_done; [exact HT|]. intros ab i k HI. apply stored_at; [exact HT|].
    assert (HJ : In (ab, i, k) (flat_map (pjob rd cfval trunc order fs) (fst gen))) by (rewrite EJ; apply in_app_iff; now left).
    destruct (proj1 (in_jobs rd cfval funcs trunc order HO flt fs (fst gen) EF ab i k)) as (H1 & H2 & H3).
    { exists k. split; [reflexivity|exact HJ]. }
    apply HG; auto. }
  rewrite ED. destruct x as [[]|e]; reflexivity.
Qed.

(** A second run over pairs that were covered by a successful run - in any order, with any of the selected functions,
    with or without validate_entry_doesnt_exist, and however it ends - changes nothing. *)
Theorem C49_again : forall (O : Type) rd fsqrt ibinom mo1 mo2 order1 order2 target1 target2 ra rb ra2 rb2 v1 v2 (m m1 : mitm O) pairs1 pairs2 y1 y2,
  (forall ab l, Permutation (order1 ab l) l) -> (forall ab l, Permutation (order2 ab l) l) -> table_ok (mi_table m) ->
  rhs_pairs rd fsqrt ibinom mo1 target1 m ra rb = Ok (pairs1, y1) ->
  build_hashtable rd fsqrt ibinom mo1 order1 target1 ra rb v1 m = (m1, Ok tt) ->
  rhs_pairs rd fsqrt ibinom mo2 target2 m ra2 rb2 = Ok (pairs2, y2) -> incl pairs2 pairs1 ->
  fst (build_hashtable rd fsqrt ibinom mo2 order2 target2 ra2 rb2 v2 m1) = m1.
Proof.
  intros O rd fsqrt ib mo1 mo2 order1 order2 tg1 tg2 ra rb ra2 rb2 v1 v2 m m1 p1 p2 y1 y2 H1 H2 HT R1 B1 R2 HI.
  destruct (C48_build O rd fsqrt ib mo1 order1 tg1 ra rb v1 m m1 p1 y1 (Ok tt) H1 HT R1 B1) as (EM & HT1 & _ & _ & _ & HC).
  destruct (HC eq_refl) as (_ & HG).
  assert (R2' : rhs_pairs rd fsqrt ib mo2 tg2 m1 ra2 rb2 = Ok (p2, y2)) by (rewrite EM; exact R2).
  unfold build_hashtable. rewrite R2'.
  pose proof (iter_fixed rd (cf_value rd (mi_iters m1)) (mi_funcs m1) (mi_trunc m1) order2 (mi_filter m1) (p2, y2) v2 (mi_table m1) H2 HT1) as HF.
  destruct (iter2hashtable rd (cf_value rd (mi_iters m1)) (mi_funcs m1) (mi_trunc m1) order2 (mi_filter m1) (p2, y2) v2 (mi_table m1)) as [t x].
  cbn [fst] in *. rewrite HF.
  - destruct m1; reflexivity.
  - intros ab i q HA HF' HG'. apply HG; [now apply HI|rewrite EM in HF'; exact HF'|rewrite EM in HG'; exact HG'].
Qed.

(** For the normal class: any ranges inside the first ones. *)
Definition inside (r2 r1 : list (list (Z * Z))) : Prop := Forall2 (Forall2 (fun a b => fst b <= fst a /\ snd a <= snd b)) r2 r1.
Lemma inside_in r2 r1 ps : inside r2 r1 -> in_ranges r2 ps -> in_ranges r1 ps.
Proof.
  intros HI. revert ps. induction HI as [|x y r2 r1 HX HI IH]; intros ps HP; inversion HP as [|p ? ps' ? Hp HP']; subst; constructor; [|apply IH; assumption].
  clear - HX Hp. revert p Hp. induction HX as [|x y r2 r1 [A B] HX IH]; intros p Hp; inversion Hp; subst; constructor; [lia|auto].
Qed.
Theorem C49_normal : forall (O : Type) rd fsqrt ibinom mo order1 order2 target ra rb ra2 rb2 v1 v2 (m m1 : mitm O),
  (forall ab l, Permutation (order1 ab l) l) -> (forall ab l, Permutation (order2 ab l) l) -> built m ->
  en_class (mi_enum m) = PNormal -> inside ra2 ra -> inside rb2 rb ->
  build_hashtable rd fsqrt ibinom mo order1 target ra rb v1 m = (m1, Ok tt) ->
  fst (build_hashtable rd fsqrt ibinom mo order2 target ra2 rb2 v2 m1) = m1.
Proof.
  intros O rd fsqrt ib mo order1 order2 tg ra rb ra2 rb2 v1 v2 m m1 H1 H2 HB HC IA IB B.
  destruct (C48_pairs O rd fsqrt ib mo tg m ra rb HC) as (p1 & R1 & P1).
  destruct (C48_pairs O rd fsqrt ib mo tg m ra2 rb2 HC) as (p2 & R2 & P2).
  eapply (C49_again O rd fsqrt ib mo mo order1 order2 tg tg ra rb ra2 rb2); eauto using C48_tables.
  intros [qa qb] HQ. apply P1. apply P2 in HQ. destruct HQ as (pa & pb & I1 & I2 & HR).
  exists pa, pb. split; [now apply (inside_in ra2)|]. split; [now apply (inside_in rb2)|]. exact HR.
Qed.

(** validate_entry_doesnt_exist never makes a difference to the table or to success (it may raise, see C76). *)
Theorem C49_validate : forall (O : Type) rd fsqrt ibinom mo order target ra rb (m : mitm O),
  mi_filter m <> [] -> plain_lists (mi_table m) ->
  fst (build_hashtable rd fsqrt ibinom mo order target ra rb true m) = fst (build_hashtable rd fsqrt ibinom mo order target ra rb false m) /\
  (snd (build_hashtable rd fsqrt ibinom mo order target ra rb true m) = Ok tt <->
   snd (build_hashtable rd fsqrt ibinom mo order target ra rb false m) = Ok tt).
Proof.
  intros O rd fsqrt ib mo order tg ra rb m HF HP. unfold build_hashtable.
  destruct (rhs_pairs rd fsqrt ib mo tg m ra rb) as [gen|e]; [|cbn; tauto].
  destruct (iter_validate rd (cf_value rd (mi_iters m)) (mi_funcs m) (mi_trunc m) order (mi_filter m) gen (mi_table m) HF HP) as [E1 E2].
  destruct (iter2hashtable _ _ _ _ _ _ _ true _) as [t1 x1], (iter2hashtable _ _ _ _ _ _ _ false _) as [t2 x2].
  cbn in *. subst. tauto.
Qed.
Example C49_ex :
  let m1 := fst (bld true (m_ex PNormal [0; 1] 6)) in
  mi_table (fst (bld true m1)) = mi_table m1 /\ snd (bld true m1) = Ok tt /\ inside [[(1, 2); (1, 2)]] [[(1, 3); (1, 2)]] /\
  mi_table (fst (build_hashtable (rnd 60) Enum_Roots.isqrt53 ib_ex (fun l => l) (fun _ l => rev l) None [[(1, 2); (1, 2)]] [[(1, 3)]] false m1)) = mi_table m1 /\
  snd (build_hashtable (rnd 60) Enum_Roots.isqrt53 ib_ex (fun l => l) (fun _ l => rev l) None [[(1, 2); (1, 2)]] [[(1, 3)]] false m1) = Ok tt.
Proof.
  split; [vm_compute; reflexivity|]. split; [vm_compute; reflexivity|]. split; [repeat constructor; cbn; lia|].
  split; vm_compute; reflexivity.
Qed.

(** ---- C74: changing the settings ---- *)
(** The enumerator is made anew only when the old one does not belong to the new class or a class derived from it. *)
Theorem C74_settings : forall (O : Type) rd fsqrt ibinom mo target (s : msettings) (m m2 : mitm O),
  mitm_new (mi_exp_only m) (mi_iters m) s = Ok m2 ->
  exists m', mitm_redefine s m = (m', Ok tt) /\
    mi_params m' = [] /\ h_data (mi_table m') = h_data (mi_table m) /\ mi_prec m' = mi_prec m /\
    (s_class s = PNormal \/ s_class s = en_class (mi_enum m) ->
       forall ra rb, rhs_pairs rd fsqrt ibinom mo target m' ra rb = rhs_pairs rd fsqrt ibinom mo target m ra rb) /\
    (s_class s <> PNormal -> s_class s <> en_class (mi_enum m) ->
       forall ra rb, rhs_pairs rd fsqrt ibinom mo target m' ra rb = rhs_pairs rd fsqrt ibinom mo target m2 ra rb).
Proof.
  intros O rd fsqrt ib mo tg s m m2 HN. unfold mitm_new in HN. unfold mitm_redefine.
  destruct (enumer_new (s_class s) (s_special s)) as [en|e] eqn:EN; cbn [bind] in HN; [|discriminate]. inversion HN; subst m2; clear HN.
  destruct (isinstance (en_class (mi_enum m)) (s_class s)) eqn:EI.
  - eexists. split; [reflexivity|]. cbn. repeat split; auto. intros N1 N2. exfalso.
    destruct (en_class (mi_enum m)), (s_class s); cbn in EI; try discriminate; congruence.
  - eexists. split; [reflexivity|]. cbn. repeat split; auto. intros [E|E]; exfalso; rewrite E in EI; [destruct (en_class (mi_enum m)); discriminate|].
    destruct (en_class (mi_enum m)); discriminate.
Qed.
(** Hence the claim "afterwards the object enumerates as a new one with these settings" is false, in two ways: going
    back from the indexed to the normal class, and changing the sizes of the sparse class. *)
Definition s_sparse (na nb : Z) : msettings :=
  {| s_target := rnd 60 (22 # 7); s_name := txt "pi"; s_filter := [0]; s_trunc := true; s_hprec := 6; s_class := PSparse;
     s_special := Some (na, nb); s_prec := 60; s_funcs := [f_id] |}.
Theorem C74_enumerator_refuted : exists s1 s2 (m m' m2 : mitm ulcd) ra rb,
  mitm_new true 6 s1 = Ok m /\ mitm_redefine s2 m = (m', Ok tt) /\ mitm_new true 6 s2 = Ok m2 /\ s_class s2 = PNormal /\
  rhs_pairs (rnd 60) Enum_Roots.isqrt53 ib_ex (fun l => l) None m' ra rb <>
  rhs_pairs (rnd 60) Enum_Roots.isqrt53 ib_ex (fun l => l) None m2 ra rb.
Proof.
  exists (s_ex PIndexed [0] 6), (s_ex PNormal [0] 6).
  destruct (mitm_new true 6 (s_ex PIndexed [0] 6)) as [m|e] eqn:E1; [|discriminate].
  destruct (mitm_redefine (s_ex PNormal [0] 6) m) as [m' x] eqn:E2.
  destruct (mitm_new true 6 (s_ex PNormal [0] 6)) as [m2|e] eqn:E3; [|discriminate].
  exists m, m', m2, [[(1, 2); (1, 2); (1, 2)]], [[(1, 2)]].
  inversion E1; subst m. inversion E3; subst m2. inversion E2; subst m' x.
  repeat split; try reflexivity. vm_compute. discriminate.
Qed.
Theorem C74_sizes_refuted : exists s1 s2 (m m' m2 : mitm ulcd) ra rb,
  mitm_new true 6 s1 = Ok m /\ mitm_redefine s2 m = (m', Ok tt) /\ mitm_new true 6 s2 = Ok m2 /\ s_special s2 = Some (3, 1) /\
  rhs_pairs (rnd 60) Enum_Roots.isqrt53 ib_ex (fun l => l) None m' ra rb <>
  rhs_pairs (rnd 60) Enum_Roots.isqrt53 ib_ex (fun l => l) None m2 ra rb.
Proof.
  exists (s_sparse 2 1), (s_sparse 3 1).
  destruct (mitm_new true 6 (s_sparse 2 1)) as [m|e] eqn:E1; [|discriminate].
  destruct (mitm_redefine (s_sparse 3 1) m) as [m' x] eqn:E2.
  destruct (mitm_new true 6 (s_sparse 3 1)) as [m2|e] eqn:E3; [|discriminate].
  exists m, m', m2, [[(1, 2)]], [[(1, 2)]].
  inversion E1; subst m. inversion E3; subst m2. inversion E2; subst m' x.
  repeat split; try reflexivity. vm_compute. discriminate.
Qed.
Example C74_ex : (exists m2, mitm_new (O := ulcd) true 6 (s_ex PIndexed [0] 6) = Ok m2) /\ en_class (mi_enum (m_ex PNormal [0] 6)) = PNormal.
Proof. split; [eexists; reflexivity|reflexivity]. Qed.

(** ---- C75: exceptions of post-processing functions ---- *)
(** When all selected functions raise at the first value and there is no earlier key (no validation, or an empty
    table), the exception that is seen is UnboundLocalError, whatever was raised. *)
Theorem C75_masked : forall (O : Type) rd fsqrt ibinom mo order target ra rb v (m : mitm O) ab r y q,
  (forall ab l, Permutation (order ab l) l) ->
  rhs_pairs rd fsqrt ibinom mo target m ra rb = Ok (ab :: r, y) ->
  mi_filter m <> [] -> (forall i, In i (mi_filter m) -> exists f e, py_nth (mi_funcs m) i = Ok f /\ f (Fin q) = Raise e) ->
  cf_value rd (mi_iters m) ab = Ok q -> ~ (q == 0)%Q -> v = false \/ h_data (mi_table m) = [] ->
  build_hashtable rd fsqrt ibinom mo order target ra rb v m = (m, Raise UnboundLocalError).
Proof.
  intros O rd fsqrt ib mo order tg ra rb v m ab r y q HO HP HN HF HC HQ HV.
  unfold build_hashtable. rewrite HP.
  assert (EI : iter2hashtable rd (cf_value rd (mi_iters m)) (mi_funcs m) (mi_trunc m) order (mi_filter m) (ab :: r, y) v (mi_table m) =
    (mi_table m, Raise UnboundLocalError)).
  { unfold iter2hashtable.
    destruct (filtered_funcs_total (mi_funcs m) (mi_filter m)) as (fs & EF).
    { intros i Hi. destruct (HF i Hi) as (f & e & E & _). eauto. }
    rewrite EF. destruct (filtered_funcs_spec _ _ _ EF) as [FP FI].
    pose proof (filtered_nil _ _ _ EF HN) as FN.
    assert (EB : (if v then blacklist (mi_table m) else Ok []) = Ok []).
    { destruct HV as [-> | E0]; [reflexivity|]. destruct v; [|reflexivity]. unfold blacklist. rewrite E0. reflexivity. }
    rewrite EB.
    assert (EK : v && match h_data (mi_table m) with [] => false | _ :: _ => true end = false).
    { destruct HV as [-> | E0]; [reflexivity|]. rewrite E0. apply andb_false_r. }
    rewrite EK. cbn [fst pairs_loop d_get]. rewrite HC.
    assert (NQ : isnormal (Fin q) = true).
    { cbn. apply negb_true_iff. destruct (Qeq_bool q 0) eqn:E; [|reflexivity]. apply Qeq_bool_iff in E. contradiction. }
    rewrite NQ. cbn [negb].
    pose proof (HO ab fs) as PM.
    destruct (order ab fs) as [|z zs] eqn:EO; [apply Permutation_nil in PM; congruence|].
    assert (HZ : In z fs) by (eapply Permutation_in; [exact PM|now left]).
    rewrite Forall_forall in FP. pose proof (FP _ HZ) as ZP. destruct z as [i f|i]; [|destruct ZP].
    apply FI in HZ. destruct HZ as [Hi Hf]. destruct (HF i Hi) as (f' & e & E1 & E2). rewrite Hf in E1. inversion E1; subst f'.
    cbn [funcs_loop]. rewrite E2. reflexivity. }
  rewrite EI. destruct m; reflexivity.
Qed.
(** If a key is bound (validation of a table that is not empty) the exception itself is seen. *)
Theorem C75_seen : forall (O : Type) rd fsqrt ibinom mo order target ra rb (m m' : mitm O) pairs y e,
  (forall ab l, Permutation (order ab l) l) -> table_ok (mi_table m) -> plain_lists (mi_table m) -> h_data (mi_table m) <> [] ->
  rhs_pairs rd fsqrt ibinom mo target m ra rb = Ok (pairs, y) ->
  (forall i, In i (mi_filter m) -> exists f, py_nth (mi_funcs m) i = Ok f) ->
  build_hashtable rd fsqrt ibinom mo order target ra rb true m = (m', Raise e) ->
  y = Raise e \/ (exists ab, In ab pairs /\ cf_value rd (mi_iters m) ab = Raise e) \/
  exists ab q i f, In ab pairs /\ cf_value rd (mi_iters m) ab = Ok q /\ In i (mi_filter m) /\ py_nth (mi_funcs m) i = Ok f /\ f (Fin q) = Raise e.
Proof.
  intros O rd fsqrt ib mo order tg ra rb m m' pairs y e HO HT HP HD HR HF HB.
  unfold build_hashtable in HB. rewrite HR in HB. unfold iter2hashtable in HB.
  destruct (filtered_funcs_total _ _ HF) as (fs & EF). rewrite EF in HB.
  destruct (filtered_funcs_spec _ _ _ EF) as [FP FI].
  destruct (blacklist_total _ HP) as (bl & EB). rewrite EB in HB.
  assert (EK : true && match h_data (mi_table m) with [] => false | _ :: _ => true end = true) by (destruct (h_data (mi_table m)); [congruence|reflexivity]).
  rewrite EK in HB. cbn [fst snd] in HB.
  destruct (pairs_loop rd (cf_value rd (mi_iters m)) (mi_trunc m) order pairs fs bl true (mi_table m)) as [[t1 k1] x] eqn:EP.
  destruct (pairs_loop_spec _ _ _ _ HO fs bl FP (blacklist_ok _ _ EB) _ _ _ _ _ _ HT EP) as (_ & _ & HX).
  destruct x as [[]|e'].
  - inversion HB; subst. now left.
  - inversion HB; subst. right. destruct (HX e eq_refl) as [HA|(ab & q & i & f & e' & A & B & C & D & [E|[E _]])]; [now left| |discriminate].
    subst e'. right. apply FI in C. destruct C. exists ab, q, i, f. auto.
Qed.
Definition f_att (v : mpfv) : res mpfv := Raise AttributeError.
Definition m_att : mitm ulcd := {| mi_enum := {| en_class := PNormal; en_special := None |}; mi_iters := 6; mi_exp_only := true;
  mi_target := 3; mi_name := txt "pi"; mi_filter := [0]; mi_trunc := true; mi_hprec := 6; mi_prec := 60;
  mi_table := mi_table (fst (bld true (m_ex PNormal [0; 1] 6))); mi_funcs := [f_att]; mi_params := [] |}.
Example C75_ex : snd (bld true (with_table m_att (ht_new 6))) = Raise UnboundLocalError /\
  snd (bld true m_att) = Raise AttributeError.
Proof. split; vm_compute; reflexivity. Qed.

(** ---- C76: the settings stored in the table ---- *)
Definition params_stored {O} (eng : Q -> res text) (m : mitm O) : mitm O :=
  with_table m (fst (ht_set eng (UStr (txt "parameters")) (VOne TParams) (mi_table m))).
Lemma py_take_txt n : 10 <= n -> py_take n (txt "parameters") = txt "parameters".
Proof.
  intros H. unfold py_take. replace (0 <=? n) with true by (symmetry; apply Z.leb_le; lia).
  apply firstn_all2. cbn. lia.
Qed.
Lemma py_take_short n : 0 <= n < 10 -> text_eqb (py_take n (txt "parameters")) (txt "parameters") = false.
Proof.
  intros H. assert (In n [0; 1; 2; 3; 4; 5; 6; 7; 8; 9]) as HI by (cbn; lia). clear H.
  cbn in HI. repeat (destruct HI as [<-|HI]; [vm_compute; reflexivity|]). destruct HI.
Qed.
Lemma blacklist_err t k : In (k, VOne TParams) (h_data t) -> is_params_key k = false -> blacklist t = Raise ValueError.
Proof.
  intros HI HK. unfold blacklist. generalize (@nil (abpair * list setelt)) as b.
  assert (AE : forall l b e, foldM bl_add l b = Raise e -> e = ValueError).
  { induction l as [|x r IH]; intros b e H; cbn in H; [discriminate|]. destruct x as [ab i|]; cbn in H; [eauto|congruence]. }
  induction (h_data t) as [|[k' v'] r IH]; intros b; [destruct HI|]. cbn [foldM fst snd].
  destruct HI as [E|HI].
  - inversion E; subst k' v'. rewrite HK. reflexivity.
  - destruct (is_params_key k'); cbn [bind]; [now apply IH|]. destruct v' as [l|x]; cbn [bind]; [|reflexivity].
    destruct (foldM bl_add l b) as [b'|e] eqn:E; cbn [bind]; [now apply IH|]. f_equal. eapply AE; eauto.
Qed.
(** With an accuracy of less than eight digits the key 'parameters' is cut; a later run that validates takes the
    settings for entries and raises ValueError before doing anything. *)
Theorem C76_cut : forall (O : Type) rd fsqrt ibinom mo order target ra rb eng (m : mitm O) gen,
  0 <= h_acc (mi_table m) < 9 ->
  rhs_pairs rd fsqrt ibinom mo target m ra rb = Ok gen ->
  (forall i, In i (mi_filter m) -> exists f, py_nth (mi_funcs m) i = Ok f) ->
  build_hashtable rd fsqrt ibinom mo order target ra rb true (params_stored eng m) = (params_stored eng m, Raise ValueError).
Proof.
  intros O rd fsqrt ib mo order tg ra rb eng m gen HA HR HF. unfold build_hashtable.
  assert (HR' : rhs_pairs rd fsqrt ib mo tg (params_stored eng m) ra rb = Ok gen) by exact HR. rewrite HR'.
  unfold iter2hashtable. destruct (filtered_funcs_total _ _ HF) as (fs & EF).
  change (mi_funcs (params_stored eng m)) with (mi_funcs m). change (mi_filter (params_stored eng m)) with (mi_filter m). rewrite EF.
  rewrite (blacklist_err (mi_table (params_stored eng m)) (KStr (py_take (h_acc (mi_table m) + 1) (txt "parameters")))).
  - destruct m; reflexivity.
  - unfold params_stored, ht_set, ht_manipulate_key. cbn [bind fst mi_table with_table h_data].
    apply (d_get_Some_in _ RK). apply (d_get_set_same _ RK).
  - cbn. apply py_take_short. lia.
Qed.
(** From eight digits on (and no earlier, coarser accuracy) nothing happens. *)
Theorem C76_whole : forall (O : Type) eng (m : mitm O),
  9 <= h_acc (mi_table m) -> (forall a, In a (h_hist (mi_table m)) -> 9 <= a) -> table_ok (mi_table m) -> plain_lists (mi_table m) ->
  plain_lists (mi_table (params_stored eng m)).
Proof.
  intros O eng m HA HH HT HP k v HI HK. unfold params_stored, ht_set, ht_manipulate_key in HI.
  cbn [bind fst mi_table with_table h_data] in HI. rewrite py_take_txt in HI by lia.
  assert (ND : NoDup (map fst (del_olds (map (fun i => py_take (i + 1) (txt "parameters")) (h_hist (mi_table m))) (h_data (mi_table m))))).
  { apply del_olds_NoDup. exact (proj1 HT). }
  pose proof (d_keys_set_NoDup _ RK _ (KStr (txt "parameters")) (VOne TParams) ND) as ND2.
  apply (d_in_get _ RK) in HI; [|exact ND2].
  assert (NK : k <> KStr (txt "parameters")).
  { intros ->. vm_compute in HK. discriminate. }
  rewrite (d_get_set_other _ RK) in HI by exact NK.
  apply (HP k v); [|exact HK]. apply (d_get_Some_in _ RK).
  destruct k as [s|q].
  - destruct (d_get rawkey_eqb (h_data (mi_table m)) (KStr s)) as [w|] eqn:E.
    + rewrite del_olds_other in HI; [congruence|]. intros o HO. apply in_map_iff in HO. destruct HO as (a & <- & Ha).
      rewrite py_take_txt by (specialize (HH a Ha); lia). congruence.
    + rewrite del_olds_none in HI by exact E. discriminate.
  - rewrite del_olds_other in HI; [exact HI|]. intros; discriminate.
Qed.
Example C76_ex : h_acc (mi_table (fst (bld true (m_ex PNormal [0; 1] 6)))) = 7 /\
  snd (bld true (params_stored eng_pinned (fst (bld true (m_ex PNormal [0; 1] 6))))) = Raise ValueError /\
  h_acc (mi_table (fst (bld true (m_ex PNormal [0; 1] 8)))) = 9 /\
  snd (bld true (params_stored eng_pinned (fst (bld true (m_ex PNormal [0; 1] 8))))) = Ok tt.
Proof. repeat split; vm_compute; reflexivity. Qed.

Print Assumptions C36_no_clicks.
Print Assumptions C36_invisible.
Print Assumptions C36_pinned.
Print Assumptions C48_tables.
Print Assumptions C48_build.
Print Assumptions C48_pairs.
Print Assumptions C48_pairs_indexed.
Print Assumptions C48_pairs_sparse.
Print Assumptions C48_succeeds.
Print Assumptions C48_key.
Print Assumptions C49_again.
Print Assumptions C49_normal.
Print Assumptions C49_validate.
Print Assumptions C74_settings.
Print Assumptions C74_enumerator_refuted.
Print Assumptions C74_sizes_refuted.
Print Assumptions C75_masked.
Print Assumptions C75_seen.
Print Assumptions C76_cut.
Print Assumptions C76_whole.

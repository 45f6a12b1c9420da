(** C21-C29, C67: enumeration of polynomials (enum_poly_params.py). *)
From Coq Require Import ZArith QArith List Bool Lia Sorted Permutation.
From Verif Require Import PyBase PyBase_Proofs Rnd ContFrac_Model Spec_ContFrac ContFrac_Proofs ContFrac_Hist ContFrac_Proofs2
  Enum_Model Spec_Enum Enum_Proofs Enum_Proofs2 Enum_Sparse Enum_Roots Enum_Variants Properties_ContFrac.
Import ListNotations.
Local Open Scope Z_scope.

(** C21. [passes] (Enum_Proofs2.v) is the filter: no interlaced b with an integer root according to the test (C28, C29), and
    deg b <= 2 deg a if both sides are (after collapsing) one polynomial. *)
Theorem C21_enumeration : forall rd fsqrt st tg ra rb, e_gen_cf st = false ->
  exists L out,
    StronglySorted (fun x y => lex (flat x) (flat y)) L /\
    (forall pa pb, In (pa, pb) L <-> in_ranges ra pa /\ in_ranges rb pb /\ passes st (has_integer_roots fsqrt) pa pb) /\
    polys_generator rd fsqrt st manip_normal tg ra rb = (out, Ok tt) /\
    Forall2 (fun x it => exists qa qb, collapses (fst x) qa /\ collapses (snd x) qb /\ it = IPair qa qb) L out.
Proof.
  intros rd fsqrt st tg ra rb Hg.
  exists (filter (passb fsqrt st) (all_pairs mv_normal ra rb)).
  eexists. split; [apply sorted_filter, normal_sorted|]. split.
  - intros pa pb. rewrite filter_In, in_normal_pairs, passb_spec. cbn [fst snd]. tauto.
  - split; [apply (generator_nogen rd fsqrt st manip_normal mv_normal); [exact Hg|reflexivity|reflexivity]|].
    induction (filter _ _) as [|x l IH]; cbn [map]; constructor; [|exact IH].
    exists (fst (sq2 x)), (snd (sq2 x)). destruct (sq2_spec x) as [S1 S2]. auto.
Qed.
Definition st0 (exp roots gen : bool) : enum_settings :=
  {| e_iters := 4; e_exp_only := exp; e_avoid_roots := roots; e_gen_cf := gen; e_avoid_zero_b := true |}.
Example C21_ex : polys_generator (rnd 53) isqrt53 (st0 true true false) manip_normal None [[(1, 3)]] [[(1, 2); (-1, 2)]] =
  ([IPair [[1]] [[1; 0]]; IPair [[2]] [[1; 0]]], Ok tt) /\
  polys_generator (rnd 53) isqrt53 (st0 false false false) manip_normal None [[(1, 3)]; [(1, 3)]] [[(1, 2)]] =
  ([IPair [[1]] [[1]]; IPair [[1]; [2]] [[1]]; IPair [[2]; [1]] [[1]]; IPair [[2]] [[1]]], Ok tt).
Proof. split; vm_compute; reflexivity. Qed.

(** C67 (fractions generated on the way): the object yielded with each pair is the freshly built fraction of that pair after the
    iterations, whatever was enumerated before; the pairs left out are those with a zero partial numerator. *)
Theorem C67_fractions : forall rd fsqrt st tg ra rb, e_gen_cf st = true ->
  ra <> [] -> hd [] ra <> [] -> rb <> [] ->
  exists L out,
    StronglySorted (fun x y => lex (flat x) (flat y)) L /\
    (forall pa pb, In (pa, pb) L <-> in_ranges ra pa /\ in_ranges rb pb /\ passes st (has_integer_roots fsqrt) pa pb /\
       (e_avoid_zero_b st = true -> forall qb i, collapses pb qb -> 1 <= i <= e_iters st -> icoef qb i <> 0)) /\
    polys_generator rd fsqrt st manip_normal tg ra rb = (out, Ok tt) /\
    Forall2 (fun x it => exists qa qb c0 c, collapses (fst x) qa /\ collapses (snd x) qb /\
      fresh qa qb (e_avoid_zero_b st) false tg c0 /\ cf_gen0 rd (e_iters st) true c0 = (c, Ok tt) /\
      it = ICF (set_approach c ATUndefined APNone) qa qb) L out.
Proof.
  intros rd fsqrt st tg ra rb Hg Na Nh Nb.
  destruct (normal_generator rd fsqrt st tg ra rb) as (c & Hc & E).
  assert (GS : Forall good_shape (all_pairs mv_normal ra rb)).
  { apply Forall_forall. intros x Hx. apply in_normal_pairs in Hx. destruct Hx as [X1 X2].
    destruct (ranges_shape _ _ X1 Na Nh) as [G1 G2]. unfold good_shape. repeat split; [exact G1|exact G2|].
    destruct X2; [contradiction|discriminate]. }
  destruct (run_pairs_gen rd fsqrt st (e_avoid_zero_b st) tg _ Hg GS c (new_shared _ _ _ Hc)) as (c' & out & R & _ & G).
  rewrite R in E.
  exists (filter (fun x => zero_free st (snd x)) (filter (passb fsqrt st) (all_pairs mv_normal ra rb))), out.
  split; [apply sorted_filter, sorted_filter, normal_sorted|]. split; [|split; [exact E|exact (gen_rel_filter _ _ _ _ _ G)]].
  intros pa pb. rewrite !filter_In, in_normal_pairs, passb_spec, zero_free_spec. cbn [fst snd]. split.
  - intros [[[H1 H2] H3] H4]. repeat split; try assumption; try apply H3.
    intros Ha qb i Hq Hi. rewrite (collapses_fun _ _ _ Hq (squeeze_collapses pb)). now apply H4.
  - intros (H1 & H2 & H3 & H4). repeat split; try assumption; try apply H3. intros Ha i Hi. apply (H4 Ha _ i (squeeze_collapses pb) Hi).
Qed.
(** so its value is the convergent *)
Corollary C67_value : forall prec fsqrt st tg ra rb out, 3 <= prec -> e_gen_cf st = true -> 0 <= e_iters st ->
  ra <> [] -> hd [] ra <> [] -> rb <> [] ->
  polys_generator (rnd prec) fsqrt st manip_normal tg ra rb = (out, Ok tt) ->
  forall c qa qb v, In (ICF c qa qb) out ->
  nested (inject_Z (icoef qa 0)) (toQ (icoefs qa qb (map Z.of_nat (seq 1 (Z.to_nat (e_iters st)))))) = Some v ->
  exists x, cf_result c = Fin x /\ approx x v (4 * two_p (- prec)).
Proof.
  intros prec fsqrt st tg ra rb out Hp Hg Hn Na Nh Nb HO c qa qb v Hi HN.
  destruct (C67_fractions (rnd prec) fsqrt st tg ra rb Hg Na Nh Nb) as (L & out' & _ & _ & E & F).
  rewrite HO in E. injection E as <-.
  assert (X : exists c0 c', fresh qa qb (e_avoid_zero_b st) false tg c0 /\
    cf_gen0 (rnd prec) (e_iters st) true c0 = (c', Ok tt) /\ c = set_approach c' ATUndefined APNone).
  { clear HO. induction F as [|x it l out (qa' & qb' & c0 & c' & _ & _ & F1 & F2 & ->) F IH]; [destruct Hi|].
    destruct Hi as [Hi|Hi]; [|now apply IH]. injection Hi as <- -> ->. eauto. }
  destruct X as (c0 & c' & F1 & F2 & ->).
  destruct (Properties_ContFrac.C06_convergent prec qa qb _ _ _ c0 [] c0 (Ok tt) (e_iters st) c' v Hp F1 eq_refl Hn F2 HN)
    as (P & Q & _ & _ & _ & R).
  exact (R (or_introl eq_refl)).
Qed.
Example C67_ex : map item_pair (fst (polys_generator (rnd 53) isqrt53 (st0 false false true) manip_normal None [[(1, 2)]] [[(-2, 0); (1, 2)]])) =
  [] /\
  map item_pair (fst (polys_generator (rnd 53) isqrt53 (st0 false false true) manip_normal None [[(1, 2)]] [[(-6, 2); (1, 2)]])) =
  [([[1]], [[-6; 1]]); ([[1]], [[-5; 1]]); ([[1]], [[0; 1]]); ([[1]], [[1; 1]])].
Proof. split; vm_compute; reflexivity. Qed.

(** C22 *)
Theorem C22_no_repeats : forall rd fsqrt st tg ra rb out r,
  (e_gen_cf st = true -> ra <> [] /\ hd [] ra <> [] /\ rb <> []) ->
  polys_generator rd fsqrt st manip_normal tg ra rb = (out, r) -> NoDup (map item_pair out).
Proof.
  intros rd fsqrt st tg ra rb out r Hs HO.
  assert (D : exists f, map item_pair out = map sq2 (filter f (all_pairs mv_normal ra rb))).
  { destruct (e_gen_cf st) eqn:Hg.
    - destruct (Hs eq_refl) as (Na & Nh & Nb).
      destruct (normal_generator rd fsqrt st tg ra rb) as (c & Hc & E).
      assert (GS : Forall good_shape (all_pairs mv_normal ra rb)).
      { apply Forall_forall. intros x Hx. apply in_normal_pairs in Hx. destruct Hx as [X1 X2].
        destruct (ranges_shape _ _ X1 Na Nh) as [G1 G2]. unfold good_shape. repeat split; [exact G1|exact G2|].
        destruct X2; [contradiction|discriminate]. }
      destruct (run_pairs_gen rd fsqrt st (e_avoid_zero_b st) tg _ Hg GS c (new_shared _ _ _ Hc)) as (c' & out' & R & _ & G).
      rewrite R, HO in E. injection E as -> ->. apply gen_rel_filter in G.
      exists (fun x => passb fsqrt st x && zero_free st (snd x)).
      assert (FF : forall l, filter (fun x : list poly * list poly => passb fsqrt st x && zero_free st (snd x)) l =
        filter (fun x => zero_free st (snd x)) (filter (passb fsqrt st) l)).
      { induction l as [|x l IH]; cbn; [reflexivity|]. destruct (passb fsqrt st x); cbn; [|exact IH]. now rewrite IH. }
      rewrite FF. clear FF R HO. induction G as [|x it l o (qa & qb & c0 & c1 & A & B & _ & _ & ->) G IH]; [reflexivity|].
      cbn [map item_pair]. f_equal; [|exact IH]. unfold sq2.
      rewrite (collapses_fun _ _ _ A (squeeze_collapses _)), (collapses_fun _ _ _ B (squeeze_collapses _)). reflexivity.
    - rewrite (generator_nogen rd fsqrt st manip_normal mv_normal tg ra rb Hg) in HO by reflexivity. injection HO as <- _.
      exists (passb fsqrt st). rewrite map_map. apply map_ext. intros x. reflexivity. }
  destruct D as [f ->]. apply NoDup_map_in.
  - intros x y Hx Hy. apply filter_In in Hx, Hy. apply (sorted_pairs_ok ra rb); tauto.
  - apply NoDup_filter. apply (sorted_NoDup (fun x y => lex (flat x) (flat y))); [intros x; apply lex_irrefl|apply normal_sorted].
Qed.
Example C22_ex : length (fst (polys_generator (rnd 53) isqrt53 (st0 false true true) manip_normal None [[(1, 3)]; [(1, 3)]] [[(1, 4); (0, 2)]])) = 24%nat.
Proof. vm_compute; reflexivity. Qed.

(** C23 *)
Definition ordered (r : prange) : Prop := forall ra, In ra r -> forall lh, In lh ra -> fst lh <= snd lh.
Lemma gen_len_choices ra rb f : ordered ra -> ordered rb ->
  gen_len ra rb f = Z.of_nat (length (choices ra)) * Z.of_nat (length (choices rb)) * f.
Proof. intros Ha Hb. unfold gen_len. rewrite range_prod_spec, range_prod_spec by assumption. ring. Qed.
Theorem C23_length_normal : forall rd fsqrt st tg ra rb, ordered ra -> ordered rb ->
  Z.of_nat (length (fst (polys_generator rd fsqrt st manip_normal tg ra rb))) <= gen_len ra rb 1.
Proof.
  intros rd fsqrt st tg ra rb Ha Hb. rewrite gen_len_choices by assumption.
  pose proof (generator_length rd fsqrt st manip_normal mv_normal tg ra rb 1 1 ltac:(reflexivity) ltac:(reflexivity)
    ltac:(intros; cbn; lia) ltac:(intros; cbn; lia)). lia.
Qed.
Theorem C23_length_indexed : forall rd fsqrt st ibinom tg ra rb, ordered ra -> ordered rb ->
  Z.of_nat (length (fst (polys_generator rd fsqrt st (manip_indexed ibinom) tg ra rb))) <= gen_len ra rb 1.
Proof.
  intros rd fsqrt st ib tg ra rb Ha Hb. rewrite gen_len_choices by assumption.
  pose proof (generator_length rd fsqrt st (manip_indexed ib) (fun _ p => [map (indexed_one ib) p]) tg ra rb 1 1
    ltac:(reflexivity) ltac:(reflexivity) ltac:(intros; cbn; lia) ltac:(intros; cbn; lia)). lia.
Qed.
Theorem C23_length_sparse : forall rd fsqrt st set_order ibinom n_a n_b tg ra rb f,
  (forall l, Permutation (set_order l) l) -> 0 <= n_a -> 0 <= n_b ->
  ibinom n_a (Z.of_nat (length ra)) = pascal (Z.to_nat n_a) (length ra) ->
  ibinom n_b (Z.of_nat (length rb)) = pascal (Z.to_nat n_b) (length rb) ->
  ordered [ra] -> ordered [rb] -> sparse_factor ibinom n_a n_b [ra] [rb] = Ok f ->
  Z.of_nat (length (fst (polys_generator rd fsqrt st (manip_sparse set_order n_a n_b) tg [ra] [rb]))) <= gen_len [ra] [rb] f.
Proof.
  intros rd fsqrt st so ib n_a n_b tg ra rb f Hp Pa Pb Ba Bb Ha Hb [= <-]. rewrite gen_len_choices by assumption.
  assert (U : forall r p, In p (choices [r]) -> exists q, p = [q] /\ length q = length r).
  { intros r p H. apply in_choices in H. inversion H as [|q x ps l H1 H2]; subst. inversion H2; subst. exists q.
    split; [reflexivity|]. exact (Forall2_len _ _ _ H1). }
  assert (UU : forall r p, In p (choices [r]) -> uniform p).
  { intros r p H. destruct (U r p H) as (q & -> & _). split; [discriminate|]. repeat constructor. }
  assert (LA : forall (b : bool) (n : Z) (r : list (Z * Z)) (p : list poly), (if b then n_a else n_b) = n -> 0 <= n -> In p (choices [r]) ->
    Z.of_nat (length (mv_sparse so n_a n_b b p)) = pascal (Z.to_nat n) (length r)).
  { intros b n r p En Hn H. destruct (U r p H) as (q & -> & Lq). unfold mv_sparse. cbv zeta. rewrite En, map_length. cbn [hd length].
    rewrite mask_tuples_length by assumption. rewrite Lq. change (Z.of_nat 1) with 1. apply Z.pow_1_r. }
  pose proof (generator_length rd fsqrt st (manip_sparse so n_a n_b) (mv_sparse so n_a n_b) tg [ra] [rb]
    (Z.to_nat (pascal (Z.to_nat n_a) (length ra))) (Z.to_nat (pascal (Z.to_nat n_b) (length rb)))) as G.
  pose proof (pascal_pos (Z.to_nat n_a) (length ra)). pose proof (pascal_pos (Z.to_nat n_b) (length rb)).
  rewrite Ba, Bb. apply Z.le_trans with (Z.of_nat (length (choices [ra]) * Z.to_nat (pascal (Z.to_nat n_a) (length ra)) *
      (length (choices [rb]) * Z.to_nat (pascal (Z.to_nat n_b) (length rb))))).
  - apply inj_le. apply G.
    + intros a H1. apply sparse_ok; [exact Hp|now apply (UU ra)].
    + intros b H1. apply sparse_ok; [exact Hp|now apply (UU rb)].
    + intros a H1. pose proof (LA true n_a ra a eq_refl Pa H1). lia.
    + intros b H1. pose proof (LA false n_b rb b eq_refl Pb H1). lia.
  - rewrite !Nat2Z.inj_mul, !Z2Nat.id by assumption. apply Z.eq_le_incl. ring.
Qed.
(** the estimate is reached: without filters the normal enumerator yields exactly that many *)
Theorem C23_exact_without_filters : forall rd fsqrt st tg ra rb, ordered ra -> ordered rb ->
  e_gen_cf st = false -> e_avoid_roots st = false -> e_exp_only st = false ->
  Z.of_nat (length (fst (polys_generator rd fsqrt st manip_normal tg ra rb))) = gen_len ra rb 1.
Proof.
  intros rd fsqrt st tg ra rb Ha Hb Hg Hr He. rewrite gen_len_choices by assumption.
  rewrite (generator_nogen rd fsqrt st manip_normal mv_normal tg ra rb Hg) by reflexivity. cbn [fst]. rewrite map_length.
  assert (F : forall l, filter (passb fsqrt st) l = l).
  { induction l as [|x l IH]; cbn [filter]; [reflexivity|].
    replace (passb fsqrt st x) with true; [now rewrite IH|]. symmetry. apply passb_spec. split; congruence. }
  rewrite F, all_pairs_normal. rewrite Z.mul_1_r, <- Nat2Z.inj_mul. f_equal.
  induction (choices ra) as [|a l IH]; [reflexivity|]. cbn [flat_map length]. rewrite app_length, map_length, IH. reflexivity.
Qed.
(** with interlaced sparse polynomials it is too small *)
Theorem C23_interlaced_sparse_refuted : exists st n_a n_b ra rb f,
  ordered ra /\ ordered rb /\ 0 <= n_a /\ 0 <= n_b /\
  sparse_factor (fun n k => pascal (Z.to_nat n) (Z.to_nat k)) n_a n_b ra rb = Ok f /\
  forall rd fsqrt, gen_len ra rb f <
    Z.of_nat (length (fst (polys_generator rd fsqrt st (manip_sparse (fun l => l) n_a n_b) None ra rb))).
Proof.
  exists (st0 false false false), 2, 1, [[(1, 2)]; [(2, 3)]], [[(1, 2)]], 2.
  split. { intros r H lh Hl. cbn in H. destruct H as [<-|[<-|[]]]; destruct Hl as [<-|[]]; cbn; lia. }
  split. { intros r H lh Hl. destruct H as [<-|[]]; destruct Hl as [<-|[]]; cbn; lia. }
  split; [lia|]. split; [lia|]. split; [reflexivity|]. intros rd fsqrt. vm_compute. reflexivity.
Qed.
Example C23_ex : gen_len [[(1, 3); (0, 2)]] [[(1, 4)]] 1 = 12 /\ ordered [[(1, 3); (0, 2)]] /\
  sparse_factor (fun n k => pascal (Z.to_nat n) (Z.to_nat k)) 3 2 [[(1, 3); (0, 2)]] [[(1, 4)]] = Ok 6 /\
  length (fst (polys_generator (rnd 53) isqrt53 (st0 false false false) (manip_sparse (fun l => l) 3 2) None [[(1, 3); (0, 2)]] [[(1, 4)]])) = 72%nat.
Proof.
  split; [reflexivity|]. split.
  { intros r H lh Hl. destruct H as [<-|[]]. destruct Hl as [<-|[<-|[]]]; cbn; lia. }
  split; [reflexivity|]. vm_compute. reflexivity.
Qed.

(** C24. [ibinom n j] is scipy's binomial coefficient converted to int; it is assumed right for the degree in question. *)
Theorem C24_indexed : forall ibinom is_a ps,
  (forall p, In p ps -> forall j, (j < length p)%nat -> ibinom (Z.of_nat (length p) - 1) (Z.of_nat j) = pascal (length p - 1) j) ->
  exists qs, manip_indexed ibinom is_a ps = Ok [qs] /\
    Forall2 (fun p q => length q = length p /\ forall x, pval q x = shifted_powers p (Z.of_nat (length p) - 1) x) ps qs.
Proof.
  intros ib is_a ps H. exists (map (indexed_one ib) ps). split; [reflexivity|].
  induction ps as [|p ps IH]; cbn [map]; constructor.
  - apply indexed_one_spec. apply H. now left.
  - apply IH. intros q Hq. apply H. now right.
Qed.
Theorem C24_enumeration : forall rd fsqrt st ibinom tg ra rb, e_gen_cf st = false ->
  (forall n j, (j <= n)%nat -> ibinom (Z.of_nat n) (Z.of_nat j) = pascal n j) ->
  exists out, polys_generator rd fsqrt st (manip_indexed ibinom) tg ra rb = (out, Ok tt) /\
  forall it, In it out <-> exists a b pa pb qa qb, in_ranges ra a /\ in_ranges rb b /\
    let expands := Forall2 (fun p q => length q = length p /\ forall x, pval q x = shifted_powers p (Z.of_nat (length p) - 1) x) in
    expands a pa /\ expands b pb /\ passes st (has_integer_roots fsqrt) pa pb /\
    collapses pa qa /\ collapses pb qb /\ it = IPair qa qb.
Proof.
  intros rd fsqrt st ib tg ra rb Hg Hib.
  set (ex := Forall2 (fun p q : list Z => length q = length p /\ forall x, pval q x = shifted_powers p (Z.of_nat (length p) - 1) x)).
  assert (HE : forall a, ex a (map (indexed_one ib) a)).
  { intros a. destruct (C24_indexed ib true a) as (qs & [= <-] & F); [|exact F].
    intros p _ j Hj. replace (Z.of_nat (length p) - 1) with (Z.of_nat (length p - 1)) by lia. apply Hib. lia. }
  assert (PU : forall q q', length q = length q' -> (forall x, pval q x = pval q' x) -> q = q').
  { induction q as [|c q IH]; intros [|c' q'] L E; try discriminate; [reflexivity|].
    pose proof (E 0) as E0. cbn [pval] in E0. assert (c = c') by lia. subst c'. f_equal. apply IH; [now injection L|].
    (* two polynomials that agree everywhere except possibly at 0 agree at 0, too *)
    assert (N0 : forall x, x <> 0 -> pval q x = pval q' x).
    { intros x Hx. specialize (E x). cbn [pval] in E. nia. }
    assert (CONG : forall p x y, (y | pval p (x + y) - pval p x)).
    { induction p as [|d p IHp]; intros x y; cbn [pval]; [exists 0; lia|]. destruct (IHp x y) as [k Hk].
      exists (pval p (x + y) + x * k). transitivity (y * pval p (x + y) + x * (pval p (x + y) - pval p x)); [ring|]. rewrite Hk. ring. }
    intros x. destruct (Z.eq_dec x 0) as [->|]; [|now apply N0].
    set (y := 1 + Z.abs (pval q 0) + Z.abs (pval q' 0)).
    destruct (CONG q 0 y) as [k Hk]. destruct (CONG q' 0 y) as [k' Hk']. rewrite Z.add_0_l in *.
    rewrite (N0 y) in Hk by (unfold y; lia).
    assert (W : pval q 0 - pval q' 0 = (k' - k) * y) by lia.
    assert (k' - k = 0) by (unfold y in W; nia). lia. }
  assert (EU : forall a pa, ex a pa -> pa = map (indexed_one ib) a).
  { intros a pa H. pose proof (HE a) as H'. revert H'. generalize (map (indexed_one ib) a) as pa'. unfold ex in *.
    induction H as [|p q a pa [L V] H IH]; intros pa' H'; inversion H' as [|? q' ? pa'' [L' V'] H'']; subst; [reflexivity|].
    f_equal; [|now apply IH]. apply PU; [congruence|]. intros x. rewrite V, V'. reflexivity. }
  eexists. split.
  { apply (generator_nogen rd fsqrt st (manip_indexed ib) (fun _ p => [map (indexed_one ib) p])); [exact Hg|reflexivity|reflexivity]. }
  intros it. rewrite in_map_iff. split.
  - intros ([pa pb] & <- & Hx). apply filter_In in Hx. destruct Hx as [Hx Hp]. apply passb_spec in Hp.
    apply in_all_pairs in Hx. destruct Hx as (a & b & Ha & Hb & [H1|[]] & [H2|[]]). cbn [fst snd] in *. subst.
    destruct (sq2_spec (map (indexed_one ib) a, map (indexed_one ib) b)) as [S1 S2].
    exists a, b, (map (indexed_one ib) a), (map (indexed_one ib) b). do 2 eexists. cbv zeta.
    repeat split; try eassumption; try apply HE; apply Hp.
  - intros (a & b & pa & pb & qa & qb & Ha & Hb & Ea & Eb & Hp & Ca & Cb & ->). cbv zeta in *.
    apply EU in Ea, Eb. subst pa pb.
    exists (map (indexed_one ib) a, map (indexed_one ib) b). split.
    + unfold sq2. cbn [fst snd]. rewrite (collapses_fun _ _ _ Ca (squeeze_collapses _)), (collapses_fun _ _ _ Cb (squeeze_collapses _)). reflexivity.
    + apply filter_In. split; [|apply passb_spec; exact Hp]. apply in_all_pairs. exists a, b. cbn. auto.
Qed.
Example C24_ex : manip_indexed (fun n k => pascal (Z.to_nat n) (Z.to_nat k)) true [[1; 2; 3]] = Ok [[[14; 16; 6]]] /\
  (14 + 16 * 5 + 6 * 5 ^ 2 = 1 * 5 ^ 2 + 2 * 6 ^ 2 + 3 * 7 ^ 2).
Proof. split; vm_compute; reflexivity. Qed.

(** C25. [set_order] is the (unspecified) iteration order of a python set. *)
Theorem C25_sparse : forall set_order n_a n_b (is_a : bool) ps k n,
  (forall l, Permutation (set_order l) l) -> n = (if is_a then n_a else n_b) -> 0 <= n ->
  ps <> [] -> Forall (fun p => length p = k) ps ->
  exists masks qs,
    NoDup masks /\
    (forall ms, In ms masks <-> length ms = length ps /\ Forall (fun m => length m = k /\ increasing 0 n m) ms) /\
    manip_sparse set_order n_a n_b is_a ps = Ok qs /\
    Forall2 (fun ms q => length q = length ps /\
      forall i, (i < length ps)%nat -> placed n (nth i ps []) (nth i ms []) (nth i q [])) masks qs /\
    (Forall (Forall (fun c => c <> 0)) ps -> NoDup qs).
Proof.
  intros so n_a n_b is_a ps k n Hp En Hn Ne Hk.
  assert (Hk0 : length (hd [] ps) = k) by (destruct Hk; [contradiction|assumption]).
  assert (U : uniform ps) by (split; [exact Ne|]; rewrite Hk0; exact Hk).
  exists (mask_tuples so k (length ps) n), (mv_sparse so n_a n_b is_a ps).
  assert (MP : forall ms, In ms (mask_tuples so k (length ps) n) ->
    let q := map (fun pm => place n (fst pm) (snd pm)) (combine ps ms) in
    length q = length ps /\ forall i, (i < length ps)%nat -> placed n (nth i ps []) (nth i ms []) (nth i q [])).
  { intros ms Hms. apply (in_mask_tuples so Hp) in Hms. destruct Hms as [L F]. cbv zeta. split.
    - rewrite map_length, combine_length. lia.
    - intros i Hi. 
      set (f := fun pm : list Z * list Z => place n (fst pm) (snd pm)).
      assert (EN : nth i (map f (combine ps ms)) [] = place n (nth i ps []) (nth i ms [])).
      { rewrite (nth_indep (map f (combine ps ms)) [] (f ([], []))) by (rewrite map_length, combine_length; lia).
        rewrite (map_nth f). rewrite combine_nth by (symmetry; exact L). reflexivity. }
      rewrite EN.
      assert (Hm : In (nth i ms []) ms) by (apply nth_In; lia). rewrite Forall_forall in F. destruct (F _ Hm) as [F1 F2].
      assert (Hpi : In (nth i ps []) ps) by (now apply nth_In). rewrite Forall_forall in Hk.
      apply place_placed; [exact Hn| |exact F2]. etransitivity; [apply Hk; exact Hpi|now symmetry]. }
  split; [now apply NoDup_mask_tuples|]. split; [intros ms; now apply in_mask_tuples|].
  split; [now apply sparse_ok|]. unfold mv_sparse. cbv zeta. rewrite Hk0, <- En. split.
  - assert (FF : forall (R : list (list Z) -> list (list Z) -> Prop) f (l : list (list (list Z))),
      (forall ms, In ms l -> R ms (f ms)) -> Forall2 R l (map f l)).
    { intros R f l H. induction l as [|ms l IH]; cbn [map]; [constructor|]. constructor; [apply H; now left|].
      apply IH. intros x Hx. apply H. now right. }
    exact (FF _ _ _ MP).
  - intros NZ. apply NoDup_map_in; [|now apply NoDup_mask_tuples].
    intros ms ms' H H' E. destruct (MP _ H) as [_ P]. destruct (MP _ H') as [_ P']. cbv zeta in *.
    apply (in_mask_tuples so Hp) in H, H'. destruct H as [L F], H' as [L' F'].
    apply (nth_ext _ _ [] []); [lia|]. intros i Hi. rewrite L in Hi.
    assert (Hm : In (nth i ms []) ms) by (apply nth_In; lia). assert (Hm' : In (nth i ms' []) ms') by (apply nth_In; lia).
    assert (Hpi : In (nth i ps []) ps) by (now apply nth_In).
    rewrite Forall_forall in F, F', Hk, NZ. destruct (F _ Hm) as [F1 F2]. destruct (F' _ Hm') as [F1' F2'].
    assert (Lp : length (nth i ps []) = k) by (apply Hk; exact Hpi).
    apply (placed_inj n (nth i ps []) _ _ _ (eq_trans F1 (eq_sym Lp)) (eq_trans F1' (eq_sym Lp)) (NZ _ Hpi) F2 F2'
      (eq_ind _ (fun q => placed n (nth i ps []) (nth i ms []) (nth i q [])) (P i Hi) _ E) (P' i Hi)).
Qed.
Theorem C25_count : forall set_order n_a n_b (is_a : bool) ps qs n k,
  (forall l, Permutation (set_order l) l) -> n = (if is_a then n_a else n_b) -> 0 <= n ->
  ps <> [] -> Forall (fun p => length p = k) ps -> manip_sparse set_order n_a n_b is_a ps = Ok qs ->
  Z.of_nat (length qs) = pascal (Z.to_nat n) k ^ Z.of_nat (length ps).
Proof.
  intros so n_a n_b is_a ps qs n k Hp En Hn Ne Hk H.
  assert (Hk0 : length (hd [] ps) = k) by (destruct Hk; [contradiction|assumption]).
  rewrite sparse_ok in H; [|exact Hp|split; [exact Ne|]; rewrite Hk0; exact Hk]. injection H as <-.
  unfold mv_sparse. cbv zeta. rewrite map_length, <- En, Hk0. now apply mask_tuples_length.
Qed.
Theorem C25_enumeration : forall rd fsqrt st set_order n_a n_b tg ra rb ka kb, e_gen_cf st = false ->
  (forall l, Permutation (set_order l) l) -> 0 <= n_a -> 0 <= n_b ->
  ra <> [] -> rb <> [] -> Forall (fun r => length r = ka) ra -> Forall (fun r => length r = kb) rb ->
  exists out, polys_generator rd fsqrt st (manip_sparse set_order n_a n_b) tg ra rb = (out, Ok tt) /\
  forall it, In it out <-> exists a b ma mb pa pb qa qb, in_ranges ra a /\ in_ranges rb b /\
    let places n ps ms qs := length ms = length ps /\ length qs = length ps /\
      forall i, (i < length ps)%nat -> length (nth i ms []) = length (nth i ps []) /\ increasing 0 n (nth i ms []) /\
        placed n (nth i ps []) (nth i ms []) (nth i qs []) in
    places n_a a ma pa /\ places n_b b mb pb /\ passes st (has_integer_roots fsqrt) pa pb /\
    collapses pa qa /\ collapses pb qb /\ it = IPair qa qb.
Proof.
  intros rd fsqrt st so n_a n_b tg ra rb ka kb Hg Hp Pa Pb Na Nb Ka Kb.
  set (places := fun n (ps ms qs : list (list Z)) => length ms = length ps /\ length qs = length ps /\
      forall i, (i < length ps)%nat -> length (nth i ms []) = length (nth i ps []) /\ increasing 0 n (nth i ms []) /\
        placed n (nth i ps []) (nth i ms []) (nth i qs [])).
  assert (SH : forall r k ps, r <> [] -> Forall (fun x => length x = k) r -> in_ranges r ps ->
    ps <> [] /\ Forall (fun p => length p = k) ps).
  { intros r k ps N K H. split; [destruct H; [contradiction|discriminate]|].
    clear N. induction H as [|p x ps r H1 H2 IH]; [constructor|]. inversion K as [|? ? K1 K2]; subst.
    constructor; [|now apply IH]. exact (Forall2_len _ _ _ H1). }
  assert (UN : forall r k ps, r <> [] -> Forall (fun x => length x = k) r -> in_ranges r ps -> uniform ps).
  { intros r k ps N K H. destruct (SH r k ps N K H) as [S1 S2]. split; [exact S1|].
    destruct S2 as [|p ps Hl Hr]; [contradiction|]. cbn [hd]. rewrite Hl. now constructor. }
  assert (MV : forall (is_a : bool) n r k ps, n = (if is_a then n_a else n_b) -> 0 <= n -> r <> [] -> Forall (fun x => length x = k) r ->
    in_ranges r ps -> forall qs, In qs (mv_sparse so n_a n_b is_a ps) <-> exists ms, places n ps ms qs).
  { intros is_a n r k ps En Hn N K H qs. destruct (SH r k ps N K H) as [S1 S2].
    destruct (C25_sparse so n_a n_b is_a ps k n Hp En Hn S1 S2) as (masks & qss & _ & IM & E & F & _).
    rewrite (sparse_ok so n_a n_b Hp is_a ps (UN r k ps N K H)) in E. injection E as E. rewrite E. clear E.
    assert (KL : forall i, (i < length ps)%nat -> length (nth i ps []) = k).
    { intros i Hi. rewrite Forall_forall in S2. apply S2. now apply nth_In. }
    split.
    - intros Hq. assert (X : exists ms, In ms masks /\ length qs = length ps /\
        forall i, (i < length ps)%nat -> placed n (nth i ps []) (nth i ms []) (nth i qs [])).
      { clear IM. induction F as [|ms q l l' F1 F IH]; [destruct Hq|]. destruct Hq as [->|Hq].
        - exists ms. split; [now left|exact F1].
        - destruct (IH Hq) as (m & Hm & R). exists m. split; [now right|exact R]. }
      destruct X as (ms & Hm & L & P). exists ms. apply IM in Hm. destruct Hm as [L1 L2]. split; [exact L1|]. split; [exact L|].
      intros i Hi. rewrite Forall_forall in L2. destruct (L2 (nth i ms [])) as [A B]; [apply nth_In; lia|].
      split; [etransitivity; [exact A|symmetry; now apply KL]|]. split; [exact B|now apply P].
    - intros (ms & L1 & L & P).
      assert (Hm : In ms masks).
      { apply IM. split; [exact L1|]. apply Forall_forall. intros m Hm. apply (In_nth _ _ []) in Hm. destruct Hm as (i & Hi & <-).
        rewrite L1 in Hi. destruct (P i Hi) as (A & B & _). split; [etransitivity; [exact A|now apply KL]|exact B]. }
      assert (X : exists q, In q qss /\ length q = length ps /\
        forall i, (i < length ps)%nat -> placed n (nth i ps []) (nth i ms []) (nth i q [])).
      { clear IM. induction F as [|ms' q l l' F1 F IH]; [destruct Hm|]. destruct Hm as [->|Hm].
        - exists q. split; [now left|exact F1].
        - destruct (IH Hm) as (m & Hm' & R). exists m. split; [now right|exact R]. }
      destruct X as (q & Hq & Lq & Pq). replace qs with q; [exact Hq|].
      apply (nth_ext _ _ [] []); [congruence|]. intros i Hi. rewrite Lq in Hi. destruct (P i Hi) as (_ & B & C).
      exact (placed_unique n _ _ _ _ B (Pq i Hi) C). }
  eexists. split.
  { apply (generator_nogen rd fsqrt st (manip_sparse so n_a n_b) (mv_sparse so n_a n_b)); [exact Hg| |].
    - intros a H. apply sparse_ok; [exact Hp|]. apply in_choices in H. now apply (UN ra ka).
    - intros b H. apply sparse_ok; [exact Hp|]. apply in_choices in H. now apply (UN rb kb). }
  intros it. rewrite in_map_iff. split.
  - intros ([pa pb] & <- & Hx). apply filter_In in Hx. destruct Hx as [Hx Hps]. apply passb_spec in Hps.
    apply in_all_pairs in Hx. destruct Hx as (a & b & Ha & Hb & H1 & H2). cbn [fst snd] in *.
    apply (MV true n_a ra ka a eq_refl Pa Na Ka Ha) in H1. apply (MV false n_b rb kb b eq_refl Pb Nb Kb Hb) in H2.
    destruct H1 as [ma H1], H2 as [mb H2]. destruct (sq2_spec (pa, pb)) as [S1 S2].
    exists a, b, ma, mb, pa, pb. do 2 eexists. split; [exact Ha|]. split; [exact Hb|]. cbv zeta. split; [exact H1|]. split; [exact H2|].
    split; [exact Hps|]. split; [exact S1|]. split; [exact S2|]. reflexivity.
  - intros (a & b & ma & mb & pa & pb & qa & qb & Ha & Hb & H1 & H2 & Hps & Ca & Cb & ->). cbv zeta in *.
    exists (pa, pb). split.
    + unfold sq2. cbn [fst snd]. rewrite (collapses_fun _ _ _ Ca (squeeze_collapses _)), (collapses_fun _ _ _ Cb (squeeze_collapses _)). reflexivity.
    + apply filter_In. split; [|apply passb_spec; exact Hps]. apply in_all_pairs. exists a, b. cbn [fst snd].
      split; [exact Ha|]. split; [exact Hb|]. split.
      * apply (MV true n_a ra ka a eq_refl Pa Na Ka Ha). exists ma. exact H1.
      * apply (MV false n_b rb kb b eq_refl Pb Nb Kb Hb). exists mb. exact H2.
Qed.
Example C25_ex : manip_sparse (fun l => l) 3 0 true [[5; 7]] = Ok [[[5; 7; 0]]; [[5; 0; 7]]; [[0; 5; 7]]] /\
  manip_sparse (@rev _) 2 0 true [[5]; [6]] = Ok [[[5; 0]; [6; 0]]; [[0; 5]; [6; 0]]; [[5; 0]; [0; 6]]; [[0; 5]; [0; 6]]].
Proof. split; vm_compute; reflexivity. Qed.

(** C26 *)
Theorem C26_degree : forall p d, polynom_degree p = d <-> is_degree p d.
Proof.
  intros p d. split; [intros <-; apply polynom_degree_spec|]. intros H. exact (is_degree_unique _ _ _ (polynom_degree_spec p) H).
Qed.
Example C26_ex : polynom_degree [3; 0; 2; 0; 0] = 2 /\ polynom_degree [0; 0] = -1 /\ polynom_degree [] = -1.
Proof. repeat split. Qed.

(** C27 *)
Theorem C27_factor_out : forall n r rest, Forall (fun c => c <> 0) r -> (rest = [] \/ exists s, rest = 0 :: s) ->
  (r = [] -> rest = []) -> factor_out (repeat 0 n ++ r ++ rest) = r.
Proof.
  intros n r rest Hr Hs He. destruct r as [|c r].
  - rewrite (He eq_refl), !app_nil_r. apply factor_out_zero.
  - now apply factor_out_run.
Qed.
Theorem C27_split_exists : forall p, exists n r rest, p = repeat 0 n ++ r ++ rest /\ Forall (fun c => c <> 0) r /\
  (rest = [] \/ exists s, rest = 0 :: s) /\ (r = [] -> rest = []).
Proof.
  intros p. destruct (split_run p) as [[n ->]|(n & r & rest & -> & H1 & H2 & H3)].
  - exists n, [], []. rewrite !app_nil_r. repeat split; auto.
  - exists n, r, rest. repeat split; auto. contradiction.
Qed.
(** the documented result: p divided by its largest power of x, up to trailing zeros *)
Theorem C27_documented : forall n m q, q <> [] -> hd 0 q <> 0 -> last q 0 <> 0 ->
  (factor_out (repeat 0 n ++ q ++ repeat 0 m) = q <-> ~ In 0 q).
Proof.
  intros n m q Nq Hh Hl. split.
  - intros E H. destruct (split_run (repeat 0 n ++ q ++ repeat 0 m)) as [[k Ek]|(k & r & rest & Ek & H1 & H2 & H3)].
    + rewrite Ek, factor_out_zero in E. now subst q.
    + rewrite Ek, (factor_out_run k r rest H2 H1 H3) in E. subst r. rewrite Forall_forall in H2. now apply (H2 0 H).
  - intros H. apply factor_out_run; [|exact Nq|apply zeros_rest]. apply Forall_forall. intros c Hc ->. contradiction.
Qed.
(** the docstring's example [0,0,1,2,0,5,0] -> [1,2,0,5] *)
Theorem C27_docstring_refuted : exists p, p = [0; 0; 1; 2; 0; 5; 0] /\ factor_out p = [1; 2] /\ factor_out p <> [1; 2; 0; 5].
Proof. exists [0; 0; 1; 2; 0; 5; 0]. repeat split. discriminate. Qed.
Example C27_ex : factor_out [0; 0; 1; 2; 0] = [1; 2] /\ factor_out [0; 0] = [].
Proof. split; reflexivity. Qed.

(** C28 *)
Theorem C28_linear : forall fsqrt k j c0 c1, c0 <> 0 -> c1 <> 0 -> Z.abs c0 < 2 ^ 53 -> Z.abs c1 < 2 ^ 53 ->
  (has_integer_roots fsqrt (repeat 0 k ++ [c0; c1] ++ repeat 0 j) = true <->
   exists x, 0 < x /\ pval (repeat 0 k ++ [c0; c1] ++ repeat 0 j) x = 0).
Proof. intros fsqrt k j c0 c1 H0 H1 B0 _. now apply linear_roots. Qed.
(** beyond that size the quotient is rounded, and a polynomial without integer roots is rejected *)
Theorem C28_large_refuted : exists c0 c1, c0 <> 0 /\ c1 <> 0 /\ (forall x, pval [c0; c1] x <> 0) /\
  forall fsqrt, has_integer_roots fsqrt [c0; c1] = true.
Proof.
  exists (2 ^ 60 + 1), (-2). split; [discriminate|]. split; [discriminate|]. split.
  - intros x. cbn [pval]. lia.
  - intros fsqrt. vm_compute. reflexivity.
Qed.
Theorem C28_constants : forall fsqrt k j c, c <> 0 ->
  has_integer_roots fsqrt (repeat 0 k ++ [c] ++ repeat 0 j) = false /\ has_integer_roots fsqrt (repeat 0 k) = true.
Proof.
  intros fsqrt k j c H. unfold has_integer_roots. rewrite factor_out_run, factor_out_zero; [split; reflexivity| |discriminate|apply zeros_rest].
  repeat constructor; assumption.
Qed.
Example C28_ex : has_integer_roots isqrt53 [0; 6; -2] = true /\ has_integer_roots isqrt53 [6; 2] = false /\
  has_integer_roots isqrt53 [5; -2] = false /\ pval [0; 6; -2] 3 = 0.
Proof. repeat split; vm_compute; reflexivity. Qed.

(** C29 *)
Theorem C29_quadratic : forall fsqrt k j c0 c1 c2, good_sqrt (2 ^ 43) fsqrt ->
  c0 <> 0 -> c1 <> 0 -> c2 <> 0 -> Z.abs c0 < 2 ^ 20 -> Z.abs c1 < 2 ^ 20 -> Z.abs c2 < 2 ^ 20 ->
  (has_integer_roots fsqrt (repeat 0 k ++ [c0; c1; c2] ++ repeat 0 j) = true <-> exists x, c2 + c1 * x + c0 * x ^ 2 = 0).
Proof.
  intros fsqrt k j c0 c1 c2 HS N0 N1 N2 B0 B1 B2. rewrite quadratic_roots by assumption.
  split; intros [x Hx]; exists x; cbn [pval] in *; lia.
Qed.
(** the polynomial itself having a positive integer root is neither necessary nor sufficient *)
Theorem C29_misses_refuted : forall fsqrt, good_sqrt (2 ^ 43) fsqrt ->
  exists p x, 0 < x /\ pval p x = 0 /\ has_integer_roots fsqrt p = false.
Proof.
  intros fsqrt HS. exists [6; -5; 1], 2. split; [lia|]. split; [reflexivity|].
  destruct (has_integer_roots fsqrt [6; -5; 1]) eqn:E; [|reflexivity]. exfalso.
  change [6; -5; 1] with (repeat 0 0 ++ [6; -5; 1] ++ repeat 0 0) in E.
  apply C29_quadratic in E; try lia; try assumption. destruct E as [x Hx]. nia.
Qed.
Theorem C29_rejects_refuted : forall fsqrt, good_sqrt (2 ^ 43) fsqrt ->
  exists p, (forall x, pval p x <> 0) /\ has_integer_roots fsqrt p = true.
Proof.
  intros fsqrt HS. exists [1; -5; 6]. split.
  { intros x E. assert (F : (2 * x - 1) * (3 * x - 1) = 0) by (rewrite <- E; cbn [pval]; ring). apply Z.mul_eq_0 in F. lia. }
  change [1; -5; 6] with (repeat 0 0 ++ [1; -5; 6] ++ repeat 0 0). apply C29_quadratic; try lia; try assumption.
  exists 2. reflexivity.
Qed.
(** an inner zero coefficient switches the test off *)
Theorem C29_inner_zero : forall fsqrt c0 c2, c0 <> 0 -> has_integer_roots fsqrt [c0; 0; c2] = false.
Proof. intros fsqrt c0 c2 H. unfold has_integer_roots, factor_out. cbn. rewrite (proj2 (Z.eqb_neq _ _) H). cbn. now rewrite (proj2 (Z.eqb_neq _ _) H). Qed.
Example C29_ex : good_sqrt (2 ^ 43) isqrt53 /\ has_integer_roots isqrt53 [2; -7; 3] = true /\ (3 + -7 * 3 + 2 * 3 ^ 2 = 0) /\
  has_integer_roots isqrt53 [-4; 0; 1] = false.
Proof. split; [exact isqrt53_good|]. repeat split; vm_compute; reflexivity. Qed.

Print Assumptions C21_enumeration.
Print Assumptions C67_fractions.
Print Assumptions C67_value.
Print Assumptions C22_no_repeats.
Print Assumptions C23_length_normal.
Print Assumptions C23_length_indexed.
Print Assumptions C23_length_sparse.
Print Assumptions C23_exact_without_filters.
Print Assumptions C23_interlaced_sparse_refuted.
Print Assumptions C24_indexed.
Print Assumptions C24_enumeration.
Print Assumptions C25_sparse.
Print Assumptions C25_count.
Print Assumptions C25_enumeration.
Print Assumptions C26_degree.
Print Assumptions C27_factor_out.
Print Assumptions C27_split_exists.
Print Assumptions C27_documented.
Print Assumptions C27_docstring_refuted.
Print Assumptions C28_linear.
Print Assumptions C28_large_refuted.
Print Assumptions C28_constants.
Print Assumptions C29_quadratic.
Print Assumptions C29_misses_refuted.
Print Assumptions C29_rejects_refuted.
Print Assumptions C29_inner_zero.

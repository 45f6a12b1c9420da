(** The generator with each of the three manipulations; fractions generated on the way. *)
From Coq Require Import ZArith QArith List Bool Lia Sorted Permutation.
From Verif Require Import PyBase PyBase_Proofs Rnd ContFrac_Model Spec_ContFrac ContFrac_Proofs ContFrac_Hist ContFrac_Proofs2
  Enum_Model Spec_Enum Enum_Proofs Enum_Proofs2 Enum_Sparse.
Import ListNotations.
Local Open Scope Z_scope.

Definition item_pair (it : item) : list poly * list poly :=
  match it with IPair a b => (a, b) | ICF _ a b => (a, b) end.

Section Var.
  Variables (rd : Q -> Q) (fsqrt : Z -> Q) (st : enum_settings).
  Variable manip : bool -> list poly -> res (list (list poly)).
  Variable mv : bool -> list poly -> list (list poly).

  Lemma generator_pairs tg ra rb : (forall a, In a (choices ra) -> manip true a = Ok (mv true a)) ->
    (forall b, In b (choices rb) -> manip false b = Ok (mv false b)) ->
    exists c, cf_new (Flat [1]) (Flat [1]) (e_avoid_zero_b st) None None tg false = Ok c /\
    polys_generator rd fsqrt st manip tg ra rb =
    let '(_, out, x) := run_pairs rd fsqrt st c (all_pairs mv ra rb) in (out, x).
  Proof.
    intros Ha Hb. eexists. split; [reflexivity|]. unfold polys_generator. cbn [cf_new norm_coeffs bind autogen_first].
    rewrite (a_loop_pairs rd fsqrt st manip mv) by assumption. reflexivity.
  Qed.
  Lemma generator_nogen tg ra rb : e_gen_cf st = false ->
    (forall a, In a (choices ra) -> manip true a = Ok (mv true a)) ->
    (forall b, In b (choices rb) -> manip false b = Ok (mv false b)) ->
    polys_generator rd fsqrt st manip tg ra rb =
    (map (fun x => IPair (fst (sq2 x)) (snd (sq2 x))) (filter (passb fsqrt st) (all_pairs mv ra rb)), Ok tt).
  Proof.
    intros Hg Ha Hb. destruct (generator_pairs tg ra rb Ha Hb) as (c & _ & E). rewrite E, run_pairs_nogen by exact Hg. reflexivity.
  Qed.
  Lemma in_all_pairs ra rb x : In x (all_pairs mv ra rb) <->
    exists a b, in_ranges ra a /\ in_ranges rb b /\ In (fst x) (mv true a) /\ In (snd x) (mv false b).
  Proof.
    unfold all_pairs. rewrite in_flat_map. split.
    - intros (a & Ha & H). apply in_flat_map in H. destruct H as (pas & Hp & H). apply in_flat_map in H.
      destruct H as (b & Hb & H). apply in_map_iff in H. destruct H as (pbs & <- & Hq). exists a, b.
      rewrite <- !in_choices. auto.
    - intros (a & b & Ha & Hb & H1 & H2). rewrite <- in_choices in Ha, Hb. exists a. split; [exact Ha|].
      apply in_flat_map. exists (fst x). split; [exact H1|]. apply in_flat_map. exists b. split; [exact Hb|].
      apply in_map_iff. exists (snd x). split; [now destruct x|exact H2].
  Qed.
  Lemma generator_length tg ra rb na nb : (forall a, In a (choices ra) -> manip true a = Ok (mv true a)) ->
    (forall b, In b (choices rb) -> manip false b = Ok (mv false b)) ->
    (forall a, In a (choices ra) -> (length (mv true a) <= na)%nat) ->
    (forall b, In b (choices rb) -> (length (mv false b) <= nb)%nat) ->
    (length (fst (polys_generator rd fsqrt st manip tg ra rb)) <= length (choices ra) * na * (length (choices rb) * nb))%nat.
  Proof.
    intros Ha Hb La Lb. destruct (generator_pairs tg ra rb Ha Hb) as (c & _ & E). rewrite E.
    pose proof (run_pairs_length rd fsqrt st (all_pairs mv ra rb) c) as R.
    destruct (run_pairs rd fsqrt st c (all_pairs mv ra rb)) as [[c1 out] x]. cbn [fst snd] in *.
    etransitivity; [exact R|]. now apply all_pairs_length.
  Qed.
End Var.

Lemma sq2_spec x : collapses (fst x) (fst (sq2 x)) /\ collapses (snd x) (snd (sq2 x)).
Proof. split; apply squeeze_collapses. Qed.

(** with fractions *)
Definition zero_free (st : enum_settings) (pbs : list poly) : bool :=
  match find (bad_index (e_avoid_zero_b st) (squeeze pbs)) (upto (e_iters st)) with None => true | Some _ => false end.
Lemma zero_free_spec st pbs : zero_free st pbs = true <->
  (e_avoid_zero_b st = true -> forall i, 1 <= i <= e_iters st -> icoef (squeeze pbs) i <> 0).
Proof.
  unfold zero_free. destruct (find _ _) as [i|] eqn:F.
  - split; [discriminate|]. intros H. apply find_some in F. destruct F as [F1 F2]. unfold bad_index in F2.
    rewrite !andb_true_iff in F2. destruct F2 as [[F2 F3] F4]. unfold upto in F1. apply in_map_iff in F1.
    destruct F1 as (k & <- & Hk). apply in_seq in Hk. exfalso.
    apply (H F2 (Z.of_nat k)); [lia|]. now apply Z.eqb_eq.
  - split; [|reflexivity]. intros _ Ha i Hi E. pose proof (find_none _ _ F i) as N. unfold bad_index in N.
    assert (Hu : In i (upto (e_iters st))) by (unfold upto; apply in_map_iff; exists (Z.to_nat i); split; [lia|]; apply in_seq; lia).
    specialize (N Hu). rewrite Ha, E, (proj2 (Z.gtb_lt i 0)) in N by lia. discriminate N.
Qed.
Definition yielded (rd : Q -> Q) (st : enum_settings) (tg : option Q) (x : list poly * list poly) (it : item) : Prop :=
  exists qa qb c0 c, collapses (fst x) qa /\ collapses (snd x) qb /\ fresh qa qb (e_avoid_zero_b st) false tg c0 /\
    cf_gen0 rd (e_iters st) true c0 = (c, Ok tt) /\ it = ICF (set_approach c ATUndefined APNone) qa qb.
Lemma gen_rel_filter rd st tg l out : gen_rel rd st (e_avoid_zero_b st) tg l out ->
  Forall2 (yielded rd st tg) (filter (fun x => zero_free st (snd x)) l) out.
Proof.
  induction 1 as [|x l out i (c0 & F & E) H IH|x l out c (c0 & F & E) H IH]; cbn [filter]; [constructor| |].
  - rewrite (gen_outcome rd _ _ _ _ _ c0 c0 _ _ F (same_static_refl _)) in E. cbn [snd sq2] in E.
    replace (zero_free st (snd x)) with false; [exact IH|]. unfold zero_free. destruct (find _ _); [reflexivity|discriminate].
  - pose proof (gen_outcome rd _ _ _ _ _ c0 c0 (e_iters st) true F (same_static_refl _)) as O. rewrite E in O. cbn [snd sq2] in O.
    replace (zero_free st (snd x)) with true.
    + constructor; [|exact IH]. exists (fst (sq2 x)), (snd (sq2 x)), c0, c.
      destruct (sq2_spec x) as [S1 S2]. repeat split; assumption.
    + unfold zero_free. destruct (find _ _); [discriminate|reflexivity].
Qed.
Lemma ranges_shape r ps : in_ranges r ps -> r <> [] -> hd [] r <> [] -> ps <> [] /\ hd [] ps <> [].
Proof.
  intros H N1 N2. destruct H as [|p ra ps r H1 H2]; [contradiction|]. split; [discriminate|].
  cbn [hd] in *. destruct H1; [contradiction|discriminate].
Qed.
Lemma sorted_pairs_ok ra rb x y : In x (all_pairs mv_normal ra rb) -> In y (all_pairs mv_normal ra rb) ->
  sq2 x = sq2 y -> x = y.
Proof.
  intros Hx Hy E. apply in_normal_pairs in Hx, Hy. destruct x as [xa xb], y as [ya yb]. cbn [fst snd] in *.
  unfold sq2 in E. cbn [fst snd] in E. injection E as E1 E2. destruct Hx as [X1 X2], Hy as [Y1 Y2].
  f_equal; (apply squeeze_inj; [|assumption]).
  - etransitivity; [exact (Forall2_len _ _ _ X1)|symmetry; exact (Forall2_len _ _ _ Y1)].
  - etransitivity; [exact (Forall2_len _ _ _ X2)|symmetry; exact (Forall2_len _ _ _ Y2)].
Qed.
Lemma NoDup_map_in {A B} (f : A -> B) l : (forall x y, In x l -> In y l -> f x = f y -> x = y) -> NoDup l -> NoDup (map f l).
Proof.
  intros H N. induction N as [|x l Hx N IH]; cbn; constructor.
  - intros Hi. apply in_map_iff in Hi. destruct Hi as (y & E & Hy). apply Hx.
    rewrite (H x y); [exact Hy|now left|now right|congruence].
  - apply IH. intros a b Ha Hb. apply H; now right.
Qed.

(** sparse *)
Section SparseGen.
  Variable set_order : list (list mask) -> list (list mask).
  Variables n_a n_b : Z.
  Definition mv_sparse (is_a : bool) (ps : list poly) : list (list poly) :=
    let n := if is_a then n_a else n_b in
    map (fun ms => map (fun pm => place n (fst pm) (snd pm)) (combine ps ms))
        (mask_tuples set_order (length (hd [] ps)) (length ps) n).
  Hypothesis perm : forall l, Permutation (set_order l) l.
  Definition uniform (ps : list poly) : Prop := ps <> [] /\ Forall (fun p => length p = length (hd [] ps)) ps.
  Lemma sparse_ok is_a ps : uniform ps -> manip_sparse set_order n_a n_b is_a ps = Ok (mv_sparse is_a ps).
  Proof.
    intros [N U]. destruct ps as [|p0 r]; [contradiction|]. unfold manip_sparse, mv_sparse. cbv zeta. cbn [hd] in *.
    fold (mask_tuples set_order (length p0) (length (p0 :: r)) (if is_a then n_a else n_b)).
    apply mapM_ok. intros ms Hms. apply (in_mask_tuples set_order perm) in Hms. destruct Hms as [L F].
    unfold apply_masks. apply mapM_ok. intros [p m] Hpm. cbn [fst snd]. apply apply_mask_ok.
    pose proof (in_combine_l _ _ _ _ Hpm) as Hp. pose proof (in_combine_r _ _ _ _ Hpm) as Hm.
    rewrite Forall_forall in U, F. rewrite (U p Hp). symmetry. now apply F.
  Qed.
End SparseGen.

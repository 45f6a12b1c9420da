(** What polys_generator yields; lengths. *)
From Coq Require Import ZArith QArith List Bool Lia Sorted Permutation.
From Verif Require Import PyBase PyBase_Proofs Rnd ContFrac_Model Spec_ContFrac ContFrac_Proofs ContFrac_Hist ContFrac_Proofs2
  Enum_Model Spec_Enum Enum_Proofs.
Import ListNotations.
Local Open Scope Z_scope.

(** the filter in terms of the specification; [roots] is the integer-root test *)
Definition passes (st : enum_settings) (roots : poly -> bool) (pas pbs : list poly) : Prop :=
  (e_avoid_roots st = true -> forall p, In p pbs -> roots p = false) /\
  (e_exp_only st = true -> forall a b da db, collapses pas [a] -> collapses pbs [b] ->
     is_degree a da -> is_degree b db -> db <= 2 * da).

Section Emit.
  Variables (rd : Q -> Q) (fsqrt : Z -> Q) (st : enum_settings).
  Let roots := has_integer_roots fsqrt.

  Definition passb (x : list poly * list poly) : bool :=
    negb (e_avoid_roots st && existsb roots (snd x)) &&
    negb (match squeeze (fst x), squeeze (snd x) with
          | [a], [b] => e_exp_only st && (polynom_degree b >? 2 * polynom_degree a)
          | _, _ => false
          end).
  Definition sq2 (x : list poly * list poly) : list poly * list poly := (squeeze (fst x), squeeze (snd x)).

  Lemma passb_spec x : passb x = true <-> passes st roots (fst x) (snd x).
  Proof.
    destruct x as [pas pbs]. unfold passb, passes. cbn [fst snd]. rewrite andb_true_iff, !negb_true_iff.
    assert (H1 : e_avoid_roots st && existsb roots pbs = false <->
                 (e_avoid_roots st = true -> forall p, In p pbs -> roots p = false)).
    { destruct (e_avoid_roots st); cbn [andb]; [|split; [discriminate|reflexivity]].
      split.
      - intros H _ p Hp. destruct (roots p) eqn:E; [|reflexivity].
        assert (existsb roots pbs = true) by (apply existsb_exists; now exists p). congruence.
      - intros H. destruct (existsb roots pbs) eqn:E; [|reflexivity]. apply existsb_exists in E.
        destruct E as (p & Hp & Hr). rewrite (H eq_refl p Hp) in Hr. discriminate. }
    rewrite H1. apply and_iff_compat_l.
    assert (C : forall ps q, collapses ps [q] <-> squeeze ps = [q]).
    { intros ps q. split.
      - intros H. apply (collapses_fun ps); [apply squeeze_collapses|exact H].
      - intros H. rewrite <- H. apply squeeze_collapses. }
    split.
    - intros H He a b da db Ca Cb Da Db. apply C in Ca. apply C in Cb. rewrite Ca, Cb, He in H. cbn [andb] in H.
      rewrite (is_degree_unique _ _ _ Da (polynom_degree_spec a)), (is_degree_unique _ _ _ Db (polynom_degree_spec b)).
      rewrite Z.gtb_ltb in H. apply Z.ltb_ge in H. exact H.
    - intros H. destruct (squeeze pas) as [|a [|]] eqn:Ea; try reflexivity.
      destruct (squeeze pbs) as [|b [|]] eqn:Eb; try reflexivity.
      destruct (e_exp_only st); [|reflexivity]. cbn [andb]. rewrite Z.gtb_ltb. apply Z.ltb_ge.
      apply (H eq_refl a b); [now apply C|now apply C|apply polynom_degree_spec|apply polynom_degree_spec].
  Qed.

  (** pairs only *)
  Lemma run_pairs_nogen l c : e_gen_cf st = false ->
    run_pairs rd fsqrt st c l = (c, map (fun x => IPair (fst (sq2 x)) (snd (sq2 x))) (filter passb l), Ok tt).
  Proof.
    intros Hg. induction l as [|[pas pbs] l IH]; cbn [run_pairs filter]; [reflexivity|].
    unfold pair_body, passb. cbn [fst snd]. fold roots.
    destruct (e_avoid_roots st && existsb roots pbs); cbn [negb andb out3].
    - now rewrite IH.
    - cbv zeta. destruct (match squeeze pas, squeeze pbs with [a], [b] => _ | _, _ => _ end); cbn [negb andb out3].
      + now rewrite IH.
      + rewrite Hg. cbn [out3]. now rewrite IH.
  Qed.

  (** with fractions: the shared object *)
  Definition shared (av : bool) (tg : option Q) (c : contfrac) : Prop :=
    pres (cf_params c) = Fin 1 /\ cf_promo c = None /\ cf_auto_first c = true /\ cf_avoid_zero_b c = av /\
    cf_target c = tg /\ cf_logging c = false.
  Lemma shared_reinit av tg c a b : shared av tg c -> a <> [] -> hd [] a <> [] -> b <> [] ->
    exists c0 c1, fresh a b av false tg c0 /\ cf_reinitialize (Some a) (Some b) None c = (c1, Ok tt) /\
      shared av tg c1 /\ cf_reset c1 = set_approach (cf_reset c0) ATUndefined APNone.
  Proof.
    intros (H1 & H2 & H3 & H4 & H5 & H6) Na Nh Nb.
    destruct a as [|[|a00 a0] a]; [contradiction|contradiction|]. destruct b as [|b0 b]; [contradiction|].
    unfold fresh, cf_new, cf_reinitialize. cbn [norm_coeffs bind autogen_first].
    eexists. eexists. split; [reflexivity|]. rewrite H3. cbn [bind]. split; [reflexivity|].
    split; [repeat split; assumption|].
    unfold cf_reset, set_dyn, set_approach. cbn. rewrite ?H3, H1, H2, H4, H5, H6. reflexivity.
  Qed.
  Lemma gen_shared av tg c n fin : shared av tg c -> shared av tg (fst (cf_gen0 rd n fin c)).
  Proof.
    intros (H1 & H2 & H3 & H4 & H5 & H6). pose proof (cf_gen0_static rd n fin c) as S. unfold same_static in S.
    rewrite S. repeat split; assumption.
  Qed.
  Lemma gen0_approach n fin c t p :
    cf_gen0 rd n fin (set_approach c t p) = (set_approach (fst (cf_gen0 rd n fin c)) t p, snd (cf_gen0 rd n fin c)).
  Proof.
    unfold cf_gen0. unfold cf_reset. cbn [set_approach cf_params cf_first].
    change (set_dyn (set_approach c t p) [cf_params c] 0 [cf_first c]) with
      (set_approach (set_dyn c [cf_params c] 0 [cf_first c]) t p).
    generalize (set_dyn c [cf_params c] 0 [cf_first c]) as d. intros d.
    unfold cf_add. cbn [cf_log cf_mats set_approach cf_params cf_first].
    assert (L : forall idx ps m d, add_loop rd idx (set_approach d t p) ps m =
      (set_approach (fst (add_loop rd idx d ps m)) t p, snd (add_loop rd idx d ps m))).
    { induction idx as [|i idx IH]; intros ps m e; cbn [add_loop]; [reflexivity|].
      change (cf_iteration rd (set_approach e t p) ps m (i + cf_iters (set_approach e t p))) with
        (cf_iteration rd e ps m (i + cf_iters e)).
      destruct (cf_iteration rd e ps m (i + cf_iters e)) as [[ps' m']|ex]; [|reflexivity].
      cbn [cf_logging set_approach]. destruct (cf_logging e); [|apply IH].
      change (set_dyn (set_approach e t p) _ _ _) with
        (set_approach (set_dyn e (cf_log e ++ [ps']) (cf_iters e) (cf_mats e ++ [m'])) t p). apply IH. }
    rewrite L. destruct (add_loop rd (zrange 0 n) d _ _) as [d1 [[ps1 m1]|ex]]; cbn [fst snd]; [|reflexivity].
    destruct (if fin then cf_finalize rd ps1 m1 else (ps1, m1)) as [ps2 m2].
    cbn [cf_logging set_approach]. destruct (cf_logging d1); reflexivity.
  Qed.
  Lemma gen0_reset n fin c c' : cf_reset c = cf_reset c' -> cf_gen0 rd n fin c = cf_gen0 rd n fin c'.
  Proof. unfold cf_gen0. congruence. Qed.
  Lemma gen0_of_reset n fin c : cf_gen0 rd n fin (cf_reset c) = cf_gen0 rd n fin c.
  Proof. reflexivity. Qed.

  (** the fresh object of a pair after its iterations *)
  Definition good_shape (x : list poly * list poly) : Prop := fst x <> [] /\ hd [] (fst x) <> [] /\ snd x <> [].
  Lemma squeeze_nonempty ps : ps <> [] -> squeeze ps <> [].
  Proof. destruct ps as [|p0 [|p1 r]]; cbn; try congruence. destruct (_ && _); discriminate. Qed.
  Lemma squeeze_hd ps : hd [] (squeeze ps) = hd [] ps.
  Proof. destruct ps as [|p0 [|p1 r]]; try reflexivity. unfold squeeze. destruct (forallb _ _); reflexivity. Qed.

  Inductive gen_rel (av : bool) (tg : option Q) : list (list poly * list poly) -> list item -> Prop :=
  | GR_nil : gen_rel av tg [] []
  | GR_zero x l out i : (exists c0, fresh (fst (sq2 x)) (snd (sq2 x)) av false tg c0 /\
        snd (cf_gen0 rd (e_iters st) true c0) = Raise (ZeroB i)) ->
      gen_rel av tg l out -> gen_rel av tg (x :: l) out
  | GR_yield x l out c : (exists c0, fresh (fst (sq2 x)) (snd (sq2 x)) av false tg c0 /\
        cf_gen0 rd (e_iters st) true c0 = (c, Ok tt)) ->
      gen_rel av tg l out ->
      gen_rel av tg (x :: l) (ICF (set_approach c ATUndefined APNone) (fst (sq2 x)) (snd (sq2 x)) :: out).

  Lemma run_pairs_gen av tg l : e_gen_cf st = true -> Forall good_shape l ->
    forall c, shared av tg c ->
    exists c' out, run_pairs rd fsqrt st c l = (c', out, Ok tt) /\ shared av tg c' /\ gen_rel av tg (filter passb l) out.
  Proof.
    intros Hg. induction 1 as [|[pas pbs] l (G1 & G2 & G3) Hl IH]; intros c Hc; cbn [run_pairs filter].
    { exists c, []. repeat split; try apply Hc. constructor. }
    unfold pair_body, passb. cbn [fst snd] in *. fold roots.
    destruct (e_avoid_roots st && existsb roots pbs); cbn [negb andb out3].
    { destruct (IH c Hc) as (c' & out & E & S & G). rewrite E. now exists c', out. }
    cbv zeta. destruct (match squeeze pas, squeeze pbs with [a], [b] => _ | _, _ => _ end); cbn [negb andb out3].
    { destruct (IH c Hc) as (c' & out & E & S & G). rewrite E. now exists c', out. }
    rewrite Hg.
    destruct (shared_reinit av tg c (squeeze pas) (squeeze pbs) Hc) as (c0 & c1 & F & R & S1 & RS).
    { now apply squeeze_nonempty. } { now rewrite squeeze_hd. } { now apply squeeze_nonempty. }
    match goal with |- context [cf_reinitialize ?x ?y ?z c] => replace (cf_reinitialize x y z c) with (c1, Ok tt) by (symmetry; exact R) end.
    assert (E1 : cf_gen0 rd (e_iters st) true c1 =
      (set_approach (fst (cf_gen0 rd (e_iters st) true c0)) ATUndefined APNone, snd (cf_gen0 rd (e_iters st) true c0))).
    { rewrite <- gen0_of_reset, RS, gen0_approach, gen0_of_reset. reflexivity. }
    pose proof (gen_shared av tg c1 (e_iters st) true S1) as S2.
    pose proof (gen_outcome rd _ _ _ _ _ c0 c0 (e_iters st) true F (same_static_refl _)) as O.
    rewrite E1 in *. cbn [fst] in S2.
    destruct (find (bad_index av (squeeze pbs)) (upto (e_iters st))) as [i|].
    - rewrite O. cbn [out3]. destruct (IH _ S2) as (c' & out & E & S & G). rewrite E. exists c', out.
      repeat split; try apply S. apply (GR_zero av tg (pas, pbs) _ _ i); [|exact G]. exists c0. auto.
    - rewrite O. cbn [out3]. destruct (IH _ S2) as (c' & out & E & S & G). rewrite E.
      eexists. eexists. split; [reflexivity|]. split; [exact S|].
      cbn [app]. apply (GR_yield av tg (pas, pbs)); [|exact G].
      exists c0. split; [exact F|]. rewrite <- O. now destruct (cf_gen0 rd (e_iters st) true c0).
  Qed.
  Lemma gen_rel_app av tg l1 l2 o1 o2 : gen_rel av tg l1 o1 -> gen_rel av tg l2 o2 -> gen_rel av tg (l1 ++ l2) (o1 ++ o2).
  Proof.
    intros H1 H2. induction H1; cbn; [exact H2|econstructor 2; eassumption|econstructor 3; eassumption].
  Qed.
End Emit.

(** lengths *)
Lemma range_prod_spec r init : (forall ra, In ra r -> forall lh, In lh ra -> fst lh <= snd lh) ->
  range_prod r init = init * Z.of_nat (length (choices r)).
Proof.
  rewrite choices_length. unfold range_prod. revert init. induction r as [|ra r IH]; intros init H; cbn [fold_left fold_right]; [lia|].
  rewrite IH by (intros; eapply H; eauto; now right).
  assert (E : fold_left (fun g lh => g * (snd lh - fst lh)) ra init =
              init * fold_right (fun lh g => Z.max 0 (snd lh - fst lh) * g) 1 ra).
  { assert (Hra : forall lh, In lh ra -> fst lh <= snd lh) by (intros; apply (H ra); [now left|assumption]).
    clear -Hra. revert init. induction ra as [|lh ra IH]; intros init; cbn [fold_left fold_right]; [lia|].
    rewrite IH by (intros; apply Hra; now right). rewrite Z.max_r by (specialize (Hra lh (or_introl eq_refl)); lia). ring. }
  rewrite E. ring.
Qed.
Lemma flat_map_length_le {A B} (f : A -> list B) l (n : nat) : (forall x, In x l -> (length (f x) <= n)%nat) ->
  (length (flat_map f l) <= length l * n)%nat.
Proof.
  intros H. induction l as [|x l IH]; cbn; [lia|]. rewrite app_length.
  specialize (IH ltac:(intros; apply H; now right)). specialize (H x (or_introl eq_refl)). lia.
Qed.
Lemma all_pairs_length mv ra rb (na nb : nat) :
  (forall a, In a (choices ra) -> (length (mv true a) <= na)%nat) ->
  (forall b, In b (choices rb) -> (length (mv false b) <= nb)%nat) ->
  (length (all_pairs mv ra rb) <= length (choices ra) * na * (length (choices rb) * nb))%nat.
Proof.
  intros Ha Hb. unfold all_pairs.
  rewrite <- Nat.mul_assoc. apply flat_map_length_le. intros a HIa.
  etransitivity; [apply (flat_map_length_le _ _ (length (choices rb) * nb))|].
  - intros pas _. apply flat_map_length_le. intros b HIb. rewrite map_length. now apply Hb.
  - apply Nat.mul_le_mono_r. now apply Ha.
Qed.
Lemma filter_length_le' {A} (f : A -> bool) l : (length (filter f l) <= length l)%nat.
Proof. induction l; cbn; [lia|]. destruct (f a); cbn; lia. Qed.
Lemma gen_rel_length rd st av tg l out : gen_rel rd st av tg l out -> (length out <= length l)%nat.
Proof. induction 1; cbn; lia. Qed.

(** number of items, whatever the mode and however the generator ends *)
Lemma run_pairs_length rd fsqrt st l : forall c, (length (snd (fst (run_pairs rd fsqrt st c l))) <= length l)%nat.
Proof.
  induction l as [|[pas pbs] l IH]; intros c; cbn [run_pairs]; [cbn; lia|].
  assert (B : (length (snd (fst (out3 (pair_body rd fsqrt st c pas pbs)))) <= 1)%nat).
  { unfold pair_body. destruct (e_avoid_roots st && _); [cbn; lia|]. cbv zeta.
    destruct (match squeeze pas, squeeze pbs with [a], [b] => _ | _, _ => _ end); [cbn; lia|].
    destruct (e_gen_cf st); [|cbn; lia].
    destruct (cf_reinitialize _ _ _ c) as [c1 [u|e]]; [|cbn; lia].
    destruct (cf_gen0 rd (e_iters st) true c1) as [c2 [u'|e']]; [cbn; lia|]. destruct e'; cbn; lia. }
  destruct (out3 (pair_body rd fsqrt st c pas pbs)) as [[c1 out] [u|e]]; cbn [fst snd] in *; [|cbn [length]; lia].
  specialize (IH c1). destruct (run_pairs rd fsqrt st c1 l) as [[c2 out2] x]. cbn [fst snd] in *.
  rewrite app_length. cbn [length]. lia.
Qed.

(** normal enumerator: the pairs *)
Definition mv_normal (is_a : bool) (p : list poly) : list (list poly) := [p].
Lemma all_pairs_normal ra rb : all_pairs mv_normal ra rb =
  flat_map (fun a => map (pair a) (choices rb)) (choices ra).
Proof.
  unfold all_pairs, mv_normal. apply flat_map_ext. intros a. cbn [flat_map]. rewrite app_nil_r.
  induction (choices rb) as [|b l IH]; [reflexivity|]. cbn [flat_map map app]. now f_equal.
Qed.
Lemma normal_sorted ra rb : StronglySorted (fun x y => lex (flat x) (flat y)) (all_pairs mv_normal ra rb).
Proof.
  rewrite all_pairs_normal. destruct (choices_sorted ra) as [Sa La], (choices_sorted rb) as [Sb Lb].
  apply (sorted_flat_map (fun s t => lex (concat s) (concat t))); [exact Sa| |].
  - intros a _. apply (sorted_map (fun s t => lex (concat s) (concat t))); [|exact Sb].
    intros s t _ _ H. unfold flat. cbn [fst snd]. now apply lex_app_r.
  - intros a a' u v Ha Ha' H Hu Hv. apply in_map_iff in Hu. destruct Hu as (b & <- & Hb).
    apply in_map_iff in Hv. destruct Hv as (b' & <- & Hb'). unfold flat. cbn [fst snd].
    apply lex_app_l; [exact H|]. rewrite (Lb b Hb), (Lb b' Hb'). reflexivity.
Qed.
Lemma in_normal_pairs ra rb x : In x (all_pairs mv_normal ra rb) <-> in_ranges ra (fst x) /\ in_ranges rb (snd x).
Proof.
  rewrite all_pairs_normal. destruct x as [pas pbs]. cbn [fst snd]. rewrite <- !in_choices, in_flat_map. split.
  - intros (a & Ha & H). apply in_map_iff in H. destruct H as (b & [= -> ->] & Hb). auto.
  - intros [Ha Hb]. exists pas. split; [exact Ha|]. now apply in_map.
Qed.
Lemma normal_generator rd fsqrt st tg ra rb : exists c,
  cf_new (Flat [1]) (Flat [1]) (e_avoid_zero_b st) None None tg false = Ok c /\
  polys_generator rd fsqrt st manip_normal tg ra rb =
  let '(_, out, x) := run_pairs rd fsqrt st c (all_pairs mv_normal ra rb) in (out, x).
Proof.
  eexists. split; [reflexivity|]. unfold polys_generator. cbn [cf_new norm_coeffs bind autogen_first].
  rewrite (a_loop_pairs rd fsqrt st manip_normal mv_normal) by reflexivity. reflexivity.
Qed.
Lemma new_shared av tg c : cf_new (Flat [1]) (Flat [1]) av None None tg false = Ok c -> shared av tg c.
Proof. intros [= <-]. repeat split. Qed.

(** Proofs about the enumeration of polynomials: degree, factoring, product order, flattening of the loops. *)
From Coq Require Import ZArith QArith List Bool Lia Sorted Permutation.
From Verif Require Import PyBase PyBase_Proofs Rnd ContFrac_Model Enum_Model Spec_Enum.
Import ListNotations.
Local Open Scope Z_scope.

Lemma Forall2_len {A B} (R : A -> B -> Prop) l m : Forall2 R l m -> length l = length m.
Proof. induction 1; cbn; congruence. Qed.

Lemma poly_eqb_eq p q : poly_eqb p q = true <-> p = q.
Proof.
  revert q. induction p as [|x p IH]; intros [|y q]; cbn; try (split; congruence).
  rewrite andb_true_iff, Z.eqb_eq, IH. split; [intros [-> ->]; reflexivity | intros H; now inversion H].
Qed.

(** degree *)
Lemma degree_loop_spec rp : forall p, p = rev rp -> is_degree p (degree_loop rp (Z.of_nat (length rp))).
Proof.
  induction rp as [|i r IH]; intros p ->; cbn [degree_loop rev length].
  - left. split; [reflexivity|constructor].
  - destruct (Z.eqb_spec i 0) as [->|N]; cbn [negb].
    + replace (Z.of_nat (S (length r)) - 1) with (Z.of_nat (length r)) by lia.
      destruct (IH (rev r) eq_refl) as [[Hd Hz]|(Hd & Hn & Hj)].
      * left. split; [exact Hd|]. apply Forall_app. split; [exact Hz|]. constructor; [reflexivity|constructor].
      * right. rewrite rev_length in Hd. rewrite app_length, rev_length. cbn [length]. split; [lia|]. split.
        -- rewrite app_nth1 by (rewrite rev_length; lia). exact Hn.
        -- intros j Hjd. destruct (Nat.lt_ge_cases j (length (rev r))) as [L|L].
           ++ rewrite app_nth1 by exact L. now apply Hj.
           ++ rewrite app_nth2 by exact L. destruct (j - length (rev r))%nat as [|[|?]]; reflexivity.
    + right. rewrite app_length, rev_length. cbn [length]. split; [lia|]. split.
      * rewrite app_nth2 by (rewrite rev_length; lia). rewrite rev_length.
        replace (Z.to_nat (Z.of_nat (S (length r)) - 1) - length r)%nat with 0%nat by lia. exact N.
      * intros j Hj. apply nth_overflow. rewrite app_length, rev_length. cbn [length]. lia.
Qed.
Lemma polynom_degree_spec p : is_degree p (polynom_degree p).
Proof.
  unfold polynom_degree. rewrite <- (rev_length p). apply degree_loop_spec. now rewrite rev_involutive.
Qed.
Lemma is_degree_unique p d d' : is_degree p d -> is_degree p d' -> d = d'.
Proof.
  assert (Z0 : forall p n, Forall (fun c => c = 0) p -> nth n p 0 = 0).
  { intros q n H. revert n. induction H; intros [|n]; cbn; auto. }
  intros [[-> H]|(H1 & H2 & H3)] [[-> H']|(H1' & H2' & H3')]; try reflexivity.
  - exfalso. apply H2'. now apply Z0.
  - exfalso. apply H2. now apply Z0.
  - destruct (Z.lt_trichotomy d d') as [L|[E|L]]; [|exact E|].
    + exfalso. apply H2'. apply H3. lia.
    + exfalso. apply H2. apply H3'. lia.
Qed.

(** factoring out powers of x *)
Lemma dropwhile_zeros n p : dropwhile (fun x => x =? 0) (repeat 0 n ++ p) = dropwhile (fun x => x =? 0) p.
Proof. induction n; cbn; auto. Qed.
Lemma dropwhile_nonzero c p : c <> 0 -> dropwhile (fun x => x =? 0) (c :: p) = c :: p.
Proof. intros H. cbn. now rewrite (proj2 (Z.eqb_neq _ _)) by exact H. Qed.
Lemma takewhile_run (r : list Z) rest : Forall (fun c => c <> 0) r -> (rest = [] \/ exists s, rest = 0 :: s) ->
  takewhile (fun x => negb (x =? 0)) (r ++ rest) = r.
Proof.
  intros H Hr. induction H as [|c r Hc H IH]; cbn.
  - destruct Hr as [->|(s & ->)]; reflexivity.
  - rewrite (proj2 (Z.eqb_neq _ _)) by exact Hc. cbn. now rewrite IH.
Qed.
Lemma factor_out_run n r rest : Forall (fun c => c <> 0) r -> r <> [] -> (rest = [] \/ exists s, rest = 0 :: s) ->
  factor_out (repeat 0 n ++ r ++ rest) = r.
Proof.
  intros H Hn Hr. unfold factor_out. rewrite dropwhile_zeros. destruct r as [|c r]; [contradiction|].
  cbn [app]. inversion H; subst. rewrite dropwhile_nonzero by assumption. exact (takewhile_run (c :: r) rest H Hr).
Qed.
Lemma factor_out_zero n : factor_out (repeat 0 n) = [].
Proof. unfold factor_out. rewrite <- (app_nil_r (repeat 0 n)), dropwhile_zeros. reflexivity. Qed.
Lemma split_run (p : list Z) : (exists n, p = repeat 0 n) \/
  exists n r rest, p = repeat 0 n ++ r ++ rest /\ r <> [] /\ Forall (fun c => c <> 0) r /\ (rest = [] \/ exists s, rest = 0 :: s).
Proof.
  assert (R : forall p : list Z, exists r rest, p = r ++ rest /\ Forall (fun c => c <> 0) r /\ (rest = [] \/ exists s, rest = 0 :: s)).
  { induction p0 as [|c q (r & rest & -> & Hr & Hs)].
    - exists [], []. auto.
    - destruct (Z.eq_dec c 0) as [->|N].
      + exists [], (0 :: r ++ rest). split; [reflexivity|]. split; [constructor|]. right. now eexists.
      + exists (c :: r), rest. split; [reflexivity|]. split; [now constructor|assumption]. }
  induction p as [|c q IH].
  - left. now exists O.
  - destruct (Z.eq_dec c 0) as [->|N].
    + destruct IH as [(n & ->)|(n & r & rest & -> & H)].
      * left. now exists (S n).
      * right. exists (S n), r, rest. auto.
    + right. destruct (R (c :: q)) as (r & rest & E & Hr & Hs). exists O, r, rest. rewrite E. repeat split; auto.
      destruct r; [|discriminate]. destruct Hs as [->|(s & ->)]; cbn in E; [discriminate|]. injection E as -> _. contradiction.
Qed.

(** sorted flat_map *)
Lemma sorted_app {A} (R : A -> A -> Prop) l m : StronglySorted R l -> StronglySorted R m ->
  (forall x y, In x l -> In y m -> R x y) -> StronglySorted R (l ++ m).
Proof.
  induction 1 as [|x l Hl IH Hx]; intros Hm H; cbn; [exact Hm|].
  constructor; [apply IH; [exact Hm|]; intros; apply H; [now right|assumption]|].
  apply Forall_app. split; [exact Hx|]. apply Forall_forall. intros y Hy. apply H; [now left|assumption].
Qed.
Lemma sorted_flat_map {A B} (R1 : A -> A -> Prop) (R : B -> B -> Prop) (f : A -> list B) l :
  StronglySorted R1 l -> (forall x, In x l -> StronglySorted R (f x)) ->
  (forall x y u v, In x l -> In y l -> R1 x y -> In u (f x) -> In v (f y) -> R u v) ->
  StronglySorted R (flat_map f l).
Proof.
  induction 1 as [|x l Hl IH Hx]; intros Hf H; cbn [flat_map]; [constructor|].
  apply sorted_app.
  - apply Hf. now left.
  - apply IH; [intros; apply Hf; now right|]. intros; eapply H; eauto; now right.
  - intros u v Hu Hv. apply in_flat_map in Hv. destruct Hv as (y & Hy & Hv).
    rewrite Forall_forall in Hx. apply (H x y); auto; [now left|now right].
Qed.
Lemma sorted_map {A B} (R : A -> A -> Prop) (S : B -> B -> Prop) (f : A -> B) l :
  (forall x y, In x l -> In y l -> R x y -> S (f x) (f y)) -> StronglySorted R l -> StronglySorted S (map f l).
Proof.
  intros H. induction 1 as [|x l Hl IH Hx]; cbn; constructor.
  - apply IH. intros; apply H; auto; now right.
  - apply Forall_forall. intros y Hy. apply in_map_iff in Hy. destruct Hy as (z & <- & Hz).
    rewrite Forall_forall in Hx. apply H; auto; [now left|now right].
Qed.
Lemma sorted_filter {A} (R : A -> A -> Prop) f l : StronglySorted R l -> StronglySorted R (filter f l).
Proof.
  induction 1 as [|x l Hl IH Hx]; cbn; [constructor|]. destruct (f x); [|exact IH]. constructor; [exact IH|].
  apply Forall_forall. intros y Hy. apply filter_In in Hy. rewrite Forall_forall in Hx. now apply Hx.
Qed.
Lemma sorted_NoDup {A} (R : A -> A -> Prop) l : (forall x, ~ R x x) -> StronglySorted R l -> NoDup l.
Proof.
  intros Hi. induction 1 as [|x l Hl IH Hx]; constructor; [|exact IH].
  intros HI. rewrite Forall_forall in Hx. now apply (Hi x), Hx.
Qed.

Lemma lex_length l m : lex l m -> length l = length m.
Proof. induction 1; cbn; congruence. Qed.
Lemma lex_irrefl l : ~ lex l l.
Proof.
  induction l as [|x l IH]; intros H; inversion H; subst; [lia|contradiction].
Qed.
Lemma lex_app_l a b c d : lex a b -> length c = length d -> lex (a ++ c) (b ++ d).
Proof.
  intros H L. induction H as [x y l m Hxy Hl|x l m H IH]; cbn.
  - apply lex_lt; [exact Hxy|]. rewrite !app_length. congruence.
  - now apply lex_eq.
Qed.
Lemma lex_app_r a c d : lex c d -> lex (a ++ c) (a ++ d).
Proof. intros H. induction a; cbn; [exact H|now apply lex_eq]. Qed.

Lemma zrange_sorted lo hi : StronglySorted (fun x y => lex [x] [y]) (zrange lo hi).
Proof.
  assert (H : StronglySorted Z.lt (zrange lo hi)).
  { unfold zrange. generalize (Z.to_nat (hi - lo)) as n. intros n.
    assert (S : forall s, StronglySorted lt (seq s n)).
    { induction n as [|n IH]; intros s; cbn; constructor; [apply IH|].
      apply Forall_forall. intros x Hx. apply in_seq in Hx. lia. }
    apply (sorted_map lt); [intros x y _ _ L; lia|apply S]. }
  rewrite <- (map_id (zrange lo hi)). apply (sorted_map Z.lt); [|exact H].
  intros x y _ _ L. now apply lex_lt.
Qed.

Section ProductSorted.
  Context {A : Type} (key : A -> list Z).
  Definition klex (s t : list A) := lex (concat (map key s)) (concat (map key t)).
  Lemma product_key_length ls (lens : list nat) :
    Forall2 (fun l n => forall x, In x l -> length (key x) = n) ls lens ->
    forall t, In t (product ls) -> length (concat (map key t)) = list_sum lens.
  Proof.
    induction 1 as [|l n ls lens Hl Hls IH]; intros t Ht.
    - cbn in Ht. destruct Ht as [<-|[]]. reflexivity.
    - cbn in Ht. apply in_flat_map in Ht. destruct Ht as (x & Hx & Ht). apply in_map_iff in Ht.
      destruct Ht as (u & <- & Hu). cbn [map concat list_sum fold_right]. rewrite app_length, (Hl x Hx), (IH u Hu). reflexivity.
  Qed.
  Lemma product_sorted ls (lens : list nat) :
    Forall2 (fun l n => forall x, In x l -> length (key x) = n) ls lens ->
    Forall (StronglySorted (fun x y => lex (key x) (key y))) ls -> StronglySorted klex (product ls).
  Proof.
    intros HL HS. revert HS. induction HL as [|l n ls lens Hl Hls IH]; intros HS; cbn [product].
    - constructor; constructor.
    - inversion HS as [|? ? S1 S2]; subst. apply (sorted_flat_map (fun x y => lex (key x) (key y))).
      + exact S1.
      + intros x Hx. apply (sorted_map klex); [|now apply IH].
        intros s t _ _ Hst. unfold klex. cbn [map concat]. now apply lex_app_r.
      + intros x y u v Hx Hy Hxy Hu Hv. apply in_map_iff in Hu. destruct Hu as (s & <- & Hs).
        apply in_map_iff in Hv. destruct Hv as (t & <- & Ht). unfold klex. cbn [map concat].
        apply lex_app_l; [exact Hxy|]. rewrite (product_key_length ls lens Hls s Hs), (product_key_length ls lens Hls t Ht). reflexivity.
  Qed.
End ProductSorted.

Lemma concat_single (t : list Z) : concat (map (fun z => [z]) t) = t.
Proof. induction t; cbn; congruence. Qed.

Lemma poly_choices_sorted ra :
  StronglySorted lex (product (map (fun lh : Z * Z => zrange (fst lh) (snd lh)) ra)) /\
  forall p, In p (product (map (fun lh : Z * Z => zrange (fst lh) (snd lh)) ra)) -> length p = length ra.
Proof.
  assert (HL : Forall2 (fun l n => forall x : Z, In x l -> length [x] = n)
     (map (fun lh : Z * Z => zrange (fst lh) (snd lh)) ra) (map (fun _ => 1%nat) ra)).
  { induction ra; cbn; constructor; auto. }
  split.
  - assert (S : StronglySorted (klex (fun z => [z])) (product (map (fun lh : Z * Z => zrange (fst lh) (snd lh)) ra))).
    { apply (product_sorted _ _ _ HL). apply Forall_forall. intros l Hl. apply in_map_iff in Hl.
      destruct Hl as (lh & <- & _). apply zrange_sorted. }
    rewrite <- map_id. revert S. apply sorted_map. intros s t _ _. unfold klex. now rewrite !concat_single.
  - intros p Hp. apply in_product in Hp. apply Forall2_len in Hp. now rewrite map_length in Hp.
Qed.
Lemma choices_sorted r : StronglySorted (fun s t => lex (concat s) (concat t)) (choices r) /\
  forall s, In s (choices r) -> length (concat s) = list_sum (map (@length _) r).
Proof.
  unfold choices.
  assert (HL : Forall2 (fun l n => forall x : poly, In x l -> length x = n)
    (map (fun ra => product (map (fun lh : Z * Z => zrange (fst lh) (snd lh)) ra)) r) (map (@length _) r)).
  { induction r as [|ra r IH]; cbn; constructor; [|exact IH]. apply poly_choices_sorted. }
  split.
  - rewrite <- map_id. apply (sorted_map (klex (fun p => p))).
    + intros s t _ _. unfold klex. now rewrite !map_id.
    + apply (product_sorted _ _ _ HL). apply Forall_forall. intros l Hl. apply in_map_iff in Hl.
      destruct Hl as (ra & <- & _). apply poly_choices_sorted.
  - intros s Hs. rewrite <- (product_key_length (fun p : poly => p) _ _ HL s Hs). now rewrite map_id.
Qed.
Lemma in_choices r ps : In ps (choices r) <-> in_ranges r ps.
Proof.
  unfold choices, in_ranges. rewrite in_product. split.
  - intros H. remember (map _ r) as m eqn:E. revert r E. induction H as [|p l ps ls Hp H IH]; intros r E.
    + destruct r; [constructor|discriminate].
    + destruct r as [|ra r]; [discriminate|]. cbn in E. injection E as -> ->. constructor; [|now apply IH].
      apply in_product in Hp. clear -Hp. remember (map _ ra) as m eqn:E. revert ra E.
      induction Hp as [|c l p ls Hc H IH]; intros ra E; destruct ra as [|lh ra]; try discriminate; constructor.
      * cbn in E. injection E as -> ->. now apply in_zrange.
      * apply IH. cbn in E. now injection E.
  - induction 1 as [|p ra ps r Hp H IH]; cbn; constructor; [|exact IH].
    apply in_product. clear -Hp. induction Hp as [|c lh p ra Hc H IH]; cbn; constructor; [|exact IH].
    now apply in_zrange.
Qed.
Lemma choices_length r : Z.of_nat (length (choices r)) =
  fold_right (fun ra g => fold_right (fun lh g => Z.max 0 (snd lh - fst lh) * g) 1 ra * g) 1 r.
Proof.
  unfold choices. rewrite product_length. induction r as [|ra r IH]; [reflexivity|].
  cbn [map fold_right]. rewrite Nat2Z.inj_mul, IH. apply f_equal2; [|reflexivity]. etransitivity; [apply f_equal, (product_length (A := Z))|]. clear.
  induction ra as [|lh ra IH]; [reflexivity|]. cbn [map fold_right]. rewrite Nat2Z.inj_mul, IH. f_equal.
  rewrite zrange_length. lia.
Qed.

(** squeezing *)
Lemma forallb_repeat p0 l : forallb (poly_eqb p0) l = true <-> l = repeat p0 (length l).
Proof.
  induction l as [|q l IH]; cbn; [tauto|]. rewrite andb_true_iff, poly_eqb_eq, IH.
  split; [intros [<- H]; congruence|]. intros H. injection H as -> H. split; [reflexivity|exact H].
Qed.
Lemma squeeze_collapses ps : collapses ps (squeeze ps).
Proof.
  unfold squeeze, collapses. destruct ps as [|p0 [|p1 r]].
  - right. split; [intros p n H; discriminate|reflexivity].
  - right. split; [intros p n H; discriminate|reflexivity].
  - destruct (forallb (poly_eqb p0) (p0 :: p1 :: r)) eqn:E.
    + left. apply forallb_repeat in E. exists p0, (length r). split; [exact E|reflexivity].
    + right. split; [|reflexivity]. intros p n H.
      assert (p = p0) by (cbn in H; congruence). subst p.
      assert (forallb (poly_eqb p0) (p0 :: p1 :: r) = true).
      { rewrite H. apply forallb_repeat. now rewrite repeat_length. }
      congruence.
Qed.
Lemma collapses_fun ps qs qs' : collapses ps qs -> collapses ps qs' -> qs = qs'.
Proof.
  intros [(p & n & E & ->)|[H ->]] [(p' & n' & E' & ->)|[H' ->]].
  - rewrite E in E'. cbn in E'. congruence.
  - exfalso. now apply (H' p n).
  - exfalso. now apply (H p' n').
  - reflexivity.
Qed.
Lemma squeeze_idem ps : squeeze (squeeze ps) = squeeze ps.
Proof.
  destruct ps as [|p0 [|p1 r]]; try reflexivity. unfold squeeze at 2 3.
  destruct (forallb (poly_eqb p0) (p0 :: p1 :: r)) eqn:E; [reflexivity|].
  unfold squeeze. now rewrite E.
Qed.
Lemma squeeze_inj ps qs : length ps = length qs -> squeeze ps = squeeze qs -> ps = qs.
Proof.
  intros L H. destruct (squeeze_collapses ps) as [(p & n & E & S)|[N S]], (squeeze_collapses qs) as [(p' & n' & E' & S')|[N' S']].
  - rewrite S, S' in H. injection H as ->. rewrite E, E' in *. rewrite !repeat_length in L. now injection L as ->.
  - rewrite S, S' in H. subst qs. rewrite E in L. rewrite repeat_length in L. discriminate.
  - rewrite S, S' in H. subst ps. rewrite E' in L. rewrite repeat_length in L. discriminate.
  - congruence.
Qed.

(** the loops as one loop over a list of pairs *)
Section Flatten.
  Variables (rd : Q -> Q) (fsqrt : Z -> Q) (st : enum_settings).
  Let body := pair_body rd fsqrt st.

  Definition out3 (x : contfrac * list poly * list item * res unit) : contfrac * list item * res unit :=
    let '(c, _, out, r) := x in (c, out, r).
  Definition pas_of (x : contfrac * list poly * list item * res unit) : list poly := let '(_, p, _, _) := x in p.

  Lemma body_squeeze c p1 p2 pbs : squeeze p1 = squeeze p2 -> out3 (body c p1 pbs) = out3 (body c p2 pbs).
  Proof.
    intros H. unfold body, pair_body. rewrite H. destruct (e_avoid_roots st && _); [reflexivity|].
    cbv zeta. destruct (match squeeze p2, squeeze pbs with [a], [b] => _ | _, _ => _ end); reflexivity.
  Qed.
  Lemma body_pas c p pbs : squeeze (pas_of (body c p pbs)) = squeeze p.
  Proof.
    unfold body, pair_body. destruct (e_avoid_roots st && _); [reflexivity|]. cbv zeta.
    destruct (match squeeze p, squeeze pbs with [a], [b] => _ | _, _ => _ end); [apply squeeze_idem|].
    destruct (e_gen_cf st); [|apply squeeze_idem].
    destruct (cf_reinitialize _ _ _ c) as [c1 [u|e]]; [|apply squeeze_idem].
    destruct (cf_gen0 rd (e_iters st) true c1) as [c2 [u'|e']]; [apply squeeze_idem|].
    destruct e'; apply squeeze_idem.
  Qed.

  Fixpoint run_pairs (c : contfrac) (l : list (list poly * list poly)) : contfrac * list item * res unit :=
    match l with
    | [] => (c, [], Ok tt)
    | (pas, pbs) :: r =>
        match out3 (body c pas pbs) with
        | (c1, out, Raise e) => (c1, out, Raise e)
        | (c1, out, Ok _) => let '(c2, out2, x) := run_pairs c1 r in (c2, out ++ out2, x)
        end
    end.
  Definition seqp (x : contfrac * list item * res unit) (k : contfrac -> contfrac * list item * res unit) :=
    match x with
    | (c1, out, Raise e) => (c1, out, Raise e)
    | (c1, out, Ok _) => let '(c2, out2, y) := k c1 in (c2, out ++ out2, y)
    end.
  Lemma run_pairs_app c l m : run_pairs c (l ++ m) = seqp (run_pairs c l) (fun c1 => run_pairs c1 m).
  Proof.
    revert c. induction l as [|[pas pbs] l IH]; intros c; cbn [run_pairs app].
    - cbn. destruct (run_pairs c m) as [[c2 o2] x]. reflexivity.
    - destruct (out3 (body c pas pbs)) as [[c1 out] [u|e]]; [|reflexivity].
      rewrite IH. destruct (run_pairs c1 l) as [[c2 o2] [u2|e2]]; cbn; [|reflexivity].
      destruct (run_pairs c2 m) as [[c3 o3] x3]. now rewrite app_assoc.
  Qed.

  Lemma pbs_loop_pairs l : forall c pas pas', squeeze pas = squeeze pas' ->
    out3 (pbs_loop rd fsqrt st l c pas) = run_pairs c (map (pair pas') l) /\
    squeeze (pas_of (pbs_loop rd fsqrt st l c pas)) = squeeze pas'.
  Proof.
    induction l as [|pbs l IH]; intros c pas pas' Hs; cbn [pbs_loop map run_pairs]; [split; [reflexivity|exact Hs]|].
    pose proof (body_squeeze c pas pas' pbs Hs) as B. pose proof (body_pas c pas pbs) as P. unfold body in *.
    destruct (pair_body rd fsqrt st c pas pbs) as [[[c1 pas1] out] [u|e]] eqn:E; cbn [out3 pas_of] in *;
      rewrite <- B; [|split; [reflexivity|congruence]].
    destruct (IH c1 pas1 pas' ltac:(congruence)) as [I1 I2].
    destruct (pbs_loop rd fsqrt st l c1 pas1) as [[[c2 pas2] out2] x]. cbn [out3 pas_of] in *.
    rewrite <- I1. split; [reflexivity|exact I2].
  Qed.

  Variable manip : bool -> list poly -> res (list (list poly)).
  Variable mv : bool -> list poly -> list (list poly).
  Lemma b_loop_pairs l : (forall b, In b l -> manip false b = Ok (mv false b)) ->
    forall c pas pas', squeeze pas = squeeze pas' ->
    out3 (b_loop rd fsqrt st manip l c pas) = run_pairs c (flat_map (fun b => map (pair pas') (mv false b)) l) /\
    squeeze (pas_of (b_loop rd fsqrt st manip l c pas)) = squeeze pas'.
  Proof.
    induction l as [|b l IH]; intros Hm c pas pas' Hs; cbn [b_loop flat_map]; [split; [reflexivity|exact Hs]|].
    rewrite Hm by (now left). rewrite run_pairs_app.
    destruct (pbs_loop_pairs (mv false b) c pas pas' Hs) as [P1 P2]. rewrite <- P1.
    destruct (pbs_loop rd fsqrt st (mv false b) c pas) as [[[c1 pas1] out] [u|e]]; cbn [out3 pas_of seqp] in *;
      [|split; [reflexivity|congruence]].
    destruct (IH ltac:(intros; apply Hm; now right) c1 pas1 pas' P2) as [I1 I2]. rewrite <- I1.
    destruct (b_loop rd fsqrt st manip l c1 pas1) as [[[c2 pas2] out2] x]. split; [reflexivity|exact I2].
  Qed.
  Lemma pas_loop_pairs bs l : (forall b, In b bs -> manip false b = Ok (mv false b)) -> forall c,
    pas_loop rd fsqrt st manip bs l c =
    run_pairs c (flat_map (fun pas => flat_map (fun b => map (pair pas) (mv false b)) bs) l).
  Proof.
    intros Hm. induction l as [|pas l IH]; intros c; cbn [pas_loop flat_map]; [reflexivity|].
    rewrite run_pairs_app. destruct (b_loop_pairs bs Hm c pas pas eq_refl) as [P1 _]. rewrite <- P1.
    destruct (b_loop rd fsqrt st manip bs c pas) as [[[c1 pas1] out] [u|e]]; cbn [out3 seqp]; [|reflexivity].
    now rewrite IH.
  Qed.
  Definition all_pairs (range_a range_b : prange) : list (list poly * list poly) :=
    flat_map (fun a => flat_map (fun pas => flat_map (fun b => map (pair pas) (mv false b)) (choices range_b)) (mv true a))
      (choices range_a).
  Lemma a_loop_pairs bs l : (forall b, In b bs -> manip false b = Ok (mv false b)) ->
    (forall a, In a l -> manip true a = Ok (mv true a)) -> forall c,
    a_loop rd fsqrt st manip bs l c =
    run_pairs c (flat_map (fun a => flat_map (fun pas => flat_map (fun b => map (pair pas) (mv false b)) bs) (mv true a)) l).
  Proof.
    intros Hb. induction l as [|a l IH]; intros Ha c; cbn [a_loop flat_map]; [reflexivity|].
    rewrite Ha by (now left). rewrite run_pairs_app, (pas_loop_pairs bs (mv true a) Hb).
    destruct (run_pairs c _) as [[c1 out] [u|e]]; cbn [seqp]; [|reflexivity].
    rewrite IH by (intros; apply Ha; now right). reflexivity.
  Qed.
End Flatten.

(** Indexed and sparse polynomials. *)
From Coq Require Import ZArith QArith List Bool Lia Permutation.
From Verif Require Import PyBase PyBase_Proofs Rnd ContFrac_Model Enum_Model Spec_Enum Enum_Proofs.
Import ListNotations.
Local Open Scope Z_scope.

(** binomial theorem *)
Lemma pascal_over n k : (n < k)%nat -> pascal n k = 0.
Proof.
  revert k. induction n as [|n IH]; intros [|k] H; cbn; try lia. rewrite !IH by lia. reflexivity.
Qed.
Lemma pascal_0 n : pascal n 0 = 1. Proof. destruct n; reflexivity. Qed.
Lemma pascal_pos n k : 0 <= pascal n k.
Proof. revert k. induction n as [|n IH]; intros [|k]; cbn; try lia. pose proof (IH k). pose proof (IH (S k)). lia. Qed.

Lemma pval_map_add {A} (f g : A -> Z) l x : pval (map (fun j => f j + g j) l) x = pval (map f l) x + pval (map g l) x.
Proof. induction l as [|a l IH]; cbn; [reflexivity|]. rewrite IH. ring. Qed.
Lemma pval_map_mul {A} (f : A -> Z) c l x : pval (map (fun j => c * f j) l) x = c * pval (map f l) x.
Proof. induction l as [|a l IH]; cbn; [ring|]. rewrite IH. ring. Qed.
Lemma pval_app p q x : pval (p ++ q) x = pval p x + x ^ Z.of_nat (length p) * pval q x.
Proof.
  induction p as [|c p IH]; cbn [app pval length].
  - change (x ^ Z.of_nat 0) with 1. ring.
  - rewrite IH, Nat2Z.inj_succ, Z.pow_succ_r by lia. ring.
Qed.
Definition brow (n : nat) (i : Z) : list Z := map (fun j => pascal n j * i ^ Z.of_nat (n - j)) (seq 0 (S n)).
Lemma binomial n i x : pval (brow n i) x = (x + i) ^ Z.of_nat n.
Proof.
  induction n as [|n IH]; [cbn [brow map seq pval pascal]; unfold brow; cbn -[Z.pow Z.mul Z.add]; change (Z.of_nat (0-0)) with 0; change (Z.of_nat 0) with 0; rewrite !Z.pow_0_r; ring|].
  set (U := pval (map (fun j => pascal n (S j) * i ^ Z.of_nat (n - j)) (seq 0 (S n))) x).
  assert (HT : pval (brow (S n) i) x = i ^ Z.of_nat (S n) + x * ((x + i) ^ Z.of_nat n + U)).
  { unfold brow. rewrite <- cons_seq, map_cons, <- seq_shift, map_map. cbn [pval]. rewrite pascal_0, Nat.sub_0_r.
    f_equal; [ring|]. f_equal. rewrite <- IH. unfold brow, U. rewrite <- pval_map_add. f_equal. apply map_ext.
    intros j. cbn [pascal]. replace (S n - S j)%nat with (n - j)%nat by lia. ring. }
  assert (HU : i * (x + i) ^ Z.of_nat n = i ^ Z.of_nat (S n) + x * U).
  { rewrite <- IH. unfold brow. rewrite <- cons_seq, map_cons, <- seq_shift, map_map. cbn [pval]. rewrite pascal_0, Nat.sub_0_r.
    unfold U. rewrite seq_S, map_app, pval_app. cbn [map pval]. rewrite (pascal_over n (S (0 + n))) by lia.
    rewrite Z.mul_add_distr_l. f_equal; [rewrite Nat2Z.inj_succ, Z.pow_succ_r by lia; ring|].
    transitivity (x * (i * pval (map (fun j => pascal n (S j) * i ^ Z.of_nat (n - S j)) (seq 0 n)) x)); [ring|].
    f_equal. rewrite <- pval_map_mul. replace (0 * _ + x * 0) with 0 by ring. rewrite Z.mul_0_r, Z.add_0_r.
    f_equal. apply map_ext_in. intros j Hj. apply in_seq in Hj.
    replace (n - j)%nat with (S (n - S j)) by lia. rewrite Nat2Z.inj_succ, Z.pow_succ_r by lia. ring. }
  rewrite HT. replace ((x + i) ^ Z.of_nat (S n)) with ((x + i) * (x + i) ^ Z.of_nat n)
    by (rewrite Nat2Z.inj_succ, Z.pow_succ_r by lia; reflexivity).
  rewrite (Z.mul_add_distr_r x i), HU. ring.
Qed.

Lemma combine_pval (f : Z -> Z) acc (m : nat) lo x : length acc = m ->
  pval (map (fun jx : Z * Z => snd jx + f (fst jx)) (combine (zrange lo (lo + Z.of_nat m)) acc)) x =
  pval acc x + pval (map (fun j => f (lo + Z.of_nat j)) (seq 0 m)) x /\
  length (map (fun jx : Z * Z => snd jx + f (fst jx)) (combine (zrange lo (lo + Z.of_nat m)) acc)) = m.
Proof.
  revert lo m. induction acc as [|c acc IH]; intros lo m <-; cbn [length].
  - split; [|rewrite zrange_nil by lia; reflexivity]. rewrite zrange_nil by lia. reflexivity.
  - rewrite zrange_cons by lia. cbn [combine map fst snd pval length].
    replace (lo + Z.of_nat (S (length acc))) with (lo + 1 + Z.of_nat (length acc)) by lia.
    destruct (IH (lo + 1) (length acc) eq_refl) as [E L]. split; [|now rewrite L].
    rewrite E. cbn [seq map pval]. rewrite <- seq_shift, map_map.
    replace (lo + Z.of_nat 0) with lo by lia.
    assert (M : map (fun j => f (lo + Z.of_nat (S j))) (seq 0 (length acc)) = map (fun j => f (lo + 1 + Z.of_nat j)) (seq 0 (length acc)))
      by (apply map_ext; intros; f_equal; lia).
    rewrite M. ring.
Qed.

Lemma indexed_one_spec ibinom (p : poly) :
  (forall j, (j < length p)%nat -> ibinom (Z.of_nat (length p) - 1) (Z.of_nat j) = pascal (length p - 1) j) ->
  length (indexed_one ibinom p) = length p /\
  forall x, pval (indexed_one ibinom p) x = shifted_powers p (Z.of_nat (length p) - 1) x.
Proof.
  intros Hb. destruct p as [|c0 p0]; [split; reflexivity|]. set (p := c0 :: p0) in *.
  set (n := (length p - 1)%nat). assert (Hn : length p = S n) by (unfold n, p; cbn; lia).
  unfold indexed_one. rewrite Hn in *. replace (Z.of_nat (S n) - 1) with (Z.of_nat n) in * by lia.
  replace (Z.of_nat n + 1) with (0 + Z.of_nat (S n)) by lia.
  set (step := fun acc (ia : Z * Z) => _).
  assert (G : forall q lo acc, length acc = S n ->
    length (fold_left step (combine (zrange lo (lo + Z.of_nat (length q))) q) acc) = S n /\
    forall x, pval (fold_left step (combine (zrange lo (lo + Z.of_nat (length q))) q) acc) x =
      pval acc x + shifted_powers q (Z.of_nat n) (x + lo)).
  { induction q as [|a q IH]; intros lo acc Hl; cbn [length].
    - rewrite zrange_nil by lia. cbn. split; [exact Hl|]. intros; ring.
    - rewrite zrange_cons by lia. replace (lo + Z.of_nat (S (length q))) with (lo + 1 + Z.of_nat (length q)) by lia.
      cbn [combine fold_left].
      assert (S1 : length (step acc (lo, a)) = S n /\ forall x, pval (step acc (lo, a)) x = pval acc x + a * (x + lo) ^ Z.of_nat n).
      { unfold step. destruct (Z.eqb_spec a 0) as [->|Na]; [split; [exact Hl|]; intros; ring|].
        split.
        - exact (proj2 (combine_pval (fun j => a * ibinom (Z.of_nat n) j * lo ^ (Z.of_nat n - j)) acc (S n) 0 0 Hl)).
        - intros x. rewrite (proj1 (combine_pval (fun j => a * ibinom (Z.of_nat n) j * lo ^ (Z.of_nat n - j)) acc (S n) 0 x Hl)).
          f_equal. rewrite <- binomial. unfold brow. rewrite <- pval_map_mul. f_equal. apply map_ext_in. intros j Hj.
          apply in_seq in Hj. rewrite Z.add_0_l, Hb by lia. replace (Z.of_nat n - Z.of_nat j) with (Z.of_nat (n - j)) by lia.
          replace (S n - 1)%nat with n by lia. ring. }
      destruct S1 as [S1 S2]. destruct (IH (lo + 1) _ S1) as [I1 I2]. split; [exact I1|].
      intros x. rewrite I2, S2. cbn [shifted_powers]. replace (x + (lo + 1)) with (x + lo + 1) by lia. ring. }
  specialize (G p 0 (repeat 0 (S n)) (repeat_length 0 (S n))). rewrite Hn in G. destruct G as [G1 G2].
  split; [exact G1|]. intros x. rewrite G2, Z.add_0_r.
  assert (Z0 : forall m, pval (repeat 0 m) x = 0) by (induction m; cbn; lia). rewrite Z0. lia.
Qed.

(** combinations *)
Lemma in_combos_range k : forall lo n m, In m (combos k (zrange lo n)) <-> length m = k /\ increasing lo n m.
Proof.
  intros lo n. remember (Z.to_nat (n - lo)) as d eqn:Ed. revert k lo Ed.
  induction d as [|d IH]; intros k lo Ed m.
  - rewrite zrange_nil by lia. cbn. destruct k as [|k].
    + cbn. split; [intros [<-|[]]; split; [reflexivity|exact I]|]. intros [H _]. destruct m; [now left|discriminate].
    + split; [intros []|]. intros [H1 H2]. destruct m as [|i m]; [discriminate|]. cbn in H2. lia.
  - rewrite zrange_cons by lia. destruct k as [|k]; cbn [combos].
    + cbn. split; [intros [<-|[]]; split; [reflexivity|exact I]|]. intros [H _]. destruct m; [now left|discriminate].
    + rewrite in_app_iff, in_map_iff. rewrite (IH (S k) (lo + 1)) by lia. split.
      * intros [(r & <- & Hr)|[H1 H2]].
        -- apply IH in Hr; [|lia]. destruct Hr as [H1 H2]. cbn. split; [congruence|]. split; [lia|exact H2].
        -- split; [exact H1|]. destruct m as [|i m]; cbn in *; [exact I|]. split; [lia|apply H2].
      * intros [H1 H2]. destruct m as [|i m]; [discriminate|]. cbn in H1, H2. destruct H2 as [H2 H3].
        destruct (Z.eq_dec i lo) as [->|N].
        -- left. exists m. split; [reflexivity|]. apply IH; [lia|]. split; [congruence|exact H3].
        -- right. split; [exact H1|]. cbn. split; [lia|exact H3].
Qed.
Lemma combos_incl {A} k (l : list A) m x : In m (combos k l) -> In x m -> In x l.
Proof.
  revert k m. induction l as [|y l IH]; intros k m Hm Hx; destruct k as [|k]; cbn in Hm.
  - destruct Hm as [<-|[]]. destruct Hx.
  - destruct Hm.
  - destruct Hm as [<-|[]]. destruct Hx.
  - apply in_app_or in Hm. destruct Hm as [Hm|Hm].
    + apply in_map_iff in Hm. destruct Hm as (r & <- & Hr). destruct Hx as [->|Hx]; [now left|]. right. eapply IH; eassumption.
    + right. eapply IH; eassumption.
Qed.
Lemma NoDup_app' {A} (l m : list A) : NoDup l -> NoDup m -> (forall x, In x l -> ~ In x m) -> NoDup (l ++ m).
Proof.
  induction 1 as [|x l Hx Hl IH]; intros Hm H; cbn; [exact Hm|]. constructor.
  - rewrite in_app_iff. intros [?|?]; [contradiction|]. apply (H x); [now left|assumption].
  - apply IH; [exact Hm|]. intros y Hy. apply H. now right.
Qed.
Lemma NoDup_combos {A} k (l : list A) : NoDup l -> NoDup (combos k l).
Proof.
  revert k. induction l as [|x l IH]; intros k H; destruct k as [|k]; cbn.
  - repeat constructor; auto.
  - constructor.
  - repeat constructor; auto.
  - inversion H as [|? ? Hx Hl]; subst. apply NoDup_app'.
    + apply FinFun.Injective_map_NoDup; [intros a b E; now inversion E|now apply IH].
    + now apply IH.
    + intros m Hm Hm'. apply in_map_iff in Hm. destruct Hm as (r & <- & Hr).
      apply Hx. eapply combos_incl; [exact Hm'|]. now left.
Qed.
Lemma combos_length {A} k (l : list A) : Z.of_nat (length (combos k l)) = pascal (length l) k.
Proof.
  revert k. induction l as [|x l IH]; intros [|k]; cbn [combos length pascal]; try reflexivity.
  rewrite app_length, map_length, Nat2Z.inj_add, !IH. reflexivity.
Qed.

(** combinations with replacement *)
Lemma combos_wr_S {A} k (x : A) r : combos_wr (S k) (x :: r) = map (cons x) (combos_wr k (x :: r)) ++ combos_wr (S k) r.
Proof. reflexivity. Qed.
Lemma combos_wr_incl {A} k : forall (l : list A) t, In t (combos_wr k l) -> length t = k /\ forall x, In x t -> In x l.
Proof.
  induction k as [|k IH]; intros l t Ht.
  - destruct Ht as [<-|[]]. split; [reflexivity|intros x []].
  - induction l as [|y l IHl]; [destruct Ht|]. rewrite combos_wr_S in Ht. apply in_app_or in Ht. destruct Ht as [Ht|Ht].
    + apply in_map_iff in Ht. destruct Ht as (u & <- & Hu). apply IH in Hu. destruct Hu as [H1 H2].
      split; [cbn; congruence|]. intros x [->|Hx]; [now left|now apply H2].
    + destruct (IHl Ht) as [H1 H2]. split; [exact H1|]. intros x Hx. right. now apply H2.
Qed.
Lemma combos_wr_complete {A} (dec : forall a b : A, {a = b} + {a <> b}) k : forall (l : list A) u,
  length u = k -> (forall x, In x u -> In x l) -> exists t, In t (combos_wr k l) /\ Permutation u t.
Proof.
  induction k as [|k IH]; intros l u Hu Hl.
  - destruct u; [|discriminate]. exists []. split; [now left|constructor].
  - induction l as [|y l IHl].
    + destruct u as [|x u]; [discriminate|]. exfalso. now apply (Hl x (or_introl eq_refl)).
    + destruct (in_dec dec y u) as [Hy|Hy].
      * apply in_split in Hy. destruct Hy as (u1 & u2 & ->).
        destruct (IH (y :: l) (u1 ++ u2)) as (t & Ht & Hp).
        { rewrite app_length in *. cbn in Hu. lia. }
        { intros x Hx. apply Hl. apply in_app_or in Hx. apply in_or_app. destruct Hx; [now left|right; now right]. }
        exists (y :: t). split; [rewrite combos_wr_S; apply in_or_app; left; now apply in_map|].
        transitivity (y :: u1 ++ u2); [symmetry; apply Permutation_middle|now constructor].
      * destruct IHl as (t & Ht & Hp).
        { intros x Hx. destruct (Hl x Hx) as [->|H]; [contradiction|exact H]. }
        exists t. split; [rewrite combos_wr_S; apply in_or_app; now right|exact Hp].
Qed.
Lemma combos_wr_unique {A} k : forall (l : list A), NoDup l -> forall t t', In t (combos_wr k l) -> In t' (combos_wr k l) ->
  Permutation t t' -> t = t'.
Proof.
  induction k as [|k IH]; intros l Hl t t' Ht Ht' Hp.
  - destruct Ht as [<-|[]], Ht' as [<-|[]]. reflexivity.
  - induction l as [|y l IHl]; [destruct Ht|]. inversion Hl as [|? ? Hy Hl']; subst.
    rewrite combos_wr_S in Ht, Ht'. apply in_app_or in Ht, Ht'.
    destruct Ht as [Ht|Ht], Ht' as [Ht'|Ht'].
    + apply in_map_iff in Ht, Ht'. destruct Ht as (u & <- & Hu), Ht' as (u' & <- & Hu'). f_equal.
      apply (IH (y :: l)); auto. now apply Permutation_cons_inv in Hp.
    + exfalso. apply in_map_iff in Ht. destruct Ht as (u & <- & Hu). apply Hy.
      apply (proj2 (combos_wr_incl _ _ _ Ht')). apply (Permutation_in _ Hp). now left.
    + exfalso. apply in_map_iff in Ht'. destruct Ht' as (u & <- & Hu). apply Hy.
      apply (proj2 (combos_wr_incl _ _ _ Ht)). apply (Permutation_in _ (Permutation_sym Hp)). now left.
    + now apply IHl.
Qed.
Lemma NoDup_combos_wr {A} k : forall (l : list A), NoDup l -> NoDup (combos_wr k l).
Proof.
  induction k as [|k IH]; intros l Hl; [repeat constructor; auto|].
  induction l as [|y l IHl]; [constructor|]. rewrite combos_wr_S. inversion Hl as [|? ? Hy Hl']; subst. apply NoDup_app'.
  - apply FinFun.Injective_map_NoDup; [intros a b E; now inversion E|now apply IH].
  - now apply IHl.
  - intros t Ht Ht'. apply in_map_iff in Ht. destruct Ht as (u & <- & Hu). apply Hy.
    apply (proj2 (combos_wr_incl _ _ _ Ht')). now left.
Qed.

(** permutations *)
Lemma picks_perm {A} (l : list A) x r : In (x, r) (picks l) -> Permutation (x :: r) l.
Proof.
  revert x r. induction l as [|y l IH]; intros x r H; [destruct H|]. destruct H as [[= -> ->]|H]; [reflexivity|].
  apply in_map_iff in H. destruct H as ([x' r'] & [= <- <-] & H). cbn [fst snd]. apply IH in H.
  rewrite perm_swap. now constructor.
Qed.
Lemma picks_complete {A} (l1 l2 : list A) x : In (x, l1 ++ l2) (picks (l1 ++ x :: l2)).
Proof.
  induction l1 as [|y l1 IH]; cbn; [now left|]. right. apply in_map_iff. exists (x, l1 ++ l2). auto.
Qed.
Lemma in_perms {A} n : forall (l : list A), length l = n -> forall u, In u (perms n l) <-> Permutation u l.
Proof.
  induction n as [|n IH]; intros l Hl u.
  - destruct l; [|discriminate]. cbn. split; [intros [<-|[]]; constructor|]. intros H. apply Permutation_sym, Permutation_nil in H. now left.
  - cbn [perms]. rewrite in_flat_map. split.
    + intros ([x r] & Hp & Hu). apply in_map_iff in Hu. destruct Hu as (v & <- & Hv). cbn [fst snd] in *.
      pose proof (picks_perm _ _ _ Hp) as P. apply IH in Hv.
      2:{ apply Permutation_length in P. cbn in P. lia. }
      rewrite <- P. now constructor.
    + intros P. destruct u as [|x v]; [apply Permutation_nil in P; subst; discriminate|].
      assert (Hx : In x l) by (apply (Permutation_in _ P); now left).
      apply in_split in Hx. destruct Hx as (l1 & l2 & ->).
      exists (x, l1 ++ l2). split; [apply picks_complete|]. apply in_map_iff. exists v. split; [reflexivity|].
      cbn [snd]. apply IH; [rewrite app_length in *; cbn in Hl; lia|]. now apply Permutation_cons_app_inv in P.
Qed.

(** all tuples of masks, each exactly once *)
Section Masks.
  Variable set_order : list (list mask) -> list (list mask).
  Hypothesis set_order_perm : forall l, Permutation (set_order l) l.
  Definition mask_tuples (k L : nat) (n : Z) : list (list mask) :=
    concat (map (fun ms => set_order (nodup masks_dec (perms L ms))) (combos_wr L (combos k (zrange 0 n)))).
  Lemma in_mask_tuples k L n ms : In ms (mask_tuples k L n) <->
    length ms = L /\ Forall (fun m => length m = k /\ increasing 0 n m) ms.
  Proof.
    unfold mask_tuples. rewrite in_concat. split.
    - intros (g & Hg & Hm). apply in_map_iff in Hg. destruct Hg as (t & <- & Ht).
      apply (Permutation_in _ (set_order_perm _)) in Hm. apply nodup_In in Hm.
      destruct (combos_wr_incl _ _ _ Ht) as [H1 H2]. apply in_perms in Hm; [|exact H1]. split.
      + apply Permutation_length in Hm. congruence.
      + apply Forall_forall. intros m Hi. apply in_combos_range. apply H2. now apply (Permutation_in _ Hm).
    - intros [H1 H2]. destruct (combos_wr_complete (list_eq_dec Z.eq_dec) L (combos k (zrange 0 n)) ms H1) as (t & Ht & Hp).
      { intros m Hi. rewrite Forall_forall in H2. apply in_combos_range. now apply H2. }
      exists (set_order (nodup masks_dec (perms L t))). split; [apply in_map_iff; now exists t|].
      apply (Permutation_in _ (Permutation_sym (set_order_perm _))). apply nodup_In.
      apply in_perms; [|exact Hp]. now apply combos_wr_incl in Ht.
  Qed.
  Lemma NoDup_mask_tuples k L n : NoDup (mask_tuples k L n).
  Proof.
    unfold mask_tuples. rewrite <- flat_map_concat_map. apply NoDup_flat_map.
    - apply NoDup_combos_wr, NoDup_combos, NoDup_zrange.
    - intros t _. apply (Permutation_NoDup (Permutation_sym (set_order_perm _))). apply NoDup_nodup.
    - intros t t' u Ht Ht' Hu Hu'.
      apply (Permutation_in _ (set_order_perm _)), nodup_In in Hu, Hu'.
      apply in_perms in Hu; [|now apply combos_wr_incl in Ht]. apply in_perms in Hu'; [|now apply combos_wr_incl in Ht'].
      apply (combos_wr_unique L (combos k (zrange 0 n))); auto; [apply NoDup_combos, NoDup_zrange|].
      rewrite <- Hu. exact Hu'.
  Qed.
  Lemma mask_tuples_length k L n : 0 <= n -> Z.of_nat (length (mask_tuples k L n)) = pascal (Z.to_nat n) k ^ Z.of_nat L.
  Proof.
    intros Hn. set (P := product (repeat (combos k (zrange 0 n)) L)).
    assert (HP : NoDup P).
    { apply NoDup_product. apply Forall_forall. intros l Hl. apply repeat_spec in Hl. subst. apply NoDup_combos, NoDup_zrange. }
    assert (HI : forall ms, In ms P <-> In ms (mask_tuples k L n)).
    { intros ms. unfold P. rewrite in_product, in_mask_tuples. split.
      - intros H. split; [apply Forall2_len in H; now rewrite repeat_length in H|].
        remember (repeat _ L) as R eqn:ER. assert (HR : Forall (fun l => l = combos k (zrange 0 n)) R).
        { subst R. apply Forall_forall. intros l Hl. now apply repeat_spec in Hl. }
        clear ER HP P. induction H as [|m l ms R Hm H IH]; [constructor|]. inversion HR; subst.
        constructor; [now apply in_combos_range|now apply IH].
      - intros [<- H]. clear HP P. induction H as [|m ms Hm H IH]; cbn; [constructor|].
        constructor; [now apply in_combos_range|exact IH]. }
    assert (EL : length (mask_tuples k L n) = length P).
    { apply Nat.le_antisymm; apply NoDup_incl_length; auto using NoDup_mask_tuples; intros x Hx; now apply HI. }
    rewrite EL. unfold P. rewrite product_length. clear.
    induction L as [|L IH]; [reflexivity|]. cbn [repeat fold_right]. rewrite Nat2Z.inj_mul, IH, combos_length, zrange_length, Z.sub_0_r.
    rewrite Nat2Z.inj_succ, Z.pow_succ_r by lia. reflexivity.
  Qed.
End Masks.

(** applying a mask *)
Lemma increasing_lb lo n m i : increasing lo n m -> In i m -> lo <= i < n.
Proof.
  revert lo. induction m as [|j m IH]; intros lo H Hi; [destruct Hi|]. destruct H as [H1 H2].
  destruct Hi as [->|Hi]; [exact H1|]. specialize (IH _ H2 Hi). lia.
Qed.
Lemma increasing_NoDup lo n m : increasing lo n m -> NoDup m.
Proof.
  revert lo. induction m as [|j m IH]; intros lo H; constructor; destruct H as [H1 H2].
  - intros Hi. pose proof (increasing_lb _ _ _ _ H2 Hi). lia.
  - now apply (IH (j + 1)).
Qed.
Lemma index_of_nth m j : NoDup m -> (j < length m)%nat -> index_of (nth j m 0) m = Z.of_nat j.
Proof.
  intros H. revert j. induction H as [|x m Hx H IH]; intros [|j] Hj; cbn in Hj; try lia; cbn [nth index_of].
  - now rewrite Z.eqb_refl.
  - destruct (Z.eqb_spec x (nth j m 0)) as [E|N].
    + exfalso. apply Hx. rewrite E. apply nth_In. lia.
    + rewrite IH by lia. lia.
Qed.
Lemma index_of_range i m : In i m -> 0 <= index_of i m < Z.of_nat (length m).
Proof.
  induction m as [|x m IH]; intros H; [destruct H|]. cbn [index_of length]. destruct (Z.eqb_spec x i) as [E|N]; [lia|].
  destruct H as [H|H]; [contradiction|]. specialize (IH H). lia.
Qed.
Lemma py_nth_ok {A} (l : list A) i d : 0 <= i < Z.of_nat (length l) -> py_nth l i = Ok (nth (Z.to_nat i) l d).
Proof.
  intros H. unfold py_nth. cbv zeta. rewrite (proj2 (Z.ltb_ge i 0)) by lia.
  rewrite (proj2 (Z.ltb_ge i 0)), (proj2 (Z.leb_gt (Z.of_nat (length l)) i)) by lia. cbn [orb].
  destruct (nth_error l (Z.to_nat i)) eqn:E; [now rewrite (nth_error_nth _ _ d E)|].
  apply nth_error_None in E. lia.
Qed.
Definition place (n : Z) (p m : list Z) : list Z :=
  map (fun i => if existsb (Z.eqb i) m then nth (Z.to_nat (index_of i m)) p 0 else 0) (zrange 0 n).
Lemma apply_mask_ok n p m : length p = length m -> apply_mask n p m = Ok (place n p m).
Proof.
  intros Hl. unfold apply_mask, place. apply mapM_ok. intros i _.
  destruct (existsb (Z.eqb i) m) eqn:E; [|reflexivity]. apply existsb_exists in E. destruct E as (x & Hx & E).
  apply Z.eqb_eq in E. subst x. apply py_nth_ok. rewrite Hl. now apply index_of_range.
Qed.
Lemma nth_map_zrange (f : Z -> Z) n i : 0 <= i < n -> nth (Z.to_nat i) (map f (zrange 0 n)) 0 = f i.
Proof.
  intros H. rewrite (nth_indep _ 0 (f 0)) by (rewrite map_length, zrange_length; lia). rewrite map_nth. f_equal.
  unfold zrange. rewrite (nth_indep _ 0 (0 + Z.of_nat 0)) by (rewrite map_length, seq_length; lia).
  rewrite (map_nth (fun i => 0 + Z.of_nat i)). rewrite seq_nth by lia. lia.
Qed.
Lemma place_placed n p m : 0 <= n -> length p = length m -> increasing 0 n m -> placed n p m (place n p m).
Proof.
  intros Hn Hl Hi. unfold placed, place. split; [rewrite map_length, zrange_length; lia|]. split.
  - intros j Hj. assert (Hm : In (nth j m 0) m) by (now apply nth_In).
    rewrite nth_map_zrange by (now apply (increasing_lb 0 n m)).
    replace (existsb (Z.eqb (nth j m 0)) m) with true.
    + rewrite index_of_nth by (auto; now apply (increasing_NoDup 0 n)). now rewrite Nat2Z.id.
    + symmetry. apply existsb_exists. exists (nth j m 0). split; [exact Hm|apply Z.eqb_refl].
  - intros i Hr Hni. rewrite nth_map_zrange by exact Hr.
    destruct (existsb (Z.eqb i) m) eqn:E; [|reflexivity]. exfalso. apply existsb_exists in E.
    destruct E as (x & Hx & E). apply Z.eqb_eq in E. now subst.
Qed.
Lemma placed_unique n p m q q' : increasing 0 n m -> placed n p m q -> placed n p m q' -> q = q'.
Proof.
  intros Hi (L & A & B) (L' & A' & B'). apply (nth_ext _ _ 0 0); [lia|]. intros i Hl.
  destruct (in_dec Z.eq_dec (Z.of_nat i) m) as [H|H].
  - apply (In_nth _ _ 0) in H. destruct H as (j & Hj & E). specialize (A j Hj). specialize (A' j Hj).
    rewrite E, Nat2Z.id in A, A'. congruence.
  - specialize (B (Z.of_nat i) ltac:(lia) H). specialize (B' (Z.of_nat i) ltac:(lia) H). rewrite Nat2Z.id in B, B'. congruence.
Qed.
Lemma increasing_ext n : forall m m' lo, increasing lo n m -> increasing lo n m' -> (forall i, In i m <-> In i m') -> m = m'.
Proof.
  induction m as [|x m IH]; intros [|y m'] lo H H' E.
  - reflexivity.
  - exfalso. now apply (proj2 (E y) (or_introl eq_refl)).
  - exfalso. now apply (proj1 (E x) (or_introl eq_refl)).
  - destruct H as [H1 H2], H' as [H1' H2'].
    assert (x = y).
    { assert (Hx : In x (y :: m')) by (apply E; now left). assert (Hy : In y (x :: m)) by (apply E; now left).
      destruct Hx as [Hx|Hx]; [now symmetry|]. destruct Hy as [Hy|Hy]; [exact Hy|].
      pose proof (increasing_lb _ _ _ _ H2' Hx). pose proof (increasing_lb _ _ _ _ H2 Hy). lia. }
    subst y. f_equal. apply (IH _ (x + 1) H2 H2'). intros i. split; intros Hi.
    + assert (HH : In i (x :: m')) by (apply E; now right). destruct HH as [<-|HH]; [|exact HH].
      pose proof (increasing_lb _ _ _ _ H2 Hi). lia.
    + assert (HH : In i (x :: m)) by (apply E; now right). destruct HH as [<-|HH]; [|exact HH].
      pose proof (increasing_lb _ _ _ _ H2' Hi). lia.
Qed.
Lemma placed_inj n p m m' q : length m = length p -> length m' = length p -> Forall (fun c => c <> 0) p ->
  increasing 0 n m -> increasing 0 n m' -> placed n p m q -> placed n p m' q -> m = m'.
Proof.
  intros L L' Hp Hi Hi' P P'. apply (increasing_ext n m m' 0 Hi Hi').
  assert (G : forall m0, length m0 = length p -> increasing 0 n m0 -> placed n p m0 q ->
    forall i, In i m0 <-> 0 <= i < n /\ nth (Z.to_nat i) q 0 <> 0).
  { intros m0 L0 I0 (_ & A & B) i. split.
    - intros H. split; [now apply (increasing_lb 0 n m0)|]. apply (In_nth _ _ 0) in H. destruct H as (j & Hj & <-).
      rewrite A by exact Hj. rewrite Forall_forall in Hp. apply Hp. apply nth_In. lia.
    - intros [H1 H2]. destruct (in_dec Z.eq_dec i m0) as [H|H]; [exact H|]. exfalso. apply H2. now apply B. }
  intros i. rewrite (G m L Hi P), (G m' L' Hi' P'). reflexivity.
Qed.

(** Proofs about splitting. *)
From Coq Require Import ZArith QArith Qabs List Bool Lia Lqa.
From Verif Require Import PyBase Rnd Rnd_Proofs ULCD_Model Rational_Model Dist_Model Spec_Enum Spec_Dist Spec_MITM MITM_Clicks.
Import ListNotations.
Local Open Scope Z_scope.

Lemma mid_spec lo hi : Z.abs lo < 2 ^ 52 -> Z.abs hi < 2 ^ 52 -> Z.abs (2 * mid_bound (lo, hi) - (lo + hi)) <= 1.
Proof.
  intros HL HH. unfold mid_bound. cbn [fst snd].
  assert (E : (fl (inject_Z (hi + lo) / 2) == inject_Z (hi + lo) / 2)%Q).
  { unfold fl. apply (rnd_exact 53 _ (hi + lo) (-1)); [lia|lia|]. change (two_p (-1)) with (1 # 2)%Q. field. }
  pose proof (whole_q_int (fl (inject_Z (hi + lo) / 2))) as [W1 W2]. remember (fl (inject_Z (hi + lo) / 2)) as q. clear Heqq.
  remember (q_int q) as n. clear Heqn.
  assert (E2 : (q * 2 == inject_Z (hi + lo))%Q) by (rewrite E; field).
  destruct (Qlt_le_dec q 0) as [N|P].
  - destruct W2 as [A B]; [lra|]. 
    assert (C1 : (inject_Z (2 * n - 2) < inject_Z (hi + lo))%Q).
    { unfold Z.sub. rewrite (inject_Z_plus (2 * n)), inject_Z_mult. change (inject_Z (-(2))) with (-(2))%Q. change (inject_Z 2) with 2%Q. lra. }
    assert (C2 : (inject_Z (hi + lo) <= inject_Z (2 * n))%Q) by (rewrite inject_Z_mult; change (inject_Z 2) with 2%Q; lra).
    rewrite <- Zlt_Qlt in C1. rewrite <- Zle_Qle in C2. lia.
  - destruct W1 as [A B]; [lra|].
    assert (C1 : (inject_Z (hi + lo) < inject_Z (2 * n + 2))%Q).
    { rewrite (inject_Z_plus (2 * n)), inject_Z_mult. change (inject_Z 2) with 2%Q. lra. }
    assert (C2 : (inject_Z (2 * n) <= inject_Z (hi + lo))%Q) by (rewrite inject_Z_mult; change (inject_Z 2) with 2%Q; lra).
    rewrite <- Zlt_Qlt in C1. rewrite <- Zle_Qle in C2. lia.
Qed.
Lemma log2_half w h : 2 <= w -> Z.abs (2 * h - w) <= 1 -> Z.log2 w - 1 <= Z.log2 h.
Proof.
  intros Hw Hh. destruct (Z.log2_spec w) as [A B]; [lia|]. assert (1 <= Z.log2 w) by (apply (Z.log2_le_mono 2); lia).
  replace (Z.succ (Z.log2 w)) with (Z.log2 w + 1) in B by lia.
  assert (2 ^ (Z.log2 w - 1) <= h). { replace (Z.log2 w) with (Z.log2 w - 1 + 1) in A by lia. rewrite Z.pow_add_r in A by lia. lia. }
  apply Z.log2_le_pow2; [|assumption]. assert (0 < 2 ^ (Z.log2 w - 1)) by (apply Z.pow_pos_nonneg; lia). lia.
Qed.
Lemma log2_small w h : 2 <= w -> 2 * h <= w -> 0 < h -> Z.log2 h <= Z.log2 w - 1.
Proof.
  intros Hw Hh Hp. destruct (Z.log2_spec h Hp) as [A B]. assert (0 <= Z.log2 h) by apply Z.log2_nonneg.
  assert (Z.log2 h + 1 <= Z.log2 w); [|lia]. apply Z.log2_le_pow2; [lia|]. rewrite Z.pow_add_r by lia. lia.
Qed.

Notation inr c r := (Forall2 (fun (c : Z) (lh : Z * Z) => fst lh <= c < snd lh) c r).
Definition nonempty_r (r : pranges) : Prop := Forall (fun lh => fst lh < snd lh) r.
Definition small_r (r : pranges) : Prop := Forall (fun lh => Z.abs (fst lh) < 2 ^ 52 /\ Z.abs (snd lh) < 2 ^ 52) r.

Lemma halvings_cons lo hi r : halvings ((lo, hi) :: r) = Z.log2 (hi - lo) + halvings r.
Proof. reflexivity. Qed.
Lemma halvings_nonneg r : 0 <= halvings r.
Proof. induction r as [|[lo hi] r IH]; [apply Z.le_refl|]. rewrite halvings_cons. pose proof (Z.log2_nonneg (hi - lo)). lia. Qed.
Lemma first_wide_none r : first_wide r = None -> halvings r = 0.
Proof.
  induction r as [|[lo hi] r IH]; cbn; [reflexivity|]. destruct (hi - lo <=? 1) eqn:E; [|discriminate].
  destruct (first_wide r); [discriminate|]. intros _. apply Z.leb_le in E. specialize (IH eq_refl). unfold halvings in IH.
  assert (Z.log2 (hi - lo) = 0); [|lia]. apply Z.log2_null. lia.
Qed.
Lemma first_wide_some r i : first_wide r = Some i -> small_r r ->
  let v := mid_bound (nth i r (0, 0)) in let r1 := set_hi i v r in let r2 := set_lo i v r in
  (forall c, inr c r <-> inr c r1 \/ inr c r2) /\ (forall c, ~ (inr c r1 /\ inr c r2)) /\
  (nonempty_r r -> nonempty_r r1 /\ nonempty_r r2) /\ small_r r1 /\ small_r r2 /\
  halvings r1 >= halvings r - 1 /\ halvings r2 >= halvings r - 1 /\ (halvings r1 = halvings r - 1 \/ halvings r2 = halvings r - 1) /\ 1 <= halvings r.
Proof.
  revert i. induction r as [|[lo hi] r IH]; intros i H HS; cbn [first_wide] in H; [discriminate|].
  inversion HS as [|? ? [S1 S2] HS2]; subst. cbn [fst snd] in *.
  destruct (hi - lo <=? 1) eqn:E.
  - destruct (first_wide r) as [j|]; [|discriminate]. cbn in H. injection H as <-.
    destruct (IH j eq_refl HS2) as (A & B & C & D1 & D2 & F1 & F2 & F3 & F4). cbn [nth set_hi set_lo].
    set (v := mid_bound (nth j r (0, 0))) in *. cbn zeta in *. pose proof (Z.log2_nonneg (hi - lo)).
    split; [|split; [|split; [|split; [|split]]]].
    + intros c. split.
      * intros X. inversion X as [|? ? ? ? X1 X2]; subst. apply A in X2. destruct X2; [left|right]; constructor; auto.
      * intros [X|X]; inversion X as [|? ? ? ? X1 X2]; subst; constructor; auto; apply A; auto.
    + intros c [X Y]. inversion X as [|? ? ? ? X1 X2]; subst. inversion Y as [|? ? ? ? Y1 Y2]; subst. apply (B _ (conj X2 Y2)).
    + intros X. inversion X; subst. destruct (C H3). split; constructor; auto.
    + constructor; auto.
    + constructor; auto.
    + rewrite !halvings_cons. lia.
  - injection H as <-. apply Z.leb_gt in E. cbn [nth set_hi set_lo]. set (v := mid_bound (lo, hi)).
    pose proof (mid_spec lo hi S1 S2) as M. fold v in M. clearbody v. pose proof (halvings_nonneg r) as N0.
    split; [|split; [|split; [|split; [|split]]]].
    + intros c. split.
      * intros X. inversion X as [|x ? ? ? X1 X2]; subst. cbn in X1. destruct (Z_lt_le_dec x v); [left|right]; constructor; auto; cbn; lia.
      * intros [X|X]; inversion X as [|x ? ? ? X1 X2]; subst; constructor; auto; cbn [fst snd] in *; lia.
    + intros c [X Y]. inversion X as [|x ? ? ? X1 X2]; subst. inversion Y as [|? ? ? ? Y1 Y2]; subst. cbn in *. lia.
    + intros X. inversion X; subst. split; constructor; auto; cbn [fst snd] in *; lia.
    + constructor; [cbn; lia|auto].
    + constructor; [cbn; lia|auto].
    + rewrite !halvings_cons.
      assert (1 <= Z.log2 (hi - lo)) by (apply (Z.log2_le_mono 2); lia).
      pose proof (log2_half (hi - lo) (v - lo) ltac:(lia) ltac:(lia)). pose proof (log2_half (hi - lo) (hi - v) ltac:(lia) ltac:(lia)).
      assert (Z.log2 (v - lo) = Z.log2 (hi - lo) - 1 \/ Z.log2 (hi - v) = Z.log2 (hi - lo) - 1); [|lia].
      destruct (Z_le_gt_dec (2 * (v - lo)) (hi - lo)).
      * left. pose proof (log2_small (hi - lo) (v - lo) ltac:(lia) ltac:(lia) ltac:(lia)). lia.
      * right. pose proof (log2_small (hi - lo) (hi - v) ltac:(lia) ltac:(lia) ltac:(lia)). lia.
Qed.

(** ---- whole jobs ---- *)
Definition cap (j : job) : Z := match j with (a0 :: _, b0 :: _) => halvings a0 + halvings b0 | _ => 0 end.
Definition ok_job (j : job) : Prop := fst j <> [] /\ snd j <> [] /\ bounded (2 ^ 52) j.
Definition nonempty_job (j : job) : Prop := forall p r, In p (fst j ++ snd j) -> In r p -> fst r < snd r.
Definition next_jobs (j : job) (j1 j2 : job) : Prop :=
  (forall x, in_space j x <-> in_space j1 x \/ in_space j2 x) /\ (forall x, ~ (in_space j1 x /\ in_space j2 x)) /\
  (nonempty_job j -> nonempty_job j1 /\ nonempty_job j2) /\ ok_job j1 /\ ok_job j2 /\
  cap j1 >= cap j - 1 /\ cap j2 >= cap j - 1 /\ (cap j1 = cap j - 1 \/ cap j2 = cap j - 1) /\ 1 <= cap j.

Lemma small_bounded p r : bounded (2 ^ 52) p -> In r (fst p ++ snd p) -> small_r r.
Proof. intros H HI. apply Forall_forall. intros x HX. exact (H r x HI HX). Qed.
Lemma cons_ranges p r ps : in_ranges (p :: r) ps <-> exists c cs, ps = c :: cs /\ inr c p /\ in_ranges r cs.
Proof.
  unfold in_ranges. split.
  - intros H. inversion H; subst. eauto.
  - intros (c & cs & -> & H1 & H2). constructor; assumption.
Qed.
Lemma split_step a0 a b0 b : ok_job (a0 :: a, b0 :: b) ->
  match first_wide a0 with
  | Some i => next_jobs (a0 :: a, b0 :: b) (set_hi i (mid_bound (nth i a0 (0, 0))) a0 :: a, b0 :: b) (set_lo i (mid_bound (nth i a0 (0, 0))) a0 :: a, b0 :: b)
  | None => match first_wide b0 with
            | Some i => next_jobs (a0 :: a, b0 :: b) (a0 :: a, set_hi i (mid_bound (nth i b0 (0, 0))) b0 :: b) (a0 :: a, set_lo i (mid_bound (nth i b0 (0, 0))) b0 :: b)
            | None => cap (a0 :: a, b0 :: b) = 0
            end
  end.
Proof.
  intros (_ & _ & HB).
  assert (SA : small_r a0) by (apply (small_bounded _ _ HB); now left).
  assert (SB : small_r b0) by (apply (small_bounded _ _ HB); apply in_or_app; right; now left).
  assert (REST : forall a1 b1, small_r a1 -> small_r b1 -> ok_job (a1 :: a, b1 :: b)).
  { intros a1 b1 H1 H2. split; [discriminate|split; [discriminate|]]. intros p r HP HR. cbn [fst snd] in HP. unfold small_r in *. rewrite Forall_forall in *.
    apply in_app_or in HP. destruct HP as [[<-|HP]|[<-|HP]]; auto; apply (HB p r); auto; cbn [fst snd]; apply in_or_app; [left|right]; now right. }
  assert (NER : forall a1 b1, (nonempty_r a0 -> nonempty_r a1) -> (nonempty_r b0 -> nonempty_r b1) -> nonempty_job (a0 :: a, b0 :: b) -> nonempty_job (a1 :: a, b1 :: b)).
  { intros a1 b1 HA HBB HN p r HP HR. cbn [fst snd] in HP. unfold nonempty_r in *. rewrite !Forall_forall in HA, HBB.
    apply in_app_or in HP. destruct HP as [[<-|HP]|[<-|HP]].
    - apply HA; [|exact HR]. intros x HX. apply (HN a0 x); [now left|exact HX].
    - apply (HN p r); [|exact HR]. apply in_or_app. left. now right.
    - apply HBB; [|exact HR]. intros x HX. apply (HN b0 x); [apply in_or_app; right; now left|exact HX].
    - apply (HN p r); [|exact HR]. apply in_or_app. right. now right. }
  destruct (first_wide a0) as [i|] eqn:EA.
  - destruct (first_wide_some a0 i EA SA) as (A & B & C & D1 & D2 & F1 & F2 & F3 & F4). cbn zeta in *.
    set (v := mid_bound (nth i a0 (0, 0))) in *. pose proof (halvings_nonneg b0).
    split; [|split; [|split; [|split; [|split]]]]; cbn [cap]; auto.
    + intros [x y]. unfold in_space. cbn [fst snd]. rewrite !cons_ranges. split.
      * intros [(c & cs & -> & X1 & X2) Y]. apply A in X1. destruct X1; [left|right]; (split; [exists c, cs; auto|exact Y]).
      * intros [[(c & cs & -> & X1 & X2) Y]|[(c & cs & -> & X1 & X2) Y]]; (split; [exists c, cs; split; [reflexivity|split; [apply A; auto|auto]]|exact Y]).
    + intros [x y] [[X _] [Y _]]. cbn [fst snd] in *. apply cons_ranges in X. apply cons_ranges in Y.
      destruct X as (c & cs & -> & X & _). destruct Y as (c' & cs' & E & Y & _). injection E as <- <-. apply (B c). auto.
    + intros HN. split; apply (fun h => NER _ _ h (fun x => x) HN); intros; now apply C.
    + lia.
  - destruct (first_wide b0) as [i|] eqn:EB.
    + destruct (first_wide_some b0 i EB SB) as (A & B & C & D1 & D2 & F1 & F2 & F3 & F4). cbn zeta in *.
      set (v := mid_bound (nth i b0 (0, 0))) in *. pose proof (halvings_nonneg a0).
      split; [|split; [|split; [|split; [|split]]]]; cbn [cap]; auto.
      * intros [y x]. unfold in_space. cbn [fst snd]. rewrite !(cons_ranges b0), !(cons_ranges (set_hi _ _ _)), !(cons_ranges (set_lo _ _ _)). split.
        -- intros [Y (c & cs & -> & X1 & X2)]. apply A in X1. destruct X1; [left|right]; (split; [exact Y|exists c, cs; auto]).
        -- intros [[Y (c & cs & -> & X1 & X2)]|[Y (c & cs & -> & X1 & X2)]]; (split; [exact Y|exists c, cs; split; [reflexivity|split; [apply A; auto|auto]]]).
      * intros [y x] [[_ X] [_ Y]]. cbn [fst snd] in *. apply cons_ranges in X. apply cons_ranges in Y.
        destruct X as (c & cs & -> & X & _). destruct Y as (c' & cs' & E & Y & _). injection E as <- <-. apply (B c). auto.
      * intros HN. split; apply (fun h => NER _ _ (fun x => x) h HN); intros; now apply C.
      * lia.
    + cbn [cap]. rewrite (first_wide_none _ EA), (first_wide_none _ EB). reflexivity.
Qed.

Lemma FOP_app {A} (R : A -> A -> Prop) l1 l2 : ForallOrdPairs R l1 -> ForallOrdPairs R l2 -> (forall x y, In x l1 -> In y l2 -> R x y) -> ForallOrdPairs R (l1 ++ l2).
Proof.
  induction 1 as [|a l1 HA H IH]; intros H2 HX; [exact H2|]. cbn. constructor.
  - apply Forall_app. split; [exact HA|]. apply Forall_forall. intros y HY. apply HX; [now left|exact HY].
  - apply IH; [exact H2|]. intros; apply HX; [now right|assumption].
Qed.
Lemma split_spec k : forall j, ok_job j ->
  match split_params j k with
  | Ok js => Z.of_nat k <= cap j /\ length js = (2 ^ k)%nat /\ partition j js /\ (nonempty_job j -> Forall nonempty_job js) /\ Forall ok_job js
  | Raise e => cap j < Z.of_nat k /\ e = ValueError
  end.
Proof.
  induction k as [|k IH]; intros j HJ.
  - cbn. split.
    + destruct j as [[|a0 a] [|b0 b]]; cbn; try lia. pose proof (halvings_nonneg a0). pose proof (halvings_nonneg b0). lia.
    + split; [reflexivity|]. split; [|split; [intros; constructor; auto|constructor; auto]]. split.
      * intros x. split; [intros H; exists j; split; [now left|exact H]|intros (j' & [<-|[]] & H); exact H].
      * constructor; [constructor|constructor].
  - destruct j as [[|a0 a] [|b0 b]]; try (destruct HJ as (N1 & N2 & _); exfalso; cbn in *; congruence).
    pose proof (split_step a0 a b0 b HJ) as HS. cbn [split_params on_first].
    set (nx := match first_wide a0 with Some _ => _ | None => _ end).
    assert (HN : match nx with Ok jj => next_jobs (a0 :: a, b0 :: b) (fst jj) (snd jj) | Raise e => cap (a0 :: a, b0 :: b) = 0 /\ e = ValueError end).
    { unfold nx. destruct (first_wide a0); [exact HS|]. destruct (first_wide b0); [exact HS|split; [exact HS|reflexivity]]. }
    clearbody nx. destruct nx as [[j1 j2]|e]; cbn [bind]; [|destruct HN as [HN ->]; cbn [cap] in *; split; [lia|reflexivity]].
    cbn [fst snd] in *. destruct HN as (A & B & C & O1 & O2 & F1 & F2 & F3 & F4). cbn [cap] in F1, F2, F3, F4. cbn [cap].
    pose proof (IH j1 O1) as H1. pose proof (IH j2 O2) as H2.
    destruct (split_params j1 k) as [l1|e1]; cbn [bind]; [|destruct H1 as [H1 ->]; split; [lia|reflexivity]].
    destruct (split_params j2 k) as [l2|e2]; cbn [bind]; [|destruct H2 as [H2 ->]; split; [lia|reflexivity]].
    destruct H1 as (C1 & L1 & [P1 Q1] & N1 & K1). destruct H2 as (C2 & L2 & [P2 Q2] & N2 & K2).
    split; [lia|]. split; [rewrite app_length, L1, L2; cbn; lia|]. split; [|split].
    + split.
      * intros x. rewrite A, P1, P2. split.
        -- intros [(j' & HI & HX)|(j' & HI & HX)]; exists j'; (split; [apply in_or_app; auto|exact HX]).
        -- intros (j' & HI & HX). apply in_app_or in HI. destruct HI; [left|right]; exists j'; auto.
      * apply FOP_app; [exact Q1|exact Q2|]. intros x y HX HY p [HP1 HP2]. apply (B p). split; [apply P1|apply P2]; eauto.
    + intros HN. destruct (C HN) as [X1 X2]. apply Forall_app. split; auto.
    + apply Forall_app. split; auto.
Qed.

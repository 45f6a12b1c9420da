From Coq Require Import ZArith Znumtheory QArith Qabs List Bool Lia.
From Verif Require Import PyBase PyBase_Proofs Rnd Rnd_Proofs Utils_Model Spec_Utils.
Import ListNotations.
Open Scope Z_scope.

(** ---- gcd ---- *)
Lemma gcd_loop_mono n m a b g : (n <= m)%nat -> gcd_loop n a b = Some g -> gcd_loop m a b = Some g.
Proof.
  revert m a b. induction n as [|n IH]; intros m a b Hm H.
  - cbn in H. destruct m; cbn; destruct (b =? 0); try discriminate; assumption.
  - destruct m as [|m]; [lia|]. cbn in *. destruct (b =? 0); [assumption|]. apply IH; [lia|assumption].
Qed.

Lemma gcd_loop_terminates a b : exists g, gcd_loop (Z.to_nat (Z.abs b)) a b = Some g.
Proof.
  remember (Z.to_nat (Z.abs b)) as n eqn:E. revert a b E.
  induction n as [n IH] using lt_wf_ind. intros a b E.
  destruct (Z.eq_dec b 0) as [->|Nb].
  - exists a. subst. reflexivity.
  - destruct n as [|n]; [lia|].
    assert (B : Z.abs (a mod b) < Z.abs b).
    { pose proof (Z.mod_bound_or a b Nb). lia. }
    destruct (IH (Z.to_nat (Z.abs (a mod b))) ltac:(lia) b (a mod b) eq_refl) as [g Hg].
    exists g. cbn [gcd_loop]. replace (b =? 0) with false by lia.
    eapply gcd_loop_mono; [|exact Hg]. lia.
Qed.

Lemma gcd_loop_abs n a b g : gcd_loop n a b = Some g -> Z.abs g = Z.gcd a b.
Proof.
  revert a b. induction n as [|n IH]; intros a b H; cbn in H; destruct (b =? 0) eqn:E; try discriminate.
  - apply Z.eqb_eq in E. subst. injection H as <-. now rewrite Z.gcd_0_r.
  - apply Z.eqb_eq in E. subst. injection H as <-. now rewrite Z.gcd_0_r.
  - apply Z.eqb_neq in E. apply IH in H. rewrite H.
    rewrite Z.gcd_comm, Z.gcd_mod by assumption. apply Z.gcd_comm.
Qed.

(** sign: the modulus keeps the sign of the divisor, so the loop keeps the sign of b *)
Lemma gcd_loop_sgn n a b g : gcd_loop n a b = Some g -> b <> 0 -> Z.sgn g = Z.sgn b.
Proof.
  revert a b. induction n as [|n IH]; intros a b H Nb; cbn in H; replace (b =? 0) with false in H by lia; [discriminate|].
  destruct (Z.eq_dec (a mod b) 0) as [E|N].
  - rewrite E in H. destruct n; cbn in H; injection H as <-; reflexivity.
  - rewrite (IH _ _ H N).
    pose proof (Z.mod_bound_or a b Nb) as B. destruct (Z.sgn_spec (a mod b)), (Z.sgn_spec b); lia.
Qed.

Lemma gcd_loop_zero n a : gcd_loop n a 0 = Some a.
Proof. destruct n; reflexivity. Qed.

Lemma py_gcd_spec a b :
  exists fuel g, (forall fuel', (fuel <= fuel')%nat -> py_gcd fuel' a b = Some g) /\
    Z.abs g = Z.gcd a b /\
    (Z.min a b <> 0 -> Z.sgn g = Z.sgn (Z.min a b)) /\ (Z.min a b = 0 -> g = Z.max a b).
Proof.
  exists (Z.to_nat (Z.abs (Z.min a b))).
  assert (E : forall fuel, py_gcd fuel a b = gcd_loop fuel (Z.max a b) (Z.min a b)).
  { intros fuel. unfold py_gcd. destruct (Z.gtb_spec b a).
    - now rewrite Z.max_r, Z.min_l by lia.
    - now rewrite Z.max_l, Z.min_r by lia. }
  destruct (gcd_loop_terminates (Z.max a b) (Z.min a b)) as [g Hg].
  exists g. split; [|split; [|split]].
  - intros f Hf. rewrite E. eapply gcd_loop_mono; eassumption.
  - rewrite (gcd_loop_abs _ _ _ _ Hg).
    destruct (Z.max_spec a b) as [[? ->]|[? ->]], (Z.min_spec a b) as [[? ->]|[? ->]]; try lia; try reflexivity; try apply Z.gcd_comm; assert (a = b) by lia; now subst.
  - intros N. apply (gcd_loop_sgn _ _ _ _ Hg N).
  - intros Z0. rewrite Z0, gcd_loop_zero in Hg. now injection Hg as <-.
Qed.

(** ---- polynomial substitution ---- *)
Lemma fold_left_add_acc (l : list Z) acc : fold_left Z.add l acc = acc + fold_left Z.add l 0.
Proof.
  revert acc. induction l as [|x l IH]; intros acc; cbn; [lia|].
  rewrite IH, (IH x). lia.
Qed.

Lemma fold_left_add_scale (l : list Z) x : fold_left Z.add (map (Z.mul x) l) 0 = x * fold_left Z.add l 0.
Proof.
  induction l as [|a l IH]; cbn; [lia|]. rewrite fold_left_add_acc, IH, (fold_left_add_acc l a). lia.
Qed.

Lemma subs_in_polynom_val cs x : subs_in_polynom cs x = poly_val cs x.
Proof.
  unfold subs_in_polynom. induction cs as [|c cs IH]; [reflexivity|].
  cbn [length seq map fold_left nth poly_val]. rewrite fold_left_add_acc.
  rewrite <- IH, <- fold_left_add_scale. rewrite <- seq_shift, !map_map.
  rewrite Z.pow_0_r. f_equal; [lia|]. f_equal. apply map_ext. intros j. cbn [nth].
  rewrite Nat2Z.inj_succ, Z.pow_succ_r by lia. ring.
Qed.

(** ---- stopwatch ---- *)
Definition sw_inv (t0 p last : Z) (s : stopwatch) : Prop :=
  sw_started s = true /\ sw_start_time s = Some t0 /\
  sw_time s (negb (sw_cur s)) = p /\ sw_last s = last.

Lemma sw_run_expected t0 p last s os : sw_inv t0 p last s -> snd (sw_run s os) = sw_expected t0 p last os.
Proof.
  revert p last s. induction os as [|o os IH]; intros p last s Hi; [reflexivity|].
  cbn [sw_run]. destruct (sw_step s o) as [s1 x] eqn:E1. destruct (sw_run s1 os) as [s2 xs] eqn:E2.
  cbn [snd]. destruct Hi as (Hs & Ht & Hp & Hl).
  assert (Hxs : snd (sw_run s1 os) = xs) by now rewrite E2.
  destruct o as [now|now|now| |]; cbn in E1.
  - unfold sw_start in E1. rewrite Hs in E1. inversion E1; subst. cbn. f_equal. apply IH. repeat split; auto.
  - inversion E1; subst x s1; clear E1. cbn [sw_expected].
    assert (G : sw_time s (negb (sw_cur s)) = p) by assumption.
    f_equal.
    + f_equal. unfold sw_time in *. cbn in *. destruct (sw_cur s); cbn in *; lia.
    + rewrite <- Hxs. apply IH. repeat split; cbn; auto.
      * unfold sw_time in *. cbn. destruct (sw_cur s); reflexivity.
      * unfold sw_last, sw_time in *. cbn in *. destruct (sw_cur s); cbn in *; lia.
  - unfold sw_total in E1. rewrite Ht in E1. inversion E1; subst. cbn. f_equal. apply IH. repeat split; auto.
  - inversion E1; subst. cbn. f_equal. apply IH. repeat split; auto.
  - inversion E1; subst. rewrite Hs. cbn. f_equal. apply IH. repeat split; auto.
Qed.

Lemma sw_run_from_start t0 os : snd (sw_run sw_init (OpStart t0 :: os)) = OutUnit :: sw_expected t0 t0 t0 os.
Proof.
  cbn [sw_run]. destruct (sw_step sw_init (OpStart t0)) as [s1 x] eqn:E. cbn in E.
  destruct (sw_run s1 os) as [s2 xs] eqn:E2. cbn [snd]. inversion E; subst. f_equal.
  change xs with (snd (s2, xs)). rewrite <- E2. apply sw_run_expected.
  repeat split. unfold sw_last, sw_time; cbn; lia.
Qed.

Lemma sw_expected_sum t0 p last os :
  fold_right Z.add 0 (map out_time (combine os (sw_expected t0 p last os))) =
  fold_left (fun d o => op_reading o d) os p - p.
Proof.
  revert p last. induction os as [|o os IH]; intros p last; cbn [combine map fold_right fold_left sw_expected].
  - lia.
  - destruct o; cbn [combine map fold_right out_time op_reading]; rewrite IH; lia.
Qed.

(** ---- days, hours, minutes, seconds ---- *)
Lemma rne_nearest x : nearest_even x (rne x).
Proof. apply rne_spec. Qed.

Lemma secs_to_dhms_spec x d h m s :
  secs_to_dhms x = (d, h, m, s) <->
  0 <= h < 24 /\ 0 <= m < 60 /\ 0 <= s < 60 /\ nearest_even x (86400 * d + 3600 * h + 60 * m + s).
Proof.
  unfold secs_to_dhms. set (n := rne x).
  split.
  - intros [= <- <- <- <-].
    assert (H : 86400 * (n / 60 / 60 / 24) + 3600 * ((n / 60 / 60) mod 24) + 60 * ((n / 60) mod 60) + n mod 60 = n).
    { pose proof (Z.div_mod n 60). pose proof (Z.div_mod (n / 60) 60). pose proof (Z.div_mod (n / 60 / 60) 24). lia. }
    rewrite H. repeat split; try (apply Z.mod_pos_bound; lia); apply rne_nearest.
  - intros (Hh & Hm & Hs & [N1 N2]).
    apply rne_unique in N1; [|assumption]. fold n in N1.
    assert (E1 : n / 60 = 1440 * d + 60 * h + m) by (symmetry; apply Z.div_unique with s; lia).
    assert (E2 : n mod 60 = s) by (symmetry; apply Z.mod_unique with (1440 * d + 60 * h + m); lia).
    assert (E3 : n / 60 / 60 = 24 * d + h) by (rewrite E1; symmetry; apply Z.div_unique with m; lia).
    assert (E4 : (n / 60) mod 60 = m) by (rewrite E1; symmetry; apply Z.mod_unique with (24 * d + h); lia).
    assert (E5 : n / 60 / 60 / 24 = d) by (rewrite E3; symmetry; apply Z.div_unique with h; lia).
    assert (E6 : (n / 60 / 60) mod 24 = h) by (rewrite E3; symmetry; apply Z.mod_unique with d; lia).
    now rewrite E2, E4, E5, E6.
Qed.

(** ---- grouper ---- *)
Lemma zl_round_full {A} (fill : A) n rest m :
  (n <= length rest)%nat ->
  zl_round fill (repeat true n) rest m = Some (firstn n rest, repeat true n, skipn n rest, m).
Proof.
  revert rest. induction n as [|n IH]; intros rest H; [reflexivity|].
  destruct rest as [|x rest]; cbn in H; [lia|]. cbn [repeat zl_round firstn skipn]. rewrite IH by lia. reflexivity.
Qed.

Lemma zl_round_empty {A} (fill : A) k m : Z.of_nat k < m ->
  zl_round fill (repeat true k) [] m = Some (repeat fill k, repeat false k, [], m - Z.of_nat k).
Proof.
  revert m. induction k as [|k IH]; intros m H; [cbn; now rewrite Z.sub_0_r|].
  cbn [repeat zl_round]. replace (m - 1 =? 0) with false by lia.
  rewrite IH by lia. now replace (m - 1 - Z.of_nat k) with (m - Z.of_nat (S k)) by lia.
Qed.

Lemma zl_round_partial {A} (fill : A) n rest m :
  (length rest <= n)%nat -> Z.of_nat n - Z.of_nat (length rest) < m ->
  zl_round fill (repeat true n) rest m =
  Some (rest ++ repeat fill (n - length rest), repeat true (length rest) ++ repeat false (n - length rest),
        [], m - Z.of_nat (n - length rest)).
Proof.
  revert rest. induction n as [|n IH]; intros rest H Hm.
  - destruct rest; cbn in H; [|lia]. cbn. now rewrite Z.sub_0_r.
  - destruct rest as [|x rest].
    + cbn [length Nat.sub app]. rewrite zl_round_empty; [|cbn in Hm; lia]. reflexivity.
    + cbn [repeat zl_round length Nat.sub app]. rewrite IH; cbn [length] in *; [|lia|lia]. reflexivity.
Qed.

Lemma zl_round_stop {A} (fill : A) k j : zl_round fill (repeat true (S k) ++ repeat false j) [] (Z.of_nat (S k)) = None.
Proof.
  induction k as [|k IH]; [reflexivity|].
  remember (S k) as k1 eqn:Ek. cbn [repeat app zl_round].
  destruct (Z.eqb_spec (Z.of_nat (S k1) - 1) 0); [reflexivity|].
  replace (Z.of_nat (S k1) - 1) with (Z.of_nat k1) by lia.
  rewrite IH. reflexivity.
Qed.

Lemma zl_loop_spec {A} (fill : A) n fuel rest :
  (0 < n)%nat -> (length rest < fuel)%nat ->
  exists cs, zl_loop fuel fill (repeat true n) rest (Z.of_nat n) = Some cs /\
    Forall (fun c => length c = n) cs /\
    exists k, (k < n)%nat /\ concat cs = rest ++ repeat fill k.
Proof.
  intros Hn. revert rest. induction fuel as [|fuel IH]; intros rest Hf; [lia|].
  cbn [zl_loop]. destruct (Nat.le_gt_cases n (length rest)) as [L|L].
  - rewrite zl_round_full by assumption.
    destruct (IH (skipn n rest)) as (cs & E & F & k & Hk & C).
    { rewrite skipn_length. lia. }
    rewrite E. exists (firstn n rest :: cs). split; [reflexivity|]. split.
    + constructor; [|assumption]. rewrite firstn_length. lia.
    + exists k. split; [assumption|]. cbn [concat]. rewrite C, app_assoc, firstn_skipn. reflexivity.
  - destruct rest as [|x rest].
    + destruct n as [|n]; [lia|].
      pose proof (zl_round_stop fill n 0) as S0. change (repeat false 0) with (@nil bool) in S0. rewrite app_nil_r in S0. rewrite S0.
      exists []. split; [reflexivity|]. split; [constructor|]. exists 0%nat. split; [lia|reflexivity].
    + set (l := x :: rest) in *. rewrite zl_round_partial by (cbn in *; lia).
      destruct fuel as [|fuel]; [cbn in Hf; lia|]. cbn [zl_loop].
      replace (Z.of_nat n - Z.of_nat (n - length l)) with (Z.of_nat (S (length rest))) by (cbn in *; lia).
      change (length l) with (S (length rest)).
      rewrite zl_round_stop.
      exists [l ++ repeat fill (n - S (length rest))]. split; [reflexivity|]. split.
      * constructor; [|constructor]. rewrite app_length, repeat_length. cbn in *. lia.
      * exists (n - S (length rest))%nat. split; [cbn in *; lia|]. cbn [concat]. now rewrite app_nil_r.
Qed.

Lemma zl_loop_mono {A} (fill : A) fuel fuel' acts rest m cs :
  (fuel <= fuel')%nat -> zl_loop fuel fill acts rest m = Some cs -> zl_loop fuel' fill acts rest m = Some cs.
Proof.
  revert fuel' acts rest m cs. induction fuel as [|f IH]; intros f' acts rest m cs H E; [discriminate|].
  destruct f' as [|f']; [lia|]. cbn in *.
  destruct (zl_round fill acts rest m) as [[[[c a] r] k]|]; [|assumption].
  destruct (zl_loop f fill a r k) as [cs'|] eqn:E'; [|discriminate].
  rewrite (IH f' _ _ _ cs') by (lia || assumption). assumption.
Qed.

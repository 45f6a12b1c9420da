(** Further facts on cont_fracs.py: value of get_result, sign symmetry, eval_contfrac, squeezing,
    is_convergence_fast, the estimation loops, reinitialize. *)
From Coq Require Import ZArith QArith Qabs Qfield List Bool Lia Lqa.
From Verif Require Import PyBase PyBase_Proofs Rnd Rnd_Proofs Utils_Model Spec_Utils Utils_Proofs ContFrac_Model Spec_ContFrac ContFrac_Proofs ContFrac_Hist.
Import ListNotations.
Open Scope Z_scope.

Definition upto (n : Z) : list Z := map Z.of_nat (seq 1 (Z.to_nat n)).

(** ---- get_result ---- *)
Lemma gen_ok_find rd a b av lg tg c0 c n fin c' : fresh a b av lg tg c0 -> same_static c0 c ->
  cf_gen0 rd n fin c = (c', Ok tt) -> find (bad_index av b) (zrange 1 (1 + n)) = None.
Proof.
  intros HF HS E. pose proof (hinv_gen rd a b av lg tg c0 c n fin HF HS) as G.
  destruct (find (bad_index av b) (zrange 1 (1 + n))); [|reflexivity].
  destruct G as [G _]. rewrite E in G. discriminate G.
Qed.

Lemma gen_state rd a b av lg tg c0 c n fin c' : fresh a b av lg tg c0 -> same_static c0 c ->
  cf_gen0 rd n fin c = (c', Ok tt) ->
  fst (fst (cur_mat c')) = contP (icoef a 0) (icoefs a b (upto n)) /\
  fst (snd (cur_mat c')) = contQ (icoefs a b (upto n)) /\
  cf_iters c' = n /\
  (fin = true -> lg = false \/ 1 <= n ->
   cf_result c' = pq_value rd (contP (icoef a 0) (icoefs a b (upto n))) (contQ (icoefs a b (upto n)))).
Proof.
  intros HF HS E. pose proof (gen_ok_find _ _ _ _ _ _ _ _ _ _ _ HF HS E) as Fn.
  pose proof (hinv_gen rd a b av lg tg c0 c n fin HF HS) as G. rewrite Fn in G.
  destruct G as (c1 & E1 & (S1 & I1 & M1 & _) & X). rewrite E in E1. injection E1 as <-.
  destruct (fresh_inv _ _ _ _ _ _ HF) as (Na & Nb & Hp & Hpr & Hf & Hav & Hl & Ht & Hlog & _ & Hmm & _).
  rewrite zrange_1, Hf in M1. fold (upto n) in M1.
  destruct (msteps_contPQ (icoef a 0) (icoefs a b (upto n))) as [P1 Q1]. rewrite <- M1 in P1, Q1.
  split; [exact P1|]. split; [exact Q1|]. split; [exact I1|].
  intros -> HH. rewrite <- P1, <- Q1. destruct lg.
  - destruct HH as [HH|HH]; [discriminate|].
    destruct (gen_logging rd a b av tg c0 c n true HF HS ltac:(lia) Fn) as (c2 & E2 & Hm2 & Hl2 & _).
    rewrite E in E2. injection E2 as <-.
    unfold cf_result. rewrite Hl2.
    replace (seq 1 (Z.to_nat n)) with (seq 1 (Z.to_nat (n - 1)) ++ [Z.to_nat n]).
    2:{ replace (Z.to_nat n) with (Z.to_nat (n - 1) + 1)%nat at 2 by lia. rewrite seq_app. f_equal. cbn. f_equal. lia. }
    rewrite map_app. cbn [map]. rewrite app_comm_cons, last_snoc. cbn [with_res pres].
    rewrite M1. unfold upto. rewrite Hf. reflexivity.
  - destruct (X eq_refl) as [X1 X2]. unfold cf_result. rewrite X1. reflexivity.
Qed.

(** ---- sign symmetry ---- *)
Definition mneg (v : mpfv) : mpfv := match v with Fin q => Fin (- q)%Q | NaN => NaN end.

Lemma rd_div_neg rd x y : rd_ok rd -> rd (- x / y)%Q = Qopp (rd (x / y)%Q).
Proof.
  intros (H1 & H2 & H3). rewrite <- H2. apply H1. unfold Qdiv. ring.
Qed.

Lemma Qinv_opp x : (/ (- x) == - / x)%Q.
Proof. destruct x as [[|n|n] d]; reflexivity. Qed.

Lemma rd_div_neg_r rd x y : rd_ok rd -> rd (x / - y)%Q = Qopp (rd (x / y)%Q).
Proof.
  intros (H1 & H2 & H3). rewrite <- H2. apply H1. unfold Qdiv. rewrite Qinv_opp. ring.
Qed.

Lemma pq_value_neg_p rd p q : rd_ok rd -> pq_value rd (- p) q = mneg (pq_value rd p q).
Proof.
  intros R. unfold pq_value. destruct (Qeq_bool (rd (inject_Z q)) 0); [reflexivity|]. cbn [mneg]. f_equal.
  unfold rdiv. rewrite inject_Z_opp. destruct R as (H1 & H2 & H3). rewrite H2. now apply rd_div_neg.
Qed.

Lemma pq_value_neg_q rd p q : rd_ok rd -> pq_value rd p (- q) = mneg (pq_value rd p q).
Proof.
  intros R. unfold pq_value. rewrite inject_Z_opp. pose proof R as (H1 & H2 & H3). rewrite H2.
  replace (Qeq_bool (- rd (inject_Z q)) 0) with (Qeq_bool (rd (inject_Z q)) 0).
  2:{ apply eq_true_iff_eq. rewrite !Qeq_bool_iff. split; intros E; [rewrite E; reflexivity|].
      rewrite <- (Qopp_involutive (rd (inject_Z q))), E. reflexivity. }
  destruct (Qeq_bool (rd (inject_Z q)) 0); [reflexivity|]. cbn [mneg]. f_equal. unfold rdiv. now apply rd_div_neg_r.
Qed.

Definition neg_coeffs (a : coeffs) : coeffs := map (map Z.opp) a.

Lemma poly_val_opp p x : poly_val (map Z.opp p) x = - poly_val p x.
Proof. induction p as [|c p IH]; cbn; [reflexivity|]. rewrite IH. lia. Qed.

Lemma icoef_neg a i : icoef (neg_coeffs a) i = - icoef a i.
Proof.
  unfold icoef, neg_coeffs. rewrite map_length.
  change (@nil Z) with (map Z.opp []) at 1. rewrite map_nth. apply poly_val_opp.
Qed.

Definition nega (ab : Z * Z) : Z * Z := (- fst ab, snd ab).

Lemma icoefs_neg a b is : icoefs (neg_coeffs a) b is = map nega (icoefs a b is).
Proof. unfold icoefs. rewrite map_map. apply map_ext. intros i. unfold nega. cbn. now rewrite icoef_neg. Qed.

Lemma cont_xy_neg l : cont_xy (map nega l) =
  if Nat.even (length l) then (fst (cont_xy l), - snd (cont_xy l)) else (- fst (cont_xy l), snd (cont_xy l)).
Proof.
  induction l as [|[a b] l IH]; [reflexivity|].
  cbn [map nega fst snd cont_xy length]. rewrite IH. rewrite Nat.even_succ, <- Nat.negb_even.
  destruct (cont_xy l) as [x y]. destruct (Nat.even (length l)); cbn [fst snd negb]; f_equal; ring.
Qed.

Lemma contPQ_neg rd a0 l : rd_ok rd ->
  pq_value rd (contP (- a0) (map nega l)) (contQ (map nega l)) = mneg (pq_value rd (contP a0 l) (contQ l)).
Proof.
  intros R. unfold contP, contQ. rewrite cont_xy_neg. destruct (Nat.even (length l)); cbn [fst snd].
  - rewrite <- pq_value_neg_p by assumption. f_equal. ring.
  - rewrite <- pq_value_neg_q by assumption. f_equal. ring.
Qed.

Lemma fresh_neg a b av lg tg c0 : fresh a b av lg tg c0 -> exists c1, fresh (neg_coeffs a) b av lg tg c1.
Proof.
  unfold fresh, cf_new. destruct a as [|[|a00 a0] a], b as [|b0 b]; try discriminate.
  intros _. cbn. eexists. reflexivity.
Qed.

(** ---- eval_contfrac ---- *)
Fixpoint eval_rec (rd : Q -> Q) (a0 : Q) (l : list (Q * Q)) : res Q :=
  match l with
  | [] => Ok a0
  | (a1, b1) :: r => let* t := eval_rec rd a1 r in eval_step rd t (a0, b1)
  end.

Lemma combine_app_eq {A B} (x1 x2 : list A) (y1 y2 : list B) : length x1 = length y1 ->
  combine (x1 ++ x2) (y1 ++ y2) = combine x1 y1 ++ combine x2 y2.
Proof.
  revert y1. induction x1 as [|x x1 IH]; intros [|y y1] H; try discriminate; [reflexivity|].
  cbn. f_equal. apply IH. now injection H.
Qed.

Lemma removelast_length {A} (l : list A) : length (removelast l) = (length l - 1)%nat.
Proof. induction l as [|x l IH]; [reflexivity|]. destruct l; [reflexivity|]. cbn [removelast length] in *. rewrite IH. cbn. lia. Qed.

Lemma eval_fold_rec rd a0 aa bb : length aa = length bb ->
  foldM (eval_step rd) (combine (rev (removelast (a0 :: aa))) (rev bb)) (last (a0 :: aa) 0%Q)
  = eval_rec rd a0 (combine aa bb).
Proof.
  revert a0 bb. induction aa as [|a1 aa IH]; intros a0 [|b1 bb] H; try discriminate; [reflexivity|].
  injection H as H. cbn [combine eval_rec]. rewrite <- IH by assumption.
  change (removelast (a0 :: a1 :: aa)) with (a0 :: removelast (a1 :: aa)).
  change (last (a0 :: a1 :: aa) 0%Q) with (last (a1 :: aa) 0%Q).
  cbn [rev]. rewrite combine_app_eq.
  - rewrite foldM_app. destruct (foldM _ _ _); cbn; [|reflexivity].
    destruct (Qeq_bool a 0); reflexivity.
  - rewrite !rev_length, removelast_length. cbn [length]. lia.
Qed.

Lemma eval_contfrac_rec rd a0 aa bb : length aa = length bb ->
  eval_contfrac rd (a0 :: aa) (Some bb) = eval_rec rd a0 (combine aa bb).
Proof.
  intros H. unfold eval_contfrac.
  replace (Nat.eqb (length (a0 :: aa)) (length bb)) with false by (symmetry; apply Nat.eqb_neq; cbn; lia).
  replace (Nat.eqb (length (a0 :: aa)) (length bb + 1)) with true by (symmetry; apply Nat.eqb_eq; cbn; lia).
  apply eval_fold_rec. assumption.
Qed.

Lemma removelast_snoc {A} (l : list A) x : removelast (l ++ [x]) = l.
Proof. apply removelast_last. Qed.

Lemma eval_contfrac_eq_len rd a bb : length a = length bb ->
  eval_contfrac rd a (Some bb) = eval_contfrac rd (a ++ [1%Q]) (Some bb).
Proof.
  intros H. unfold eval_contfrac. rewrite app_length. cbn [length].
  replace (Nat.eqb (length a) (length bb)) with true by (symmetry; now apply Nat.eqb_eq).
  replace (Nat.eqb (length a + 1) (length bb)) with false by (symmetry; apply Nat.eqb_neq; lia).
  replace (Nat.eqb (length a + 1) (length bb + 1)) with true by (symmetry; apply Nat.eqb_eq; lia).
  rewrite removelast_snoc, last_snoc. reflexivity.
Qed.

(** exact arithmetic *)
Lemma eval_rec_exact a0 l :
  match nested a0 l with
  | Some v => exists v', eval_rec Qred a0 l = Ok v' /\ (v' == v)%Q
  | None => eval_rec Qred a0 l = Raise ZeroDivisionError
  end.
Proof.
  revert a0. induction l as [|[a1 b1] l IH]; intros a0; cbn [nested eval_rec].
  - exists a0. split; reflexivity.
  - specialize (IH a1). destruct (nested a1 l) as [t|].
    + destruct IH as (t' & E & Et). rewrite E. cbn [bind eval_step].
      replace (Qeq_bool t' 0) with (Qeq_bool t 0).
      2:{ apply eq_true_iff_eq. rewrite !Qeq_bool_iff, Et. reflexivity. }
      destruct (Qeq_bool t 0); [reflexivity|].
      eexists. split; [reflexivity|]. unfold radd, rdiv. rewrite !Qred_correct, Et. reflexivity.
    + rewrite IH. reflexivity.
Qed.

(** eval sign symmetry under rounding *)
Definition res_neg (r : res Q) : res Q := match r with Ok q => Ok (- q)%Q | Raise e => Raise e end.
Definition negaQ (ab : Q * Q) : Q * Q := (- fst ab, snd ab)%Q.

Lemma Qopp_plus_leib x y : Qplus (- x) (- y) = Qopp (x + y).
Proof. destruct x, y. unfold Qplus, Qopp. cbn. f_equal. ring. Qed.

Lemma eval_rec_neg rd a0 l : rd_ok rd -> eval_rec rd (- a0)%Q (map negaQ l) = res_neg (eval_rec rd a0 l).
Proof.
  intros R. revert a0. induction l as [|[a1 b1] l IH]; intros a0; [reflexivity|].
  cbn [map negaQ fst snd eval_rec]. rewrite IH. destruct (eval_rec rd a1 l) as [t|e]; [|reflexivity].
  cbn [res_neg bind eval_step].
  replace (Qeq_bool (- t) 0) with (Qeq_bool t 0).
  2:{ apply eq_true_iff_eq. rewrite !Qeq_bool_iff. split; intros E; [rewrite E; reflexivity|].
      rewrite <- (Qopp_involutive t), E. reflexivity. }
  destruct (Qeq_bool t 0); [reflexivity|]. cbn [res_neg]. f_equal. unfold radd, rdiv.
  rewrite rd_div_neg_r by assumption. rewrite Qopp_plus_leib. now apply R.
Qed.

Lemma fold_radd_neg rd l acc : rd_ok rd -> fold_left (radd rd) (map Qopp l) (- acc)%Q = Qopp (fold_left (radd rd) l acc).
Proof.
  intros R. revert acc. induction l as [|x l IH]; intros acc; [reflexivity|].
  cbn [map fold_left]. rewrite <- IH. f_equal. unfold radd. rewrite Qopp_plus_leib. now apply R.
Qed.

Lemma subs_r_neg rd p x : rd_ok rd -> subs_in_polynom_r rd (map Qopp p) x = Qopp (subs_in_polynom_r rd p x).
Proof.
  intros R. unfold subs_in_polynom_r. rewrite map_length.
  change (fold_left (radd rd) (map (fun j => rmul rd (nth j (map Qopp p) 0%Q) (inject_Z (x ^ Z.of_nat j))) (seq 0 (length p))) (- 0)%Q =
          - fold_left (radd rd) (map (fun j => rmul rd (nth j p 0%Q) (inject_Z (x ^ Z.of_nat j))) (seq 0 (length p))) 0)%Q.
  rewrite <- fold_radd_neg by assumption. f_equal. rewrite map_map. apply map_ext. intros j.
  change (nth j (map Qopp p) 0%Q) with (nth j (map Qopp p) (- 0)%Q). rewrite map_nth. unfold rmul.
  destruct R as (H1 & H2 & _). rewrite <- H2. apply H1. ring.
Qed.

(** value of the coefficients in eval_dec_contfrac_by_polys *)
Definition rcoef (rd : Q -> Q) (l : coeffs) (i : Z) : Q :=
  subs_in_polynom_r rd (map (fun z => rd (inject_Z z)) (nth (Z.to_nat (i mod Z.of_nat (length l))) l [])) i.

Lemma coef_at_r_ok rd l i : l <> [] ->
  coef_at_r rd (map (map (fun z => rd (inject_Z z))) l) i = Ok (rcoef rd l i).
Proof.
  intros N. unfold coef_at_r, rcoef. rewrite map_length.
  assert (L : 0 < Z.of_nat (length l)) by (destruct l; [congruence|cbn; lia]).
  replace (Z.of_nat (length l) =? 0) with false by lia.
  pose proof (Z.mod_pos_bound i _ L) as B. unfold py_nth. rewrite map_length.
  replace (i mod Z.of_nat (length l) <? 0) with false by lia.
  replace (Z.of_nat (length l) <=? i mod Z.of_nat (length l)) with false by lia.
  replace (i mod Z.of_nat (length l) <? 0) with false by lia. cbn [orb].
  rewrite nth_error_map, (nth_error_nth' l []) by lia. reflexivity.
Qed.

Definition rcoefs (rd : Q -> Q) (a b : coeffs) (is : list Z) : list (Q * Q) :=
  map (fun i => (rcoef rd a i, rcoef rd b i)) is.

Lemma combine_map_same {A B C} (f : A -> B) (g : A -> C) l : combine (map f l) (map g l) = map (fun x => (f x, g x)) l.
Proof. induction l; cbn; congruence. Qed.

Lemma eval_dec_rec rd a b n : a <> [] -> b <> [] -> 0 <= n ->
  eval_dec_contfrac_by_polys rd (Nested a) (Nested b) (n + 1) = eval_rec rd (rcoef rd a 0) (rcoefs rd a b (upto n)).
Proof.
  intros Na Nb Hn. unfold eval_dec_contfrac_by_polys.
  assert (Ea : norm_coeffs (Nested a) = Ok a) by (destruct a; [congruence|reflexivity]).
  assert (Eb : norm_coeffs (Nested b) = Ok b) by (destruct b; [congruence|reflexivity]).
  rewrite Ea, Eb. cbn [bind].
  rewrite (mapM_ok _ (rcoef rd a)) by (intros; now apply coef_at_r_ok). cbn [bind].
  rewrite (mapM_ok _ (rcoef rd b)) by (intros; now apply coef_at_r_ok). cbn [bind].
  rewrite zrange_cons by lia. cbn [map]. change (0 + 1) with 1. rewrite Z.add_comm. rewrite zrange_1. fold (upto n).
  rewrite eval_contfrac_rec by (now rewrite !map_length). rewrite combine_map_same. reflexivity.
Qed.

Lemma eval_dec_nonpos rd a b d : a <> [] -> b <> [] -> d <= 0 ->
  eval_dec_contfrac_by_polys rd (Nested a) (Nested b) d = Ok 1%Q.
Proof.
  intros Na Nb Hd. unfold eval_dec_contfrac_by_polys.
  assert (Ea : norm_coeffs (Nested a) = Ok a) by (destruct a; [congruence|reflexivity]).
  assert (Eb : norm_coeffs (Nested b) = Ok b) by (destruct b; [congruence|reflexivity]).
  rewrite Ea, Eb. cbn [bind]. rewrite !zrange_nil by lia. reflexivity.
Qed.

Lemma Qred_inject_Z n : Qred (inject_Z n) = inject_Z n.
Proof.
  unfold Qred, inject_Z. pose proof (Z.ggcd_gcd n 1) as G. pose proof (Z.ggcd_correct_divisors n 1) as D.
  destruct (Z.ggcd n 1) as [g [aa bb]]. cbn in G. rewrite Z.gcd_1_r in G. subst g. destruct D as [D1 D2].
  cbn. rewrite Z.mul_1_l in *. subst. reflexivity.
Qed.

Lemma subs_r_exact p x : subs_in_polynom_r Qred (map (fun z => Qred (inject_Z z)) p) x = inject_Z (poly_val p x).
Proof.
  rewrite <- subs_in_polynom_val. unfold subs_in_polynom_r, subs_in_polynom. rewrite map_length.
  assert (G : forall l acc,
    fold_left (radd Qred) (map (fun j => rmul Qred (nth j (map (fun z => Qred (inject_Z z)) p) 0%Q) (inject_Z (x ^ Z.of_nat j))) l) (inject_Z acc)
    = inject_Z (fold_left Z.add (map (fun j => nth j p 0 * x ^ Z.of_nat j) l) acc)).
  2:{ apply (G _ 0). }
  induction l as [|j l IH]; intros acc; [reflexivity|].
  cbn [map fold_left]. rewrite <- IH. f_equal. unfold radd, rmul.
  assert (E : nth j (map (fun z => Qred (inject_Z z)) p) 0%Q = inject_Z (nth j p 0)).
  { change 0%Q with (Qred (inject_Z 0)). rewrite (map_nth (fun z => Qred (inject_Z z))). apply Qred_inject_Z. }
  rewrite E. rewrite <- inject_Z_mult, Qred_inject_Z, <- inject_Z_plus. apply Qred_inject_Z.
Qed.

Lemma rcoef_exact l i : rcoef Qred l i = inject_Z (icoef l i).
Proof. unfold rcoef, icoef. apply subs_r_exact. Qed.

Lemma rcoefs_exact a b is : rcoefs Qred a b is = toQ (icoefs a b is).
Proof. unfold rcoefs, toQ, icoefs. rewrite map_map. apply map_ext. intros i. now rewrite !rcoef_exact. Qed.

Lemma rcoef_neg rd a i : rd_ok rd -> rcoef rd (neg_coeffs a) i = Qopp (rcoef rd a i).
Proof.
  intros R. unfold rcoef, neg_coeffs. rewrite map_length.
  change (@nil Z) with (map Z.opp []) at 1. rewrite map_nth, map_map.
  rewrite <- subs_r_neg by assumption. rewrite map_map. f_equal. apply map_ext. intros z.
  rewrite inject_Z_opp. now apply R.
Qed.

Lemma neg_coeffs_ne a : a <> [] -> neg_coeffs a <> [].
Proof. destruct a; [congruence|discriminate]. Qed.

Lemma eval_dec_neg rd a b d : rd_ok rd -> 1 <= d -> a <> [] -> b <> [] ->
  eval_dec_contfrac_by_polys rd (Nested (neg_coeffs a)) (Nested b) d =
  res_neg (eval_dec_contfrac_by_polys rd (Nested a) (Nested b) d).
Proof.
  intros R Hd Na Nb. replace d with (d - 1 + 1) by lia.
  rewrite !eval_dec_rec by (auto using neg_coeffs_ne; lia).
  rewrite rcoef_neg by assumption. rewrite <- eval_rec_neg by assumption. f_equal.
  unfold rcoefs. rewrite map_map. apply map_ext. intros i. unfold negaQ. cbn. now rewrite rcoef_neg.
Qed.

(** ---- squeezing identical interlaces ---- *)
Lemma nth_repeat_lt {A} (x d : A) k j : (j < k)%nat -> nth j (repeat x k) d = x.
Proof. revert j. induction k as [|k IH]; intros j H; [lia|]. destruct j; [reflexivity|]. cbn. apply IH. lia. Qed.

Lemma nth_mod_repeat {A} (x d : A) k i : (1 <= k)%nat ->
  nth (Z.to_nat (i mod Z.of_nat (length (repeat x k)))) (repeat x k) d = x.
Proof.
  intros H. rewrite repeat_length. apply nth_repeat_lt.
  pose proof (Z.mod_pos_bound i (Z.of_nat k) ltac:(lia)). lia.
Qed.

Lemma icoef_squeeze p k i : (1 <= k)%nat -> icoef (repeat p k) i = icoef [p] i.
Proof.
  intros H. unfold icoef. rewrite nth_mod_repeat by assumption.
  change [p] with (repeat p 1) at 1 2. rewrite nth_mod_repeat by lia. reflexivity.
Qed.

Lemma rcoef_squeeze rd p k i : (1 <= k)%nat -> rcoef rd (repeat p k) i = rcoef rd [p] i.
Proof.
  intros H. unfold rcoef. rewrite nth_mod_repeat by assumption.
  change [p] with (repeat p 1) at 1 2. rewrite nth_mod_repeat by lia. reflexivity.
Qed.

Lemma repeat_ne {A} (x : A) k : (1 <= k)%nat -> repeat x k <> [].
Proof. destruct k; [lia|discriminate]. Qed.

(** two coefficient lists that give the same coefficients give the same evaluations *)
Lemma eval_dec_ext rd a a' b b' d : a <> [] -> a' <> [] -> b <> [] -> b' <> [] ->
  (forall i, rcoef rd a i = rcoef rd a' i) -> (forall i, rcoef rd b i = rcoef rd b' i) ->
  eval_dec_contfrac_by_polys rd (Nested a) (Nested b) d = eval_dec_contfrac_by_polys rd (Nested a') (Nested b') d.
Proof.
  intros Na Na' Nb Nb' Ea Eb. destruct (Z_le_gt_dec d 0) as [L|L].
  - now rewrite !eval_dec_nonpos by assumption.
  - replace d with (d - 1 + 1) by lia. rewrite !eval_dec_rec by (assumption || lia). rewrite Ea. f_equal.
    unfold rcoefs. apply map_ext. intros i. now rewrite Ea, Eb.
Qed.

Lemma find_ext {A} (f g : A -> bool) l : (forall x, f x = g x) -> find f l = find g l.
Proof. intros H. induction l as [|x l IH]; cbn; [reflexivity|]. rewrite H, IH. reflexivity. Qed.

Lemma gen_outcome rd a b av lg tg c0 c n fin : fresh a b av lg tg c0 -> same_static c0 c ->
  snd (cf_gen0 rd n fin c) =
  match find (bad_index av b) (upto n) with Some i => Raise (ZeroB i) | None => Ok tt end.
Proof.
  intros HF HS. pose proof (hinv_gen rd a b av lg tg c0 c n fin HF HS) as G. rewrite zrange_1 in G. fold (upto n) in G.
  destruct (find (bad_index av b) (upto n)).
  - apply G.
  - destruct G as (c' & E & _). rewrite E. reflexivity.
Qed.

Lemma gen_ext rd a a' b b' av lg tg c0 c0' n fin :
  fresh a b av lg tg c0 -> fresh a' b' av lg tg c0' ->
  (forall i, icoef a i = icoef a' i) -> (forall i, icoef b i = icoef b' i) ->
  let r := cf_gen0 rd n fin c0 in let r' := cf_gen0 rd n fin c0' in
  snd r = snd r' /\ (snd r = Ok tt -> cur_mat (fst r) = cur_mat (fst r') /\ cf_get_p_q (fst r) = cf_get_p_q (fst r') /\
     cf_iters (fst r) = cf_iters (fst r') /\
     (fin = true -> lg = false \/ 1 <= n -> cf_result (fst r) = cf_result (fst r'))).
Proof.
  intros HF HF' Ea Eb. cbn zeta.
  assert (O : snd (cf_gen0 rd n fin c0) = snd (cf_gen0 rd n fin c0')).
  { rewrite (gen_outcome rd _ _ _ _ _ _ _ n fin HF (same_static_refl _)), (gen_outcome rd _ _ _ _ _ _ _ n fin HF' (same_static_refl _)).
    rewrite (find_ext (bad_index av b) (bad_index av b')); [reflexivity|]. intros i. unfold bad_index. now rewrite Eb. }
  split; [exact O|]. intros Ok1. pose proof Ok1 as Ok2. rewrite O in Ok2.
  destruct (cf_gen0 rd n fin c0) as [c1 r1] eqn:E1. destruct (cf_gen0 rd n fin c0') as [c2 r2] eqn:E2.
  cbn [fst snd] in *. subst r1 r2.
  pose proof (hinv_gen rd a b av lg tg c0 c0 n fin HF (same_static_refl _)) as G.
  rewrite (gen_ok_find _ _ _ _ _ _ _ _ _ _ _ HF (same_static_refl _) E1) in G.
  destruct G as (c3 & E3 & (_ & _ & M & _) & _). rewrite E1 in E3. injection E3 as <-.
  pose proof (hinv_gen rd a' b' av lg tg c0' c0' n fin HF' (same_static_refl _)) as G.
  rewrite (gen_ok_find _ _ _ _ _ _ _ _ _ _ _ HF' (same_static_refl _) E2) in G.
  destruct G as (c3 & E3 & (_ & _ & M' & _) & _). rewrite E2 in E3. injection E3 as <-.
  destruct (fresh_inv _ _ _ _ _ _ HF) as (_ & _ & _ & _ & Hf & _).
  destruct (fresh_inv _ _ _ _ _ _ HF') as (_ & _ & _ & _ & Hf' & _).
  assert (Ic : forall is, icoefs a b is = icoefs a' b' is) by (intros is; unfold icoefs; apply map_ext; intros i; now rewrite Ea, Eb).
  assert (MM : cur_mat c1 = cur_mat c2) by (rewrite M, M', Hf, Hf', Ea, Ic; reflexivity).
  split; [exact MM|]. split.
  { unfold cf_get_p_q. fold (cur_mat c1) (cur_mat c2). rewrite MM. reflexivity. }
  destruct (gen_state _ _ _ _ _ _ _ _ _ _ _ HF (same_static_refl _) E1) as (_ & _ & I1 & R1).
  destruct (gen_state _ _ _ _ _ _ _ _ _ _ _ HF' (same_static_refl _) E2) as (_ & _ & I2 & R2).
  split; [congruence|]. intros Hfin Hlg. rewrite (R1 Hfin Hlg), (R2 Hfin Hlg), Ea, Ic. reflexivity.
Qed.

(** ---- is_convergence_fast ---- *)
Lemma five_pq_static rd k c acc : same_static c (fst (five_pq rd k c acc)).
Proof.
  revert c acc. induction k as [|k IH]; intros c acc; [apply same_static_refl|].
  cbn [five_pq]. pose proof (cf_add_static rd 1 false c) as S. destruct (cf_add rd 1 false c) as [c1 [[]|e]]; cbn [fst] in *; [|exact S].
  eapply same_static_trans; [exact S|apply IH].
Qed.

Lemma fast_loop_static rd idx step c : same_static c (fst (fast_loop rd idx step c)).
Proof.
  revert c. induction idx as [|i idx IH]; intros c; [apply same_static_refl|].
  cbn [fast_loop]. pose proof (five_pq_static rd 5 c []) as S. destruct (five_pq rd 5 c []) as [c1 [l|e]]; cbn [fst] in *; [|exact S].
  destruct (slow_test l); [exact S|].
  pose proof (cf_add_static rd (step - 5) false c1) as S2. destruct (cf_add rd (step - 5) false c1) as [c2 [[]|e]]; cbn [fst] in *.
  - eapply same_static_trans; [exact S|]. eapply same_static_trans; [exact S2|]. apply IH.
  - eapply same_static_trans; eassumption.
Qed.

Lemma is_fast_static_eq rd iters cutoff step c c' : same_static c c' ->
  cf_is_fast rd iters cutoff step c' = cf_is_fast rd iters cutoff step c.
Proof. intros H. unfold cf_is_fast. now rewrite (cf_gen0_static_eq rd cutoff false c c' H). Qed.

Lemma is_fast_resets rd iters cutoff step c c' v :
  cf_is_fast rd iters cutoff step c = (c', Ok v) -> cf_gen0 rd 0 true c = (c', Ok tt).
Proof.
  unfold cf_is_fast. pose proof (cf_gen0_static rd cutoff false c) as S1.
  destruct (cf_gen0 rd cutoff false c) as [c1 [[]|e]]; [|discriminate]. cbn [fst] in S1.
  destruct (py_range3 (cutoff + step) (iters + 1) step) as [idx|e]; [|discriminate].
  pose proof (fast_loop_static rd idx step c1) as S2. destruct (fast_loop rd idx step c1) as [c2 [b|e]]; [|discriminate].
  cbn [fst] in S2. rewrite (cf_gen0_static_eq rd 0 true c c2) by (eapply same_static_trans; eassumption).
  destruct (cf_gen0 rd 0 true c) as [c3 [[]|e]]; [|discriminate]. now intros [= <- _].
Qed.

From Coq Require Import ZArith QArith Qabs Qfield List Bool Lia Lqa.
From Verif Require Import PyBase PyBase_Proofs Rnd Rnd_Proofs Utils_Model Spec_Utils Utils_Proofs ContFrac_Model Spec_ContFrac.
Import ListNotations.
Open Scope Z_scope.

(** ---- list helpers ---- *)
Lemma last_app_ne {A} (l r : list A) d : r <> [] -> last (l ++ r) d = last r d.
Proof.
  intros N. induction l as [|x l IH]; [reflexivity|].
  cbn [app]. cbn [last]. destruct (l ++ r) eqn:E; [apply app_eq_nil in E as [_ ->]; congruence|exact IH].
Qed.

Lemma last_snoc {A} (l : list A) x d : last (l ++ [x]) d = x.
Proof. rewrite last_app_ne by discriminate. reflexivity. Qed.

Lemma last_default {A} (l : list A) d d' : l <> [] -> last l d = last l d'.
Proof.
  induction l as [|x l IH]; [congruence|]. intros _. destruct l; [reflexivity|]. apply IH. discriminate.
Qed.

Lemma last_map {A B} (f : A -> B) l d : last (map f l) (f d) = f (last l d).
Proof. induction l as [|x l IH]; [reflexivity|]. destruct l; [reflexivity|]. exact IH. Qed.

Lemma last_app_or {A} (l r : list A) d : last (l ++ r) d = last r (last l d).
Proof.
  destruct r as [|x r]; [now rewrite app_nil_r|].
  rewrite last_app_ne by discriminate. apply last_default. discriminate.
Qed.

(** ---- coefficients ---- *)
Lemma coef_at_ok l i : l <> [] -> coef_at l i = Ok (icoef l i).
Proof.
  intros N. unfold coef_at, icoef.
  assert (L : 0 < Z.of_nat (length l)) by (destruct l; [congruence|cbn; lia]).
  replace (Z.of_nat (length l) =? 0) with false by lia.
  pose proof (Z.mod_pos_bound i _ L) as B. unfold py_nth.
  replace (i mod Z.of_nat (length l) <? 0) with false by lia.
  replace (Z.of_nat (length l) <=? i mod Z.of_nat (length l)) with false by lia.
  replace (i mod Z.of_nat (length l) <? 0) with false by lia. cbn [orb].
  rewrite (nth_error_nth' l []) by lia. cbn [bind]. now rewrite subs_in_polynom_val.
Qed.

Lemma default_promo_ok av i a b : a <> [] -> b <> [] ->
  default_promo av i a b = if av && (icoef b i =? 0) && (i >? 0) then Raise (ZeroB i) else Ok (icoef a i, icoef b i).
Proof. intros Na Nb. unfold default_promo. rewrite !coef_at_ok by assumption. reflexivity. Qed.

(** ---- traces of the loop ---- *)
Definition mstep (m : mat) (ab : Z * Z) : mat :=
  let '((p, p'), (q, q')) := m in
  ((p * fst ab + p' * snd ab, p), (q * fst ab + q' * snd ab, q)).

Fixpoint ltrace (f : Z -> res (Z * Z)) (is : list Z) (m : mat) : list mat * option exn :=
  match is with
  | [] => ([], None)
  | i :: r => match f i with
              | Raise e => ([], Some e)
              | Ok ab => let m' := mstep m ab in let '(t, o) := ltrace f r m' in (m' :: t, o)
              end
  end.

Definition promo_of (c : contfrac) (ps : params) (i : Z) : res (Z * Z) :=
  match cf_promo c with
  | Some f => f i (pa ps) (pb ps)
  | None => default_promo (cf_avoid_zero_b c) i (pa ps) (pb ps)
  end.

Definition with_res (rd : Q -> Q) (ps : params) (m : mat) : params :=
  {| pa := pa ps; pb := pb ps; pres := pq_value rd (fst (fst m)) (fst (snd m)) |}.

Lemma set_dyn_id c : set_dyn c (cf_log c) (cf_iters c) (cf_mats c) = c.
Proof. destruct c. reflexivity. Qed.

Lemma add_loop_spec rd idx c ps m :
  add_loop rd idx c ps m =
  let '(t, o) := ltrace (promo_of c ps) (map (fun i => i + cf_iters c + 1) idx) m in
  let pss := map (with_res rd ps) t in
  (if cf_logging c then set_dyn c (cf_log c ++ pss) (cf_iters c) (cf_mats c ++ t) else c,
   match o with
   | Some e => Raise e
   | None => Ok (if cf_logging c then last pss ps else ps, last t m)
   end).
Proof.
  revert c ps m. induction idx as [|i idx IH]; intros c ps m.
  - cbn. destruct (cf_logging c) eqn:L; [|reflexivity]. rewrite !app_nil_r, set_dyn_id. reflexivity.
  - cbn [add_loop map ltrace]. unfold cf_iteration.
    replace (match cf_promo c with Some f => f (i + cf_iters c + 1) (pa ps) (pb ps)
             | None => default_promo (cf_avoid_zero_b c) (i + cf_iters c + 1) (pa ps) (pb ps) end)
      with (promo_of c ps (i + cf_iters c + 1)) by reflexivity.
    destruct (promo_of c ps (i + cf_iters c + 1)) as [[ai bi]|e].
    2:{ cbn. destruct (cf_logging c); [|reflexivity]. rewrite !app_nil_r, set_dyn_id. reflexivity. }
    cbn [bind]. destruct m as [[p p'] [q q']]. cbn [fst snd].
    set (m' := ((p * ai + p' * bi, p), (q * ai + q' * bi, q)) : mat).
    change (mstep (p, p', (q, q')) (ai, bi)) with m'.
    destruct (cf_logging c) eqn:L.
    + rewrite IH. cbn [cf_logging set_dyn cf_log cf_iters cf_mats]. rewrite L.
      assert (P : promo_of (set_dyn c (cf_log c ++ [with_res rd ps m']) (cf_iters c) (cf_mats c ++ [m'])) (with_res rd ps m') = promo_of c ps) by reflexivity.
      change {| pa := pa ps; pb := pb ps; pres := pq_value rd (p * ai + p' * bi) (q * ai + q' * bi) |} with (with_res rd ps m').
      rewrite P. clear P.
      destruct (ltrace (promo_of c ps) (map (fun i0 : Z => i0 + cf_iters c + 1) idx) m') as [t o].
      cbn [map].
      assert (W : map (with_res rd (with_res rd ps m')) t = map (with_res rd ps) t) by (apply map_ext; reflexivity).
      rewrite W. rewrite <- !app_assoc. cbn [app].
      assert (Q1 : (with_res rd ps m' :: map (with_res rd ps) t) = [with_res rd ps m'] ++ map (with_res rd ps) t) by reflexivity.
      f_equal. destruct o; [reflexivity|]. f_equal. f_equal.
      * change (with_res rd ps m' :: map (with_res rd ps) t) with ([with_res rd ps m'] ++ map (with_res rd ps) t). now rewrite last_app_or.
      * change (m' :: t) with ([m'] ++ t). now rewrite last_app_or.
    + rewrite IH. rewrite L.
      destruct (ltrace (promo_of c ps) (map (fun i0 : Z => i0 + cf_iters c + 1) idx) m') as [t o].
      f_equal. destruct o; [reflexivity|]. f_equal. f_equal.
      change (m' :: t) with ([m'] ++ t). now rewrite last_app_or.
Qed.

Lemma map_shift_zrange k n : map (fun i => i + k + 1) (zrange 0 n) = zrange (k + 1) (k + 1 + n).
Proof.
  unfold zrange. replace (k + 1 + n - (k + 1)) with (n - 0) by lia.
  rewrite map_map. apply map_ext. intros; lia.
Qed.

(** closed form of add_iterations *)
Lemma cf_add_spec rd n fin c :
  cf_add rd n fin c =
  let ps := last (cf_log c) (cf_params c) in
  let m := last (cf_mats c) (cf_first c) in
  let '(t, o) := ltrace (promo_of c ps) (zrange (cf_iters c + 1) (cf_iters c + 1 + n)) m in
  let pss := map (with_res rd ps) t in
  match o with
  | Some e => (if cf_logging c then set_dyn c (cf_log c ++ pss) (cf_iters c) (cf_mats c ++ t) else c, Raise e)
  | None => (if cf_logging c then set_dyn c (cf_log c ++ pss) (cf_iters c + n) (cf_mats c ++ t)
             else set_dyn c [if fin then with_res rd ps (last t m) else ps] (cf_iters c + n) [last t m], Ok tt)
  end.
Proof.
  unfold cf_add. rewrite add_loop_spec, map_shift_zrange.
  destruct (ltrace _ _ _) as [t o]. cbn zeta. destruct o as [e|]; [reflexivity|].
  destruct (cf_logging c) eqn:L.
  - cbn [cf_finalize]. destruct fin; cbn [set_dyn cf_logging cf_log cf_iters cf_mats]; rewrite L; reflexivity.
  - destruct fin; cbn [cf_finalize]; rewrite L; reflexivity.
Qed.

(** ---- static part of an object ---- *)
Definition same_static (c c' : contfrac) : Prop :=
  c' = set_dyn c (cf_log c') (cf_iters c') (cf_mats c').

Lemma same_static_refl c : same_static c c.
Proof. unfold same_static. now rewrite set_dyn_id. Qed.

Lemma same_static_trans c1 c2 c3 : same_static c1 c2 -> same_static c2 c3 -> same_static c1 c3.
Proof. unfold same_static. intros H1 H2. rewrite H2. cbn. rewrite H1. reflexivity. Qed.

Lemma same_static_set c l i m : same_static c (set_dyn c l i m).
Proof. reflexivity. Qed.

Lemma same_static_proj c c' : same_static c c' ->
  cf_params c' = cf_params c /\ cf_promo c' = cf_promo c /\ cf_first c' = cf_first c /\
  cf_avoid_zero_b c' = cf_avoid_zero_b c /\ cf_target c' = cf_target c /\ cf_logging c' = cf_logging c.
Proof. intros H. rewrite H. cbn. auto 10. Qed.

Lemma cf_add_static rd n fin c : same_static c (fst (cf_add rd n fin c)).
Proof.
  rewrite cf_add_spec. cbn zeta. destruct (ltrace _ _ _) as [t [e|]]; cbn [fst]; destruct (cf_logging c);
  try apply same_static_set; apply same_static_refl.
Qed.

Lemma cf_gen0_static rd n fin c : same_static c (fst (cf_gen0 rd n fin c)).
Proof.
  unfold cf_gen0. eapply same_static_trans; [|apply cf_add_static]. unfold cf_reset. apply same_static_set.
Qed.

Lemma cf_do_static rd o c : same_static c (fst (cf_do rd o c)).
Proof. destruct o; [apply cf_gen0_static|apply cf_add_static]. Qed.

Lemma cf_run_static rd os c : same_static c (fst (cf_run rd os c)).
Proof.
  revert c. induction os as [|o os IH]; intros c; [apply same_static_refl|].
  cbn [cf_run]. pose proof (cf_do_static rd o c) as S. destruct (cf_do rd o c) as [c1 [[]|e]]; cbn [fst] in *.
  - eapply same_static_trans; [exact S|apply IH].
  - exact S.
Qed.

Lemma cf_reset_static c c' : same_static c c' -> cf_reset c' = cf_reset c.
Proof. intros H. rewrite H. reflexivity. Qed.

Lemma cf_gen0_static_eq rd n fin c c' : same_static c c' -> cf_gen0 rd n fin c' = cf_gen0 rd n fin c.
Proof. intros H. unfold cf_gen0. now rewrite (cf_reset_static c c' H). Qed.

(** ---- composition of traces ---- *)
Lemma ltrace_app f is1 is2 m :
  ltrace f (is1 ++ is2) m =
  let '(t1, o1) := ltrace f is1 m in
  match o1 with
  | Some e => (t1, Some e)
  | None => let '(t2, o2) := ltrace f is2 (last t1 m) in (t1 ++ t2, o2)
  end.
Proof.
  revert m. induction is1 as [|i is1 IH]; intros m.
  - cbn. destruct (ltrace f is2 m). reflexivity.
  - cbn [app ltrace]. destruct (f i) as [ab|e]; [|reflexivity].
    rewrite IH. destruct (ltrace f is1 (mstep m ab)) as [t1 [e|]]; [reflexivity|].
    replace (last (mstep m ab :: t1) m) with (last t1 (mstep m ab)).
    2:{ change (mstep m ab :: t1) with ([mstep m ab] ++ t1). now rewrite last_app_or. }
    destruct (ltrace f is2 (last t1 (mstep m ab))). reflexivity.
Qed.

Definition wf (c : contfrac) : Prop := cf_log c <> [] /\ cf_mats c <> [].

(** adding n then m iterations = adding n + m, for non-negative n, m *)
Lemma cf_add_add rd n m f1 f2 c : 0 <= n -> 0 <= m ->
  match cf_add rd n f1 c with
  | (c1, Ok _) => match cf_add rd m f2 c1 with
                  | (c2, Ok _) => exists c3, cf_add rd (n + m) f2 c = (c3, Ok tt) /\
                       cf_iters c3 = cf_iters c2 /\ cf_mats c3 = cf_mats c2 /\ same_static c2 c3 /\
                       (f2 = true \/ f1 = false \/ cf_logging c = true -> c3 = c2)
                  | (c2, Raise e) => exists c3, cf_add rd (n + m) f2 c = (c3, Raise e) /\ (cf_logging c = true -> set_dyn c3 (cf_log c3) (cf_iters c2) (cf_mats c3) = c2)
                  end
  | (c1, Raise e) => cf_add rd (n + m) f2 c = (c1, Raise e)
  end.
Proof.
  intros Hn Hm. rewrite !(cf_add_spec rd n), (cf_add_spec rd (n + m)). cbn zeta.
  set (ps := last (cf_log c) (cf_params c)). set (m0 := last (cf_mats c) (cf_first c)). set (k := cf_iters c).
  assert (R : zrange (k + 1) (k + 1 + (n + m)) = zrange (k + 1) (k + 1 + n) ++ zrange (k + n + 1) (k + n + 1 + m)).
  { replace (k + n + 1) with (k + 1 + n) by lia. replace (k + 1 + (n + m)) with (k + 1 + n + m) by lia. apply zrange_app. lia. }
  rewrite R, ltrace_app.
  destruct (ltrace (promo_of c ps) (zrange (k + 1) (k + 1 + n)) m0) as [t1 [e|]] eqn:E1.
  - reflexivity.
  - destruct (cf_logging c) eqn:L.
    + rewrite (cf_add_spec rd m). cbn zeta. cbn [set_dyn cf_log cf_iters cf_mats cf_params cf_first cf_logging].
      rewrite L.
      assert (Eps : last (cf_log c ++ map (with_res rd ps) t1) (cf_params c) = last (map (with_res rd ps) t1) ps) by (now rewrite last_app_or).
      assert (Em : last (cf_mats c ++ t1) (cf_first c) = last t1 m0) by (now rewrite last_app_or).
      rewrite Eps, Em.
      assert (P : promo_of (set_dyn c (cf_log c ++ map (with_res rd ps) t1) (cf_iters c + n) (cf_mats c ++ t1)) (last (map (with_res rd ps) t1) ps) = promo_of c ps).
      { unfold promo_of. cbn. assert (X : pa (last (map (with_res rd ps) t1) ps) = pa ps /\ pb (last (map (with_res rd ps) t1) ps) = pb ps).
        { destruct t1 as [|x t1]; [split; reflexivity|]. rewrite (last_default _ ps (with_res rd ps x)) by discriminate.
          rewrite last_map. split; reflexivity. }
        destruct X as [-> ->]. reflexivity. }
      fold k. fold k in P. change (set_dyn c (cf_log c ++ map (with_res rd ps) t1) (k + n) (cf_mats c ++ t1)) with (set_dyn c (cf_log c ++ map (with_res rd ps) t1) (k + n) (cf_mats c ++ t1)) in P.
      rewrite P.
      assert (W : forall t, map (with_res rd (last (map (with_res rd ps) t1) ps)) t = map (with_res rd ps) t).
      { intros t. apply map_ext. intros x. unfold with_res. f_equal.
        - destruct t1 as [|y t1]; [reflexivity|]. rewrite (last_default _ ps (with_res rd ps y)) by discriminate. now rewrite last_map.
        - destruct t1 as [|y t1]; [reflexivity|]. rewrite (last_default _ ps (with_res rd ps y)) by discriminate. now rewrite last_map. }
      destruct (ltrace (promo_of c ps) (zrange (k + n + 1) (k + n + 1 + m)) (last t1 m0)) as [t2 [e|]].
      * eexists. split; [reflexivity|]. intros _. cbn. rewrite W, map_app, <- !app_assoc. reflexivity.
      * eexists. split; [reflexivity|]. cbn. rewrite W, map_app, <- !app_assoc. replace (k + n + m) with (k + (n + m)) by lia.
        repeat split.
    + rewrite (cf_add_spec rd m). cbn zeta. cbn [set_dyn cf_log cf_iters cf_mats cf_params cf_first cf_logging last].
      rewrite L. fold k.
      set (ps' := if f1 then with_res rd ps (last t1 m0) else ps).
      assert (P : promo_of (set_dyn c [ps'] (k + n) [last t1 m0]) ps' = promo_of c ps).
      { unfold promo_of, ps'. cbn. destruct f1; reflexivity. }
      rewrite P.
      destruct (ltrace (promo_of c ps) (zrange (k + n + 1) (k + n + 1 + m)) (last t1 m0)) as [t2 [e|]].
      * eexists. split; [reflexivity|]. discriminate.
      * eexists. split; [reflexivity|].
        assert (Lt : last (t1 ++ t2) m0 = last t2 (last t1 m0)) by apply last_app_or.
        rewrite Lt. replace (k + n + m) with (k + (n + m)) by lia.
        cbn. split; [reflexivity|]. split; [reflexivity|]. split; [reflexivity|].
        intros [F|[F|F]]; [| |discriminate].
        -- subst f2. unfold ps'. destruct f1; reflexivity.
        -- subst f1. unfold ps'. reflexivity.
Qed.

(** ---- the default generator ---- *)
Definition bad_index (av : bool) (b : coeffs) (i : Z) : bool := av && (icoef b i =? 0) && (i >? 0).

Lemma ltrace_default av a b is m : a <> [] -> b <> [] ->
  match find (bad_index av b) is with
  | Some i => exists t, ltrace (fun i => default_promo av i a b) is m = (t, Some (ZeroB i))
  | None => exists t, ltrace (fun i => default_promo av i a b) is m = (t, None) /\
              last t m = fold_left mstep (icoefs a b is) m /\ length t = length is
  end.
Proof.
  intros Na Nb. revert m. induction is as [|i is IH]; intros m.
  - cbn. exists []. auto.
  - cbn [find ltrace]. rewrite default_promo_ok by assumption. fold (bad_index av b i).
    destruct (bad_index av b i).
    + exists []. reflexivity.
    + specialize (IH (mstep m (icoef a i, icoef b i))).
      destruct (find (bad_index av b) is) as [j|].
      * destruct IH as [t E]. rewrite E. eexists. reflexivity.
      * destruct IH as (t & E & Lt & Len). rewrite E. eexists. split; [reflexivity|].
        cbn [icoefs map fold_left length]. split; [|lia].
        change (mstep m (icoef a i, icoef b i) :: t) with ([mstep m (icoef a i, icoef b i)] ++ t).
        rewrite last_app_or. exact Lt.
Qed.

(** trace of matrices = running products *)
Lemma ltrace_default_nth av a b is m t : a <> [] -> b <> [] ->
  ltrace (fun i => default_promo av i a b) is m = (t, None) ->
  t = map (fun k => fold_left mstep (icoefs a b (firstn (S k) is)) m) (seq 0 (length is)).
Proof.
  intros Na Nb. revert m t. induction is as [|i is IH]; intros m t E.
  - cbn in E. now injection E as <-.
  - cbn [ltrace] in E. rewrite default_promo_ok in E by assumption.
    destruct (av && (icoef b i =? 0) && (i >? 0)); [discriminate|].
    destruct (ltrace _ is (mstep m (icoef a i, icoef b i))) as [t' o] eqn:E'. injection E as <- ->.
    apply IH in E'. cbn [length seq map]. cbn [firstn icoefs map fold_left]. f_equal.
    rewrite E', <- seq_shift, map_map. apply map_ext. intros k. reflexivity.
Qed.

(** ---- continuants ---- *)
Lemma msteps_fst l p p' q q' :
  fst (fst (fold_left mstep l ((p, p'), (q, q')))) = p * fst (cont_xy l) + p' * snd (cont_xy l) /\
  fst (snd (fold_left mstep l ((p, p'), (q, q')))) = q * fst (cont_xy l) + q' * snd (cont_xy l).
Proof.
  revert p p' q q'. induction l as [|[a b] l IH]; intros p p' q q'.
  - cbn. lia.
  - cbn [fold_left mstep fst snd cont_xy].
    destruct (IH (p * a + p' * b) p (q * a + q' * b) q) as [E1 E2]. rewrite E1, E2.
    destruct (cont_xy l) as [x y]. cbn [fst snd]. split; ring.
Qed.

Lemma msteps_contPQ a0 l :
  fst (fst (fold_left mstep l ((a0, 1), (1, 0)))) = contP a0 l /\
  fst (snd (fold_left mstep l ((a0, 1), (1, 0)))) = contQ l.
Proof. destruct (msteps_fst l a0 1 1 0) as [E1 E2]. unfold contP, contQ. rewrite E1, E2. split; ring. Qed.

Lemma msteps_snd l ab m :
  snd (fst (fold_left mstep (l ++ [ab]) m)) = fst (fst (fold_left mstep l m)) /\
  snd (snd (fold_left mstep (l ++ [ab]) m)) = fst (snd (fold_left mstep l m)).
Proof.
  rewrite fold_left_app. cbn [fold_left]. destruct (fold_left mstep l m) as [[p p'] [q q']]. cbn. auto.
Qed.

Lemma msteps_det l m :
  let d (m : mat) := fst (fst m) * snd (snd m) - snd (fst m) * fst (snd m) in
  d (fold_left mstep l m) = prodZ (map (fun ab => - snd ab) l) * d m.
Proof.
  cbn zeta. revert m. induction l as [|[a b] l IH]; intros m; cbn [fold_left map prodZ fold_right].
  - lia.
  - rewrite IH. destruct m as [[p p'] [q q']]. cbn. fold (prodZ (map (fun ab : Z * Z => - snd ab) l)). ring.
Qed.

Lemma nested_cont a0 l v : nested (inject_Z a0) (toQ l) = Some v ->
  contQ l <> 0 /\ (v == inject_Z (contP a0 l) / inject_Z (contQ l))%Q.
Proof.
  revert a0 v. induction l as [|[a b] l IH]; intros a0 v H.
  - cbn in H. injection H as <-. unfold contP, contQ. cbn [cont_xy fst snd]. split; [lia|].
    rewrite Z.mul_1_r, Z.add_0_r. change (inject_Z 1) with 1%Q. field.
  - cbn [toQ map nested] in H. fold (toQ l) in H.
    destruct (nested (inject_Z a) (toQ l)) as [t|] eqn:E; [|discriminate].
    destruct (Qeq_bool t 0) eqn:Z0; [discriminate|]. injection H as <-.
    apply Qeq_bool_neq in Z0. destruct (IH a t E) as [Nq Et].
    unfold contP, contQ in *. cbn [cont_xy]. destruct (cont_xy l) as [x y]. cbn [fst snd] in *.
    assert (Nx : ~ (inject_Z x == 0)%Q) by (intros G; apply Nq; unfold Qeq in G; cbn in G; lia).
    assert (Nt : ~ (inject_Z (a * x + y) == 0)%Q).
    { intros G. apply Z0. rewrite Et, G. field. assumption. }
    split.
    + intros G. apply Nt. rewrite G. reflexivity.
    + rewrite Et. rewrite !inject_Z_plus, !inject_Z_mult in *. rewrite inject_Z_plus, inject_Z_mult. field. auto.
Qed.

(** ---- rounding of the final division ---- *)
Definition rd_ok (rd : Q -> Q) : Prop :=
  (forall x y, (x == y)%Q -> rd x = rd y) /\ (forall x, rd (- x)%Q = Qopp (rd x)) /\
  (forall x, (rd x == 0)%Q <-> (x == 0)%Q).

Lemma rnd_rd_ok p : 1 <= p -> rd_ok (rnd p).
Proof.
  intros Hp. split; [|split].
  - intros x y. apply rnd_Qeq.
  - apply rnd_opp.
  - intros x. now apply rnd_zero_iff.
Qed.

Lemma Qred_rd_ok : rd_ok Qred.
Proof.
  split; [|split].
  - intros x y. apply Qred_complete.
  - intros x. apply Qred_opp.
  - intros x. rewrite Qred_correct. reflexivity.
Qed.

Lemma inject_Z_zero z : (inject_Z z == 0)%Q <-> z = 0.
Proof. unfold Qeq. cbn. lia. Qed.

Lemma pq_value_nan rd p q : rd_ok rd -> pq_value rd p q = NaN <-> q = 0.
Proof.
  intros (H1 & H2 & H3). unfold pq_value.
  destruct (Qeq_bool (rd (inject_Z q)) 0) eqn:E.
  - apply Qeq_bool_iff in E. rewrite H3, inject_Z_zero in E. tauto.
  - apply Qeq_bool_neq in E. rewrite H3, inject_Z_zero in E. split; [discriminate|contradiction].
Qed.

Lemma Qabs_div x y : ~ (y == 0)%Q -> (Qabs (x / y) == Qabs x / Qabs y)%Q.
Proof.
  intros N.
  assert (Na : ~ (Qabs y == 0)%Q).
  { intros G. apply N. destruct (Qlt_le_dec y 0) as [L|L].
    - rewrite Qabs_neg in G by lra. lra.
    - rewrite Qabs_pos in G by lra. lra. }
  assert (E : (Qabs (x / y) * Qabs y == Qabs x)%Q).
  { rewrite <- Qabs_Qmult. apply Qabs_wd. field. assumption. }
  rewrite <- E. field. assumption.
Qed.

Lemma approx_div e p q p' q' : (0 <= e)%Q -> (e <= 1 # 8)%Q -> ~ (q == 0)%Q ->
  approx p' p e -> approx q' q e ->
  ~ (q' == 0)%Q /\ (Qabs (p' / q' - p / q) <= (5#2) * e * Qabs (p / q))%Q.
Proof.
  unfold approx. intros He He8 Nq Hp Hq.
  assert (Aq : (0 < Qabs q)%Q).
  { destruct (Qlt_le_dec q 0) as [L|L].
    - rewrite Qabs_neg by lra. lra.
    - rewrite Qabs_pos by lra. assert (0 < q \/ 0 == q)%Q as [G|G] by (apply Qle_lteq; assumption); [assumption|]. exfalso. apply Nq. now symmetry. }
  assert (Bq : ((7#8) * Qabs q <= Qabs q')%Q).
  { pose proof (Qabs_triangle_reverse q q') as T. rewrite Qabs_Qminus in T.
    assert (e * Qabs q <= (1#8) * Qabs q)%Q by (apply Qmult_le_r; assumption). lra. }
  assert (Nq' : ~ (q' == 0)%Q).
  { intros G. rewrite G in Bq. cbn in Bq. lra. }
  split; [assumption|].
  assert (E : (p' / q' - p / q == ((p' - p) * q - p * (q' - q)) / (q' * q))%Q) by (field; auto).
  rewrite E, Qabs_div by (intros G; apply Qmult_integral in G as [G|G]; contradiction).
  rewrite !Qabs_div by assumption. rewrite Qabs_Qmult.
  assert (Np : (Qabs ((p' - p) * q - p * (q' - q)) <= 2 * e * Qabs p * Qabs q)%Q).
  { eapply Qle_trans; [apply Qabs_triangle|]. rewrite Qabs_opp, !Qabs_Qmult.
    assert (Qabs (p' - p) * Qabs q <= e * Qabs p * Qabs q)%Q by (apply Qmult_le_r; assumption).
    assert (Qabs p * Qabs (q' - q) <= Qabs p * (e * Qabs q))%Q.
    { apply Qmult_le_compat_nonneg; split; try apply Qabs_nonneg; try apply Qle_refl; assumption. }
    lra. }
  apply Qle_shift_div_r.
  { apply Qmult_lt_0_compat; [|assumption]. lra. }
  eapply Qle_trans; [exact Np|].
  setoid_replace ((5#2) * e * (Qabs p / Qabs q) * (Qabs q' * Qabs q))%Q with ((5#2) * e * Qabs p * Qabs q')%Q by (field; lra).
  assert (0 <= e * Qabs p)%Q by (apply Qmult_le_0_compat; [assumption|apply Qabs_nonneg]).
  assert (e * Qabs p * ((7#8) * Qabs q) <= e * Qabs p * Qabs q')%Q.
  { apply Qmult_le_compat_nonneg; split; try apply Qle_refl; try assumption.
    apply Qmult_le_0_compat; [discriminate|]. lra. }
  setoid_replace (2 * e * Qabs p * Qabs q)%Q with ((16#7) * (e * Qabs p * ((7#8) * Qabs q)))%Q by ring.
  setoid_replace ((5#2) * e * Qabs p * Qabs q')%Q with ((5#2) * (e * Qabs p * Qabs q'))%Q by ring.
  assert (0 <= e * Qabs p * ((7#8) * Qabs q))%Q by (apply Qmult_le_0_compat; [assumption|]; lra).
  lra.
Qed.

Lemma pq_value_err prec p q : 3 <= prec -> q <> 0 ->
  exists r, pq_value (rnd prec) p q = Fin r /\ approx r (inject_Z p / inject_Z q) (4 * two_p (- prec)).
Proof.
  intros Hp Nq. set (e := two_p (- prec)).
  assert (He : (0 <= e)%Q) by (apply Qlt_le_weak, two_p_pos).
  assert (He8 : (e <= 1 # 8)%Q) by (unfold e; change (1#8)%Q with (two_p (-3)); apply two_p_le; lia).
  assert (NQ : ~ (inject_Z q == 0)%Q) by (now rewrite inject_Z_zero).
  destruct (approx_div e (inject_Z p) (inject_Z q) (rnd prec (inject_Z p)) (rnd prec (inject_Z q)) He He8 NQ) as [N1 B].
  { apply rnd_err. } { apply rnd_err. }
  unfold pq_value. destruct (Qeq_bool (rnd prec (inject_Z q)) 0) eqn:E; [apply Qeq_bool_iff in E; contradiction|].
  eexists. split; [reflexivity|]. unfold approx, rdiv.
  set (v := (inject_Z p / inject_Z q)%Q) in *. set (w := (rnd prec (inject_Z p) / rnd prec (inject_Z q))%Q) in *.
  pose proof (rnd_err prec w) as E2. fold e in E2.
  assert (W : (Qabs w <= (1 + (5#2) * e) * Qabs v)%Q).
  { pose proof (Qabs_triangle_reverse w v). lra. }
  setoid_replace (rnd prec w - v)%Q with ((rnd prec w - w) + (w - v))%Q by ring.
  eapply Qle_trans; [apply Qabs_triangle|].
  assert (e * Qabs w <= e * ((1 + (5#2) * e) * Qabs v))%Q.
  { apply Qmult_le_compat_nonneg; split; try apply Qle_refl; try apply Qabs_nonneg; assumption. }
  assert (0 <= e * Qabs v)%Q by (apply Qmult_le_0_compat; [assumption|apply Qabs_nonneg]).
  assert (e * (e * Qabs v) <= (1#8) * (e * Qabs v))%Q.
  { apply Qmult_le_compat_nonneg; split; try apply Qle_refl; assumption. }
  setoid_replace (e * ((1 + (5#2) * e) * Qabs v))%Q with (e * Qabs v + (5#2) * (e * (e * Qabs v)))%Q in H by ring.
  lra.
Qed.

(** Properties of whole searches: what is reported, and what is not. *)
From Coq Require Import Ascii String ZArith QArith List Bool Lia Permutation.
From Verif Require Import PyBase PyBase_Proofs Rnd ContFrac_Model Hashtable_Model Hashtable_Proofs ULCD_Model Rational_Model MITM_Model Results_Model
  Config_Model Consts_Model Main_Model Spec_MITM MITM_Build MITM_Build2 MITM_Clicks MITM_Filters MITM_Inst Spec_Main Main_Proofs Spec_Search.
From Verif Require Import Properties_MITM2 Properties_Main.
From Verif Require Properties_MITM Properties_Legacy Enum_Roots Properties_ULCD Properties_Config Properties_Results.
Import ListNotations.
Local Open Scope Z_scope.
Local Open Scope list_scope.

(** ---- selections one after the other ---- *)
Lemma selects_comp {A B C} (k1 : A -> B -> Prop) d1 (k2 : B -> C -> Prop) d2 l m r : selects k1 d1 l m -> selects k2 d2 m r ->
  selects (fun a c => exists b, k1 a b /\ k2 b c) (fun a => d1 a \/ exists b, k1 a b /\ d2 b) l r.
Proof.
  intros H. revert r. induction H as [|a b l m K H IH|a l m D H IH]; intros r H2.
  - inversion H2. constructor.
  - inversion H2 as [|b' c m' r' K2 H2'|b' m' r' D2 H2']; subst.
    + apply sel_keep; eauto.
    + apply sel_drop; eauto.
  - apply sel_drop; eauto.
Qed.
Lemma selects_from {A B} (k : A -> B -> Prop) d l r : selects k d l r -> forall b, In b r -> exists a, In a l /\ k a b.
Proof. intros H. induction H; cbn; intros x I; [destruct I| |]; [destruct I as [<-|I]; [eauto|]|]; destruct (IHselects x I) as (y & Y & K); eauto. Qed.
(** The duplicate filter as a selection. *)
Lemma picks_sel {A} (P : A -> Prop) fs l : length fs = length l -> (forall k c, nth_error l k = Some c -> nth_error fs k = Some false -> P c) ->
  selects (fun c c' => c' = c) P l (picks fs l).
Proof.
  revert fs. induction l as [|c l IH]; intros [|f fs] L H; try discriminate; [constructor|]. cbn [picks].
  destruct f; [apply sel_keep; [reflexivity|]|apply sel_drop; [apply (H 0%nat); reflexivity|]]; (apply IH; [now injection L|intros k; apply (H (S k))]).
Qed.
Lemma picks_from {A} (l : list A) fs j u : nth_error fs j = Some true -> nth_error l j = Some u -> In u (picks fs l).
Proof.
  revert fs j. induction l as [|a l IH]; intros fs j H1 H2; destruct j as [|j]; cbn in H2; try discriminate.
  - inversion H2; subst. destruct fs as [|[] fs]; cbn in H1; try discriminate. now left.
  - destruct fs as [|[] fs]; cbn in H1; try discriminate; cbn; [right|]; eauto.
Qed.
Lemma uniq_sel rd cs us : filter_uniq (ulcd_class rd) cs = (us, Ok tt) ->
  selects (fun c c' => c' = c) (fun c => exists u, In u cs /\ equiv_answer (ulcd_class rd) u c = Ok true) cs us /\
  ForallOrdPairs (fun u c => equiv_answer (ulcd_class rd) u c = Ok false) us.
Proof.
  intros H. destruct (ulcd_uniq_spec rd cs us H) as ((fs & (L & F) & ->) & P & _). split; [|exact P].
  apply picks_sel; [exact L|]. intros k c N NF. destruct (F k c N) as [(T & _)|(_ & j & u & _ & _ & U & E)]; [congruence|].
  exists u. split; [eapply nth_error_In; eauto|exact E].
Qed.
Lemma pairs_sel {A} (R : A -> A -> Prop) (D : A -> Prop) (K : A -> A -> Prop) l r : (forall a b, K a b -> b = a) ->
  selects K D l r -> ForallOrdPairs R l -> ForallOrdPairs R r.
Proof.
  intros KE H. induction H as [|a b l r K1 H IH|a l r D1 H IH]; intros P; [constructor| |]; inversion P as [|x y F P2 E]; subst; [|auto].
  apply KE in K1. subst b. constructor; [|auto]. apply Forall_forall. intros x I. destruct (selects_from _ _ _ _ H x I) as (y & Y & E).
  apply KE in E. subst x. rewrite Forall_forall in F. auto.
Qed.

(** The stages of a search, one by one. *)
Lemma seq_five {O} (f1 f2 f3 f4 f5 : list (click O) -> list (click O) * res unit) cs r : seq_steps [f1; f2; f3; f4; f5] cs = (r, Ok tt) ->
  exists c1 c2 c3 c4, f1 cs = (c1, Ok tt) /\ f2 c1 = (c2, Ok tt) /\ f3 c2 = (c3, Ok tt) /\ f4 c3 = (c4, Ok tt) /\ f5 c4 = (r, Ok tt).
Proof.
  unfold seq_steps. cbn [fold_left]. intros H.
  destruct (f1 cs) as [c1 [[]|e]]; [|discriminate]. destruct (f2 c1) as [c2 [[]|e]] eqn:E2; [|discriminate].
  destruct (f3 c2) as [c3 [[]|e]] eqn:E3; [|discriminate]. destruct (f4 c3) as [c4 [[]|e]] eqn:E4; [|discriminate]. exists c1, c2, c3, c4. auto.
Qed.
Lemma seq_four {O} (f1 f2 f3 f4 : list (click O) -> list (click O) * res unit) cs r : seq_steps [f1; f2; f3; f4] cs = (r, Ok tt) ->
  exists c1 c2 c3, f1 cs = (c1, Ok tt) /\ f2 c1 = (c2, Ok tt) /\ f3 c2 = (c3, Ok tt) /\ f4 c3 = (r, Ok tt).
Proof.
  unfold seq_steps. cbn [fold_left]. intros H.
  destruct (f1 cs) as [c1 [[]|e]]; [|discriminate]. destruct (f2 c1) as [c2 [[]|e]] eqn:E2; [|discriminate].
  destruct (f3 c2) as [c3 [[]|e]] eqn:E3; [|discriminate]. exists c1, c2, c3. auto.
Qed.
Lemma selects_map {A B} (k k' : A -> B -> Prop) (d d' : A -> Prop) l r : (forall a b, k a b -> k' a b) -> (forall a, d a -> d' a) ->
  selects k d l r -> selects k' d' l r.
Proof. intros HK HD H. induction H; [constructor|apply sel_keep|apply sel_drop]; auto. Qed.

(** ---- only the user interrupts ---- *)
Lemma calm_bind {A B} (r : res A) (f : A -> res B) : calm r -> (forall a, calm (f a)) -> calm (bind r f).
Proof. unfold calm. destruct r as [a|e]; cbn [bind]; intros H F; [apply F|]. intros [= ->]. now apply H. Qed.
Ltac calm0 := solve [intros HK; discriminate HK].
Lemma calm_nth {A} (l : list A) i : calm (py_nth l i).
Proof. unfold calm, py_nth. repeat match goal with |- context [if ?b then _ else _] => destruct b | |- context [match ?b with Some _ => _ | None => _ end] => destruct b end; calm0. Qed.
Lemma calm_norm a : calm (norm_coeffs a).
Proof. unfold calm, norm_coeffs. destruct a as [[|]|[|]]; try calm0; repeat match goal with |- context [match ?b with _ => _ end] => destruct b end; calm0. Qed.
Lemma calm_new a b az pr fi tg lo : calm (cf_new a b az pr fi tg lo).
Proof.
  unfold cf_new. apply calm_bind; [apply calm_norm|]. intros a'. apply calm_bind; [apply calm_norm|]. intros b'.
  apply calm_bind; [|intros m; calm0]. destruct fi; [calm0|]. unfold autogen_first. destruct a' as [|[|]]; calm0.
Qed.
Lemma new_promo a b az fi tg lo c : cf_new a b az None fi tg lo = Ok c -> cf_promo c = None.
Proof.
  unfold cf_new. destruct (norm_coeffs a); cbn [bind]; [|discriminate]. destruct (norm_coeffs b); cbn [bind]; [|discriminate].
  destruct fi; [|destruct (autogen_first _); [|discriminate]]; cbn [bind]; now intros [= <-].
Qed.
Lemma calm_coef l i : calm (coef_at l i).
Proof. unfold coef_at. destruct (_ =? 0); [calm0|]. apply calm_bind; [apply calm_nth|]. intros p. calm0. Qed.
Lemma calm_loop rd idx : forall c ps m, cf_promo c = None -> calm (snd (add_loop rd idx c ps m)).
Proof.
  induction idx as [|i r IH]; intros c ps m N; cbn [add_loop]; [calm0|].
  assert (C : calm (cf_iteration rd c ps m (i + cf_iters c))).
  { unfold cf_iteration. apply calm_bind.
    - rewrite N. unfold default_promo. apply calm_bind; [apply calm_coef|]. intros x. apply calm_bind; [apply calm_coef|]. intros y.
      destruct (_ && _); calm0.
    - intros [x y]. destruct m as [[p p'] [q q']]. calm0. }
  destruct (cf_iteration rd c ps m (i + cf_iters c)) as [[ps' m']|e]; [|cbn [snd]; intros [= ->]; now apply C].
  apply IH. destruct (cf_logging c); exact N.
Qed.
Lemma calm_gen0 rd n fin c : cf_promo c = None -> calm (snd (cf_gen0 rd n fin c)).
Proof.
  intros N. unfold cf_gen0, cf_add.
  pose proof (calm_loop rd (zrange 0 n) (cf_reset c) (last (cf_log (cf_reset c)) (cf_params (cf_reset c))) (last (cf_mats (cf_reset c)) (cf_first (cf_reset c))) N) as H.
  destruct (add_loop _ _ _ _ _) as [c1 [[ps1 m1]|e]]; [|cbn [snd] in *; intros [= ->]; now apply H].
  destruct fin; [destruct (cf_finalize rd ps1 m1)|]; calm0.
Qed.
Lemma calm_ev rd req acc target n ab a info : (forall q p, calm (req q p)) -> calm (ev_conv rd req acc target n ab a info).
Proof.
  intros HR. unfold ev_conv. destruct (cf_new _ _ _ _ _ _ _) as [c|e] eqn:E; cbn [bind]; [|intros [= ->]; exact (calm_new _ _ _ _ _ _ _ E)].
  apply new_promo in E. set (c1 := match info with Some (t, p) => set_approach c t p | None => c end).
  assert (N : cf_promo c1 = None) by (unfold c1; destruct info as [[t p]|]; exact E). clearbody c1.
  assert (G : forall k fin, calm (snd (cf_gen0 rd k fin c1))) by (intros; now apply calm_gen0).
  assert (H : calm (snd (cf_gen rd req n (acc a) true c1))).
  { unfold cf_gen. destruct (cf_aparams c1); [apply G| |]; (destruct (_ && _); [|apply G]); [|calm0].
    destruct (req _ _) as [r|e] eqn:ER; [apply G|]. cbn [snd]. intros [= ->]. exact (HR _ _ ER). }
  destruct (cf_gen rd req n (acc a) true c1) as [c2 [[]|e]]; [calm0|]. cbn [snd] in H. intros [= ->]. now apply H.
Qed.
Lemma calm_calc rd x p : calm (ulcd_calc rd x p).
Proof.
  destruct p as [[[u l] c] d]. unfold ulcd_calc.
  assert (D : forall a b, calm (div_r rd a b)) by (intros; unfold div_r; destruct (Qeq_bool _ _); calm0).
  apply calm_bind; [apply D|]. intros t1. apply calm_bind; [apply D|]. intros t2. apply D.
Qed.
Lemma calm_assign rd o p : calm (snd (ulcd_assign rd o p)).
Proof. unfold ulcd_assign. pose proof (calm_calc rd (ul_const o) p) as H. destruct (ulcd_calc rd (ul_const o) p); [calm0|]. cbn [snd]. intros [= ->]. now apply H. Qed.
Lemma calm_refine rd eng funcs trunc ev a (c : click ulcd) : (forall q, calm (eng q)) -> (forall ab a info, calm (ev ab a info)) ->
  (forall f x, In f funcs -> calm (f x)) -> calm (snd (refine_one rd eng (ulcd_class rd) funcs trunc ev a c)).
Proof.
  intros HE HV HF. destruct c as [[[ab o] i] info]. unfold refine_one.
  assert (C1 : calm (let* f := py_nth funcs i in let* v := ev ab a info in f v)).
  { pose proof (calm_nth funcs i) as N. destruct (py_nth funcs i) as [f|e] eqn:E; cbn [bind]; [|intros [= ->]; now apply N].
    apply calm_bind; [apply HV|]. intros v. apply HF. eapply Properties_Legacy.py_nth_In; eauto. }
  destruct (let* f := py_nth funcs i in let* v := ev ab a info in f v) as [s|e].
  2: { destruct e; try calm0. now contradiction C1. }
  cbv zeta. destruct (negb (isnormal (absv s))); [calm0|].
  assert (T : forall v, calm (trunc_int rd trunc v)) by (intros v; unfold trunc_int; destruct trunc; [destruct v|]; calm0).
  assert (EV : forall v, calm (engv eng v)) by (intros [q|]; cbn; [apply HE|calm0]).
  assert (C2 : calm (let* rhs' := trunc_int rd trunc (absv s) in let* lhs' := trunc_int rd trunc (absv (lc_val (ulcd_class rd) o)) in compare_texts eng rhs' lhs' a)).
  { apply calm_bind; [apply T|]. intros x. apply calm_bind; [apply T|]. intros y. unfold compare_texts. apply calm_bind; [apply EV|]. intros t1.
    apply calm_bind; [apply EV|]. intros t2. calm0. }
  destruct (let* rhs' := trunc_int rd trunc (absv s) in let* lhs' := trunc_int rd trunc (absv (lc_val (ulcd_class rd) o)) in compare_texts eng rhs' lhs' a) as [[]|e];
    [|calm0|cbn [snd]; intros [= ->]; now apply C2].
  assert (C3 : calm (snd (if opposite (lc_val (ulcd_class rd) o) s then lc_flip (ulcd_class rd) o else (o, Ok tt)))).
  { destruct (opposite _ _); [|calm0]. cbn [lc_flip ulcd_class]. unfold ulcd_flip_sign. destruct (ul_params o) as [[[u l] c] d]. apply calm_assign. }
  destruct (if opposite (lc_val (ulcd_class rd) o) s then lc_flip (ulcd_class rd) o else (o, Ok tt)) as [o1 [[]|e]]; [|cbn [snd] in *; intros [= ->]; now apply C3].
  destruct (int_diff rd s _) as [n|e] eqn:ED; [|cbn [snd]; intros [= ->]; unfold int_diff in ED; destruct s; [destruct (if opposite _ _ then _ else _)|]; discriminate].
  destruct (lc_add (ulcd_class rd) n o1) as [o2 [[]|e]]; calm0.
Qed.
Lemma calm_round rd eng funcs trunc ev a cs : (forall q, calm (eng q)) -> (forall ab a info, calm (ev ab a info)) ->
  (forall f x, In f funcs -> calm (f x)) -> calm (snd (refine rd eng (ulcd_class rd) funcs trunc ev a cs)).
Proof.
  intros HE HV HF. unfold refine.
  assert (L : calm (snd (refine_loop rd eng (ulcd_class rd) funcs trunc ev a cs))).
  { induction cs as [|c cs IH]; cbn [refine_loop]; [calm0|]. pose proof (calm_refine rd eng funcs trunc ev a c HE HV HF) as H.
    destruct (refine_one _ _ _ _ _ _ _ c) as [c' [b|e]]; [|cbn [snd] in *; intros [= ->]; now apply H].
    destruct (refine_loop _ _ _ _ _ _ _ cs) as [[al kp] x]. exact IH. }
  destruct (refine_loop _ _ _ _ _ _ _ cs) as [[al kp] [[]|e]]; [calm0|]. cbn [snd] in *. intros [= ->]. now apply L.
Qed.
Lemma calm_equiv r1 r2 : calm (ulcd_is_equiv r1 r2).
Proof.
  destruct r1 as [[[pa1 pb1] o1] i1], r2 as [[[pa2 pb2] o2] i2]. unfold ulcd_is_equiv. cbv zeta.
  repeat match goal with |- calm (bind _ _) => apply calm_bind; [|intros ?] | |- calm (if ?b then _ else _) => destruct b | |- calm (let '(_, _) := ?p in _) => destruct p | |- calm (Ok _) => calm0 | |- calm (Raise _) => calm0 end.
Qed.
Lemma calm_uniq rd cs : calm (snd (filter_uniq (ulcd_class rd) cs)).
Proof.
  unfold filter_uniq.
  assert (S : forall us c, calm (snd (uniq_scan (ulcd_class rd) us c))).
  { induction us as [|u us IH]; intros c; cbn [uniq_scan]; [calm0|]. pose proof (calm_equiv (ck3 u) (ck3 c)) as H. cbn [lc_equiv ulcd_class].
    destruct (ulcd_is_equiv (ck3 u) (ck3 c)) as [[]|e]; [calm0| |cbn [snd]; intros [= ->]; now apply H].
    specialize (IH (ck_with c (snd (fst (ck3 c))))). destruct (uniq_scan _ us _) as [[r' c'] x]. exact IH. }
  assert (L : forall us, calm (snd (uniq_loop (ulcd_class rd) us cs))).
  { induction cs as [|c cs IH]; intros us; cbn [uniq_loop]; [calm0|]. specialize (S us c). destruct (uniq_scan _ us c) as [[us' c'] [b|e]]; [apply IH|].
    cbn [snd] in *. intros [= ->]. now apply S. }
  specialize (L []). destruct (uniq_loop _ [] cs) as [us [[]|e]]; [calm0|]. cbn [snd] in *. intros [= ->]. now apply L.
Qed.
Lemma calm_four {O} (f1 f2 f3 f4 : list (click O) -> list (click O) * res unit) cs : (forall l, calm (snd (f1 l))) -> (forall l, calm (snd (f2 l))) ->
  (forall l, calm (snd (f3 l))) -> (forall l, calm (snd (f4 l))) -> calm (snd (seq_steps [f1; f2; f3; f4] cs)).
Proof.
  intros H1 H2 H3 H4. unfold seq_steps. cbn [fold_left]. specialize (H1 cs).
  destruct (f1 cs) as [c1 [[]|e]]; [|exact H1]. specialize (H2 c1).
  destruct (f2 c1) as [c2 [[]|e]]; [|exact H2]. specialize (H3 c2). destruct (f3 c2) as [c3 [[]|e]]; [|exact H3]. apply H4.
Qed.

(** The clicks after the first two comparisons and the filters between them. *)
Lemma two_rounds v rd funcs trunc surp n1 a1 n2 a2 cs0 cs2 : stages_in v rd (ulcd_class rd) funcs trunc surp n1 a1 n2 a2 cs0 = (cs2, Ok tt) ->
  let p1 := pass1 rd (v_eng v) (ulcd_class rd) funcs trunc (ev_const rd n1) a1 in
  let ev2 := ev_conv rd (v_req v) (v_acc10 v) (v_target v) n2 in
  selects (fun a c => exists b, p1 a b /\ exists d, fast rd (v_target v) (v_est v) b d /\ kept rd (v_eng v) (ulcd_class rd) funcs trunc ev2 a2 d c)
    (fun c => (dropped rd (v_eng v) (ulcd_class rd) funcs trunc (ev_const rd n1) a1 c \/ exists b, p1 c b /\ repeated (ulcd_class rd) cs0 p1 b) \/
              exists b, p1 c b /\ (slow rd (v_target v) (v_est v) b \/ exists d, fast rd (v_target v) (v_est v) b d /\ dropped rd (v_eng v) (ulcd_class rd) funcs trunc ev2 a2 d))
    cs0 cs2.
Proof.
  intros HS p1 ev2. unfold stages_in, Main_Model.stages in HS. apply seq_five in HS as (c1 & c2 & c3 & c4 & R1 & U1 & X1 & A1 & R2).
  apply C51_refine in R1, R2. apply uniq_sel in U1 as [U1 _].
  apply C78_filter in X1. apply C54_filter in A1 as [_ A1].
  apply (selects_map _ (fun c c' => c' = c /\ exists cf, fresh_cf (v_target v) c cf /\ snd (cf_is_fast rd 600 200 50 cf) = Ok true)
                     _ (fun c => exists cf, fresh_cf (v_target v) c cf /\ snd (cf_is_fast rd 600 200 50 cf) = Ok false)) in X1.
  2: { auto. }
  2: { intros d (cf1 & (cf & F1 & F2) & _). exists cf. rewrite F2. auto. }
  assert (S1 : selects p1 (fun c => dropped rd (v_eng v) (ulcd_class rd) funcs trunc (ev_const rd n1) a1 c \/ exists b, p1 c b /\ repeated (ulcd_class rd) cs0 p1 b) cs0 c2).
  { eapply selects_map; [..|exact (selects_comp _ _ _ _ _ _ _ R1 U1)].
    - intros a c (b & K & ->). exact K.
    - intros a [D|(b & K & u & I & E)]; [now left|]. right. exists b. split; [exact K|].
      destruct (selects_from _ _ _ _ R1 u I) as (u0 & I0 & K0). exists u0, u. auto. }
  assert (S2 : selects (fast rd (v_target v) (v_est v)) (slow rd (v_target v) (v_est v)) c2 c4).
  { eapply selects_map; [..|exact (selects_comp _ _ _ _ _ _ _ X1 A1)].
    - intros a c (b & (-> & cf & F & T) & cf' & t & p & F' & E & W & ->). assert (cf' = cf) as -> by (unfold fresh_cf in *; congruence).
      exists cf, t, p. repeat split; auto. destruct W as [(_ & r & W & I)|(N & _)]; [|destruct N as (? & ? & N); discriminate].
      injection W as <-. destruct I as [<-|[<-|[]]]; auto.
    - intros a [(cf & F & T)|(b & (-> & cf & F & T) & cf' & F' & D)]; [exists cf; auto|].
      assert (cf' = cf) as -> by (unfold fresh_cf in *; congruence). exists cf. split; [exact F|]. right.
      destruct D as [(e & E & _)|(t & p & E & W)]; [left; eauto|]. right. exists t, p. split; [exact E|].
      split; intros ->; apply W; left; (split; [eexists _, _; reflexivity|]); eexists; (split; [reflexivity|]); cbn; auto. }
  exact (selects_comp _ _ _ _ _ _ _ S1 (selects_comp _ _ _ _ _ _ _ S2 R2)).
Qed.

(** ---- C122: what a search reports ---- *)
(** Every left-hand side and every entry of the table that match are clicks; those that pass the three comparisons (with the iterations and
    digits of the settings), whose fraction converges exponentially or faster and whose numerators have no positive integer roots are reported, in
    order, unless they repeat another one; the others are not. No two reported ones are equivalent. *)
Theorem C122_pipeline : forall v rd funcs trunc surp n1 a1 n2 a2 n3 a3 (cs0 cs2 cs : list (click ulcd)), v_irq v = None ->
  (forall q, calm (v_eng v q)) -> (forall q p, calm (v_req v q p)) -> (forall f x, In f funcs -> calm (f x)) ->
  (forall b re im, In (re, im) (v_roots v b) -> (fl re == re)%Q) ->
  stages_in v rd (ulcd_class rd) funcs trunc surp n1 a1 n2 a2 cs0 = (cs2, Ok tt) ->
  last_in v rd (ulcd_class rd) funcs trunc n3 a3 cs2 = (cs, Ok tt) ->
  let ev k := ev_conv rd (v_req v) (v_acc10 v) (v_target v) k in
  selects (reported rd (v_eng v) (ulcd_class rd) funcs trunc (ev_const rd n1) (ev n2) (ev n3) a1 a2 a3 (v_target v) (v_est v) (v_roots v))
          (missing rd (v_eng v) (ulcd_class rd) funcs trunc (ev_const rd n1) (ev n2) (ev n3) a1 a2 a3 (v_target v) (v_est v) (v_roots v) cs0) cs0 cs /\
  ForallOrdPairs (fun u c => equiv_answer (ulcd_class rd) u c = Ok false) cs.
Proof.
  intros v rd funcs trunc surp n1 a1 n2 a2 n3 a3 cs0 cs2 cs NI CE CR CF RF HS HL ev.
  unfold last_in, Main_Model.last_stage in HL. rewrite NI in HL. unfold Main_Model.last_steps in HL.
  match type of HL with (match ?s with _ => _ end = _) => assert (K : calm (snd s)) end.
  { apply calm_four; [|apply calm_uniq|apply calm_uniq|intros; calm0]. intros l. apply calm_round; auto. intros. now apply calm_ev. }
  assert (HL2 : seq_steps [refine rd (v_eng v) (ulcd_class rd) funcs trunc (ev n3) a3; filter_uniq (ulcd_class rd); filter_uniq (ulcd_class rd);
                           fun cs => (filter_pos_roots (v_roots v) cs, Ok tt)] cs2 = (cs, Ok tt)).
  { subst ev. cbv beta. destruct (seq_steps _ cs2) as [l [[]|e]]; [exact HL|]. cbn [snd] in K. unfold calm in K. destruct e; try discriminate. now contradiction K. }
  clear HL K. apply seq_four in HL2 as (d1 & d2 & d3 & R3 & U2 & U3 & RT).
  apply C51_refine in R3.
  assert (d3 = d2) as -> by (destruct (ulcd_uniq_spec rd d1 d2 U2) as (_ & _ & UU); congruence). clear U3.
  apply uniq_sel in U2 as [U2 P2].
  injection RT as <-. pose proof (C55_filter ulcd (v_roots v) d2 RF) as RT.
  split; [|eapply pairs_sel; [|exact RT|exact P2]; intros a b [E _]; exact E].
  set (p1 := pass1 rd (v_eng v) (ulcd_class rd) funcs trunc (ev_const rd n1) a1).
  set (p2 := pass2 rd (v_eng v) (ulcd_class rd) funcs trunc (ev_const rd n1) (ev n2) a1 a2 (v_target v) (v_est v)).
  set (p3 := pass3 rd (v_eng v) (ulcd_class rd) funcs trunc (ev_const rd n1) (ev n2) (ev n3) a1 a2 a3 (v_target v) (v_est v)).
  pose proof (two_rounds _ _ _ _ _ _ _ _ _ _ _ HS) as S3. fold p1 in S3. cbv zeta in S3.
  pose proof (selects_comp _ _ _ _ _ _ _ S3 R3) as S4.
  pose proof (selects_comp _ _ _ _ _ _ _ S4 (selects_comp _ _ _ _ _ _ _ U2 RT)) as S5.
  assert (T2 : forall a b, (exists x, p1 a x /\ exists y, fast rd (v_target v) (v_est v) x y /\ kept rd (v_eng v) (ulcd_class rd) funcs trunc (ev n2) a2 y b) -> p2 a b).
  { intros a b (x & X & y & Y & Z). exists x, y. auto. }
  eapply selects_map; [..|exact S5].
  - intros a c (b & (d & K2 & K3) & x & -> & -> & NR). split; [exists d; split; [apply T2, K2|exact K3]|exact NR].
  - intros a [[[[D|(b & K & D)]|(b & K & D)]|(b & K & D)]|(b & (x & K & K3) & D)].
    + now left.
    + right. left. exists b. split; [exact K|now left].
    + right. left. exists b. split; [exact K|]. right. destruct D as [D|(d & F & D)]; [now left|]. right. exists d. auto.
    + right. right. left. exists b. split; [apply T2, K|exact D].
    + right. right. right. exists b. split; [exists x; split; [apply T2, K|exact K3]|].
      destruct D as [(u & I & E)|(y & -> & D)]; [left|now right].
      destruct (selects_from _ _ _ _ S4 u I) as (u0 & I0 & z & Z & Z3). exists u0, u. split; [exact I0|]. split; [|exact E].
      exists z. split; [apply T2, Z|exact Z3].
Qed.

Lemma calm_funcs rd sq f x : In f (EVALUATED_POSTPROC_FUNCS (mpf_ops rd sq)) -> calm (f x).
Proof.
  unfold EVALUATED_POSTPROC_FUNCS. intros H. apply in_map_iff in H as (t & <- & _). unfold eval_func. destruct (py_eval t) as [e|]; [|calm0].
  assert (S : forall v, calm (safe_sqrt (mpf_ops rd sq) v)).
  { intros v. unfold safe_sqrt. apply calm_bind; [destruct v; calm0|]. intros []; [calm0|]. destruct v; calm0. }
  induction e as [|n|m|g e IH]; cbn [eval_pexpr].
  - calm0.
  - destruct x; calm0.
  - destruct (text_eqb _ _); [destruct x|]; calm0.
  - apply calm_bind; [exact IH|]. intros y. unfold call_global. destruct (text_eqb g (txt "safe_inverse")); [calm0|].
    destruct (text_eqb g (txt "safe_sqrt")); [apply S|calm0].
Qed.
(** What the files of a finished export say. *)
Lemma export_says {O} v rd (cls : MITM_Model.lhs_class O) lat par funcs c name cs w w' :
  export_in v rd cls lat par funcs c name cs w = (w', Ok tt) -> exists rows es,
  export_to_csv rd funcs (v_target v) (engv (v_eng v)) (lc_val cls) par name cs = Ok (name, rows) /\
  snd (results_as_eqns rd lat funcs (v_target v) POSTPROC_FUNCS_LATEX name POSTPROC_FUNCS true 5 cs) = Ok es /\
  file_at w' (dir_of (v_t2 v) ++ txt "/results.csv") = Some (OCsv (name, rows)) /\
  file_at w' (dir_of (v_t2 v) ++ txt "/results.tex") = Some (OTex es).
Proof.
  intros H. apply export_steps in H. cbv zeta in H.
  destruct H as [(_ & _ & [=])|(N & [(_ & [(e & _ & [=])|(_ & [=])])|(f & F & D & [(_ & e & _ & [=])|(es & E & [(_ & e & _ & [=])|(_ & [(_ & e & _ & [=])|(items & S & -> & _)])])])])].
  assert (NF : exists rows, f = (name, rows)).
  { unfold export_to_csv in F. destruct (mapM _ cs) as [rows|]; cbn [bind] in F; [|discriminate]. injection F as <-. eauto. }
  destruct NF as (rows & ->). exists rows, es. split; [exact F|]. split; [exact E|].
  assert (NE : forall a b : text, a <> b -> dir_of (v_t2 v) ++ a <> dir_of (v_t2 v) ++ b) by (intros a b NE E'; apply app_inv_head in E'; contradiction).
  split; rewrite !file_other by (apply NE; discriminate); apply file_same.
Qed.
(** The parts of a search of the program that uses a table file. *)
Lemma search_parts v c w w' p s b : run_with v c import_ctx w = (w', Some (Ok tt)) -> operation c "use" -> ~ table_only c ->
  table_path c p -> table_at w p = Some s -> table_ok (mi_table (unpickle s)) -> sv_gen s = CPlain b ->
  c_get c "lhs_type" = CLhs (txt "ulcd") ->
  let prec := mp_prec import_ctx in
  let rd := rnd prec in
  let funcs := EVALUATED_POSTPROC_FUNCS (mpf_ops rd (v_sq v)) in
  let trunc := mi_trunc (sv_mitm s) in
  let cls := ulcd_class rd in
  exists y rs n1 a1 n2 a2 n3 a3 os css cs2 cs rows es,
    c_get c "first_filtering_num_of_iterations" = CInt n1 /\ c_get c "first_filtering_precision" = CInt a1 /\
    c_get c "second_filtering_max_num_of_iterations" = CInt n2 /\ c_get c "second_filtering_precision" = CInt a2 /\
    c_get c "third_filtering_max_num_of_iterations" = CInt n3 /\ c_get c "third_filtering_precision" = CInt a3 /\
    b = GConst y /\ as_ulcd (c_get c "lhs_params") = Some rs /\ ulcd_enum rd rs (rd y) = Ok (os, Ok tt) /\
    Forall2 (clicks_of rd (v_eng v) cls trunc (mi_table (unpickle s))) os css /\
    (stages_in v rd cls funcs trunc (truthy (c_get c "print_surprising_nonexp_contfracs")) n1 a1 n2 a2 (List.concat css) = (cs2, Ok tt) /\
     last_in v rd cls funcs trunc n3 a3 cs2 = (cs, Ok tt)) /\
    file_at w' (dir_of (v_t2 v) ++ txt "/results.csv") = Some (OCsv (mi_name (sv_mitm s), rows)) /\
    Forall2 (Properties_Results.right_row prec funcs (engv (v_eng v)) (lc_val cls) (v_upar v)) cs rows /\
    file_at w' (dir_of (v_t2 v) ++ txt "/results.tex") = Some (OTex es) /\
    (Forall (fun c => 0 <= ck_ind c) cs -> exists eqns, es = Properties_Results.somes eqns /\
       Forall2 (Properties_Results.right_eqn (fun o n => (o, Ok (ulcd_latex (ul_params o) n))) funcs (mi_name (sv_mitm s)) true) cs eqns).
Proof.
  intros H OU NT TP TA TOK GB LT prec rd funcs trunc cls. apply run_course in H.
  inversion H as [r0 N E1 E2|i g name m g1 x w1 x1 HI HC HO HX HT|i g name m g1 x w1 x1 w2 r0 HI HC HO HX _ HF]; subst; [congruence|contradiction|].
  rewrite (proj2 (is_use_iff c) OU) in HX. injection HX as <- <-.
  apply obtain_ok in HO. destruct HO as [p' s' _ TP' TA'|p' s' st x OE|st n x OE]; [|pose proof (op_excl _ _ _ OU OE); discriminate|pose proof (op_excl _ _ _ OU OE); discriminate].
  assert (p' = p) as -> by (unfold table_path in *; congruence). assert (s' = s) as -> by congruence. clear TP' TA'.
  unfold fae_in, find_and_export in HF. rewrite LT, GB in HF. cbn [call0 call_gen set_precision tl] in HF.
  destruct b as [y|l|l]; cbn [call_body] in HF; [|discriminate|discriminate]. rewrite text_eqb_refl in HF.
  fold prec rd in HF. destruct (as_ulcd (c_get c "lhs_params")) as [rs|] eqn:EL; [|discriminate].
  unfold search in HF.
  destruct (find_clicks _ _ _ _ _) as [s1 [[]|e]] eqn:F1; [|discriminate].
  destruct (as_int (c_get c "first_filtering_num_of_iterations")) as [n1|] eqn:I1; [|discriminate].
  destruct (as_int (c_get c "first_filtering_precision")) as [a1|] eqn:I2; [|discriminate].
  destruct (as_int (c_get c "second_filtering_max_num_of_iterations")) as [n2|] eqn:I3; [|discriminate].
  destruct (as_int (c_get c "second_filtering_precision")) as [a2|] eqn:I4; [|discriminate].
  destruct (as_int (c_get c "third_filtering_max_num_of_iterations")) as [n3|] eqn:I5; [|discriminate].
  destruct (as_int (c_get c "third_filtering_precision")) as [a3|] eqn:I6; [|discriminate].
  assert (AI : forall x z, as_int x = Some z -> x = CInt z) by (intros [] ?; cbn; congruence).
  apply AI in I1, I2, I3, I4, I5, I6. clear AI.
  fold (@stages_in ulcd v) in HF.
  match type of HF with context [match ?s with _ => _ end] => destruct s as [cs2 [[]|e]] eqn:F2; [|discriminate] end.
  fold (@last_in ulcd v) in HF.
  match type of HF with context [match ?s with _ => _ end] => destruct s as [cs3 [[]|e]] eqn:F3; [|discriminate] end.
  fold (@export_in ulcd v) in HF.
  match type of HF with context [let (_, _) := ?s in _] => destruct s as [w3 r3] eqn:F4 end. injection HF as -> ->.
  apply C50_clicks in F1; [|exact TOK]. destruct F1 as (os & css & EO & HC1 & ->).
  cbn [mi_trunc mi_table mi_target with_target retype refresh with_funcs mi_params with_params mi_name mi_funcs] in *. fold funcs in F2, F3, F4.
  change (mi_trunc (unpickle s)) with trunc in *. change (mi_name (unpickle s)) with (mi_name (sv_mitm s)) in *.
  destruct (export_says _ _ _ _ _ _ _ _ _ _ _ F4) as (rows & es & EC & EQ & FC & FT).
  apply Properties_Results.C81_rows in EC as [_ ROWS]; [|vm_compute; discriminate].
  destruct (results_as_eqns _ _ _ _ _ _ _ _ _ _) as [cs' es'] eqn:EQ'. cbn [snd] in EQ. subst es'.
  exists y, rs, n1, a1, n2, a2, n3, a3, os, css, cs2, cs3, rows, es. do 6 (split; [assumption|]). split; [reflexivity|]. split; [reflexivity|].
  split; [exact EO|]. split; [exact HC1|]. split; [split; [exact F2|exact F3]|]. split; [exact FC|]. split; [exact ROWS|]. split; [exact FT|].
  intros POS. eapply Properties_Results.C80_equations; [apply Properties_Results.C80_functions| |exact EQ'].
  clear - ROWS POS. induction ROWS as [|ck r l rows R _ IH]; constructor; [|apply IH; now inversion POS].
  inversion POS as [|? ? P0 _]; subst. destruct R as (_ & _ & _ & _ & _ & _ & f & x & z & N & _).
  split; [exact P0|]. unfold py_nth in N. match type of N with context [Z.of_nat (length ?l)] => change (Z.of_nat (length l)) with 24 in N end. replace (ck_ind ck <? 0) with false in N by (symmetry; apply Z.ltb_ge; lia).
  destruct ((ck_ind ck <? 0) || (24 <=? ck_ind ck)) eqn:B; [discriminate|]. apply orb_false_iff in B as [_ B]. apply Z.leb_gt in B. exact B.
Qed.
(** The same for a run of the program that uses a table file. *)
Theorem C122_run : forall v c w w' p s b, run_with v c import_ctx w = (w', Some (Ok tt)) -> operation c "use" -> ~ table_only c ->
  table_path c p -> table_at w p = Some s -> table_ok (mi_table (unpickle s)) -> sv_gen s = CPlain b ->
  c_get c "lhs_type" = CLhs (txt "ulcd") -> v_irq v = None ->
  (forall q, calm (v_eng v q)) -> (forall q p, calm (v_req v q p)) ->
  (forall b re im, In (re, im) (v_roots v b) -> (fl re == re)%Q) ->
  let prec := mp_prec import_ctx in
  let rd := rnd prec in
  let funcs := EVALUATED_POSTPROC_FUNCS (mpf_ops rd (v_sq v)) in
  let trunc := mi_trunc (sv_mitm s) in
  let cls := ulcd_class rd in
  exists y rs n1 a1 n2 a2 n3 a3 os css cs rows es,
    c_get c "first_filtering_num_of_iterations" = CInt n1 /\ c_get c "first_filtering_precision" = CInt a1 /\
    c_get c "second_filtering_max_num_of_iterations" = CInt n2 /\ c_get c "second_filtering_precision" = CInt a2 /\
    c_get c "third_filtering_max_num_of_iterations" = CInt n3 /\ c_get c "third_filtering_precision" = CInt a3 /\
    b = GConst y /\ as_ulcd (c_get c "lhs_params") = Some rs /\ ulcd_enum rd rs (rd y) = Ok (os, Ok tt) /\
    Forall2 (clicks_of rd (v_eng v) cls trunc (mi_table (unpickle s))) os css /\
    (let ev k := ev_conv rd (v_req v) (v_acc10 v) (v_target v) k in
     selects (reported rd (v_eng v) cls funcs trunc (ev_const rd n1) (ev n2) (ev n3) a1 a2 a3 (v_target v) (v_est v) (v_roots v))
             (missing rd (v_eng v) cls funcs trunc (ev_const rd n1) (ev n2) (ev n3) a1 a2 a3 (v_target v) (v_est v) (v_roots v) (List.concat css))
             (List.concat css) cs) /\
    ForallOrdPairs (fun u c => equiv_answer cls u c = Ok false) cs /\
    file_at w' (dir_of (v_t2 v) ++ txt "/results.csv") = Some (OCsv (mi_name (sv_mitm s), rows)) /\
    Forall2 (Properties_Results.right_row prec funcs (engv (v_eng v)) (lc_val cls) (v_upar v)) cs rows /\
    file_at w' (dir_of (v_t2 v) ++ txt "/results.tex") = Some (OTex es) /\
    (Forall (fun c => 0 <= ck_ind c) cs -> exists eqns, es = Properties_Results.somes eqns /\
       Forall2 (Properties_Results.right_eqn (fun o n => (o, Ok (ulcd_latex (ul_params o) n))) funcs (mi_name (sv_mitm s)) true) cs eqns).
Proof.
  intros v c w w' p s b H OU NT TP TA TOK GB LT NI CE CR RF prec rd funcs trunc cls.
  destruct (search_parts _ _ _ _ _ _ _ H OU NT TP TA TOK GB LT) as (y & rs & n1 & a1 & n2 & a2 & n3 & a3 & os & css & cs2 & cs & rows & es &
    I1 & I2 & I3 & I4 & I5 & I6 & B & L & E & C & (F2 & F3) & Z).
  destruct (C122_pipeline v rd funcs trunc _ n1 a1 n2 a2 n3 a3 (List.concat css) cs2 cs NI CE CR (fun f x => calm_funcs rd (v_sq v) f x) RF F2 F3) as [SEL PAIRS].
  exists y, rs, n1, a1, n2, a2, n3, a3, os, css, cs, rows, es. repeat (split; [assumption|]). exact Z.
Qed.
(** The left-hand side (-3/pi + pi/3 + 3)/5 has the digits 618 of the golden ratio; besides, a fraction with other digits and the negated golden ratio. *)
Definition rd_ex : Q -> Q := rnd 60.
Definition fs_ex : list (mpfv -> res mpfv) := EVALUATED_POSTPROC_FUNCS (mpf_ops rd_ex (fun q => q)).
Definition lhs_ex : ulcd := match ulcd_new rd_ex (-3, 3, 3, 5) (rd_ex (3141592653 # 1000000000)) with Ok o => o | _ => mkUlcd (0, 0, 0, 0) 0 0 end.
Definition found_ex : list (click ulcd) := map (fun a => (([[a]], [[1]]), lhs_ex, 0, None)) [2; 1; -1].
Definition env_text : env := {| v_pi := []; v_e := []; v_fsqrt := Enum_Roots.isqrt53; v_ibinom := Properties_MITM.ib_ex; v_masks := fun l => l;
  v_order := fun _ l => l; v_target := None; v_eng := eng7; v_kind := KMpf; v_pgcd := fun _ _ => [1];
  v_sq := fun q => q; v_est := fun _ => Ok (ATExp, APPair (5 # 2) 1); v_req := fun _ _ => Ok 40; v_acc10 := fun _ => 1%Q;
  v_roots := fun _ => [(1 # 2, 0%Q)]; v_upar := fun _ => []; v_rpar := fun _ => [];
  v_irq := None; v_t1 := txt "171126_0800"; v_t2 := txt "171126_0800"; v_pdf := Ok tt |}.
Definition staged_with (st : list (click ulcd) * res unit) (la : list (click ulcd) -> list (click ulcd) * res unit) : list (click ulcd) * list (click ulcd) * bool :=
  match st with
  | (cs2, Ok _) => match la cs2 with (cs, Ok _) => (cs2, cs, true) | _ => (cs2, [], false) end
  | _ => ([], [], false)
  end.
Definition staged_ex (n3 a3 : Z) : list (click ulcd) * list (click ulcd) * bool :=
  staged_with (stages_in env_text rd_ex (ulcd_class rd_ex) fs_ex true true 10 3 11 3 found_ex) (last_in env_text rd_ex (ulcd_class rd_ex) fs_ex true n3 a3).
Lemma staged_is n3 a3 cs2 cs : staged_ex n3 a3 = (cs2, cs, true) ->
  stages_in env_text rd_ex (ulcd_class rd_ex) fs_ex true true 10 3 11 3 found_ex = (cs2, Ok tt) /\ last_in env_text rd_ex (ulcd_class rd_ex) fs_ex true n3 a3 cs2 = (cs, Ok tt).
Proof.
  unfold staged_ex, staged_with. destruct (stages_in _ _ _ _ _ _ _ _ _ _) as [x [[]|e]]; [|discriminate]. destruct (last_in _ _ _ _ _ _ _ _) as [z [[]|e]] eqn:E; [|discriminate].
  intros [= -> ->]. auto.
Qed.
Example C122_ex : v_irq env_text = None /\ (forall q, calm (v_eng env_text q)) /\ (forall q p, calm (v_req env_text q p)) /\
  (forall f x, In f fs_ex -> calm (f x)) /\ (forall b re im, In (re, im) (v_roots env_text b) -> (fl re == re)%Q) /\
  map (fun c => (ck_ab c, ul_params (ck_obj c))) (snd (fst (staged_ex 13 3))) = [([[1]], [[1]], (-3, 3, 3, 5))] /\ snd (staged_ex 13 3) = true /\
  snd (fst (staged_ex 13 4)) = [] /\ snd (staged_ex 13 4) = true.
Proof.
  split; [reflexivity|]. split; [intros q; calm0|]. split; [intros q p; calm0|]. split; [intros f x; apply calm_funcs|].
  split; [intros b re im [[= <- _]|[]]; vm_compute; reflexivity|]. vm_compute. repeat split.
Qed.
(** For the run: C89_ex, whose table holds no text key. *)
Example C122_run_ex : exists s y, table_at w1 (txt "./pi_v1.pkl") = Some s /\ sv_gen s = CPlain (GConst y) /\ table_ok (mi_table (unpickle s)) /\
  snd (start env_ex (use_none "pi") w1) = Some (Ok tt).
Proof.
  assert (G : match table_at w1 (txt "./pi_v1.pkl") with Some s => match sv_gen s with CPlain (GConst _) => true | _ => false end | None => false end = true) by (vm_compute; reflexivity).
  destruct (table_at w1 (txt "./pi_v1.pkl")) as [s|] eqn:T; [|discriminate G].
  destruct (sv_gen s) as [[y|l|l]|b i] eqn:GS; try discriminate G. exists s, y. split; [reflexivity|]. split; [exact GS|].
  split; [|vm_compute; reflexivity].
  pose proof (history_built _ h1 _ _ (table_in _ _ _ T)) as B. rewrite (unpickle_same _ B). exact (Properties_MITM.C48_tables _ _ B).
Qed.

Print Assumptions C122_pipeline.
Print Assumptions C122_run.

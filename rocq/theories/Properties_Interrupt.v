(** Properties of searches that the user interrupts in the last stage. *)
From Coq Require Import Ascii String ZArith QArith List Bool Lia.
From Verif Require Import PyBase PyBase_Proofs Rnd ContFrac_Model Hashtable_Model ULCD_Model Rational_Model MITM_Model Results_Model
  Config_Model Consts_Model Main_Model Spec_MITM MITM_Build MITM_Clicks MITM_Filters MITM_Inst Spec_Main Main_Proofs Spec_Search.
From Verif Require Import Properties_MITM2 Properties_Main Properties_Search.
From Verif Require Properties_Results.
Import ListNotations.
Local Open Scope Z_scope.
Local Open Scope list_scope.

(** Steps that succeed, followed by an interrupt. *)
Lemma seq_app {O} (ss ts : list (list (click O) -> list (click O) * res unit)) cs l : seq_steps ss cs = (l, Ok tt) -> seq_steps (ss ++ ts) cs = seq_steps ts l.
Proof. unfold seq_steps. intros H. rewrite fold_left_app, H. reflexivity. Qed.
Lemma seq_raise {O} (ts : list (list (click O) -> list (click O) * res unit)) l e :
  fold_left (fun s f => match s with (l, Ok _) => f l | (l, Raise e) => (l, Raise e) end) ts (l, Raise e) = (l, Raise e).
Proof. induction ts; cbn; auto. Qed.
Lemma calm_seq {O} (ss : list (list (click O) -> list (click O) * res unit)) cs : (forall f l, In f ss -> calm (snd (f l))) -> calm (snd (seq_steps ss cs)).
Proof.
  unfold seq_steps. revert cs. induction ss as [|f ss IH]; intros cs H; cbn [fold_left]; [calm0|].
  pose proof (H f cs (or_introl eq_refl)) as C. destruct (f cs) as [l [[]|e]]; [apply IH; intros; apply H; now right|].
  rewrite seq_raise. exact C.
Qed.
Lemma cut_steps {O} (ss : list (list (click O) -> list (click O) * res unit)) cs l : (forall f l, In f ss -> calm (snd (f l))) ->
  match seq_steps (ss ++ [Main_Model.cut]) cs with (l, Raise KeyboardInterrupt) => (l, Ok tt) | r => r end = (l, Ok tt) -> seq_steps ss cs = (l, Ok tt).
Proof.
  intros C H. pose proof (calm_seq ss cs C) as K. destruct (seq_steps ss cs) as [m [[]|e]] eqn:E.
  - rewrite (seq_app _ _ _ _ E) in H. cbn in H. injection H as ->. reflexivity.
  - exfalso. unfold seq_steps in *. rewrite fold_left_app, E in H. cbn [fold_left] in H. cbn [snd] in K. unfold calm in K. destruct e; try discriminate. now apply K.
Qed.

(** ---- C141: what an interrupted search reports ---- *)
Theorem C141_pipeline : forall v rd funcs trunc surp n1 a1 n2 a2 n3 a3 (cs0 cs2 cs : list (click ulcd)) k n, v_irq v = Some (k, n) ->
  (forall q, calm (v_eng v q)) -> (forall q p, calm (v_req v q p)) -> (forall f x, In f funcs -> calm (f x)) ->
  (forall b re im, In (re, im) (v_roots v b) -> (fl re == re)%Q) ->
  stages_in v rd (ulcd_class rd) funcs trunc surp n1 a1 n2 a2 cs0 = (cs2, Ok tt) ->
  last_in v rd (ulcd_class rd) funcs trunc n3 a3 cs2 = (cs, Ok tt) ->
  let ev k := ev_conv rd (v_req v) (v_acc10 v) (v_target v) k in
  interrupted rd (v_eng v) (ulcd_class rd) funcs trunc (ev_const rd n1) (ev n2) (ev n3) a1 a2 a3 (v_target v) (v_est v) (v_roots v) k n cs0 cs.
Proof.
  intros v rd funcs trunc surp n1 a1 n2 a2 n3 a3 cs0 cs2 cs k n VI CE CR CF RF HS HL ev.
  set (cls := ulcd_class rd) in *.
  assert (T : selects (pass2 rd (v_eng v) cls funcs trunc (ev_const rd n1) (ev n2) a1 a2 (v_target v) (v_est v))
                (lost2 rd (v_eng v) cls funcs trunc (ev_const rd n1) (ev n2) a1 a2 (v_target v) (v_est v) cs0) cs0 cs2).
  { eapply selects_map; [..|exact (two_rounds _ _ _ _ _ _ _ _ _ _ _ HS)].
    - intros a b (x & X & y & Y & Z). exists x, y. auto.
    - intros a [[D|(b & K & R)]|(b & K & D)]; [now left|right; exists b; auto|right; exists b; auto]. }
  destruct k as [|k].
  { exists cs2. split; [exact T|]. refine (C88_interrupt ulcd v rd cls funcs trunc n3 a3 cs2 cs n VI _ HL).
    intros c _. apply calm_refine; auto. intros. now apply calm_ev. }
  unfold last_in, Main_Model.last_stage in HL. rewrite VI in HL.
  assert (CL : forall f l, In f (Main_Model.last_steps (v_target v) (v_eng v) (v_req v) (v_acc10 v) (v_roots v) rd cls funcs trunc n3 a3) -> calm (snd (f l))).
  { intros f l [<-|[<-|[<-|[<-|[]]]]]; [|apply calm_uniq|apply calm_uniq|calm0]. apply calm_round; auto. intros. now apply calm_ev. }
  apply cut_steps in HL; [|intros f l I; apply CL; rewrite <- (firstn_skipn (S k)); apply in_app_iff; now left].
  clear CL. unfold Main_Model.last_steps in HL. fold (ev n3) in HL.
  assert (R : exists d1, refine rd (v_eng v) cls funcs trunc (ev n3) a3 cs2 = (d1, Ok tt) /\
    seq_steps (firstn k [filter_uniq cls; filter_uniq cls; fun cs => (filter_pos_roots (v_roots v) cs, Ok tt)]) d1 = (cs, Ok tt)).
  { unfold seq_steps in *. cbn [firstn fold_left] in HL. destruct (refine _ _ _ _ _ _ _ cs2) as [d1 [[]|e]]; [exists d1; auto|].
    rewrite seq_raise in HL. discriminate. }
  destruct R as (d1 & R & HK). clear HL. apply C51_refine in R.
  assert (S4 : selects (pass3 rd (v_eng v) cls funcs trunc (ev_const rd n1) (ev n2) (ev n3) a1 a2 a3 (v_target v) (v_est v))
                (lost3 rd (v_eng v) cls funcs trunc (ev_const rd n1) (ev n2) (ev n3) a1 a2 a3 (v_target v) (v_est v) cs0) cs0 d1).
  { eapply selects_map; [..|exact (selects_comp _ _ _ _ _ _ _ T R)]; [intros a b (x & X & Y); exists x; auto|intros a [D|D]; [now left|now right]]. }
  destruct k as [|k]; [injection HK as <-; exact S4|].
  assert (U : exists d2, filter_uniq cls d1 = (d2, Ok tt) /\
    seq_steps (firstn k [filter_uniq cls; fun cs => (filter_pos_roots (v_roots v) cs, Ok tt)]) d2 = (cs, Ok tt)).
  { unfold seq_steps in *. cbn [firstn fold_left] in HK. destruct (filter_uniq cls d1) as [d2 [[]|e]]; [exists d2; auto|].
    rewrite seq_raise in HK. discriminate. }
  destruct U as (d2 & U & HK2). clear HK.
  assert (UU : filter_uniq cls d2 = (d2, Ok tt)) by (destruct (ulcd_uniq_spec rd d1 d2 U) as (_ & _ & UU); exact UU).
  apply uniq_sel in U as [U P].
  assert (S5 : selects (pass3 rd (v_eng v) cls funcs trunc (ev_const rd n1) (ev n2) (ev n3) a1 a2 a3 (v_target v) (v_est v))
                (lost4 rd (v_eng v) cls funcs trunc (ev_const rd n1) (ev n2) (ev n3) a1 a2 a3 (v_target v) (v_est v) cs0) cs0 d2).
  { eapply selects_map; [..|exact (selects_comp _ _ _ _ _ _ _ S4 U)]; [intros a b (x & X & ->); exact X|].
    intros a [D|(b & K & u & I & E)]; [now left|]. right. exists b. split; [exact K|].
    destruct (selects_from _ _ _ _ S4 u I) as (u0 & I0 & K0). exists u0, u. auto. }
  destruct k as [|k]; [injection HK2 as <-; split; [exact S5|exact P]|].
  assert (HK3 : seq_steps (firstn k [fun cs => (filter_pos_roots (v_roots v) cs, Ok tt)]) d2 = (cs, Ok tt)).
  { unfold seq_steps in *. cbn [firstn fold_left] in HK2. rewrite UU in HK2. exact HK2. }
  clear HK2 UU. destruct k as [|k]; [injection HK3 as <-; split; [exact S5|exact P]|].
  assert (cs = filter_pos_roots (v_roots v) d2) as -> by (cbn [firstn] in HK3; rewrite firstn_nil in HK3; now injection HK3).
  pose proof (C55_filter ulcd (v_roots v) d2 RF) as RT.
  split; [|eapply pairs_sel; [|exact RT|exact P]; intros a b [E _]; exact E].
  eapply selects_map; [..|exact (selects_comp _ _ _ _ _ _ _ S5 RT)].
  - intros a b (x & X & -> & NR). split; auto.
  - intros a [[[[D|D]|D]|(d & K & D)]|(b & K & D)]; [now left|right; now left|right; right; now left|right; right; right; exists d; auto|].
    right; right; right. exists b. auto.
Qed.

(** Whether interrupted or not: every reported result has passed the first two comparisons and the filters for its convergence; either the last
    comparison has confirmed it, or the interrupt came before the search for repeated results. *)
Theorem C141_confirmed_twice : forall v rd funcs trunc surp n1 a1 n2 a2 n3 a3 (cs0 cs2 cs : list (click ulcd)) c',
  (forall q, calm (v_eng v q)) -> (forall q p, calm (v_req v q p)) -> (forall f x, In f funcs -> calm (f x)) ->
  (forall b re im, In (re, im) (v_roots v b) -> (fl re == re)%Q) ->
  stages_in v rd (ulcd_class rd) funcs trunc surp n1 a1 n2 a2 cs0 = (cs2, Ok tt) ->
  last_in v rd (ulcd_class rd) funcs trunc n3 a3 cs2 = (cs, Ok tt) -> In c' cs ->
  let ev k := ev_conv rd (v_req v) (v_acc10 v) (v_target v) k in
  exists c d, In c cs0 /\ pass2 rd (v_eng v) (ulcd_class rd) funcs trunc (ev_const rd n1) (ev n2) a1 a2 (v_target v) (v_est v) c d /\
    (kept rd (v_eng v) (ulcd_class rd) funcs trunc (ev n3) a3 d c' \/ (c' = d /\ exists n, v_irq v = Some (0%nat, n))).
Proof.
  intros v rd funcs trunc surp n1 a1 n2 a2 n3 a3 cs0 cs2 cs c' CE CR CF RF HS HL I ev.
  assert (P3 : forall D, selects (pass3 rd (v_eng v) (ulcd_class rd) funcs trunc (ev_const rd n1) (ev n2) (ev n3) a1 a2 a3 (v_target v) (v_est v)) D cs0 cs ->
    exists c d, In c cs0 /\ pass2 rd (v_eng v) (ulcd_class rd) funcs trunc (ev_const rd n1) (ev n2) a1 a2 (v_target v) (v_est v) c d /\
    (kept rd (v_eng v) (ulcd_class rd) funcs trunc (ev n3) a3 d c' \/ (c' = d /\ exists n, v_irq v = Some (0%nat, n)))).
  { intros D S. destruct (selects_from _ _ _ _ S c' I) as (c & I0 & d & P & K). exists c, d. auto. }
  destruct (v_irq v) as [[k n]|] eqn:VI.
  - pose proof (C141_pipeline _ _ _ _ _ _ _ _ _ _ _ _ _ _ _ _ VI CE CR CF RF HS HL) as H. cbv zeta in H. fold (ev n2) (ev n3) in H.
    destruct k as [|[|[|[|k]]]]; cbn [interrupted] in H.
    + destruct H as (ds & S & F & E). clear P3.
      assert (J : exists d, In d ds /\ (kept rd (v_eng v) (ulcd_class rd) funcs trunc (ev n3) a3 d c' \/ c' = d)).
      { rewrite <- (firstn_skipn n cs) in I. apply in_app_iff in I as [I|I].
        - clear E. revert I. assert (G : forall d, In d (firstn n ds) -> In d ds) by (intros d Id; rewrite <- (firstn_skipn n ds); apply in_app_iff; now left).
          revert G. induction F as [|d x l r FX F IH]; intros G I; [destruct I|]. destruct I as [<-|I].
          + exists d. split; [apply G; now left|]. destruct FX as [K|[_ ->]]; auto.
          + apply IH; [intros; apply G; now right|exact I].
        - rewrite E in I. exists c'. split; [|now right]. rewrite <- (firstn_skipn n ds). apply in_app_iff. now right. }
      destruct J as (d & ID & K). destruct (selects_from _ _ _ _ S d ID) as (c & I0 & P). exists c, d. split; [exact I0|]. split; [exact P|].
      destruct K as [K| ->]; [now left|right; eauto].
    + exact (P3 _ H).
    + exact (P3 _ (proj1 H)).
    + exact (P3 _ (proj1 H)).
    + destruct H as [H _]. refine (P3 _ (selects_map _ _ _ _ _ _ (fun a b P => proj1 P) (fun a D => D) H)).
  - destruct (C122_pipeline v rd funcs trunc surp n1 a1 n2 a2 n3 a3 cs0 cs2 cs VI CE CR CF RF HS HL) as [H _].
    refine (P3 _ (selects_map _ _ _ _ _ _ (fun a b P => proj1 P) (fun a D => D) H)).
Qed.

(** The files of an interrupted search of the program that uses a table file. *)
Theorem C141_run : forall v c w w' p s b k n, run_with v c import_ctx w = (w', Some (Ok tt)) -> operation c "use" -> ~ table_only c ->
  table_path c p -> table_at w p = Some s -> table_ok (mi_table (unpickle s)) -> sv_gen s = CPlain b ->
  c_get c "lhs_type" = CLhs (txt "ulcd") -> v_irq v = Some (k, n) ->
  (forall q, calm (v_eng v q)) -> (forall q p, calm (v_req v q p)) ->
  (forall b re im, In (re, im) (v_roots v b) -> (fl re == re)%Q) ->
  let prec := mp_prec import_ctx in
  let rd := rnd prec in
  let funcs := EVALUATED_POSTPROC_FUNCS (mpf_ops rd (v_sq v)) in
  let trunc := mi_trunc (sv_mitm s) in
  let cls := ulcd_class rd in
  exists y rs n1 a1 n2 a2 n3 a3 os css cs rows es,
    c_get c "first_filtering_num_of_iterations" = CInt n1 /\ c_get c "first_filtering_precision" = CInt a1 /\
    c_get c "second_filtering_max_num_of_iterations" = CInt n2 /\ c_get c "second_filtering_precision" = CInt a2 /\
    c_get c "third_filtering_max_num_of_iterations" = CInt n3 /\ c_get c "third_filtering_precision" = CInt a3 /\
    b = GConst y /\ as_ulcd (c_get c "lhs_params") = Some rs /\ ulcd_enum rd rs (rd y) = Ok (os, Ok tt) /\
    Forall2 (clicks_of rd (v_eng v) cls trunc (mi_table (unpickle s))) os css /\
    (let ev k := ev_conv rd (v_req v) (v_acc10 v) (v_target v) k in
     interrupted rd (v_eng v) cls funcs trunc (ev_const rd n1) (ev n2) (ev n3) a1 a2 a3 (v_target v) (v_est v) (v_roots v) k n (List.concat css) cs) /\
    file_at w' (dir_of (v_t2 v) ++ txt "/results.csv") = Some (OCsv (mi_name (sv_mitm s), rows)) /\
    Forall2 (Properties_Results.right_row prec funcs (engv (v_eng v)) (lc_val cls) (v_upar v)) cs rows /\
    file_at w' (dir_of (v_t2 v) ++ txt "/results.tex") = Some (OTex es) /\
    (Forall (fun c => 0 <= ck_ind c) cs -> exists eqns, es = Properties_Results.somes eqns /\
       Forall2 (Properties_Results.right_eqn (fun o n => (o, Ok (ulcd_latex (ul_params o) n))) funcs (mi_name (sv_mitm s)) true) cs eqns).
Proof.
  intros v c w w' p s b k n H OU NT TP TA TOK GB LT VI CE CR RF prec rd funcs trunc cls.
  destruct (search_parts _ _ _ _ _ _ _ H OU NT TP TA TOK GB LT) as (y & rs & n1 & a1 & n2 & a2 & n3 & a3 & os & css & cs2 & cs & rows & es &
    I1 & I2 & I3 & I4 & I5 & I6 & B & L & E & C & (F2 & F3) & Z).
  pose proof (C141_pipeline v rd funcs trunc _ n1 a1 n2 a2 n3 a3 (List.concat css) cs2 cs k n VI CE CR (fun f x => calm_funcs rd (v_sq v) f x) RF F2 F3) as INT.
  exists y, rs, n1, a1, n2, a2, n3, a3, os, css, cs, rows, es. repeat (split; [assumption|]). exact Z.
Qed.

(** The digits 618 agree but the fourth does not: a search that compares four digits in the end reports nothing, but if it is interrupted during
    the last comparison it reports the wrong result. *)
Definition env_cut (k n : nat) : env := {| v_pi := []; v_e := []; v_fsqrt := Enum_Roots.isqrt53; v_ibinom := Properties_MITM.ib_ex; v_masks := fun l => l;
  v_order := fun _ l => l; v_target := None; v_eng := eng7; v_kind := KMpf; v_pgcd := fun _ _ => [1];
  v_sq := fun q => q; v_est := fun _ => Ok (ATExp, APPair (5 # 2) 1); v_req := fun _ _ => Ok 40; v_acc10 := fun _ => 1%Q;
  v_roots := fun _ => [(1 # 2, 0%Q)]; v_upar := fun _ => []; v_rpar := fun _ => [];
  v_irq := Some (k, n); v_t1 := txt "171126_0800"; v_t2 := txt "171126_0800"; v_pdf := Ok tt |}.
Definition cut_ex (k n : nat) : list (click ulcd) * list (click ulcd) * bool :=
  staged_with (stages_in (env_cut k n) rd_ex (ulcd_class rd_ex) fs_ex true true 10 3 11 3 found_ex) (last_in (env_cut k n) rd_ex (ulcd_class rd_ex) fs_ex true 13 4).
Definition ev13 (ab : abpair) (a : Z) (info : option conv) : res mpfv := ev_conv rd_ex (fun _ _ => Ok 40) (fun _ => 1%Q) None 13 ab a info.
Theorem C141_results_right_refuted : exists cs0 cs2 cs c',
  stages_in (env_cut 0 1) rd_ex (ulcd_class rd_ex) fs_ex true true 10 3 11 3 cs0 = (cs2, Ok tt) /\
  last_in (env_cut 0 1) rd_ex (ulcd_class rd_ex) fs_ex true 13 4 cs2 = (cs, Ok tt) /\
  In c' cs /\ dropped rd_ex eng7 (ulcd_class rd_ex) fs_ex true ev13 4 c' /\
  last_in env_text rd_ex (ulcd_class rd_ex) fs_ex true 13 4 cs2 = ([], Ok tt).
Proof.
  assert (H : match cut_ex 0 1 with
              | (cs2, c' :: nil, true) => match refine_one rd_ex eng7 (ulcd_class rd_ex) fs_ex true ev13 4 c', last_in env_text rd_ex (ulcd_class rd_ex) fs_ex true 13 4 cs2 with
                                  | (_, Ok false), ([], Ok _) => true | _, _ => false end
              | _ => false end = true) by (vm_compute; reflexivity).
  unfold cut_ex, staged_with in H. destruct (stages_in (env_cut 0 1) _ _ _ _ _ _ _ _ _ found_ex) as [cs2 [[]|e]] eqn:E1; [|discriminate H].
  destruct (last_in (env_cut 0 1) _ _ _ _ _ _ cs2) as [cs [[]|e]] eqn:E2; [|discriminate H].
  destruct cs as [|c' [|]]; try discriminate H. destruct (refine_one _ _ _ _ _ _ _ c') as [c2 [[]|e]] eqn:E3; try discriminate H.
  destruct (last_in env_text _ _ _ _ _ _ cs2) as [[|x l] [[]|e]] eqn:E4; try discriminate H.
  exists found_ex, cs2, [c'], c'. split; [exact E1|]. split; [exact E2|]. split; [now left|]. split; [|exact E4].
  apply MITM_Clicks.refine_one_spec in E3. apply E3.
Qed.
(** An interrupt at every step of the last stage: the hypotheses hold; with three digits the result stays. *)
Example C141_ex : (forall k n q, calm (v_eng (env_cut k n) q)) /\ (forall k n q p, calm (v_req (env_cut k n) q p)) /\
  (forall k n b re im, In (re, im) (v_roots (env_cut k n) b) -> (fl re == re)%Q) /\
  map (fun k => map (fun c => ck_ab c) (snd (fst (cut_ex k 1)))) [0; 1; 4]%nat = [[([[1]], [[1]])]; []; []] /\
  forallb (fun k => snd (cut_ex k 1)) [0; 1; 2; 3; 4]%nat = true.
Proof.
  split; [intros k n q; calm0|]. split; [intros k n q p; calm0|].
  split; [intros k n b re im [[= <- _]|[]]; vm_compute; reflexivity|]. vm_compute. repeat split.
Qed.
(** For the run: the one of C122_run_ex, interrupted. *)
Definition env_stop (k n : nat) : env := {| v_pi := v_pi env_ex; v_e := v_e env_ex; v_fsqrt := v_fsqrt env_ex; v_ibinom := v_ibinom env_ex; v_masks := v_masks env_ex;
  v_order := v_order env_ex; v_target := v_target env_ex; v_eng := v_eng env_ex; v_kind := v_kind env_ex; v_pgcd := v_pgcd env_ex;
  v_sq := v_sq env_ex; v_est := v_est env_ex; v_req := v_req env_ex; v_acc10 := v_acc10 env_ex;
  v_roots := v_roots env_ex; v_upar := v_upar env_ex; v_rpar := v_rpar env_ex;
  v_irq := Some (k, n); v_t1 := v_t1 env_ex; v_t2 := v_t2 env_ex; v_pdf := v_pdf env_ex |}.
Example C141_run_ex : exists s y, table_at w1 (txt "./pi_v1.pkl") = Some s /\ sv_gen s = CPlain (GConst y) /\ table_ok (mi_table (unpickle s)) /\
  snd (start (env_stop 0 3) (use_none "pi") w1) = Some (Ok tt) /\ snd (start (env_stop 2 0) (use_none "pi") w1) = Some (Ok tt).
Proof.
  destruct C122_run_ex as (s & y & T & G & K & _). exists s, y. split; [exact T|]. split; [exact G|]. split; [exact K|]. vm_compute. auto.
Qed.

Print Assumptions C141_pipeline.
Print Assumptions C141_confirmed_twice.
Print Assumptions C141_run.
Print Assumptions C141_results_right_refuted.

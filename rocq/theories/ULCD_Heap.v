(** Recorded clicks are independent of the shared object and of each other. *)
From Coq Require Import Ascii String ZArith QArith Qabs List Bool Lia.
From Verif Require Import PyBase Rnd ContFrac_Model Hashtable_Model ULCD_Model Spec_ULCD ULCD_Proofs.
Import ListNotations.
Local Open Scope nat_scope.
Local Open Scope list_scope.

(** calls addressed to click k, and the last tuple yielded *)
Fixpoint ops_for (k : nat) (es : list uevent) : list ulcd_op :=
  match es with
  | [] => []
  | EvCall j op :: r => if Nat.eqb j k then op :: ops_for k r else ops_for k r
  | _ :: r => ops_for k r
  end.
Fixpoint last_yield (p : Z * Z * Z * Z) (es : list uevent) : Z * Z * Z * Z :=
  match es with
  | [] => p
  | EvYield q :: r => last_yield q r
  | _ :: r => last_yield p r
  end.
Fixpoint records (es : list uevent) : nat :=
  match es with [] => 0 | EvRecord :: r => S (records r) | _ :: r => records r end.

Lemma set_nth_length {A} n (x : A) l : length (set_nth n x l) = length l.
Proof. revert n; induction l; destruct n; cbn; auto. Qed.
Lemma nth_error_set_same {A} n (x : A) l : n < length l -> nth_error (set_nth n x l) n = Some x.
Proof. revert n; induction l; destruct n; cbn; intros; try lia; auto. apply IHl; lia. Qed.
Lemma nth_error_set_other {A} n m (x : A) l : n <> m -> nth_error (set_nth n x l) m = nth_error l m.
Proof. revert n m; induction l; destruct n, m; cbn; intros; try lia; auto. Qed.

Section H.
  Variable rd : Q -> Q.
  Variable x : Q.

  (** shape of the heap: object 0 holds the last yielded tuple, click k lives at address k+1 *)
  Record shape (h : uheap) (p : Z * Z * Z * Z) : Prop := {
    sh_zero : exists o, nth_error (uh_objs h) 0 = Some o /\ ul_params o = p /\ ul_const o = x;
    sh_len : length (uh_objs h) = S (length (uh_clicks h));
    sh_addr : forall k, k < length (uh_clicks h) -> nth_error (uh_clicks h) k = Some (S k) }.

  Lemma call_shape h p addr op : addr <> 0 -> shape h p -> shape (uh_call rd addr op h) p.
  Proof.
    intros A [(o & Z0 & P & C) L AD]. unfold uh_call. destruct (nth_error (uh_objs h) addr) as [o1|] eqn:E; [|constructor; eauto].
    constructor; cbn [uh_objs uh_clicks].
    - exists o. rewrite nth_error_set_other by auto. auto.
    - now rewrite set_nth_length.
    - exact AD.
  Qed.
  Lemma yield_shape h p q : shape h p -> shape (uh_call rd 0 (UReinit q) h) q.
  Proof.
    intros [(o & Z0 & P & C) L AD]. unfold uh_call. rewrite Z0. constructor; cbn [uh_objs uh_clicks].
    - exists (fst (ulcd_step rd o (UReinit q))). rewrite nth_error_set_same by lia. split; [reflexivity|].
      rewrite step_assign, assign_params, assign_const. cbn. destruct (ul_params o) as [[[? ?] ?] ?]. auto.
    - now rewrite set_nth_length.
    - exact AD.
  Qed.

  Definition def_yields (es : list uevent) : Prop := forall p, In (EvYield p) es -> ulcd_defined p x.

  Lemma record_shape h p : ulcd_defined p x -> shape h p ->
    shape (uh_event rd h EvRecord) p /\
    uh_click (uh_event rd h EvRecord) (length (uh_clicks h)) = Some (mkUlcd p x (ulcd_rval rd x p)) /\
    uh_clicks (uh_event rd h EvRecord) = uh_clicks h ++ [length (uh_objs h)] /\
    forall k, k < length (uh_clicks h) -> uh_click (uh_event rd h EvRecord) k = uh_click h k.
  Proof.
    intros D [(o & Z0 & P & C) L AD]. cbn [uh_event]. rewrite Z0. unfold ulcd_copy, ulcd_new.
    rewrite P, C, ulcd_calc_def by exact D. cbn [bind].
    split; [|split; [|split]].
    - constructor; cbn [uh_objs uh_clicks].
      + exists o. rewrite nth_error_app1 by lia. auto.
      + rewrite !app_length. cbn. lia.
      + intros k K. rewrite app_length in K. cbn [length] in K. destruct (Nat.eq_dec k (length (uh_clicks h))) as [->|].
        * rewrite nth_error_app2, Nat.sub_diag by lia. cbn. now rewrite L.
        * rewrite nth_error_app1 by lia. apply AD; lia.
    - unfold uh_click; cbn [uh_objs uh_clicks]. rewrite nth_error_app2, Nat.sub_diag by lia. cbn.
      rewrite nth_error_app2, Nat.sub_diag by lia. reflexivity.
    - reflexivity.
    - intros k K. unfold uh_click; cbn [uh_objs uh_clicks]. rewrite nth_error_app1 by lia. rewrite AD by lia.
      rewrite nth_error_app1 by lia. reflexivity.
  Qed.

  Lemma run_shape es : forall h p, ulcd_defined p x -> def_yields es -> shape h p ->
    shape (uh_run rd es h) (last_yield p es) /\ ulcd_defined (last_yield p es) x /\
    length (uh_clicks (uh_run rd es h)) = length (uh_clicks h) + records es /\
    (forall k o, uh_click h k = Some o -> uh_click (uh_run rd es h) k = Some (fst (ulcd_run rd (ops_for k es) o))).
  Proof.
    induction es as [|e r IH]; intros h p D Y S.
    { cbn. repeat split; auto; apply S. }
    change (uh_run rd (e :: r) h) with (uh_run rd r (uh_event rd h e)).
    assert (Yr : def_yields r) by (intros q I; apply Y; now right).
    destruct e as [q| |j op]; cbn [last_yield ops_for records].
    - assert (Dq : ulcd_defined q x) by (apply Y; now left).
      pose proof (yield_shape h p q S) as S1.
      destruct (IH (uh_event rd h (EvYield q)) q Dq Yr S1) as (A & B & C & F).
      split; [exact A|]. split; [exact B|]. split.
      + rewrite C. f_equal. cbn. unfold uh_call. destruct (nth_error (uh_objs h) 0); reflexivity.
      + intros k o K. apply F. cbn [uh_event]. unfold uh_click in *. unfold uh_call.
        destruct S as [(o0 & Z0 & P & Cc) L AD]. rewrite Z0. cbn [uh_objs uh_clicks].
        destruct (nth_error (uh_clicks h) k) as [a|] eqn:E; [|discriminate].
        assert (KL : k < length (uh_clicks h)) by (apply nth_error_Some; congruence).
        rewrite AD in E by exact KL. injection E as <-. rewrite nth_error_set_other by lia. exact K.
    - destruct (record_shape h p D S) as (S1 & N & CL & O).
      destruct (IH _ p D Yr S1) as (A & B & C & F). split; [exact A|]. split; [exact B|]. split.
      + rewrite C, CL, app_length. cbn. lia.
      + intros k o K. apply F. rewrite O; [exact K|]. unfold uh_click in K.
        apply nth_error_Some. destruct (nth_error (uh_clicks h) k); congruence.
    - cbn [uh_event]. destruct (nth_error (uh_clicks h) j) as [a|] eqn:E.
      + assert (JL : j < length (uh_clicks h)) by (apply nth_error_Some; congruence).
        assert (a = Datatypes.S j) as -> by (destruct S as [_ _ AD]; rewrite AD in E by exact JL; congruence).
        pose proof (call_shape h p (Datatypes.S j) op ltac:(lia) S) as S1.
        destruct (IH _ p D Yr S1) as (A & B & C & F). split; [exact A|]. split; [exact B|].
        assert (CLK : uh_clicks (uh_call rd (Datatypes.S j) op h) = uh_clicks h) by (unfold uh_call; destruct (nth_error (uh_objs h) (Datatypes.S j)); reflexivity).
        split; [now rewrite C, CLK|].
        intros k o K. assert (KL : k < length (uh_clicks h)).
        { unfold uh_click in K. apply nth_error_Some. destruct (nth_error (uh_clicks h) k); congruence. }
        destruct S as [_ L AD].
        assert (KO : nth_error (uh_objs h) (Datatypes.S k) = Some o) by (unfold uh_click in K; now rewrite AD in K by exact KL).
        destruct (Nat.eqb_spec j k) as [->|N].
        * cbn [ulcd_run]. specialize (F k (fst (ulcd_step rd o op))).
          destruct (ulcd_step rd o op) as [o1 y] eqn:ST. destruct (ulcd_run rd (ops_for k r) o1) as [o2 ys] eqn:RR.
          cbn [fst] in *. rewrite F; [now rewrite RR|].
          unfold uh_click. rewrite CLK, AD by exact KL. unfold uh_call. rewrite KO. cbn [uh_objs].
          rewrite nth_error_set_same by lia. now rewrite ST.
        * apply F. unfold uh_click. rewrite CLK, AD by exact KL. unfold uh_call.
          destruct (nth_error (uh_objs h) (Datatypes.S j)); [|exact KO]. cbn [uh_objs]. rewrite nth_error_set_other by lia. exact KO.
      + assert (JL : length (uh_clicks h) <= j) by (now apply nth_error_None).
        destruct (IH h p D Yr S) as (A & B & C & F). split; [exact A|]. split; [exact B|]. split; [exact C|].
        intros k o K. assert (KL : k < length (uh_clicks h)).
        { unfold uh_click in K. apply nth_error_Some. destruct (nth_error (uh_clicks h) k); congruence. }
        destruct (Nat.eqb_spec j k); [lia|]. now apply F.
  Qed.
End H.

(** Claims C147 (the constant that a run searches for) and C50 (left-hand sides that are left out). *)
From Coq Require Import Ascii String ZArith QArith Reals List Bool Lia.
From Verif Require Import PyBase PyBase_Proofs Rnd Hashtable_Model Hashtable_Proofs ContFrac_Model Consts_Model Spec_Consts Properties_Consts MITM_Model Config_Model Main_Model Spec_Main Main_Proofs.
From Verif Require Import ULCD_Model Rational_Model Spec_Rational Spec_MITM MITM_Clicks.
From Verif Require Properties_Main Properties_Rational Properties_ULCD Properties_MITM2.
Import ListNotations.
Local Open Scope Z_scope.
Local Open Scope list_scope.

(** The numbers that the names stand for. *)
Inductive named : string -> R -> Prop :=
| named_e : named "e" (exp 1)
| named_pi : named "pi" PI
| named_phi : named "phi" golden
| named_apery z : is_zeta 3 z -> named "apery" z.
Definition delivers (g : cgen) (K : R) : Prop := forall p, 1 <= p <= 97 -> exists x, call0 g (set_dps p) = (set_dps p, Ok x) /\ accurate x K p.
Lemma chosen_delivers v name K i g nm : Forall is_digit (v_pi v) -> Forall is_digit (v_e v) -> named name K -> choose v (CStr (txt name)) i = Ok (g, nm) -> delivers g K.
Proof.
  intros DP DE N H. apply choose_ok in H. destruct H as (E & _ & G). injection E as <-. unfold consts_generators in G.
  assert (HA : exists a, apery_const = Ok a) by (eexists; reflexivity). destruct HA as [a HA].
  assert (forall p, 1 <= p <= 97 -> exists x, snd (v_pi v, call0 g (set_dps p)) = (set_dps p, Ok x) /\ accurate x K p) as D; [|exact D].
  intros p Hp. cbn [snd]. inversion N as [E1|E1|E1|z HZ E1]; subst name.
  - destruct (C110_e (v_e v) p DE ltac:(lia)) as (x & (_ & _ & R) & A). exists x. split; [|congruence].
    revert G R. generalize (GConst (e_const (v_e v))). intros b [= <-] R. now apply R.
  - destruct (C110_pi (v_pi v) p DP ltac:(lia)) as (x & (_ & _ & R) & A). exists x. split; [|congruence].
    revert G R. generalize (GConst (e_const (v_e v))) (GConst (pi_const (v_pi v))). intros b1 b [= <-] R. now apply R.
  - destruct (C111_golden p ltac:(lia)) as (x & (_ & _ & R) & A). exists x. split; [|congruence].
    revert G R. generalize (GConst (e_const (v_e v))) (GConst (pi_const (v_pi v))) (GList feig_consts) (GConst euler_masch_const) (GList percolation_consts) (GDict zeta_consts) (GConst phi_const).
    intros b1 b2 b3 b4 b5 b6 b [= <-] R. now apply R.
  - destruct (C112_apery p K ltac:(lia) HZ) as (c & x & C & (_ & _ & R) & _ & A). exists x. split; [|exact A].
    assert (AQ : apery_q = c) by (unfold apery_q; now rewrite C). rewrite <- AQ in R.
    revert G R. generalize (GConst (e_const (v_e v))) (GConst (pi_const (v_pi v))) (GList feig_consts) (GConst euler_masch_const) (GList percolation_consts) (GDict zeta_consts) (GConst phi_const) (GConst apery_q).
    intros b1 b2 b3 b4 b5 b6 b7 b [= <-] R. now apply R.
Qed.
Lemma settings_name sq c name m st : settings_of sq c name m = Some st -> s_name st = name.
Proof.
  unfold settings_of. destruct (as_ints _); [|discriminate]. destruct (as_int _); [|discriminate]. destruct (c_get c "ab_polys_type"); try discriminate.
  destruct (as_special _); [|discriminate]. now intros [= <-].
Qed.
Lemma digits_ok l : forallb (fun c => Nat.leb 48 (nat_of_ascii c) && Nat.leb (nat_of_ascii c) 57) l = true -> Forall is_digit l.
Proof.
  intros H. apply Forall_forall. intros c HC. rewrite forallb_forall in H. specialize (H c HC). apply andb_true_iff in H as [A B]. apply Nat.leb_le in A, B. now split.
Qed.
(** A run that writes a table stores with it a generator of the constant that the settings name. *)
Theorem C147_stored : forall v c m0 w w' r p name K, Forall is_digit (v_pi v) -> Forall is_digit (v_e v) ->
  operation c "generate" \/ operation c "expand" -> table_path c p -> c_get c "const" = CStr (txt name) -> named name K -> run_with v c m0 w = (w', r) ->
  (w' = w /\ r <> Some (Ok tt)) \/
  exists s, table_at w' p = Some s /\ mi_name (sv_mitm s) = txt name /\
    forall d, 1 <= d <= 97 -> exists x, call0 (sv_gen s) (set_dps d) = (set_dps d, Ok x) /\ accurate x K d.
Proof.
  intros v c m0 w w' r p name K DP DE OP TP HC N H.
  assert (U : is_use c = false) by (destruct OP as [O|O]; apply (not_use _ _ O); discriminate).
  destruct (run_writes _ _ _ _ _ _ _ H U TP) as [S|(i & g & nm & m & g1 & x & w1 & x1 & _ & CH & HO & HX & HT)]; [now left|right].
  eexists. split; [exact HT|]. cbn [sv_gen sv_mitm]. rewrite HC in CH. destruct (choose_ok _ _ _ _ _ CH) as (NM & _). injection NM as NM.
  apply (chosen_delivers v name K i g nm DP DE N) in CH. assert (HE : (if is_use c then (w, Some (Ok x)) else extend_in v c m g1 x w) = (w1, Some (Ok x1))) by (now rewrite U). destruct (extend_same _ _ _ _ _ _ _ _ HE) as (_ & _ & ->).
  destruct HO as [p0 s0 O0 _ _|p0 s0 st y O0 _ _ HS HR|st n y O0 HS HN HM].
  - apply is_use_iff in O0. congruence.
  - split; [|exact CH]. rewrite NM. unfold mitm_redefine in HR. destruct (if isinstance _ _ then _ else _); [|discriminate]. injection HR as <-. cbn [mi_name]. now apply settings_name in HS.
  - split; [|exact CH]. rewrite NM. unfold mitm_new in HM. destruct (enumer_new _ _); [|discriminate]. injection HM as <-. cbn [mi_name]. now apply settings_name in HS.
Qed.
(** In particular a table made for one constant can be expanded in the name of another one. *)
Example C147_ex : Forall is_digit (v_pi Properties_Main.env_ex) /\ Forall is_digit (v_e Properties_Main.env_ex) /\ named "phi" golden /\
  (exists z, named "apery" z) /\
  (exists s, table_at Properties_Main.w1 (txt "./pi_v1.pkl") = Some s /\ mi_name (sv_mitm s) = txt "pi").
Proof.
  split; [apply digits_ok; reflexivity|]. split; [apply digits_ok; reflexivity|]. split; [constructor|].
  split; [destruct (Zeta_Limits.zsum_exists 3 ltac:(lia)) as [z HZ]; exists z; now constructor|].
  assert (X : option_map (fun s => mi_name (sv_mitm s)) (table_at Properties_Main.w1 (txt "./pi_v1.pkl")) = Some (txt "pi")) by (vm_compute; reflexivity).
  destruct (table_at Properties_Main.w1 (txt "./pi_v1.pkl")) as [s|]; [|discriminate]. exists s. split; [reflexivity|]. now injection X.
Qed.

(** ---- C50: the left-hand sides without clicks ---- *)
Lemma key_fun rd trunc v k k' : key_of rd trunc v k -> key_of rd trunc v k' -> k = k'.
Proof. intros A B. apply key_trunc in A, B. congruence. Qed.
Lemma text_fun eng k s s' : text_of eng k s -> text_of eng k s' -> s = s'.
Proof. intros A B. destruct A; inversion B; subst; congruence. Qed.
(** If the number of a ULCD expression is in the table, there is one click for each entry, except for u = 1, l = -1 and u = -1, l = 1: then there is none. *)
Theorem C50_ulcd_left_out : forall rd eng trunc t o u l c d k s es cs, table_ok t -> ul_params o = (u, l, c, d) ->
  key_of rd trunc (Fin (ul_val o)) k -> text_of eng k s -> finds t s (VList es) -> clicks_of rd eng (ulcd_class rd) trunc t o cs ->
  (u = 1 /\ l = -1 \/ u = -1 /\ l = 1 -> cs = []) /\
  (~ (u = 1 /\ l = -1 \/ u = -1 /\ l = 1) -> Forall2 (fun e ck => exists ab i, e = TEnt ab i /\ ck_ab ck = ab /\ ck_ind ck = i /\ ul_params (ck_obj ck) = (u, l, c, d)) es cs).
Proof.
  intros rd eng trunc t o u l c d k s es cs [ND _] EP HK HT HF HC. pose proof (Properties_ULCD.C69_degenerate_iff o u l c d EP) as DG.
  destruct HC as [k' s' HK' HT' HN|k' s' v o1 HK' HT' HF' HD|k' s' es' o1 cs HK' HT' HF' HD H2]; cbn [lc_val lc_degen ulcd_class] in *;
    pose proof (key_fun _ _ _ _ _ HK HK') as <-; pose proof (text_fun _ _ _ _ HT HT') as <-.
  - exfalso. eapply finds_excl; eauto.
  - injection HD as _ HD. apply DG in HD. split; [auto|]. intros X. contradiction.
  - pose proof (finds_unique _ _ _ _ ND HF HF') as X. injection X as <-. injection HD as <- HD. split.
    + intros X. apply DG in X. congruence.
    + intros _. clear - H2 EP. induction H2 as [|e ck es cs (ab & i & o' & -> & CP & ->) _ IH]; constructor; [|exact IH].
      exists ab, i. cbn. repeat split. cbn [lc_copy ulcd_class] in CP. unfold ulcd_copy, ulcd_new in CP. destruct (ulcd_calc _ _ _); [|discriminate]. injection CP as <-. exact EP.
Qed.
(** A quotient of polynomials that is constant has no clicks; another one whose number is in the table has one for each entry. *)
Theorem C50_rational_left_out : forall kind rd pgcd inv x eng trunc t o k s es cs, table_ok t -> Properties_Rational.reached kind rd pgcd x o ->
  rf_num o <> [] -> gcd_for pgcd (rf_num o) (rf_den o) -> nonzero_poly (rf_den o) ->
  key_of rd trunc (rf_val o) k -> text_of eng k s -> finds t s (VList es) -> clicks_of rd eng (rat_class kind rd pgcd inv) trunc t o cs ->
  (constant_ratio (rf_num o) (rf_den o) -> cs = []) /\ (~ constant_ratio (rf_num o) (rf_den o) -> length cs = length es).
Proof.
  intros kind rd pgcd inv x eng trunc t o k s es cs [ND _] RE NN G NZ HK HT HF HC.
  destruct (Properties_Rational.C45_degenerate_iff _ _ _ _ _ RE NN G NZ) as (o' & b & DG & DI).
  destruct HC as [k' s' HK' HT' HN|k' s' v o1 HK' HT' HF' HD|k' s' es' o1 cs HK' HT' HF' HD H2]; cbn [lc_val lc_degen rat_class] in *;
    pose proof (key_fun _ _ _ _ _ HK HK') as <-; pose proof (text_fun _ _ _ _ HT HT') as <-.
  - exfalso. eapply finds_excl; eauto.
  - rewrite DG in HD. injection HD as _ ->. split; [auto|]. intros X. exfalso. now apply X, DI.
  - pose proof (finds_unique _ _ _ _ ND HF HF') as X. injection X as <-. rewrite DG in HD. injection HD as _ ->. split.
    + intros X. apply DI in X. discriminate.
    + intros _. clear - H2. induction H2; [reflexivity|]. cbn. now f_equal.
Qed.
Example C50_left_out_ex : table_ok Properties_MITM2.t_ex /\ (exists k s es, key_of (rnd 60) true (Fin (24 # 7)) k /\ text_of Properties_MITM2.eng6 k s /\ finds Properties_MITM2.t_ex s (VList es) /\ length es = 2%nat).
Proof.
  split; [exact (proj2 Properties_MITM2.C50_ex)|]. eexists. exists (txt "0.428571"). eexists. split; [apply key_fin|]. split; [apply text_fin; vm_compute; reflexivity|].
  split; [|shelve]. exists [4]. eexists. eexists. split; [cbn; reflexivity|].
  split; [intros b w [<-|[]]; intros [E|[E|[]]]; [vm_compute in E|]; discriminate E|]. left. reflexivity.
  Unshelve. reflexivity.
Qed.

Print Assumptions C147_stored.
Print Assumptions C50_ulcd_left_out.
Print Assumptions C50_rational_left_out.

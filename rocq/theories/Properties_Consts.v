(** Claims about the numbers of gen_consts.py: which digits of the constants of mathematics the generators deliver. *)
From Coq Require Import Ascii String ZArith QArith Qreals Reals Lra Lia List Bool.
From Verif Require Import PyBase Rnd Hashtable_Model CF_Limits Consts_Limits Zeta_Limits Consts_Model Spec_Consts Consts_Proofs.
Import ListNotations.
Local Open Scope Z_scope.

(** What a generator returns for a precision of p digits, given at the call or set before. *)
Definition returns (b : gbody) (idx : list garg) (p : Z) (x : Q) : Prop :=
  (forall m, call_gen b (GInt p :: idx) m = (set_dps p, Ok x)) /\
  call_gen b (GNone :: idx) (set_dps p) = (set_dps p, Ok x) /\ (idx = [] -> call_gen b [] (set_dps p) = (set_dps p, Ok x)).
Lemma returns_const c p : 1 <= p -> returns (GConst c) [] p (rnd (dps_to_prec p) c).
Proof.
  intros Hp. unfold returns, call_gen. cbn [tl set_precision call_body]. destruct (Z.eqb_spec p 0); [lia|]. now repeat split.
Qed.
Lemma returns_list l i c p : 1 <= p -> py_nth l i = Ok c -> returns (GList l) [GInt i] p (rnd (dps_to_prec p) c).
Proof.
  intros Hp E. unfold returns, call_gen. cbn [tl set_precision call_body]. rewrite E. cbn [bind]. destruct (Z.eqb_spec p 0); [lia|]. now repeat split.
Qed.
Lemma returns_dict l i c p : 1 <= p -> d_get Z.eqb l i = Some c -> returns (GDict l) [GInt i] p (rnd (dps_to_prec p) c).
Proof.
  intros Hp E. unfold returns, call_gen. cbn [tl set_precision call_body]. rewrite E. destruct (Z.eqb_spec p 0); [lia|]. now repeat split.
Qed.

(** ---- C110 ---- *)
Theorem C110_pi : forall tail p, Forall is_digit tail -> 1 <= p <= 150 -> exists x, returns (GConst (pi_const tail)) [] p x /\ accurate x PI p.
Proof. intros tail p HT Hp. exists (rnd (dps_to_prec p) (pi_const tail)). split; [apply returns_const; lia|now apply pi_accurate]. Qed.
Theorem C110_e : forall tail p, Forall is_digit tail -> 1 <= p <= 150 -> exists x, returns (GConst (e_const tail)) [] p x /\ accurate x (exp 1) p.
Proof. intros tail p HT Hp. exists (rnd (dps_to_prec p) (e_const tail)). split; [apply returns_const; lia|now apply e_accurate]. Qed.
(** The literals have 100000 and 10000 digits; but they were rounded when the module was imported. *)
Theorem C110_more_digits_refuted : forall tail p, Forall is_digit tail -> 151 <= p ->
  (exists x, returns (GConst (pi_const tail)) [] p x /\ ~ accurate x PI p) /\ (exists x, returns (GConst (e_const tail)) [] p x /\ ~ accurate x (exp 1) p).
Proof.
  intros tail p HT Hp. split; [exists (rnd (dps_to_prec p) (pi_const tail))|exists (rnd (dps_to_prec p) (e_const tail))]; (split; [apply returns_const; lia|]).
  - now apply pi_not.
  - now apply e_not.
Qed.
(** Ten digits of pi, whatever the literal has after the first two hundred; a thousand are not delivered. *)
Example C110_ex : (exists x, returns (GConst (pi_const (txt "4428810975665933446128475648"))) [] 10 x /\ accurate x PI 10) /\
  (exists x, returns (GConst (pi_const (txt "4428810975665933446128475648"))) [] 1000 x /\ ~ accurate x PI 1000) /\
  (exists x, snd (call_gen (GConst (pi_const (txt "44288"))) [GInt 10] import_ctx) = Ok x /\ Qeq_bool x (26986075409 # 8589934592) = true).
Proof.
  assert (D : forall s, forallb (fun c => Nat.leb 48 (nat_of_ascii c) && Nat.leb (nat_of_ascii c) 57) (txt s) = true -> Forall is_digit (txt s)).
  { intros s H. apply Forall_forall. intros c HC. rewrite forallb_forall in H. specialize (H c HC). apply andb_true_iff in H as [A B]. apply Nat.leb_le in A, B. now split. }
  split; [|split].
  - apply C110_pi; [apply D; reflexivity|lia].
  - exact (proj1 (C110_more_digits_refuted (txt "4428810975665933446128475648") 1000 (D "4428810975665933446128475648"%string eq_refl) ltac:(lia))).
  - eexists. split; [vm_compute; reflexivity|vm_compute; reflexivity].
Qed.

(** ---- C111 ---- *)
Theorem C111_golden : forall p, 1 <= p <= 103 -> exists x, returns (GConst phi_const) [] p x /\ accurate x golden p.
Proof. intros p Hp. exists (rnd (dps_to_prec p) phi_const). split; [apply returns_const; lia|]. apply (lit_accurate phi_text _ 104 p golden_lit); lia. Qed.
Theorem C111_percolation : forall p, 1 <= p <= 98 ->
  (exists x, returns (GList percolation_consts) [GInt 0] p x /\ accurate x honeycomb p) /\ (exists x, returns (GList percolation_consts) [GInt 1] p x /\ accurate x triangular p).
Proof.
  intros p Hp. split; [exists (rnd (dps_to_prec p) (const perc0))|exists (rnd (dps_to_prec p) (const perc1))]; (split; [apply returns_list; [lia|reflexivity]|]).
  - apply (lit_accurate perc0 _ 99 p honeycomb_lit); lia.
  - apply (lit_accurate perc1 _ 99 p triangular_lit); lia.
Qed.
(** After the import mpmath works with 150 digits; these constants do not have them. *)
Theorem C111_default_precision_refuted : exists x y z,
  call_gen (GConst phi_const) [] import_ctx = (import_ctx, Ok x) /\ call_gen (GList percolation_consts) [GNone; GInt 0] import_ctx = (import_ctx, Ok y) /\
  call_gen (GList percolation_consts) [GNone; GInt 1] import_ctx = (import_ctx, Ok z) /\ mp_dps import_ctx = 150 /\
  ~ accurate x golden 108 /\ ~ accurate y honeycomb 108 /\ ~ accurate z triangular 108.
Proof.
  exists (rnd (mp_prec import_ctx) phi_const), (rnd (mp_prec import_ctx) (const perc0)), (rnd (mp_prec import_ctx) (const perc1)).
  split; [reflexivity|]. split; [reflexivity|]. split; [reflexivity|]. split; [reflexivity|].
  split; [exact (lit_not phi_text _ _ golden_lit)|]. split; [exact (lit_not perc0 _ _ honeycomb_lit)|exact (lit_not perc1 _ _ triangular_lit)].
Qed.
Example C111_ex : (exists x, returns (GConst phi_const) [] 30 x /\ accurate x golden 30) /\ (0 < triangular < 1)%R.
Proof. split; [apply C111_golden; lia|apply triangular_root]. Qed.

(** ---- C112 ---- *)
Lemma zeta_dict i : 2 <= i <= 20 -> exists s, In (i, s) zeta_texts /\ d_get Z.eqb zeta_consts i = Some (const s).
Proof.
  intros Hi. assert (C : forallb (fun k => match d_get Z.eqb zeta_texts (Z.of_nat k) with Some _ => true | None => false end) (seq 2 19) = true) by reflexivity.
  rewrite forallb_forall in C. specialize (C (Z.to_nat i)). rewrite Z2Nat.id in C by lia. specialize (C ltac:(apply in_seq; lia)).
  destruct (d_get Z.eqb zeta_texts i) as [s|] eqn:E; [|discriminate]. exists s. unfold zeta_consts. revert E. clear. induction zeta_texts as [|[j t] l IH]; intros E; [discriminate|].
  cbn [d_get map] in *. destruct (Z.eqb_spec i j) as [->|].
  - injection E as ->. split; [now left|reflexivity].
  - destruct (IH E) as [A B]. split; [now right|exact B].
Qed.
Theorem C112_zeta : forall i p z, 2 <= i <= 20 -> 1 <= p <= 97 -> is_zeta (Z.to_nat i) z -> exists x, returns (GDict zeta_consts) [GInt i] p x /\ accurate x z p.
Proof.
  intros i p z Hi Hp HZ. destruct (zeta_dict i Hi) as (s & HI & HG). exists (rnd (dps_to_prec p) (const s)). split; [apply returns_dict; [lia|exact HG]|].
  apply (lit_accurate s z (zdigits i) p (zeta_lit i s z HI HZ)); [lia|]. unfold zdigits. destruct (i =? 3); lia.
Qed.
Theorem C112_apery : forall p z, 1 <= p <= 106 -> is_zeta 3 z ->
  exists c x, apery_const = Ok c /\ returns (GConst c) [] p x /\ returns (GDict zeta_consts) [GInt 3] p x /\ accurate x z p.
Proof.
  intros p z Hp HZ. destruct (zeta_dict 3 ltac:(lia)) as (s & HI & HG). exists (const s), (rnd (dps_to_prec p) (const s)). split; [unfold apery_const; now rewrite HG|].
  split; [apply returns_const; lia|]. split; [apply returns_dict; [lia|exact HG]|]. apply (lit_accurate s z (zdigits 3) p (zeta_lit 3 s z HI HZ)); [lia|]. change (zdigits 3) with 107%nat. lia.
Qed.
Theorem C112_default_precision_refuted : forall i z, 2 <= i <= 20 -> is_zeta (Z.to_nat i) z ->
  exists x, call_gen (GDict zeta_consts) [GNone; GInt i] import_ctx = (import_ctx, Ok x) /\ mp_dps import_ctx = 150 /\ ~ accurate x z 108.
Proof.
  intros i z Hi HZ. destruct (zeta_dict i Hi) as (s & HI & HG). exists (rnd (mp_prec import_ctx) (const s)). split; [|split; [reflexivity|]].
  - unfold call_gen. cbn [tl set_precision call_body]. now rewrite HG.
  - exact (lit_not s z _ (zeta_lit i s z HI HZ)).
Qed.
Example C112_ex : forall i, 2 <= i <= 20 -> exists z x, is_zeta (Z.to_nat i) z /\ returns (GDict zeta_consts) [GInt i] 50 x /\ accurate x z 50.
Proof.
  intros i Hi. destruct (zsum_exists (Z.to_nat i) ltac:(lia)) as [z HZ]. destruct (C112_zeta i 50 z Hi ltac:(lia) HZ) as (x & A & B). now exists z, x.
Qed.

Print Assumptions C110_pi.
Print Assumptions C110_e.
Print Assumptions C110_more_digits_refuted.
Print Assumptions C111_golden.
Print Assumptions C111_percolation.
Print Assumptions C111_default_precision_refuted.
Print Assumptions C112_zeta.
Print Assumptions C112_apery.
Print Assumptions C112_default_precision_refuted.

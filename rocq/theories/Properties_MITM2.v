(** Properties C50-C55, C77, C78: finding, refining and filtering clicks. *)
From Coq Require Import Ascii String ZArith QArith Qabs Qround List Bool Lia Lqa Permutation.
From Verif Require Import PyBase PyBase_Proofs Rnd Rnd_Proofs ContFrac_Model Spec_ContFrac Hashtable_Model Hashtable_Proofs ULCD_Model Spec_ULCD ULCD_Proofs
  ULCD_Equiv Rational_Model Spec_Rational Rational_Proofs Rational_Obj Rational_Canon MITM_Model Spec_MITM MITM_Build MITM_Build2 MITM_Clicks MITM_Filters MITM_Inst.
From Verif Require Enum_Proofs Properties_ULCD Properties_Rational Properties_ContFrac ContFrac_Hist.
Import ListNotations.
Local Open Scope Z_scope.
Local Open Scope list_scope.

(** Numbers for the examples are written with six digits after the point. *)
Fixpoint digits_of (k : nat) (n : Z) : text :=
  match k with O => [] | S k' => digits_of k' (n / 10) ++ [digit_char (Z.to_nat (n mod 10))] end.
Definition eng6 (q : Q) : res text :=
  Ok (z_text (Qfloor q) ++ txt "." ++ digits_of 6 (Qfloor ((q - inject_Z (Qfloor q)) * 1000000))).
Definition t_ex : mtable :=
  mkHtab 7 [4] [(KStr (txt "0.428571"), VList [TEnt ([[1; 2]], [[3]]) 0; TEnt ([[5]], [[1; 1]]) 1]); (KNum (3 # 7), VList [TEnt ([[9]], [[9]]) 0])].

(** ---- C50 ---- *)
(** The clicks after a successful search are exactly, in the order of the left-hand sides and of the entries, one new
    object per entry of the list that the look-up finds, for the left-hand sides that are not degenerate. *)
Theorem C50_clicks : forall (O : Type) rd eng (cls : lhs_class O) enum (m m' : mitm O), table_ok (mi_table m) ->
  (find_clicks rd eng cls enum m = (m', Ok tt) <->
   exists os css, enum (mi_target m) = Ok (os, Ok tt) /\
     Forall2 (clicks_of rd eng cls (mi_trunc m) (mi_table m)) os css /\ m' = with_params m (List.concat css)).
Proof.
  intros O rd eng cls enum m m' [ND _]. unfold find_clicks. split.
  - destruct (enum (mi_target m)) as [[os y]|e] eqn:EE; cbn [bind]; [|discriminate].
    destruct (find_clicks_loop rd eng cls (mi_trunc m) (mi_table m) (os, y)) as [cs|e] eqn:EC; [|discriminate].
    intros H. inversion H; subst m'. apply find_clicks_iff in EC; [|exact ND]. cbn [fst snd] in EC.
    destruct EC as (-> & css & HF & ->). exists os, css. auto.
  - intros (os & css & EE & HF & ->). rewrite EE. cbn [bind].
    rewrite (proj2 (find_clicks_iff rd eng cls (mi_trunc m) (mi_table m) (os, Ok tt) (List.concat css) ND)); [reflexivity|].
    split; [reflexivity|]. exists css. auto.
Qed.
(** A search that raises leaves the object as it was. *)
Theorem C50_exception : forall (O : Type) rd eng (cls : lhs_class O) enum (m m' : mitm O) e,
  find_clicks rd eng cls enum m = (m', Raise e) -> m' = m.
Proof.
  intros O rd eng cls enum m m' e. unfold find_clicks.
  destruct (let* gen := enum (mi_target m) in find_clicks_loop rd eng cls (mi_trunc m) (mi_table m) gen); intros H; now inversion H.
Qed.
(** ULCD: the enumerator re-uses one object for all left-hand sides, and yet the clicks are those of separate ones. *)
Theorem C50_ulcd : forall rd eng trunc t rs x en o acc, uenum_new rs x = Ok en -> ~ (x == 0)%Q -> table_ok t ->
  ugen_for rd (click_consumer rd eng trunc t) en [] = Ok ((o, acc), Ok tt) ->
  exists ys css, ugen_list rd en = Ok ys /\ acc = List.concat css /\
    Forall2 (fun pv cs => clicks_of rd eng (ulcd_class rd) trunc t (mkUlcd (fst pv) x (snd pv)) cs /\
               Forall (fun c => ck_obj c = mkUlcd (fst pv) x (snd pv)) cs) ys css.
Proof.
  intros rd eng trunc t rs x en o acc HN HX [ND _] HU.
  assert (EX : ue_x en = x).
  { unfold uenum_new in HN. destruct rs as [|ru [|rl [|rc [|rdd [|]]]]]; try discriminate.
    destruct (ulc_range ru); [cbn [bind] in HN|discriminate]. destruct (ulc_range rl); [cbn [bind] in HN|discriminate].
    destruct (ulc_range rc); [cbn [bind] in HN|discriminate]. destruct (d_range rdd); [cbn [bind] in HN|discriminate]. now inversion HN. }
  rewrite <- EX in HX. destruct (consumer_list rd eng trunc t en HX) as (ys & o' & acc' & r & HL & HU' & HC).
  rewrite HU in HU'. inversion HU'; subst o' acc' r. apply find_clicks_iff in HC; [|exact ND]. cbn [fst snd] in HC.
  destruct HC as (_ & css & HF & ->). exists ys, css. split; [exact HL|]. split; [reflexivity|].
  destruct (Properties_ULCD.C39_enum rd rs x en HN) as (? & ? & ? & ? & ? & ? & ? & ? & ys' & ? & _ & _ & _ & _ & _ & HL' & _ & _ & HV & _).
  { now rewrite <- EX. }
  rewrite HL in HL'. inversion HL'; subst ys'. clear HL'. rewrite EX in HF.
  clear - HF HV. revert css HF. induction ys as [|[p v] ys IH]; intros css HF; inversion HF as [|? cs ? css' HC HF' E]; subst; constructor.
  - split; [exact HC|]. cbn [fst snd] in *. specialize (HV p v (or_introl eq_refl)).
    inversion HC as [| |k s l o1 cs' HK HT HI HD H2]; subst; try constructor.
    cbn in HD. inversion HD; subst o1. clear - H2 HV. induction H2 as [|e c l cs (ab & i & o' & -> & HO & ->) H2 IH]; constructor; [|exact IH].
    cbn in *. unfold ulcd_copy in HO. cbn [ul_params ul_const] in HO. congruence.
  - apply IH; [intros; apply HV; now right|exact HF'].
Qed.
Example C50_ex :
  map (fun c => (ck_ab c, ul_params (ck_obj c), ck_ind c)) (mi_params (fst (find_clicks (rnd 60) eng6 (ulcd_class (rnd 60))
    (fun x => Ok ([mkUlcd (2, -2, 0, 1) x (-17 # 7); mkUlcd (0, 3, 1, 1) x (1 # 3); mkUlcd (1, -1, 0, 1) x (24 # 7); mkUlcd (3, 3, 0, 1) x (3 # 7)], Ok tt))
    {| mi_enum := {| en_class := PNormal; en_special := None |}; mi_iters := 6; mi_exp_only := true; mi_target := (22 # 7); mi_name := txt "pi";
       mi_filter := [0]; mi_trunc := true; mi_hprec := 6; mi_prec := 60; mi_table := t_ex; mi_funcs := []; mi_params := [] |}))) =
  [(([[1; 2]], [[3]]), (2, -2, 0, 1), 0); (([[5]], [[1; 1]]), (2, -2, 0, 1), 1);
   (([[1; 2]], [[3]]), (3, 3, 0, 1), 0); (([[5]], [[1; 1]]), (3, 3, 0, 1), 1)] /\ table_ok t_ex.
Proof.
  split; [vm_compute; reflexivity|]. split.
  - cbn. constructor; [intros [E|[]]; discriminate|]. constructor; [intros []|constructor].
  - cbn. intros q v [E|[E|[]]]; inversion E; eauto.
Qed.

(** ---- C51 ---- *)
(** A round succeeds exactly when every click can be decided (kept or dropped, which exclude each other) and then gives the kept ones in order. *)
Theorem C51_refine : forall (O : Type) rd eng (cls : lhs_class O) funcs trunc ev accuracy cs cs',
  refine rd eng cls funcs trunc ev accuracy cs = (cs', Ok tt) <->
  selects (kept rd eng cls funcs trunc ev accuracy) (dropped rd eng cls funcs trunc ev accuracy) cs cs'.
Proof. intros. apply refine_iff. Qed.
Theorem C51_exclusive : forall (O : Type) rd eng (cls : lhs_class O) funcs trunc ev accuracy c c1 c2,
  kept rd eng cls funcs trunc ev accuracy c c1 ->
  ~ dropped rd eng cls funcs trunc ev accuracy c /\ (kept rd eng cls funcs trunc ev accuracy c c2 -> c2 = c1).
Proof.
  intros O rd eng cls funcs trunc ev accuracy c c1 c2 H. split; [intros D; eapply kept_dropped; eauto|].
  intros H2. apply kept_refine in H, H2. congruence.
Qed.
(** A round that raises keeps every click (no click is lost), those before the failing one with their objects already adjusted. *)
Theorem C51_exception : forall (O : Type) rd eng (cls : lhs_class O) funcs trunc ev accuracy cs cs' e,
  refine rd eng cls funcs trunc ev accuracy cs = (cs', Raise e) ->
  length cs' = length cs /\
  Forall2 (fun c c' => ck_ab c' = ck_ab c /\ ck_ind c' = ck_ind c /\ ck_conv c' = ck_conv c) cs cs'.
Proof.
  intros O rd eng cls funcs trunc ev accuracy cs cs' e H. apply refine_raise in H.
  destruct H as (done & c & rest & done' & c' & -> & -> & HF & HE).
  assert (G : Forall2 (fun c c' : click O => ck_ab c' = ck_ab c /\ ck_ind c' = ck_ind c /\ ck_conv c' = ck_conv c) (done ++ c :: rest) (done' ++ c' :: rest)).
  { apply Forall2_app.
    - clear - HF. induction HF as [|x y l l' HX HF IH]; constructor; [|exact IH].
      destruct HX as [(r & l0 & n & o1 & o2 & o3 & _ & _ & _ & _ & _ & _ & _ & ->)|[_ ->]]; cbn; auto.
    - constructor.
      + destruct c as [[[ab o] i] info]. unfold refine_one in HE.
        destruct (let* f := py_nth funcs i in let* v := ev ab accuracy info in f v) as [sr|e0].
        * destruct (negb (isnormal (absv sr))); [inversion HE; subst; cbn; auto|].
          destruct (let* rhs' := trunc_int rd trunc (absv sr) in let* lhs' := trunc_int rd trunc (absv (lc_val cls o)) in compare_texts eng rhs' lhs' accuracy) as [[|]|e1];
            [|inversion HE; subst; cbn; auto|inversion HE; subst; cbn; auto].
          destruct (if opposite (lc_val cls o) sr then lc_flip cls o else (o, Ok tt)) as [o1 [[]|e2]]; [|inversion HE; subst; cbn; auto].
          destruct (int_diff rd sr _) as [n|e3]; [|inversion HE; subst; cbn; auto].
          destruct (lc_add cls n o1) as [o2 [[]|e4]]; [|inversion HE; subst; cbn; auto].
          destruct (lc_canon cls o2) as [o3 [[]|e5]]; inversion HE; subst; cbn; auto.
        * destruct e0; inversion HE; subst; cbn; auto.
      + clear. induction rest; constructor; auto. }
  split; [symmetry; exact (Enum_Proofs.Forall2_len _ _ _ G)|exact G].
Qed.

(** ---- C52 ---- *)
(** Exact arithmetic, ULCD: the new left-hand side is the old one or its negative plus an integer, it has the sign of the right-hand side
    (or is 0), lies between the (possibly negated) old one and the right-hand side and is less than 1 away from the latter. *)
Theorem C52_ulcd : forall eng funcs trunc ev accuracy c c',
  faithful exq (ck_obj c) -> kept exq eng (ulcd_class exq) funcs trunc ev accuracy c c' ->
  faithful exq (ck_obj c') /\
  exists r n, rhs_of funcs ev accuracy c (Ok (Fin r)) /\
    (ul_val (ck_obj c') == ul_val (ck_obj c) + inject_Z n \/ ul_val (ck_obj c') == - ul_val (ck_obj c) + inject_Z n)%Q /\
    (0 <= r * ul_val (ck_obj c') /\ Qabs (r - ul_val (ck_obj c')) < 1)%Q.
Proof.
  intros eng funcs trunc ev accuracy c c' HG HK.
  destruct (kept_value (ulcd_class exq) (faithful exq) ulcd_flip_val ulcd_add_val eng funcs trunc ev accuracy c c' HG HK)
    as (r & l & l' & n & o2 & HR & HL & HG2 & HL2 & HC & l1 & H1 & H2 & H3 & H4 & H5).
  cbn in HC, HL, HL2. inversion HC; subst o2. inversion HL; subst l. inversion HL2; subst l'.
  split; [exact HG2|]. exists r, n. split; [exact HR|]. split; [|split; [|exact H5]].
  - destruct H1 as [E|E]; [left|right]; rewrite H3, E; reflexivity.
  - destruct H4 as [[A B]|[A B]]; destruct (Qlt_le_dec r 0); destruct (Qlt_le_dec l1 0); destruct (Qlt_le_dec (ul_val (ck_obj c')) 0); try nra.
Qed.

(** Rational functions of Decimals: the same for the value before the final canonicalization, which keeps the value or, for an integer value, turns it into NaN. *)
Lemma run_app kind rd pgcd a : forall b o, rf_run kind rd pgcd (a ++ b) o =
  let (o1, r1) := rf_run kind rd pgcd a o in let (o2, r2) := rf_run kind rd pgcd b o1 in (o2, r1 ++ r2).
Proof.
  induction a as [|op a IH]; intros b o; cbn [app rf_run]; [destruct (rf_run kind rd pgcd b o); reflexivity|].
  destruct (rf_step kind rd pgcd o op) as [o1 out]. rewrite IH.
  destruct (rf_run kind rd pgcd a o1) as [o2 r2]. destruct (rf_run kind rd pgcd b o2) as [o3 r3]. reflexivity.
Qed.
Lemma reached_step kind rd pgcd x o op o' : Properties_Rational.reached kind rd pgcd x o -> rf_step kind rd pgcd o op = (o', Ok tt) ->
  Properties_Rational.reached kind rd pgcd x o'.
Proof.
  intros (p0 & o0 & ops & outs & N & R & L) HS. exists p0, o0, (ops ++ [op]), (outs ++ [Ok tt]).
  split; [exact N|]. split; [rewrite run_app, R; cbn [rf_run]; rewrite HS; reflexivity|]. apply last_last.
Qed.
Theorem C52_rational : forall pgcd inv x eng funcs trunc ev accuracy c c',
  Properties_Rational.reached KDecimal (fun q => q) pgcd x (ck_obj c) ->
  (forall p q, gcd_for pgcd p q) ->
  kept (fun q => q) eng (rat_class KDecimal (fun q => q) pgcd inv) funcs trunc ev accuracy c c' ->
  Properties_Rational.reached KDecimal (fun q => q) pgcd x (ck_obj c') /\
  exists r l l' n, rhs_of funcs ev accuracy c (Ok (Fin r)) /\ rf_val (ck_obj c) = Fin l /\
    (l' == l + inject_Z n \/ l' == - l + inject_Z n)%Q /\ (0 <= r * l' /\ Qabs (r - l') < 1)%Q /\
    ((exists v, rf_val (ck_obj c') = Fin v /\ (v == l')%Q) \/ (rf_val (ck_obj c') = NaN /\ exists z, (l' == inject_Z z)%Q)).
Proof.
  intros pgcd inv x eng funcs trunc ev accuracy c c' HG HGC HK.
  pose (good := Properties_Rational.reached KDecimal (fun q => q) pgcd x).
  assert (FV : forall o o' l, good o -> lc_flip (rat_class KDecimal (fun q => q) pgcd inv) o = (o', Ok tt) -> lc_val (rat_class KDecimal (fun q => q) pgcd inv) o = Fin l ->
    good o' /\ exists l', lc_val (rat_class KDecimal (fun q => q) pgcd inv) o' = Fin l' /\ (l' == - l)%Q).
  { intros o o' l H1 H2 H3. cbn in H2, H3 |- *. split; [apply (reached_step KDecimal (fun q => q) pgcd x o RFlip o' H1 H2)|].
    destruct (Properties_Rational.C43_flip KDecimal (fun q => q) pgcd x o) as (o1 & E1 & E2 & _); [intros a b E; exact E|reflexivity|exact H1|].
    rewrite H2 in E1. inversion E1; subst o1. rewrite H3 in E2. destruct (rf_val o') as [v|]; [|destruct E2]. eauto. }
  assert (AV : forall o o' l n, good o -> lc_add (rat_class KDecimal (fun q => q) pgcd inv) n o = (o', Ok tt) -> lc_val (rat_class KDecimal (fun q => q) pgcd inv) o = Fin l ->
    good o' /\ exists l', lc_val (rat_class KDecimal (fun q => q) pgcd inv) o' = Fin l' /\ (l' == l + inject_Z n)%Q).
  { intros o o' l n H1 H2 H3. cbn in H2, H3 |- *. split; [apply (reached_step KDecimal (fun q => q) pgcd x o (RAdd n) o' H1 H2)|].
    destruct (Properties_Rational.C43_add_int KDecimal pgcd x o n H1) as (o1 & E1 & E2 & _).
    rewrite H2 in E1. inversion E1; subst o1. rewrite H3 in E2. destruct (rf_val o') as [v|]; [|destruct E2]. eauto. }
  destruct (kept_value (rat_class KDecimal (fun q => q) pgcd inv) good FV AV eng funcs trunc ev accuracy c c' HG HK)
    as (r & l & l' & n & o2 & HR & HL & HG2 & HL2 & HC & l1 & H1 & H2 & H3 & H4 & H5).
  cbn in HC, HL, HL2.
  split; [apply (reached_step KDecimal (fun q => q) pgcd x o2 RCanon _ HG2 HC)|].
  exists r, l, l', n. split; [exact HR|]. split; [exact HL|]. split; [|split; [split; [|exact H5]|]].
  - destruct H1 as [E|E]; [left|right]; rewrite H3, E; reflexivity.
  - destruct H4 as [[A B]|[A B]]; destruct (Qlt_le_dec r 0); destruct (Qlt_le_dec l1 0); destruct (Qlt_le_dec l' 0); try nra.
  - destruct (Properties_Rational.C43_canonicalize KDecimal pgcd x o2 (ck_obj c') l' HG2 (HGC _ _) HL2 HC) as [H|[E1 E2]]; [left; exact H|right; eauto].
Qed.

(** When the fractional parts of the absolute values are at most d apart, the difference is at most d or at least 1 - d... *)
Theorem C52_near : forall eng funcs trunc ev accuracy c c' r d,
  faithful exq (ck_obj c) -> kept exq eng (ulcd_class exq) funcs trunc ev accuracy c c' ->
  rhs_of funcs ev accuracy c (Ok (Fin r)) ->
  (Qabs (frac (Qabs r) - frac (Qabs (ul_val (ck_obj c)))) <= d)%Q ->
  (Qabs (r - ul_val (ck_obj c')) <= d \/ 1 - d <= Qabs (r - ul_val (ck_obj c')))%Q.
Proof.
  intros eng funcs trunc ev accuracy c c' r d HG HK HR HD.
  destruct (kept_value (ulcd_class exq) (faithful exq) ulcd_flip_val ulcd_add_val eng funcs trunc ev accuracy c c' HG HK)
    as (r' & l & l' & n & o2 & HR' & HL & HG2 & HL2 & HC & l1 & H1 & H2 & H3 & H4 & H5).
  pose proof (rhs_fun _ _ _ _ _ _ HR HR') as ER. inversion ER; subst r'.
  cbn in HC, HL, HL2. inversion HC; subst o2. inversion HL; subst l. inversion HL2; subst l'.
  apply (near_01 r l1 (ul_val (ck_obj c')) d n H2 H3 H5).
  assert (EA : (frac (Qabs l1) == frac (Qabs (ul_val (ck_obj c))))%Q).
  { apply frac_comp. destruct H1 as [E|E]; rewrite E; [reflexivity|apply Qabs_opp]. }
  rewrite EA. exact HD.
Qed.
(** ...and the second case does occur: "the adjusted left-hand side is close to the right-hand side" is false. *)
Definition eng7 (q : Q) : res text :=
  Ok (z_text (Qfloor q) ++ txt "." ++ digits_of 7 (Qfloor ((q - inject_Z (Qfloor q)) * 10000000))).
Theorem C52_close_refuted : exists funcs ev (c c' : click ulcd),
  faithful exq (ck_obj c) /\ kept exq eng7 (ulcd_class exq) funcs true ev 4 c c' /\
  rhs_of funcs ev 4 c (Ok (Fin (53 # 10))) /\ (ul_val (ck_obj c') == 43000001 # 10000000)%Q.
Proof.
  exists [fun v => Ok v], (fun _ _ _ => Ok (Fin (53 # 10))),
    (([[1]], [[1]]), mkUlcd (0, 1, 0, 1) (23000001 # 10000000) (ulcd_rval exq (23000001 # 10000000) (0, 1, 0, 1)), 0, None).
  match goal with |- exists c', _ /\ kept ?rd ?eng ?cls ?fs ?t ?ev ?a ?c c' /\ _ /\ _ =>
    destruct (refine_one rd eng cls fs t ev a c) as [c' x] eqn:E end.
  exists c'. split; [split; [cbn; repeat split; discriminate|reflexivity]|].
  pose proof E as E2. vm_compute in E2. assert (x = Ok true) as -> by congruence. split; [|split].
  - pose proof (refine_one_spec exq eng7 (ulcd_class exq) [fun v => Ok v] true (fun _ _ _ => Ok (Fin (53 # 10))) 4 _ _ _ E) as HS. exact HS.
  - exists (fun v => Ok v). split; [reflexivity|]. right. eexists. split; reflexivity.
  - inversion E2. reflexivity.
Qed.
(** A later round does not repair this as long as the recomputed right-hand side stays less than 1 away: it adds 0. *)
Theorem C52_not_repaired : forall eng funcs trunc ev accuracy c c' r,
  faithful exq (ck_obj c) -> kept exq eng (ulcd_class exq) funcs trunc ev accuracy c c' ->
  rhs_of funcs ev accuracy c (Ok (Fin r)) ->
  (0 <= r * ul_val (ck_obj c))%Q -> (Qabs (r - ul_val (ck_obj c)) < 1)%Q ->
  (ul_val (ck_obj c') == ul_val (ck_obj c))%Q.
Proof.
  intros eng funcs trunc ev accuracy c c' r HG (r' & l & n & o1 & o2 & o3 & HR & HN & HL & HS & HF & HA & HC & ->) HR' HP HD.
  pose proof (rhs_fun _ _ _ _ _ _ HR' HR) as ER. inversion ER; subst r'. cbn in HL. inversion HL; subst l.
  destruct HF as [(X & _)|(_ & -> & HW)]; [lra|].
  assert (N0 : n = 0).
  { apply Qabs_Qlt_condition in HD. unfold exq in HW. apply (whole_unique (r - ul_val (ck_obj c))); [exact HW|].
    split; intros; change (inject_Z 0) with 0%Q; lra. }
  subst n. destruct (ulcd_add_val (ck_obj c) o2 (ul_val (ck_obj c)) 0 HG HA eq_refl) as (_ & l' & EL & EV).
  cbn in HC. inversion HC; subst o3. cbn in EL |- *. inversion EL; subst l'. rewrite EV. change (inject_Z 0) with 0%Q. ring.
Qed.
Example C51_ex : map (fun c => (ck_ab c, ul_params (ck_obj c))) (fst (refine exq eng7 (ulcd_class exq) [fun v => Ok v] true
    (fun ab _ _ => if ab_eqb ab ([[1]], [[1]]) then Ok (Fin (-53 # 10)) else if ab_eqb ab ([[2]], [[2]]) then Raise ZeroDivisionError else Ok (Fin (53 # 10))) 4
    [(([[1]], [[1]]), mkUlcd (0, 1, 0, 1) (23 # 10) (23 # 10), 0, None);
     (([[2]], [[2]]), mkUlcd (0, 1, 0, 1) (23 # 10) (23 # 10), 0, None);
     (([[3]], [[3]]), mkUlcd (0, 1, 0, 2) (23 # 10) (23 # 20), 0, None);
     (([[4]], [[4]]), mkUlcd (0, 1, 0, 1) (23 # 10) (23 # 10), 0, None)])) =
  [(([[1]], [[1]]), (0, 1, 3, -1)); (([[4]], [[4]]), (0, 1, 3, 1))].
Proof. vm_compute. reflexivity. Qed.
Example C52_ex : exists (c c' : click ulcd), faithful exq (ck_obj c) /\
  kept exq eng7 (ulcd_class exq) [fun v => Ok v] true (fun _ _ _ => Ok (Fin (-53 # 10))) 4 c c' /\ (ul_val (ck_obj c') == -53 # 10)%Q.
Proof.
  exists (([[1]], [[1]]), mkUlcd (0, 1, 0, 1) (23 # 10) (ulcd_rval exq (23 # 10) (0, 1, 0, 1)), 0, None).
  match goal with |- exists c', _ /\ kept ?rd ?eng ?cls ?fs ?t ?ev ?a ?c c' /\ _ =>
    destruct (refine_one rd eng cls fs t ev a c) as [c' x] eqn:E end.
  exists c'. split; [split; [cbn; repeat split; discriminate|reflexivity]|].
  pose proof E as E2. vm_compute in E2. assert (x = Ok true) as -> by congruence. split; [|inversion E2; reflexivity].
  pose proof (refine_one_spec exq eng7 (ulcd_class exq) [fun v => Ok v] true (fun _ _ _ => Ok (Fin (-53 # 10))) 4 _ _ _ E) as HS. exact HS.
Qed.

(** ---- C53 ---- *)
(** ULCD: the answer never raises for the tuples that occur (l, d not 0); the result is the sub-list of the elements for which every kept element
    before says "not equivalent"; every dropped one is equivalent to a kept one before; no two of the result are equivalent (in order);
    filtering again changes nothing. *)
Theorem C53_ulcd : forall rd (cs : list (click ulcd)), Forall (fun c => okp (ul_params (ck_obj c))) cs ->
  exists us, filter_uniq (ulcd_class rd) cs = (us, Ok tt) /\
    (exists fs, first_flags (equiv_answer (ulcd_class rd)) cs fs /\ us = picks fs cs) /\
    ForallOrdPairs (fun u c => equiv_answer (ulcd_class rd) u c = Ok false) us /\
    filter_uniq (ulcd_class rd) us = (us, Ok tt).
Proof.
  intros rd cs H. destruct (ulcd_uniq_total rd cs H) as (us & E). exists us. split; [exact E|]. now apply ulcd_uniq_spec.
Qed.
(** What is lost is represented: below 2^25 every dropped click has a kept one with the same function index, the same fraction up to sign and a
    left-hand side of the same absolute value at every argument. *)
Theorem C53_ulcd_represented : forall rd (cs us : list (click ulcd)) c,
  Forall (fun c => okp (ul_params (ck_obj c)) /\ small (2 ^ 25) (ul_params (ck_obj c))) cs ->
  filter_uniq (ulcd_class rd) cs = (us, Ok tt) -> In c cs ->
  exists u, In u us /\ (u = c \/
    (ck_ind u = ck_ind c /\ snd (ck_ab u) = snd (ck_ab c) /\
     (fst (ck_ab u) = fst (ck_ab c) \/ (ck_ind u = 0 /\ fst (ck_ab u) = map (map Z.opp) (fst (ck_ab c)))) /\
     forall x, ~ (x == 0)%Q -> (Qabs (ulcd_fun (ul_params (ck_obj u)) x) == Qabs (ulcd_fun (ul_params (ck_obj c)) x))%Q)).
Proof.
  intros rd cs us c HF HU HI. destruct (ulcd_uniq_spec rd cs us HU) as ((fs & (HL & HX) & ->) & _).
  assert (PK : forall (l : list (click ulcd)) fs j u, nth_error fs j = Some true -> nth_error l j = Some u -> In u (picks fs l)).
  { clear. induction l as [|a l IH]; intros fs j u H1 H2; destruct j as [|j]; cbn in H2; try discriminate.
    - inversion H2; subst. destruct fs as [|[] fs]; cbn in H1; try discriminate. now left.
    - destruct fs as [|[] fs]; cbn in H1; try discriminate; cbn; [right|]; eauto. }
  apply In_nth_error in HI. destruct HI as (k & HK).
  destruct (HX k c HK) as [(HT & _)|(HT & j & u & HJ & HJT & HJU & HE)].
  - exists c. split; [eapply PK; eauto|now left].
  - exists u. split; [eapply PK; eauto|]. right.
    rewrite Forall_forall in HF. destruct (HF u (nth_error_In _ _ HJU)) as [O1 S1]. destruct (HF c (nth_error_In _ _ HK)) as [O2 S2].
    unfold equiv_answer in HE. cbn in HE.
    destruct (ulcd_equiv_true _ _ _ _ _ _ O1 O2 S1 S2 HE) as (E1 & E2 & E3 & E4).
    repeat split; auto.
Qed.
(** Rational functions (Decimals): the same up to the canonical form, into which is_equiv brings the objects. *)
Theorem C53_rational : forall rd pgcd inv (cs us : list (click rfun)), Forall (fun c => good_rf rd pgcd (ck_obj c)) cs ->
  filter_uniq (rat_class KDecimal rd pgcd inv) cs = (us, Ok tt) ->
  (exists fs, first_flags (equiv_answer (rat_class KDecimal rd pgcd inv)) cs fs /\ Forall2 (same_rc rd pgcd) (picks fs cs) us) /\
  ForallOrdPairs (fun u c => equiv_answer (rat_class KDecimal rd pgcd inv) u c = Ok false) us /\
  exists us', filter_uniq (rat_class KDecimal rd pgcd inv) us = (us', Ok tt) /\ Forall2 (same_rc rd pgcd) us us'.
Proof. intros. now apply rat_uniq_spec. Qed.
Theorem C53_exception : forall (O : Type) (cls : lhs_class O) cs cs' e, filter_uniq cls cs = (cs', Raise e) -> cs' = cs.
Proof. intros O cls cs cs' e. unfold filter_uniq. destruct (uniq_loop cls [] cs) as [us [[]|e']]; intros H; now inversion H. Qed.
Definition uck (a b : list Z) (p : Z * Z * Z * Z) : click ulcd := (([a], [b]), mkUlcd p 1 0, 0, None).
Example C53_ex : filter_uniq (ulcd_class (rnd 60)) [uck [1; 2] [3] (6, 2, 0, 10); uck [1; 2] [4] (6, 2, 0, 10); uck [-1; -2] [3] (3, 4, 0, 5); uck [1; 2] [3] (3, 5, 0, 5)] =
  ([uck [1; 2] [3] (6, 2, 0, 10); uck [1; 2] [4] (6, 2, 0, 10); uck [1; 2] [3] (3, 5, 0, 5)], Ok tt) /\
  okp (6, 2, 0, 10) /\ small (2 ^ 25) (6, 2, 0, 10).
Proof. split; [vm_compute; reflexivity|]. cbn. repeat split; lia. Qed.

(** ---- C54 ---- *)
Theorem C54_filter : forall (O : Type) eng (cls : lhs_class O) est target w b (cs r : list (click O)),
  filter_approach eng cls est target w b cs = (r, Ok tt) <->
  (nonempty w /\ ~ nonempty b \/ ~ nonempty w /\ nonempty b) /\
  selects (fun c c' => exists cf t p, fresh_cf target c cf /\ est cf = Ok (t, p) /\ wanted w b t /\ c' = with_conv c (t, p))
          (fun c => exists cf, fresh_cf target c cf /\
             ((exists e, est cf = Raise e /\ e <> KeyboardInterrupt /\ printable eng cls c) \/ exists t p, est cf = Ok (t, p) /\ ~ wanted w b t)) cs r.
Proof. intros. apply filter_approach_iff. Qed.
(** None or both lists given: ValueError and the clicks stay. *)
Theorem C54_arguments : forall (O : Type) eng (cls : lhs_class O) est target w b (cs : list (click O)), (nonempty w <-> nonempty b) ->
  filter_approach eng cls est target w b cs = (cs, Raise ValueError).
Proof.
  intros O eng cls est target w b cs H. rewrite <- !given_iff in H. unfold filter_approach.
  destruct (given w), (given b); cbn; try reflexivity; exfalso; [assert (false = true) by now apply H|assert (false = true) by now apply H]; discriminate.
Qed.
(** Otherwise only an interrupt, a fraction that cannot be made, or the printing of a click that cannot be classified ends the filtering, and then the clicks stay. *)
Theorem C54_exception : forall (O : Type) eng (cls : lhs_class O) est target w b (cs r : list (click O)) e,
  filter_approach eng cls est target w b cs = (r, Raise e) -> ~ (nonempty w <-> nonempty b) -> r = cs /\
    ((exists c cf, In c cs /\ fresh_cf target c cf /\ est cf = Raise KeyboardInterrupt /\ e = KeyboardInterrupt) \/
     (exists c cf e', In c cs /\ fresh_cf target c cf /\ est cf = Raise e' /\ e' <> KeyboardInterrupt /\ engv eng (lc_val cls (ck_obj c)) = Raise e) \/
     (exists c, In c cs /\ cf_new (Nested (fst (ck_ab c))) (Nested (snd (ck_ab c))) true None None target false = Raise e)).
Proof.
  intros O eng cls est target w b cs r e H HN. destruct (filter_approach_raise eng cls est target w b cs r e H) as [E [[HW _]|HX]]; [contradiction|]. auto.
Qed.
Example C54_ex :
  let est := fun cf : contfrac => match pa (cf_params cf) with [[1; _]] => Ok (ATExp, APNone) | [[2; _]] => Raise ZeroDivisionError | _ => Ok (ATPoly, APNone) end in
  let cs := [uck [1; 2] [3] (6, 2, 0, 10); uck [2; 2] [3] (6, 2, 0, 10); uck [3; 2] [3] (6, 2, 0, 10)] in
  (forall w, ~ nonempty (A := atype) w -> nonempty (A := atype) (Some [ATPoly])) /\
  filter_approach eng7 (ulcd_class (rnd 60)) est None (Some [ATExp]) (Some []) cs = ([with_conv (uck [1; 2] [3] (6, 2, 0, 10)) (ATExp, APNone)], Ok tt) /\
  filter_approach eng7 (ulcd_class (rnd 60)) est None None (Some [ATExp]) cs = ([with_conv (uck [3; 2] [3] (6, 2, 0, 10)) (ATPoly, APNone)], Ok tt) /\
  filter_approach eng7 (ulcd_class (rnd 60)) est None (Some []) None cs = (cs, Raise ValueError) /\
  filter_approach (fun _ => Raise AttributeError) (ulcd_class (rnd 60)) est None None (Some [ATExp]) cs = (cs, Raise AttributeError).
Proof. split; [intros; exists ATPoly, []; reflexivity|]. repeat split; vm_compute; reflexivity. Qed.

(** ---- C55 ---- *)
Section C55.
  Context {O : Type}.
  Variable roots : list Z -> list (Q * Q).
  Definition bad_root (c : click O) : Prop := exists b re im, In b (snd (ck_ab c)) /\ In (re, im) (roots b) /\ int_root (fl (1 # 1000)) re im.
End C55.
Theorem C55_filter : forall (O : Type) roots (cs : list (click O)),
  (forall b re im, In (re, im) (roots b) -> (fl re == re)%Q) ->
  selects (fun c c' => c' = c /\ ~ bad_root roots c) (bad_root roots) cs (filter_pos_roots roots cs).
Proof.
  intros O roots cs HF.
  assert (HB : forall c : click O, existsb int_root_flag (flat_map roots (snd (ck_ab c))) = true <-> bad_root roots c).
  { intros c. rewrite existsb_exists. split.
    - intros ([re im] & HI & HR). apply in_flat_map in HI. destruct HI as (b & Hb & HI). exists b, re, im. split; [exact Hb|]. split; [exact HI|].
      apply int_root_iff; eauto.
    - intros (b & re & im & Hb & HI & HR). exists (re, im). split; [apply in_flat_map; eauto|]. apply int_root_iff; eauto. }
  unfold filter_pos_roots. induction cs as [|c cs IH]; cbn [filter]; [constructor|].
  destruct (existsb int_root_flag (flat_map roots (snd (ck_ab c)))) eqn:E; cbn [negb].
  - apply sel_drop; [now apply HB|exact IH].
  - apply sel_keep; [split; [reflexivity|]|exact IH]. intros HX. apply HB in HX. congruence.
Qed.
Lemma fl1000 : (0 < fl (1 # 1000) /\ fl (1 # 1000) < 1 # 2)%Q.
Proof. split; vm_compute; reflexivity. Qed.
(** Which roots count: with |im| small, n >= 1 and the root in (n - 1/2, n + 1/2): exactly those below n + 0.001 (and above 0.001). *)
Theorem C55_which : forall re im n, (Qabs im < fl (1 # 1000))%Q -> (fl (1 # 1000) < re)%Q ->
  (inject_Z n - (1 # 2) < re < inject_Z n + (1 # 2))%Q ->
  (int_root (fl (1 # 1000)) re im <-> (re < inject_Z n + fl (1 # 1000))%Q).
Proof.
  intros re im n HI HR HN. unfold int_root.
  assert (NE : nearest_even re n).
  { split; [apply Qabs_le_iff; lra|]. intros HE. exfalso. revert HE. apply Qabs_case; intros; lra. }
  split.
  - intros (_ & _ & n' & NE' & HD). assert (n' = n) by (rewrite (nearest_unique _ _ NE); now apply nearest_unique). subst n'. lra.
  - intros HD. repeat split; auto. exists n. split; [exact NE|lra].
Qed.
(** Every positive integer root counts, and so does every root with a fractional part above one half. *)
Theorem C55_integers : forall n im, 1 <= n -> (Qabs im < fl (1 # 1000))%Q -> int_root (fl (1 # 1000)) (inject_Z n) im.
Proof.
  intros n im HN HI. pose proof fl1000 as [F1 F2]. assert (1 <= inject_Z n)%Q by (change 1%Q with (inject_Z 1); now rewrite <- Zle_Qle).
  apply (C55_which (inject_Z n) im n); lra.
Qed.
Theorem C55_above_half : forall re im n, 1 <= n -> (Qabs im < fl (1 # 1000))%Q -> (inject_Z n - (1 # 2) < re < inject_Z n)%Q ->
  int_root (fl (1 # 1000)) re im.
Proof.
  intros re im n HN HI HR. pose proof fl1000 as [F1 F2]. assert (1 <= inject_Z n)%Q by (change 1%Q with (inject_Z 1); now rewrite <- Zle_Qle).
  apply (C55_which re im n); lra.
Qed.
(** So "only clicks with an (almost) integer root are dropped" is false: b = 8 - 5x has the only root 8/5. *)
Theorem C55_only_integers_refuted : exists roots (c : click ulcd),
  (forall b re im, In (re, im) (roots b) -> (fl re == re)%Q /\ im = 0%Q /\ b = [8; -5] /\ (Qabs (re - (8 # 5)) < 1 # 1000000)%Q) /\
  snd (ck_ab c) = [[8; -5]] /\ filter_pos_roots roots [c] = [].
Proof.
  exists (fun b => if list_eq_dec Z.eq_dec b [8; -5] then [(fl (8 # 5), 0%Q)] else []), (uck [1] [8; -5] (1, 1, 1, 1)).
  split; [|split; vm_compute; reflexivity].
  assert (F : (fl (fl (8 # 5)) == fl (8 # 5))%Q /\ (Qabs (fl (8 # 5) - (8 # 5)) < 1 # 1000000)%Q) by (split; vm_compute; reflexivity).
  remember (fl (8 # 5)) as v eqn:EV. clear EV.
  intros b re im H. destruct (list_eq_dec Z.eq_dec b [8; -5]) as [E|E]; [|destruct H]. destruct H as [H|[]]. injection H as <- <-.
  split; [exact (proj1 F)|]. split; [reflexivity|]. split; [exact E|exact (proj2 F)].
Qed.
(** Halves depend on parity. *)
Example C55_ex : int_root_flag (3 # 2, 0%Q) = true /\ int_root_flag (5 # 2, 0%Q) = false /\ int_root_flag (9 # 8, 0%Q) = false /\
  int_root_flag (7 # 1, 0%Q) = true /\ (fl (9 # 8) == 9 # 8)%Q.
Proof. repeat split; vm_compute; reflexivity. Qed.

(** ---- C78: the filter for exponential convergence ---- *)
(** A new fraction for the click for which the test of fast convergence gives [v] and leaves the fraction [cf1]. *)
Definition tested {O} rd target (c : click O) (cf1 : contfrac) (v : res bool) : Prop :=
  exists cf, fresh_cf target c cf /\ cf_is_fast rd 600 200 50 cf = (cf1, v).
Theorem C78_filter : forall (O : Type) rd eng (cls : lhs_class O) est surp target (cs r : list (click O)),
  filter_exp rd eng cls est surp target cs = (r, Ok tt) <->
  selects (fun c c' => c' = c /\ exists cf, fresh_cf target c cf /\ snd (cf_is_fast rd 600 200 50 cf) = Ok true)
          (fun c => exists cf1, tested rd target c cf1 (Ok false) /\ (surp = true -> printable eng cls c /\ exists t, est cf1 = Ok t)) cs r.
Proof.
  intros O rd eng cls est surp target cs r. unfold filter_exp.
  match goal with |- context [filterM ?f cs] => set (step := f) end.
  assert (SK : forall c c', step c = Ok (Some c') <-> c' = c /\ exists cf, fresh_cf target c cf /\ snd (cf_is_fast rd 600 200 50 cf) = Ok true).
  { intros c c'. unfold step, fresh_cf, ck_new. destruct (cf_new _ _ _ _ _ _ _) as [cf|e]; cbn [bind].
    - destruct (cf_is_fast rd 600 200 50 cf) as [cf1 [[|]|e]] eqn:E; cbn [bind]; split.
      + intros H. inversion H. split; [reflexivity|]. exists cf. rewrite E. auto.
      + intros (-> & _). reflexivity.
      + destruct surp; [destruct (print_click eng cls c); [destruct (est cf1)|]; cbn [bind]|]; discriminate.
      + intros (_ & cf' & H1 & H2). inversion H1; subst cf'. rewrite E in H2. discriminate.
      + discriminate.
      + intros (_ & cf' & H1 & H2). inversion H1; subst cf'. rewrite E in H2. discriminate.
    - split; [discriminate|]. intros (_ & cf' & H1 & _). discriminate. }
  assert (SD : forall c, step c = Ok None <-> exists cf1, tested rd target c cf1 (Ok false) /\ (surp = true -> printable eng cls c /\ exists t, est cf1 = Ok t)).
  { intros c. unfold step, tested, fresh_cf, ck_new. destruct (cf_new _ _ _ _ _ _ _) as [cf|e]; cbn [bind].
    - destruct (cf_is_fast rd 600 200 50 cf) as [cf1 [[|]|e]] eqn:E; cbn [bind]; split; try discriminate.
      + intros (cf2 & (cf' & H1 & H2) & _). inversion H1; subst cf'. congruence.
      + intros H. exists cf1. split; [exists cf; auto|]. intros ->. rewrite <- print_click_iff.
        destruct (print_click eng cls c) as [[]|e]; [|discriminate]. split; [reflexivity|]. destruct (est cf1) as [t|e]; [eauto|discriminate].
      + intros (cf2 & (cf' & H1 & H2) & H3). inversion H1; subst cf'. assert (cf2 = cf1) as -> by congruence.
        destruct surp; [|reflexivity]. destruct (H3 eq_refl) as (P & t & ->). apply print_click_iff in P. now rewrite P.
      + intros (cf2 & (cf' & H1 & H2) & _). inversion H1; subst cf'. congruence.
    - split; [discriminate|]. intros (cf2 & (cf' & H1 & _) & _). discriminate. }
  transitivity (filterM step cs = Ok r).
  - destruct (filterM step cs); split; intros H; inversion H; reflexivity.
  - rewrite filterM_iff. split; apply selects_impl; intros; now (apply SK || apply SD).
Qed.
(** In terms of convergents: a click is kept only if at every sampled position the convergents two apart come closer by a factor below 16/17. *)
Theorem C78_meaning : forall (O : Type) rd eng (cls : lhs_class O) est surp target (cs r : list (click O)) c,
  filter_exp rd eng cls est surp target cs = (r, Ok tt) -> In c cs ->
  let a := fst (ck_ab c) in let b := snd (ck_ab c) in
  let P m := contP (icoef a 0) (icoefs a b (map Z.of_nat (seq 1 (Z.to_nat m)))) in
  let Q m := contQ (icoefs a b (map Z.of_nat (seq 1 (Z.to_nat m)))) in
  let x m := (inject_Z (P m) / inject_Z (Q m))%Q in
  let shrinks m := (17 * Qabs (x (m + 4)%Z - x (m + 2)%Z) < 16 * Qabs (x (m + 2)%Z - x m))%Q in
  (forall m, 199 <= m <= 600 -> Q m <> 0) ->
  (In c r <-> forall t, 0 <= t <= 7 -> shrinks (199 + t * 50) /\ shrinks (200 + t * 50)).
Proof.
  intros O rd eng cls est surp target cs r c HF HI a b P Q x shr NZ. apply C78_filter in HF.
  assert (TT : forall cf v, fresh_cf target c cf -> snd (cf_is_fast rd 600 200 50 cf) = Ok v ->
    (v = true <-> forall t, 0 <= t <= 7 -> shr (199 + t * 50) /\ shr (200 + t * 50))).
  { intros cf v HC HV. destruct (cf_is_fast rd 600 200 50 cf) as [cf' v'] eqn:E. cbn in HV. subst v'.
    rewrite (Properties_ContFrac.C70_fast_means_shrinking rd a b true false target cf [] cf (Ok tt) 600 200 50 cf' v); [|exact HC|reflexivity|lia|lia|exact NZ|exact E].
    split; intros H t Ht.
    - apply (H t); lia.
    - intros. apply (H t); lia. }
  assert (HF' : selects (fun c c' => c' = c /\ exists cf, fresh_cf target c cf /\ snd (cf_is_fast rd 600 200 50 cf) = Ok true)
          (fun c => exists cf, fresh_cf target c cf /\ snd (cf_is_fast rd 600 200 50 cf) = Ok false) cs r).
  { eapply selects_impl; [| |exact HF]; [auto|]. intros d _ (cf1 & (cf & H1 & H2) & _). exists cf. rewrite H2. auto. }
  clear HF. rename HF' into HF.
  assert (HD : (exists cf, fresh_cf target c cf /\ snd (cf_is_fast rd 600 200 50 cf) = Ok true) \/
               (exists cf, fresh_cf target c cf /\ snd (cf_is_fast rd 600 200 50 cf) = Ok false)).
  { clear - HF HI. induction HF as [|d d' l r [-> HK] HF IH|d l r HK HF IH]; [destruct HI| |]; (destruct HI as [->|HI]; [auto|auto]). }
  assert (HR : In c r <-> exists cf, fresh_cf target c cf /\ snd (cf_is_fast rd 600 200 50 cf) = Ok true).
  { clear - HF HI. split.
    - clear HI. intros HR. induction HF as [|d d' l r [-> HK] HF IH|d l r HK HF IH]; [destruct HR| |auto]. destruct HR as [->|HR]; auto.
    - intros (cf & H1 & H2). induction HF as [|d d' l r [-> HK] HF IH|d l r HK HF IH]; [destruct HI| |].
      + destruct HI as [->|HI]; [now left|right; auto].
      + destruct HI as [->|HI]; [|auto]. destruct HK as (cf' & H3 & H4). unfold fresh_cf in *. congruence. }
  rewrite HR. split.
  - intros (cf & H1 & H2). now apply (TT cf true H1 H2).
  - intros HS. destruct HD as [H|(cf & H1 & H2)]; [exact H|]. apply (TT cf false H1 H2) in HS. discriminate.
Qed.
Lemma filterM_raise {A B} (f : A -> res (option B)) l e : filterM f l = Raise e -> exists c, In c l /\ f c = Raise e.
Proof.
  induction l as [|c l IH]; cbn [filterM]; [discriminate|]. destruct (f c) as [y|e1] eqn:E; cbn [bind].
  - destruct (filterM f l); cbn [bind]; [discriminate|]. intros H. destruct (IH H) as (d & HD & HE). exists d. split; [now right|exact HE].
  - intros H. exists c. split; [now left|congruence].
Qed.
(** An exception (for instance for a partial numerator 0, or of the classification of a fraction that is to be printed) leaves all clicks. *)
Theorem C78_exception : forall (O : Type) rd eng (cls : lhs_class O) est surp target (cs r : list (click O)) e,
  filter_exp rd eng cls est surp target cs = (r, Raise e) -> r = cs /\ exists c, In c cs /\
    (cf_new (Nested (fst (ck_ab c))) (Nested (snd (ck_ab c))) true None None target false = Raise e \/
     exists cf1, tested rd target c cf1 (Raise e) \/ surp = true /\ tested rd target c cf1 (Ok false) /\ (est cf1 = Raise e \/ engv eng (lc_val cls (ck_obj c)) = Raise e)).
Proof.
  intros O rd eng cls est surp target cs r e. unfold filter_exp. destruct (filterM _ cs) as [l'|e'] eqn:E; [discriminate|].
  intros H. injection H as <- <-. split; [reflexivity|]. apply filterM_raise in E. destruct E as (c & HC & ES). exists c. split; [exact HC|].
  unfold ck_new in ES. destruct (cf_new _ _ _ _ _ _ _) as [cf|e0] eqn:N; cbn [bind] in ES; [|left; congruence]. right.
  destruct (cf_is_fast rd 600 200 50 cf) as [cf1 [[|]|e1]] eqn:F; cbn [bind] in ES; [discriminate| |].
  - destruct surp; [|discriminate]. exists cf1. right. split; [reflexivity|]. split; [exists cf; auto|].
    unfold print_click in ES. destruct (engv eng (lc_val cls (ck_obj c))) as [t|e1]; cbn [bind] in ES; [|right; congruence].
    left. destruct (est cf1); cbn [bind] in ES; [discriminate|congruence].
  - exists cf1. left. exists cf. split; [exact N|]. rewrite F. f_equal. congruence.
Qed.
(** Asking for the surprising fractions to be printed changes nothing but that the printing or the classification of one of them may end the run. *)
Theorem C78_printing : forall (O : Type) rd eng (cls : lhs_class O) est target (cs : list (click O)),
  filter_exp rd eng cls est true target cs = filter_exp rd eng cls est false target cs \/
  exists c cf1 e, In c cs /\ tested rd target c cf1 (Ok false) /\ (est cf1 = Raise e \/ engv eng (lc_val cls (ck_obj c)) = Raise e) /\ filter_exp rd eng cls est true target cs = (cs, Raise e).
Proof.
  intros O rd eng cls est target cs. unfold filter_exp.
  match goal with |- match filterM ?f cs with _ => _ end = match filterM ?g cs with _ => _ end \/ _ => set (f1 := f); set (f2 := g) end.
  assert (H : filterM f1 cs = filterM f2 cs \/ exists c cf1 e, In c cs /\ tested rd target c cf1 (Ok false) /\ (est cf1 = Raise e \/ engv eng (lc_val cls (ck_obj c)) = Raise e) /\ filterM f1 cs = Raise e).
  { induction cs as [|c cs IH]; [now left|]. cbn [filterM].
    assert (S : f1 c = f2 c \/ exists cf1 e, tested rd target c cf1 (Ok false) /\ (est cf1 = Raise e \/ engv eng (lc_val cls (ck_obj c)) = Raise e) /\ f1 c = Raise e).
    { unfold f1, f2, ck_new, tested, fresh_cf. destruct (cf_new _ _ _ _ _ _ _) as [cf|e]; cbn [bind]; [|now left].
      destruct (cf_is_fast rd 600 200 50 cf) as [cf1 [[|]|e1]] eqn:F; cbn [bind]; [now left| |now left].
      unfold print_click. destruct (engv eng (lc_val cls (ck_obj c))) as [s|e] eqn:P; cbn [bind]; [|right; exists cf1, e; repeat split; eauto].
      destruct (est cf1) as [t|e] eqn:E; cbn [bind]; [now left|]. right. exists cf1, e. repeat split; eauto. }
    destruct S as [S|(cf1 & e & S1 & S2 & S3)].
    - rewrite S. destruct IH as [->|(d & cf1 & e & I1 & I2 & I3 & I4)]; [now left|]. destruct (f2 c) as [y|e2]; [|now left].
      right. exists d, cf1, e. split; [now right|]. split; [exact I2|]. split; [exact I3|]. now rewrite I4.
    - right. exists c, cf1, e. split; [now left|]. split; [exact S1|]. split; [exact S2|]. now rewrite S3. }
  destruct H as [->|(c & cf1 & e & H1 & H2 & H3 & ->)]; [now left|]. right. exists c, cf1, e. auto.
Qed.
Example C78_ex : let est := fun _ : contfrac => Raise ValueError in
  map ck_ab (fst (filter_exp (rnd 20) eng7 (ulcd_class (rnd 20)) est false None [uck [1] [2] (1, 1, 1, 1); uck [2] [-1] (1, 1, 1, 1)])) = [([[1]], [[2]])] /\
  snd (filter_exp (rnd 20) eng7 (ulcd_class (rnd 20)) est true None [uck [1] [2] (1, 1, 1, 1); uck [2] [-1] (1, 1, 1, 1)]) = Raise ValueError /\
  snd (filter_exp (rnd 60) eng7 (ulcd_class (rnd 60)) est false None [uck [2] [3; -1] (1, 1, 1, 1); uck [1; 1] [2] (1, 1, 1, 1)]) = Raise (ZeroB 3).
Proof. repeat split; vm_compute; reflexivity. Qed.

(** ---- C77: all stages together ---- *)
Lemma selects_trans {A} (R : A -> A -> Prop) : (forall a b c, R a b -> R b c -> R a c) ->
  forall l m n, selects R (fun _ => True) l m -> selects R (fun _ => True) m n -> selects R (fun _ => True) l n.
Proof.
  intros RT l m n H. revert n. induction H as [|a b l m HR H IH|a l m _ H IH]; intros n H2.
  - exact H2.
  - inversion H2; subst; [apply sel_keep; eauto|apply sel_drop; [exact I|auto]].
  - apply sel_drop; [exact I|auto].
Qed.
Lemma selects_refl {A} (R : A -> A -> Prop) (l : list A) : (forall a, In a l -> R a a) -> selects R (fun _ => True) l l.
Proof. induction l as [|a l IH]; intros H; [constructor|]. apply sel_keep; [apply H; now left|apply IH; intros; apply H; now right]. Qed.
Lemma selects_prop {A} (R : A -> A -> Prop) D (P : A -> Prop) l m : (forall a b, P a -> R a b -> P b) -> Forall P l -> selects R D l m -> Forall P m.
Proof. intros HP HF H. induction H; inversion HF; subst; [constructor|constructor; eauto|eauto]. Qed.
Lemma selects_picks {A} fs : forall l : list A, selects eq (fun _ => True) l (picks fs l).
Proof.
  induction fs as [|[] fs IH]; intros [|a l]; cbn; try constructor; auto.
  - induction l; constructor; auto; constructor; auto.
Qed.

Section Stages.
  Context {O : Type}.
  Variable rd : Q -> Q.
  Variable eng : Q -> res text.
  Variable cls : lhs_class O.
  Variable funcs : list (mpfv -> res mpfv).
  Variable trunc : bool.
  (** One successful step of the search after find_clicks, with any parameters. *)
  Inductive stage : list (click O) -> list (click O) -> Prop :=
  | st_refine : forall ev accuracy cs r, refine rd eng cls funcs trunc ev accuracy cs = (r, Ok tt) -> stage cs r
  | st_uniq : forall cs r, filter_uniq cls cs = (r, Ok tt) -> stage cs r
  | st_exp : forall est surp target cs r, filter_exp rd eng cls est surp target cs = (r, Ok tt) -> stage cs r
  | st_approach : forall est target w b cs r, filter_approach eng cls est target w b cs = (r, Ok tt) -> stage cs r
  | st_roots : forall roots cs, stage cs (filter_pos_roots roots cs).
  Inductive stages : list (click O) -> list (click O) -> Prop :=
  | sts_nil : forall cs, stages cs cs
  | sts_cons : forall cs m r, stage cs m -> stages m r -> stages cs r.
End Stages.
(** The same continued fraction and post-processing function. *)
Definition same_source {O} (c c' : click O) : Prop := ck_ab c' = ck_ab c /\ ck_ind c' = ck_ind c.

Lemma uniq_scan_keys {O} (cls : lhs_class O) us : forall c us' c' x, uniq_scan cls us c = ((us', c'), x) ->
  Forall2 same_source us us' /\ same_source c c'.
Proof.
  assert (SW : forall (c : click O) o, same_source c (ck_with c o)) by (intros [[[ab o0] i] v] o; split; reflexivity).
  induction us as [|u us IH]; intros c us' c' x H; cbn [uniq_scan] in H.
  - inversion H; subst. split; [constructor|split; reflexivity].
  - destruct (lc_equiv cls (ck3 u) (ck3 c)) as [[ou oc] [[|]|e]].
    + inversion H; subst. split; [constructor; [apply SW|]|apply SW]. clear. induction us; constructor; auto. split; reflexivity.
    + destruct (uniq_scan cls us (ck_with c oc)) as [[r' c1] x1] eqn:E. inversion H; subst. apply IH in E. destruct E as [E1 E2].
      split; [constructor; [apply SW|exact E1]|]. destruct (SW c oc), E2. split; congruence.
    + inversion H; subst. split; [constructor; [apply SW|]|apply SW]. clear. induction us; constructor; auto. split; reflexivity.
Qed.
Lemma Forall2_selects {A} (R : A -> A -> Prop) l m : Forall2 R l m -> selects R (fun _ => True) l m.
Proof. induction 1; [constructor|apply sel_keep; assumption]. Qed.
Lemma selects_app {A} (R : A -> A -> Prop) D a b c d : selects R D a b -> selects R D c d -> selects R D (a ++ c) (b ++ d).
Proof. intros H H2. induction H; cbn; [exact H2|apply sel_keep; assumption|apply sel_drop; assumption]. Qed.
Lemma source_trans {O} (a b c : click O) : same_source a b -> same_source b c -> same_source a c.
Proof. intros [A1 A2] [B1 B2]. split; congruence. Qed.
Lemma uniq_keys {O} (cls : lhs_class O) cs : forall us r, uniq_loop cls us cs = (r, Ok tt) ->
  exists r1 r2, r = r1 ++ r2 /\ Forall2 same_source us r1 /\ selects same_source (fun _ => True) cs r2.
Proof.
  induction cs as [|c cs IH]; intros us r H; cbn [uniq_loop] in H.
  - inversion H; subst. exists r, []. split; [now rewrite app_nil_r|]. split; [|constructor]. clear. induction r; constructor; auto. split; reflexivity.
  - destruct (uniq_scan cls us c) as [[us' c'] [dup|e]] eqn:E; [|discriminate].
    apply uniq_scan_keys in E. destruct E as [E1 E2]. apply IH in H. destruct H as (r1 & r2 & -> & H1 & H2). destruct dup.
    + exists r1, r2. split; [reflexivity|]. split; [|apply sel_drop; [exact I|exact H2]].
      clear - E1 H1. revert r1 H1. induction E1; intros r1 H1; inversion H1; subst; constructor; eauto using source_trans.
    + apply Forall2_app_inv_l in H1. destruct H1 as (ra & rb & HA & HB & ->). inversion HB as [|? c2 ? ? HC HB2]; subst. inversion HB2; subst.
      exists ra, (c2 :: r2). split; [now rewrite <- app_assoc|]. split; [|apply sel_keep; [eapply source_trans; eauto|exact H2]].
      clear - E1 HA. revert ra HA. induction E1; intros ra HA; inversion HA; subst; constructor; eauto using source_trans.
Qed.
Lemma stage_source {O} rd eng (cls : lhs_class O) funcs trunc cs r : stage rd eng cls funcs trunc cs r -> selects same_source (fun _ => True) cs r.
Proof.
  intros H. destruct H as [ev accuracy cs r H|cs r H|est surp target cs r H|est target w b cs r H|roots cs].
  - apply refine_iff in H. eapply selects_impl; [| |exact H]; [|intros; exact I].
    intros a b' _ (r0 & l & n & o1 & o2 & o3 & _ & _ & _ & _ & _ & _ & _ & ->). split; reflexivity.
  - unfold filter_uniq in H. destruct (uniq_loop cls [] cs) as [us [[]|e]] eqn:E; inversion H; subst.
    apply uniq_keys in E. destruct E as (r1 & r2 & -> & H1 & H2). inversion H1; subst. exact H2.
  - apply C78_filter in H. eapply selects_impl; [| |exact H]; [|intros; exact I]. intros a b' _ [-> _]. split; reflexivity.
  - apply filter_approach_iff in H. destruct H as [_ H]. eapply selects_impl; [| |exact H]; [|intros; exact I].
    intros a b' _ (cf & t & p & _ & _ & _ & ->). split; reflexivity.
  - unfold filter_pos_roots. induction cs as [|c cs IH]; cbn [filter]; [constructor|].
    destruct (negb _); [apply sel_keep; [split; reflexivity|exact IH]|apply sel_drop; [exact I|exact IH]].
Qed.
(** Whatever stages are run in whatever order, the result is a sub-list of what was found, in order, with the same fractions and functions; nothing is invented. *)
Theorem C77_sublist : forall (O : Type) rd eng (cls : lhs_class O) funcs trunc cs r, stages rd eng cls funcs trunc cs r ->
  selects same_source (fun _ => True) cs r /\
  sublist (map (fun c => (ck_ab c, ck_ind c)) r) (map (fun c => (ck_ab c, ck_ind c)) cs).
Proof.
  intros O rd eng cls funcs trunc cs r H.
  assert (HS : selects same_source (fun _ => True) cs r).
  { induction H as [cs|cs m r H1 H2 IH]; [apply selects_refl; intros; split; reflexivity|].
    eapply selects_trans; [apply source_trans|apply (stage_source _ _ _ _ _ _ _ H1)|exact IH]. }
  split; [exact HS|]. clear H. induction HS as [|a b l m [E1 E2] HS (fs & HL & HP)|a l m _ HS (fs & HL & HP)].
  - exists []. split; reflexivity.
  - exists (true :: fs). cbn. split; [now rewrite HL|]. now rewrite HP, E1, E2.
  - exists (false :: fs). cbn. split; [now rewrite HL|exact HP].
Qed.
(** ULCD in exact arithmetic: the left-hand side of a result is the one found, possibly negated, plus an integer. *)
Definition shifted (c c' : click ulcd) : Prop :=
  exists n, (ul_val (ck_obj c') == ul_val (ck_obj c) + inject_Z n \/ ul_val (ck_obj c') == - ul_val (ck_obj c) + inject_Z n)%Q.
Lemma shifted_trans a b c : shifted a b -> shifted b c -> shifted a c.
Proof.
  intros (n & H1) (m & H2).
  destruct H1 as [H1|H1], H2 as [H2|H2]; [exists (n + m); left|exists (m - n); right|exists (n + m); right|exists (m - n); left];
    rewrite H2, H1; unfold Z.sub; rewrite !inject_Z_plus, ?inject_Z_opp; ring.
Qed.
Theorem C77_values : forall eng funcs trunc cs r, stages exq eng (ulcd_class exq) funcs trunc cs r ->
  Forall (fun c => faithful exq (ck_obj c)) cs ->
  selects (fun c c' => same_source c c' /\ shifted c c') (fun _ => True) cs r /\ Forall (fun c => faithful exq (ck_obj c)) r.
Proof.
  intros eng funcs trunc cs r H. 
  assert (S0 : forall c : click ulcd, same_source c c /\ shifted c c).
  { intros c. split; [split; reflexivity|]. exists 0. left. change (inject_Z 0) with 0%Q. ring. }
  assert (ST : forall a b c : click ulcd, same_source a b /\ shifted a b -> same_source b c /\ shifted b c -> same_source a c /\ shifted a c).
  { intros a b c [A1 A2] [B1 B2]. split; [eapply source_trans; eauto|eapply shifted_trans; eauto]. }
  assert (S1 : forall cs r, stage exq eng (ulcd_class exq) funcs trunc cs r -> Forall (fun c => faithful exq (ck_obj c)) cs ->
    selects (fun c c' => same_source c c' /\ shifted c c') (fun _ => True) cs r /\ Forall (fun c => faithful exq (ck_obj c)) r).
  { clear cs r H. intros cs r H HF.
    assert (KP : forall cs r, Forall (fun c => faithful exq (ck_obj c)) cs -> selects (fun c c' : click ulcd => same_source c c' /\ ck_obj c' = ck_obj c) (fun _ => True) cs r ->
      selects (fun c c' => same_source c c' /\ shifted c c') (fun _ => True) cs r /\ Forall (fun c => faithful exq (ck_obj c)) r).
    { intros cs0 r0 F0 HS. split.
      - eapply selects_impl; [| |exact HS]; [|auto]. intros a b _ [A1 A2]. split; [exact A1|]. exists 0. left. rewrite A2. change (inject_Z 0) with 0%Q. ring.
      - eapply selects_prop; [|exact F0|exact HS]. cbn. intros a b Fa [_ ->]. exact Fa. }
    destruct H as [ev accuracy cs r H|cs r H|est surp target cs r H|est target w b cs r H|roots cs].
    - apply refine_iff in H. split.
      + eapply selects_impl; [| |exact H]; [|auto]. intros a b' Ia HK. rewrite Forall_forall in HF.
        destruct (C52_ulcd _ _ _ _ _ _ _ (HF a Ia) HK) as (_ & r0 & n & _ & HV & _).
        split; [|exists n; exact HV]. destruct HK as (r1 & l & n1 & o1 & o2 & o3 & _ & _ & _ & _ & _ & _ & _ & ->). split; reflexivity.
      + eapply selects_prop; [|exact HF|exact H]. cbn. intros a b' Fa HK. exact (proj1 (C52_ulcd _ _ _ _ _ _ _ Fa HK)).
    - apply KP; [exact HF|]. destruct (ulcd_uniq_spec exq cs r H) as ((fs & _ & ->) & _).
      eapply selects_impl; [| |apply selects_picks]; [|auto]. intros a b' _ <-. split; [split|]; reflexivity.
    - apply KP; [exact HF|]. apply C78_filter in H. eapply selects_impl; [| |exact H]; [|auto]. intros a b' _ [-> _]. split; [split|]; reflexivity.
    - apply KP; [exact HF|]. apply filter_approach_iff in H. destruct H as [_ H]. eapply selects_impl; [| |exact H]; [|auto].
      intros a b' _ (cf & t & p & _ & _ & _ & ->). split; [split|]; reflexivity.
    - apply KP; [exact HF|]. unfold filter_pos_roots. clear HF. induction cs as [|c cs IH]; cbn [filter]; [constructor|].
      destruct (negb _); [apply sel_keep; [split; [split|]; reflexivity|exact IH]|apply sel_drop; [exact I|exact IH]]. }
  induction H as [cs|cs m r H1 H2 IH]; intros HF.
  - split; [apply selects_refl; auto|exact HF].
  - destruct (S1 cs m H1 HF) as [HS HM]. destruct (IH HM) as [HS2 HR]. split; [|exact HR]. eapply selects_trans; eauto.
Qed.
Example C77_ex : stages exq eng7 (ulcd_class exq) [fun v => Ok v] true
  [uck [1; 2] [3] (6, 2, 0, 10); uck [1; 2] [4] (6, 2, 0, 10); uck [-1; -2] [3] (3, 4, 0, 5)]
  [uck [1; 2] [4] (6, 2, 0, 10)].
Proof.
  eapply sts_cons; [apply st_uniq; vm_compute; reflexivity|].
  eapply sts_cons; [apply (st_roots _ _ _ _ _ (fun b => if list_eq_dec Z.eq_dec b [3] then [(2%Q, 0%Q)] else []))|].
  match goal with |- stages _ _ _ _ _ ?l ?r => replace l with r by (vm_compute; reflexivity) end. apply sts_nil.
Qed.

Print Assumptions C50_clicks.
Print Assumptions C50_exception.
Print Assumptions C50_ulcd.
Print Assumptions C51_refine.
Print Assumptions C51_exclusive.
Print Assumptions C51_exception.
Print Assumptions C52_ulcd.
Print Assumptions C52_rational.
Print Assumptions C52_near.
Print Assumptions C52_close_refuted.
Print Assumptions C52_not_repaired.
Print Assumptions C53_ulcd.
Print Assumptions C53_ulcd_represented.
Print Assumptions C53_rational.
Print Assumptions C53_exception.
Print Assumptions C54_filter.
Print Assumptions C54_arguments.
Print Assumptions C54_exception.
Print Assumptions C55_filter.
Print Assumptions C55_which.
Print Assumptions C55_integers.
Print Assumptions C55_above_half.
Print Assumptions C55_only_integers_refuted.
Print Assumptions C78_filter.
Print Assumptions C78_meaning.
Print Assumptions C78_exception.
Print Assumptions C78_printing.
Print Assumptions C77_sublist.
Print Assumptions C77_values.

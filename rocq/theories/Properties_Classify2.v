(** Property C132: every answer of the estimate of the speed of convergence with six or more known factors. *)
From Coq Require Import ZArith QArith Qabs Qpower List Bool Lia Lqa Setoid.
From Verif Require Import PyBase PyBase_Proofs Rnd ContFrac_Model Classify_Model Spec_Classify Classify_Proofs.
From Verif Require Properties_Classify.
Import ListNotations.
Open Scope Z_scope.

(** ---- what is measured ---- *)
Definition total (l : list Q) : Q := fold_right Qplus 0%Q l.
Definition average (l : list Q) : Q := (total l / inject_Z (Z.of_nat (length l)))%Q.
(** the error of the average, relative to the average *)
Definition scatter (root : Q -> Q) (l : list Q) : Q :=
  (root (total (map (fun q => (q - average l) * (q - average l)) l)) / inject_Z (Z.of_nat (length l)) / average l)%Q.
Definition noisy (root : Q -> Q) (l : list Q) : Prop := (1 # 2 < scatter root l)%Q.
(** the last quarter (rounded up) of the factors exceeds 2 *)
Definition steep (l : list Q) : Prop := Forall (fun q => 2 < q)%Q (skipn (3 * (length l / 4)) l).
(** 1.1 as the program has it *)
Definition limit : Q := rnd 53 (11 # 10).
Definition root_ext (root : Q -> Q) : Prop := forall a b, (a == b)%Q -> (root a == root b)%Q.
Definition least (p a b : Q) : Prop := ((p == a /\ a <= b) \/ (p == b /\ b <= a))%Q.
(** the sampled positions of the distances: of the even results for o = 0, of the odd ones for o = 1 *)
Definition positions (idx : list Z) (o : Z) : list Z := flat_map (fun i => [i + o; i + o + 2]) idx.
(** the factor c of a geometric approach c b^-k, from the distance at the position k *)
Definition scale (x : Z -> option Q) (b : Q) (k : Z) : option Q :=
  match gap x k with
  | Some g => if Qeq_bool g 0 then None else Some (Qabs (g * Qpower b k / (1 - Qpower b (-2))))%Q
  | None => None
  end.
Definition scales (x : Z -> option Q) (b : Q) (ks : list Z) : list Q := somes (map (scale x b) ks).

Lemma total_eq l l' : Forall2 Qeq l l' -> (total l == total l')%Q.
Proof. intros F. induction F as [|a b l l' E F IH]; [reflexivity|]. cbn [total fold_right]. fold (total l) (total l'). now rewrite E, IH. Qed.
Lemma average_eq l l' : Forall2 Qeq l l' -> (average l == average l')%Q.
Proof. intros F. unfold average. now rewrite (total_eq _ _ F), (Forall2_len _ _ _ F). Qed.
Lemma average_pos l : l <> [] -> Forall (fun q => (0 < q)%Q) l -> (0 < average l)%Q.
Proof.
  intros N F. unfold average. pose proof (len_pos l N) as P. apply Qlt_shift_div_l; [exact P|]. rewrite Qmult_0_l. destruct F as [|q l H F]; [congruence|]. cbn [total fold_right].
  assert (0 <= fold_right Qplus 0 l)%Q; [|lra]. clear - F. induction F as [|p l P F IH]; cbn [fold_right]; lra.
Qed.
Lemma py_min_least a b : least (py_min a b) a b.
Proof.
  unfold least, py_min. destruct (Qle_bool a b) eqn:E; cbn [negb]; [apply Qle_bool_iff in E; left; split; [reflexivity|exact E]|].
  right. split; [reflexivity|]. apply Qlt_le_weak, Qnot_le_lt. rewrite <- Qle_bool_iff. congruence.
Qed.
Lemma least_eq p a b a' b' : (a == a')%Q -> (b == b')%Q -> least p a b -> least p a' b'.
Proof. intros E F [[H K]|[H K]]; [left|right]; (split; [now rewrite H|now rewrite <- E, <- F]). Qed.

Section Decide.
  Variable rd : Q -> Q.
  Hypothesis RD : exact rd.
  Variables (dps : Z) (root flog : Q -> Q) (linregress : list Q -> list mpfv -> mpfv * mpfv * mpfv).
  Hypothesis RE : root_ext root.
  Variables (x : Z -> option Q) (idx : list Z).
  Notation ds := (delta_pair rd (samples x idx)).
  Notation dos := (delta_odd rd (samples x idx)).
  Notation cl := (classify rd dps root flog linregress (samples x idx)).
  Notation E := (evens_at x idx).
  Notation O := (odds_at x idx).

  Lemma mean_is l l' m : l <> [] -> Forall2 Qeq l l' -> mmean rd l = Ok m -> (m == average l')%Q.
  Proof.
    intros N F H. destruct (mmean_ok rd RD l N) as (m' & H' & V). rewrite H in H'. injection H' as <-. unfold average.
    assert (S : (qsum l == total l')%Q) by exact (total_eq _ _ F). rewrite <- S, <- V, (Forall2_len _ _ _ F).
    pose proof (len_pos l N) as P. rewrite (Forall2_len _ _ _ F) in P. field. lra.
  Qed.
  Lemma spread_is l l' m s r : l <> [] -> Forall2 Qeq l l' -> (m == average l')%Q -> mspread rd root m l = Ok s -> (r == s / m)%Q -> (r == scatter root l')%Q.
  Proof.
    intros N F M H R. unfold mspread in H. assert (LP : ~ (inject_Z (Z.of_nat (length l)) == 0)%Q) by (pose proof (len_pos l N); lra).
    destruct (mdiv_ok rd RD (root (msum rd (map (fun r0 => let d := rsub rd r0 m in rmul rd d d) l))) _ LP) as (s' & H' & V). pose proof (eq_trans (eq_sym H) H') as H2. injection H2 as <-.
    rewrite R, V. unfold scatter. rewrite M, (Forall2_len _ _ _ F).
    rewrite (RE _ (total (map (fun q => (q - average l') * (q - average l'))%Q l'))); [reflexivity|]. rewrite (msum_exact rd RD).
    change (qsum ?z) with (total z). apply total_eq. revert M. generalize (average l'). intros av M. clear - F M RD. induction F as [|a b l l' E F IH]; [constructor|]. cbn [map]. constructor; [|exact IH].
    unfold rmul, rsub. rewrite (RD _), (RD (a - m)%Q), E, M. reflexivity.
  Qed.
  Lemma gtq_eq a b c : (a == b)%Q -> gtq a c = gtq b c.
  Proof. intros H. unfold gtq. now rewrite (Qle_bool_comp a b c c H (Qeq_refl c)). Qed.

  Lemma ev_list : Forall2 Qeq (map snd (ratios rd ds)) E.
  Proof. pose proof (ev_ratios rd RD x idx) as H. induction H; cbn; constructor; auto. Qed.
  Lemma od_list : Forall2 Qeq (map snd (ratios rd dos)) O.
  Proof. pose proof (od_ratios rd RD x idx) as H. induction H; cbn; constructor; auto. Qed.
  Lemma tail_one (pr : list (Z * Q)) l : Forall2 Qeq (map snd pr) l ->
    forallb (fun p => gtq (snd p) 2) (from_pos (3 * (Z.of_nat (length pr) / 4)) pr) = true <-> steep l.
  Proof.
    intros F. unfold from_pos, steep. pose proof (Forall2_len _ _ _ F) as L. rewrite map_length in L.
    replace (Z.to_nat (3 * (Z.of_nat (length pr) / 4))) with (3 * (length l / 4))%nat.
    2:{ rewrite L. change 4 with (Z.of_nat 4) at 1. rewrite <- Nat2Z.inj_div. lia. }
    assert (G : Forall2 Qeq (map snd (skipn (3 * (length l / 4)) pr)) (skipn (3 * (length l / 4)) l)).
    { generalize (3 * (length l / 4))%nat. intros n. clear L. revert pr l F. induction n as [|n IH]; intros pr l F; [exact F|]. destruct pr as [|p pr]; inversion F; subst; [constructor|]. cbn [skipn]. now apply IH. }
    rewrite forallb_forall, Forall_forall. remember (skipn (3 * (length l / 4)) l) as l2 eqn:X2. remember (skipn (3 * (length l / 4)) pr) as l1 eqn:X1. clear X1 X2 L F.
    revert l2 G. induction l1 as [|p l1 IH]; intros l2 G; inversion G as [|a b l3 l4 HE HF]; subst; [split; intros _ ? []|]. specialize (IH _ HF). split.
    - intros H q [<-|I]; [rewrite <- HE; apply gtq_spec; apply H; now left|]. apply IH; [intros z I2; apply H; now right|exact I].
    - intros H z [<-|I]; [apply gtq_spec; rewrite HE; apply H; now left|]. refine (proj2 IH _ z I). intros q I2; apply H; now right.
  Qed.
  Lemma tail_is : tail_above_2 (ratios rd ds) (ratios rd dos) = true <-> steep E /\ steep O.
  Proof. unfold tail_above_2. rewrite forallb_app, andb_true_iff, (tail_one _ _ ev_list), (tail_one _ _ od_list). reflexivity. Qed.

  Lemma decision : (6 <= length E)%nat -> O <> [] -> exists m o t low,
    (m == average E)%Q /\ (o == average O)%Q /\ cl = second_type rd root flog linregress t low m o ds dos /\
    (~ noisy root E /\ ~ noisy root O /\ low = true /\ t <> ATSuperExp \/
     (noisy root E \/ noisy root O) /\ low = false /\ (steep E /\ steep O /\ t = ATSuperExp \/ ~ (steep E /\ steep O) /\ t = ATUndefined)).
  Proof.
    intros H HO. destruct (many rd RD dps root flog linregress x idx H HO (evens_pos x idx) (odds_pos x idx)) as (m & o & rp & ro & EM & EO & M0 & O0 & (sp & ES & VR) & (so & ESO & VRO) & EC).
    pose proof ev_list as EV. pose proof od_list as OD.
    assert (NE : map snd (ratios rd ds) <> []) by (intros K; apply Forall2_len in EV; rewrite K in EV; cbn [length] in EV; lia).
    assert (NO : map snd (ratios rd dos) <> []) by (intros K; apply Forall2_len in OD; rewrite K in OD; symmetry in OD; apply length_zero_iff_nil in OD; contradiction).
    pose proof (mean_is _ _ _ NE EV EM) as VM. pose proof (mean_is _ _ _ NO OD EO) as VO.
    pose proof (spread_is _ _ _ _ _ NE EV VM ES VR) as WP. pose proof (spread_is _ _ _ _ _ NO OD VO ESO VRO) as WO.
    eexists m, o, _, _. split; [exact VM|]. split; [exact VO|]. split; [exact EC|]. clear EC.
    assert (GE : gtq rp half_f = true <-> noisy root E) by (rewrite gtq_spec, WP; reflexivity). assert (GO : gtq ro half_f = true <-> noisy root O) by (rewrite gtq_spec, WO; reflexivity).
    assert (LE : Qle_bool rp half_f = negb (gtq rp half_f)) by (unfold gtq; now rewrite negb_involutive). assert (LO : Qle_bool ro half_f = negb (gtq ro half_f)) by (unfold gtq; now rewrite negb_involutive).
    rewrite LE, LO. rewrite <- GE, <- GO.
    destruct (gtq rp half_f), (gtq ro half_f); cbn [negb andb orb];
      try (right; split; [tauto|]; split; [reflexivity|]; rewrite <- tail_is; destruct (tail_above_2 _ _) eqn:T; [left; apply tail_is in T; tauto|right; split; congruence || (rewrite <- tail_is; congruence)]).
    left. split; [discriminate|]. split; [discriminate|]. split; [reflexivity|].
    unfold first_type. destruct (xorb _ _); [discriminate|]. destruct (_ && _); discriminate.
  Qed.

  (** ---- the distances ---- *)
  Lemma pair_gaps : Forall2 (fun p k => fst p = k /\ meq (snd p) (gap x k)) ds (positions idx 0).
  Proof.
    unfold delta_pair, samples, positions. induction idx as [|i is IH]; [constructor|]. cbn [map flat_map app pair_of_sample six nth]. rewrite !Z.add_0_r.
    constructor; [split; [reflexivity|]; apply (delta_gap' rd RD); lia|]. constructor; [split; [reflexivity|]; apply (delta_gap' rd RD); lia|exact IH].
  Qed.
  Lemma odd_gaps : Forall2 (fun p k => fst p = k /\ meq (snd p) (gap x k)) dos (positions idx 1).
  Proof.
    unfold delta_odd, samples, positions. induction idx as [|i is IH]; [constructor|]. cbn [map flat_map app odd_of_sample six nth].
    constructor; [split; [reflexivity|]; apply (delta_gap' rd RD); lia|]. replace (i + 1 + 2) with (i + 3) by lia. constructor; [split; [reflexivity|]; apply (delta_gap' rd RD); lia|exact IH].
  Qed.
  Lemma coeff_is b k d g : (d == g)%Q -> ~ (Qpower b (-2) == 1)%Q ->
    exists c, coeff_of rd b k d = Ok c /\ (c == Qabs (g * Qpower b k / (1 - Qpower b (-2))))%Q.
  Proof.
    intros V B. unfold coeff_of. assert (N : ~ (rsub rd 1 (rd (Qpower b (-2))) == 0)%Q) by (unfold rsub; rewrite (RD _), (RD _); intros K; apply B; lra).
    destruct (mdiv_ok rd RD (rmul rd d (rd (Qpower b k))) _ N) as (c & -> & C). exists (Qabs c). split; [reflexivity|]. rewrite C. unfold rmul, rsub. rewrite (RD (d * rd (Qpower b k))%Q), (RD (Qpower b k)), (RD (1 - rd (Qpower b (-2)))%Q), (RD (Qpower b (-2))), V. reflexivity.
  Qed.
  Lemma coeffs_are b l ks : ~ (Qpower b (-2) == 1)%Q -> Forall2 (fun p k => fst p = k /\ meq (snd p) (gap x k)) l ks ->
    exists cs, mapM (fun p => coeff_of rd b (fst p) (snd p)) (flat_map (fun p => match usable (snd p) with Some q => [(fst p, q)] | None => [] end) l) = Ok cs /\ Forall2 Qeq cs (scales x b ks).
  Proof.
    intros B F. induction F as [|[i d] k l ks [EK M] F (cs & EC & FC)]; [exists []; split; [reflexivity|constructor]|]. cbn [fst snd] in *. subst i. cbn [flat_map fst snd].
    unfold scales. cbn [map somes]. unfold scale at 1. pose proof (usable_meq d (gap x k) M) as U.
    destruct (gap x k) as [g|]; [destruct (Qeq_bool g 0)|].
    - rewrite U. cbn [app]. eauto.
    - destruct U as (q & -> & V). cbn [app mapM fst snd]. destruct (coeff_is b k q g V B) as (c & -> & C). cbn [bind]. rewrite EC. cbn [bind]. eexists. split; [reflexivity|]. constructor; assumption.
    - rewrite U. cbn [app]. eauto.
  Qed.
  Lemma mean_coeff_is b l ks : ~ (Qpower b (-2) == 1)%Q -> Forall2 (fun p k => fst p = k /\ meq (snd p) (gap x k)) l ks -> scales x b ks <> [] ->
    exists k, mean_coeff rd b l = Ok k /\ (k == average (scales x b ks))%Q.
  Proof.
    intros B F N. destruct (coeffs_are b l ks B F) as (cs & EC & FC). unfold mean_coeff. rewrite EC. cbn [bind].
    assert (NC : cs <> []) by (intros ->; inversion FC as [K|]; congruence).
    destruct (mmean_ok rd RD cs NC) as (m & EM & _). exists m. split; [exact EM|]. exact (mean_is _ _ _ NC FC EM).
  Qed.
End Decide.

(** ---- the answers ---- *)
Section Answers.
  Variables (rd : Q -> Q) (dps : Z) (root flog : Q -> Q) (linregress : list Q -> list mpfv -> mpfv * mpfv * mpfv) (x : Z -> option Q) (idx : list Z).
  Notation ds := (delta_pair rd (samples x idx)).
  Notation dos := (delta_odd rd (samples x idx)).
  Lemma second_cases t low m o : low || (match t with ATSuperExp => true | _ => false end) = true ->
    second_type rd root flog linregress t low m o ds dos =
      if xorb (gtq m exp_threshold) (gtq o exp_threshold) then Ok (ATMixed, APNone)
      else if gtq m exp_threshold && gtq o exp_threshold then
        let* ps := exp_params rd root m o ds dos in Ok (match t with ATSuperExp => ATSuperExp | _ => ATExp end, ps)
      else let* ps := poly_params flog linregress ds dos in Ok (ATPoly, ps).
  Proof. intros H. unfold second_type. rewrite H. destruct (xorb _ _); [reflexivity|]. destruct (_ && _); reflexivity. Qed.
  (** the factors agree well enough, or those of the last quarter are all large *)
  Definition decided : Prop := (~ noisy root (evens_at x idx) /\ ~ noisy root (odds_at x idx)) \/ (steep (evens_at x idx) /\ steep (odds_at x idx)).
  Lemma decided_cases : exact rd -> root_ext root -> (6 <= length (evens_at x idx))%nat -> odds_at x idx <> [] -> decided ->
    exists m o t low, (m == average (evens_at x idx))%Q /\ (o == average (odds_at x idx))%Q /\
      classify rd dps root flog linregress (samples x idx) = second_type rd root flog linregress t low m o ds dos /\
      low || (match t with ATSuperExp => true | _ => false end) = true /\
      (t = ATSuperExp /\ (noisy root (evens_at x idx) \/ noisy root (odds_at x idx)) \/ t <> ATSuperExp /\ ~ noisy root (evens_at x idx) /\ ~ noisy root (odds_at x idx)).
  Proof.
    intros RD RE L NO D. destruct (decision rd RD dps root flog linregress RE x idx L NO) as (m & o & t & low & M & O & C & H).
    exists m, o, t, low. split; [exact M|]. split; [exact O|]. split; [exact C|].
    destruct H as [(N1 & N2 & -> & T)|(N & -> & [(S1 & S2 & ->)|(S & ->)])].
    - split; [reflexivity|]. right. auto.
    - split; [reflexivity|]. left. auto.
    - exfalso. destruct D as [[D1 D2]|D]; tauto.
  Qed.
End Answers.

(** The factors of one kind scatter too much, and one of the last is not large: 'undefined'. *)
Theorem C132_undefined : forall rd dps root flog linregress x idx, exact rd -> root_ext root -> (6 <= length (evens_at x idx))%nat -> odds_at x idx <> [] ->
  noisy root (evens_at x idx) \/ noisy root (odds_at x idx) -> ~ (steep (evens_at x idx) /\ steep (odds_at x idx)) ->
  classify rd dps root flog linregress (samples x idx) = Ok (ATUndefined, APNone).
Proof.
  intros rd dps root flog linregress x idx RD RE L NO N S. destruct (decision rd RD dps root flog linregress RE x idx L NO) as (m & o & t & low & _ & _ & -> & H).
  destruct H as [(N1 & N2 & _)|(_ & -> & [(S1 & S2 & _)|(_ & ->)])]; [tauto|tauto|reflexivity].
Qed.
(** Otherwise the averages decide. *)
Theorem C132_mixed : forall rd dps root flog linregress x idx, exact rd -> root_ext root -> (6 <= length (evens_at x idx))%nat -> odds_at x idx <> [] -> decided root x idx ->
  (limit < average (evens_at x idx) /\ average (odds_at x idx) <= limit)%Q \/ (average (evens_at x idx) <= limit /\ limit < average (odds_at x idx))%Q ->
  classify rd dps root flog linregress (samples x idx) = Ok (ATMixed, APNone).
Proof.
  intros rd dps root flog linregress x idx RD RE L NO D H. destruct (decided_cases rd dps root flog linregress x idx RD RE L NO D) as (m & o & t & low & M & O & -> & T & _).
  rewrite second_cases by exact T. rewrite <- M, <- O in H. change limit with exp_threshold in H. rewrite <- !gtq_spec, <- !gtq_false in H. destruct H as [[H1 H2]|[H1 H2]]; rewrite H1, H2; reflexivity.
Qed.
(** Both averages above: exponential if the factors agree, super-exponential if they scatter. The base is the smaller root of the averages, the
    factor the smaller average of those of the distances. *)
Theorem C132_exp : forall rd dps root flog linregress x idx, exact rd -> root_ext root -> sqrt_close root -> (6 <= length (evens_at x idx))%nat -> odds_at x idx <> [] -> decided root x idx ->
  (limit < average (evens_at x idx))%Q -> (limit < average (odds_at x idx))%Q ->
  exists t b k, classify rd dps root flog linregress (samples x idx) = Ok (t, APPair b k) /\
    (t = ATSuperExp /\ (noisy root (evens_at x idx) \/ noisy root (odds_at x idx)) \/ t = ATExp /\ ~ noisy root (evens_at x idx) /\ ~ noisy root (odds_at x idx)) /\
    least b (root (average (evens_at x idx))) (root (average (odds_at x idx))) /\
    least k (average (scales x b (positions idx 0))) (average (scales x b (positions idx 1))).
Proof.
  intros rd dps root flog linregress x idx RD RE SQ L NO D H1 H2. destruct (decided_cases rd dps root flog linregress x idx RD RE L NO D) as (m & o & t & low & M & O & -> & T & TT).
  rewrite second_cases by exact T. rewrite <- M in H1. rewrite <- O in H2. change limit with exp_threshold in H1, H2. pose proof thr_val as [TV _].
  rewrite (proj2 (gtq_spec _ _) H1), (proj2 (gtq_spec _ _) H2). cbn [xorb andb]. unfold exp_params. cbv zeta. set (b := py_min (root m) (root o)).
  assert (B : least b (root m) (root o)) by apply py_min_least. clearbody b.
  assert (BB : (1 < b * b)%Q).
  { destruct (SQ m ltac:(lra)) as (A0 & A1 & _). destruct (SQ o ltac:(lra)) as (B0 & B1 & _). destruct B as [[B _]|[B _]]; rewrite B; lra. }
  assert (BN : ~ (Qpower b (-2) == 1)%Q).
  { change (Qpower b (-2)) with (/ (b * b))%Q. intros K. assert (V : (/ (b * b) * (b * b) == 1)%Q) by (field; intros Z; rewrite Z in BB; apply (Qlt_irrefl 1); lra). rewrite K in V. lra. }
  assert (NS : forall ks l, somes (map (shrink x) ks) = l -> l <> [] -> forall f, (forall i, In i ks -> In i f) -> scales x b f <> []).
  { intros ks l <- N f I. assert (EX : exists i q, In i ks /\ shrink x i = Some q).
    { clear - N. induction ks as [|i ks IH]; [contradiction|]. cbn [map somes] in N. destruct (shrink x i) as [q|] eqn:S; [exists i, q; split; [now left|exact S]|]. destruct (IH N) as (j & q & J & S'). exists j, q. split; [now right|exact S']. }
    destruct EX as (i & q & Ii & S). specialize (I i Ii). unfold shrink in S. destruct (gap x i) as [g|] eqn:G; [|discriminate]. destruct (gap x (i + 2)); [|discriminate]. destruct (Qeq_bool g 0) eqn:Z; [discriminate|].
    intros K. unfold scales in K. assert (SI : exists c, scale x b i = Some c) by (unfold scale; rewrite G, Z; eauto). destruct SI as [c SI].
    clear - K SI I. induction f as [|j f IH]; [destruct I|]. cbn [map somes] in K. destruct I as [<-|I]; [rewrite SI in K; discriminate|]. destruct (scale x b j); [discriminate|auto]. }
  destruct (mean_coeff_is rd RD x b _ _ BN (pair_gaps rd RD x idx)) as (k1 & -> & V1).
  { eapply (NS idx (evens_at x idx)); [reflexivity|intros K; rewrite K in L; cbn in L; lia|]. intros i I. unfold positions. apply in_flat_map. exists i. split; [exact I|left; lia]. }
  destruct (mean_coeff_is rd RD x b _ _ BN (odd_gaps rd RD x idx)) as (k2 & -> & V2).
  { eapply (NS (map (fun i => i + 1) idx) (odds_at x idx)); [unfold odds_at; now rewrite map_map|exact NO|]. intros j J. apply in_map_iff in J. destruct J as (i & <- & I). unfold positions. apply in_flat_map. exists i. split; [exact I|now left]. }
  cbn [bind]. eexists _, b, (py_min k1 k2). split; [reflexivity|]. split; [|split].
  - destruct TT as [[-> TT]|[TT N]]; [left; auto|right; split; [destruct t; congruence|exact N]].
  - eapply least_eq; [| |exact B]; now apply RE.
  - eapply least_eq; [exact V1|exact V2|apply py_min_least].
Qed.

(** ---- neither average above: the logarithms of the distances are fitted ---- *)
(** what python's min keeps: the second value only if it is smaller, so the first one if one of them is no number *)
Definition kept (v a b : mpfv) : Prop :=
  (exists p q, a = Fin p /\ b = Fin q /\ (q < p)%Q /\ v = b) \/ ((forall p q, a = Fin p -> b = Fin q -> (p <= q)%Q) /\ v = a).
Definition size (v w : mpfv) : Prop := match v with Fin q => exists p, w = Fin p /\ (p == Qabs q)%Q | NaN => w = NaN end.
Definition square (v w : mpfv) : Prop := match v with Fin q => exists p, w = Fin p /\ (p == q * q)%Q | NaN => w = NaN end.
Definition one_less (v w : mpfv) : Prop := match v with Fin q => exists p, w = Fin p /\ (p == q - 1)%Q | NaN => w = NaN end.
(** smallest positive value that is not 0.0 as a python float *)
Definition tiny : Q := Qpower (2 # 1) (-1075).
(** the logarithm of a position and of a distance exist *)
Definition loggable (x : Z -> option Q) (k : Z) : Prop := 0 < k /\ forall g, gap x k = Some g -> (tiny < g)%Q.
Definition log_gaps (flog : Q -> Q) (x : Z -> option Q) (ys : list mpfv) (ks : list Z) : Prop :=
  Forall2 (fun v k => match gap x k with Some g => exists d, v = Fin (flog d) /\ (d == g)%Q | None => v = NaN end) ys ks.

Lemma minv_kept a b : kept (py_minv a b) a b.
Proof.
  destruct a as [p|]; [|right; split; [intros p q K; discriminate|now destruct b]]. destruct b as [q|]; [|right; split; [intros ? ? _ K; discriminate|reflexivity]].
  cbn [py_minv]. unfold py_min. destruct (Qle_bool p q) eqn:E; cbn [negb].
  - apply Qle_bool_iff in E. right. split; [intros p' q' H H'; injection H as <-; injection H' as <-; exact E|reflexivity].
  - left. exists p, q. repeat split. apply Qnot_le_lt. rewrite <- Qle_bool_iff. congruence.
Qed.

Section Fit.
  Variables (flog : Q -> Q) (linregress : list Q -> list mpfv -> mpfv * mpfv * mpfv) (x : Z -> option Q).
  Notation rel := (fun (p : Z * mpfv) k => fst p = k /\ meq (snd p) (gap x k)).
  Lemma regress_ok l ks : Forall2 rel l ks -> Forall (loggable x) ks ->
    exists ys, log_gaps flog x ys ks /\ regress flog linregress l = Ok (linregress (map (fun k => flog (inject_Z k)) ks) ys).
  Proof.
    intros F P.
    enough (exists ys, log_gaps flog x ys ks /\ mapM (fun p => log_int flog (fst p)) l = Ok (map (fun k => flog (inject_Z k)) ks) /\ mapM (fun p => log_mpf flog (snd p)) l = Ok ys) as (ys & G & E1 & E2).
    { exists ys. split; [exact G|]. unfold regress. rewrite E1. cbn [bind]. rewrite E2. reflexivity. }
    induction F as [|[i d] k l ks (E & V) F IH]; [exists []; repeat split; constructor|]. cbn [fst snd] in *. subst i. destruct (Forall_inv P) as [PK PG]. pose proof (Forall_inv_tail P) as P'.
    destruct (IH P') as (ys & G & E1 & E2). cbn [mapM map fst snd]. unfold log_int at 1, log_mpf at 1. destruct (Z.leb_spec k 0); [lia|]. cbn [bind]. rewrite E1. cbn [bind].
    unfold log_gaps. assert (V0 : match gap x k with Some g => exists q, d = Fin q /\ (q == g)%Q | None => d = NaN end) by (destruct V; eauto). clear V.
    destruct (gap x k) as [g|] eqn:EG; [destruct V0 as (q & -> & V)|subst d].
    - specialize (PG g eq_refl). destruct (Qle_bool q (Qpower (2 # 1) (-1075))) eqn:B; [apply Qle_bool_iff in B; rewrite V in B; exfalso; revert B; now apply Qlt_not_le|].
      cbn [bind]. rewrite E2. cbn [bind]. eexists. split; [constructor; [|exact G]|split; reflexivity]. rewrite EG. eauto.
    - cbn [bind]. rewrite E2. cbn [bind]. eexists. split; [constructor; [|exact G]|split; reflexivity]. now rewrite EG.
  Qed.
  Lemma regress_fails l ks : Forall2 rel l ks -> Exists (fun k => ~ loggable x k) ks -> regress flog linregress l = Raise ValueError.
  Proof.
    intros F P. unfold regress.
    assert (L1 : (exists ls, mapM (fun p => log_int flog (fst p)) l = Ok ls /\ Forall (fun k => 0 < k) ks) \/ mapM (fun p => log_int flog (fst p)) l = Raise ValueError).
    { clear P. induction F as [|[i d] k l ks (E & V) F IH]; [left; exists []; split; [reflexivity|constructor]|]. cbn [fst snd mapM] in *. subst i. unfold log_int at 1 3. destruct (Z.leb_spec k 0); [right; reflexivity|]. cbn [bind].
      destruct IH as [(ls & -> & IH)| ->]; [left|right; reflexivity]. cbn [bind]. eexists. split; [reflexivity|]. constructor; assumption. }
    destruct L1 as [(ls & -> & PK)| ->]; [|reflexivity]. cbn [bind].
    assert (L2 : mapM (fun p => log_mpf flog (snd p)) l = Raise ValueError); [|now rewrite L2].
    clear ls. induction F as [|[i d] k l ks (E & V) F IH]; [inversion P|]. cbn [fst snd mapM] in *. subst i. pose proof (Forall_inv PK) as PK1. pose proof (Forall_inv_tail PK) as PK2. cbn beta in PK1.
    unfold log_mpf at 1. destruct d as [d|].
    - destruct (Qle_bool d (Qpower (2 # 1) (-1075))) eqn:B; [reflexivity|]. cbn [bind]. apply Exists_cons in P. destruct P as [H|H]; [|now rewrite (IH H PK2)].
      exfalso. apply H. split; [exact PK1|]. intros g EG. rewrite EG in V. inversion V as [d' g' V' E3 E4|]; subst. unfold tiny. rewrite <- V'. apply Qnot_le_lt. rewrite <- Qle_bool_iff. congruence.
    - cbn [bind]. apply Exists_cons in P. destruct P as [H|H]; [|now rewrite (IH H PK2)]. exfalso. apply H. split; [exact PK1|]. intros g EG. rewrite EG in V. inversion V.
  Qed.
End Fit.

(** the smaller size of the slopes less one, the smaller constant and the smaller squared correlation *)
Theorem C132_poly : forall rd dps root flog linregress x idx, exact rd -> root_ext root -> (6 <= length (evens_at x idx))%nat -> odds_at x idx <> [] -> decided root x idx ->
  (average (evens_at x idx) <= limit)%Q -> (average (odds_at x idx) <= limit)%Q ->
  (forall k, In k (positions idx 0 ++ positions idx 1) -> loggable x k) ->
  exists ye yo, log_gaps flog x ye (positions idx 0) /\ log_gaps flog x yo (positions idx 1) /\
    forall s i r s' i' r', linregress (map (fun k => flog (inject_Z k)) (positions idx 0)) ye = (s, i, r) -> linregress (map (fun k => flog (inject_Z k)) (positions idx 1)) yo = (s', i', r') ->
      exists a a' m p c q q' rr, classify rd dps root flog linregress (samples x idx) = Ok (ATPoly, APTriple p c rr) /\
        size s a /\ size s' a' /\ kept m a a' /\ one_less m p /\ kept c i i' /\ square r q /\ square r' q' /\ kept rr q q'.
Proof.
  intros rd dps root flog linregress x idx RD RE L NO D H1 H2 P. destruct (decided_cases rd dps root flog linregress x idx RD RE L NO D) as (m & o & t & low & M & O & -> & T & _).
  rewrite second_cases by exact T. rewrite <- M in H1. rewrite <- O in H2. change limit with exp_threshold in H1, H2. apply gtq_false in H1, H2. rewrite H1, H2. cbn [xorb andb].
  destruct (regress_ok flog linregress x _ _ (pair_gaps rd RD x idx)) as (ye & G1 & E1); [apply Forall_forall; intros k I; apply P, in_or_app; now left|].
  destruct (regress_ok flog linregress x _ _ (odd_gaps rd RD x idx)) as (yo & G2 & E2); [apply Forall_forall; intros k I; apply P, in_or_app; now right|].
  exists ye, yo. split; [exact G1|]. split; [exact G2|]. intros s i r s' i' r' X1 X2. unfold poly_params. rewrite E1, E2, X1, X2. cbn [bind].
  exists (vabs s), (vabs s'), (py_minv (vabs s) (vabs s')). eexists _, _, (vsqr r), (vsqr r'), _. split; [reflexivity|].
  assert (SZ : forall v, size v (vabs v)) by (intros [v|]; cbn; [eexists; split; [reflexivity|reflexivity]|reflexivity]).
  assert (SQ : forall v, square v (vsqr v)) by (intros [v|]; cbn; [eexists; split; [reflexivity|reflexivity]|reflexivity]).
  assert (ON : forall v, one_less v (vpred v)) by (intros [v|]; cbn; [eexists; split; [reflexivity|reflexivity]|reflexivity]).
  repeat split; auto using minv_kept.
Qed.
(** A position that is not positive or a distance that is 0.0 as a float: no logarithm, the call raises. *)
Theorem C132_poly_raises : forall rd dps root flog linregress x idx, exact rd -> root_ext root -> (6 <= length (evens_at x idx))%nat -> odds_at x idx <> [] -> decided root x idx ->
  (average (evens_at x idx) <= limit)%Q -> (average (odds_at x idx) <= limit)%Q ->
  (exists k, In k (positions idx 0 ++ positions idx 1) /\ ~ loggable x k) ->
  classify rd dps root flog linregress (samples x idx) = Raise ValueError.
Proof.
  intros rd dps root flog linregress x idx RD RE L NO D H1 H2 (k & I & N). destruct (decided_cases rd dps root flog linregress x idx RD RE L NO D) as (m & o & t & low & M & O & -> & T & _).
  rewrite second_cases by exact T. rewrite <- M in H1. rewrite <- O in H2. change limit with exp_threshold in H1, H2. apply gtq_false in H1, H2. rewrite H1, H2. cbn [xorb andb].
  pose proof (pair_gaps rd RD x idx) as F1. pose proof (odd_gaps rd RD x idx) as F2. unfold poly_params.
  assert (DEC : forall k, {loggable x k} + {~ loggable x k}).
  { intros j. unfold loggable. destruct (Z_lt_dec 0 j) as [J|J]; [|right; tauto]. destruct (gap x j) as [g|]; [|left; split; [exact J|discriminate]].
    destruct (Qlt_le_dec tiny g) as [G|G]; [left; split; [exact J|intros h E; injection E as <-; exact G]|right; intros [_ K]; apply (Qlt_not_le _ _ (K g eq_refl) G)]. }
  destruct (Forall_Exists_dec _ DEC (positions idx 0)) as [A|A].
  - destruct (regress_ok flog linregress x _ _ F1 A) as (ye & _ & ->). cbn [bind]. rewrite (regress_fails flog linregress x _ _ F2); [reflexivity|].
    apply Exists_exists. apply in_app_or in I. destruct I as [I|I]; [|eauto]. rewrite Forall_forall in A. exfalso. now apply N, A.
  - rewrite (regress_fails flog linregress x _ _ F1 A). reflexivity.
Qed.

(** results that repeat in blocks of six: the even ones of the block start at 0 and go up by e and then by 1, the odd ones likewise by o *)
Definition C132_seq (e o : list Q) (i : Z) : option Q :=
  let u := nth (Z.to_nat (i / 6)) e 1%Q in let v := nth (Z.to_nat (i / 6)) o 1%Q in Some (nth (Z.to_nat (i mod 6)) [0; 0; u; v; u + 1; v + 1] 0)%Q.
Definition C132_idx : list Z := [6; 12; 18; 24; 30; 36].
Definition C132_root (q : Q) : Q := Properties_Classify.ex_sqrt (Qred q).
Lemma C132_root_ok : root_ext C132_root /\ sqrt_close C132_root.
Proof.
  split; [intros a b H; unfold C132_root; rewrite (Qred_complete _ _ H); reflexivity|].
  intros q P. unfold C132_root. pose proof (Qred_correct q) as R. destruct (Properties_Classify.ex_sqrt_close (Qred q)) as (A & B & C); [lra|].
  revert A B C. generalize (Properties_Classify.ex_sqrt (Qred q)). intros s A B C. split; [exact A|]. split; lra.
Qed.
Definition C132_fit (xs : list Q) (ys : list mpfv) : mpfv * mpfv * mpfv := (Fin (- nth 0 xs 0), nth 1 ys NaN, Fin (1 # 2))%Q.
Definition C132_run (x : Z -> option Q) := classify Qred 15 C132_root (fun q => q) C132_fit (samples x C132_idx).
Definition C132_wild : list Q := [1; 3; 3; 3; 3; 1000; 3]%Q.
Definition C132_rough : list Q := [1; 3; 3; 3; 3; 1; 1000]%Q.
Definition C132_even (q : Q) : list Q := repeat q 8.
(** 1: the factors scatter and one of the last is small; 2: they scatter and the last are large; 3: they agree; 4: only the even ones are large; 5: none is large *)
Example C132_ex :
  (let x := C132_seq C132_rough C132_rough in length (evens_at x C132_idx) = 6%nat /\ noisy C132_root (evens_at x C132_idx) /\ ~ steep (evens_at x C132_idx) /\ C132_run x = Ok (ATUndefined, APNone)) /\
  (let x := C132_seq C132_wild C132_wild in noisy C132_root (evens_at x C132_idx) /\ decided C132_root x C132_idx /\ match C132_run x with Ok (ATSuperExp, APPair _ _) => True | _ => False end) /\
  (let x := C132_seq (C132_even 4) (C132_even 4) in decided C132_root x C132_idx /\ (limit < average (evens_at x C132_idx))%Q /\ match C132_run x with Ok (ATExp, APPair _ _) => True | _ => False end) /\
  (let x := C132_seq (C132_even 4) (C132_even 1) in decided C132_root x C132_idx /\ (average (odds_at x C132_idx) <= limit)%Q /\ C132_run x = Ok (ATMixed, APNone)) /\
  (let x := C132_seq (C132_even 1) (C132_even 1) in decided C132_root x C132_idx /\ (average (odds_at x C132_idx) <= limit)%Q /\ Forall (loggable x) (positions C132_idx 0) /\
     C132_run x = Ok (ATPoly, APTriple (Fin 5) (Fin 1) (Fin (1 # 4)))).
Proof.
  split; [cbv zeta; split; [vm_compute; reflexivity|]; split; [vm_compute; reflexivity|]; split; [|vm_compute; reflexivity]|].
  { intros H. unfold steep in H. assert (E : skipn 3 (evens_at (C132_seq C132_rough C132_rough) C132_idx) = [3 # 1; 1 # 1; 1000 # 1]%Q) by (vm_compute; reflexivity). change (3 * (length (evens_at (C132_seq C132_rough C132_rough) C132_idx) / 4))%nat with 3%nat in H. rewrite E in H.
    apply Forall_inv_tail, Forall_inv in H. discriminate. }
  split; [|split; [|split]].
  - cbv zeta. split; [vm_compute; reflexivity|]. split; [|vm_compute; exact I]. right. split; vm_compute; repeat constructor.
  - cbv zeta. split; [left; split; intros H; vm_compute in H; discriminate|]. split; vm_compute; [reflexivity|exact I].
  - cbv zeta. split; [left; split; intros H; vm_compute in H; discriminate|]. split; vm_compute; [discriminate|reflexivity].
  - cbv zeta. split; [left; split; intros H; vm_compute in H; discriminate|]. split; [vm_compute; discriminate|]. split; [|vm_compute; reflexivity].
    apply Forall_forall. intros k I. cbn in I. split; [decompose [or] I; lia|]. intros g. decompose [or] I; try contradiction; subst k; (intros E; vm_compute in E; injection E as <-; vm_compute; reflexivity).
Qed.

Print Assumptions C132_undefined.
Print Assumptions C132_mixed.
Print Assumptions C132_exp.
Print Assumptions C132_poly.
Print Assumptions C132_poly_raises.

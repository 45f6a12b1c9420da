(** The triples of integers that load_cont_fracs finds in a text. *)
From Coq Require Import Ascii String ZArith List Bool Lia.
From Verif Require Import PyBase PyBase_Proofs Hashtable_Model Hashtable_Proofs Results_Model Config_Model Spec_ULCD Spec_Config
  Config_Proofs Legacy_Model Spec_Legacy Legacy_Text.
Import ListNotations.
Local Open Scope Z_scope.
Local Open Scope list_scope.

(** ---- integers ---- *)
Lemma digit_bounds c : is_digit c = true <-> 0 <= Z.of_nat (nat_of_ascii c) - 48 <= 9.
Proof. unfold is_digit. rewrite andb_true_iff, !Nat.leb_le. lia. Qed.
Lemma decimal_digits ds : forall acc, Forall (fun c => is_digit c = true) ds -> exists n, decimal ds acc = Some n /\ digits_val ds acc = Some n.
Proof.
  induction ds as [|c ds IH]; intros acc F; [now exists acc|]. inversion F as [|? ? F1 F2]; subst. cbn [decimal digits_val].
  pose proof (proj1 (digit_bounds c) F1) as B. cbv zeta. rewrite (proj2 (Z.leb_le _ _) (proj1 B)), (proj2 (Z.leb_le _ _) (proj2 B)). cbn [andb].
  destruct (IH (10 * acc + (Z.of_nat (nat_of_ascii c) - 48)) F2) as (n & E1 & E2). exists n. split; [exact E1|].
  rewrite F1. rewrite <- E2. f_equal. f_equal. lia.
Qed.
Lemma decimal_inv ds : forall acc n, decimal ds acc = Some n -> Forall (fun c => is_digit c = true) ds.
Proof.
  induction ds as [|c ds IH]; intros acc n H; [constructor|]. cbn [decimal] in H. cbv zeta in H.
  destruct ((0 <=? _) && _) eqn:B; [|discriminate]. apply andb_true_iff in B as [B1 B2]. apply Z.leb_le in B1, B2.
  constructor; [apply digit_bounds; lia|]. eapply IH. exact H.
Qed.

Lemma int_lit_fun w z : int_lit w z -> forall z', int_lit w z' -> z = z'.
Proof.
  assert (M : forall ds n r, decimal ds 0 = Some n -> ds = "-"%char :: r -> False).
  { intros ds n r D ->. apply decimal_inv in D. inversion D as [|? ? X _]; subst. discriminate X. }
  intros (ds & n & N & D & H) z' (ds' & n' & N' & D' & H').
  destruct H as [[-> ->]|[-> ->]]; destruct H' as [[E ->]|[E ->]]; subst.
  - congruence.
  - exfalso. exact (M _ _ _ D eq_refl).
  - exfalso. exact (M _ _ _ D' eq_refl).
  - injection E as <-. congruence.
Qed.
(** characters of an integer *)
Definition ich (c : ascii) : Prop := is_digit c = true \/ c = "-"%char.
Lemma int_lit_chars w z : int_lit w z -> w <> [] /\ Forall ich w.
Proof.
  intros (ds & n & N & D & H). apply decimal_inv in D. assert (F : Forall ich ds) by (eapply Forall_impl; [|exact D]; intros c X; now left).
  destruct H as [[-> _]|[-> _]]; [auto|]. split; [discriminate|]. constructor; [now right|exact F].
Qed.
Lemma int_lit_z z : int_lit (z_text z) z.
Proof.
  destruct (Z.leb_spec 0 z) as [P|P].
  - destruct (z_text_nat z P) as (V & N & F & _). destruct (decimal_digits _ 0 F) as (n & D & V2). exists (z_text z), n. rewrite V in V2. injection V2 as <-. auto.
  - destruct z as [|p|p]; try lia. rewrite z_text_neg. destruct (z_text_nat (Zpos p)) as (V & N & F & _); [lia|].
    destruct (decimal_digits _ 0 F) as (n & D & V2). exists (z_text (Zpos p)), n. rewrite V in V2. injection V2 as <-. auto.
Qed.
Lemma int_lit_py w z : int_lit w z -> py_int w = Ok z.
Proof.
  intros H. destruct (int_lit_chars _ _ H) as [N C]. unfold py_int. rewrite strip_id.
  2:{ eapply Forall_impl; [|exact C]. intros c [X| ->]; [now apply not_blank_digit|reflexivity]. }
  destruct H as (ds & n & ND & D & H). pose proof (decimal_inv _ _ _ D) as F. destruct (decimal_digits _ 0 F) as (n' & D' & V). rewrite D in D'. injection D' as <-.
  destruct H as [[-> ->]|[-> ->]].
  - destruct ds as [|c r]; [contradiction|]. inversion F as [|? ? F1 F2]; subst. destruct (char_eqb c "-"%char) eqn:E1; [apply Ascii.eqb_eq in E1; subst; discriminate|].
    destruct (char_eqb c "+"%char) eqn:E2; [apply Ascii.eqb_eq in E2; subst; discriminate|]. now rewrite V.
  - change (chars "-" ++ ds) with ("-"%char :: ds). destruct ds as [|c r]; [contradiction|]. change (char_eqb "-"%char "-"%char) with true. cbv iota. now rewrite V.
Qed.
Lemma int_sound {X} s cs (k : text -> caps -> option X) x : rx_m rx_int s cs k = Some x ->
  exists w t z, s = w ++ t /\ int_lit w z /\ k t cs = Some x.
Proof.
  unfold rx_int. cbn [rx_m lit]. intros H.
  assert (G : forall s', match s' with c :: s'' => if is_digit c then star_g is_digit s'' (fun t => k t cs) else None | [] => None end = Some x ->
    exists ds n t, s' = ds ++ t /\ ds <> [] /\ decimal ds 0 = Some n /\ k t cs = Some x).
  { intros [|c s'] G; [discriminate|]. destruct (is_digit c) eqn:P; [|discriminate]. apply star_g_sound in G as (w & t & -> & F & K).
    destruct (decimal_digits (c :: w) 0) as (n & D & _); [now constructor|]. exists (c :: w), n, t. repeat split; [discriminate|exact D|exact K]. }
  destruct s as [|c s]; [discriminate|]. destruct (char_eqb "-"%char c) eqn:E.
  - apply Ascii.eqb_eq in E. subst c. destruct (match s with [] => None | _ => _ end) as [y|] eqn:E1.
    + injection H as ->. destruct (G s E1) as (ds & n & t & -> & N & D & K). exists ("-"%char :: ds), t, (- n). split; [reflexivity|]. split; [|exact K].
      exists ds, n. auto.
    + destruct (G ("-"%char :: s) H) as (ds & n & t & E2 & N & D & K). exists ds, t, n. split; [exact E2|]. split; [|exact K]. exists ds, n. auto.
  - destruct (G (c :: s) H) as (ds & n & t & E2 & N & D & K). exists ds, t, n. split; [exact E2|]. split; [|exact K]. exists ds, n. auto.
Qed.
Lemma group_int {X} g s cs (k : text -> caps -> option X) x : rx_m (RGroup g rx_int) s cs k = Some x ->
  exists w t z, s = w ++ t /\ int_lit w z /\ k t ((g, w) :: cs) = Some x.
Proof.
  cbn [rx_m]. intros H. apply (int_sound s cs) in H as (w & t & z & -> & L & K). exists w, t, z. split; [reflexivity|]. split; [exact L|].
  replace (firstn (length (w ++ t) - length t) (w ++ t)) with w in K; [exact K|].
  rewrite app_length, Nat.add_sub, firstn_app, Nat.sub_diag, firstn_all. cbn [firstn]. now rewrite app_nil_r.
Qed.
Lemma lit_sound {X} c s cs (k : text -> caps -> option X) x : rx_m (lit c) s cs k = Some x -> exists t, s = c :: t /\ k t cs = Some x.
Proof.
  cbn [rx_m lit]. destruct s as [|d s]; [discriminate|]. destruct (char_eqb c d) eqn:E; [|discriminate]. apply Ascii.eqb_eq in E. subst d. eauto.
Qed.
Lemma opt_sound {X} s cs (k : text -> caps -> option X) x : rx_m (ROpt (lit " "%char)) s cs k = Some x ->
  exists w t, s = w ++ t /\ blank1 w /\ k t cs = Some x.
Proof.
  cbn [rx_m lit]. destruct s as [|d s]; [intros H; exists [], []; repeat split; [now left|exact H]|].
  destruct (char_eqb " "%char d) eqn:E; [apply Ascii.eqb_eq in E; subst d; destruct (k s cs) as [y|] eqn:K|]; intros H.
  - injection H as ->. exists (chars " "), s. repeat split; [now right|exact K].
  - exists [], (" "%char :: s). repeat split; [now left|exact H].
  - exists [], (d :: s). repeat split; [now left|exact H].
Qed.
Lemma seq_eq {X} r1 r2 s cs (k : text -> caps -> option X) : rx_m (RSeq r1 r2) s cs k = rx_m r1 s cs (fun t cs' => rx_m r2 t cs' k).
Proof. reflexivity. Qed.
(** A match is a triple, and its groups are the integers. *)
Lemma triple_sound s cs rest : re_match rx_triple s = Some (cs, rest) ->
  exists t p, s = t ++ rest /\ triple_lit t p /\ mapM (fun n => py_int (group n cs)) [1; 2; 3]%nat = Ok p.
Proof.
  unfold re_match, rx_triple. intros H. rewrite seq_eq in H. apply lit_sound in H as (t0 & -> & H).
  rewrite seq_eq in H. apply group_int in H as (s1 & t1 & x & -> & L1 & H).
  rewrite seq_eq in H. apply lit_sound in H as (t2 & -> & H).
  rewrite seq_eq in H. apply opt_sound in H as (w1 & t3 & -> & B1 & H).
  rewrite seq_eq in H. apply group_int in H as (s2 & t4 & y & -> & L2 & H).
  rewrite seq_eq in H. apply lit_sound in H as (t5 & -> & H).
  rewrite seq_eq in H. apply opt_sound in H as (w2 & t6 & -> & B2 & H).
  rewrite seq_eq in H. apply group_int in H as (s3 & t7 & z & -> & L3 & H).
  apply lit_sound in H as (t8 & -> & H). injection H as <- <-.
  exists (chars "[" ++ s1 ++ chars "," ++ w1 ++ s2 ++ chars "," ++ w2 ++ s3 ++ chars "]"), [x; y; z]. split; [|split].
  - cbn [chars app]. repeat rewrite <- app_assoc. cbn [chars app]. repeat rewrite <- app_assoc. reflexivity.
  - exists s1, s2, s3, w1, w2, x, y, z. repeat split; assumption.
  - cbn [mapM group d_get Nat.eqb]. rewrite (int_lit_py _ _ L1), (int_lit_py _ _ L2), (int_lit_py _ _ L3). reflexivity.
Qed.
Lemma rm_int w z t : int_lit w z -> rm rx_int (w ++ t) t.
Proof.
  intros (ds & n & N & D & H). apply decimal_inv in D. destruct ds as [|c ds]; [contradiction|]. inversion D as [|? ? F1 F2]; subst.
  destruct H as [[-> _]|[-> _]].
  - apply rm_seq with (t := (c :: ds) ++ t); [apply rm_opt0|]. cbn [app]. now constructor.
  - apply rm_seq with (t := (c :: ds) ++ t); [apply rm_opt1; cbn [app chars]; now constructor|]. cbn [app]. now constructor.
Qed.
Lemma rm_lit c t : rm (lit c) (c :: t) t.
Proof. constructor. apply Ascii.eqb_refl. Qed.
Lemma rm_blank w t : blank1 w -> rm (ROpt (lit " "%char)) (w ++ t) t.
Proof. intros [-> | ->]; [apply rm_opt0|apply rm_opt1; apply rm_lit]. Qed.
Lemma triple_complete t p rest : triple_lit t p -> re_match rx_triple (t ++ rest) <> None.
Proof.
  intros (s1 & s2 & s3 & w1 & w2 & x & y & z & -> & -> & L1 & L2 & L3 & B1 & B2). apply re_match_iff. exists rest. unfold rx_triple.
  repeat rewrite <- app_assoc.
  eapply rm_seq; [apply rm_lit|]. eapply rm_seq; [constructor; apply (rm_int _ _ _ L1)|]. eapply rm_seq; [apply rm_lit|].
  eapply rm_seq; [apply (rm_blank _ _ B1)|]. eapply rm_seq; [constructor; apply (rm_int _ _ _ L2)|]. eapply rm_seq; [apply rm_lit|].
  eapply rm_seq; [apply (rm_blank _ _ B2)|]. eapply rm_seq; [constructor; apply (rm_int _ _ _ L3)|]. apply rm_lit.
Qed.
(** ---- a triple is determined by where it begins ---- *)
Lemma first_eq (P : ascii -> Prop) (c : ascii) : ~ P c -> forall u v a b, Forall P u -> Forall P v -> u ++ c :: a = v ++ c :: b -> u = v /\ a = b.
Proof.
  intros N. induction u as [|d u IH]; intros v a b FU FV E.
  - destruct v as [|d v]; [injection E as ->; auto|]. injection E as -> _. inversion FV; contradiction.
  - inversion FU as [|? ? U1 U2]; subst. destruct v as [|d' v]; [injection E as -> _; contradiction|]. injection E as -> E. inversion FV as [|? ? V1 V2]; subst.
    destruct (IH v a b U2 V2 E) as [-> ->]. auto.
Qed.
Lemma ich_comma : ~ ich ","%char. Proof. intros [H|H]; discriminate. Qed.
Lemma ich_close : ~ ich "]"%char. Proof. intros [H|H]; discriminate. Qed.
Lemma ich_blank : ~ ich " "%char. Proof. intros [H|H]; discriminate. Qed.
Lemma blank_eq w w' s s' a b : blank1 w -> blank1 w' -> Forall ich s -> s <> [] -> Forall ich s' -> s' <> [] -> w ++ s ++ a = w' ++ s' ++ b -> s ++ a = s' ++ b.
Proof.
  intros [-> | ->] [-> | ->] F N F' N' E; cbn [app chars] in E; try (now injection E); try exact E.
  - destruct s as [|c s]; [contradiction|]. injection E as -> _. inversion F as [|? ? X _]; subst. now apply ich_blank in X.
  - destruct s' as [|c s']; [contradiction|]. injection E as <- _. inversion F' as [|? ? X _]; subst. now apply ich_blank in X.
Qed.
Lemma triple_unique t p r t' p' r' : triple_lit t p -> triple_lit t' p' -> t ++ r = t' ++ r' -> p = p' /\ r = r'.
Proof.
  intros (s1 & s2 & s3 & w1 & w2 & x & y & z & -> & -> & L1 & L2 & L3 & B1 & B2) (s1' & s2' & s3' & w1' & w2' & x' & y' & z' & -> & -> & L1' & L2' & L3' & B1' & B2') E.
  repeat rewrite <- app_assoc in E. cbn [chars app] in E. injection E as E.
  destruct (int_lit_chars _ _ L1) as [N1 C1]. destruct (int_lit_chars _ _ L1') as [N1' C1']. destruct (int_lit_chars _ _ L2) as [N2 C2]. destruct (int_lit_chars _ _ L2') as [N2' C2'].
  destruct (int_lit_chars _ _ L3) as [N3 C3]. destruct (int_lit_chars _ _ L3') as [N3' C3'].
  apply (first_eq ich _ ich_comma) in E as [<- E]; [|assumption|assumption].
  apply blank_eq in E; try assumption. apply (first_eq ich _ ich_comma) in E as [<- E]; [|assumption|assumption].
  apply blank_eq in E; try assumption. apply (first_eq ich _ ich_close) in E as [<- E]; [|assumption|assumption].
  split; [|exact E]. now rewrite (int_lit_fun _ _ L1 _ L1'), (int_lit_fun _ _ L2 _ L2'), (int_lit_fun _ _ L3 _ L3').
Qed.
Lemma triple_nonempty t p : triple_lit t p -> t <> [].
Proof. intros (s1 & s2 & s3 & w1 & w2 & x & y & z & -> & _). discriminate. Qed.
Lemma scan_fun s l : scan s l -> forall l', scan s l' -> l = l'.
Proof.
  induction 1 as [|t p s l T S IH|c s l N S IH]; intros l' H.
  - inversion H as [|t p s l T S E| ]; subst; [reflexivity|]. apply triple_nonempty in T. destruct t; [contradiction|discriminate].
  - inversion H as [E|t' p' s' l2 T' S' E|c s' l2 N' S' E]; subst.
    + apply triple_nonempty in T. destruct t; [contradiction|discriminate].
    + destruct (triple_unique _ _ _ _ _ _ T' T E) as [<- <-]. f_equal. now apply IH.
    + exfalso. exact (N' t p s E T).
  - inversion H as [E|t' p' s' l2 T' S' E|c' s' l2 N' S' E]; subst.
    + exfalso. exact (N t' p' s' (eq_sym E) T').
    + now apply IH.
Qed.
Lemma triples_go : forall n s, (length s < n)%nat ->
  exists l, mapM (fun cs => mapM (fun n => py_int (group n cs)) [1; 2; 3]%nat) (findall_go n rx_triple s) = Ok l /\ scan s l.
Proof.
  induction n as [|n IH]; intros s L; [lia|]. cbn [findall_go]. destruct (re_match rx_triple s) as [[cs rest]|] eqn:E.
  - destruct (triple_sound _ _ _ E) as (t & p & -> & T & M). rewrite app_length in L. pose proof (triple_nonempty _ _ T) as N. destruct t as [|c t]; [contradiction|]. cbn [length] in L.
    destruct (IH rest) as (l & E2 & S); [lia|]. exists (p :: l). split; [|now constructor]. 
    set (f := fun cs : caps => mapM (fun n => py_int (group n cs)) [1; 2; 3]%nat) in *. change (f cs = Ok p) in M. clearbody f. cbn [mapM]. rewrite M. cbn [bind]. now rewrite E2.
  - destruct s as [|c s]; [exists []; split; [reflexivity|constructor]|]. cbn [length] in L. destruct (IH s) as (l & E2 & S); [lia|]. exists l. split; [exact E2|].
    constructor; [|exact S]. intros t p r E3 T. apply (triple_complete t p r) in T. rewrite <- E3 in T. contradiction.
Qed.
Lemma triples_scan s : exists l, triples s = Ok l /\ scan s l.
Proof. unfold triples, re_findall. apply triples_go. lia. Qed.
Lemma triples_iff s l : triples s = Ok l <-> scan s l.
Proof.
  destruct (triples_scan s) as (l' & E & S). split; intros H; [rewrite H in E; injection E as <-; exact S|]. now rewrite (scan_fun _ _ H _ S).
Qed.

(** ---- printed lists of polynomials ---- *)
Lemma scan_nobracket w : forall s l, Forall (fun c => c <> "["%char) w -> scan s l -> scan (w ++ s) l.
Proof.
  induction w as [|c w IH]; intros s l F H; [exact H|]. inversion F as [|? ? F1 F2]; subst. cbn [app]. apply scan_skip; [|now apply IH].
  intros t p r E (s1 & s2 & s3 & w1 & w2 & x & y & z & -> & _). injection E as E _. contradiction.
Qed.
Definition commas_in (s : text) : nat := length (filter (char_eqb ","%char) s).
Lemma commas_app a b : commas_in (a ++ b) = (commas_in a + commas_in b)%nat.
Proof. unfold commas_in. now rewrite filter_app, app_length. Qed.
Lemma commas_ich s : Forall ich s -> commas_in s = 0%nat.
Proof.
  induction 1 as [|c s H F IH]; [reflexivity|]. unfold commas_in in *. cbn [filter]. destruct (char_eqb ","%char c) eqn:E; [|exact IH].
  apply Ascii.eqb_eq in E. subst c. now apply ich_comma in H.
Qed.
Lemma commas_blank w : blank1 w -> commas_in w = 0%nat.
Proof. intros [-> | ->]; reflexivity. Qed.
(** characters between the brackets *)
Definition pch (c : ascii) : Prop := ich c \/ c = ","%char \/ c = " "%char.
Lemma pch_close : ~ pch "]"%char. Proof. intros [H|[H|H]]; [now apply ich_close in H|discriminate|discriminate]. Qed.
Lemma pch_open c : pch c -> c <> "["%char. Proof. intros H ->. destruct H as [[H|H]|[H|H]]; discriminate. Qed.
Lemma int_pch z : Forall pch (z_text z).
Proof. destruct (int_lit_chars _ _ (int_lit_z z)) as [_ F]. eapply Forall_impl; [|exact F]. intros c H. now left. Qed.
Lemma inner_pch p : Forall pch (sep_by (chars ", ") (map z_text p)).
Proof.
  induction p as [|x [|y p] IH]; [constructor|apply int_pch|]. cbn [map sep_by] in *. apply Forall_app. split; [apply int_pch|]. apply Forall_app. split; [|exact IH].
  constructor; [now right; left|]. constructor; [now right; right|constructor].
Qed.
Lemma inner_commas p : commas_in (sep_by (chars ", ") (map z_text p)) = pred (length p).
Proof.
  assert (I : forall z, commas_in (z_text z) = 0%nat) by (intros z; destruct (int_lit_chars _ _ (int_lit_z z)) as [_ F]; now apply commas_ich).
  induction p as [|x [|y p] IH]; [reflexivity|apply I|]. cbn [map sep_by] in *. rewrite !commas_app, I, IH. cbn [length pred]. reflexivity.
Qed.
Lemma poly_text_eq p : list_str (map z_text p) = "["%char :: sep_by (chars ", ") (map z_text p) ++ ["]"%char].
Proof. reflexivity. Qed.
Lemma scan_poly p s l : scan s l -> scan (list_str (map z_text p) ++ s) (if Nat.eqb (length p) 3 then p :: l else l).
Proof.
  intros S. destruct (Nat.eqb (length p) 3) eqn:E.
  - apply Nat.eqb_eq in E. destruct p as [|x [|y [|z [|? ?]]]]; try discriminate. constructor; [|exact S].
    exists (z_text x), (z_text y), (z_text z), (chars " "), (chars " "), x, y, z.
    repeat split; try apply int_lit_z; try (now right). unfold list_str. cbn [map sep_by chars app]. repeat rewrite <- app_assoc. cbn [chars app]. repeat rewrite <- app_assoc. reflexivity.
  - rewrite poly_text_eq. cbn [app]. apply scan_skip.
    + intros t q r ET (s1 & s2 & s3 & w1 & w2 & x & y & z & -> & -> & L1 & L2 & L3 & B1 & B2).
      destruct (int_lit_chars _ _ L1) as [_ C1]. destruct (int_lit_chars _ _ L2) as [_ C2]. destruct (int_lit_chars _ _ L3) as [_ C3].
      set (u := s1 ++ chars "," ++ w1 ++ s2 ++ chars "," ++ w2 ++ s3).
      assert (X : sep_by (chars ", ") (map z_text p) ++ "]"%char :: s = u ++ "]"%char :: r).
      { injection ET as ET. rewrite <- app_assoc in ET. refine (eq_trans ET _). unfold u. cbn [chars]. repeat (rewrite <- app_assoc; cbn [app]). reflexivity. }
      assert (PI : forall w, Forall ich w -> Forall pch w) by (intros w F; eapply Forall_impl; [|exact F]; intros c H; now left).
      assert (PB : forall w, blank1 w -> Forall pch w) by (intros w [-> | ->]; [constructor|constructor; [now right; right|constructor]]).
      assert (PC : Forall pch (chars ",")) by (constructor; [now right; left|constructor]).
      apply (first_eq pch _ pch_close) in X as [X _].
      * apply (f_equal commas_in) in X. rewrite inner_commas in X. unfold u in X. rewrite !commas_app, (commas_ich _ C1), (commas_ich _ C2), (commas_ich _ C3), (commas_blank _ B1), (commas_blank _ B2) in X.
        apply Nat.eqb_neq in E. apply E. change (commas_in (chars ",")) with 1%nat in X. lia.
      * apply inner_pch.
      * unfold u. repeat (apply Forall_app; split); auto.
    + rewrite <- app_assoc. apply scan_nobracket; [eapply Forall_impl; [|apply inner_pch]; exact pch_open|]. cbn [app].
      apply (scan_nobracket ["]"%char]); [constructor; [discriminate|constructor]|exact S].
Qed.
Definition three (p : list Z) : bool := Nat.eqb (length p) 3.
Lemma scan_polys ps : scan (polys_list ps) (filter three ps).
Proof.
  unfold polys_list, list_str at 1. cbn [chars app].
  assert (H : scan (sep_by (chars ", ") (map (fun p => list_str (map int_chars p)) ps) ++ chars "]") (filter three ps)).
  { assert (Z0 : scan (chars "]") []) by (apply (scan_nobracket (chars "]") [] []); [constructor; [discriminate|constructor]|constructor]).
    induction ps as [|p [|q ps] IH]; [exact Z0|cbn [map sep_by filter]; unfold three; apply (scan_poly p _ _ Z0)|].
    cbn [map sep_by] in *. repeat rewrite <- app_assoc. cbn [filter] in *. apply (scan_poly p).
    apply (scan_nobracket (chars ", ")); [constructor; [discriminate|constructor; [discriminate|constructor]]|]. exact IH. }
  apply scan_skip; [|exact H].
  intros t p r E (s1 & s2 & s3 & w1 & w2 & x & y & z & -> & -> & L1 & _). repeat rewrite <- app_assoc in E. cbn [chars app] in E. injection E as E.
  destruct (int_lit_chars _ _ L1) as [N C]. destruct s1 as [|c s1]; [contradiction|]. cbn [app] in E. inversion C as [|? ? C1 _]; subst.
  assert (P : c = "["%char \/ c = "]"%char).
  { destruct ps as [|q [|q' ps]]; cbn [map sep_by app chars] in E; injection E as E _; auto. }
  destruct P as [-> | ->]; destruct C1 as [X|X]; discriminate.
Qed.

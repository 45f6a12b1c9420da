(** Proofs about ProgressBar. *)
From Coq Require Import ZArith QArith Qabs List Bool Lia Lqa.
From Verif Require Import PyBase Rnd Utils_Model Spec_Utils Utils_Proofs Progress_Model Spec_Progress.
Import ListNotations.
Open Scope Z_scope.

(** the state after items 0 .. k-1 have been fetched, the last update having been at time [last] *)
Definition pinv {A} (t : nat -> Z) (last : Z) (k : nat) (p : pbar A) : Prop :=
  pb_next p = Z.of_nat k /\ sw_start_time (pb_sw p) = Some (t O) /\
  sw_time (pb_sw p) (negb (sw_cur (pb_sw p))) = t (pred k) /\
  pb_counter p = t (pred k) - last /\ 0 <= pb_iters p < Z.of_nat k.

Definition hand {A} (enum : bool) (x : Z * A) : pb_item A := if enum then IEnum (fst x) (snd x) else IVal (snd x).

Lemma denom_pos i num : 0 <= num < i -> (0 < inject_Z i - (1 # 5) * inject_Z num)%Q.
Proof. intros H. unfold Qlt, Qminus, Qplus, Qopp, Qmult, inject_Z. cbn [Qnum Qden]. lia. Qed.

Lemma step_more {A} hz (t u : nat -> Z) last k (p : pbar A) v rest :
  (1 <= k)%nat -> pb_items p = v :: rest -> pinv t last k p -> pb_len p <> 0 ->
  exists p', pb_items p' = rest /\ pb_enum p' = pb_enum p /\ pb_freq p' = pb_freq p /\ pb_len p' = pb_len p /\
    (if Qlt_le_dec (pb_freq p) (t k - last # hz)
     then pinv t (t k) (S k) p' /\ pb_iters p' = Z.of_nat k /\ pb_passed p' = u k - t O /\
       pb_step hz (t k) (u k) p = (p', [PUpdate (Z.quot (100 * Z.of_nat k) (pb_len p))
           (secs_to_dhms (estimate hz (pb_passed p) (t k - last) (Z.of_nat k) (pb_iters p) (pb_len p)))
           (secs_to_dhms (u k - t O # hz))], PItem (hand (pb_enum p) (Z.of_nat k, v)))
     else pinv t last (S k) p' /\ pb_iters p' = pb_iters p /\ pb_passed p' = pb_passed p /\
       pb_step hz (t k) (u k) p = (p', [], PItem (hand (pb_enum p) (Z.of_nat k, v)))).
Proof.
  intros Hk E (I1 & I2 & I3 & I4 & I5) L. unfold pb_step. rewrite E, I1.
  replace (Z.of_nat k =? 0) with false by lia.
  assert (M : sw_measure (t k) (pb_sw p) =
    ({| sw_cur := negb (sw_cur (pb_sw p)); sw_prev := sw_cur (pb_sw p);
        sw_t0 := if sw_cur (pb_sw p) then sw_t0 (pb_sw p) else t k;
        sw_t1 := if sw_cur (pb_sw p) then t k else sw_t1 (pb_sw p);
        sw_started := sw_started (pb_sw p); sw_start_time := sw_start_time (pb_sw p) |}, t k - t (pred k))).
  { unfold sw_measure. cbv zeta. f_equal. rewrite <- I3. unfold sw_time. cbn [sw_prev sw_cur sw_t0 sw_t1].
    destruct (sw_cur (pb_sw p)); reflexivity. }
  rewrite M. cbv beta iota zeta. rewrite I4. replace (t (pred k) - last + (t k - t (pred k))) with (t k - last) by lia.
  assert (IV : forall p', pb_next p' = Z.of_nat k + 1 -> pb_sw p' = fst (sw_measure (t k) (pb_sw p)) ->
    forall last', @pb_counter A p' = t k - last' -> 0 <= pb_iters p' < Z.of_nat (S k) -> pinv t last' (S k) p').
  { intros p' H1 H2 last' H3 H4. unfold pinv. rewrite H1, H2, M. cbn [fst sw_start_time pred].
    split; [lia|]. split; [exact I2|]. split; [|split; [exact H3|exact H4]].
    unfold sw_time. cbn [sw_cur sw_t0 sw_t1]. destruct (sw_cur (pb_sw p)); reflexivity. }
  unfold secs. destruct (Qlt_le_dec (pb_freq p) (t k - last # hz)) as [D|D].
  - assert (B1 : Qle_bool (t k - last # hz) (pb_freq p) = false).
    { apply not_true_iff_false. rewrite Qle_bool_iff. apply Qlt_not_le. exact D. }
    assert (B2 : Qeq_bool (inject_Z (Z.of_nat k) - (1 # 5) * inject_Z (pb_iters p)) 0 = false).
    { apply not_true_iff_false. rewrite Qeq_bool_iff. intros H. pose proof (denom_pos (Z.of_nat k) (pb_iters p) I5) as Q0. rewrite H in Q0.
        now apply Qlt_irrefl in Q0. }
    rewrite B1, B2. unfold sw_total. cbn [sw_start_time]. rewrite I2. unfold percent. replace (pb_len p =? 0) with false by lia.
    exists {| pb_items := rest; pb_next := Z.of_nat k + 1; pb_enum := pb_enum p; pb_freq := pb_freq p; pb_len := pb_len p;
              pb_sw := fst (sw_measure (t k) (pb_sw p)); pb_counter := 0; pb_iters := Z.of_nat k; pb_passed := u k - t O |}.
    rewrite M. do 4 (split; [reflexivity|]). split; [|split; [reflexivity|]; split; [reflexivity|]].
    + apply IV; cbn [pb_next pb_sw pb_counter pb_iters]; [lia|rewrite M; reflexivity|lia|lia].
    + unfold hand. cbn [fst snd]. rewrite ?I2. destruct (pb_enum p); reflexivity.
  - rewrite (proj2 (Qle_bool_iff _ _) D).
    exists {| pb_items := rest; pb_next := Z.of_nat k + 1; pb_enum := pb_enum p; pb_freq := pb_freq p; pb_len := pb_len p;
              pb_sw := fst (sw_measure (t k) (pb_sw p)); pb_counter := t k - last; pb_iters := pb_iters p; pb_passed := pb_passed p |}.
    rewrite M. do 4 (split; [reflexivity|]). split; [|split; [reflexivity|]; split; [reflexivity|]].
    + apply IV; cbn [pb_next pb_sw pb_counter pb_iters]; [lia|rewrite M; reflexivity|lia|lia].
    + unfold hand. cbn [fst snd]. rewrite ?I2. destruct (pb_enum p); reflexivity.
Qed.

Lemma step_end {A} hz (t u : nat -> Z) last k (p : pbar A) : pb_items p = [] -> pinv t last k p ->
  pb_step hz (t k) (u k) p = (p, [PLast (secs_to_dhms (t k - t O # hz))], PStop).
Proof. intros E (_ & I2 & _). unfold pb_step. rewrite E. unfold sw_total. rewrite I2. reflexivity. Qed.

(** the lines of the updates at the positions [ks], with the bookkeeping of the estimate *)
Fixpoint upd_lines (hz : positive) (t u : nat -> Z) (len : Z) (last passed iters : Z) (ks : list nat) : list pb_line :=
  match ks with
  | [] => []
  | k :: r =>
      PUpdate (Z.quot (100 * Z.of_nat k) len) (secs_to_dhms (estimate hz passed (t k - last) (Z.of_nat k) iters len))
        (secs_to_dhms (u k - t O # hz)) :: upd_lines hz t u len (t k) (u k - t O) (Z.of_nat k) r
  end.

Lemma numbered_cons {A} i (x : A) r : numbered i (x :: r) = (i, x) :: numbered (i + 1) r.
Proof. reflexivity. Qed.

Lemma for_more {A} hz clock (items : list A) : forall last k (p : pbar A) fuel,
  let t j := fst (clock j) in let u j := snd (clock j) in
  (1 <= k)%nat -> pb_items p = items -> pinv t last k p -> pb_len p <> 0 -> (length items < fuel)%nat ->
  pb_for hz fuel clock k p =
    Some (map (hand (pb_enum p)) (numbered (Z.of_nat k) items),
          upd_lines hz t u (pb_len p) last (pb_passed p) (pb_iters p) (due hz (pb_freq p) t last k (length items)) ++
          [PLast (secs_to_dhms (t (k + length items)%nat - t O # hz))], None).
Proof.
  induction items as [|v items IH]; intros last k p fuel t u Hk E I L F; (destruct fuel as [|fuel]; [cbn in F; lia|]).
  - cbn [pb_for]. rewrite (surjective_pairing (clock k)). fold (t k) (u k).
    rewrite (step_end hz t u last k p E I). cbn [numbered map length due upd_lines app].
    rewrite Nat.add_0_r. reflexivity.
  - cbn [pb_for]. rewrite (surjective_pairing (clock k)). fold (t k) (u k).
    destruct (step_more hz t u last k p v items Hk E I L) as (p' & P1 & P2 & P3 & P4 & D).
    cbn [length due] in *. fold (t k).
    destruct (Qlt_le_dec (pb_freq p) (t k - last # hz)) as [Q0|Q0]; destruct D as (I' & N' & T' & S'); rewrite S';
      rewrite (IH _ (S k) p' fuel ltac:(lia) P1 I' ltac:(congruence) ltac:(lia));
      fold t u; rewrite P2, P3, P4, N', T'; rewrite numbered_cons; cbn [map]; 
      rewrite Nat2Z.inj_succ, <- Z.add_1_r; rewrite <- plus_n_Sm; reflexivity.
Qed.

Lemma for_all {A} hz clock (items : list A) v len enum freq fuel :
  let t j := fst (clock j) in let u j := snd (clock j) in
  len <> 0 -> (length (v :: items) < fuel)%nat ->
  pb_for hz fuel clock 0 {| pb_items := v :: items; pb_next := 0; pb_enum := enum; pb_freq := freq; pb_len := len;
    pb_sw := sw_init; pb_counter := 0; pb_iters := 0; pb_passed := 0 |} =
  Some (map (hand enum) (numbered 0 (v :: items)),
    PFirst :: upd_lines hz t u len (t O) 0 0 (due hz freq t (t O) 1 (length items)) ++
    [PLast (secs_to_dhms (t (length (v :: items)) - t O # hz))], None).
Proof.
  intros t u L F. destruct fuel as [|fuel]; [cbn in F; lia|].
  cbn [pb_for]. rewrite (surjective_pairing (clock O)). fold (t O) (u O).
  unfold pb_step at 1. cbn [pb_items pb_next pb_enum]. change (0 =? 0) with true. cbv beta iota zeta.
  cbn [pb_sw pb_counter pb_iters pb_passed pb_freq pb_len].
  assert (E : (if enum then PItem (IEnum 0 v) else PItem (IVal v)) = PItem (hand enum (0, v))) by (destruct enum; reflexivity).
  rewrite E.
  rewrite (for_more hz clock items (t O) 1 _ fuel); [reflexivity|lia|reflexivity| |exact L|cbn in F; lia].
  unfold pinv. cbn [pb_next pb_sw pb_counter pb_iters sw_start sw_init sw_started sw_start_time sw_cur negb sw_time sw_t0 sw_t1 pred]. unfold t. repeat split; try lia; reflexivity.
Qed.

(** ---- what the updates show when the clock does not run backwards ---- *)
Definition forwards (clock : nat -> Z * Z) : Prop := forall k, fst (clock k) <= snd (clock k) <= fst (clock (S k)).

Lemma forwards_le clock i j : forwards clock -> (i <= j)%nat -> fst (clock i) <= fst (clock j).
Proof. intros H. induction 1 as [|j Hj IH]; [lia|]. specialize (H j). lia. Qed.

Lemma due_range hz freq t last n : forall i, Forall (fun k => i <= k < i + n)%nat (due hz freq t last i n).
Proof.
  revert last. induction n as [|n IH]; intros last i; [constructor|]. cbn [due].
  destruct (Qlt_le_dec freq (t i - last # hz)).
  - constructor; [lia|]. eapply Forall_impl; [|apply (IH (t i) (S i))]. cbn; intros; lia.
  - eapply Forall_impl; [|apply (IH last (S i))]. cbn; intros; lia.
Qed.

Lemma dhms_nonneg x d h m s : (0 <= x)%Q -> secs_to_dhms x = (d, h, m, s) -> 0 <= d.
Proof.
  intros Hx E. apply secs_to_dhms_spec in E. destruct E as (Hh & Hm & Hs & N & _).
  destruct (Z.lt_ge_cases d 0) as [D|D]; [|exact D]. exfalso.
  set (w := 86400 * d + 3600 * h + 60 * m + s) in *. assert (w <= -1) by (unfold w; nia).
  assert ((inject_Z w <= -1)%Q) by (change (-1)%Q with (inject_Z (-1)); rewrite <- Zle_Qle; assumption).
  apply Qabs_Qle_condition in N. lra.
Qed.

Lemma estimate_nonneg hz passed counter i num len :
  0 <= passed -> 0 <= counter -> 0 <= num < i -> i <= len -> (0 <= estimate hz passed counter i num len)%Q.
Proof.
  intros H1 H2 H3 H4. unfold estimate.
  assert (0 <= secs hz passed)%Q by (unfold Qle, secs; cbn; lia).
  assert (0 <= secs hz counter)%Q by (unfold Qle, secs; cbn; lia).
  assert (0 <= inject_Z (len - i))%Q by (change 0%Q with (inject_Z 0); rewrite <- Zle_Qle; lia).
  apply Qmult_le_0_compat; [|assumption].
  apply Qle_shift_div_l; [apply denom_pos; assumption|]. lra.
Qed.

(** ---- an estimated length of 0: the first update that is due raises ---- *)
Lemma step_zero {A} hz (t u : nat -> Z) last k (p : pbar A) v rest :
  (1 <= k)%nat -> pb_items p = v :: rest -> pinv t last k p -> pb_len p = 0 ->
  if Qlt_le_dec (pb_freq p) (t k - last # hz)
  then exists p', pb_step hz (t k) (u k) p = (p', [], PExn ZeroDivisionError)
  else exists p', pb_items p' = rest /\ pb_enum p' = pb_enum p /\ pb_freq p' = pb_freq p /\ pb_len p' = 0 /\
       pinv t last (S k) p' /\ pb_step hz (t k) (u k) p = (p', [], PItem (hand (pb_enum p) (Z.of_nat k, v))).
Proof.
  intros Hk E I L.
  assert (G : let p1 := {| pb_items := pb_items p; pb_next := pb_next p; pb_enum := pb_enum p; pb_freq := pb_freq p; pb_len := 1;
    pb_sw := pb_sw p; pb_counter := pb_counter p; pb_iters := pb_iters p; pb_passed := pb_passed p |} in
    pb_items p1 = v :: rest /\ pinv t last k p1 /\ pb_len p1 <> 0) by (split; [exact E|split; [exact I|discriminate]]).
  destruct (Qlt_le_dec (pb_freq p) (t k - last # hz)) as [D|D].
  - destruct I as (I1 & I2 & I3 & I4 & I5).
    unfold pb_step. rewrite E, I1. replace (Z.of_nat k =? 0) with false by lia. unfold sw_measure. cbv beta iota zeta.
    match goal with |- context [pb_counter p + ?d] => replace (pb_counter p + d) with (t k - last) end.
    2:{ rewrite I4. unfold sw_time in *. cbn [sw_prev sw_cur sw_t0 sw_t1]. destruct (sw_cur (pb_sw p)); cbn [negb] in *; lia. }
    unfold secs.
    assert (B1 : Qle_bool (t k - last # hz) (pb_freq p) = false).
    { apply not_true_iff_false. rewrite Qle_bool_iff. apply Qlt_not_le. exact D. }
    assert (B2 : Qeq_bool (inject_Z (Z.of_nat k) - (1 # 5) * inject_Z (pb_iters p)) 0 = false).
    { apply not_true_iff_false. rewrite Qeq_bool_iff. intros H. pose proof (denom_pos (Z.of_nat k) (pb_iters p) I5) as Q0.
      rewrite H in Q0. now apply Qlt_irrefl in Q0. }
    rewrite B1, B2. unfold sw_total. cbn [sw_start_time]. rewrite I2, L. eexists. reflexivity.
  - destruct G as (G1 & G2 & G3).
    destruct (step_more hz t u last k _ v rest Hk G1 G2 G3) as (p' & P1 & P2 & P3 & P4 & S'). cbn [pb_freq pb_enum] in *.
    destruct (Qlt_le_dec (pb_freq p) (t k - last # hz)) as [D'|_]; [exfalso; apply Qlt_not_le in D'; contradiction|].
    destruct S' as (I' & _ & _ & S').
    exists {| pb_items := pb_items p'; pb_next := pb_next p'; pb_enum := pb_enum p'; pb_freq := pb_freq p'; pb_len := 0;
      pb_sw := pb_sw p'; pb_counter := pb_counter p'; pb_iters := pb_iters p'; pb_passed := pb_passed p' |}.
    split; [exact P1|]. split; [exact P2|]. split; [exact P3|]. split; [reflexivity|]. split; [exact I'|].
    unfold pb_step in *. cbn [pb_items pb_next pb_enum pb_freq pb_len pb_sw pb_counter pb_iters pb_passed] in *.
    rewrite E in *. destruct I as (I1 & _). rewrite I1 in *. replace (Z.of_nat k =? 0) with false in * by lia.
    unfold sw_measure in *. cbv beta iota zeta in *. rewrite L.
    match goal with |- context [Qle_bool ?a ?b] => destruct (Qle_bool a b) end.
    + injection S' as S1 S2. rewrite <- S1. cbn. rewrite S2. reflexivity.
    + destruct (Qeq_bool _ 0); [destruct (pb_enum p); discriminate|].
      destruct (sw_total (u k) _) as [tt0|e]; [|destruct (pb_enum p); discriminate].
      unfold percent in S'. cbn in S'. destruct (pb_enum p); discriminate.
Qed.

Lemma for_zero {A} hz clock (items : list A) : forall last k (p : pbar A) fuel,
  let t j := fst (clock j) in
  (1 <= k)%nat -> pb_items p = items -> pinv t last k p -> pb_len p = 0 -> (length items < fuel)%nat ->
  match due hz (pb_freq p) t last k (length items) with
  | [] => exists lines, pb_for hz fuel clock k p = Some (map (hand (pb_enum p)) (numbered (Z.of_nat k) items), lines, None)
  | j :: _ => pb_for hz fuel clock k p =
      Some (map (hand (pb_enum p)) (numbered (Z.of_nat k) (firstn (j - k) items)), [], Some ZeroDivisionError)
  end.
Proof.
  induction items as [|v items IH]; intros last k p fuel t Hk E I L F; (destruct fuel as [|fuel]; [cbn in F; lia|]).
  - cbn [due length]. eexists. cbn [pb_for]. rewrite (surjective_pairing (clock k)). fold (t k).
    rewrite (step_end hz t (fun j => snd (clock j)) last k p E I). reflexivity.
  - pose proof (step_zero hz t (fun j => snd (clock j)) last k p v items Hk E I L) as S1.
    cbn [length due]. cbn [pb_for]. rewrite (surjective_pairing (clock k)). fold (t k).
    destruct (Qlt_le_dec (pb_freq p) (t k - last # hz)) as [D|D].
    + destruct S1 as [p' S1]. rewrite S1. rewrite Nat.sub_diag. reflexivity.
    + destruct S1 as (p' & P1 & P2 & P3 & P4 & I' & S1). rewrite S1.
      pose proof (IH last (S k) p' fuel ltac:(lia) P1 I' P4 ltac:(cbn in F; lia)) as G. fold t in G. rewrite P2, P3 in G.
      rewrite Nat2Z.inj_succ, <- Z.add_1_r in G.
      pose proof (due_range hz (pb_freq p) t last (length items) (S k)) as R.
      destruct (due hz (pb_freq p) t last (S k) (length items)) as [|j js].
      * destruct G as [lines G]. rewrite G. eexists. reflexivity.
      * rewrite G. inversion_clear R as [|? ? Rj _]. replace (j - k)%nat with (S (j - S k)) by lia. reflexivity.
Qed.

(** ---- the updates are spaced ---- *)
Lemma due_spaced hz freq t last n : forall i, (0 <= freq)%Q ->
  (forall j, last <= t (i + j)%nat) -> (forall j j', (j <= j')%nat -> t j <= t j') ->
  (inject_Z (Z.of_nat (length (due hz freq t last i n))) * freq <= (t (i + n)%nat - last # hz))%Q.
Proof.
  revert last. induction n as [|n IH]; intros last i F H M; cbn [due length].
  - rewrite Nat.add_0_r. specialize (H O). rewrite Nat.add_0_r in H. unfold Qle, Qmult, inject_Z. cbn [Qnum Qden length Z.of_nat]. nia.
  - destruct (Qlt_le_dec freq (t i - last # hz)) as [D|D].
    + cbn [length]. pose proof (IH (t i) (S i) F) as G. cbn [Nat.add] in G. rewrite <- plus_n_Sm.
      assert (G1 : (inject_Z (Z.of_nat (length (due hz freq t (t i) (S i) n))) * freq <= t (S (i + n)) - t i # hz)%Q).
      { apply G; [intros j; apply M; lia|exact M]. }
      rewrite Nat2Z.inj_succ, <- Z.add_1_l, inject_Z_plus, Qmult_plus_distr_l, Qmult_1_l.
      assert (E : (t (S (i + n)) - last # hz == (t i - last # hz) + (t (S (i + n)) - t i # hz))%Q)
        by (unfold Qeq, Qplus; cbn [Qnum Qden]; nia).
      rewrite E. lra.
    + pose proof (IH last (S i) F) as G. cbn [Nat.add] in G. rewrite <- plus_n_Sm. apply G; [|exact M].
      intros j. specialize (H (S j)). rewrite <- plus_n_Sm in H. exact H.
Qed.

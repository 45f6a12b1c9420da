(** Claims about iterating with ProgressBar (utils.py:78-169). *)
From Coq Require Import ZArith QArith List Bool Lia Lqa.
From Verif Require Import PyBase Rnd Utils_Model Spec_Utils Utils_Proofs Progress_Model Spec_Progress Progress_Proofs.
Import ListNotations.
Open Scope Z_scope.

(** the length that the bar works with *)
Definition used_length (has_len est_len : option Z) : option Z :=
  match est_len with Some n => Some n | None => has_len end.

Lemma new_ok {A} (items : list A) has_len start est_len enum freq len : used_length has_len est_len = Some len ->
  pb_new items has_len start est_len enum freq =
  Ok {| pb_items := items; pb_next := start; pb_enum := enum; pb_freq := freq; pb_len := len; pb_sw := sw_init;
        pb_counter := 0; pb_iters := 0; pb_passed := 0 |}.
Proof. unfold pb_new, used_length. destruct est_len as [n|]; [|intros ->]; [intros H; injection H as ->|]; reflexivity. Qed.

Definition handed {A} (enum : bool) (xs : list (Z * A)) : list (pb_item A) :=
  map (fun '(i, v) => if enum then IEnum i v else IVal v) xs.
Lemma handed_eq {A} enum (xs : list (Z * A)) : map (hand enum) xs = handed enum xs.
Proof. apply map_ext. intros [i v]. destruct enum; reflexivity. Qed.

(** C94: a loop over a non-empty iterable sees every item, in order and with its position if asked, and ends normally. *)
Theorem C94_transparent : forall (A : Type) hz clock (items : list A) has_len est_len enum freq len,
  items <> [] -> used_length has_len est_len = Some len -> len <> 0 ->
  exists p lines, pb_new items has_len 0 est_len enum freq = Ok p /\
    forall fuel, (length items < fuel)%nat ->
    pb_for hz fuel clock 0 p = Some (handed enum (numbered 0 items), lines, None).
Proof.
  intros A hz clock items has_len est_len enum freq len NE HL L0.
  destruct items as [|v items]; [congruence|].
  eexists. eexists. split; [apply (new_ok _ _ _ _ _ _ _ HL)|].
  intros fuel F. rewrite for_all, handed_eq by assumption. reflexivity.
Qed.

(** ... but a loop over an empty iterable does not end: it raises AttributeError, whatever the arguments; *)
Theorem C94_empty : forall (A : Type) hz clock has_len start est_len enum freq len fuel,
  used_length has_len est_len = Some len -> (1 <= fuel)%nat ->
  exists p, pb_new (@nil A) has_len start est_len enum freq = Ok p /\
    pb_for hz fuel clock 0 p = Some ([], [], Some AttributeError).
Proof.
  intros A hz clock has_len start est_len enum freq len fuel HL F. eexists. split; [apply (new_ok _ _ _ _ _ _ _ HL)|].
  destruct fuel; [lia|]. cbn [pb_for]. rewrite (surjective_pairing (clock O)). reflexivity.
Qed.

(** with a start other than 0 (which enumerate allows) the first item is lost to AttributeError, because the clock reading
    (the seconds since 1970) exceeds the update frequency; *)
Theorem C94_start : forall (A : Type) hz clock (items : list A) has_len start est_len enum freq len fuel,
  items <> [] -> used_length has_len est_len = Some len -> start <> 0 -> (freq < fst (clock O) # hz)%Q -> (1 <= fuel)%nat ->
  exists p, pb_new items has_len start est_len enum freq = Ok p /\
    pb_for hz fuel clock 0 p = Some ([], [], Some AttributeError).
Proof.
  intros A hz clock items has_len start est_len enum freq len fuel NE HL S0 D F.
  eexists. split; [apply (new_ok _ _ _ _ _ _ _ HL)|]. destruct fuel; [lia|].
  destruct items as [|v items]; [congruence|].
  cbn [pb_for]. rewrite (surjective_pairing (clock O)). unfold pb_step. cbn [pb_items pb_next].
  replace (start =? 0) with false by lia. unfold sw_measure. cbn [pb_sw sw_init sw_cur sw_prev sw_t0 sw_t1 sw_time negb pb_counter pb_iters pb_freq].
  rewrite Z.sub_0_r, Z.add_0_l. unfold secs.
  assert (B1 : Qle_bool (fst (clock O) # hz) freq = false).
  { apply not_true_iff_false. rewrite Qle_bool_iff. apply Qlt_not_le. exact D. }
  assert (B2 : Qeq_bool (inject_Z start - (1 # 5) * inject_Z 0) 0 = false).
  { apply not_true_iff_false. rewrite Qeq_bool_iff. unfold Qeq, Qminus, Qplus, Qopp, Qmult, inject_Z. cbn [Qnum Qden]. lia. }
  rewrite B1, B2. reflexivity.
Qed.

(** a missing length is never reported as the documented ValueError; *)
Theorem C94_no_length : forall (A : Type) (items : list A) has_len start est_len enum freq,
  pb_new items has_len start est_len enum freq <> Raise ValueError /\
  (used_length has_len est_len = None <-> pb_new items has_len start est_len enum freq = Raise UnboundLocalError).
Proof.
  intros A items has_len start est_len enum freq. unfold pb_new, used_length.
  destruct est_len as [n|]; [|destruct has_len as [n|]]; cbn [bind]; repeat split; congruence.
Qed.

(** and with an estimated length of 0 the loop is left by ZeroDivisionError when the first update is due, after the items
    before it. *)
Theorem C94_length_zero : forall (A : Type) hz clock v (items : list A) has_len est_len enum freq fuel,
  used_length has_len est_len = Some 0 -> (length (v :: items) < fuel)%nat ->
  exists p lines, pb_new (v :: items) has_len 0 est_len enum freq = Ok p /\
    pb_for hz fuel clock 0 p =
      match due hz freq (fun k => fst (clock k)) (fst (clock O)) 1 (length items) with
      | [] => Some (handed enum (numbered 0 (v :: items)), lines, None)
      | j :: _ => Some (handed enum (numbered 0 (firstn j (v :: items))), lines, Some ZeroDivisionError)
      end.
Proof.
  intros A hz clock v items has_len est_len enum freq fuel HL F.
  destruct fuel as [|fuel]; [cbn in F; lia|].
  set (p1 := {| pb_items := items; pb_next := 0 + 1; pb_enum := enum; pb_freq := freq; pb_len := 0;
      pb_sw := sw_start (fst (clock O)) sw_init; pb_counter := 0; pb_iters := 0; pb_passed := 0 |}).
  assert (S1 : pb_for hz (S fuel) clock 0 {| pb_items := v :: items; pb_next := 0; pb_enum := enum; pb_freq := freq; pb_len := 0;
      pb_sw := sw_init; pb_counter := 0; pb_iters := 0; pb_passed := 0 |} =
    match pb_for hz fuel clock 1 p1 with None => None | Some (xs, ls, e) => Some (hand enum (0, v) :: xs, [PFirst] ++ ls, e) end).
  { cbn [pb_for]. rewrite (surjective_pairing (clock O)). unfold pb_step at 1. cbn [pb_items pb_next pb_enum].
    change (0 =? 0) with true. cbv beta iota zeta. destruct enum; reflexivity. }
  pose proof (for_zero hz clock items (fst (clock O)) 1 p1 fuel) as Z0. cbv zeta in Z0. cbn [pb_freq pb_enum p1] in Z0.
  pose proof (due_range hz freq (fun k => fst (clock k)) (fst (clock O)) (length items) 1) as R.
  destruct (due hz freq (fun k => fst (clock k)) (fst (clock O)) 1 (length items)) as [|j js].
  - destruct Z0 as [lines Z0]; [lia|reflexivity| |reflexivity|cbn in F; lia|].
    { unfold pinv. cbn [p1 pb_next pb_sw pb_counter pb_iters sw_start sw_init sw_started sw_start_time sw_cur negb sw_time sw_t0 sw_t1 pred]. repeat split; try lia; reflexivity. }
    eexists. eexists. split; [apply (new_ok _ _ _ _ _ _ _ HL)|]. rewrite S1, Z0. rewrite <- !handed_eq. reflexivity.
  - inversion_clear R as [|? ? Rj _].
    rewrite Z0 in S1; [|lia|reflexivity| |reflexivity|cbn in F; lia].
    2:{ unfold pinv. cbn [p1 pb_next pb_sw pb_counter pb_iters sw_start sw_init sw_started sw_start_time sw_cur negb sw_time sw_t0 sw_t1 pred]. repeat split; try lia; reflexivity. }
    eexists. eexists. split; [apply (new_ok _ _ _ _ _ _ _ HL)|]. rewrite S1. rewrite <- !handed_eq.
    destruct j as [|j]; [lia|]. replace (S j - 1)%nat with j by lia. reflexivity.
Qed.

Example C94_ex :
  let clock := fun k => let t := 1000 + 3 * Z.of_nat k in (t, t + 1) in
  (exists p, pb_new [10; 20; 30] (Some 3) 0 None true 2 = Ok p /\
     exists ls, pb_for 1 9 clock 0 p = Some ([IEnum 0 10; IEnum 1 20; IEnum 2 30], ls, None)) /\
  (exists p, pb_new [10; 20; 30] None 0 (Some 0) false 4 = Ok p /\
     exists ls, pb_for 1 9 clock 0 p = Some ([IVal 10; IVal 20], ls, Some ZeroDivisionError)) /\
  (exists p, pb_new [10; 20; 30] (Some 3) 5 None true 2 = Ok p /\
     pb_for 1 9 clock 0 p = Some ([], [], Some AttributeError)).
Proof. cbv zeta. split; [|split]; eexists; (split; [reflexivity|]); [eexists|eexists|]; vm_compute; reflexivity. Qed.

(** C95: what is printed.  One line at the first item, an update at every position where more than the update period has
    passed since the last one, one line at the end; each update shows the percentage of the position and the time passed. *)
Theorem C95_display : forall (A : Type) hz clock (items : list A) has_len est_len enum freq len,
  items <> [] -> used_length has_len est_len = Some len -> Z.of_nat (length items) <= len ->
  (forall k, fst (clock k) <= snd (clock k) <= fst (clock (S k))) ->
  let t k := fst (clock k) in let n := length items in
  exists p out ups, pb_new items has_len 0 est_len enum freq = Ok p /\
    (forall fuel, (n < fuel)%nat ->
       pb_for hz fuel clock 0 p = Some (out, PFirst :: ups ++ [PLast (secs_to_dhms (t n - t O # hz))], None)) /\
    Forall2 (fun k line => exists left d h m s, line = PUpdate (100 * Z.of_nat k / len) left (secs_to_dhms (snd (clock k) - t O # hz)) /\
               left = (d, h, m, s) /\ 0 <= d /\ 0 <= 100 * Z.of_nat k / len < 100)
      (due hz freq t (t O) 1 (n - 1)) ups.
Proof.
  intros A hz clock items has_len est_len enum freq len NE HL LE FW t n.
  destruct items as [|v items]; [congruence|].
  assert (L0 : len <> 0) by (cbn [length] in LE; lia).
  eexists. eexists. eexists. split; [apply (new_ok _ _ _ _ _ _ _ HL)|]. split.
  - intros fuel F. rewrite for_all by assumption. reflexivity.
  - unfold n. cbn [length] in *. replace (S (length items) - 1)%nat with (length items) by lia.
    assert (G : forall ks i last passed iters, (forall k, In k ks -> (i <= k <= length items)%nat) ->
      due hz freq t last i (length items + 1 - i) = ks -> (1 <= i)%nat -> last <= t i -> 0 <= passed -> 0 <= iters < Z.of_nat i ->
      Forall2 (fun k line => exists left d h m s, line = PUpdate (100 * Z.of_nat k / len) left (secs_to_dhms (snd (clock k) - t O # hz)) /\
               left = (d, h, m, s) /\ 0 <= d /\ 0 <= 100 * Z.of_nat k / len < 100)
        ks (upd_lines hz t (fun k => snd (clock k)) len last passed iters ks)).
    { induction ks as [|k ks IH]; intros i last passed iters R E Hi Hl Hp Hn; [constructor|].
      assert (Rk := R k (or_introl eq_refl)).
      assert (Tik : t i <= t k) by (apply forwards_le; [exact FW|lia]).
      assert (T0k : t O <= t k) by (apply forwards_le; [exact FW|lia]).
      assert (Tk : t k <= t (S k)) by (apply forwards_le; [exact FW|lia]).
      assert (Uk : t k <= snd (clock k)) by (specialize (FW k); unfold t; lia).
      assert (E2 : due hz freq t (t k) (S k) (length items + 1 - S k) = ks).
      { assert (NN : (length items + 1 - i <> 0)%nat) by lia. revert E NN Rk.
        generalize (eq_refl (length items + 1 - i)%nat). generalize (length items + 1 - i)%nat at 2 3 4. intros m Hm E NN Rk.
        clear - E Hm Rk. revert i Hm Rk E. induction m as [|m IHm]; intros i Hm Rk E; [discriminate|]. cbn [due] in E.
        destruct (Qlt_le_dec freq (t i - last # hz)).
        - injection E as -> E. replace (length items + 1 - S k)%nat with m by lia. exact E.
        - assert (i <> k).
          { intros ->. pose proof (due_range hz freq t last m (S k)) as R. rewrite E in R. inversion R; lia. }
          apply (IHm (S i)); [lia|lia|exact E]. }
      assert (SK : forall x, In x ks -> (S k <= x <= length items)%nat).
      { intros x Hx. split; [|apply R; right; exact Hx].
        pose proof (due_range hz freq t (t k) (length items + 1 - S k) (S k)) as D. rewrite E2 in D.
        rewrite Forall_forall in D. specialize (D x Hx). lia. }
      cbn [upd_lines]. constructor.
      - destruct (secs_to_dhms (estimate hz passed (t k - last) (Z.of_nat k) iters len)) as [[[d h] m] s] eqn:ED.
        exists (d, h, m, s), d, h, m, s. split; [|split; [reflexivity|split]].
        + f_equal. apply Z.quot_div_nonneg; lia.
        + eapply dhms_nonneg; [|exact ED]. apply estimate_nonneg; lia.
        + split; [apply Z.div_pos; lia|]. apply Z.div_lt_upper_bound; lia.
      - apply (IH (S k)); [exact SK|exact E2|lia|exact Tk|unfold t in *; lia|lia]. }
    apply (G _ 1%nat); [|f_equal; lia|lia|apply forwards_le; [exact FW|lia]|lia|lia].
    intros k Hk. pose proof (due_range hz freq t (t O) (length items) 1) as D. rewrite Forall_forall in D. specialize (D k Hk). lia.
Qed.

(** the updates are limited: their number times the period is at most the time passed *)
Theorem C95_rate : forall hz freq clock n, (0 <= freq)%Q ->
  (forall k, fst (clock k) <= snd (clock k) <= fst (clock (S k))) ->
  (inject_Z (Z.of_nat (length (due hz freq (fun k => fst (clock k)) (fst (clock O)) 1 n))) * freq
   <= (fst (clock (S n)) - fst (clock O) # hz))%Q.
Proof.
  intros hz freq clock n F FW. apply (due_spaced hz freq (fun k => fst (clock k)) _ n 1 F).
  - intros j. apply forwards_le; [exact FW|lia].
  - intros j j' H. apply forwards_le; assumption.
Qed.

Example C95_ex :
  let clock := fun k => let t := 1000 + 3 * Z.of_nat k in (t, t + 1) in
  exists p, pb_new [7; 8; 9; 10] (Some 4) 0 None false 4 = Ok p /\
    pb_for 1 9 clock 0 p = Some ([IVal 7; IVal 8; IVal 9; IVal 10],
      [PFirst; PUpdate 50 (0, 0, 0, 6) (0, 0, 0, 7); PLast (0, 0, 0, 12)], None).
Proof. eexists. split; [reflexivity|]. vm_compute. reflexivity. Qed.

Print Assumptions C94_transparent.
Print Assumptions C94_empty.
Print Assumptions C94_start.
Print Assumptions C94_no_length.
Print Assumptions C94_length_zero.
Print Assumptions C95_display.
Print Assumptions C95_rate.

(** Reading back what was written. *)
From Coq Require Import Ascii String ZArith List Bool Lia.
From Verif Require Import PyBase Hashtable_Model Hashtable_Proofs MITM_Model Results_Model Config_Model Spec_ULCD Spec_Config Config_Proofs.
Import ListNotations.
Local Open Scope Z_scope.
Local Open Scope list_scope.
Local Open Scope res_scope.

(** The text of a value as json.dumps writes it *)
Fixpoint jprint (j : json) : text :=
  match j with
  | JNull => txt "null"
  | JBool b => txt (if b then "true" else "false")
  | JInt z => z_text z
  | JStr s => txt """" ++ s ++ txt """"
  | JList l => txt "[" ++ commas (map jprint l) ++ txt "]"
  end.
Definition str_ok (s : text) : Prop := Forall (fun c => char_eqb c """"%char = false /\ char_eqb c "\"%char || Nat.ltb (nat_of_ascii c) 32 = false) s.
Fixpoint jok (j : json) : Prop :=
  match j with JStr s => str_ok s | JList l => fold_right (fun x P => jok x /\ P) True l | _ => True end.
Lemma jok_list l : jok (JList l) <-> Forall jok l.
Proof. cbn [jok]. induction l as [|x l IH]; cbn [fold_right]; [split; auto|]. rewrite IH. split; [intros [A B]; now constructor|intros H; now inversion H]. Qed.
(** What may follow a value *)
Definition ends (rest : text) : Prop := match rest with [] => True | c :: _ => c = ","%char \/ c = "]"%char end.
Lemma jstr_ok s : forall acc rest, str_ok s -> jstr (s ++ """"%char :: rest) acc = Some (rev acc ++ s, rest).
Proof.
  induction s as [|c s IH]; intros acc rest H; cbn [app jstr].
  - change (char_eqb """" """") with true. cbv iota. now rewrite app_nil_r.
  - inversion H as [|? ? [H1 H2] H3]; subst. rewrite H1, H2, IH by exact H3. cbn [rev]. now rewrite <- app_assoc.
Qed.
Lemma span_ok ds rest : Forall (fun c => is_digit c = true) ds -> ends rest -> span_digits (ds ++ rest) = (ds, rest).
Proof.
  intros F E. induction F as [|c ds F1 F2 IH]; cbn [app span_digits].
  - destruct rest as [|c rest]; [reflexivity|]. cbn [span_digits]. destruct E as [E|E]; subst c; reflexivity.
  - now rewrite F1, IH.
Qed.
Lemma jnat_ok n rest : 0 <= n -> ends rest -> jnat (z_text n ++ rest) = Some (n, rest).
Proof.
  intros H E. destruct (z_text_nat n H) as (V & NN & D & Z0). unfold jnat.
  assert (R : forall k : option (Z * text), match rest with d :: _ => if existsb (char_eqb d) (txt ".eE") then None else k | [] => k end = k).
  { intros k. destruct rest as [|c rest]; [reflexivity|]. destruct E as [E|E]; subst c; reflexivity. }
  destruct (z_text n) as [|c r] eqn:T; [contradiction|]. cbn [app].
  destruct (char_eqb c "0") eqn:C.
  - apply Ascii.eqb_eq in C. pose proof (Z0 c r eq_refl C) as ->. rewrite V. cbn [app]. apply R.
  - change (c :: r ++ rest) with ((c :: r) ++ rest). rewrite span_ok by assumption. rewrite V. apply R.
Qed.
Lemma digit_char c : is_digit c = true -> In c (txt "0123456789").
Proof.
  unfold is_digit. rewrite andb_true_iff, !Nat.leb_le. intros H. rewrite <- (ascii_nat_embedding c).
  set (n := nat_of_ascii c) in *. clearbody n.
  do 58 (destruct n as [|n]; [try lia; cbn; tauto|]). lia.
Qed.
Lemma z_text_first z : exists c r, z_text z = c :: r /\ In c (txt "-0123456789").
Proof.
  destruct z as [|p|p]; [exists "0"%char, []; split; [reflexivity|cbn; tauto]| |exists "-"%char, (z_text (Zpos p)); split; [reflexivity|now left]].
  destruct (z_text_nat (Zpos p)) as (_ & NN & D & _); [lia|]. destruct (z_text (Zpos p)) as [|c r]; [contradiction|]. inversion D; subst.
  exists c, r. split; [reflexivity|]. right. now apply digit_char.
Qed.
Lemma jnum_ok z rest : ends rest -> jnum (z_text z ++ rest) = Some (JInt z, rest).
Proof.
  intros E. destruct z as [|p|p].
  - pose proof (jnat_ok 0 rest ltac:(lia) E) as J. change (z_text 0) with ["0"%char] in *. cbn [app] in *. unfold jnum. change (char_eqb "0" "-") with false. cbv iota. now rewrite J.
  - pose proof (jnat_ok (Zpos p) rest ltac:(lia) E) as J. destruct (z_text_nat (Zpos p)) as (_ & NN & D & _); [lia|].
    destruct (z_text (Zpos p)) as [|c r]; [contradiction|]. cbn [app] in *. unfold jnum. inversion D; subst.
    assert (C : char_eqb c "-" = false) by (apply Ascii.eqb_neq; intros ->; discriminate). now rewrite C, J.
  - rewrite z_text_neg. cbn [app]. unfold jnum. change (char_eqb "-" "-") with true. cbv iota. rewrite jnat_ok by (lia || exact E). reflexivity.
Qed.
(** The first character of a value *)
Lemma jfirst j : exists c r, jprint j = c :: r /\ j_blank c = false /\ char_eqb c "]" = false.
Proof.
  destruct j as [|b|z|s|l].
  - eexists _, _. repeat split.
  - destruct b; eexists _, _; repeat split.
  - destruct (z_text_first z) as (c & r & E & I). exists c, r. split; [exact E|].
    cbn in I. repeat (destruct I as [<-|I]; [split; reflexivity|]). destruct I.
  - eexists _, _. repeat split.
  - eexists _, _. repeat split.
Qed.
Lemma jws_first c r : j_blank c = false -> jws (c :: r) = c :: r.
Proof. intros H. cbn [jws]. now rewrite H. Qed.
Lemma commas_cons x y r : commas (x :: y :: r) = x ++ txt ", " ++ commas (y :: r).
Proof. reflexivity. Qed.
Lemma jv_ok : forall j n rest, jok j -> ends rest -> (length (jprint j) + 1 <= n)%nat -> jv n (jprint j ++ rest) = Some (j, rest).
Proof.
  fix IH 1. intros j n rest OK E L. destruct n as [|n]; [lia|].
  destruct j as [|b|z|s|l].
  - reflexivity.
  - destruct b; reflexivity.
  - destruct (z_text_first z) as (c & r & T & I). pose proof (jnum_ok z rest E) as J. cbn [jprint]. rewrite T in *. cbn [app] in *. cbn [jv].
    cbn in I. repeat (destruct I as [<-|I]; [exact J|]). destruct I.
  - cbn [jprint]. change (jv (S n) ((txt """" ++ s ++ txt """") ++ rest)) with
      (match jstr ((s ++ txt """") ++ rest) [] with Some (t, r') => Some (JStr t, r') | None => None end).
    rewrite <- app_assoc. change (txt """" ++ rest) with (""""%char :: rest). rewrite jstr_ok by exact OK. reflexivity.
  - cbn [jprint] in *. apply jok_list in OK.
    change (jv (S n) ((txt "[" ++ commas (map jprint l) ++ txt "]") ++ rest)) with
      (match jws ((commas (map jprint l) ++ txt "]") ++ rest) with
       | d :: r' => if char_eqb d "]"%char then Some (JList [], r') else jl n (d :: r') []
       | [] => None
       end).
    rewrite <- app_assoc. change (txt "]" ++ rest) with ("]"%char :: rest).
    rewrite !app_length in L. change (length (txt "[")) with 1%nat in L. change (length (txt "]")) with 1%nat in L.
    assert (G : forall l, (forall j, In j l -> forall n rest, jok j -> ends rest -> (length (jprint j) + 1 <= n)%nat -> jv n (jprint j ++ rest) = Some (j, rest)) ->
      Forall jok l -> l <> [] -> forall acc n, (length (commas (map jprint l)) + 2 <= n)%nat -> jl n (commas (map jprint l) ++ "]"%char :: rest) acc = Some (JList (rev acc ++ l), rest)).
    { clear. induction l as [|x l IHl]; intros H F N acc n L; [contradiction|]. destruct n as [|n]; [lia|]. inversion F as [|? ? F1 F2]; subst.
      destruct l as [|y l].
      - cbn [map commas] in *. cbn [jl]. rewrite H; [|now left|exact F1|now right|lia]. cbn [jws]. change (j_blank "]") with false. cbv iota.
        change (char_eqb "]" ",") with false. change (char_eqb "]" "]") with true. cbv iota. reflexivity.
      - cbn [map] in L |- *. rewrite commas_cons in *. rewrite <- !app_assoc. rewrite !app_length in L. cbn [jl]. rewrite H; [|now left|exact F1|now left|lia].
        change (txt ", " ++ commas (jprint y :: map jprint l) ++ "]"%char :: rest) with (","%char :: " "%char :: commas (jprint y :: map jprint l) ++ "]"%char :: rest).
        cbn [jws]. change (j_blank ",") with false. cbv iota. change (char_eqb "," ",") with true. cbv iota.
        destruct (jfirst y) as (c & r & EY & B & _).
        assert (W : jws (commas (jprint y :: map jprint l) ++ "]"%char :: rest) = commas (jprint y :: map jprint l) ++ "]"%char :: rest).
        { destruct l as [|z l]; [cbn [map commas]|cbn [map]; rewrite commas_cons]; rewrite EY; cbn [app]; now rewrite jws_first. }
        change (jws (" "%char :: commas (jprint y :: map jprint l) ++ "]"%char :: rest)) with (jws (commas (jprint y :: map jprint l) ++ "]"%char :: rest)).
        rewrite W. change (jprint y :: map jprint l) with (map jprint (y :: l)). rewrite (IHl (fun j J => H j (or_intror J)) F2 ltac:(discriminate) (x :: acc) n).
        + cbn [rev]. now rewrite <- app_assoc.
        + change (length (txt ", ")) with 2%nat in L. cbn [map]. lia. }
    destruct l as [|x l]; [reflexivity|].
    assert (IN : forall j, In j (x :: l) -> forall n rest, jok j -> ends rest -> (length (jprint j) + 1 <= n)%nat -> jv n (jprint j ++ rest) = Some (j, rest)).
    { clear - IH. induction (x :: l) as [|y m IHm]; intros j J; [destruct J|]. destruct J as [<-|J]; [exact (IH y)|exact (IHm j J)]. }
    pose proof (G (x :: l) IN OK ltac:(discriminate) [] n ltac:(lia)) as J. cbn [rev app] in J.
    destruct (jfirst x) as (c & r & EX & B & C).
    destruct l as [|y l]; [cbn [map commas] in *|cbn [map] in *; rewrite commas_cons in *]; rewrite EX in *; cbn [app] in *; rewrite jws_first by exact B; rewrite C; exact J.
Qed.
Lemma loads_ok j : jok j -> json_loads (jprint j) = Ok j.
Proof.
  intros OK. unfold json_loads. destruct (jfirst j) as (c & r & E & B & _).
  assert (W : jws (jprint j) = jprint j) by (rewrite E; now apply jws_first). rewrite W.
  pose proof (jv_ok j (2 * length (jprint j) + 2) [] OK I ltac:(lia)) as J. rewrite app_nil_r in J. rewrite J. reflexivity.
Qed.
(** Lists of integers, at any depth *)
Fixpoint ints (j : json) : Prop :=
  match j with JInt _ => True | JList l => fold_right (fun x P => ints x /\ P) True l | _ => False end.
Lemma ints_repr : forall j, ints j -> json_repr j = jprint j /\ jok j.
Proof.
  fix IH 1. intros [|b|z|s|l] H; try destruct H.
  - split; [reflexivity|exact I].
  - cbn [json_repr jprint]. assert (G : map json_repr l = map jprint l /\ Forall jok l).
    { clear -H IH. cbn [ints] in H. induction l as [|x l IHl]; [split; [reflexivity|constructor]|]. cbn [fold_right] in H. destruct H as [H1 H2].
      destruct (IH x H1) as [A B]. destruct (IHl H2) as [C D]. split; [cbn [map]; now rewrite A, C|now constructor]. }
    destruct G as [G1 G2]. split; [now rewrite G1|now apply jok_list].
Qed.

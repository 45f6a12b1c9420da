(** Facts about the texts that process_and_compare.py takes apart. *)
From Coq Require Import Ascii String ZArith QArith List Bool Lia.
From Verif Require Import PyBase PyBase_Proofs Hashtable_Model Hashtable_Proofs ContFrac_Model MITM_Model Results_Model Config_Model
  Consts_Model Spec_ULCD Spec_Config Config_Proofs Config_Json Legacy_Model Spec_Legacy.
Import ListNotations.
Local Open Scope Z_scope.
Local Open Scope list_scope.

(** ---- replace ---- *)
Lemma strip_prefix_spec p : forall s r, strip_prefix p s = Some r <-> s = p ++ r.
Proof.
  induction p as [|c p IH]; intros s r; cbn [strip_prefix app].
  - split; [intros H; now injection H|now intros ->].
  - destruct s as [|d s]; [split; discriminate|]. destruct (char_eqb c d) eqn:E.
    + apply Ascii.eqb_eq in E. subst d. rewrite IH. split; [now intros ->|intros H; now injection H].
    + split; [discriminate|]. intros H. injection H as -> _. unfold char_eqb in E. now rewrite Ascii.eqb_refl in E.
Qed.
Lemma replace_char c t : forall n s, (length s < n)%nat -> replace_go n [c] t s = flat_map (fun x => if char_eqb c x then t else [x]) s.
Proof.
  induction n as [|n IH]; intros s L; [lia|]. cbn [replace_go]. destruct s as [|x s]; [reflexivity|]. cbn [strip_prefix flat_map]. cbn [length] in L.
  destruct (char_eqb c x); rewrite IH by lia; reflexivity.
Qed.
(** The three replacements in one pass *)
Fixpoint tj (s : text) : text :=
  match s with
  | [] => []
  | c :: r =>
      if char_eqb c "("%char then "["%char :: tj r
      else if char_eqb c ")"%char then "]"%char :: tj r
      else if char_eqb c ","%char then
        match r with
        | d :: r' => if char_eqb d ")"%char then "]"%char :: tj r' else c :: tj r
        | [] => [c]
        end
      else c :: tj r
  end.
Definition open_br (s : text) : text := flat_map (fun x => if char_eqb "("%char x then txt "[" else [x]) s.
Definition close_br (s : text) : text := flat_map (fun x => if char_eqb ")"%char x then txt "]" else [x]) s.
Lemma sym_eqb a b : char_eqb a b = char_eqb b a.
Proof. apply Ascii.eqb_sym. Qed.
Lemma open_len s : length (open_br s) = length s.
Proof. induction s as [|c s IH]; [reflexivity|]. unfold open_br in *. cbn [flat_map]. rewrite app_length, IH. destruct (char_eqb _ c); reflexivity. Qed.
Lemma tj_ok : forall k s n, (length s <= k)%nat -> (length s < n)%nat -> close_br (replace_go n (txt ",)") (txt "]") (open_br s)) = tj s.
Proof.
  induction k as [|k IH]; intros s n K L.
  - destruct s as [|c s]; [|cbn [length] in K; lia]. destruct n; reflexivity.
  - destruct s as [|c s]; [destruct n; reflexivity|]. destruct n as [|n]; [lia|]. cbn [length] in *.
    unfold open_br. cbn [flat_map]. fold (open_br s). cbn [tj]. rewrite (sym_eqb "("%char c).
    destruct (char_eqb c "(") eqn:E1.
    { cbn [app]. change (txt "[" ++ open_br s) with ("["%char :: open_br s). cbn [replace_go strip_prefix].
      change (strip_prefix (txt ",)") ("["%char :: open_br s)) with (@None text). cbv iota. unfold close_br. cbn [flat_map]. fold (close_br (replace_go n (txt ",)") (txt "]") (open_br s))).
      rewrite IH by lia. reflexivity. }
    cbn [app replace_go]. destruct (char_eqb c ")") eqn:E2.
    { apply Ascii.eqb_eq in E2. subst c. change (strip_prefix (txt ",)") (")"%char :: open_br s)) with (@None text). cbv iota.
      unfold close_br. cbn [flat_map]. fold (close_br (replace_go n (txt ",)") (txt "]") (open_br s))). rewrite IH by lia. reflexivity. }
    assert (CB : forall l, close_br (c :: l) = c :: close_br l).
    { intros l. unfold close_br. cbn [flat_map]. rewrite (sym_eqb ")"%char c), E2. reflexivity. }
    destruct (char_eqb c ",") eqn:E3.
    2:{ assert (N : strip_prefix (txt ",)") (c :: open_br s) = None).
        { change (strip_prefix (txt ",)") (c :: open_br s)) with (if char_eqb ","%char c then strip_prefix (txt ")") (open_br s) else None).
          now rewrite sym_eqb, E3. }
        rewrite N, CB, IH by lia. reflexivity. }
    apply Ascii.eqb_eq in E3. subst c.
    change (strip_prefix (txt ",)") (","%char :: open_br s)) with (strip_prefix (txt ")") (open_br s)).
    destruct s as [|d s]; [destruct n; reflexivity|]. cbn [length] in *. destruct (char_eqb d ")") eqn:E4.
    + apply Ascii.eqb_eq in E4. subst d. change (strip_prefix (txt ")") (open_br (")"%char :: s))) with (Some (open_br s)). cbv iota.
      change (txt "]" ++ replace_go n (txt ",)") (txt "]") (open_br s)) with ("]"%char :: replace_go n (txt ",)") (txt "]") (open_br s)).
      unfold close_br. cbn [flat_map]. fold (close_br (replace_go n (txt ",)") (txt "]") (open_br s))). rewrite IH by lia. reflexivity.
    + assert (N : strip_prefix (txt ")") (open_br (d :: s)) = None).
      { unfold open_br. cbn [flat_map]. destruct (char_eqb "("%char d) eqn:E5; [reflexivity|].
        change (strip_prefix (txt ")") ([d] ++ flat_map (fun x => if char_eqb "("%char x then txt "[" else [x]) s)) with
          (if char_eqb ")"%char d then Some (flat_map (fun x => if char_eqb "("%char x then txt "[" else [x]) s) else None).
        now rewrite sym_eqb, E4. }
      rewrite N, CB, IH by (cbn [length]; lia). reflexivity.
Qed.
Lemma tuple_to_json_tj s : tuple_to_json s = tj s.
Proof.
  unfold tuple_to_json, py_replace. change (txt "(") with ["("%char]. change (txt ")") with [")"%char].
  rewrite (replace_char "("%char) by lia. fold (open_br s). rewrite (replace_char ")"%char) by lia.
  fold (close_br (replace_go (S (length (open_br s))) (txt ",)") (txt "]") (open_br s))).
  apply (tj_ok (length s)); [lia|]. rewrite open_len. lia.
Qed.
(** [x] becomes [y] whatever follows *)
Definition tjs (x y : text) : Prop := forall rest, tj (x ++ rest) = y ++ tj rest.
Lemma tjs_plain x : Forall (fun c => char_eqb c "(" || char_eqb c ")" || char_eqb c "," = false) x -> tjs x x.
Proof.
  intros F rest. induction F as [|c x H F IH]; [reflexivity|]. cbn [app tj]. apply orb_false_iff in H as [H H3]. apply orb_false_iff in H as [H1 H2].
  now rewrite H1, H2, H3, IH.
Qed.
Lemma tjs_int z : tjs (z_text z) (z_text z).
Proof.
  apply tjs_plain. assert (D : forall c, is_digit c = true -> char_eqb c "(" || char_eqb c ")" || char_eqb c "," = false).
  { intros c H. apply digit_char in H. cbn in H. repeat (destruct H as [<-|H]; [reflexivity|]). destruct H. }
  destruct z as [|p|p]; [repeat constructor| |rewrite z_text_neg; constructor; [reflexivity|]];
    (eapply Forall_impl; [|apply z_text_nat; lia]); exact D.
Qed.
Lemma sep_commas xs : sep_by (chars ", ") xs = commas xs.
Proof. induction xs as [|x xs IH]; [reflexivity|]. cbn [sep_by commas]. destruct xs; [reflexivity|]. now rewrite IH. Qed.
Lemma tj_commas xs ys : Forall2 tjs xs ys -> forall rest, tj (commas xs ++ ")"%char :: rest) = commas ys ++ "]"%char :: tj rest.
Proof.
  induction 1 as [|x y xs ys H F IH]; intros rest; [reflexivity|].
  destruct F as [|x' y' xs ys H' F].
  - cbn [commas]. rewrite H. reflexivity.
  - rewrite !commas_cons. rewrite <- !app_assoc. rewrite H. f_equal.
    change (txt ", " ++ commas (x' :: xs) ++ ")"%char :: rest) with (","%char :: " "%char :: commas (x' :: xs) ++ ")"%char :: rest).
    change (txt ", " ++ commas (y' :: ys) ++ "]"%char :: tj rest) with (","%char :: " "%char :: commas (y' :: ys) ++ "]"%char :: tj rest).
    rewrite <- IH. reflexivity.
Qed.
Lemma tjs_tuple xs ys : Forall2 tjs xs ys -> tjs (tuple_str xs) (txt "[" ++ commas ys ++ txt "]").
Proof.
  intros F rest. unfold tuple_str. rewrite sep_commas. rewrite <- !app_assoc.
  change (chars "(" ++ commas xs ++ match xs with [_] => chars ",)" | _ => chars ")" end ++ rest) with
    ("("%char :: (commas xs ++ match xs with [_] => chars ",)" | _ => chars ")" end ++ rest)).
  cbn [tj]. change (char_eqb "(" "(") with true. cbv iota. change (txt "[" ++ commas ys ++ txt "]" ++ tj rest) with ("["%char :: (commas ys ++ "]"%char :: tj rest)). f_equal.
  assert (G : match xs with [_] => False | _ => True end -> tj (commas xs ++ match xs with [_] => chars ",)" | _ => chars ")" end ++ rest) = commas ys ++ "]"%char :: tj rest).
  { intros N. rewrite <- (tj_commas xs ys F). destruct xs as [|x [|x' xs]]; [reflexivity|destruct N|reflexivity]. }
  destruct F as [|x y xs ys H F]; [now apply G|]. destruct F as [|x' y' xs ys H' F]; [|now apply G].
  cbn [commas]. rewrite H. reflexivity.
Qed.
Definition jpoly (p : list Z) : json := JList (map JInt p).
Lemma tjs_poly p : tjs (poly_tuple p) (jprint (jpoly p)).
Proof.
  unfold poly_tuple, jpoly. cbn [jprint]. apply tjs_tuple. induction p as [|z p IH]; [constructor|]. constructor; [apply tjs_int|exact IH].
Qed.
Lemma tjs_polys ps : tjs (polys_tuple ps) (jprint (JList (map jpoly ps))).
Proof.
  unfold polys_tuple. cbn [jprint]. apply tjs_tuple. induction ps as [|p ps IH]; [constructor|]. constructor; [apply tjs_poly|exact IH].
Qed.
Lemma jok_poly p : jok (jpoly p).
Proof. apply jok_list. apply Forall_forall. intros j I. apply in_map_iff in I as (z & <- & _). exact Logic.I. Qed.
Lemma ints_of_map p : ints_of (map JInt p) = Some p.
Proof. induction p as [|z p IH]; [reflexivity|]. cbn [map ints_of]. now rewrite IH. Qed.
Lemma lists_of_map ps : lists_of (map jpoly ps) = Some ps.
Proof. induction ps as [|p ps IH]; [reflexivity|]. cbn [map lists_of jpoly]. now rewrite ints_of_map, IH. Qed.
(** Reading back what python wrote *)
Lemma polys_loaded flat ps : ps <> [] -> (flat = true -> ps <> [[]]) ->
  exists j, json_loads (tuple_to_json (old_polys flat ps)) = Ok j /\ row_params j = Ok ps.
Proof.
  intros N NF. rewrite tuple_to_json_tj.
  assert (W : exists j, json_loads (tj (polys_tuple ps)) = Ok j /\ row_params j = Ok ps).
  { exists (JList (map jpoly ps)). pose proof (tjs_polys ps []) as T. rewrite !app_nil_r in T. split.
    - rewrite T. apply loads_ok. apply jok_list. apply Forall_forall. intros j I. apply in_map_iff in I as (p & <- & _). apply jok_poly.
    - destruct ps as [|p ps]; [contradiction|].
      change (row_params (JList (map jpoly (p :: ps)))) with (match lists_of (map jpoly (p :: ps)) with Some qs => Ok qs | None => Raise RuntimeError end).
      now rewrite lists_of_map. }
  unfold old_polys. destruct flat; [|exact W]. destruct ps as [|p [|q ps]]; try exact W.
  exists (jpoly p). pose proof (tjs_poly p []) as T. rewrite !app_nil_r in T. split.
  - rewrite T. apply loads_ok, jok_poly.
  - destruct p as [|z p]; [now contradiction (NF eq_refl)|]. 
    change (row_params (jpoly (z :: p))) with (match ints_of (map JInt (z :: p)) with Some q => Ok [q] | None => Raise RuntimeError end). now rewrite ints_of_map.
Qed.

(** ---- split ---- *)
Definition no_comma (s : text) : Prop := Forall (fun c => char_eqb c "," = false) s.
Lemma split_none sep0 sep s : forall n acc, Forall (fun c => char_eqb c sep0 = false) s -> (length s < n)%nat -> split_go n (sep0 :: sep) s acc = [rev acc ++ s].
Proof.
  induction s as [|c s IH]; intros n acc F L; (destruct n as [|n]; [cbn in L; lia|]); cbn [split_go strip_prefix].
  - now rewrite app_nil_r.
  - inversion F as [|? ? F1 F2]; subst. rewrite sym_eqb, F1. rewrite IH; [|exact F2|cbn [length] in L; lia]. cbn [rev]. now rewrite <- app_assoc.
Qed.
Lemma split_one s : forall n acc rest, no_comma s -> (length s + 2 + length rest < n)%nat ->
  split_go n (txt ", ") (s ++ txt ", " ++ rest) acc = (rev acc ++ s) :: split_go (n - S (length s)) (txt ", ") rest [].
Proof.
  induction s as [|c s IH]; intros n acc rest F L; (destruct n as [|n]; [cbn in L; lia|]); cbn [length] in *.
  - cbn [app split_go]. change (strip_prefix (txt ", ") (txt ", " ++ rest)) with (Some rest). cbv iota. rewrite app_nil_r. now replace (S n - 1)%nat with n by lia.
  - inversion F as [|? ? F1 F2]; subst. cbn [app split_go].
    change (strip_prefix (txt ", ") (c :: s ++ txt ", " ++ rest)) with (if char_eqb ","%char c then strip_prefix (txt " ") (s ++ txt ", " ++ rest) else None).
    rewrite sym_eqb, F1. rewrite IH; [|exact F2|lia]. cbn [rev]. rewrite <- app_assoc. reflexivity.
Qed.
Lemma split_commas xs : xs <> [] -> Forall no_comma xs -> forall n, (length (commas xs) < n)%nat -> split_go n (txt ", ") (commas xs) [] = xs.
Proof.
  induction xs as [|x xs IH]; intros N F n L; [contradiction|]. inversion F as [|? ? F1 F2]; subst.
  destruct xs as [|y xs].
  - cbn [commas] in *. change (txt ", ") with (","%char :: txt " "). now rewrite split_none.
  - rewrite commas_cons in *. rewrite !app_length in L. change (length (txt ", ")) with 2%nat in L. rewrite split_one; [|exact F1|lia].
    cbn [rev app]. f_equal. apply IH; [discriminate|exact F2|lia].
Qed.
Lemma py_split_commas xs : xs <> [] -> Forall no_comma xs -> py_split (txt ", ") (commas xs) = xs.
Proof. intros N F. unfold py_split. apply split_commas; auto. Qed.

(** ---- strip ---- *)
Definition inset (cs : text) (c : ascii) : bool := existsb (char_eqb c) cs.
Lemma inset_spec cs c : inset cs c = true <-> In c cs.
Proof.
  unfold inset. rewrite existsb_exists. split.
  - intros (d & I & E). apply Ascii.eqb_eq in E. now subst.
  - intros I. exists c. split; [exact I|]. apply Ascii.eqb_refl.
Qed.
Lemma drop_while_spec p s : exists w, s = w ++ drop_while p s /\ Forall (fun c => p c = true) w /\
  match drop_while p s with [] => True | c :: _ => p c = false end.
Proof.
  induction s as [|c s (w & E & F & H)]; [exists []; repeat split; constructor|]. cbn [drop_while]. destruct (p c) eqn:P.
  - exists (c :: w). split; [cbn [app]; now rewrite <- E|]. split; [now constructor|exact H].
  - exists []. split; [reflexivity|]. split; [constructor|exact P].
Qed.
Lemma strip_set_trimmed cs s : trimmed cs s (strip_set cs s).
Proof.
  unfold strip_set. fold (inset cs). destruct (drop_while_spec (inset cs) s) as (w & E & F & H).
  set (t := drop_while (inset cs) s) in *. destruct (drop_while_spec (inset cs) (rev t)) as (v & E2 & F2 & H2).
  set (u := drop_while (inset cs) (rev t)) in *.
  assert (ET : t = rev u ++ rev v) by (rewrite <- rev_app_distr, <- E2; symmetry; apply rev_involutive).
  exists w, (rev v). split; [rewrite E at 1; now rewrite ET|]. split; [|split; [|split]].
  - eapply Forall_impl; [|exact F]. intros c. apply inset_spec.
  - apply Forall_rev. eapply Forall_impl; [|exact F2]. intros c. apply inset_spec.
  - intros c r EU I. apply inset_spec in I. rewrite EU in ET. rewrite ET in H. cbn [app] in H. congruence.
  - intros c r EU I. apply inset_spec in I. assert (U : u = c :: rev r) by (rewrite <- (rev_involutive u), EU, rev_app_distr; reflexivity).
    rewrite U in H2. congruence.
Qed.
Lemma drop_while_app p w s : Forall (fun c => p c = true) w -> drop_while p (w ++ s) = drop_while p s.
Proof. induction 1 as [|c w H F IH]; [reflexivity|]. cbn [app drop_while]. now rewrite H. Qed.
Lemma drop_while_id p s : match s with [] => True | c :: _ => p c = false end -> drop_while p s = s.
Proof. destruct s as [|c s]; intros H; [reflexivity|]. cbn [drop_while]. now rewrite H. Qed.
Lemma trimmed_strip cs s m : trimmed cs s m -> strip_set cs s = m.
Proof.
  intros (p & q & E & FP & FQ & H1 & H2). subst s. unfold strip_set. fold (inset cs).
  assert (FP' : Forall (fun c => inset cs c = true) p) by (eapply Forall_impl; [|exact FP]; intros c; apply inset_spec).
  assert (FQ' : Forall (fun c => inset cs c = true) q) by (eapply Forall_impl; [|exact FQ]; intros c; apply inset_spec).
  rewrite drop_while_app by exact FP'.
  destruct m as [|c m].
  - cbn [app]. replace (drop_while (inset cs) q) with (@nil ascii); [reflexivity|]. symmetry. rewrite <- (app_nil_r q). now rewrite drop_while_app.
  - assert (IC : inset cs c = false) by (destruct (inset cs c) eqn:E; [|reflexivity]; apply inset_spec in E; now destruct (H1 c m eq_refl)).
    rewrite (drop_while_id _ ((c :: m) ++ q)) by exact IC.
    rewrite rev_app_distr. rewrite drop_while_app by now apply Forall_rev.
    rewrite drop_while_id; [apply rev_involutive|].
    destruct (rev (c :: m)) as [|d r] eqn:R; [exact I|]. destruct (inset cs d) eqn:ID; [|reflexivity]. apply inset_spec in ID.
    exfalso. apply (H2 d (rev r)); [|exact ID]. rewrite <- (rev_involutive (c :: m)), R. reflexivity.
Qed.

(** ---- the header ---- *)
Lemma header_ok fs : fs <> [] -> Forall (fun f => no_comma f /\ Forall (fun c => char_eqb c "'" = false) f) fs ->
  header_funcs (list_str (map quoted fs)) = fs.
Proof.
  intros N F. unfold header_funcs, list_str. rewrite sep_commas.
  assert (Q : exists m, commas (map quoted fs) = "'"%char :: m /\ exists m', commas (map quoted fs) = m' ++ ["'"%char]).
  { destruct fs as [|f fs]; [contradiction|]. clear. revert f. induction fs as [|g fs IH]; intros f.
    - cbn [map commas]. unfold quoted. eexists. split; [reflexivity|]. exists (chars "'" ++ f). now rewrite <- app_assoc.
    - destruct (IH g) as (m & E & m' & E'). change (map quoted (f :: g :: fs)) with (quoted f :: quoted g :: map quoted fs). rewrite commas_cons.
      change (quoted g :: map quoted fs) with (map quoted (g :: fs)). rewrite E'.
      exists (f ++ chars "'" ++ txt ", " ++ m' ++ ["'"%char]). split; [unfold quoted; rewrite <- !app_assoc; reflexivity|].
      exists (quoted f ++ txt ", " ++ m'). now rewrite !app_assoc. }
  destruct Q as (m & E & m' & E').
  assert (S1 : strip_set (txt "[") (chars "[" ++ commas (map quoted fs) ++ chars "]") = commas (map quoted fs) ++ chars "]").
  { apply trimmed_strip. exists (chars "["), []. split; [now rewrite app_nil_r|]. split; [repeat constructor|]. split; [constructor|]. split.
    - intros c r H. rewrite E in H. cbn [app] in H. injection H as <- _. intros [H|[]]. discriminate H.
    - intros c r H. apply app_inj_tail in H as [_ <-]. intros [H|[]]. discriminate H. }
  rewrite S1.
  assert (S2 : strip_set (txt "]") (commas (map quoted fs) ++ chars "]") = commas (map quoted fs)).
  { apply trimmed_strip. exists [], (chars "]"). split; [reflexivity|]. split; [constructor|]. split; [repeat constructor|]. split.
    - intros c r H. rewrite E in H. injection H as <- _. intros [H|[]]. discriminate H.
    - intros c r H. rewrite E' in H. apply app_inj_tail in H as [_ <-]. intros [H|[]]. discriminate H. }
  rewrite S2. unfold py_replace. change (txt "'") with ["'"%char]. rewrite replace_char by lia.
  set (rm := flat_map (fun x => if char_eqb "'" x then [] else [x])).
  assert (R1 : forall f, Forall (fun c => char_eqb c "'" = false) f -> rm (quoted f) = f).
  { intros f H. unfold rm, quoted. rewrite !flat_map_app. change (flat_map _ (chars "'")) with (@nil ascii). cbn [app].
    rewrite app_nil_r. induction H as [|c f H H' IH]; [reflexivity|]. cbn [flat_map]. rewrite sym_eqb, H. cbn [app]. now rewrite IH. }
  assert (R : rm (commas (map quoted fs)) = commas fs).
  { clear -F R1. induction F as [|f fs [_ H] F IH]; [reflexivity|]. destruct F as [|g fs H' F].
    - cbn [map commas]. now apply R1.
    - change (map quoted (f :: g :: fs)) with (quoted f :: quoted g :: map quoted fs). rewrite !commas_cons.
      change (quoted g :: map quoted fs) with (map quoted (g :: fs)).
      assert (A : forall x y, rm (x ++ y) = rm x ++ rm y) by (intros; apply flat_map_app). rewrite !A, R1 by exact H. rewrite IH. reflexivity. }
  rewrite R. apply py_split_commas; [exact N|]. eapply Forall_impl; [|exact F]. now intros f [H _].
Qed.

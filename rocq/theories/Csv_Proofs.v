(** What the csv reader makes of what the csv writer wrote. *)
From Coq Require Import Ascii String ZArith List Bool Lia.
From Verif Require Import PyBase Hashtable_Model Results_Model Config_Model Ini_Model Ini_Proofs Csv_Model.
Import ListNotations.
Local Open Scope list_scope.

(** ---- line ends ---- *)
Definition no_cr_end (a : text) : Prop := a = [] \/ exists b c, a = b ++ [c] /\ c <> cr.
Lemma no_cr_end_cons c a : no_cr_end (c :: a) -> a = [] /\ c <> cr \/ a <> [] /\ no_cr_end a.
Proof.
  intros [H|(b & d & E & N)]; [discriminate|]. destruct b as [|x b]; cbn in E; injection E as -> ->.
  - left. auto.
  - right. split; [now destruct b|]. right. eauto.
Qed.
Lemma universal_app n : forall a b, (length a <= n)%nat -> no_cr_end a -> universal (a ++ b) = universal a ++ universal b.
Proof.
  induction n as [|n IH]; intros a b L H; [destruct a; [reflexivity|cbn in L; lia]|]. destruct a as [|c a]; [reflexivity|]. cbn in L.
  destruct (no_cr_end_cons c a H) as [[-> N]|[N H']].
  - apply cneq in N. cbn [app universal]. now rewrite N.
  - cbn [app universal]. destruct (char_eqb c cr); [|rewrite IH by (assumption || lia); reflexivity].
    destruct a as [|d a]; [congruence|]. cbn [app]. destruct (char_eqb d nl) eqn:D.
    + cbn [app]. f_equal. cbn in L. destruct (no_cr_end_cons d a H') as [[-> _]|[_ H2]]; [reflexivity|]. apply IH; [lia|exact H2].
    + cbn [app]. f_equal. change (d :: a ++ b) with ((d :: a) ++ b). apply IH; [lia|exact H'].
Qed.
Lemma uapp a b : no_cr_end a -> universal (a ++ b) = universal a ++ universal b.
Proof. intros H. now apply (universal_app (length a)). Qed.
Lemma end_app a b : no_cr_end b -> b <> [] -> no_cr_end (a ++ b).
Proof. intros [->|(x & c & -> & N)] B; [congruence|]. right. exists (a ++ x), c. now rewrite app_assoc. Qed.
Lemma end_one a c : c <> cr -> no_cr_end (a ++ [c]).
Proof. intros H. right. eauto. Qed.
Definition plain (f : text) : Prop := forall c, In c f -> special_char c = false.
Lemma special_split f : existsb special_char f = false -> plain f.
Proof. intros H c I. destruct (special_char c) eqn:E; [|reflexivity]. assert (existsb special_char f = true) by (apply existsb_exists; eauto). congruence. Qed.
Lemma plain_code c : special_char c = false -> c <> comma /\ c <> quote /\ c <> nl /\ c <> cr.
Proof. unfold special_char. rewrite !orb_false_iff, !cneq. tauto. Qed.
Lemma plain_end f : plain f -> no_cr_end f.
Proof.
  intros H. induction f as [|x f _] using rev_ind; [now left|]. apply end_one. apply (plain_code x), H, in_or_app. right. now left.
Qed.
Lemma plain_universal f : plain f -> universal f = f.
Proof.
  induction f as [|c f IH]; intros H; [reflexivity|]. cbn [universal]. assert (N : c <> cr) by (apply (plain_code c), H; now left).
  apply cneq in N. rewrite N. f_equal. apply IH. intros d D. apply H. now right.
Qed.
(** Doubling quotes and replacing line ends may be exchanged. *)
Definition dbl (f : text) : text := flat_map (fun c => if char_eqb c quote then [quote; quote] else [c]) f.
Lemma dbl_universal n : forall f, (length f <= n)%nat -> universal (dbl f ++ [quote]) = dbl (universal f) ++ [quote].
Proof.
  induction n as [|n IH]; intros f L; [destruct f; [reflexivity|cbn in L; lia]|]. destruct f as [|c f]; [reflexivity|]. cbn in L.
  unfold dbl at 1. cbn [flat_map]. fold (dbl f). destruct (char_eqb c quote) eqn:Q.
  - apply ceq in Q. subst c. cbn [app universal]. change (char_eqb quote cr) with false. cbn iota. rewrite IH by lia. reflexivity.
  - cbn [app universal]. destruct (char_eqb c cr) eqn:R.
    + destruct f as [|d f]; [reflexivity|]. cbn in L. destruct (char_eqb d nl) eqn:D.
      * apply ceq in D. subst d. unfold dbl at 1. cbn [flat_map]. fold (dbl f). change (char_eqb nl quote) with false. cbn iota. cbn [app]. rewrite crefl.
        rewrite IH by lia. reflexivity.
      * specialize (IH (d :: f)). cbn [length] in IH. specialize (IH ltac:(lia)).
        assert (X : exists e r, dbl (d :: f) ++ [quote] = e :: r /\ char_eqb e nl = false).
        { unfold dbl. cbn [flat_map]. destruct (char_eqb d quote); [now exists quote, (quote :: dbl f ++ [quote])|]. exists d, (dbl f ++ [quote]). auto. }
        destruct X as (e & r & X & E). rewrite X in IH |- *. rewrite E. rewrite IH. reflexivity.
    + rewrite IH by lia. unfold dbl at 2. cbn [flat_map]. rewrite Q. reflexivity.
Qed.
Definition wf (f : text) : text := if existsb special_char f then in_quotes (universal f) else f.
Lemma wf_universal f : universal (write_field f) = wf f.
Proof.
  unfold write_field, wf. destruct (existsb special_char f) eqn:E; [|now apply plain_universal, special_split].
  unfold in_quotes. cbn [universal]. change (char_eqb quote cr) with false. cbn iota. f_equal. apply (dbl_universal (length f)). lia.
Qed.
Lemma wf_end f : no_cr_end (write_field f).
Proof.
  unfold write_field. destruct (existsb special_char f) eqn:E; [|now apply plain_end, special_split].
  unfold in_quotes. rewrite app_comm_cons. apply end_one. discriminate.
Qed.
Fixpoint wfs (r : list text) : text := match r with [] => [] | [f] => wf f | f :: r' => wf f ++ comma :: wfs r' end.
Lemma wfs_end r : no_cr_end (write_fields r).
Proof.
  induction r as [|f r IH]; [now left|]. cbn [write_fields]. destruct r as [|g r]; [apply wf_end|].
  destruct IH as [E|(b & c & E & N)].
  - rewrite E. apply end_one. discriminate.
  - rewrite E. right. exists (write_field f ++ comma :: b), c. split; [now rewrite <- app_assoc|exact N].
Qed.
Lemma wfs_universal r : universal (write_fields r) = wfs r.
Proof.
  induction r as [|f r IH]; [reflexivity|]. cbn [write_fields wfs]. destruct r as [|g r]; [apply wf_universal|].
  rewrite uapp by apply wf_end. rewrite wf_universal. f_equal. cbn [universal]. change (char_eqb comma cr) with false. cbn iota. now rewrite IH.
Qed.
Definition wr (r : list text) : text := (match r with [[]] => [quote; quote] | _ => wfs r end) ++ [nl].
Lemma wr_universal r x : universal (write_row r ++ x) = wr r ++ universal x.
Proof.
  unfold write_row, wr. rewrite <- !app_assoc.
  assert (X : forall y, no_cr_end y -> universal (y ++ [cr; nl] ++ x) = universal y ++ [nl] ++ universal x) by (intros y Y; now rewrite uapp).
  destruct r as [|[|c f] [|g r]]; rewrite X by (apply wfs_end || (apply (end_one [quote]); discriminate)); rewrite ?wfs_universal; reflexivity.
Qed.
Lemma csv_universal rows : universal (csv_write rows) = flat_map wr rows.
Proof. induction rows as [|r rows IH]; [reflexivity|]. unfold csv_write. cbn [flat_map]. rewrite wr_universal. f_equal. exact IH. Qed.

(** ---- the reader ---- *)
Definition mk m f r rs : creader := {| c_mode := m; c_field := f; c_row := r; c_rows := rs |}.
Definition run (s : creader) (t : text) : creader := fold_left csv_char t s.
Lemma run_app s a b : run s (a ++ b) = run (run s a) b.
Proof. apply fold_left_app. Qed.
Lemma run_plain f : plain f -> forall g r rs, run (mk InField g r rs) f = mk InField (rev f ++ g) r rs.
Proof.
  induction f as [|c f IH]; intros H g r rs; [reflexivity|]. assert (C : special_char c = false) by (apply H; now left).
  destruct (plain_code c C) as (A & _ & B & _). apply cneq in A, B. unfold run. cbn [fold_left]. unfold csv_char at 2. cbn [c_mode mk]. rewrite A, B.
  change (run (mk InField (c :: g) r rs) f = mk InField (rev (c :: f) ++ g) r rs). rewrite IH by (intros d D; apply H; now right). cbn [rev]. now rewrite <- app_assoc.
Qed.
Lemma run_dbl f : forall g r rs, run (mk InQuotes g r rs) (dbl f) = mk InQuotes (rev f ++ g) r rs.
Proof.
  induction f as [|c f IH]; intros g r rs; [reflexivity|]. unfold dbl. cbn [flat_map]. fold (dbl f). rewrite run_app. cbn [rev]. rewrite <- app_assoc.
  cbn [app]. rewrite <- IH. f_equal. destruct (char_eqb c quote) eqn:Q.
  - apply ceq in Q. subst c. reflexivity.
  - unfold run. cbn [fold_left]. unfold csv_char. cbn [c_mode mk]. rewrite Q. reflexivity.
Qed.
Definition fresh (m : cmode) : Prop := m = BeforeRow \/ m = BeforeField.
(** after a field *)
Lemma run_field m f r rs : fresh m ->
  csv_char (run (mk m [] r rs) (wf f)) comma = mk BeforeField [] (universal f :: r) rs /\
  (m = BeforeField \/ f <> [] -> csv_char (run (mk m [] r rs) (wf f)) nl = mk BeforeRow [] [] (rev (universal f :: r) :: rs)).
Proof.
  intros M. unfold wf. destruct (existsb special_char f) eqn:E.
  - assert (X : run (mk m [] r rs) (in_quotes (universal f)) = mk AfterQuote (rev (universal f)) r rs).
    { unfold in_quotes. fold (dbl (universal f)). change (quote :: dbl (universal f) ++ [quote]) with ([quote] ++ dbl (universal f) ++ [quote]).
      rewrite !run_app. replace (run (mk m [] r rs) [quote]) with (mk InQuotes [] r rs) by (destruct M as [->| ->]; reflexivity).
      rewrite run_dbl, app_nil_r. reflexivity. }
    rewrite X. unfold csv_char. cbn [c_mode mk]. change (char_eqb comma quote) with false. change (char_eqb nl quote) with false. change (char_eqb nl comma) with false. rewrite !crefl.
    unfold end_field, end_row. cbn [c_field c_row c_rows mk]. rewrite rev_involutive. split; [reflexivity|intros _; reflexivity].
  - apply special_split in E. rewrite (plain_universal f E). destruct f as [|c f].
    + destruct M as [->| ->]; (split; [reflexivity|]); [|reflexivity]. intros [H|H]; [discriminate|congruence].
    + assert (C : special_char c = false) by (apply E; now left). destruct (plain_code c C) as (A & B & N & _). apply cneq in A, B, N.
      assert (X : run (mk m [] r rs) (c :: f) = mk InField (rev (c :: f)) r rs).
      { change (c :: f) with ([c] ++ f) at 1. rewrite run_app. replace (run (mk m [] r rs) [c]) with (mk InField [c] r rs).
        - rewrite run_plain by (intros d D; apply E; now right). reflexivity.
        - unfold run. cbn [fold_left]. unfold csv_char. destruct M as [->| ->]; cbn [c_mode mk]; rewrite A, B, N; reflexivity. }
      rewrite X. unfold csv_char. cbn [c_mode mk]. change (char_eqb comma nl) with false. rewrite !crefl. unfold end_field, end_row. cbn [c_field c_row c_rows mk].
      rewrite rev_involutive. split; [reflexivity|intros _; reflexivity].
Qed.
Lemma run_fields r : r <> [] -> forall m q rs, fresh m -> (m = BeforeField \/ r <> [[]]) ->
  run (mk m [] q rs) (wfs r ++ [nl]) = mk BeforeRow [] [] ((rev q ++ map universal r) :: rs).
Proof.
  induction r as [|f r IH]; intros N m q rs M H; [congruence|]. destruct (run_field m f q rs M) as [A B]. cbn [wfs]. destruct r as [|g r].
  - rewrite run_app. change (run ?s [nl]) with (csv_char s nl). rewrite B; [reflexivity|]. destruct H as [H|H]; [now left|right; congruence].
  - rewrite <- app_assoc, run_app. cbn [app]. change (run ?s (comma :: ?t)) with (run (csv_char s comma) t). rewrite A.
    rewrite IH; [|discriminate|now right|now left]. cbn [rev map]. rewrite <- app_assoc. reflexivity.
Qed.
Lemma run_row r rs : run (mk BeforeRow [] [] rs) (wr r) = mk BeforeRow [] [] (map universal r :: rs).
Proof.
  unfold wr. destruct r as [|f r]; [reflexivity|]. destruct f as [|c f]; [destruct r as [|g r]; [reflexivity|]|]; (rewrite run_fields; [reflexivity|discriminate|now left|right; discriminate]).
Qed.
Lemma run_rows rows : forall rs, run (mk BeforeRow [] [] rs) (flat_map wr rows) = mk BeforeRow [] [] (rev (map (map universal) rows) ++ rs).
Proof.
  induction rows as [|r rows IH]; intros rs; [reflexivity|]. cbn [flat_map]. rewrite run_app, run_row, IH. cbn [map rev]. now rewrite <- app_assoc.
Qed.
Lemma read_written rows : csv_read (csv_write rows) = map (map universal) rows.
Proof.
  unfold csv_read. rewrite csv_universal. change (fold_left csv_char ?t _) with (run (mk BeforeRow [] [] []) t). rewrite run_rows, app_nil_r. cbn [c_mode mk c_rows].
  apply rev_involutive.
Qed.

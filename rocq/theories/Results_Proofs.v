(** Proofs about the post-processing functions and the exported texts. *)
From Coq Require Import Ascii String ZArith QArith Qabs List Bool Lia.
From Verif Require Import PyBase PyBase_Proofs Rnd Utils_Model ContFrac_Model Hashtable_Model ULCD_Model Rational_Model MITM_Model
  Spec_Utils Spec_ContFrac Spec_ULCD Utils_Proofs ContFrac_Proofs Rational_Latex Results_Model Spec_Results.
Import ListNotations.
Local Open Scope Z_scope.
Local Open Scope list_scope.

(** ---- templates ---- *)
Lemma fmt_cf : forall x y z, py_format "{0} + \frac{{ {1} }} {{ {2} }}" [x; y; z] =
  Ok (x ++ chars " + \frac{ " ++ y ++ chars " } { " ++ z ++ chars " }").
Proof. reflexivity. Qed.
Lemma fmt_eqn : forall x y, py_format "{0} = {1}" [x; y] = Ok (x ++ chars " = " ++ y).
Proof.
  intros. change (py_format "{0} = {1}" [x; y]) with (Ok (x ++ chars " = " ++ y ++ [])). now rewrite app_nil_r.
Qed.

(** ---- latex_cont_frac ---- *)
Definition aft (a0 : Z) (l : list (Z * Z)) : Z := last (map fst l) a0.
Fixpoint wrap (a0 : Z) (l : list (Z * Z)) (cur : text) : text :=
  match l with
  | [] => cur
  | (a1, b1) :: r => int_chars a0 ++ chars " + \frac{ " ++ int_chars b1 ++ chars " } { " ++ wrap a1 r cur ++ chars " }"
  end.
Lemma last_cons' : forall (l : list Z) x d, last (x :: l) d = last l x.
Proof. induction l as [|y r IH]; intros; [reflexivity|]. change (last (x :: y :: r) d) with (last (y :: r) d). rewrite (IH y d). symmetry. apply (IH y x). Qed.
Lemma wrap_text : forall l a0, wrap a0 l (int_chars (aft a0 l) ++ chars " + \dots") = cf_text a0 l.
Proof.
  induction l as [|[a1 b1] r IH]; intros; cbn [wrap cf_text]; [reflexivity|].
  assert (E : aft a0 ((a1, b1) :: r) = aft a1 r) by (unfold aft; cbn [map fst]; apply last_cons').
  now rewrite E, IH.
Qed.

Lemma nth_last1 : forall A (l : list A) x, py_nth (l ++ [x]) (-1) = Ok x.
Proof.
  intros. unfold py_nth. rewrite app_length. cbn [length].
  replace (-1 <? 0) with true by reflexivity. cbv zeta.
  replace ((-1 + Z.of_nat (length l + 1) <? 0) || (Z.of_nat (length l + 1) <=? -1 + Z.of_nat (length l + 1))) with false
    by (symmetry; apply orb_false_intro; [apply Z.ltb_ge|apply Z.leb_gt]; lia).
  replace (Z.to_nat (-1 + Z.of_nat (length l + 1))) with (length l) by lia.
  rewrite nth_error_app2 by lia. now rewrite Nat.sub_diag.
Qed.
Lemma nth_last2 : forall A (l : list A) y x, py_nth (l ++ [y; x]) (-2) = Ok y.
Proof.
  intros. unfold py_nth. rewrite app_length. cbn [length].
  replace (-2 <? 0) with true by reflexivity. cbv zeta.
  replace ((-2 + Z.of_nat (length l + 2) <? 0) || (Z.of_nat (length l + 2) <=? -2 + Z.of_nat (length l + 2))) with false
    by (symmetry; apply orb_false_intro; [apply Z.ltb_ge|apply Z.leb_gt]; lia).
  replace (Z.to_nat (-2 + Z.of_nat (length l + 2))) with (length l) by lia.
  rewrite nth_error_app2 by lia. now rewrite Nat.sub_diag.
Qed.
Lemma nth_nil_neg : forall A i, py_nth (@nil A) i = Raise IndexError.
Proof. intros. unfold py_nth. cbn [length]. destruct (i <? 0) eqn:E; cbv zeta.
  - replace (i + Z.of_nat 0 <? 0) with true by (apply Z.ltb_lt in E; symmetry; apply Z.ltb_lt; lia). reflexivity.
  - apply Z.ltb_ge in E. replace (Z.of_nat 0 <=? i) with true by (symmetry; apply Z.leb_le; lia). now rewrite orb_true_r.
Qed.
Lemma wrap_snoc : forall l a0 an bn cur, wrap a0 (l ++ [(an, bn)]) cur =
  wrap a0 l (int_chars (aft a0 l) ++ chars " + \frac{ " ++ int_chars bn ++ chars " } { " ++ cur ++ chars " }").
Proof.
  induction l as [|[a1 b1] r IH]; intros; cbn [wrap app]; [reflexivity|].
  rewrite IH. unfold aft. cbn [map fst]. now rewrite last_cons'.
Qed.
Lemma int_chars_text : forall z, z_text z = int_chars z.
Proof. reflexivity. Qed.

(** [pre] is what is in front of the last entries of b, which are the ones used *)
Lemma go_wrap : forall l n a0 pre cur, cur <> [] -> (length l < n)%nat ->
  latex_cont_frac_go n (a0 :: map fst l) (pre ++ map snd l) cur = Ok (wrap a0 l cur).
Proof.
  induction l as [|[an bn] l IH] using rev_ind; intros n a0 pre cur C L; (destruct n as [|n]; [lia|]); cbn [latex_cont_frac_go].
  - destruct cur as [|c cur]; [congruence|]. reflexivity.
  - destruct cur as [|c cur]; [congruence|]. cbn [bind].
    rewrite !map_app. cbn [map fst snd]. rewrite app_length in L. cbn [length] in L.
    replace (1 <? Z.of_nat (length (a0 :: map fst l ++ [an]))) with true
      by (symmetry; apply Z.ltb_lt; cbn [length]; rewrite app_length, map_length; cbn [length]; lia).
    assert (A2 : py_nth (a0 :: map fst l ++ [an]) (-2) = Ok (aft a0 l)).
    { destruct (exists_last (l := a0 :: map fst l) ltac:(discriminate)) as (k & y & E).
      change (a0 :: map fst l ++ [an]) with ((a0 :: map fst l) ++ [an]). rewrite E, <- app_assoc. cbn [app].
      rewrite nth_last2. unfold aft. rewrite <- (last_cons' _ a0 a0), E, last_last. reflexivity. }
    rewrite A2. cbn [bind]. rewrite app_assoc, nth_last1. cbn [bind]. rewrite fmt_cf. cbn [bind].
    change (a0 :: map fst l ++ [an]) with ((a0 :: map fst l) ++ [an]).
    rewrite !removelast_last, IH.
    + rewrite wrap_snoc. reflexivity.
    + rewrite int_chars_text. intros E. apply app_eq_nil in E as [_ E]. discriminate.
    + lia.
Qed.
Lemma latex_cf_ok : forall l a0 pre, latex_cont_frac (a0 :: map fst l) (pre ++ map snd l) = Ok (cf_text a0 l).
Proof.
  intros. unfold latex_cont_frac.
  assert (N1 : py_nth (a0 :: map fst l) (-1) = Ok (aft a0 l)).
  { destruct (exists_last (l := a0 :: map fst l) ltac:(discriminate)) as (k & y & E). rewrite E, nth_last1.
    unfold aft. rewrite <- (last_cons' _ a0 a0), E, last_last. reflexivity. }
  pose proof (go_wrap l (S (length (a0 :: map fst l))) a0 pre (int_chars (aft a0 l) ++ chars " + \dots")) as G.
  rewrite wrap_text in G. etransitivity; [|apply G].
  - cbn [latex_cont_frac_go]. rewrite N1. cbn [bind]. rewrite int_chars_text.
    destruct (int_chars (aft a0 l) ++ chars " + \dots") eqn:E; [apply app_eq_nil in E as [_ E]; discriminate|].
    change (txt " + \dots") with (chars " + \dots"). rewrite E. reflexivity.
  - intros E. apply app_eq_nil in E as [_ E]. discriminate.
  - cbn [length]. rewrite map_length. lia.
Qed.
Lemma go_short : forall l n a0 b cur, cur <> [] -> (length b < length l)%nat -> (length l < n)%nat ->
  latex_cont_frac_go n (a0 :: l) b cur = Raise IndexError.
Proof.
  induction l as [|an l IH] using rev_ind; intros n a0 b cur C L N; [cbn in L; lia|].
  destruct n as [|n]; [lia|]. cbn [latex_cont_frac_go].
  destruct cur as [|c cur]; [congruence|]. cbn [bind]. rewrite app_length in L, N. cbn [length] in L, N.
  replace (1 <? Z.of_nat (length (a0 :: l ++ [an]))) with true
    by (symmetry; apply Z.ltb_lt; cbn [length]; rewrite app_length; cbn [length]; lia).
  assert (A2 : exists y, py_nth (a0 :: l ++ [an]) (-2) = Ok y).
  { destruct (exists_last (l := a0 :: l) ltac:(discriminate)) as (k & y & E).
    change (a0 :: l ++ [an]) with ((a0 :: l) ++ [an]). rewrite E, <- app_assoc. cbn [app]. rewrite nth_last2. eauto. }
  destruct A2 as (y & A2). rewrite A2. cbn [bind].
  destruct b as [|b0 b'] using rev_ind; [now rewrite nth_nil_neg|]. clear IHb'.
  rewrite nth_last1. cbn [bind]. rewrite fmt_cf. cbn [bind].
  change (a0 :: l ++ [an]) with ((a0 :: l) ++ [an]). rewrite !removelast_last.
  rewrite app_length in L. cbn [length] in L. apply IH; [|lia|lia].
  rewrite int_chars_text. intros E. apply app_eq_nil in E as [_ E]. discriminate.
Qed.
Lemma latex_cf_raise : forall a b, a = [] \/ (length b + 1 < length a)%nat -> latex_cont_frac a b = Raise IndexError.
Proof.
  intros a b [->|L]; [reflexivity|]. destruct a as [|a0 l]; [reflexivity|]. cbn [length] in L.
  unfold latex_cont_frac. cbn [length].
  etransitivity; [|apply (go_short l (S (S (length l))) a0 b (int_chars (last l a0) ++ chars " + \dots")); try lia].
  - cbn [latex_cont_frac_go].
    destruct (exists_last (l := a0 :: l) ltac:(discriminate)) as (k & y & E).
    assert (N1 : py_nth (a0 :: l) (-1) = Ok (last l a0)).
    { rewrite E, nth_last1. rewrite <- (last_cons' _ a0 a0), E, last_last. reflexivity. }
    rewrite N1. cbn [bind]. rewrite int_chars_text.
    destruct (int_chars (last l a0) ++ chars " + \dots") eqn:E1; [apply app_eq_nil in E1 as [_ E1]; discriminate|].
    change (txt " + \dots") with (chars " + \dots"). rewrite E1. reflexivity.
  - intros E. apply app_eq_nil in E as [_ E]. discriminate.
Qed.

(** the text determines the coefficients *)
Definition numchar (c : ascii) : Prop := c <> " "%char.
Lemma uint_chars : forall u, Forall numchar (list_ascii_of_string (DecimalString.NilEmpty.string_of_uint u)).
Proof. induction u; cbn; constructor; try assumption; discriminate. Qed.
Lemma int_chars_ns : forall z, Forall numchar (int_chars z).
Proof.
  intros. unfold int_chars, chars, DecimalString.NilZero.string_of_int, DecimalString.NilZero.string_of_uint.
  destruct (Z.to_int z) as [u|u]; [|cbn; constructor; [discriminate|]]; destruct u; try apply uint_chars; repeat constructor; discriminate.
Qed.
Lemma int_chars_inj : forall x y, int_chars x = int_chars y -> x = y.
Proof. exact z_text_inj. Qed.
Lemma split_space : forall u v r s, Forall numchar u -> Forall numchar v -> u ++ " "%char :: r = v ++ " "%char :: s -> u = v /\ r = s.
Proof.
  induction u as [|c u IH]; intros v r s U V E; destruct v as [|d v]; cbn [app] in E.
  - injection E as ->. auto.
  - injection E as <- E. inversion V as [|? ? H]. now elim H.
  - injection E as -> E. inversion U as [|? ? H]. now elim H.
  - injection E as -> E. inversion U; inversion V; subst. destruct (IH v r s) as [-> ->]; auto.
Qed.
Lemma cf_text_inj : forall l a0 l' a0' r r', cf_text a0 l ++ r = cf_text a0' l' ++ r' -> a0 = a0' /\ l = l'.
Proof.
  induction l as [|[a1 b1] l IH]; intros a0 l' a0' r r' E; destruct l' as [|[a1' b1'] l']; cbn [cf_text] in E;
    rewrite <- ?app_assoc in E; cbn [chars list_ascii_of_string app] in E;
    apply split_space in E as [E0 E]; try apply int_chars_ns; apply int_chars_inj in E0; split; auto; try discriminate.
  injection E as E. apply split_space in E as [E1 E]; try apply int_chars_ns. apply int_chars_inj in E1. injection E as E.
  apply IH in E as [-> ->]. now rewrite E1.
Qed.
Lemma cf_denotes_nested : forall l a0, match cf_denotes a0 l 0, nested (inject_Z a0) (toQ l) with
  | Some x, Some y => (x == y)%Q | None, None => True | _, _ => False end.
Proof.
  induction l as [|[a1 b1] l IH]; intros; cbn [cf_denotes toQ map nested]; [ring|].
  specialize (IH a1). fold (toQ l). destruct (cf_denotes a1 l 0) as [x|], (nested (inject_Z a1) (toQ l)) as [y|]; try contradiction; auto.
  destruct (Qeq_bool x 0) eqn:X, (Qeq_bool y 0) eqn:Y; auto.
  - apply Qeq_bool_iff in X. rewrite IH in X. apply Qeq_bool_iff in X. congruence.
  - apply Qeq_bool_iff in Y. rewrite <- IH in Y. apply Qeq_bool_iff in Y. congruence.
  - now rewrite IH.
Qed.

(** ---- post-processing functions ---- *)
Lemma idx24 : forall (P : Z -> Prop), P 0 -> P 1 -> P 2 -> P 3 -> P 4 -> P 5 -> P 6 -> P 7 -> P 8 -> P 9 -> P 10 -> P 11 -> P 12 ->
  P 13 -> P 14 -> P 15 -> P 16 -> P 17 -> P 18 -> P 19 -> P 20 -> P 21 -> P 22 -> P 23 -> forall i, 0 <= i < 24 -> P i.
Proof.
  intros P. intros. destruct i as [|p|p]; [assumption| |lia].
  do 5 (try (destruct p as [p|p|]; try assumption; try lia)).
Qed.

(** The LaTeX text of a rational-function left-hand side. *)
From Coq Require Import Ascii String ZArith QArith Qfield Qpower List Bool Lia.
From Coq Require DecimalString DecimalZ DecimalPos.
From Verif Require Import PyBase ContFrac_Model Hashtable_Model Spec_Utils ULCD_Model Spec_ULCD ULCD_Proofs Rational_Model Spec_Rational
  Poly_Lib Rational_Proofs.
Import ListNotations.
Local Open Scope Z_scope.
Local Open Scope list_scope.

Lemma mono_ok name i c t : (i < 10)%nat -> In t (mono_latex name i c) -> c <> 0 /\ mono_latex name i c = [t] /\ ltx_mono name t c i.
Proof.
  intros L H. unfold mono_latex in *. destruct (Z.eqb_spec c 0) as [->|N]; [destruct H|]. split; [exact N|].
  destruct i as [|[|i]].
  - destruct H as [<-|[]]. split; [reflexivity|]. apply lm_const.
  - destruct (Z.eqb_spec c 1) as [->|N1]; [destruct H as [<-|[]]; split; [reflexivity|apply lm_pow, lp_var]|].
    destruct (Z.eqb_spec c (-1)) as [->|N2]; destruct H as [<-|[]]; (split; [reflexivity|]).
    + apply (lm_minus name name 1), lp_var.
    + apply (lm_coeff name c name 1), lp_var.
  - destruct (Z.eqb_spec c 1) as [->|N1]; destruct H as [<-|[]]; (split; [reflexivity|]).
    + apply lm_pow, (lp_digit name (S (S i))). exact L.
    + apply (lm_coeff name c (name ++ chars "^" ++ int_chars (Z.of_nat (S (S i)))) (S (S i))), lp_digit. exact L.
Qed.
Lemma mono_len name i c : (length (mono_latex name i c) <= 1)%nat.
Proof. unfold mono_latex. destruct (c =? 0); [cbn; lia|]. destruct i as [|[|i]]; repeat destruct (Z.eqb _ _); cbn; lia. Qed.
Lemma mono_nil name i c : mono_latex name i c = [] <-> c = 0.
Proof.
  unfold mono_latex. destruct (Z.eqb_spec c 0) as [->|N]; [tauto|]. split; [|tauto].
  destruct i as [|[|i]]; repeat destruct (Z.eqb _ _); discriminate.
Qed.

Lemma elements_nil name p : forall i, poly_elements name i p = [] <-> znorm p = [].
Proof.
  induction p as [|c r IH]; intros i; cbn [poly_elements znorm]; [tauto|]. split.
  - intros H. apply app_eq_nil in H as [A B]. apply mono_nil in A. apply IH in B. now rewrite B, A.
  - intros H. destruct (znorm r) eqn:E; [|discriminate]. destruct (Z.eqb_spec c 0) as [->|N]; [|discriminate].
    rewrite (proj2 (IH (S i)) eq_refl). now rewrite (proj2 (mono_nil name i 0) eq_refl).
Qed.

(** value of the part from power i on *)
Definition tailv (i : nat) (p : list Z) (x : Q) : Q := (xpow x i * pvalq p x)%Q.
Lemma elements_ok name p : forall i, (i + length p <= 10)%nat -> poly_elements name i p <> [] ->
  ltx_poly name (join_plus (poly_elements name i p)) (tailv i p).
Proof.
  induction p as [|c r IH]; intros i L H; [contradiction|]. cbn [poly_elements length] in *.
  assert (T : forall x, (tailv i (c :: r) x == inject_Z c * x ^ Z.of_nat i + tailv (S i) r x)%Q).
  { intros x. unfold tailv, pvalq. cbn [map poly_valQ xpow]. rewrite (xpow_Qpower x i). ring. }
  destruct (mono_latex name i c) as [|t l] eqn:M.
  - apply mono_nil in M. subst c. cbn [app] in *. specialize (IH (S i) ltac:(lia) H).
    assert (T' : forall x, (tailv i (0%Z :: r) x == tailv (S i) r x)%Q) by (intros x; rewrite T; change (inject_Z 0) with 0%Q; ring).
    inversion IH as [t c j f MO E EQ|t c j s g f MO PO E EQ]; subst.
    + eapply lq_one; [exact MO|]. intros x. rewrite T'. apply E.
    + eapply lq_add; [exact MO|exact PO|]. intros x. rewrite T'. apply E.
  - destruct (mono_ok name i c t ltac:(lia)) as (N & EL & MO); [rewrite M; now left|]. rewrite M in EL. injection EL as ->.
    destruct (poly_elements name (S i) r) as [|t' l'] eqn:P.
    + cbn [app join_plus]. eapply lq_one; [exact MO|]. intros x. rewrite T.
      assert (Z0 : znorm r = []) by (apply (elements_nil name r (S i)); exact P).
      assert (V : (pvalq r x == 0)%Q) by (rewrite <- pvalq_znorm, Z0; reflexivity). unfold tailv. rewrite V. ring.
    + change (join_plus ([t] ++ t' :: l')) with (t ++ txt "+" ++ join_plus (t' :: l')).
      eapply lq_add; [exact MO| |exact T]. rewrite <- P. apply IH; [lia|]. rewrite P. discriminate.
Qed.
Lemma ltx_poly_ext name t f g : (forall x, f x == g x)%Q -> ltx_poly name t f -> ltx_poly name t g.
Proof.
  intros E H. inversion H as [t' c j f' MO E' EQ|t' c j s g' f' MO PO E' EQ]; subst.
  - eapply lq_one; [exact MO|]. intros x. rewrite <- E. apply E'.
  - eapply lq_add; [exact MO|exact PO|]. intros x. rewrite <- E. apply E'.
Qed.
Lemma poly_latex_ok name p t : poly_latex name p = Ok t -> (length p <= 10)%nat -> ltx_poly name t (pvalq p).
Proof.
  intros H L. unfold poly_latex in H. destruct (poly_elements name 0 p) as [|a l] eqn:P; [discriminate|].
  assert (E : t = join_plus (poly_elements name 0 p)) by (rewrite P; congruence). subst t. apply (ltx_poly_ext name _ (tailv 0 p)); [intros x; unfold tailv; cbn [xpow]; ring|].
  apply elements_ok; [lia|]. rewrite P. discriminate.
Qed.
Lemma poly_latex_raise name p e : poly_latex name p = Raise e -> e = IndexError /\ znorm p = [].
Proof.
  unfold poly_latex. destruct (poly_elements name 0 p) eqn:P; [|discriminate]. intros [= <-].
  split; [reflexivity|]. now apply (elements_nil name p 0).
Qed.
(** text "1" stands for the constant 1 *)
Lemma text_eqb_eq a : forall b, text_eqb a b = true -> a = b.
Proof.
  induction a as [|x a IH]; intros [|y b]; cbn; try discriminate; auto. intros H. apply andb_true_iff in H as [H1 H2].
  apply Ascii.eqb_eq in H1. subst. f_equal. auto.
Qed.

Lemma z_text_inj a b : z_text a = z_text b -> a = b.
Proof.
  unfold z_text, txt. intros H. apply (f_equal string_of_list_ascii) in H. rewrite !string_of_list_ascii_of_string in H.
  apply (f_equal DecimalString.NilZero.int_of_string) in H.
  assert (NZ : forall z, Z.to_int z <> Decimal.Pos Decimal.Nil /\ Z.to_int z <> Decimal.Neg Decimal.Nil).
  { intros [|p|p]; cbn; (split; [|try discriminate]); try discriminate; intros E; injection E as E;
      now apply DecimalPos.Unsigned.to_uint_nonnil in E. }
  rewrite !DecimalString.NilZero.isi in H by apply NZ. injection H as H. now apply DecimalZ.to_int_inj.
Qed.
Lemma z_text_nonnil z : z_text z <> [].
Proof.
  intros E. assert (X : z_text z ++ [] = []) by now rewrite E, app_nil_r. destruct z; [discriminate| |discriminate].
  unfold z_text, txt in E. cbn [Z.to_int DecimalString.NilZero.string_of_int] in E.
  unfold DecimalString.NilZero.string_of_uint in E. destruct (Pos.to_uint p) eqn:P; try discriminate.
Qed.
Lemma mono_one name i c : In (txt "1") (mono_latex name i c) -> name <> txt "1" -> c = 1 /\ i = 0%nat.
Proof.
  intros H NN. unfold mono_latex in H. destruct (c =? 0); [destruct H|].
  assert (A2 : forall a b, b <> [] -> a <> [] -> a ++ b <> txt "1").
  { intros a b B A E. destruct a as [|x a]; [contradiction|]. injection E as _ E. apply app_eq_nil in E. tauto. }
  assert (PW : forall j, name ++ txt "^" ++ z_text j <> txt "1").
  { intros j E. destruct name as [|x n]; [discriminate|]. injection E as _ E. apply app_eq_nil in E as [_ E]. discriminate. }
  assert (CF : forall d r, z_text d ++ txt " " ++ r <> txt "1") by (intros d r; apply A2; [discriminate|apply z_text_nonnil]).
  destruct i as [|[|i]].
  - destruct H as [H|[]]. split; [|reflexivity]. apply z_text_inj. exact H.
  - destruct (c =? 1); [destruct H as [H|[]]; contradiction|].
    destruct (c =? -1); destruct H as [H|[]]; [discriminate|now apply CF in H].
  - destruct (c =? 1); destruct H as [H|[]]; [now apply PW in H|now apply CF in H].
Qed.
Lemma elements_in name t p : forall i, In t (poly_elements name i p) -> exists j c, nth_error p j = Some c /\ In t (mono_latex name (i + j) c).
Proof.
  induction p as [|c r IH]; intros i H; [destruct H|]. cbn [poly_elements] in H. apply in_app_or in H as [H|H].
  - exists 0%nat, c. rewrite Nat.add_0_r. auto.
  - destruct (IH _ H) as (j & d & E & M). exists (S j), d. rewrite Nat.add_succ_r. auto.
Qed.
Lemma poly_latex_one name p : poly_latex name p = Ok (txt "1") -> name <> txt "1" -> forall x, (pvalq p x == 1)%Q.
Proof.
  intros H NN x. unfold poly_latex in H. destruct p as [|c r]; [discriminate|].
  destruct (poly_elements name 0 (c :: r)) as [|t [|t' l]] eqn:P; [discriminate| |].
  - cbn in H. injection H as ->.
    destruct (elements_in name (txt "1") (c :: r) 0) as (j & d & E & M); [rewrite P; now left|].
    apply mono_one in M as [-> J]; [|exact NN]. cbn in J. subst j. injection E as ->.
    cbn [poly_elements] in P.
    assert (Z0 : poly_elements name 1 r = []).
    { change (mono_latex name 0 1) with [txt "1"] in P. cbn [app] in P. now injection P. }
    apply elements_nil in Z0. unfold pvalq. cbn [map poly_valQ].
    assert (V : (poly_valQ (map inject_Z r) x == 0)%Q) by (fold (pvalq r x); rewrite <- pvalq_znorm, Z0; reflexivity).
    rewrite V. change (inject_Z 1) with 1%Q. ring.
  - exfalso. change (join_plus (t :: t' :: l)) with (t ++ txt "+" ++ join_plus (t' :: l)) in H. injection H as H.
    destruct t as [|a t]; [discriminate|]. injection H as _ H. apply app_eq_nil in H as [_ H]. discriminate.
Qed.

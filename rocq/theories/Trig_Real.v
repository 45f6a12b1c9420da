(** The limits of the series of Spec_Trig, as real numbers. *)
From Coq Require Import ZArith QArith Qabs Qpower Lia.
From Coq Require Import Reals Qreals Lra.
From Verif Require Import PyBase Rnd Trig_Model Spec_Trig Trig_Proofs Trig_Error Trig_Tail.
Open Scope R_scope.

Lemma Q2R_inj z : Q2R (inject_Z z) = IZR z.
Proof. unfold Q2R, inject_Z. cbn. field. Qed.
Lemma Q2R_absv x : Q2R (Qabs x) = Rabs (Q2R x).
Proof.
  apply Qabs_case; intros H.
  - apply Qle_Rle in H. rewrite RMicromega.Q2R_0 in H. now rewrite Rabs_pos_eq.
  - apply Qle_Rle in H. rewrite RMicromega.Q2R_0 in H. rewrite Q2R_opp. now rewrite Rabs_left1.
Qed.
Lemma Q2R_pow_nat x n : Q2R (Qpower x (Z.of_nat n)) = Q2R x ^ n.
Proof.
  induction n as [|n IH]; [cbn; unfold Q2R; cbn; lra|]. cbn [pow]. rewrite <- IH, <- Q2R_mult. apply Qeq_eqR. destruct (Qeq_bool x 0) eqn:E.
  - apply Qeq_bool_iff in E. rewrite E. rewrite Qpower_0 by lia. ring.
  - apply Qeq_bool_neq in E. rewrite Nat2Z.inj_succ, <- Z.add_1_l, Qpower_plus by exact E. reflexivity.
Qed.
Lemma factorial_fact n : IZR (factorial n) = INR (fact n).
Proof. induction n as [|n IH]; [reflexivity|]. cbn [factorial]. rewrite mult_IZR, IH, <- INR_IZR_INZ. change (fact (S n)) with (S n * fact n)%nat. now rewrite mult_INR. Qed.

Section Limits.
  Variable x : Q.
  Notation X := (Q2R x).
  Definition rterm (d k : nat) : R := (-1) ^ k * X ^ (2 * k + d) / INR (fact (2 * k + d)).
  Lemma term_R d k : Q2R (series_term d x k) = rterm d k.
  Proof.
    unfold series_term, rterm. rewrite Q2R_div, Q2R_mult, !Q2R_pow_nat, Q2R_inj, factorial_fact; [|pose proof (fact_Q (2 * k + d)); intros E; rewrite E in *; discriminate].
    f_equal. f_equal. f_equal. unfold Q2R. cbn. lra.
  Qed.
  Lemma series_R d n : Q2R (series d x n) = sum_f_R0 (rterm d) n.
  Proof. induction n as [|n IH]; cbn [series sum_f_R0]; [apply term_R|]. now rewrite Q2R_plus, IH, term_R. Qed.
  Lemma cos_limit : Un_cv (fun n => Q2R (series 0 x n)) (cos X).
  Proof.
    intros e E. unfold cos. destruct (exist_cos (Rsqr X)) as [a H]. destruct (H e E) as [n0 K]. exists n0. intros n Hn. specialize (K n Hn). rewrite series_R.
    rewrite (sum_eq (rterm 0) (fun i => cos_n i * Rsqr X ^ i)); [exact K|]. intros i _. unfold rterm, cos_n. rewrite Nat.add_0_r. rewrite pow_mult. unfold Rsqr. replace (X ^ 2) with (X * X) by ring. field. apply INR_fact_neq_0.
  Qed.
  Lemma sin_limit : Un_cv (fun n => Q2R (series 1 x n)) (sin X).
  Proof.
    unfold sin. destruct (exist_sin (Rsqr X)) as [a H].
    assert (HC : Un_cv (fun n => X * sum_f_R0 (fun i => sin_n i * Rsqr X ^ i) n) (X * a)).
    { apply (CV_mult (fun _ => X)); [|exact H]. intros e E. exists 0%nat. intros n _. unfold R_dist. replace (X - X) with 0 by ring. now rewrite Rabs_R0. }
    intros e E. destruct (HC e E) as [n0 K]. exists n0. intros n Hn. specialize (K n Hn). rewrite series_R. rewrite scal_sum in K.
    rewrite (sum_eq (rterm 1) (fun i => sin_n i * Rsqr X ^ i * X)); [exact K|]. intros i _. unfold rterm, sin_n. replace (X ^ (2 * i + 1)) with (X * (X ^ 2) ^ i) by (rewrite pow_add, pow_mult; ring). unfold Rsqr. replace (X ^ 2) with (X * X) by ring. field. apply INR_fact_neq_0.
  Qed.
  (** the sizes of the terms *)
  Definition eterm (k : nat) : R := / INR (fact k) * Rabs X ^ k.
  Lemma eterm_pos k : 0 <= eterm k.
  Proof. unfold eterm. apply Rmult_le_pos; [apply Rlt_le, Rinv_0_lt_compat, INR_fact_lt_0|apply pow_le, Rabs_pos]. Qed.
  Lemma term_size d k : Rabs (rterm d k) = eterm (2 * k + d).
  Proof.
    unfold rterm, eterm. unfold Rdiv. rewrite !Rabs_mult, pow_1_abs, Rmult_1_l, <- RPow_abs, Rabs_inv, (Rabs_pos_eq (INR _)) by apply pos_INR. ring.
  Qed.
  Lemma series_abs_exp d n : Q2R (series_abs d x n) <= exp (Rabs X).
  Proof.
    assert (S : Q2R (series_abs d x n) <= sum_f_R0 eterm (2 * n + d)).
    { induction n as [|n IH]; cbn [series_abs].
      - rewrite Q2R_absv, term_R, term_size. cbn [Nat.mul Nat.add]. destruct d as [|d']; [cbn [sum_f_R0]; lra|]. cbn [sum_f_R0]. pose proof (cond_pos_sum eterm d' eterm_pos). lra.
      - rewrite Q2R_plus, Q2R_absv, term_R, term_size. replace (2 * S n + d)%nat with (S (S (2 * n + d))) by lia. cbn [sum_f_R0]. pose proof (eterm_pos (S (2 * n + d))). lra. }
    eapply Rle_trans; [exact S|]. apply sum_incr; [|apply eterm_pos]. unfold exp. destruct (exist_exp (Rabs X)) as [a H]. cbn [proj1_sig]. exact H.
  Qed.
End Limits.

Lemma limit_bound (un : nat -> R) l s b n : Un_cv un l -> (forall j, Rabs (s - un (n + j)%nat) <= b) -> Rabs (s - l) <= b.
Proof.
  intros C H. apply le_epsilon. intros e E. destruct (C e E) as [n0 K]. specialize (K (n + n0)%nat ltac:(lia)). specialize (H n0). unfold R_dist in K.
  replace (s - l) with ((s - un (n + n0)%nat) + (un (n + n0)%nat - l)) by ring. eapply Rle_trans; [apply Rabs_triang|]. lra.
Qed.

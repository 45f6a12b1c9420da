(** Claims C01-C05 (utils.py). *)
From Coq Require Import ZArith QArith List Bool Lia.
From Verif Require Import PyBase Rnd Utils_Model Spec_Utils Utils_Proofs.
Import ListNotations.
Open Scope Z_scope.

Lemma abs_gcd_divides a b g : Z.abs g = Z.gcd a b ->
  (g | a) /\ (g | b) /\ (forall d, (d | a) -> (d | b) -> (d | g)).
Proof.
  intros H. repeat split.
  - apply Z.divide_abs_l. rewrite H. apply Z.gcd_divide_l.
  - apply Z.divide_abs_l. rewrite H. apply Z.gcd_divide_r.
  - intros d Ha Hb. apply Z.divide_abs_r. rewrite H. now apply Z.gcd_greatest.
Qed.

(** C01: termination, greatest common divisor, sign. *)
Theorem C01_gcd : forall a b, exists fuel g,
  (forall fuel', (fuel <= fuel')%nat -> py_gcd fuel' a b = Some g) /\
  ((g | a) /\ (g | b) /\ (forall d, (d | a) -> (d | b) -> (d | g))) /\
  (Z.min a b <> 0 -> Z.sgn g = Z.sgn (Z.min a b)) /\ (Z.min a b = 0 -> g = Z.max a b).
Proof.
  intros a b. destruct (py_gcd_spec a b) as (fuel & g & H1 & H2 & H3 & H4).
  exists fuel, g. split; [exact H1|]. split; [exact (abs_gcd_divides a b g H2)|]. split; [exact H3|exact H4].
Qed.
Example C01_ex : py_gcd 100 84 (-30) = Some (-6) /\ py_gcd 100 0 0 = Some 0 /\ py_gcd 100 6 0 = Some 6.
Proof. repeat split. Qed.

(** The docstring ("the same sign as b") holds for b <= a ... *)
Theorem C01_doc_sign_when_b_smaller : forall a b, b <= a -> b <> 0 ->
  exists fuel g, (forall fuel', (fuel <= fuel')%nat -> py_gcd fuel' a b = Some g) /\ Z.sgn g = Z.sgn b.
Proof.
  intros a b Hab Hb. destruct (C01_gcd a b) as (fuel & g & H1 & _ & H3 & _).
  exists fuel, g. split; [exact H1|]. rewrite Z.min_r in H3 by assumption. exact (H3 Hb).
Qed.
(** ... and fails in general. *)
Theorem C01_doc_sign_refuted : exists a b g, b <> 0 /\
  (exists fuel, forall fuel', (fuel <= fuel')%nat -> py_gcd fuel' a b = Some g) /\ Z.sgn g <> Z.sgn b.
Proof.
  exists (-4), 6, (-2). split; [lia|]. split; [|discriminate].
  exists 10%nat. intros f Hf. change (gcd_loop f 6 (-4) = Some (-2)). now apply (gcd_loop_mono 10).
Qed.

(** C02 *)
Theorem C02_subs_in_polynom : forall coeffs x, subs_in_polynom coeffs x = poly_val coeffs x.
Proof. exact subs_in_polynom_val. Qed.
Example C02_ex : subs_in_polynom [1; -2; 3] 5 = 66 /\ subs_in_polynom [] 7 = 0 /\ subs_in_polynom [4; 1] 0 = 4.
Proof. repeat split. Qed.

(** C03: outputs of every history that begins with start_measure. *)
Theorem C03_stopwatch_outputs : forall t0 os,
  snd (sw_run sw_init (OpStart t0 :: os)) = OutUnit :: sw_expected t0 t0 t0 os.
Proof. exact sw_run_from_start. Qed.
Theorem C03_stopwatch_sum : forall t0 os,
  measured_sum (OpStart t0 :: os) (snd (sw_run sw_init (OpStart t0 :: os))) = last_reading t0 os - t0.
Proof.
  intros t0 os. rewrite sw_run_from_start. unfold measured_sum, last_reading. cbn [combine map fold_right out_time].
  rewrite (sw_expected_sum t0 t0 t0 os). lia.
Qed.
Theorem C03_total_before_start : forall now, snd (sw_step sw_init (OpTotal now)) = OutExn AttributeError.
Proof. intros now. reflexivity. Qed.
Example C03_ex :
  snd (sw_run sw_init [OpStart 100; OpMeasure 105; OpLast; OpStart 106; OpMeasure 112; OpTotal 120; OpLast])
  = [OutUnit; OutTime 5; OutTime 5; OutUnit; OutTime 7; OutTime 20; OutTime 7].
Proof. reflexivity. Qed.

(** C04 *)
Theorem C04_grouper : forall (A : Type) (xs : list A) n fill, 1 <= n ->
  exists fuel cs,
    (forall fuel', (fuel <= fuel')%nat -> grouper fuel' xs n fill = Some cs) /\
    Forall (fun c => Z.of_nat (length c) = n) cs /\
    (exists k, Z.of_nat k < n /\ concat cs = xs ++ repeat fill k) /\
    Z.of_nat (length cs) = (Z.of_nat (length xs) + n - 1) / n.
Proof.
  intros A xs n fill Hn.
  destruct (zl_loop_spec fill (Z.to_nat n) (S (length xs)) xs ltac:(lia) ltac:(lia)) as (cs & E & F & k & Hk & C).
  exists (S (length xs)), cs. split; [|split; [|split]].
  - intros f Hf. unfold grouper. destruct (Z.leb_spec n 0); [lia|].
    rewrite Z2Nat.id in E by lia. eapply zl_loop_mono; eassumption.
  - eapply Forall_impl; [|exact F]. cbn. intros c Hc. lia.
  - exists k. split; [lia|assumption].
  - assert (L : length (concat cs) = (length cs * Z.to_nat n)%nat).
    { clear - F. induction F as [|c cs Hc F IH]; [reflexivity|]. cbn. rewrite app_length, Hc, IH. lia. }
    rewrite C, app_length, repeat_length in L.
    apply Z.div_unique with (n - 1 - Z.of_nat k); nia.
Qed.
Theorem C04_grouper_nonpositive : forall (A : Type) fuel (xs : list A) n fill, n <= 0 -> grouper fuel xs n fill = Some [].
Proof. intros A fuel xs n fill H. unfold grouper. now rewrite (proj2 (Z.leb_le n 0) H). Qed.
Example C04_ex : grouper 20 [1;2;3;4;5;6;7] 3 0 = Some [[1;2;3];[4;5;6];[7;0;0]].
Proof. reflexivity. Qed.

(** C05 *)
Theorem C05_dhms : forall x d h m s,
  secs_to_dhms x = (d, h, m, s) <->
  0 <= h < 24 /\ 0 <= m < 60 /\ 0 <= s < 60 /\ nearest_even x (86400 * d + 3600 * h + 60 * m + s).
Proof. exact secs_to_dhms_spec. Qed.
Example C05_ex : secs_to_dhms (93785 # 1) = (1, 2, 3, 5) /\ secs_to_dhms (-1 # 1) = (-1, 23, 59, 59)
  /\ secs_to_dhms (5 # 2) = (0, 0, 0, 2).
Proof. repeat split. Qed.

Print Assumptions C01_gcd.
Print Assumptions C01_doc_sign_when_b_smaller.
Print Assumptions C01_doc_sign_refuted.
Print Assumptions C02_subs_in_polynom.
Print Assumptions C03_stopwatch_outputs.
Print Assumptions C03_stopwatch_sum.
Print Assumptions C03_total_before_start.
Print Assumptions C04_grouper.
Print Assumptions C04_grouper_nonpositive.
Print Assumptions C05_dhms.

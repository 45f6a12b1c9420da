(** What it takes for a click to be reported by a whole search, and for which reasons it may be missing. *)
From Coq Require Import Ascii String ZArith QArith List Bool.
From Verif Require Import PyBase ContFrac_Model Hashtable_Model ULCD_Model MITM_Model Spec_MITM.
Import ListNotations.
Local Open Scope Z_scope.

(** Not interrupted by the user. *)
Definition calm {A} (r : res A) : Prop := r <> Raise KeyboardInterrupt.

(** A number whose real part is an (almost) integer that is positive is among the roots of some polynomial of the numerators. *)
Definition rooted {O} (roots : list Z -> list (Q * Q)) (c : click O) : Prop :=
  exists b re im, In b (snd (ck_ab c)) /\ In (re, im) (roots b) /\ int_root (fl (1 # 1000)) re im.

Section Search.
  Variable rd : Q -> Q.
  Variable eng : Q -> res text.
  Context {O : Type}.
  Variable cls : lhs_class O.
  Variable funcs : list (mpfv -> res mpfv).
  Variable trunc : bool.
  (** The three evaluations of a fraction, and the numbers of digits that are compared. *)
  Variables ev1 ev2 ev3 : abpair -> Z -> option conv -> res mpfv.
  Variables a1 a2 a3 : Z.
  (** The target of new fractions, the estimate of the type of convergence, the roots of polynomials. *)
  Variable target : option Q.
  Variable est : contfrac -> res conv.
  Variable roots : list Z -> list (Q * Q).

  Definition pass1 : click O -> click O -> Prop := kept rd eng cls funcs trunc ev1 a1.
  (** The errors of the fraction shrink, its convergence is exponential or faster, and it is remembered. *)
  Definition fast (c c' : click O) : Prop := exists cf t p, fresh_cf target c cf /\ snd (cf_is_fast rd 600 200 50 cf) = Ok true /\
    est cf = Ok (t, p) /\ (t = ATExp \/ t = ATSuperExp) /\ c' = with_conv c (t, p).
  Definition slow (c : click O) : Prop := exists cf, fresh_cf target c cf /\
    (snd (cf_is_fast rd 600 200 50 cf) = Ok false \/ (exists e, est cf = Raise e) \/ exists t p, est cf = Ok (t, p) /\ t <> ATExp /\ t <> ATSuperExp).
  Definition pass2 (c c' : click O) : Prop := exists b d, pass1 c b /\ fast b d /\ kept rd eng cls funcs trunc ev2 a2 d c'.
  Definition pass3 (c c' : click O) : Prop := exists d, pass2 c d /\ kept rd eng cls funcs trunc ev3 a3 d c'.
  (** Reported: all three comparisons agree, the fraction is fast, no polynomial of its numerators has a positive integer root. *)
  Definition reported (c c' : click O) : Prop := pass3 c c' /\ ~ rooted roots c'.
  (** [all] are the clicks of the search: [c'], which [c] has become, is equivalent to what another one has become. *)
  Definition repeated (all : list (click O)) (pass : click O -> click O -> Prop) (c' : click O) : Prop :=
    exists u u', In u all /\ pass u u' /\ equiv_answer cls u' c' = Ok true.
  Definition missing (all : list (click O)) (c : click O) : Prop :=
    dropped rd eng cls funcs trunc ev1 a1 c \/
    (exists b, pass1 c b /\ (repeated all pass1 b \/ slow b \/ exists d, fast b d /\ dropped rd eng cls funcs trunc ev2 a2 d)) \/
    (exists d, pass2 c d /\ dropped rd eng cls funcs trunc ev3 a3 d) \/
    (exists d, pass3 c d /\ (repeated all pass3 d \/ rooted roots d)).

  (** ---- searches that the user interrupts in the last stage ---- *)
  (** Lost before the last stage; by the last comparison; by the search for repeated results after it. *)
  Definition lost2 (all : list (click O)) (c : click O) : Prop :=
    dropped rd eng cls funcs trunc ev1 a1 c \/
    (exists b, pass1 c b /\ (repeated all pass1 b \/ slow b \/ exists d, fast b d /\ dropped rd eng cls funcs trunc ev2 a2 d)).
  Definition lost3 (all : list (click O)) (c : click O) : Prop := lost2 all c \/ exists d, pass2 c d /\ dropped rd eng cls funcs trunc ev3 a3 d.
  Definition lost4 (all : list (click O)) (c : click O) : Prop := lost3 all c \/ exists d, pass3 c d /\ repeated all pass3 d.
  (** What is reported, [cs], for the clicks [all] of the search when the interrupt comes in the last comparison (k = 0) after n clicks, or in
      the k-th step after it: what the last comparison has confirmed is adjusted, but what it has refuted stays, as everything it did not reach;
      later, only the steps that were not done are missing. *)
  Definition interrupted (k n : nat) (all cs : list (click O)) : Prop :=
    match k with
    | 0%nat => exists ds, selects pass2 (lost2 all) all ds /\
             Forall2 (fun d c' => kept rd eng cls funcs trunc ev3 a3 d c' \/ (dropped rd eng cls funcs trunc ev3 a3 d /\ c' = d)) (firstn n ds) (firstn n cs) /\
             skipn n cs = skipn n ds
    | 1%nat => selects pass3 (lost3 all) all cs
    | 2%nat | 3%nat => selects pass3 (lost4 all) all cs /\ ForallOrdPairs (fun u c => equiv_answer cls u c = Ok false) cs
    | _ => selects reported (missing all) all cs /\ ForallOrdPairs (fun u c => equiv_answer cls u c = Ok false) cs
    end.
End Search.

(** Model of gen_errors_for_nips.py, of build_contfrac_errors in process_and_compare.py and of
    cont_fracs.eval_contfrac_by_polys. No proofs.
    Drawing, printing and the regression of scipy are not modelled; what is modelled is the data handed to them. *)
From Coq Require Import Ascii String ZArith QArith Qabs List Bool.
From Verif Require Import PyBase Rnd Utils_Model ContFrac_Model Consts_Model.
Import ListNotations.
Local Open Scope Z_scope.
Local Open Scope res_scope.
Local Open Scope list_scope.

(** xs[lo:hi] for any python integers. [python or library primitive, used at gen_errors_for_nips.py:45, 100] *)
Definition py_slice {A} (lo hi : Z) (xs : list A) : list A :=
  let n := Z.of_nat (length xs) in
  let clip i := if i <? 0 then Z.max 0 (i + n) else Z.min i n in
  firstn (Z.to_nat (clip hi - clip lo)) (skipn (Z.to_nat (clip lo)) xs).

Section Rounded.
  (** rounding of the working precision *)
  Variable rd : Q -> Q.

  (** gen_errors_for_nips.py:122-126 and process_and_compare.py:179-183 — the loop of build_contfrac_errors. The printing
      of the progress is omitted. *)
  Fixpoint err_loop (idx : list Z) (c : contfrac) (acc : list (Z * mpfv)) : contfrac * res (list (Z * mpfv)) :=
    match idx with
    | [] => (c, Ok acc)
    | i :: r =>
        match cf_add rd 1 true c with
        | (c1, Raise e) => (c1, Raise e)
        | (c1, Ok _) =>
            match cf_compare rd None true c1 with
            | Raise e => (c1, Raise e)
            | Ok v => err_loop r c1 (acc ++ [(i + 1, v)])
            end
        end
    end.

  (** gen_errors_for_nips.py:118-128 and process_and_compare.py:175-185 — build_contfrac_errors (no accuracy is passed to
      gen_iterations, so it is the one of the base class). *)
  Definition build_contfrac_errors (iters : Z) (c : contfrac) : contfrac * res (list (Z * mpfv)) :=
    match cf_gen0 rd 0 true c with
    | (c1, Raise e) => (c1, Raise e)
    | (c1, Ok _) =>
        match err_loop (zrange 0 iters) c1 [] with
        | (c2, Raise e) => (c2, Raise e)
        | (c2, Ok errors) =>
            match cf_gen0 rd 0 true c2 with
            | (c3, Raise e) => (c3, Raise e)
            | (c3, Ok _) => (c3, Ok errors)
            end
        end
    end.
End Rounded.

(** abs(err) > eps; false for NaN (gen_errors_for_nips.py:44, 103, 105, 110, 112) *)
Definition above (eps : Q) (v : mpfv) : bool := match v with Fin q => negb (Qle_bool (Qabs q) eps) | NaN => false end.
(** gen_errors_for_nips.py:38, 96 — dec('1E-140') and dec('1E-100'). Simplification: without the rounding of the
    literal. *)
Definition effective_zero (k : positive) : Q := 1 # (10 ^ k).
(** gen_errors_for_nips.py:100-112 — the points (iteration, error) whose logarithms are handed to linregress; both
    regressions get the same ones. *)
Definition fit_points (lo hi : Z) (errors : list (Z * mpfv)) : list (Z * mpfv) :=
  filter (fun p => above (effective_zero 100) (snd p)) (py_slice lo hi errors).
(** gen_errors_for_nips.py:44-45, 53, 69 — the points (iteration, error) whose logarithms are plotted. *)
Definition plot_points (hi : Z) (errors : list (Z * mpfv)) : list (Z * mpfv) :=
  py_slice 0 hi (filter (fun p => above (effective_zero 140) (snd p)) errors).
(** gen_errors_for_nips.py:131-140 — analyze_contfrac: the state, and the points handed to the regression and to the
    plot. *)
Definition analyze_contfrac (rd : Q -> Q) (lo hi : Z) (c : contfrac)
  : contfrac * res (list (Z * mpfv) * list (Z * mpfv)) :=
  let iters := if hi >? 2000 then hi else 2000 in
  match build_contfrac_errors rd iters c with
  | (c1, Raise e) => (c1, Raise e)
  | (c1, Ok errors) => (c1, Ok (fit_points lo hi errors, plot_points hi errors))
  end.

(** ---- the script ---- *)
(** gen_errors_for_nips.py:13-14, 20-21, 26-27, 32-33 — the coefficients *)
Definition nips_a (k : nat) : coeffs := match k with 1%nat => [[2; 2]] | 2%nat => [[1; 3]] | 3%nat => [[1; 2]] | _ => [[6]] end.
(** gen_errors_for_nips.py:13-14, 20-21, 26-27, 32-33 *)
Definition nips_b (k : nat) : coeffs := match k with 1%nat => [[0; 4]] | 2%nat => [[0; 3; -2]] | 3%nat => [[0; 0; 1]] | _ => [[1; -4; 4]] end.
(** gen_errors_for_nips.py:8-9 — the context and the two constants; [pt], [et] are the rests of the literals. *)
Definition nips_consts (pt et : list ascii) : mpctx * res (Q * Q) :=
  let '(m1, r1) := call_gen (GConst (pi_const pt)) [GInt 100] import_ctx in
  let '(m2, r2) := call_gen (GConst (e_const et)) [GInt 100] m1 in
  (m2, let* p := r1 in let* e := r2 in Ok (p, e)).
(** gen_errors_for_nips.py:12, 18, 24, 30 — the targets *)
Definition nips_target (rd : Q -> Q) (pi e : Q) (k : nat) : Q :=
  match k with
  | 1%nat => rdiv rd 1 (rsub rd (rdiv rd e 2) 1)
  | 2%nat | 3%nat => rdiv rd 4 pi
  | _ => radd rd pi 3
  end.
(** gen_errors_for_nips.py:142-145 — the windows *)
Definition nips_window (k : nat) : Z * Z := match k with 1%nat => (30, 65) | 2%nat => (60, 300) | _ => (30, 130) end.
(** gen_errors_for_nips.py:8-33, 142-145 — the points handed to the regression and to the plot for fraction number k. *)
Definition nips_run (pt et : list ascii) (k : nat) : res (list (Z * mpfv) * list (Z * mpfv)) :=
  let '(m, r) := nips_consts pt et in
  let* pe := r in
  let '(p, e) := pe in
  let rd := rnd (mp_prec m) in
  let* c := cf_new (Nested (nips_a k)) (Nested (nips_b k)) true None None (Some (nips_target rd p e k)) true in
  let '(lo, hi) := nips_window k in
  snd (analyze_contfrac rd lo hi c).

(** ---- eval_contfrac_by_polys ---- *)
(** Python numbers that occur: ints and floats (cont_fracs.py:394-398). Simplification: floats have no bounds on the
    exponent, so nothing overflows or underflows. *)
Inductive pynum := PInt (z : Z) | PFlt (q : Q).
(** cont_fracs.py:397 — an int divided by a number: int / int is the correctly rounded quotient, in int / float and
    int + float the int is converted first. *)
Definition py_step (r : pynum) (ab : Z * Z) : res pynum :=
  let '(a_val, b_val) := ab in
  let fl := rnd 53 in
  match r with
  | PInt z => if z =? 0 then Raise ZeroDivisionError else Ok (PFlt (fl (fl (inject_Z a_val) + fl (inject_Z b_val / inject_Z z))%Q))
  | PFlt q => if Qeq_bool q 0 then Raise ZeroDivisionError else Ok (PFlt (fl (fl (inject_Z a_val) + fl (fl (inject_Z b_val) / q))%Q))
  end.
(** cont_fracs.py:378-398 — eval_contfrac on two lists of ints *)
Definition eval_contfrac_int (a b : list Z) : res pynum :=
  if Nat.eqb (length a) (length b) then foldM py_step (combine (rev a) (rev b)) (PInt 1)
  else if Nat.eqb (length a) (length b + 1) then foldM py_step (combine (rev (removelast a)) (rev b)) (PInt (last a 0))
  else Raise ValueError.
(** cont_fracs.py:401-411 — eval_contfrac_by_polys on int coefficients *)
Definition eval_contfrac_by_polys (a b : coeff_arg) (depth : Z) : res pynum :=
  let* a := norm_coeffs a in
  let* b := norm_coeffs b in
  let* av := mapM (coef_at a) (zrange 0 depth) in
  let* bv := mapM (coef_at b) (zrange 1 depth) in
  eval_contfrac_int av bv.

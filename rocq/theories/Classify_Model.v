(** Model of the classification of the sampled results in _estimate_approach_type_and_params_inner_alg
    (cont_fracs.py:251, 273-276, 292-375), and of estimate_approach_type_and_params with it. *)
From Coq Require Import ZArith QArith Qabs Qminmax List Bool.
From Verif Require Import PyBase Rnd Utils_Model ContFrac_Model.
Import ListNotations.
Open Scope Z_scope.

(** 0.5 and 1.1, Python floats (cont_fracs.py:328, 335, 241) *)
Definition half_f : Q := 1 # 2.
(** cont_fracs.py:241 *)
Definition exp_threshold : Q := rnd 53 (11 # 10).

(** python's min of two values: the first unless the second is smaller (cont_fracs.py:346, 355) *)
Definition py_min (x y : Q) : Q := if negb (Qle_bool x y) then y else x.

(** min of two values of which either may be NaN (cont_fracs.py:373-374): a comparison with NaN is false *)
Definition py_minv (x y : mpfv) : mpfv :=
  match x, y with Fin a, Fin b => Fin (py_min a b) | _, _ => x end.

(** xs[i:] for a non-negative i (cont_fracs.py:329-330) *)
Definition from_pos {A} (i : Z) (xs : list A) : list A := skipn (Z.to_nat i) xs.

(** xs[-3:] (cont_fracs.py:299, 301) *)
Definition last3 {A} (xs : list A) : list A := skipn (length xs - 3) xs.

Section Classify.
  (** rounding of the working precision *)
  Variable rd : Q -> Q.
  (** mp.dps (cont_fracs.py:251) *)
  Variable dps : Z.
  (** mpmath's sqrt (cont_fracs.py:323, 325), which mpmath also uses for the powers with exponent 0.5 (344-345) *)
  Variable msqrt : Q -> Q.
  (** math.log of a positive number (cont_fracs.py:364-369) *)
  Variable flog : Q -> Q.
  (** scipy.stats.linregress (cont_fracs.py:366, 370): slope, intercept and r_value; the other two results are not used *)
  Variable linregress : list Q -> list mpfv -> mpfv * mpfv * mpfv.

  (** abs(x - y) of two results (cont_fracs.py:273-276, 292-295) *)
  Definition delta (x y : mpfv) : mpfv :=
    match x, y with Fin a, Fin b => Fin (Qabs (rsub rd a b)) | _, _ => NaN end.

  (** the two entries of delta_pair for one sample (cont_fracs.py:273-274, 292-293); a sample is the index and six results *)
  Definition pair_of_sample (s : Z * list mpfv) : list (Z * mpfv) :=
    let '(i, l) := s in let r k := nth k l NaN in
    [(i, delta (r 2%nat) (r 0%nat)); (i + 2, delta (r 4%nat) (r 2%nat))].
  (** the two entries of delta_odd (cont_fracs.py:275-276, 294-295) *)
  Definition odd_of_sample (s : Z * list mpfv) : list (Z * mpfv) :=
    let '(i, l) := s in let r k := nth k l NaN in
    [(i + 1, delta (r 3%nat) (r 1%nat)); (i + 3, delta (r 5%nat) (r 3%nat))].
  (** cont_fracs.py:259-260, 273-276, 292-295 *)
  Definition delta_pair (s : list (Z * list mpfv)) : list (Z * mpfv) := flat_map pair_of_sample s.
  (** cont_fracs.py:259-260, 273-276, 292-295 *)
  Definition delta_odd (s : list (Z * list mpfv)) : list (Z * mpfv) := flat_map odd_of_sample s.

  (** cont_fracs.py:251; the power is taken as correctly rounded *)
  Definition effective_zero : Q := rd (Qpower (10 # 1) (- dps)).

  (** cont_fracs.py:299-302 *)
  Definition diminishes (ds : list (Z * mpfv)) : bool :=
    (3 <? Z.of_nat (length ds)) &&
    forallb (fun p => match snd p with Fin d => negb (Qle_bool effective_zero (Qabs d)) | NaN => false end) (last3 ds).

  (** d != 0 and not isnan(d) (cont_fracs.py:313-314, 316-317, 349, 353) *)
  Definition usable (d : mpfv) : option Q :=
    match d with Fin q => if Qeq_bool q 0 then None else Some q | NaN => None end.

  (** the ratios of the entries 2k and 2k+1 (cont_fracs.py:312-317); the division cannot fail, the divisor is not zero *)
  Fixpoint ratios (ds : list (Z * mpfv)) : list (Z * Q) :=
    match ds with
    | (i, d) :: (_, e) :: r =>
        match usable d, usable e with
        | Some x, Some y => (i, rdiv rd x y) :: ratios r
        | _, _ => ratios r
        end
    | _ => []
    end.

  (** sum of a list of mpf: 0 + x0 + x1 + ... (cont_fracs.py:322-325, 350, 354) *)
  Definition msum (xs : list Q) : Q := fold_left (radd rd) xs 0%Q.

  (** division; mpf and int division by zero raise (cont_fracs.py:322-327, 347-354) *)
  Definition mdiv (x y : Q) : res Q := if Qeq_bool y 0 then Raise ZeroDivisionError else Ok (rdiv rd x y).

  (** the mean (cont_fracs.py:322, 324, 350, 354) *)
  Definition mmean (xs : list Q) : res Q := mdiv (msum xs) (inject_Z (Z.of_nat (length xs))).

  (** the error of the mean (cont_fracs.py:323, 325); the square is taken as one correctly rounded product *)
  Definition mspread (m : Q) (xs : list Q) : res Q :=
    mdiv (msqrt (msum (map (fun r => let d := rsub rd r m in rmul rd d d) xs))) (inject_Z (Z.of_nat (length xs))).

  (** x > y for numbers (cont_fracs.py:328-337) *)
  Definition gtq (x y : Q) : bool := negb (Qle_bool x y).

  (** cont_fracs.py:329-330 — all ratios of the last part exceed 2 *)
  Definition tail_above_2 (pr od : list (Z * Q)) : bool :=
    forallb (fun p => gtq (snd p) 2)
      (from_pos (3 * (Z.of_nat (length pr) / 4)) pr ++ from_pos (3 * (Z.of_nat (length od) / 4)) od).

  (** one element of the lists of cont_fracs.py:347-349 and 351-353; powers are taken as correctly rounded *)
  Definition coeff_of (x : Q) (i : Z) (d : Q) : res Q :=
    let* c := mdiv (rmul rd d (rd (Qpower x i))) (rsub rd 1 (rd (Qpower x (-2)))) in Ok (Qabs c).

  (** cont_fracs.py:347-354 — the mean of these elements over the usable differences *)
  Definition mean_coeff (x : Q) (ds : list (Z * mpfv)) : res Q :=
    let* l := mapM (fun p => coeff_of x (fst p) (snd p))
                (flat_map (fun p => match usable (snd p) with Some q => [(fst p, q)] | None => [] end) ds) in
    mmean l.

  (** math.log(i) of an int (cont_fracs.py:364, 368) *)
  Definition log_int (i : Z) : res Q := if i <=? 0 then Raise ValueError else Ok (flog (inject_Z i)).

  (** math.log(d) of a non-negative mpf, which is first converted to a float (cont_fracs.py:365, 369): values up to
      2^-1075 become 0.0.  Simplification: values above the range of floats are treated as in range. *)
  Definition log_mpf (d : mpfv) : res mpfv :=
    match d with
    | NaN => Ok NaN
    | Fin q => if Qle_bool q (Qpower (2 # 1) (-1075)) then Raise ValueError else Ok (Fin (flog q))
    end.

  (** abs and the subtraction of 1 on floats (cont_fracs.py:373); exact, python: rounded *)
  Definition vabs (x : mpfv) : mpfv := match x with Fin q => Fin (Qabs q) | NaN => NaN end.
  (** cont_fracs.py:373 *)
  Definition vpred (x : mpfv) : mpfv := match x with Fin q => Fin (q - 1) | NaN => NaN end.
  (** cont_fracs.py:374; exact, python: rounded *)
  Definition vsqr (x : mpfv) : mpfv := match x with Fin q => Fin (q * q) | NaN => NaN end.

  (** cont_fracs.py:364-367 and 368-370 *)
  Definition regress (ds : list (Z * mpfv)) : res (mpfv * mpfv * mpfv) :=
    let* lx := mapM (fun p => log_int (fst p)) ds in
    let* ly := mapM (fun p => log_mpf (snd p)) ds in
    Ok (linregress lx ly).

  (** cont_fracs.py:363-375 *)
  Definition poly_params (ds dos : list (Z * mpfv)) : res aparams :=
    let* p := regress ds in
    let* o := regress dos in
    let '(slope_p, inter_p, r_p) := p in
    let '(slope_o, inter_o, r_o) := o in
    Ok (APTriple (vpred (py_minv (vabs slope_p) (vabs slope_o))) (py_minv inter_p inter_o)
                 (py_minv (vsqr r_p) (vsqr r_o))).

  (** cont_fracs.py:344-356 *)
  Definition exp_params (mp mo : Q) (ds dos : list (Z * mpfv)) : res aparams :=
    let x := py_min (msqrt mp) (msqrt mo) in
    let* cp := mean_coeff x ds in
    let* co := mean_coeff x dos in
    Ok (APPair x (py_min cp co)).

  (** cont_fracs.py:297-307 *)
  Definition first_type (ds dos : list (Z * mpfv)) : atype :=
    if xorb (diminishes ds) (diminishes dos) then ATUndefined
    else if diminishes ds && diminishes dos then ATFast else ATNone.

  (** cont_fracs.py:335-375, for the type [t0] found before (and find_poly_parameter=True, as in every call) *)
  Definition second_type (t0 : atype) (low : bool) (mp mo : Q) (ds dos : list (Z * mpfv)) : res (atype * aparams) :=
    if low || (match t0 with ATSuperExp => true | _ => false end) then
      let pe := gtq mp exp_threshold in
      let oe := gtq mo exp_threshold in
      if xorb pe oe then Ok (ATMixed, APNone)
      else if pe && oe then
        let t1 := match t0 with ATSuperExp => ATSuperExp | _ => ATExp end in
        let* ps := exp_params mp mo ds dos in Ok (t1, ps)
      else let* ps := poly_params ds dos in Ok (ATPoly, ps)
    else Ok (t0, APNone).

  (** cont_fracs.py:297-375 *)
  Definition classify (s : list (Z * list mpfv)) : res (atype * aparams) :=
    let ds := delta_pair s in
    let dos := delta_odd s in
    let t0 := first_type ds dos in
    let pr := ratios ds in
    let od := ratios dos in
    if Z.of_nat (length pr) <? 6 then Ok (t0, APNone)
    else
      let* mp := mmean (map snd pr) in
      let* sp := mspread mp (map snd pr) in
      let* mo := mmean (map snd od) in
      let* so := mspread mo (map snd od) in
      let* rp := mdiv sp mp in
      let* ro := mdiv so mo in
      let t1 := if gtq rp half_f || gtq ro half_f
                then (if tail_above_2 pr od then ATSuperExp else ATUndefined) else t0 in
      second_type t1 (Qle_bool ro half_f && Qle_bool rp half_f) mp mo ds dos.
End Classify.

(** Model of cont_fracs.py and of the classes of basic_representation_types.py that it extends.
    Simplifications common to the whole file: coefficients are python ints (so the numerators and denominators are exact
    integers and never infinite); printing ([print_calc]) is omitted. *)
From Coq Require Import ZArith QArith Qabs List Bool.
From Verif Require Import PyBase Rnd Utils_Model.
Import ListNotations.
Open Scope Z_scope.

(** mpf values that occur as results: finite or NaN (cont_fracs.py:115-118). *)
Inductive mpfv := Fin (q : Q) | NaN.

(** cont_fracs.py:22-25 *)
Definition coeffs := list (list Z).

(** The two accepted shapes of a_coeffs/b_coeffs (cont_fracs.py:22-25, 35-38). *)
Inductive coeff_arg := Flat (l : list Z) | Nested (l : coeffs).

(** cont_fracs.py:35-38 — wrapping of a flat list; [a_coeffs[0]] raises on an empty one. *)
Definition norm_coeffs (c : coeff_arg) : res coeffs :=
  match c with
  | Flat [] | Nested [] => Raise IndexError
  | Flat l => Ok [l]
  | Nested l => Ok l
  end.

(** The dictionary [params] (cont_fracs.py:40); the key contfrac_res starts as the int 1. *)
Record params := { pa : coeffs; pb : coeffs; pres : mpfv }.

(** state matrix ((p_i, p_{i-1}), (q_i, q_{i-1})) (cont_fracs.py:75) *)
Definition mat := ((Z * Z) * (Z * Z))%type.

(** Values of _approach_type (cont_fracs.py:242, 48; basic_representation_types.py:130). *)
Inductive atype := ATNone | ATUndefined | ATExp | ATSuperExp | ATPoly | ATFast | ATMixed.

(** _approach_params: falsy (0 or None), a pair (exp, super_exp) or a triple (poly) (cont_fracs.py:356, 373). *)
Inductive aparams := APNone | APPair (base coeff : Q) | APTriple (x y z : mpfv).

(** Instance attributes of ContFrac (cont_fracs.py:20-49, basic_representation_types.py:19-28).
    [cf_log] is _params_log with its three parallel lists zipped into one list of records;
    it and [cf_mats] are never empty. *)
Record contfrac := {
  cf_params : params;
  cf_promo : option (Z -> coeffs -> coeffs -> res (Z * Z));  (* None = _default_promo_mat_gen *)
  cf_first : mat;
  cf_auto_first : bool;
  cf_avoid_zero_b : bool;
  cf_target : option Q;
  cf_logging : bool;
  cf_atype : atype;
  cf_aparams : aparams;
  cf_log : list params;
  cf_iters : Z;
  cf_mats : list mat
}.

(** Updates of the attributes that change during iterations (basic_representation_types.py:45-47, 63-66, 74-78). *)
Definition set_dyn (c : contfrac) (log : list params) (iters : Z) (mats : list mat) : contfrac :=
  {| cf_params := cf_params c; cf_promo := cf_promo c; cf_first := cf_first c; cf_auto_first := cf_auto_first c;
     cf_avoid_zero_b := cf_avoid_zero_b c; cf_target := cf_target c; cf_logging := cf_logging c;
     cf_atype := cf_atype c; cf_aparams := cf_aparams c;
     cf_log := log; cf_iters := iters; cf_mats := mats |}.

(** cont_fracs.py:48, 53, 185-186, 192-193 — assignment of _approach_type, _approach_params *)
Definition set_approach (c : contfrac) (t : atype) (p : aparams) : contfrac :=
  {| cf_params := cf_params c; cf_promo := cf_promo c; cf_first := cf_first c; cf_auto_first := cf_auto_first c;
     cf_avoid_zero_b := cf_avoid_zero_b c; cf_target := cf_target c; cf_logging := cf_logging c;
     cf_atype := t; cf_aparams := p;
     cf_log := cf_log c; cf_iters := cf_iters c; cf_mats := cf_mats c |}.

(** cont_fracs.py:138-141 — _autogen_first_iter_matrix *)
Definition autogen_first (a : coeffs) : res mat :=
  match a with
  | (a00 :: _) :: _ => Ok ((a00, 1), (1, 0))
  | _ => Raise IndexError
  end.

(** cont_fracs.py:20-49 with basic_representation_types.py:120-131 and 13-28 — the constructor.
    [target] is the value used for target_val (default: gen_pi_const()). *)
Definition cf_new (a b : coeff_arg) (avoid_zero_b : bool)
    (promo : option (Z -> coeffs -> coeffs -> res (Z * Z))) (first : option mat) (target : option Q) (logging : bool)
  : res contfrac :=
  let* a' := norm_coeffs a in
  let* b' := norm_coeffs b in
  let ps := {| pa := a'; pb := b'; pres := Fin 1 |} in
  let* m := match first with Some m => Ok m | None => autogen_first a' end in
  Ok {| cf_params := ps; cf_promo := promo; cf_first := m;
        cf_auto_first := match first with Some _ => false | None => true end;
        cf_avoid_zero_b := avoid_zero_b; cf_target := target; cf_logging := logging;
        cf_atype := ATNone; cf_aparams := APNone;
        cf_log := [ps]; cf_iters := 0; cf_mats := [m] |}.

(** cont_fracs.py:51-66 with basic_representation_types.py:30-38 — reinitialize.  A missing or empty list keeps the
    old coefficients; the logs and matrices are not reset.  Only nested coefficient lists are modelled
    (a flat one raises TypeError in _autogen_first_iter_matrix). *)
Definition cf_reinitialize (a b : option coeffs) (first : option mat) (c : contfrac) : contfrac * res unit :=
  let c1 := set_approach c ATUndefined APNone in
  let a' := match a with Some (x :: r) => x :: r | _ => pa (cf_params c) end in
  let b' := match b with Some (x :: r) => x :: r | _ => pb (cf_params c) end in
  let first' := match first with
                | Some m => Ok (Some m)
                | None => if cf_auto_first c then let* m := autogen_first a' in Ok (Some m) else Ok None
                end in
  match first' with
  | Raise e => (c1, Raise e)
  | Ok fm =>
      ({| cf_params := {| pa := a'; pb := b'; pres := pres (cf_params c) |};
          cf_promo := cf_promo c;
          cf_first := match fm with Some m => m | None => cf_first c end;
          cf_auto_first := cf_auto_first c; cf_avoid_zero_b := cf_avoid_zero_b c; cf_target := cf_target c;
          cf_logging := cf_logging c; cf_atype := ATUndefined; cf_aparams := APNone;
          cf_log := cf_log c; cf_iters := cf_iters c; cf_mats := cf_mats c |}, Ok tt)
  end.

(** [coeffs[i % len(coeffs)]] evaluated at i (cont_fracs.py:129-130) *)
Definition coef_at (l : coeffs) (i : Z) : res Z :=
  if Z.of_nat (length l) =? 0 then Raise ZeroDivisionError
  else let* p := py_nth l (i mod Z.of_nat (length l)) in Ok (subs_in_polynom p i).

(** cont_fracs.py:122-136 — _default_promo_mat_gen *)
Definition default_promo (avoid_zero_b : bool) (i : Z) (a b : coeffs) : res (Z * Z) :=
  let* a_i := coef_at a i in
  let* b_i := coef_at b i in
  if avoid_zero_b && (b_i =? 0) && (i >? 0) then Raise (ZeroB i) else Ok (a_i, b_i).

Section Rounded.
  (** rounding of the working precision *)
  Variable rd : Q -> Q.

  (** dec(p) / dec(q), or NaN when q is not normal (cont_fracs.py:96-101 and 113-118).
      A nonzero int converts to a normal mpf. *)
  Definition pq_value (p q : Z) : mpfv :=
    let q' := rd (inject_Z q) in
    if Qeq_bool q' 0 then NaN else Fin (rdiv rd (rd (inject_Z p)) q').

  (** cont_fracs.py:68-105 — iteration_algorithm *)
  Definition cf_iteration (c : contfrac) (ps : params) (m : mat) (i : Z) : res (params * mat) :=
    let i := i + 1 in
    let* ab := match cf_promo c with
               | Some f => f i (pa ps) (pb ps)
               | None => default_promo (cf_avoid_zero_b c) i (pa ps) (pb ps)
               end in
    let '(a_i, b_i) := ab in
    let '((p, p'), (q, q')) := m in
    let newp := (p * a_i + p' * b_i, p) in
    let newq := (q * a_i + q' * b_i, q) in
    let ps' := if cf_logging c then {| pa := pa ps; pb := pb ps; pres := pq_value (fst newp) (fst newq) |} else ps in
    Ok (ps', (newp, newq)).

  (** cont_fracs.py:107-120 — finalize_iterations *)
  Definition cf_finalize (ps : params) (m : mat) : params * mat :=
    ({| pa := pa ps; pb := pb ps; pres := pq_value (fst (fst m)) (fst (snd m)) |}, m).

  (** basic_representation_types.py:60-68 — the loop of add_iterations *)
  Fixpoint add_loop (idx : list Z) (c : contfrac) (ps : params) (m : mat) : contfrac * res (params * mat) :=
    match idx with
    | [] => (c, Ok (ps, m))
    | i :: r =>
        match cf_iteration c ps m (i + cf_iters c) with
        | Raise e => (c, Raise e)
        | Ok (ps', m') =>
            let c' := if cf_logging c then set_dyn c (cf_log c ++ [ps']) (cf_iters c) (cf_mats c ++ [m']) else c in
            add_loop r c' ps' m'
        end
    end.

  (** basic_representation_types.py:52-78, 145-152 — add_iterations *)
  Definition cf_add (n : Z) (fin : bool) (c : contfrac) : contfrac * res unit :=
    let ps := last (cf_log c) (cf_params c) in
    let m := last (cf_mats c) (cf_first c) in
    match add_loop (zrange 0 n) c ps m with
    | (c1, Raise e) => (c1, Raise e)
    | (c1, Ok (ps1, m1)) =>
        let '(ps2, m2) := if fin then cf_finalize ps1 m1 else (ps1, m1) in
        let c2 := if cf_logging c1 then c1 else set_dyn c1 [ps2] (cf_iters c1) [m2] in
        (set_dyn c2 (cf_log c2) (cf_iters c2 + n) (cf_mats c2), Ok tt)
    end.

  (** basic_representation_types.py:45-47 — the reset at the beginning of gen_iterations *)
  Definition cf_reset (c : contfrac) : contfrac := set_dyn c [cf_params c] 0 [cf_first c].

  (** basic_representation_types.py:40-50 — gen_iterations of the base class *)
  Definition cf_gen0 (n : Z) (fin : bool) (c : contfrac) : contfrac * res unit := cf_add n fin (cf_reset c).

  (** basic_representation_types.py:133-143 — gen_iterations with an accuracy.
      [req] stands for math.ceil(abs((accuracy / power_base).ln() / power_base.ln())); mpmath's mpf has no
      method ln, so the pinned backend is [fun _ _ => Raise AttributeError]. *)
  Definition cf_gen (req : Q -> Q * Q -> res Z) (n : Z) (accuracy : Q) (fin : bool) (c : contfrac)
    : contfrac * res unit :=
    let is_exp := match cf_atype c with ATExp | ATSuperExp => true | _ => false end in
    match cf_aparams c with
    | APNone => cf_gen0 n fin c
    | _ =>
        if is_exp && negb (Qeq_bool accuracy 0) then
          match cf_aparams c with
          | APPair base coeff =>
              match req accuracy (base, coeff) with
              | Raise e => (c, Raise e)
              | Ok r => cf_gen0 (Z.min n r) fin c
              end
          | _ => (c, Raise ValueError)   (* a triple cannot be unpacked into two names *)
          end
        else cf_gen0 n fin c
    end.

  (** cont_fracs.py:147-149 — get_result *)
  Definition cf_result (c : contfrac) : mpfv := pres (last (cf_log c) (cf_params c)).

  (** cont_fracs.py:151-154 — get_p_q *)
  Definition cf_get_p_q (c : contfrac) : Z * Z :=
    let m := last (cf_mats c) (cf_first c) in (snd (fst m), snd (snd m)).

  (** basic_representation_types.py:84-108, 154-157 — compare_result (subtraction rounds, abs is exact) *)
  Definition cf_compare (target : option Q) (calc_abs : bool) (c : contfrac) : res mpfv :=
    let* t := match target with
              | Some t => Ok t
              | None => match cf_target c with Some t => Ok t | None => Raise ValueError end
              end in
    match cf_result c with
    | NaN => Ok NaN
    | Fin r => let d := rsub rd r t in Ok (Fin (if calc_abs then Qabs d else d))
    end.

  (** One call of the stateful methods used by histories (basic_representation_types.py:40-78). *)
  Inductive cf_call := CGen (n : Z) (fin : bool) | CAdd (n : Z) (fin : bool).
  (** basic_representation_types.py:40-78 *)
  Definition cf_do (o : cf_call) (c : contfrac) : contfrac * res unit :=
    match o with CGen n fin => cf_gen0 n fin c | CAdd n fin => cf_add n fin c end.

  (** A history of calls that stops at the first exception (basic_representation_types.py:40-78). *)
  Fixpoint cf_run (os : list cf_call) (c : contfrac) : contfrac * res unit :=
    match os with
    | [] => (c, Ok tt)
    | o :: r => match cf_do o c with
                | (c1, Ok tt) => cf_run r c1
                | (c1, Raise e) => (c1, Raise e)
                end
    end.

  (** [range(lo, hi, step)] for any step (used at cont_fracs.py:209 and 278) *)
  Definition py_range3 (lo hi step : Z) : res (list Z) :=
    if step =? 0 then Raise ValueError
    else if step >? 0 then Ok (zrange_step lo hi step)
    else Ok (map Z.opp (zrange_step (- lo) (- hi) (- step))).

  (** cont_fracs.py:210-220 — five single steps, collecting get_p_q before and after each *)
  Fixpoint five_pq (k : nat) (c : contfrac) (acc : list (Z * Z)) : contfrac * res (list (Z * Z)) :=
    let acc' := acc ++ [cf_get_p_q c] in
    match k with
    | O => (c, Ok acc')
    | S k' => match cf_add 1 false c with
              | (c1, Raise e) => (c1, Raise e)
              | (c1, Ok _) => five_pq k' c1 acc'
              end
    end.

  (** cont_fracs.py:226-231 — the comparison of two consecutive pairs; true = not fast *)
  Definition slow_test (l : list (Z * Z)) : bool :=
    let pq k := nth k l (0, 0) in
    let p k := fst (pq k) in let q k := snd (pq k) in
    let lhs_pair := Z.abs (q 4%nat * (p 2%nat * q 0%nat - p 0%nat * q 2%nat)) in
    let rhs_pair := Z.abs (q 0%nat * (p 4%nat * q 2%nat - p 2%nat * q 4%nat)) in
    let lhs_odd := Z.abs (q 5%nat * (p 3%nat * q 1%nat - p 1%nat * q 3%nat)) in
    let rhs_odd := Z.abs (q 1%nat * (p 5%nat * q 3%nat - p 3%nat * q 5%nat)) in
    ((lhs_pair - rhs_pair) <=? Z.shiftr rhs_pair 4) || ((lhs_odd - rhs_odd) <=? Z.shiftr rhs_odd 4).

  (** cont_fracs.py:208-235 — the loop of is_convergence_fast; the result is return_val *)
  Fixpoint fast_loop (idx : list Z) (step : Z) (c : contfrac) : contfrac * res bool :=
    match idx with
    | [] => (c, Ok true)
    | _ :: r =>
        match five_pq 5 c [] with
        | (c1, Raise e) => (c1, Raise e)
        | (c1, Ok l) =>
            if slow_test l then (c1, Ok false)
            else match cf_add (step - 5) false c1 with
                 | (c2, Raise e) => (c2, Raise e)
                 | (c2, Ok _) => fast_loop r step c2
                 end
        end
    end.

  (** cont_fracs.py:195-238 — is_convergence_fast (the ValueError at line 204 is constructed but not raised) *)
  Definition cf_is_fast (iters cutoff step : Z) (c : contfrac) : contfrac * res bool :=
    match cf_gen0 cutoff false c with
    | (c1, Raise e) => (c1, Raise e)
    | (c1, Ok _) =>
        match py_range3 (cutoff + step) (iters + 1) step with
        | Raise e => (c1, Raise e)
        | Ok idx =>
            match fast_loop idx step c1 with
            | (c2, Raise e) => (c2, Raise e)
            | (c2, Ok v) =>
                match cf_gen0 0 true c2 with
                | (c3, Raise e) => (c3, Raise e)
                | (c3, Ok _) => (c3, Ok v)
                end
            end
        end
    end.

  (** cont_fracs.py:261-272 and 281-291 — five single steps, collecting get_result *)
  Fixpoint five_res (k : nat) (c : contfrac) (acc : list mpfv) : contfrac * res (list mpfv) :=
    let acc' := acc ++ [cf_result c] in
    match k with
    | O => (c, Ok acc')
    | S k' => match cf_add 1 true c with
              | (c1, Raise e) => (c1, Raise e)
              | (c1, Ok _) => five_res k' c1 acc'
              end
    end.

  (** cont_fracs.py:278-295 — the sampling loop; returns the sampled results with their index *)
  Fixpoint sample_loop (idx : list Z) (step : Z) (c : contfrac) (acc : list (Z * list mpfv))
    : contfrac * res (list (Z * list mpfv)) :=
    match idx with
    | [] => (c, Ok acc)
    | i :: r =>
        match cf_add (step - 5) true c with
        | (c1, Raise e) => (c1, Raise e)
        | (c1, Ok _) =>
            match five_res 5 c1 [] with
            | (c2, Raise e) => (c2, Raise e)
            | (c2, Ok l) => sample_loop r step c2 (acc ++ [(i, l)])
            end
        end
    end.

  (** cont_fracs.py:240-375 — _estimate_approach_type_and_params_inner_alg.  The sampling of the fraction is
      modelled here; the numeric classification of the samples (lines 297-375) is the parameter [classify], given in
      Classify_Model.v. *)
  Definition cf_inner_alg (classify : list (Z * list mpfv) -> res (atype * aparams)) (iters cutoff step : Z)
      (c : contfrac) : contfrac * res (atype * aparams) :=
    match cf_gen0 cutoff true c with
    | (c1, Raise e) => (c1, Raise e)
    | (c1, Ok _) =>
        match five_res 5 c1 [] with
        | (c2, Raise e) => (c2, Raise e)
        | (c2, Ok l0) =>
            match py_range3 (cutoff + step) (iters + 1) step with
            | Raise e => (c2, Raise e)
            | Ok idx =>
                match sample_loop idx step c2 [(cutoff, l0)] with
                | (c3, Raise e) => (c3, Raise e)
                | (c3, Ok s) => (c3, classify s)
                end
            end
        end
    end.

  (** python's int(x / y) for y = 30 (cont_fracs.py:170): truncation towards zero.
      Simplification: the float quotient is taken as exact. *)
  Definition int_div30 (x : Z) : Z := Z.quot x 30.

  Section Estimate.
    Variable classify : list (Z * list mpfv) -> res (atype * aparams).

    (** cont_fracs.py:167-174 — first loop; [None] = not finished within [fuel] rounds.
        Returns the state, the outcome and the last initial_cutoff. *)
    Fixpoint est_loop1 (fuel : nat) (at_ : atype) (ap : aparams) (iters cutoff step : Z) (c : contfrac)
      : option (contfrac * res (atype * aparams * Z)) :=
      if (match at_ with ATFast => true | _ => false end) && (cutoff >? 0) then
        match fuel with
        | O => None
        | S f =>
            let cutoff' := Z.shiftr cutoff 1 in
            let iters' := Z.max 50 (Z.shiftr iters 1) in
            let step' := Z.max (int_div30 (iters' - cutoff')) (Z.shiftr step 1) in
            match cf_inner_alg classify iters' cutoff' step' c with
            | (c1, Raise e) => Some (c1, Raise e)
            | (c1, Ok (t, p)) => est_loop1 f t p iters' cutoff' step' c1
            end
        end
      else Some (c, Ok (at_, ap, cutoff)).

    (** cont_fracs.py:178-184 — second loop *)
    Fixpoint est_loop2 (fuel : nat) (at_ : atype) (ap : aparams) (iters cutoff : Z) (c : contfrac)
      : option (contfrac * res (atype * aparams)) :=
      if (match at_ with ATFast => true | _ => false end) && (iters >? 10) then
        match fuel with
        | O => None
        | S f =>
            let cutoff' := Z.shiftr cutoff 1 in
            let iters' := iters - 5 in
            match cf_inner_alg classify iters' cutoff' 1 c with
            | (c1, Raise e) => Some (c1, Raise e)
            | (c1, Ok (t, p)) => est_loop2 f t p iters' cutoff' c1
            end
        end
      else Some (c, Ok (at_, ap)).

    (** cont_fracs.py:161-187 — estimate_approach_type_and_params *)
    Definition cf_estimate (fuel : nat) (iters cutoff step : Z) (c : contfrac) : option (contfrac * res unit) :=
      match cf_inner_alg classify iters cutoff step c with
      | (c1, Raise e) => Some (c1, Raise e)
      | (c1, Ok (t, p)) =>
          match est_loop1 fuel t p iters cutoff step c1 with
          | None => None
          | Some (c2, Raise e) => Some (c2, Raise e)
          | Some (c2, Ok (t2, p2, cutoff2)) =>
              match (if cutoff2 =? 0 then est_loop2 fuel t2 p2 50 cutoff2 c2 else Some (c2, Ok (t2, p2))) with
              | None => None
              | Some (c3, Raise e) => Some (c3, Raise e)
              | Some (c3, Ok (t3, p3)) => Some (set_approach c3 t3 p3, Ok tt)
              end
          end
      end.
  End Estimate.

  (** cont_fracs.py:396-397 — one round of the evaluation loop; mpf division by zero raises *)
  Definition eval_step (r : Q) (ab : Q * Q) : res Q :=
    let '(a_val, b_val) := ab in
    if Qeq_bool r 0 then Raise ZeroDivisionError else Ok (radd rd a_val (rdiv rd b_val r)).

  (** cont_fracs.py:378-398 — eval_contfrac, every operation rounded by [rd] *)
  Definition eval_contfrac (a : list Q) (b : option (list Q)) : res Q :=
    let b := match b with Some b => b | None => repeat 1%Q (length a - 1) end in
    if Nat.eqb (length a) (length b) then
      foldM eval_step (combine (rev a) (rev b)) 1%Q
    else if Nat.eqb (length a) (length b + 1) then
      foldM eval_step (combine (rev (removelast a)) (rev b)) (last a 0%Q)
    else Raise ValueError.

  (** cont_fracs.py:427-428 (and 410-411) — a list element subs_in_polynom(l[i % len(l)], i) on mpf coefficients *)
  Definition coef_at_r (l : list (list Q)) (i : Z) : res Q :=
    if Z.of_nat (length l) =? 0 then Raise ZeroDivisionError
    else let* p := py_nth l (i mod Z.of_nat (length l)) in Ok (subs_in_polynom_r rd p i).

  (** cont_fracs.py:414-428 — eval_dec_contfrac_by_polys.  Simplification: an empty polynomial evaluates to mpf 0
      (python: int 0). *)
  Definition eval_dec_contfrac_by_polys (a b : coeff_arg) (depth : Z) : res Q :=
    let* a := norm_coeffs a in
    let* b := norm_coeffs b in
    let a := map (map (fun i => rd (inject_Z i))) a in
    let b := map (map (fun i => rd (inject_Z i))) b in
    let* av := mapM (coef_at_r a) (zrange 0 depth) in
    let* bv := mapM (coef_at_r b) (zrange 1 depth) in
    eval_contfrac av (Some bv).
End Rounded.

(** Model of enum_poly_params.py. No proofs. *)
From Coq Require Import ZArith QArith List Bool.
From Verif Require Import PyBase Rnd Utils_Model ContFrac_Model.
Import ListNotations.
Open Scope Z_scope.

(** A polynomial: its coefficients, lowest power first (a python tuple). *)
Notation poly := (list Z) (only parsing).

(** python or library primitive, used at enum_poly_params.py:126, 128 *)
Fixpoint poly_eqb (p q : poly) : bool :=
  match p, q with
  | [], [] => true
  | x :: p', y :: q' => (x =? y) && poly_eqb p' q'
  | _, _ => false
  end.

(** enum_poly_params.py:181-185 — _factor_out_polynom: dropwhile zero, then takewhile nonzero *)
Fixpoint dropwhile {A} (f : A -> bool) (l : list A) : list A :=
  match l with [] => [] | x :: r => if f x then dropwhile f r else l end.
(** enum_poly_params.py:181-185 *)
Fixpoint takewhile {A} (f : A -> bool) (l : list A) : list A :=
  match l with [] => [] | x :: r => if f x then x :: takewhile f r else [] end.
(** enum_poly_params.py:181-185 *)
Definition factor_out (p : poly) : poly :=
  takewhile (fun x => negb (x =? 0)) (dropwhile (fun x => x =? 0) p).

(** enum_poly_params.py:171-179 — _polynom_degree: the loop over the reversed list with the counter [deg] *)
Fixpoint degree_loop (rp : list Z) (deg : Z) : Z :=
  match rp with
  | [] => deg - 1
  | i :: r => if negb (i =? 0) then deg - 1 else degree_loop r (deg - 1)
  end.
(** enum_poly_params.py:171-179 *)
Definition polynom_degree (p : poly) : Z := degree_loop (rev p) (Z.of_nat (length p)).

(** python floats: every operation rounds to 53 bits. Simplification: the exponent range is unbounded. [python or library primitive, used at enum_poly_params.py:156, 162-166] *)
Definition fl (q : Q) : Q := rnd 53 q.
(** mpmath's isint of a float: exact test. [python or library primitive, used at enum_poly_params.py:156, 162-166] *)
Definition isint (q : Q) : bool := Pos.eqb (Qden (Qred q)) 1.

(** enum_poly_params.py:146-169 — _does_have_integer_roots. [fsqrt d] is [d ** 0.5] for an int d >= 0; dividing two
    ints rounds the exact quotient, mixed operations convert the int to a float first. *)
Definition has_integer_roots (fsqrt : Z -> Q) (p : poly) : bool :=
  match factor_out p with
  | [] => true
  | [_] => false
  | [c0; c1] => isint (fl (inject_Z c0 / inject_Z c1)) && negb (Bool.eqb (c0 >? 0) (c1 >? 0))
  | [c0; c1; c2] =>
      let discrim := c1 ^ 2 - 4 * c0 * c2 in
      if discrim <? 0 then false
      else
        let d := fsqrt discrim in
        let test x := isint (rdiv fl (rsub fl x (fl (inject_Z c1))) (fl (inject_Z (2 * c0)))) in
        if test d then true else if test (- d)%Q then true else false
  | _ => false
  end.

(** The range of r = [lo, hi], for every coefficient of every interlaced polynomial (enum_poly_params.py:95-96). *)
Definition prange := list (list (Z * Z)).
(** enum_poly_params.py:108, 115-116 — itertools.product of itertools.product of ranges *)
Definition choices (r : prange) : list (list poly) :=
  product (map (fun ra => product (map (fun lh => zrange (fst lh) (snd lh)) ra)) r).

(** enum_poly_params.py:18-36 — the length computed by _len_decorator, with the factor of lines 32-33 (1 if the class has
    no len_factor_func) *)
Definition range_prod (r : prange) (init : Z) : Z :=
  fold_left (fun g ar => fold_left (fun g lh => g * (snd lh - fst lh)) ar g) r init.
(** enum_poly_params.py:25-35 *)
Definition gen_len (range_a range_b : prange) (factor : Z) : Z := range_prod range_b (range_prod range_a 1) * factor.

(** enum_poly_params.py:126-129 — identical interlaced polynomials are squeezed to one *)
Definition squeeze (ps : list poly) : list poly :=
  match ps with
  | p0 :: _ :: _ => if forallb (poly_eqb p0) ps then [p0] else ps
  | _ => ps
  end.

(** Settings of the constructor (enum_poly_params.py:50-79) that affect the enumeration. *)
Record enum_settings := {
  e_iters : Z; e_exp_only : bool; e_avoid_roots : bool; e_gen_cf : bool; e_avoid_zero_b : bool }.

(** One yielded value (enum_poly_params.py:136-144): the pair, and with should_gen_contfrac the shared ContFrac object
    in the state it has at that moment. *)
Inductive item := IPair (pas pbs : list poly) | ICF (c : contfrac) (pas pbs : list poly).

Section Gen.
  Variable rd : Q -> Q.               (* working precision of mpmath *)
  Variable fsqrt : Z -> Q.
  Variable st : enum_settings.
  (** manipulate_poly of the class: true for 'a', false for 'b' *)
  Variable manip : bool -> list poly -> res (list (list poly)).

  (** enum_poly_params.py:120-144 — body of the innermost loop. The state is the shared ContFrac object and the loop
      variable [pas], which line 127 overwrites. The outcome lists the values yielded. gen_iterations of a freshly
      reinitialized object is the one of the base class (basic_representation_types.py:133-143, no approach info). *)
  Definition pair_body (c : contfrac) (pas pbs : list poly) : contfrac * list poly * list item * res unit :=
    if e_avoid_roots st && existsb (has_integer_roots fsqrt) pbs then (c, pas, [], Ok tt)
    else
      let pas := squeeze pas in
      let pbs := squeeze pbs in
      let slow := match pas, pbs with
                  | [a], [b] => e_exp_only st && (polynom_degree b >? 2 * polynom_degree a)
                  | _, _ => false
                  end in
      if slow then (c, pas, [], Ok tt)
      else if e_gen_cf st then
        match cf_reinitialize (Some pas) (Some pbs) None c with
        | (c1, Raise e) => (c1, pas, [], Raise e)
        | (c1, Ok _) =>
            match cf_gen0 rd (e_iters st) true c1 with
            | (c2, Raise (ZeroB _)) => (c2, pas, [], Ok tt)
            | (c2, Raise e) => (c2, pas, [], Raise e)
            | (c2, Ok _) => (c2, pas, [ICF c2 pas pbs], Ok tt)
            end
        end
      else (c, pas, [IPair pas pbs], Ok tt).

  (** enum_poly_params.py:120 — loop over the manipulated versions of one b choice *)
  Fixpoint pbs_loop (l : list (list poly)) (c : contfrac) (pas : list poly) : contfrac * list poly * list item * res unit :=
    match l with
    | [] => (c, pas, [], Ok tt)
    | pbs :: r =>
        match pair_body c pas pbs with
        | (c1, pas1, out, Raise e) => (c1, pas1, out, Raise e)
        | (c1, pas1, out, Ok _) => let '(c2, pas2, out2, x) := pbs_loop r c1 pas1 in (c2, pas2, out ++ out2, x)
        end
    end.
  (** enum_poly_params.py:117-119 — loop over the b choices. Simplification: the manipulated versions are computed as a
      whole before the first is used (they are a generator in the code). *)
  Fixpoint b_loop (l : list (list poly)) (c : contfrac) (pas : list poly) : contfrac * list poly * list item * res unit :=
    match l with
    | [] => (c, pas, [], Ok tt)
    | pre :: r =>
        match manip false pre with
        | Raise e => (c, pas, [], Raise e)
        | Ok versions =>
            match pbs_loop versions c pas with
            | (c1, pas1, out, Raise e) => (c1, pas1, out, Raise e)
            | (c1, pas1, out, Ok _) => let '(c2, pas2, out2, x) := b_loop r c1 pas1 in (c2, pas2, out ++ out2, x)
            end
        end
    end.
  (** enum_poly_params.py:113-116 *)
  Fixpoint pas_loop (bs : list (list poly)) (l : list (list poly)) (c : contfrac) : contfrac * list item * res unit :=
    match l with
    | [] => (c, [], Ok tt)
    | pas :: r =>
        match b_loop bs c pas with
        | (c1, _, out, Raise e) => (c1, out, Raise e)
        | (c1, _, out, Ok _) => let '(c2, out2, x) := pas_loop bs r c1 in (c2, out ++ out2, x)
        end
    end.
  (** enum_poly_params.py:109-112 *)
  Fixpoint a_loop (bs : list (list poly)) (l : list (list poly)) (c : contfrac) : contfrac * list item * res unit :=
    match l with
    | [] => (c, [], Ok tt)
    | pre :: r =>
        match manip true pre with
        | Raise e => (c, [], Raise e)
        | Ok versions =>
            match pas_loop bs versions c with
            | (c1, out, Raise e) => (c1, out, Raise e)
            | (c1, out, Ok _) => let '(c2, out2, x) := a_loop bs r c1 in (c2, out ++ out2, x)
            end
        end
    end.
  (** enum_poly_params.py:91-144 — all the values yielded by polys_generator, in order, and how the generator ends *)
  Definition polys_generator (target : option Q) (range_a range_b : prange) : list item * res unit :=
    match cf_new (Flat [1]) (Flat [1]) (e_avoid_zero_b st) None None target false with
    | Raise e => ([], Raise e)
    | Ok c => let '(_, out, x) := a_loop (choices range_b) (choices range_a) c in (out, x)
    end.
End Gen.

(** enum_poly_params.py:187-189 — BasicEnumPolyParams.manipulate_poly *)
Definition manip_normal (is_a : bool) (p : list poly) : res (list (list poly)) := Ok [p].

(** enum_poly_params.py:208-224 — IndexedParameterEnumPolyParams.manipulate_poly. [ibinom n j] is
    [int(scipy.special.binom(n, j))]. *)
Definition indexed_one (ibinom : Z -> Z -> Z) (p : poly) : poly :=
  let deg := Z.of_nat (length p) - 1 in
  fold_left (fun acc (ia : Z * Z) =>
      let '(i, a_i) := ia in
      if a_i =? 0 then acc
      else map (fun jx : Z * Z => snd jx + a_i * ibinom deg (fst jx) * i ^ (deg - fst jx))
               (combine (zrange 0 (deg + 1)) acc))
    (combine (zrange 0 (deg + 1)) p) (repeat 0 (length p)).
(** enum_poly_params.py:208-224 *)
Definition manip_indexed (ibinom : Z -> Z -> Z) (is_a : bool) (p : list poly) : res (list (list poly)) :=
  Ok [map (indexed_one ibinom) p].

(** itertools.combinations. [python or library primitive, used at enum_poly_params.py:254] *)
Fixpoint combos {A} (k : nat) (l : list A) : list (list A) :=
  match l with
  | [] => match k with O => [[]] | S _ => [] end
  | x :: r => match k with O => [[]] | S k' => map (cons x) (combos k' r) ++ combos k r end
  end.
(** itertools.combinations_with_replacement. [python or library primitive, used at enum_poly_params.py:256] *)
Fixpoint combos_wr {A} (k : nat) : list A -> list (list A) :=
  match k with
  | O => fun _ => [[]]
  | S k' => fix go (l : list A) :=
      match l with
      | [] => []
      | x :: r => map (cons x) (combos_wr k' (x :: r)) ++ go r
      end
  end.
(** itertools.permutations(l, len(l)): by position. [python or library primitive, used at enum_poly_params.py:261] *)
Fixpoint picks {A} (l : list A) : list (A * list A) :=
  match l with
  | [] => []
  | x :: r => (x, r) :: map (fun p => (fst p, x :: snd p)) (picks r)
  end.
(** python or library primitive, used at enum_poly_params.py:261 *)
Fixpoint perms {A} (n : nat) (l : list A) : list (list A) :=
  match n with
  | O => [[]]
  | S n' => flat_map (fun p => map (cons (fst p)) (perms n' (snd p))) (picks l)
  end.

Notation mask := (list Z) (only parsing).
(** python or library primitive, used at enum_poly_params.py:261 *)
Definition masks_dec : forall a b : list mask, {a = b} + {a <> b} := list_eq_dec (list_eq_dec Z.eq_dec).

(** [mask.index(i)] for i in mask. [python or library primitive, used at enum_poly_params.py:271] *)
Fixpoint index_of (i : Z) (m : mask) : Z :=
  match m with [] => 0 | x :: r => if x =? i then 0 else 1 + index_of i r end.
(** enum_poly_params.py:268-273 — _apply_poly_template_on_coeffs_list *)
Definition apply_mask (n : Z) (p : poly) (m : mask) : res poly :=
  mapM (fun i => if existsb (Z.eqb i) m then py_nth p (index_of i m) else Ok 0) (zrange 0 n).
(** enum_poly_params.py:268-273 *)
Definition apply_masks (n : Z) (ps : list poly) (ms : list mask) : res (list poly) :=
  mapM (fun pm => apply_mask n (fst pm) (snd pm)) (combine ps ms).

(** enum_poly_params.py:250-266 — SparseParameterEnumPolyParams.manipulate_poly. [set_order] is the unspecified
    iteration order of the python set of line 261. *)
Definition manip_sparse (set_order : list (list mask) -> list (list mask)) (n_a n_b : Z) (is_a : bool) (ps : list poly)
  : res (list (list poly)) :=
  match ps with
  | [] => Raise IndexError
  | p0 :: _ =>
      let k := length p0 in
      let n := if is_a then n_a else n_b in
      let single := combos k (zrange 0 n) in
      let sorted := combos_wr (length ps) single in
      let groups := map (fun ms => set_order (nodup masks_dec (perms (length ps) ms))) sorted in
      mapM (apply_masks n ps) (concat groups)
  end.

(** enum_poly_params.py:244-245 — len_factor_func of the sparse class; range_a[0] of an empty list raises. *)
Definition sparse_factor (ibinom : Z -> Z -> Z) (n_a n_b : Z) (range_a range_b : prange) : res Z :=
  match range_a, range_b with
  | ra :: _, rb :: _ => Ok (ibinom n_a (Z.of_nat (length ra)) * ibinom n_b (Z.of_nat (length rb)))
  | _, _ => Raise IndexError
  end.

(** Independent specification of the files that process_and_compare.py reads. *)
From Coq Require Import Ascii String ZArith QArith List Bool.
From Verif Require Import PyBase Spec_ContFrac Spec_ULCD Spec_Results.
Import ListNotations.
Local Open Scope Z_scope.
Local Open Scope list_scope.

(** ---- how python writes lists and tuples ---- *)
Fixpoint sep_by (sep : list ascii) (xs : list (list ascii)) : list ascii :=
  match xs with [] => [] | [x] => x | x :: r => x ++ sep ++ sep_by sep r end.
Definition list_str (xs : list (list ascii)) : list ascii := chars "[" ++ sep_by (chars ", ") xs ++ chars "]".
Definition tuple_str (xs : list (list ascii)) : list ascii :=
  chars "(" ++ sep_by (chars ", ") xs ++ match xs with [_] => chars ",)" | _ => chars ")" end.
Definition quoted (s : list ascii) : list ascii := chars "'" ++ s ++ chars "'".
(** a polynomial, and an interlaced sequence of polynomials, as tuples or as lists *)
Definition poly_tuple (p : list Z) : list ascii := tuple_str (map int_chars p).
Definition polys_tuple (ps : list (list Z)) : list ascii := tuple_str (map poly_tuple ps).
Definition polys_list (ps : list (list Z)) : list ascii := list_str (map (fun p => list_str (map int_chars p)) ps).

(** ---- files of old results ---- *)
(** One result: the polynomials, the number of the function, u, l, c, d, and further columns. A single polynomial may be
    written without the outer tuple ([flat]). *)
Record old_result := { old_a : list (list Z); old_b : list (list Z); old_func : Z; old_u : Z; old_l : Z; old_c : Z; old_d : Z;
                       old_flat_a : bool; old_flat_b : bool; old_rest : list (list ascii) }.
Definition old_polys (flat : bool) (ps : list (list Z)) : list ascii :=
  match flat, ps with true, [p] => poly_tuple p | _, _ => polys_tuple ps end.
Definition old_row (r : old_result) : list (list ascii) :=
  [old_polys (old_flat_a r) (old_a r); old_polys (old_flat_b r) (old_b r); int_chars (old_func r);
   int_chars (old_u r); int_chars (old_l r); int_chars (old_c r); int_chars (old_d r)] ++ old_rest r.
(** The header has the functions in its second field and may have more fields; the second row has the titles of the columns. *)
Definition old_file (first : list ascii) (fs : list (list ascii)) (more : list (list ascii)) (titles : list (list ascii))
    (rs : list old_result) : list (list (list ascii)) :=
  (first :: list_str (map quoted fs) :: more) :: titles :: map old_row rs.
(** The target: what the caller says, else the fourth field of the header, else pi. None: there is a third field but no
    fourth. *)
Definition old_target (given : option (list ascii)) (more : list (list ascii)) : option (list ascii) :=
  match given, more with
  | Some (c :: t), _ => Some (c :: t)
  | _, [] => Some (chars "pi")
  | _, [_] => None
  | _, _ :: [] :: _ => Some (chars "pi")
  | _, _ :: t :: _ => Some t
  end.
(** A flat single polynomial must have a coefficient: an empty tuple is not taken for a polynomial. *)
Definition proper (r : old_result) : Prop :=
  old_a r <> [] /\ old_b r <> [] /\
  (old_flat_a r = true -> old_a r <> [[]]) /\ (old_flat_b r = true -> old_b r <> [[]]).

(** The functions x, x**2, ..., x**5: the name, and the expression *)
Definition power_name (n : Z) : list ascii := if n =? 1 then chars "lambda x: x" else chars "lambda x: x**" ++ int_chars n.
Definition power_tree (n : Z) : ptree := if n =? 1 then TArg else TPow TArg n.
(** The equation of a result: a text for (u/x + x/l + c)/d, and that power of the fraction (its first coefficients) which
    the number of the function stands for in the list of functions of the file. *)
Definition old_equation (shown : list ascii) (fs : list (list ascii)) (r : old_result) (eqn : list ascii) : Prop :=
  exists n e, 1 <= n <= 5 /\ py_nth fs (old_func r) = Ok (power_name n) /\
    (forall x, ~ (x == 0)%Q -> (exp_val x e == ulcd_fun (old_u r, old_l r, old_c r, old_d r) x)%Q) /\
    eqn = exp_text shown e ++ chars " = " ++
          ptree_text (power_tree n) (cf_text (icoef (old_a r) 0) (icoefs (old_a r) (old_b r) [1; 2; 3; 4])).
(** some partial numerator among the first 400 is zero *)
Definition zero_b (b : list (list Z)) : Prop := exists i, 1 <= i <= 400 /\ icoef b i = 0.

(** ---- characters taken off both ends ---- *)
Definition trimmed (cs : list ascii) (s m : list ascii) : Prop :=
  exists p q, s = p ++ m ++ q /\ Forall (fun c => In c cs) p /\ Forall (fun c => In c cs) q /\
    (forall c r, m = c :: r -> ~ In c cs) /\ (forall c r, m = r ++ [c] -> ~ In c cs).

(** ---- triples of integers in a text ---- *)
(** an integer: a sign and digits, leading zeros allowed *)
Fixpoint decimal (ds : list ascii) (acc : Z) : option Z :=
  match ds with
  | [] => Some acc
  | c :: r => let k := Z.of_nat (nat_of_ascii c) - 48 in if (0 <=? k) && (k <=? 9) then decimal r (10 * acc + k) else None
  end.
Definition int_lit (s : list ascii) (z : Z) : Prop :=
  exists ds n, ds <> [] /\ decimal ds 0 = Some n /\ (s = ds /\ z = n \/ s = chars "-" ++ ds /\ z = - n).
Definition blank1 (s : list ascii) : Prop := s = [] \/ s = chars " ".
Definition triple_lit (s : list ascii) (p : list Z) : Prop :=
  exists s1 s2 s3 w1 w2 x y z, s = chars "[" ++ s1 ++ chars "," ++ w1 ++ s2 ++ chars "," ++ w2 ++ s3 ++ chars "]" /\
    p = [x; y; z] /\ int_lit s1 x /\ int_lit s2 y /\ int_lit s3 z /\ blank1 w1 /\ blank1 w2.
(** the triples from left to right *)
Inductive scan : list ascii -> list (list Z) -> Prop :=
| scan_nil : scan [] []
| scan_hit t p s l : triple_lit t p -> scan s l -> scan (t ++ s) (p :: l)
| scan_skip c s l : (forall t p r, c :: s = t ++ r -> ~ triple_lit t p) -> scan s l -> scan (c :: s) l.

(** ---- rows of continued fractions with a formula ---- *)
(** blanks; the characters with which a formula may begin *)
Definition blanks : list ascii := map ascii_of_nat [9; 10; 11; 12; 13; 28; 29; 30; 31; 32]%nat.
Definition formula_start : list ascii := chars "0123456789+-*/x ()".
(** the same text in small letters *)
Definition in_small (s t : list ascii) : Prop :=
  Forall2 (fun a b => nat_of_ascii b = let n := nat_of_ascii a in if (65 <=? n)%nat && (n <=? 90)%nat then (n + 32)%nat else n) s t.
(** a decimal number *)
Definition all_digits (ds : list ascii) : Prop := ds <> [] /\ Forall (fun c => In c (chars "0123456789")) ds.
Definition number_lit (s : list ascii) : Prop :=
  exists sign ds fr, s = sign ++ ds ++ fr /\ (sign = [] \/ sign = chars "-") /\ all_digits ds /\
    (fr = [] \/ exists es, fr = chars "." ++ es /\ all_digits es).
(** The row stands for the fraction of a and b, whose value is conjectured to be the formula f at x. *)
Definition cf_row (evals : list ascii -> bool) (row : list (list ascii)) (a b : list (list Z)) (f x : list ascii) : Prop :=
  exists ta tb tf tx more y, row = ta :: tb :: tf :: tx :: more /\ scan ta a /\ a <> [] /\ scan tb b /\ b <> [] /\
    trimmed blanks tf f /\ (exists c r, f = c :: r /\ In c formula_start) /\ evals (chars "lambda x: " ++ f) = true /\
    trimmed blanks tx y /\ in_small y x /\ (x = chars "pi" \/ x = chars "e" \/ number_lit x).
(** The row ends although everything in it is in order. *)
Definition cut_row (evals : list ascii -> bool) (row : list (list ascii)) : Prop :=
  row = [] \/
  (exists ta a, row = [ta] /\ scan ta a /\ a <> []) \/
  (exists ta a tb b, row = [ta; tb] /\ scan ta a /\ a <> [] /\ scan tb b /\ b <> []) \/
  (exists ta a tb b tf f, row = [ta; tb; tf] /\ scan ta a /\ a <> [] /\ scan tb b /\ b <> [] /\
    trimmed blanks tf f /\ (exists c r, f = c :: r /\ In c formula_start) /\ evals (chars "lambda x: " ++ f) = true).

(** ---- the figures of an analysis ---- *)
(** figure number i of the file NAME in a directory ([]: the current one): its path, and its title *)
Definition figure_of (dir name : list ascii) (i : Z) : list ascii * list ascii :=
  (match dir with [] => [] | _ => dir ++ chars "/" end ++ name ++ chars "-" ++ int_chars i ++ chars ".png",
   name ++ chars " - " ++ int_chars i ++ chars "th row").

(** ---- where a fit starts ---- *)
(** [k] is 500 or what is left of it after some halvings, each of them because the error there was small; the error at [k]
    is not small, or [k] is 0. *)
Inductive halved {E} (small : E -> Prop) (errors : list E) : Z -> Z -> Prop :=
| hv_stop k e : nth_error errors (Z.to_nat k) = Some e -> ~ small e \/ k = 0 -> halved small errors k k
| hv_half k e m : nth_error errors (Z.to_nat k) = Some e -> small e -> 0 < k -> halved small errors (k / 2) m -> halved small errors k m.

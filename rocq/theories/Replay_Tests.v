(** The tests of the repository on the model: a check of the transcription, not a proof of anything. Each example takes the arguments and the
    expected result from the parametrization in tests/ (by a script that reads the file); "contradicts" marks those where the code at this commit
    does something else than its test expects. *)
From Coq Require Import ZArith QArith List Bool.
From Verif Require Import PyBase Rnd Utils_Model ContFrac_Model Enum_Model Enum_Roots Spec_Enum ULCD_Model Rational_Model.
Import ListNotations.
Open Scope Z_scope.

(** equal as sets *)
Definition same_set {A} (dec : forall a b : A, {a = b} + {a <> b}) (l m : list A) : bool :=
  forallb (fun x => if in_dec dec x m then true else false) l && forallb (fun x => if in_dec dec x l then true else false) m.
Definition pair_dec : forall a b : list (list Z) * list (list Z), {a = b} + {a <> b}.
Proof. decide equality; apply (list_eq_dec (list_eq_dec Z.eq_dec)). Defined.
Definition u4_dec : forall a b : Z * Z * Z * Z, {a = b} + {a <> b}.
Proof. decide equality; [apply Z.eq_dec|]. decide equality; [apply Z.eq_dec|]. decide equality; apply Z.eq_dec. Defined.
Definition pq_dec : forall a b : list Z * list Z, {a = b} + {a <> b}.
Proof. decide equality; apply (list_eq_dec Z.eq_dec). Defined.
(** the object of the fixtures: num_of_iterations=10, enum_only_exp_conv=False, avoid_int_roots=True, should_gen_contfrac=True, avoid_zero_b=True, and
    80 digits (tests/test_enum_poly_params.py:5-9) *)
Definition replay_settings : enum_settings := {| e_iters := 10; e_exp_only := false; e_avoid_roots := true; e_gen_cf := true; e_avoid_zero_b := true |}.
Definition generated (manip : bool -> list poly -> res (list (list poly))) (ra rb : prange) : res (list (list (list Z) * list (list Z))) :=
  let '(l, r) := polys_generator (rnd 269) isqrt53 replay_settings manip None ra rb in
  let* _ := r in Ok (flat_map (fun i => match i with ICF _ a b => [(a, b)] | IPair _ _ => [] end) l).
Definition generates manip ra rb expected : bool := match generated manip ra rb with Ok l => same_set pair_dec l expected | Raise _ => false end.

(** tests/test_utils.py:26-29 *)
Example replay_gcd : py_gcd 64 1480 276 = Some 4 /\ py_gcd 64 3 0 = Some 3 /\ py_gcd 64 1 5 = Some 1 /\ py_gcd 64 6 (-4) = Some (-2).
Proof. vm_compute. repeat split; reflexivity. Qed.
(** tests/test_utils.py:36-39 *)
Example replay_subs : subs_in_polynom [1; 2; 3; 4; 5] 7 = 13539 /\ subs_in_polynom [1; 2; 3; 4; 5] (-5) = 2691 /\ subs_in_polynom [1; (-2); 0; (-4); 5] 3 = 292 /\ subs_in_polynom [1; (-2); 0; (-4); 5] (-5) = 3636.
Proof. vm_compute. repeat split; reflexivity. Qed.
(** tests/test_enum_poly_params.py:13 contradicts: expected True, the root is negative *)
Example replay_roots_0 : has_integer_roots isqrt53 [0; 0; 10; 5; 0; 0] = false.
Proof. vm_compute. reflexivity. Qed.
(** tests/test_enum_poly_params.py:14 contradicts: expected True, the root is negative *)
Example replay_roots_1 : has_integer_roots isqrt53 [10; 5] = false.
Proof. vm_compute. reflexivity. Qed.
(** tests/test_enum_poly_params.py:15 *)
Example replay_roots_2 : has_integer_roots isqrt53 [(-1); 3; 1] = false.
Proof. vm_compute. reflexivity. Qed.
(** tests/test_enum_poly_params.py:21-22 *)
Example replay_degree : polynom_degree [0; 1; 1; 0; 0] = 2.
Proof. vm_compute. reflexivity. Qed.
(** tests/test_enum_poly_params.py:26-27 *)
Example replay_factor_out : factor_out [0; 0; 10; 5; 0; 0] = [10; 5] /\ factor_out [0; 0; 0; 0] = [].
Proof. vm_compute. repeat split; reflexivity. Qed.
(** tests/test_enum_poly_params.py:34-89 *)
Example replay_basic_0 : generates manip_normal [[((-1), 2); ((-2), 1); (1, 3)]] [[(1, 4)]] [([[(-1); (-2); 1]], [[1]]); ([[(-1); (-2); 1]], [[2]]); ([[(-1); (-2); 1]], [[3]]); ([[(-1); (-2); 2]], [[1]]); ([[(-1); (-2); 2]], [[2]]); ([[(-1); (-2); 2]], [[3]]); ([[(-1); (-1); 1]], [[1]]); ([[(-1); (-1); 1]], [[2]]); ([[(-1); (-1); 1]], [[3]]); ([[(-1); (-1); 2]], [[1]]); ([[(-1); (-1); 2]], [[2]]); ([[(-1); (-1); 2]], [[3]]); ([[(-1); 0; 1]], [[1]]); ([[(-1); 0; 1]], [[2]]); ([[(-1); 0; 1]], [[3]]); ([[(-1); 0; 2]], [[1]]); ([[(-1); 0; 2]], [[2]]); ([[(-1); 0; 2]], [[3]]); ([[0; (-2); 1]], [[1]]); ([[0; (-2); 1]], [[2]]); ([[0; (-2); 1]], [[3]]); ([[0; (-2); 2]], [[1]]); ([[0; (-2); 2]], [[2]]); ([[0; (-2); 2]], [[3]]); ([[0; (-1); 1]], [[1]]); ([[0; (-1); 1]], [[2]]); ([[0; (-1); 1]], [[3]]); ([[0; (-1); 2]], [[1]]); ([[0; (-1); 2]], [[2]]); ([[0; (-1); 2]], [[3]]); ([[0; 0; 1]], [[1]]); ([[0; 0; 1]], [[2]]); ([[0; 0; 1]], [[3]]); ([[0; 0; 2]], [[1]]); ([[0; 0; 2]], [[2]]); ([[0; 0; 2]], [[3]]); ([[1; (-2); 1]], [[1]]); ([[1; (-2); 1]], [[2]]); ([[1; (-2); 1]], [[3]]); ([[1; (-2); 2]], [[1]]); ([[1; (-2); 2]], [[2]]); ([[1; (-2); 2]], [[3]]); ([[1; (-1); 1]], [[1]]); ([[1; (-1); 1]], [[2]]); ([[1; (-1); 1]], [[3]]); ([[1; (-1); 2]], [[1]]); ([[1; (-1); 2]], [[2]]); ([[1; (-1); 2]], [[3]]); ([[1; 0; 1]], [[1]]); ([[1; 0; 1]], [[2]]); ([[1; 0; 1]], [[3]]); ([[1; 0; 2]], [[1]]); ([[1; 0; 2]], [[2]]); ([[1; 0; 2]], [[3]])] = true.
Proof. vm_compute. reflexivity. Qed.
(** tests/test_enum_poly_params.py:90-99 *)
Example replay_basic_1 : generates manip_normal [[((-1), 1); ((-2), (-1))]; [(6, 8)]] [[(1, 2)]; [(4, 6)]] [([[(-1); (-2)]; [6]], [[1]; [4]]); ([[(-1); (-2)]; [6]], [[1]; [5]]); ([[(-1); (-2)]; [7]], [[1]; [4]]); ([[(-1); (-2)]; [7]], [[1]; [5]]); ([[0; (-2)]; [6]], [[1]; [4]]); ([[0; (-2)]; [6]], [[1]; [5]]); ([[0; (-2)]; [7]], [[1]; [4]]); ([[0; (-2)]; [7]], [[1]; [5]])] = true.
Proof. vm_compute. reflexivity. Qed.
(** tests/test_enum_poly_params.py:100-102 contradicts: (4, 2) is not left out, its root is negative *)
Example replay_basic_2 : generates manip_normal [[(1, 2)]] [[(4, 5); (2, 4)]] [([[1]], [[4; 3]])] = false.
Proof. vm_compute. reflexivity. Qed.
(** tests/test_enum_poly_params.py:100-102 with what the code yields *)
Example replay_basic_2_code : generates manip_normal [[(1, 2)]] [[(4, 5); (2, 4)]] [([[1]], [[4; 2]]); ([[1]], [[4; 3]])] = true.
Proof. vm_compute. reflexivity. Qed.
(** tests/test_enum_poly_params.py:113-118 *)
Example replay_indexed_0 : generates (manip_indexed (fun n k => pascal (Z.to_nat n) (Z.to_nat k))) [[(1, 3); (9, 10)]] [[(4, 5); (2, 4); (1, 2)]] [([[9; 10]], [[6; 8; 7]]); ([[9; 10]], [[7; 10; 8]]); ([[9; 11]], [[6; 8; 7]]); ([[9; 11]], [[7; 10; 8]])] = true.
Proof. vm_compute. reflexivity. Qed.
(** tests/test_enum_poly_params.py:132-145 *)
Example replay_sparse_0 : generates (manip_sparse (fun l => l) 3 3) [[(1, 3); (9, 10)]] [[(4, 5); (2, 4); (1, 2)]] [([[0; 1; 9]], [[4; 2; 1]]); ([[0; 1; 9]], [[4; 3; 1]]); ([[0; 2; 9]], [[4; 2; 1]]); ([[0; 2; 9]], [[4; 3; 1]]); ([[1; 0; 9]], [[4; 2; 1]]); ([[1; 0; 9]], [[4; 3; 1]]); ([[1; 9; 0]], [[4; 2; 1]]); ([[1; 9; 0]], [[4; 3; 1]]); ([[2; 0; 9]], [[4; 2; 1]]); ([[2; 0; 9]], [[4; 3; 1]]); ([[2; 9; 0]], [[4; 2; 1]]); ([[2; 9; 0]], [[4; 3; 1]])] = true.
Proof. vm_compute. reflexivity. Qed.
(** tests/test_enum_poly_params.py:146-172 *)
Example replay_sparse_1 : generates (manip_sparse (fun l => l) 2 3) [[(1, 3)]; [(6, 7)]] [[(10, 11)]] [([[0; 1]; [0; 6]], [[0; 0; 10]]); ([[0; 1]; [0; 6]], [[0; 10; 0]]); ([[0; 1]; [0; 6]], [[10; 0; 0]]); ([[0; 1]; [6; 0]], [[0; 0; 10]]); ([[0; 1]; [6; 0]], [[0; 10; 0]]); ([[0; 1]; [6; 0]], [[10; 0; 0]]); ([[0; 2]; [0; 6]], [[0; 0; 10]]); ([[0; 2]; [0; 6]], [[0; 10; 0]]); ([[0; 2]; [0; 6]], [[10; 0; 0]]); ([[0; 2]; [6; 0]], [[0; 0; 10]]); ([[0; 2]; [6; 0]], [[0; 10; 0]]); ([[0; 2]; [6; 0]], [[10; 0; 0]]); ([[1; 0]; [0; 6]], [[0; 0; 10]]); ([[1; 0]; [0; 6]], [[0; 10; 0]]); ([[1; 0]; [0; 6]], [[10; 0; 0]]); ([[1; 0]; [6; 0]], [[0; 0; 10]]); ([[1; 0]; [6; 0]], [[0; 10; 0]]); ([[1; 0]; [6; 0]], [[10; 0; 0]]); ([[2; 0]; [0; 6]], [[0; 0; 10]]); ([[2; 0]; [0; 6]], [[0; 10; 0]]); ([[2; 0]; [0; 6]], [[10; 0; 0]]); ([[2; 0]; [6; 0]], [[0; 0; 10]]); ([[2; 0]; [6; 0]], [[0; 10; 0]]); ([[2; 0]; [6; 0]], [[10; 0; 0]])] = true.
Proof. vm_compute. reflexivity. Qed.
(** tests/test_lhs_evaluators.py:59-72 *)
Example replay_ulcd_0 : match (let* en := uenum_new [RSeq [(-1); 2]; RSeq [(-1); 2]; RSeq [(-1); 2]; RSeq [(-1); 2]] 1 in ugen_list (rnd 53) en) with Ok l => same_set u4_dec (map fst l) [((-1), (-1), 0, (-1)); ((-1), (-1), 0, 1); ((-1), 1, 0, (-1)); ((-1), 1, 0, 1); (0, (-1), 0, (-1)); (0, (-1), 0, 1); (0, 1, 0, (-1)); (0, 1, 0, 1); (1, (-1), 0, (-1)); (1, (-1), 0, 1); (1, 1, 0, (-1)); (1, 1, 0, 1)] | Raise _ => false end = true.
Proof. vm_compute. reflexivity. Qed.
(** tests/test_lhs_evaluators.py:73-79 *)
Example replay_ulcd_1 : match (let* en := uenum_new [RSeq [1; 2]; RSeq [1; 2]; RSeq [(-3); 5]; RSeq [(-2); 2]] 1 in ugen_list (rnd 53) en) with Ok l => same_set u4_dec (map fst l) [(1, 1, (-1), (-2)); (1, 1, 0, (-2)); (1, 1, 0, (-1)); (1, 1, 0, 1); (1, 1, 1, (-2))] | Raise _ => false end = true.
Proof. vm_compute. reflexivity. Qed.
(** tests/test_lhs_evaluators.py:88-149 *)
Example replay_rational_0 : match (let* en := renum_new [((-1), 2); ((-1), 2)] [((-1), 2); ((-1), 2)] false 5 in renum_list KDecimal (rnd 136) en) with Ok l => same_set pq_dec (map (fun o => (rf_num o, rf_den o)) l) [([(-1); (-1)], [(-1); (-1)]); ([(-1); (-1)], [(-1); 0]); ([(-1); (-1)], [(-1); 1]); ([(-1); (-1)], [0; (-1)]); ([(-1); (-1)], [0; 1]); ([(-1); (-1)], [1; (-1)]); ([(-1); (-1)], [1; 0]); ([(-1); (-1)], [1; 1]); ([(-1); 0], [(-1); (-1)]); ([(-1); 0], [(-1); 1]); ([(-1); 0], [0; (-1)]); ([(-1); 0], [0; 1]); ([(-1); 0], [1; (-1)]); ([(-1); 0], [1; 1]); ([(-1); 1], [(-1); (-1)]); ([(-1); 1], [(-1); 0]); ([(-1); 1], [(-1); 1]); ([(-1); 1], [0; (-1)]); ([(-1); 1], [0; 1]); ([(-1); 1], [1; (-1)]); ([(-1); 1], [1; 0]); ([(-1); 1], [1; 1]); ([0; (-1)], [(-1); (-1)]); ([0; (-1)], [(-1); 0]); ([0; (-1)], [(-1); 1]); ([0; (-1)], [0; (-1)]); ([0; (-1)], [0; 1]); ([0; (-1)], [1; (-1)]); ([0; (-1)], [1; 0]); ([0; (-1)], [1; 1]); ([0; 1], [(-1); (-1)]); ([0; 1], [(-1); 0]); ([0; 1], [(-1); 1]); ([0; 1], [0; (-1)]); ([0; 1], [0; 1]); ([0; 1], [1; (-1)]); ([0; 1], [1; 0]); ([0; 1], [1; 1]); ([1; (-1)], [(-1); (-1)]); ([1; (-1)], [(-1); 0]); ([1; (-1)], [(-1); 1]); ([1; (-1)], [0; (-1)]); ([1; (-1)], [0; 1]); ([1; (-1)], [1; (-1)]); ([1; (-1)], [1; 0]); ([1; (-1)], [1; 1]); ([1; 0], [(-1); (-1)]); ([1; 0], [(-1); 1]); ([1; 0], [0; (-1)]); ([1; 0], [0; 1]); ([1; 0], [1; (-1)]); ([1; 0], [1; 1]); ([1; 1], [(-1); (-1)]); ([1; 1], [(-1); 0]); ([1; 1], [(-1); 1]); ([1; 1], [0; (-1)]); ([1; 1], [0; 1]); ([1; 1], [1; (-1)]); ([1; 1], [1; 0]); ([1; 1], [1; 1])] | Raise _ => false end = true.
Proof. vm_compute. reflexivity. Qed.
(** tests/test_lhs_evaluators.py:150-183 *)
Example replay_rational_1 : match (let* en := renum_new [((-1), 2); ((-1), 2)] [((-1), 2); ((-1), 2)] false 1 in renum_list KDecimal (rnd 136) en) with Ok l => same_set pq_dec (map (fun o => (rf_num o, rf_den o)) l) [([(-1); (-1)], [(-1); (-1)]); ([(-1); (-1)], [(-1); 0]); ([(-1); (-1)], [0; (-1)]); ([(-1); (-1)], [0; 1]); ([(-1); (-1)], [1; 0]); ([(-1); (-1)], [1; 1]); ([(-1); 0], [(-1); (-1)]); ([(-1); 0], [0; (-1)]); ([(-1); 0], [0; 1]); ([(-1); 0], [1; 1]); ([0; (-1)], [(-1); (-1)]); ([0; (-1)], [(-1); 0]); ([0; (-1)], [0; (-1)]); ([0; (-1)], [0; 1]); ([0; (-1)], [1; 0]); ([0; (-1)], [1; 1]); ([0; 1], [(-1); (-1)]); ([0; 1], [(-1); 0]); ([0; 1], [0; (-1)]); ([0; 1], [0; 1]); ([0; 1], [1; 0]); ([0; 1], [1; 1]); ([1; 0], [(-1); (-1)]); ([1; 0], [0; (-1)]); ([1; 0], [0; 1]); ([1; 0], [1; 1]); ([1; 1], [(-1); (-1)]); ([1; 1], [(-1); 0]); ([1; 1], [0; (-1)]); ([1; 1], [0; 1]); ([1; 1], [1; 0]); ([1; 1], [1; 1])] | Raise _ => false end = true.
Proof. vm_compute. reflexivity. Qed.
(** tests/test_lhs_evaluators.py:184-209 *)
Example replay_rational_2 : match (let* en := renum_new [((-1), 2); ((-1), 2)] [((-1), 2); ((-1), 2)] true 1 in renum_list KDecimal (rnd 136) en) with Ok l => same_set pq_dec (map (fun o => (rf_num o, rf_den o)) l) [([(-1); (-1)], [(-1); (-1)]); ([(-1); (-1)], [(-1); 0]); ([(-1); (-1)], [0; (-1)]); ([(-1); (-1)], [0; 1]); ([(-1); (-1)], [1; 0]); ([(-1); (-1)], [1; 1]); ([0; (-1)], [(-1); (-1)]); ([0; (-1)], [(-1); 0]); ([0; (-1)], [0; (-1)]); ([0; (-1)], [0; 1]); ([0; (-1)], [1; 0]); ([0; (-1)], [1; 1]); ([0; 1], [(-1); (-1)]); ([0; 1], [(-1); 0]); ([0; 1], [0; (-1)]); ([0; 1], [0; 1]); ([0; 1], [1; 0]); ([0; 1], [1; 1]); ([1; 1], [(-1); (-1)]); ([1; 1], [(-1); 0]); ([1; 1], [0; (-1)]); ([1; 1], [0; 1]); ([1; 1], [1; 0]); ([1; 1], [1; 1])] | Raise _ => false end = true.
Proof. vm_compute. reflexivity. Qed.

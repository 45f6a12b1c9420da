(** Model of the configuration files that come with the tests (/repo/tests/fixtures). A file is the list of its settings in
    file order, as configparser reads it (see Config_Model); comments are left out. No proofs. *)
From Coq Require Import Ascii String ZArith List Bool.
From Verif Require Import PyBase Hashtable_Model Results_Model Config_Model Consts_Model Main_Model Shipped_Model.
Import ListNotations.
Local Open Scope list_scope.

(** tests/fixtures/apery_sanitycheck_config.ini:3-79 *)
Definition fix_apery_sanitycheck : list (text * text) := ini
  [("is_test", "true");
   ("const", "apery");
   ("i", "3");
   ("ab_polys_type", "sparse");
   ("ab_polys_special_params", "[4, 7]");
   ("a_coeffs_range", "[[[2, 3], [8, 9], [10, 11], [3, 4]]]");
   ("b_coeffs_range", "[[[-2, -1], [4, 5]]]");
   ("gen_hashtable_only", "false");
   ("hashtable_num_of_iterations", "200");
   ("hashtable_precision", "8");
   ("first_filtering_num_of_iterations", "1000");
   ("first_filtering_precision", "10");
   ("second_filtering_max_num_of_iterations", "1200");
   ("second_filtering_precision", "13");
   ("third_filtering_max_num_of_iterations", "1500");
   ("third_filtering_precision", "20");
   ("lhs_type", "rationalfunc");
   ("lhs_params", "[[[5, 6]], [[0, 1], [2, 3]], false]");
   ("postproc_funcs_filter", "[""safe_inverse"", ""lambda x: x"", ""lambda x: x**2"", ""lambda x: safe_inverse(x**2)"", ""safe_sqrt"", ""lambda x: safe_inverse(safe_sqrt(x))""]");
   ("hashtable_file_operation", "generate");
   ("hashtable_file", "tests/result_data/hashtable_apery_sanity.pkl");
   ("print_surprising_nonexp_contfracs", "false")]%string.
(** tests/fixtures/apery_sanitycheck_with_big_lhs_config.ini:3-76 *)
Definition fix_apery_sanitycheck_with_big_lhs : list (text * text) := ini
  [("const", "apery");
   ("i", "3");
   ("ab_polys_type", "sparse");
   ("ab_polys_special_params", "[5, 8]");
   ("a_coeffs_range", "[[[2, 4], [8, 10], [10, 11], [3, 4]]]");
   ("b_coeffs_range", "[[[-2, -1], [4, 7]]]");
   ("gen_hashtable_only", "false");
   ("hashtable_num_of_iterations", "200");
   ("hashtable_precision", "8");
   ("first_filtering_num_of_iterations", "1000");
   ("first_filtering_precision", "10");
   ("second_filtering_max_num_of_iterations", "1200");
   ("second_filtering_precision", "13");
   ("third_filtering_max_num_of_iterations", "1500");
   ("third_filtering_precision", "20");
   ("lhs_type", "rationalfunc");
   ("lhs_params", "[[[5, 6], [0, 6]], [[0, 5], [2, 6]], false]");
   ("postproc_funcs_filter", "[""safe_inverse"", ""lambda x: x"", ""lambda x: x**2"", ""lambda x: safe_inverse(x**2)"", ""safe_sqrt"", ""lambda x: safe_inverse(safe_sqrt(x))""]");
   ("hashtable_file_operation", "generate");
   ("hashtable_file", "hashtable_apery_sanity.pkl");
   ("print_surprising_nonexp_contfracs", "False")]%string.
(** tests/fixtures/gen_hashtable_benchmark.ini:3-80 *)
Definition fix_gen_hashtable_benchmark : list (text * text) := ini
  [("is_test", "true");
   ("validate_hashtable_extend_no_replication", "false");
   ("const", "apery");
   ("i", "3");
   ("ab_polys_type", "sparse");
   ("ab_polys_special_params", "[4, 7]");
   ("a_coeffs_range", "[[[0, 4], [6, 9], [9, 11], [3, 4]]]");
   ("b_coeffs_range", "[[[-2, 1], [4, 7]]]");
   ("gen_hashtable_only", "true");
   ("hashtable_num_of_iterations", "200");
   ("hashtable_precision", "8");
   ("first_filtering_num_of_iterations", "1000");
   ("first_filtering_precision", "10");
   ("second_filtering_max_num_of_iterations", "1200");
   ("second_filtering_precision", "13");
   ("third_filtering_max_num_of_iterations", "1500");
   ("third_filtering_precision", "20");
   ("lhs_type", "rationalfunc");
   ("lhs_params", "[[[5, 6]], [[0, 1], [2, 3]], false]");
   ("postproc_funcs_filter", "[""safe_inverse"", ""lambda x: x"", ""lambda x: x**2"", ""lambda x: safe_inverse(x**2)"", ""safe_sqrt"", ""lambda x: safe_inverse(safe_sqrt(x))""]");
   ("hashtable_file_operation", "generate");
   ("hashtable_file", "tests/result_data/hashtable_benchmark.pkl");
   ("print_surprising_nonexp_contfracs", "false")]%string.
(** tests/fixtures/pi_sanitycheck_config.ini:3-72 *)
Definition fix_pi_sanitycheck : list (text * text) := ini
  [("const", "pi");
   ("i", "3");
   ("ab_polys_type", "normal");
   ("ab_polys_special_params", "none");
   ("a_coeffs_range", "[[[1, 2], [2, 3]]]");
   ("b_coeffs_range", "[[[0, 1], [0, 1], [1, 2]]]");
   ("gen_hashtable_only", "false");
   ("hashtable_num_of_iterations", "200");
   ("hashtable_precision", "8");
   ("first_filtering_num_of_iterations", "1000");
   ("first_filtering_precision", "10");
   ("second_filtering_max_num_of_iterations", "1200");
   ("second_filtering_precision", "13");
   ("third_filtering_max_num_of_iterations", "1500");
   ("third_filtering_precision", "20");
   ("lhs_type", "ulcd");
   ("lhs_params", "[[0, 1], [4, 5], [0, 1], [1, 2]]");
   ("postproc_funcs_filter", "[""lambda x: x"", ""safe_inverse"", ""lambda x: x**2"", ""lambda x: safe_inverse(x**2)"", ""safe_sqrt"", ""lambda x: safe_inverse(safe_sqrt(x))""]");
   ("hashtable_file_operation", "generate");
   ("hashtable_file", "hashtable_general.pkl");
   ("print_surprising_nonexp_contfracs", "False")]%string.
(** The files in tests/fixtures (tests/fixtures/pi_sanitycheck_config.ini:1 and the others) *)
Definition fixtures : list (text * list (text * text)) := map (fun '(n, f) => (txt n, f))
  [("apery_sanitycheck_config.ini", fix_apery_sanitycheck);
   ("apery_sanitycheck_with_big_lhs_config.ini", fix_apery_sanitycheck_with_big_lhs);
   ("gen_hashtable_benchmark.ini", fix_gen_hashtable_benchmark);
   ("pi_sanitycheck_config.ini", fix_pi_sanitycheck)]%string.

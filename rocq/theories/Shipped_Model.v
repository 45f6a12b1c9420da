(** Model of the configuration files that come with the program (/repo/config*.ini) and of the command line of main.py. A
    file is the list of its settings in file order, as configparser reads it (see Config_Model); comments are left out. No proofs. *)
From Coq Require Import Ascii String ZArith List Bool.
From Verif Require Import PyBase Hashtable_Model Results_Model Config_Model Consts_Model Main_Model.
Import ListNotations.
Local Open Scope list_scope.

(** A file given by the texts of its settings (config.ini:1-78) *)
Definition ini (l : list (string * string)) : list (text * text) := map (fun '(k, v) => (txt k, txt v)) l.

(** config.ini:3-78 *)
Definition ini_default : list (text * text) := ini
  [("const", "pi");
   ("i", "3");
   ("ab_polys_type", "normal");
   ("ab_polys_special_params", "none");
   ("a_coeffs_range", "[[[-4, 4], [-4, 4], [-4, 4]]]");
   ("b_coeffs_range", "[[[-4, 4], [-4, 4], [-4, 4]]]");
   ("validate_hashtable_extend_no_replication", "true");
   ("gen_hashtable_only", "auto");
   ("hashtable_num_of_iterations", "200");
   ("hashtable_precision", "8");
   ("first_filtering_num_of_iterations", "1000");
   ("first_filtering_precision", "10");
   ("second_filtering_max_num_of_iterations", "1200");
   ("second_filtering_precision", "13");
   ("third_filtering_max_num_of_iterations", "1500");
   ("third_filtering_precision", "20");
   ("lhs_type", "rationalfunc");
   ("lhs_params", "[[[-3, 3], [-3, 3], [-3, 3]], [[-3, 3], [-3, 3], [-3, 3]], true]");
   ("postproc_funcs_filter", "[""safe_inverse"", ""lambda x: x"", ""lambda x: x**2"", ""lambda x: safe_inverse(x**2)"", ""safe_sqrt"", ""lambda x: safe_inverse(safe_sqrt(x))""]");
   ("hashtable_file_operation", "use");
   ("hashtable_file", "hashtable_general.pkl");
   ("print_surprising_nonexp_contfracs", "False")]%string.
(** config_apery.ini:3-84 *)
Definition ini_apery : list (text * text) := ini
  [("const", "apery");
   ("i", "3");
   ("ab_polys_type", "sparse");
   ("ab_polys_special_params", "[5, 7]");
   ("a_coeffs_range", "[[[0, 5], [0, 5], [0, 5], [0, 5]]]");
   ("b_coeffs_range", "[[[-3, 4], [-3, 4]]]");
   ("validate_hashtable_extend_no_replication", "true");
   ("gen_hashtable_only", "false");
   ("hashtable_num_of_iterations", "200");
   ("hashtable_precision", "8");
   ("first_filtering_num_of_iterations", "1000");
   ("first_filtering_precision", "12");
   ("second_filtering_max_num_of_iterations", "1200");
   ("second_filtering_precision", "15");
   ("third_filtering_max_num_of_iterations", "1500");
   ("third_filtering_precision", "20");
   ("lhs_type", "rationalfunc");
   ("lhs_params", "[[[-9, 9], [-9, 9], [-9, 9]], [[-9, 9], [-9, 9], [-9, 9]], true]");
   ("postproc_funcs_filter", "[""safe_inverse"", ""lambda x: x"", ""lambda x: x**2"", ""lambda x: safe_inverse(x**2)"", ""safe_sqrt"", ""lambda x: safe_inverse(safe_sqrt(x))""]");
   ("hashtable_file_operation", "use");
   ("hashtable_file", "hashtable_apery.pkl");
   ("print_surprising_nonexp_contfracs", "False")]%string.
(** config_apery_extend_hashtable.ini:3-85 *)
Definition ini_apery_extend_hashtable : list (text * text) := ini
  [("const", "apery");
   ("i", "3");
   ("ab_polys_type", "sparse");
   ("ab_polys_special_params", "[5, 7]");
   ("a_coeffs_range", "[[[0, 7], [7, 7], [0, 7], [5, 8]]]");
   ("b_coeffs_range", "[[ [-3, 5], [-3, 5]]]");
   ("validate_hashtable_extend_no_replication", "true");
   ("gen_hashtable_only", "true");
   ("hashtable_num_of_iterations", "200");
   ("hashtable_precision", "8");
   ("first_filtering_num_of_iterations", "1000");
   ("first_filtering_precision", "12");
   ("second_filtering_max_num_of_iterations", "1200");
   ("second_filtering_precision", "15");
   ("third_filtering_max_num_of_iterations", "1500");
   ("third_filtering_precision", "20");
   ("lhs_type", "rationalfunc");
   ("lhs_params", "[[[-9, 9], [-9, 9], [-9, 9]], [[-9, 9], [-9, 9], [-9, 9]], true]");
   ("postproc_funcs_filter", "[""safe_inverse"", ""lambda x: x"", ""lambda x: x**2"", ""lambda x: safe_inverse(x**2)"", ""safe_sqrt"", ""lambda x: safe_inverse(safe_sqrt(x))""]");
   ("hashtable_file_operation", "expand");
   ("hashtable_file", "hashtable_apery.pkl");
   ("print_surprising_nonexp_contfracs", "False")]%string.
(** config_e_search_-4_to_5.ini:3-85 *)
Definition ini_e_search_m4_to_5 : list (text * text) := ini
  [("const", "pi");
   ("i", "3");
   ("ab_polys_type", "normal");
   ("ab_polys_special_params", "[5, 7]");
   ("a_coeffs_range", "[[[-2, 2], [-2, 2], [-2, 2]], [[-2, 2], [-2, 2], [-2, 2]]]");
   ("b_coeffs_range", "[[[-2, 2], [-2, 2], [-2, 2]], [[-2, 2], [-2, 2], [-2, 2]]]");
   ("validate_hashtable_extend_no_replication", "true");
   ("gen_hashtable_only", "auto");
   ("hashtable_num_of_iterations", "200");
   ("hashtable_precision", "8");
   ("first_filtering_num_of_iterations", "1000");
   ("first_filtering_precision", "12");
   ("second_filtering_max_num_of_iterations", "1200");
   ("second_filtering_precision", "15");
   ("third_filtering_max_num_of_iterations", "1500");
   ("third_filtering_precision", "20");
   ("lhs_type", "rationalfunc");
   ("lhs_params", "[[[-7, 8], [-7, 8], [-7, 8]], [[-7, 8], [-7, 8], [-7, 8]], true]");
   ("postproc_funcs_filter", "[""safe_inverse"", ""lambda x: x"", ""lambda x: x**2"", ""lambda x: safe_inverse(x**2)"", ""safe_sqrt"", ""lambda x: safe_inverse(safe_sqrt(x))""]");
   ("hashtable_file_operation", "use");
   ("hashtable_file", "hashtable_pi_-4_to_5.pkl");
   ("print_surprising_nonexp_contfracs", "False")]%string.
(** config_e_search_inter_cubic.ini:3-88 *)
Definition ini_e_search_inter_cubic : list (text * text) := ini
  [("const", "e");
   ("i", "3");
   ("ab_polys_type", "normal");
   ("ab_polys_special_params", "[5, 7]");
   ("a_coeffs_range", "[[[-2, 2], [-2, 2], [-2, 2]], [[-2, 2], [-2, 2], [-2, 2]]]");
   ("b_coeffs_range", "[[[-2, 2], [-2, 2], [-2, 2]], [[-2, 2], [-2, 2], [-2, 2]]]");
   ("validate_hashtable_extend_no_replication", "true");
   ("gen_hashtable_only", "auto");
   ("hashtable_num_of_iterations", "200");
   ("hashtable_precision", "8");
   ("first_filtering_num_of_iterations", "1000");
   ("first_filtering_precision", "12");
   ("second_filtering_max_num_of_iterations", "1200");
   ("second_filtering_precision", "15");
   ("third_filtering_max_num_of_iterations", "1500");
   ("third_filtering_precision", "20");
   ("lhs_type", "rationalfunc");
   ("lhs_params", "[[[-7, 8], [-7, 8], [-7, 8]], [[-7, 8], [-7, 8], [-7, 8]], true]");
   ("postproc_funcs_filter", "[""safe_inverse"", ""lambda x: x"", ""lambda x: x**2"", ""lambda x: safe_inverse(x**2)"", ""safe_sqrt"", ""lambda x: safe_inverse(safe_sqrt(x))""]");
   ("hashtable_file_operation", "use");
   ("hashtable_file", "hashtable_pi_interlaced_cubic.pkl");
   ("print_surprising_nonexp_contfracs", "False")]%string.
(** config_e_search_inter_lin.ini:3-85 *)
Definition ini_e_search_inter_lin : list (text * text) := ini
  [("const", "pi");
   ("i", "3");
   ("ab_polys_type", "normal");
   ("ab_polys_special_params", "[5, 7]");
   ("a_coeffs_range", "[[[-2, 2], [-2, 2], [-2, 2]], [[-2, 2], [-2, 2], [-2, 2]]]");
   ("b_coeffs_range", "[[[-2, 2], [-2, 2], [-2, 2]], [[-2, 2], [-2, 2], [-2, 2]]]");
   ("validate_hashtable_extend_no_replication", "true");
   ("gen_hashtable_only", "auto");
   ("hashtable_num_of_iterations", "200");
   ("hashtable_precision", "8");
   ("first_filtering_num_of_iterations", "1000");
   ("first_filtering_precision", "12");
   ("second_filtering_max_num_of_iterations", "1200");
   ("second_filtering_precision", "15");
   ("third_filtering_max_num_of_iterations", "1500");
   ("third_filtering_precision", "20");
   ("lhs_type", "rationalfunc");
   ("lhs_params", "[[[-7, 8], [-7, 8], [-7, 8]], [[-7, 8], [-7, 8], [-7, 8]], true]");
   ("postproc_funcs_filter", "[""safe_inverse"", ""lambda x: x"", ""lambda x: x**2"", ""lambda x: safe_inverse(x**2)"", ""safe_sqrt"", ""lambda x: safe_inverse(safe_sqrt(x))""]");
   ("hashtable_file_operation", "use");
   ("hashtable_file", "hashtable_pi_interlaced_linear.pkl");
   ("print_surprising_nonexp_contfracs", "False")]%string.
(** config_pi_-4_to_5.ini:3-87 *)
Definition ini_pi_m4_to_5 : list (text * text) := ini
  [("const", "pi");
   ("i", "3");
   ("ab_polys_type", "normal");
   ("ab_polys_special_params", "[5, 7]");
   ("a_coeffs_range", "[[[-7, 8], [-7, 8], [-7, 8]]]");
   ("b_coeffs_range", "[[[-7, 8], [-7, 8], [-7, 8]]]");
   ("validate_hashtable_extend_no_replication", "true");
   ("gen_hashtable_only", "auto");
   ("hashtable_num_of_iterations", "200");
   ("hashtable_precision", "8");
   ("first_filtering_num_of_iterations", "1000");
   ("first_filtering_precision", "12");
   ("second_filtering_max_num_of_iterations", "1200");
   ("second_filtering_precision", "15");
   ("third_filtering_max_num_of_iterations", "1500");
   ("third_filtering_precision", "20");
   ("lhs_type", "rationalfunc");
   ("lhs_params", "[[[-9, 9], [-9, 9], [-9, 9]], [[-9, 9], [-9, 9], [-9, 9]], true]");
   ("postproc_funcs_filter", "[""safe_inverse"", ""lambda x: x"", ""lambda x: x**2"", ""lambda x: safe_inverse(x**2)"", ""safe_sqrt"", ""lambda x: safe_inverse(safe_sqrt(x))""]");
   ("hashtable_file_operation", "generate");
   ("hashtable_file", "hashtable_pi_-4_to_5.pkl");
   ("print_surprising_nonexp_contfracs", "False")]%string.
(** config_pi_interlaced_cubic.ini:3-89 *)
Definition ini_pi_interlaced_cubic : list (text * text) := ini
  [("const", "pi");
   ("i", "3");
   ("ab_polys_type", "normal");
   ("ab_polys_special_params", "[5, 7]");
   ("a_coeffs_range", "[[[-2, 2], [-2, 2], [-2, 2]], [[-2, 2], [-2, 2], [-2, 2]]]");
   ("b_coeffs_range", "[[[-2, 2], [-2, 2], [-2, 2]], [[-2, 2], [-2, 2], [-2, 2]]]");
   ("validate_hashtable_extend_no_replication", "true");
   ("gen_hashtable_only", "auto");
   ("hashtable_num_of_iterations", "200");
   ("hashtable_precision", "8");
   ("first_filtering_num_of_iterations", "1000");
   ("first_filtering_precision", "12");
   ("second_filtering_max_num_of_iterations", "1200");
   ("second_filtering_precision", "15");
   ("third_filtering_max_num_of_iterations", "1500");
   ("third_filtering_precision", "20");
   ("lhs_type", "rationalfunc");
   ("lhs_params", "[[[-9, 9], [-9, 9], [-9, 9]], [[-9, 9], [-9, 9], [-9, 9]], true]");
   ("postproc_funcs_filter", "[""safe_inverse"", ""lambda x: x"", ""lambda x: x**2"", ""lambda x: safe_inverse(x**2)"", ""safe_sqrt"", ""lambda x: safe_inverse(safe_sqrt(x))""]");
   ("hashtable_file_operation", "generate");
   ("hashtable_file", "hashtable_pi_interlaced_cubic.pkl");
   ("print_surprising_nonexp_contfracs", "False")]%string.
(** config_pi_interlaced_linear.ini:3-84 *)
Definition ini_pi_interlaced_linear : list (text * text) := ini
  [("const", "pi");
   ("i", "3");
   ("ab_polys_type", "normal");
   ("ab_polys_special_params", "[5, 7]");
   ("a_coeffs_range", "[[[-4, 4], [-4, 4]], [[-4, 4], [-4, 4]]]");
   ("b_coeffs_range", "[[[-4, 4], [-4, 4]], [[-4, 4], [-4, 4]]]");
   ("validate_hashtable_extend_no_replication", "true");
   ("gen_hashtable_only", "auto");
   ("hashtable_num_of_iterations", "200");
   ("hashtable_precision", "8");
   ("first_filtering_num_of_iterations", "1000");
   ("first_filtering_precision", "12");
   ("second_filtering_max_num_of_iterations", "1200");
   ("second_filtering_precision", "15");
   ("third_filtering_max_num_of_iterations", "1500");
   ("third_filtering_precision", "20");
   ("lhs_type", "rationalfunc");
   ("lhs_params", "[[[-9, 9], [-9, 9], [-9, 9]], [[-9, 9], [-9, 9], [-9, 9]], true]");
   ("postproc_funcs_filter", "[""safe_inverse"", ""lambda x: x"", ""lambda x: x**2"", ""lambda x: safe_inverse(x**2)"", ""safe_sqrt"", ""lambda x: safe_inverse(safe_sqrt(x))""]");
   ("hashtable_file_operation", "generate");
   ("hashtable_file", "hashtable_pi_interlaced_linear.pkl");
   ("print_surprising_nonexp_contfracs", "False")]%string.
(** config_pi_search_-4_to_5.ini:3-85 *)
Definition ini_pi_search_m4_to_5 : list (text * text) := ini
  [("const", "pi");
   ("i", "3");
   ("ab_polys_type", "normal");
   ("ab_polys_special_params", "[5, 7]");
   ("a_coeffs_range", "[[[-2, 2], [-2, 2], [-2, 2]], [[-2, 2], [-2, 2], [-2, 2]]]");
   ("b_coeffs_range", "[[[-2, 2], [-2, 2], [-2, 2]], [[-2, 2], [-2, 2], [-2, 2]]]");
   ("validate_hashtable_extend_no_replication", "true");
   ("gen_hashtable_only", "auto");
   ("hashtable_num_of_iterations", "200");
   ("hashtable_precision", "8");
   ("first_filtering_num_of_iterations", "1000");
   ("first_filtering_precision", "12");
   ("second_filtering_max_num_of_iterations", "1200");
   ("second_filtering_precision", "15");
   ("third_filtering_max_num_of_iterations", "1500");
   ("third_filtering_precision", "20");
   ("lhs_type", "rationalfunc");
   ("lhs_params", "[[[-7, 8], [-7, 8], [-7, 8]], [[-7, 8], [-7, 8], [-7, 8]], true]");
   ("postproc_funcs_filter", "[""safe_inverse"", ""lambda x: x"", ""lambda x: x**2"", ""lambda x: safe_inverse(x**2)"", ""safe_sqrt"", ""lambda x: safe_inverse(safe_sqrt(x))""]");
   ("hashtable_file_operation", "use");
   ("hashtable_file", "hashtable_pi_-4_to_5.pkl");
   ("print_surprising_nonexp_contfracs", "False")]%string.
(** config_pi_search_inter_cubic.ini:3-85 *)
Definition ini_pi_search_inter_cubic : list (text * text) := ini
  [("const", "pi");
   ("i", "3");
   ("ab_polys_type", "normal");
   ("ab_polys_special_params", "[5, 7]");
   ("a_coeffs_range", "[[[-2, 2], [-2, 2], [-2, 2]], [[-2, 2], [-2, 2], [-2, 2]]]");
   ("b_coeffs_range", "[[[-2, 2], [-2, 2], [-2, 2]], [[-2, 2], [-2, 2], [-2, 2]]]");
   ("validate_hashtable_extend_no_replication", "true");
   ("gen_hashtable_only", "auto");
   ("hashtable_num_of_iterations", "200");
   ("hashtable_precision", "8");
   ("first_filtering_num_of_iterations", "1000");
   ("first_filtering_precision", "12");
   ("second_filtering_max_num_of_iterations", "1200");
   ("second_filtering_precision", "15");
   ("third_filtering_max_num_of_iterations", "1500");
   ("third_filtering_precision", "20");
   ("lhs_type", "rationalfunc");
   ("lhs_params", "[[[-7, 8], [-7, 8], [-7, 8]], [[-7, 8], [-7, 8], [-7, 8]], true]");
   ("postproc_funcs_filter", "[""safe_inverse"", ""lambda x: x"", ""lambda x: x**2"", ""lambda x: safe_inverse(x**2)"", ""safe_sqrt"", ""lambda x: safe_inverse(safe_sqrt(x))""]");
   ("hashtable_file_operation", "use");
   ("hashtable_file", "hashtable_pi_interlaced_cubic.pkl");
   ("print_surprising_nonexp_contfracs", "False")]%string.
(** config_pi_search_inter_lin.ini:3-85 *)
Definition ini_pi_search_inter_lin : list (text * text) := ini
  [("const", "pi");
   ("i", "3");
   ("ab_polys_type", "normal");
   ("ab_polys_special_params", "[5, 7]");
   ("a_coeffs_range", "[[[-2, 2], [-2, 2], [-2, 2]], [[-2, 2], [-2, 2], [-2, 2]]]");
   ("b_coeffs_range", "[[[-2, 2], [-2, 2], [-2, 2]], [[-2, 2], [-2, 2], [-2, 2]]]");
   ("validate_hashtable_extend_no_replication", "true");
   ("gen_hashtable_only", "auto");
   ("hashtable_num_of_iterations", "200");
   ("hashtable_precision", "8");
   ("first_filtering_num_of_iterations", "1000");
   ("first_filtering_precision", "12");
   ("second_filtering_max_num_of_iterations", "1200");
   ("second_filtering_precision", "15");
   ("third_filtering_max_num_of_iterations", "1500");
   ("third_filtering_precision", "20");
   ("lhs_type", "rationalfunc");
   ("lhs_params", "[[[-7, 8], [-7, 8], [-7, 8]], [[-7, 8], [-7, 8], [-7, 8]], true]");
   ("postproc_funcs_filter", "[""safe_inverse"", ""lambda x: x"", ""lambda x: x**2"", ""lambda x: safe_inverse(x**2)"", ""safe_sqrt"", ""lambda x: safe_inverse(safe_sqrt(x))""]");
   ("hashtable_file_operation", "use");
   ("hashtable_file", "hashtable_pi_interlaced_linear.pkl");
   ("print_surprising_nonexp_contfracs", "False")]%string.
(** The files config*.ini of the repository (config.ini:1 and the others) *)
Definition shipped : list (text * list (text * text)) := map (fun '(n, f) => (txt n, f))
  [("config.ini", ini_default);
   ("config_apery.ini", ini_apery);
   ("config_apery_extend_hashtable.ini", ini_apery_extend_hashtable);
   ("config_e_search_-4_to_5.ini", ini_e_search_m4_to_5);
   ("config_e_search_inter_cubic.ini", ini_e_search_inter_cubic);
   ("config_e_search_inter_lin.ini", ini_e_search_inter_lin);
   ("config_pi_-4_to_5.ini", ini_pi_m4_to_5);
   ("config_pi_interlaced_cubic.ini", ini_pi_interlaced_cubic);
   ("config_pi_interlaced_linear.ini", ini_pi_interlaced_linear);
   ("config_pi_search_-4_to_5.ini", ini_pi_search_m4_to_5);
   ("config_pi_search_inter_cubic.ini", ini_pi_search_inter_cubic);
   ("config_pi_search_inter_lin.ini", ini_pi_search_inter_lin)]%string.

(** main.py:189-197: the command line. [read] is the content of a file, None when it cannot be read; the first element of
    argv is the name of the program. Asking for help prints a text and ends the program. *)
Definition command (v : env) (listdir : text -> list text) (read : text -> option (list (text * text))) (argv : list text) (w : world)
  : world * option (res unit) :=
  match argv with
  | _ :: a :: _ => if existsb (text_eqb a) (map txt ["-h"; "--help"; "/?"; "-?"]%string) then (w, Some (Ok tt))
                   else run v listdir (read a) w
  | _ => run v listdir (read (txt "config.ini")) w
  end.

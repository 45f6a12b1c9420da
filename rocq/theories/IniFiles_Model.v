(** The texts of the configuration files that come with the program and of those of its tests, byte for byte; see
    Shipped_Model and Fixtures_Model for the settings in them. No proofs. *)
From Coq Require Import Ascii String List.
From Verif Require Import PyBase Hashtable_Model.
Import ListNotations.
Local Open Scope list_scope.

(** config.ini:1-78 *)
Definition text_default : text := txt "[Setup]
; the target constant
const=pi
; for some constants we have an index telling which one (like zeta(i). Constants with no index, like e and pi,
; ignore this).
i=3

; normal is a_n = A0+A1*n+A2*n^2+A3*n^3+...Ak*n^k
; indexed is A0*n^k+A1*(n-1)^k+A2*(n-2)^k+A3*(n-3)^k+...+Ak*(n-k)^k
; sparse is sparse polynomials. See below.
ab_polys_type=normal
; special parameters, required by some of the a,b polynomials types:
;     sparse: [n_a, n_b] - the maximal degree of a/b. For either a or b, all interlaces must be of the same degree. Then
;                          k is evaluated by a/b_coeffs_range degrees (len(a/b_coeffs_range[0])), all (n over k) options
;                          for a polynomial with degree n and k non-zero coefficients are enumerated, with coefficients
;                          values of the regular enumerated a_coeffs, b_coeffs.
ab_polys_special_params=none

; a, b contfrac polynomials range of enumeration.
; For example: [ [[], []], [[], [], []], [[], [], [], []], [[], []] ] is a 4-interlace with degrees of 2,3,4,2.
;              [m n] means running on coefficients between m to n-1
a_coeffs_range=[[[-4, 4], [-4, 4], [-4, 4]]]
b_coeffs_range=[[[-4, 4], [-4, 4], [-4, 4]]]

; validate that no entries repetition occurs (e.g. if hashtable is expanded, and some of the existing parameters are
; re-enumerated). Actually, such double-occurences are avoided in any case, but in the case that such reoccurences are
; expected, setting this to true can save runtime
validate_hashtable_extend_no_replication=true
; run just for a hashtable generation - not looking for clicks. Options: 'true', 'false', 'auto'.
; if 'auto' - translated to True if hashtable_file_operation is 'generate'/'expand', False if it's 'use'
gen_hashtable_only=auto

; constant number of iterations for contfracs when building the hashtable.
; probably enough for the exponential converging cases. problematic for when the discriminant is <=0
; (that may create false entries in the hashtables that will be
; filtered after clicks)
hashtable_num_of_iterations=200
; number of digits saved in the hashtable
;; 8 = -26.6 bits
hashtable_precision=8
; constant number of iterations for contfracs at the first filtering round of refining clicks results.
first_filtering_num_of_iterations=1000
; number of digits to compare at the first filterting
;; 10 = -33.2 bits
first_filtering_precision=10
; required precision for the second filtering round. This filtering is done with a fitting number of iterations, after
; estimating the speed of approach, with a 'max_precision' upper boundary.
;; 13 = -43.2 bits
second_filtering_max_num_of_iterations=1200
second_filtering_precision=13
; similarly, for the third filtering round.
;; 16 = -53.15 bits, 20 = -66.43 bits
third_filtering_max_num_of_iterations=1500
third_filtering_precision=20

; type of LHS: ulcd = (u/const+const/l+c)/d  ;  rationalfunc = p(const)/q(const)
;lhs_type=ulcd
; u, l, c, d = lhs_params
;lhs_params=[[1, 3], [2, 4], [3, 5], [4, 6]]
lhs_type=rationalfunc
; same parsing as the ab polynomials, with the interalce being replaced by: p, q, force_bigger_numerator = lhs_params
; if force_bigger_numerator is True, only p,q with deg(p) >= deg(q) are evaluated. This is useful to save runtime if a
; 'safe_inverse' postproc-function is applied, and if the p,q ranges are symmetric
lhs_params=[[[-3, 3], [-3, 3], [-3, 3]], [[-3, 3], [-3, 3], [-3, 3]], true]

; the subgroup of postprocessing functions
postproc_funcs_filter=[""safe_inverse"", ""lambda x: x"", ""lambda x: x**2"", ""lambda x: safe_inverse(x**2)"", ""safe_sqrt"", ""lambda x: safe_inverse(safe_sqrt(x))""]

; options for hastable_file_opeartion: use, generate, expand
; generate will create a new file even if using an existing name (v2, v3,...)
; expand will first load the most updated file (v_latest) and then add the new entries and save to v_latest+1
; use will load the v_latest and use it (no generation of hash table)
hashtable_file_operation=use
; file name without the v_number part
hashtable_file=hashtable_general.pkl

; printing slow convergence cases that we thought should be fast (can be identified by the discriminant)
print_surprising_nonexp_contfracs=False".
(** config_apery.ini:1-84 *)
Definition text_apery : text := txt "[Setup]
; the target constant
const=apery
; for some constants we have an index telling which one (like zeta(i). Constants with no index, like e and pi, ignore this)
i=3

; normal is a_n = A0+A1*n+A2*n^2+A3*n^3+...Ak*n^k
; indexed is A0*n^k+A1*(n-1)^k+A2*(n-2)^k+A3*(n-3)^k+...+Ak*(n-k)^k
; sparse is ...
ab_polys_type=sparse
; special parameters, required by some of the a,b polynomials types:
;     sparse: [n_a, n_b] - the maximal degree of a/b. For either a or b, all interlaces must be of the same degree. Then
;                          k is evaluated by a/b_coeffs_range degrees (len(a/b_coeffs_range[0])), all (n over k) options
;                          for a polynomial with degree n and k non-zero coefficients are enumerated, with coefficients
;                          values of the regular enumerated a_coeffs, b_coeffs.
ab_polys_special_params=[5, 7]

; a, b contfrac polynomials range of enumeration.
; For example: [ [[], []], [[], [], []], [[], [], [], []], [[], []] ] is a 4-interlace with degrees of 2,3,4,2.
;              [m n] means running on coefficients between m to n-1
;; +16.3 bits
a_coeffs_range=[[[0, 5], [0, 5], [0, 5], [0, 5]]]
b_coeffs_range=[[[-3, 4], [-3, 4]]]

; validate that no entries repetition occurs (e.g. if hashtable is expanded, and some of the existing parameters are
; re-enumerated). Actually, such double-occurences are avoided in any case, but in the case that such reoccurences are
; expected, setting this to true can save runtime
validate_hashtable_extend_no_replication=true
; run just for a hashtable generation - not looking for clicks. Options: 'true', 'false', 'auto'.
; if 'auto' - translated to True if hashtable_file_operation is 'generate'/'expand', False if it's 'use'
gen_hashtable_only=false


; constant number of iterations for contfracs when building the hashtable.
; probably enough for the exponential converging cases. problematic for when the discriminant is <=0
; (that may create false entries in the hashtables that will be
; filtered after clicks)
hashtable_num_of_iterations=200
; number of digits saved in the hashtable
;; 8 = -26.6 bits
hashtable_precision=8
; constant number of iterations for contfracs at the first filtering round of refining clicks results.
first_filtering_num_of_iterations=1000
; number of digits to compare at the first filterting
;; 10 = -33.2 bits , 12 = 39.9 bits
first_filtering_precision=12
; required precision for the second filtering round. This filtering is done with a fitting number of iterations, after
; estimating the speed of approach, with a 'max_precision' upper boundary.
;; 13 = -43.2 bits
second_filtering_max_num_of_iterations=1200
second_filtering_precision=15
; similarly, for the third filtering round.
;; 16 = -53.15 bits, 20 = -66.43 bits
third_filtering_max_num_of_iterations=1500
third_filtering_precision=20




; type of LHS: ulcd = (u/const+const/l+c)/d  ;  rationalfunc = p(const)/q(const)
;lhs_type=ulcd
; u, l, c, d = lhs_params
;lhs_params=[[1, 3], [2, 4], [3, 5], [4, 6]]
lhs_type=rationalfunc
; same parsing as the ab polynomials, with the interlace being replaced by: p, q, force_bigger_numerator = lhs_params
; if force_bigger_numerator is True, only p,q with deg(p) >= deg(q) are evaluated. This is useful to save runtime if a
; 'safe_inverse' postproc-function is applied, and if the p,q ranges are symmetric
;; +25 bits
lhs_params=[[[-9, 9], [-9, 9], [-9, 9]], [[-9, 9], [-9, 9], [-9, 9]], true]

; the subgroup of postprocessing functions
;; 6 postproc funcs = +2.6 bits
postproc_funcs_filter=[""safe_inverse"", ""lambda x: x"", ""lambda x: x**2"", ""lambda x: safe_inverse(x**2)"", ""safe_sqrt"", ""lambda x: safe_inverse(safe_sqrt(x))""]

; options for hastable_file_opeartion: use, generate, expand
; generate will create a new file even if using an existing name (v2, v3,...)
; expand will first load the most updated file (v_latest) and then add the new entries and save to v_latest+1
; use will load the v_latest and use it (no generation of hash table)
hashtable_file_operation=use
; file name without the v_number part
hashtable_file=hashtable_apery.pkl

; printing slow convergence cases that we thought should be fast (can be identified by the discriminant)
print_surprising_nonexp_contfracs=False".
(** config_apery_extend_hashtable.ini:1-85 *)
Definition text_apery_extend_hashtable : text := txt "[Setup]
; the target constant
const=apery
; for some constants we have an index telling which one (like zeta(i). Constants with no index, like e and pi, 
; ignore this)
i=3

; normal is a_n = A0+A1*n+A2*n^2+A3*n^3+...Ak*n^k
; indexed is A0*n^k+A1*(n-1)^k+A2*(n-2)^k+A3*(n-3)^k+...+Ak*(n-k)^k
; sparse is sparse polynomials. See below.
ab_polys_type=sparse
; special parameters, required by some of the a,b polynomials types:
;     sparse: [n_a, n_b] - the maximal degree of a/b. For either a or b, all interlaces must be of the same degree. Then
;                          k is evaluated by a/b_coeffs_range degrees (len(a/b_coeffs_range[0])), all (n over k) options
;                          for a polynomial with degree n and k non-zero coefficients are enumerated, with coefficients
;                          values of the regular enumerated a_coeffs, b_coeffs.
ab_polys_special_params=[5, 7]

; a, b contfrac polynomials range of enumeration.
; For example: [ [[], []], [[], [], []], [[], [], [], []], [[], []] ] is a 4-interlace with degrees of 2,3,4,2.
;              [m n] means running on coefficients between m to n-1
;; +16.3 bits
; a_coeffs_range=[[[0, 5], [0, 5], [0, 5], [0, 5]]]
a_coeffs_range=[[[0, 7], [7, 7], [0, 7], [5, 8]]]
b_coeffs_range=[[ [-3, 5], [-3, 5]]]

; validate that no entries repetition occurs (e.g. if hashtable is expanded, and some of the existing parameters are
; re-enumerated). Actually, such double-occurences are avoided in any case, but in the case that such reoccurences are
; expected, setting this to true can save runtime
validate_hashtable_extend_no_replication=true
; run just for a hashtable generation - not looking for clicks. Options: 'true', 'false', 'auto'.
; if 'auto' - translated to True if hashtable_file_operation is 'generate'/'expand', False if it's 'use'
gen_hashtable_only=true

; constant number of iterations for contfracs when building the hashtable.
; probably enough for the exponential converging cases. problematic for when the discriminant is <=0
; (that may create false entries in the hashtables that will be
; filtered after clicks)
hashtable_num_of_iterations=200
; number of digits saved in the hashtable
;; 8 = -26.6 bits
hashtable_precision=8
; constant number of iterations for contfracs at the first filtering round of refining clicks results.
first_filtering_num_of_iterations=1000
; number of digits to compare at the first filterting
;; 10 = -33.2 bits , 12 = 39.9 bits
first_filtering_precision=12
; required precision for the second filtering round. This filtering is done with a fitting number of iterations, after
; estimating the speed of approach, with a 'max_precision' upper boundary.
;; 13 = -43.2 bits
second_filtering_max_num_of_iterations=1200
second_filtering_precision=15
; similarly, for the third filtering round.
;; 16 = -53.15 bits, 20 = -66.43 bits
third_filtering_max_num_of_iterations=1500
third_filtering_precision=20




; type of LHS: ulcd = (u/const+const/l+c)/d  ;  rationalfunc = p(const)/q(const)
;lhs_type=ulcd
; u, l, c, d = lhs_params
;lhs_params=[[1, 3], [2, 4], [3, 5], [4, 6]]
lhs_type=rationalfunc
; same parsing as the ab polynomials, with the interlace being replaced by: p, q, force_bigger_numerator = lhs_params
; if force_bigger_numerator is True, only p,q with deg(p) >= deg(q) are evaluated. This is useful to save runtime if a
; 'safe_inverse' postproc-function is applied, and if the p,q ranges are symmetric
;; +25 bits
lhs_params=[[[-9, 9], [-9, 9], [-9, 9]], [[-9, 9], [-9, 9], [-9, 9]], true]

; the subgroup of postprocessing functions
;; 6 postproc funcs = +2.6 bits
postproc_funcs_filter=[""safe_inverse"", ""lambda x: x"", ""lambda x: x**2"", ""lambda x: safe_inverse(x**2)"", ""safe_sqrt"", ""lambda x: safe_inverse(safe_sqrt(x))""]

; options for hastable_file_opeartion: use, generate, expand
; generate will create a new file even if using an existing name (v2, v3,...)
; expand will first load the most updated file (v_latest) and then add the new entries and save to v_latest+1
; use will load the v_latest and use it (no generation of hash table)
hashtable_file_operation=expand
; file name without the v_number part
hashtable_file=hashtable_apery.pkl

; printing slow convergence cases that we thought should be fast (can be identified by the discriminant)
print_surprising_nonexp_contfracs=False".
(** config_e_search_-4_to_5.ini:1-85 *)
Definition text_e_search_m4_to_5 : text := txt "[Setup]
; the target constant
const=pi
; for some constants we have an index telling which one (like zeta(i). Constants with no index, like e and pi, ignore this)
i=3

; normal is a_n = A0+A1*n+A2*n^2+A3*n^3+...Ak*n^k
; indexed is A0*n^k+A1*(n-1)^k+A2*(n-2)^k+A3*(n-3)^k+...+Ak*(n-k)^k
; sparse is ...
ab_polys_type=normal
; special parameters, required by some of the a,b polynomials types:
;     sparse: [n_a, n_b] - the maximal degree of a/b. For either a or b, all interlaces must be of the same degree. Then
;                          k is evaluated by a/b_coeffs_range degrees (len(a/b_coeffs_range[0])), all (n over k) options
;                          for a polynomial with degree n and k non-zero coefficients are enumerated, with coefficients
;                          values of the regular enumerated a_coeffs, b_coeffs.
ab_polys_special_params=[5, 7]

; a, b contfrac polynomials range of enumeration.
; For example: [ [[], []], [[], [], []], [[], [], [], []], [[], []] ] is a 4-interlace with degrees of 2,3,4,2.
;              [m n] means running on coefficients between m to n-1
;; +27.9 bits - 5:30 hours on kaminer's station
a_coeffs_range=[[[-2, 2], [-2, 2], [-2, 2]], [[-2, 2], [-2, 2], [-2, 2]]]
b_coeffs_range=[[[-2, 2], [-2, 2], [-2, 2]], [[-2, 2], [-2, 2], [-2, 2]]]


; validate that no entries repetition occurs (e.g. if hashtable is expanded, and some of the existing parameters are
; re-enumerated). Actually, such double-occurences are avoided in any case, but in the case that such reoccurences are
; expected, setting this to true can save runtime
validate_hashtable_extend_no_replication=true
; run just for a hashtable generation - not looking for clicks. Options: 'true', 'false', 'auto'.
; if 'auto' - translated to True if hashtable_file_operation is 'generate'/'expand', False if it's 'use'
gen_hashtable_only=auto


; constant number of iterations for contfracs when building the hashtable.
; probably enough for the exponential converging cases. problematic for when the discriminant is <=0
; (that may create false entries in the hashtables that will be
; filtered after clicks)
hashtable_num_of_iterations=200
; number of digits saved in the hashtable
;; 8 = -26.6 bits
hashtable_precision=8
; constant number of iterations for contfracs at the first filtering round of refining clicks results.
first_filtering_num_of_iterations=1000
; number of digits to compare at the first filterting
;; 10 = -33.2 bits , 12 = 39.9 bits
first_filtering_precision=12
; required precision for the second filtering round. This filtering is done with a fitting number of iterations, after
; estimating the speed of approach, with a 'max_precision' upper boundary.
;; 13 = -43.2 bits
second_filtering_max_num_of_iterations=1200
second_filtering_precision=15
; similarly, for the third filtering round.
;; 16 = -53.15 bits, 20 = -66.43 bits
third_filtering_max_num_of_iterations=1500
third_filtering_precision=20




; type of LHS: ulcd = (u/const+const/l+c)/d  ;  rationalfunc = p(const)/q(const)
;lhs_type=ulcd
; u, l, c, d = lhs_params
;lhs_params=[[1, 3], [2, 4], [3, 5], [4, 6]]
lhs_type=rationalfunc
; same parsing as the ab polynomials, with the interlace being replaced by: p, q, force_bigger_numerator = lhs_params
; if force_bigger_numerator is True, only p,q with deg(p) >= deg(q) are evaluated. This is useful to save runtime if a
; 'safe_inverse' postproc-function is applied, and if the p,q ranges are symmetric
;; +23.9 bits
lhs_params=[[[-7, 8], [-7, 8], [-7, 8]], [[-7, 8], [-7, 8], [-7, 8]], true]

; the subgroup of postprocessing functions
;; 6 postproc funcs = +2.6 bits
postproc_funcs_filter=[""safe_inverse"", ""lambda x: x"", ""lambda x: x**2"", ""lambda x: safe_inverse(x**2)"", ""safe_sqrt"", ""lambda x: safe_inverse(safe_sqrt(x))""]

; options for hastable_file_opeartion: use, generate, expand
; generate will create a new file even if using an existing name (v2, v3,...)
; expand will first load the most updated file (v_latest) and then add the new entries and save to v_latest+1
; use will load the v_latest and use it (no generation of hash table)
hashtable_file_operation=use
; file name without the v_number part
hashtable_file=hashtable_pi_-4_to_5.pkl

; printing slow convergence cases that we thought should be fast (can be identified by the discriminant)
print_surprising_nonexp_contfracs=False".
(** config_e_search_inter_cubic.ini:1-88 *)
Definition text_e_search_inter_cubic : text := txt "[Setup]
; the target constant
const=e
; for some constants we have an index telling which one (like zeta(i). Constants with no index, like e and pi, ignore this)
i=3

; normal is a_n = A0+A1*n+A2*n^2+A3*n^3+...Ak*n^k
; indexed is A0*n^k+A1*(n-1)^k+A2*(n-2)^k+A3*(n-3)^k+...+Ak*(n-k)^k
; sparse is ...
ab_polys_type=normal
; special parameters, required by some of the a,b polynomials types:
;     sparse: [n_a, n_b] - the maximal degree of a/b. For either a or b, all interlaces must be of the same degree. Then
;                          k is evaluated by a/b_coeffs_range degrees (len(a/b_coeffs_range[0])), all (n over k) options
;                          for a polynomial with degree n and k non-zero coefficients are enumerated, with coefficients
;                          values of the regular enumerated a_coeffs, b_coeffs.
ab_polys_special_params=[5, 7]

; a, b contfrac polynomials range of enumeration.
; For example: [ [[], []], [[], [], []], [[], [], [], []], [[], []] ] is a 4-interlace with degrees of 2,3,4,2.
;              [m n] means running on coefficients between m to n-1
;; +24.4 bits - half an hour on kaminer's station
;; a_coeffs_range=[[[-1, 2], [-1, 2], [-1, 2]], [[-1, 2], [-1, 2], [-1, 2]]]
;; b_coeffs_range=[[[-1, 2], [-1, 2], [-1, 2]], [[-1, 2], [-1, 2], [-1, 2]]]
;; +27.9 bits - 
a_coeffs_range=[[[-2, 2], [-2, 2], [-2, 2]], [[-2, 2], [-2, 2], [-2, 2]]]
b_coeffs_range=[[[-2, 2], [-2, 2], [-2, 2]], [[-2, 2], [-2, 2], [-2, 2]]]


; validate that no entries repetition occurs (e.g. if hashtable is expanded, and some of the existing parameters are
; re-enumerated). Actually, such double-occurences are avoided in any case, but in the case that such reoccurences are
; expected, setting this to true can save runtime
validate_hashtable_extend_no_replication=true
; run just for a hashtable generation - not looking for clicks. Options: 'true', 'false', 'auto'.
; if 'auto' - translated to True if hashtable_file_operation is 'generate'/'expand', False if it's 'use'
gen_hashtable_only=auto


; constant number of iterations for contfracs when building the hashtable.
; probably enough for the exponential converging cases. problematic for when the discriminant is <=0
; (that may create false entries in the hashtables that will be
; filtered after clicks)
hashtable_num_of_iterations=200
; number of digits saved in the hashtable
;; 8 = -26.6 bits
hashtable_precision=8
; constant number of iterations for contfracs at the first filtering round of refining clicks results.
first_filtering_num_of_iterations=1000
; number of digits to compare at the first filterting
;; 10 = -33.2 bits , 12 = 39.9 bits
first_filtering_precision=12
; required precision for the second filtering round. This filtering is done with a fitting number of iterations, after
; estimating the speed of approach, with a 'max_precision' upper boundary.
;; 13 = -43.2 bits
second_filtering_max_num_of_iterations=1200
second_filtering_precision=15
; similarly, for the third filtering round.
;; 16 = -53.15 bits, 20 = -66.43 bits
third_filtering_max_num_of_iterations=1500
third_filtering_precision=20




; type of LHS: ulcd = (u/const+const/l+c)/d  ;  rationalfunc = p(const)/q(const)
;lhs_type=ulcd
; u, l, c, d = lhs_params
;lhs_params=[[1, 3], [2, 4], [3, 5], [4, 6]]
lhs_type=rationalfunc
; same parsing as the ab polynomials, with the interlace being replaced by: p, q, force_bigger_numerator = lhs_params
; if force_bigger_numerator is True, only p,q with deg(p) >= deg(q) are evaluated. This is useful to save runtime if a
; 'safe_inverse' postproc-function is applied, and if the p,q ranges are symmetric
;; +23.9 bits
lhs_params=[[[-7, 8], [-7, 8], [-7, 8]], [[-7, 8], [-7, 8], [-7, 8]], true]

; the subgroup of postprocessing functions
;; 6 postproc funcs = +2.6 bits
postproc_funcs_filter=[""safe_inverse"", ""lambda x: x"", ""lambda x: x**2"", ""lambda x: safe_inverse(x**2)"", ""safe_sqrt"", ""lambda x: safe_inverse(safe_sqrt(x))""]

; options for hastable_file_opeartion: use, generate, expand
; generate will create a new file even if using an existing name (v2, v3,...)
; expand will first load the most updated file (v_latest) and then add the new entries and save to v_latest+1
; use will load the v_latest and use it (no generation of hash table)
hashtable_file_operation=use
; file name without the v_number part
hashtable_file=hashtable_pi_interlaced_cubic.pkl

; printing slow convergence cases that we thought should be fast (can be identified by the discriminant)
print_surprising_nonexp_contfracs=False".
(** config_e_search_inter_lin.ini:1-85 *)
Definition text_e_search_inter_lin : text := txt "[Setup]
; the target constant
const=pi
; for some constants we have an index telling which one (like zeta(i). Constants with no index, like e and pi, ignore this)
i=3

; normal is a_n = A0+A1*n+A2*n^2+A3*n^3+...Ak*n^k
; indexed is A0*n^k+A1*(n-1)^k+A2*(n-2)^k+A3*(n-3)^k+...+Ak*(n-k)^k
; sparse is ...
ab_polys_type=normal
; special parameters, required by some of the a,b polynomials types:
;     sparse: [n_a, n_b] - the maximal degree of a/b. For either a or b, all interlaces must be of the same degree. Then
;                          k is evaluated by a/b_coeffs_range degrees (len(a/b_coeffs_range[0])), all (n over k) options
;                          for a polynomial with degree n and k non-zero coefficients are enumerated, with coefficients
;                          values of the regular enumerated a_coeffs, b_coeffs.
ab_polys_special_params=[5, 7]

; a, b contfrac polynomials range of enumeration.
; For example: [ [[], []], [[], [], []], [[], [], [], []], [[], []] ] is a 4-interlace with degrees of 2,3,4,2.
;              [m n] means running on coefficients between m to n-1
;; +27.9 bits - 2:30 hours on kaminer's station
a_coeffs_range=[[[-2, 2], [-2, 2], [-2, 2]], [[-2, 2], [-2, 2], [-2, 2]]]
b_coeffs_range=[[[-2, 2], [-2, 2], [-2, 2]], [[-2, 2], [-2, 2], [-2, 2]]]


; validate that no entries repetition occurs (e.g. if hashtable is expanded, and some of the existing parameters are
; re-enumerated). Actually, such double-occurences are avoided in any case, but in the case that such reoccurences are
; expected, setting this to true can save runtime
validate_hashtable_extend_no_replication=true
; run just for a hashtable generation - not looking for clicks. Options: 'true', 'false', 'auto'.
; if 'auto' - translated to True if hashtable_file_operation is 'generate'/'expand', False if it's 'use'
gen_hashtable_only=auto


; constant number of iterations for contfracs when building the hashtable.
; probably enough for the exponential converging cases. problematic for when the discriminant is <=0
; (that may create false entries in the hashtables that will be
; filtered after clicks)
hashtable_num_of_iterations=200
; number of digits saved in the hashtable
;; 8 = -26.6 bits
hashtable_precision=8
; constant number of iterations for contfracs at the first filtering round of refining clicks results.
first_filtering_num_of_iterations=1000
; number of digits to compare at the first filterting
;; 10 = -33.2 bits , 12 = 39.9 bits
first_filtering_precision=12
; required precision for the second filtering round. This filtering is done with a fitting number of iterations, after
; estimating the speed of approach, with a 'max_precision' upper boundary.
;; 13 = -43.2 bits
second_filtering_max_num_of_iterations=1200
second_filtering_precision=15
; similarly, for the third filtering round.
;; 16 = -53.15 bits, 20 = -66.43 bits
third_filtering_max_num_of_iterations=1500
third_filtering_precision=20




; type of LHS: ulcd = (u/const+const/l+c)/d  ;  rationalfunc = p(const)/q(const)
;lhs_type=ulcd
; u, l, c, d = lhs_params
;lhs_params=[[1, 3], [2, 4], [3, 5], [4, 6]]
lhs_type=rationalfunc
; same parsing as the ab polynomials, with the interlace being replaced by: p, q, force_bigger_numerator = lhs_params
; if force_bigger_numerator is True, only p,q with deg(p) >= deg(q) are evaluated. This is useful to save runtime if a
; 'safe_inverse' postproc-function is applied, and if the p,q ranges are symmetric
;; +23.9 bits
lhs_params=[[[-7, 8], [-7, 8], [-7, 8]], [[-7, 8], [-7, 8], [-7, 8]], true]

; the subgroup of postprocessing functions
;; 6 postproc funcs = +2.6 bits
postproc_funcs_filter=[""safe_inverse"", ""lambda x: x"", ""lambda x: x**2"", ""lambda x: safe_inverse(x**2)"", ""safe_sqrt"", ""lambda x: safe_inverse(safe_sqrt(x))""]

; options for hastable_file_opeartion: use, generate, expand
; generate will create a new file even if using an existing name (v2, v3,...)
; expand will first load the most updated file (v_latest) and then add the new entries and save to v_latest+1
; use will load the v_latest and use it (no generation of hash table)
hashtable_file_operation=use
; file name without the v_number part
hashtable_file=hashtable_pi_interlaced_linear.pkl

; printing slow convergence cases that we thought should be fast (can be identified by the discriminant)
print_surprising_nonexp_contfracs=False".
(** config_pi_-4_to_5.ini:1-87 *)
Definition text_pi_m4_to_5 : text := txt "[Setup]
; the target constant
const=pi
; for some constants we have an index telling which one (like zeta(i). Constants with no index, like e and pi, ignore this)
i=3

; normal is a_n = A0+A1*n+A2*n^2+A3*n^3+...Ak*n^k
; indexed is A0*n^k+A1*(n-1)^k+A2*(n-2)^k+A3*(n-3)^k+...+Ak*(n-k)^k
; sparse is ...
ab_polys_type=normal
; special parameters, required by some of the a,b polynomials types:
;     sparse: [n_a, n_b] - the maximal degree of a/b. For either a or b, all interlaces must be of the same degree. Then
;                          k is evaluated by a/b_coeffs_range degrees (len(a/b_coeffs_range[0])), all (n over k) options
;                          for a polynomial with degree n and k non-zero coefficients are enumerated, with coefficients
;                          values of the regular enumerated a_coeffs, b_coeffs.
ab_polys_special_params=[5, 7]

; a, b contfrac polynomials range of enumeration.
; For example: [ [[], []], [[], [], []], [[], [], [], []], [[], []] ] is a 4-interlace with degrees of 2,3,4,2.
;              [m n] means running on coefficients between m to n-1
;; +25.5 bits - 6 hours on kaminer's station
;; a_coeffs_range=[[[-8, 9], [-8, 9], [-8, 9]]]
;; b_coeffs_range=[[[-8, 9], [-8, 9], [-8, 9]]]
;; 24 bits - 2:30 hours on kaminer's station
a_coeffs_range=[[[-7, 8], [-7, 8], [-7, 8]]]
b_coeffs_range=[[[-7, 8], [-7, 8], [-7, 8]]]

; validate that no entries repetition occurs (e.g. if hashtable is expanded, and some of the existing parameters are
; re-enumerated). Actually, such double-occurences are avoided in any case, but in the case that such reoccurences are
; expected, setting this to true can save runtime
validate_hashtable_extend_no_replication=true
; run just for a hashtable generation - not looking for clicks. Options: 'true', 'false', 'auto'.
; if 'auto' - translated to True if hashtable_file_operation is 'generate'/'expand', False if it's 'use'
gen_hashtable_only=auto


; constant number of iterations for contfracs when building the hashtable.
; probably enough for the exponential converging cases. problematic for when the discriminant is <=0
; (that may create false entries in the hashtables that will be
; filtered after clicks)
hashtable_num_of_iterations=200
; number of digits saved in the hashtable
;; 8 = -26.6 bits
hashtable_precision=8
; constant number of iterations for contfracs at the first filtering round of refining clicks results.
first_filtering_num_of_iterations=1000
; number of digits to compare at the first filterting
;; 10 = -33.2 bits , 12 = 39.9 bits
first_filtering_precision=12
; required precision for the second filtering round. This filtering is done with a fitting number of iterations, after
; estimating the speed of approach, with a 'max_precision' upper boundary.
;; 13 = -43.2 bits
second_filtering_max_num_of_iterations=1200
second_filtering_precision=15
; similarly, for the third filtering round.
;; 16 = -53.15 bits, 20 = -66.43 bits
third_filtering_max_num_of_iterations=1500
third_filtering_precision=20




; type of LHS: ulcd = (u/const+const/l+c)/d  ;  rationalfunc = p(const)/q(const)
;lhs_type=ulcd
; u, l, c, d = lhs_params
;lhs_params=[[1, 3], [2, 4], [3, 5], [4, 6]]
lhs_type=rationalfunc
; same parsing as the ab polynomials, with the interlace being replaced by: p, q, force_bigger_numerator = lhs_params
; if force_bigger_numerator is True, only p,q with deg(p) >= deg(q) are evaluated. This is useful to save runtime if a
; 'safe_inverse' postproc-function is applied, and if the p,q ranges are symmetric
;; +25 bits
lhs_params=[[[-9, 9], [-9, 9], [-9, 9]], [[-9, 9], [-9, 9], [-9, 9]], true]

; the subgroup of postprocessing functions
;; 6 postproc funcs = +2.6 bits
postproc_funcs_filter=[""safe_inverse"", ""lambda x: x"", ""lambda x: x**2"", ""lambda x: safe_inverse(x**2)"", ""safe_sqrt"", ""lambda x: safe_inverse(safe_sqrt(x))""]

; options for hastable_file_opeartion: use, generate, expand
; generate will create a new file even if using an existing name (v2, v3,...)
; expand will first load the most updated file (v_latest) and then add the new entries and save to v_latest+1
; use will load the v_latest and use it (no generation of hash table)
hashtable_file_operation=generate
; file name without the v_number part
hashtable_file=hashtable_pi_-4_to_5.pkl

; printing slow convergence cases that we thought should be fast (can be identified by the discriminant)
print_surprising_nonexp_contfracs=False".
(** config_pi_interlaced_cubic.ini:1-89 *)
Definition text_pi_interlaced_cubic : text := txt "[Setup]
; the target constant
const=pi
; for some constants we have an index telling which one (like zeta(i). Constants with no index, like e and pi, ignore this)
i=3

; normal is a_n = A0+A1*n+A2*n^2+A3*n^3+...Ak*n^k
; indexed is A0*n^k+A1*(n-1)^k+A2*(n-2)^k+A3*(n-3)^k+...+Ak*(n-k)^k
; sparse is ...
ab_polys_type=normal
; special parameters, required by some of the a,b polynomials types:
;     sparse: [n_a, n_b] - the maximal degree of a/b. For either a or b, all interlaces must be of the same degree. Then
;                          k is evaluated by a/b_coeffs_range degrees (len(a/b_coeffs_range[0])), all (n over k) options
;                          for a polynomial with degree n and k non-zero coefficients are enumerated, with coefficients
;                          values of the regular enumerated a_coeffs, b_coeffs.
ab_polys_special_params=[5, 7]

; a, b contfrac polynomials range of enumeration.
; For example: [ [[], []], [[], [], []], [[], [], [], []], [[], []] ] is a 4-interlace with degrees of 2,3,4,2.
;              [m n] means running on coefficients between m to n-1
;; +27.9 bits - 
;; a_coeffs_range=[[[-2, 2], [-2, 2], [-2, 2]], [[-2, 2], [-2, 2], [-2, 2]]]
;; b_coeffs_range=[[[-2, 2], [-2, 2], [-2, 2]], [[-2, 2], [-2, 2], [-2, 2]]]
;; 24 bits - 8 hours on kaminer's station
;; +27.9 bits - 
a_coeffs_range=[[[-2, 2], [-2, 2], [-2, 2]], [[-2, 2], [-2, 2], [-2, 2]]]
b_coeffs_range=[[[-2, 2], [-2, 2], [-2, 2]], [[-2, 2], [-2, 2], [-2, 2]]]


; validate that no entries repetition occurs (e.g. if hashtable is expanded, and some of the existing parameters are
; re-enumerated). Actually, such double-occurences are avoided in any case, but in the case that such reoccurences are
; expected, setting this to true can save runtime
validate_hashtable_extend_no_replication=true
; run just for a hashtable generation - not looking for clicks. Options: 'true', 'false', 'auto'.
; if 'auto' - translated to True if hashtable_file_operation is 'generate'/'expand', False if it's 'use'
gen_hashtable_only=auto


; constant number of iterations for contfracs when building the hashtable.
; probably enough for the exponential converging cases. problematic for when the discriminant is <=0
; (that may create false entries in the hashtables that will be
; filtered after clicks)
hashtable_num_of_iterations=200
; number of digits saved in the hashtable
;; 8 = -26.6 bits
hashtable_precision=8
; constant number of iterations for contfracs at the first filtering round of refining clicks results.
first_filtering_num_of_iterations=1000
; number of digits to compare at the first filterting
;; 10 = -33.2 bits , 12 = 39.9 bits
first_filtering_precision=12
; required precision for the second filtering round. This filtering is done with a fitting number of iterations, after
; estimating the speed of approach, with a 'max_precision' upper boundary.
;; 13 = -43.2 bits
second_filtering_max_num_of_iterations=1200
second_filtering_precision=15
; similarly, for the third filtering round.
;; 16 = -53.15 bits, 20 = -66.43 bits
third_filtering_max_num_of_iterations=1500
third_filtering_precision=20




; type of LHS: ulcd = (u/const+const/l+c)/d  ;  rationalfunc = p(const)/q(const)
;lhs_type=ulcd
; u, l, c, d = lhs_params
;lhs_params=[[1, 3], [2, 4], [3, 5], [4, 6]]
lhs_type=rationalfunc
; same parsing as the ab polynomials, with the interlace being replaced by: p, q, force_bigger_numerator = lhs_params
; if force_bigger_numerator is True, only p,q with deg(p) >= deg(q) are evaluated. This is useful to save runtime if a
; 'safe_inverse' postproc-function is applied, and if the p,q ranges are symmetric
;; +25 bits
lhs_params=[[[-9, 9], [-9, 9], [-9, 9]], [[-9, 9], [-9, 9], [-9, 9]], true]

; the subgroup of postprocessing functions
;; 6 postproc funcs = +2.6 bits
postproc_funcs_filter=[""safe_inverse"", ""lambda x: x"", ""lambda x: x**2"", ""lambda x: safe_inverse(x**2)"", ""safe_sqrt"", ""lambda x: safe_inverse(safe_sqrt(x))""]

; options for hastable_file_opeartion: use, generate, expand
; generate will create a new file even if using an existing name (v2, v3,...)
; expand will first load the most updated file (v_latest) and then add the new entries and save to v_latest+1
; use will load the v_latest and use it (no generation of hash table)
hashtable_file_operation=generate
; file name without the v_number part
hashtable_file=hashtable_pi_interlaced_cubic.pkl

; printing slow convergence cases that we thought should be fast (can be identified by the discriminant)
print_surprising_nonexp_contfracs=False".
(** config_pi_interlaced_linear.ini:1-84 *)
Definition text_pi_interlaced_linear : text := txt "[Setup]
; the target constant
const=pi
; for some constants we have an index telling which one (like zeta(i). Constants with no index, like e and pi, ignore this)
i=3

; normal is a_n = A0+A1*n+A2*n^2+A3*n^3+...Ak*n^k
; indexed is A0*n^k+A1*(n-1)^k+A2*(n-2)^k+A3*(n-3)^k+...+Ak*(n-k)^k
; sparse is ...
ab_polys_type=normal
; special parameters, required by some of the a,b polynomials types:
;     sparse: [n_a, n_b] - the maximal degree of a/b. For either a or b, all interlaces must be of the same degree. Then
;                          k is evaluated by a/b_coeffs_range degrees (len(a/b_coeffs_range[0])), all (n over k) options
;                          for a polynomial with degree n and k non-zero coefficients are enumerated, with coefficients
;                          values of the regular enumerated a_coeffs, b_coeffs.
ab_polys_special_params=[5, 7]

; a, b contfrac polynomials range of enumeration.
; For example: [ [[], []], [[], [], []], [[], [], [], []], [[], []] ] is a 4-interlace with degrees of 2,3,4,2.
;              [m n] means running on coefficients between m to n-1
;; +25.4 bits - 2:30 hours on kaminer's station
a_coeffs_range=[[[-4, 4], [-4, 4]], [[-4, 4], [-4, 4]]]
b_coeffs_range=[[[-4, 4], [-4, 4]], [[-4, 4], [-4, 4]]]

; validate that no entries repetition occurs (e.g. if hashtable is expanded, and some of the existing parameters are
; re-enumerated). Actually, such double-occurences are avoided in any case, but in the case that such reoccurences are
; expected, setting this to true can save runtime
validate_hashtable_extend_no_replication=true
; run just for a hashtable generation - not looking for clicks. Options: 'true', 'false', 'auto'.
; if 'auto' - translated to True if hashtable_file_operation is 'generate'/'expand', False if it's 'use'
gen_hashtable_only=auto


; constant number of iterations for contfracs when building the hashtable.
; probably enough for the exponential converging cases. problematic for when the discriminant is <=0
; (that may create false entries in the hashtables that will be
; filtered after clicks)
hashtable_num_of_iterations=200
; number of digits saved in the hashtable
;; 8 = -26.6 bits
hashtable_precision=8
; constant number of iterations for contfracs at the first filtering round of refining clicks results.
first_filtering_num_of_iterations=1000
; number of digits to compare at the first filterting
;; 10 = -33.2 bits , 12 = 39.9 bits
first_filtering_precision=12
; required precision for the second filtering round. This filtering is done with a fitting number of iterations, after
; estimating the speed of approach, with a 'max_precision' upper boundary.
;; 13 = -43.2 bits
second_filtering_max_num_of_iterations=1200
second_filtering_precision=15
; similarly, for the third filtering round.
;; 16 = -53.15 bits, 20 = -66.43 bits
third_filtering_max_num_of_iterations=1500
third_filtering_precision=20




; type of LHS: ulcd = (u/const+const/l+c)/d  ;  rationalfunc = p(const)/q(const)
;lhs_type=ulcd
; u, l, c, d = lhs_params
;lhs_params=[[1, 3], [2, 4], [3, 5], [4, 6]]
lhs_type=rationalfunc
; same parsing as the ab polynomials, with the interlace being replaced by: p, q, force_bigger_numerator = lhs_params
; if force_bigger_numerator is True, only p,q with deg(p) >= deg(q) are evaluated. This is useful to save runtime if a
; 'safe_inverse' postproc-function is applied, and if the p,q ranges are symmetric
;; +25 bits
lhs_params=[[[-9, 9], [-9, 9], [-9, 9]], [[-9, 9], [-9, 9], [-9, 9]], true]

; the subgroup of postprocessing functions
;; 6 postproc funcs = +2.6 bits
postproc_funcs_filter=[""safe_inverse"", ""lambda x: x"", ""lambda x: x**2"", ""lambda x: safe_inverse(x**2)"", ""safe_sqrt"", ""lambda x: safe_inverse(safe_sqrt(x))""]

; options for hastable_file_opeartion: use, generate, expand
; generate will create a new file even if using an existing name (v2, v3,...)
; expand will first load the most updated file (v_latest) and then add the new entries and save to v_latest+1
; use will load the v_latest and use it (no generation of hash table)
hashtable_file_operation=generate
; file name without the v_number part
hashtable_file=hashtable_pi_interlaced_linear.pkl

; printing slow convergence cases that we thought should be fast (can be identified by the discriminant)
print_surprising_nonexp_contfracs=False".
(** config_pi_search_-4_to_5.ini:1-85 *)
Definition text_pi_search_m4_to_5 : text := txt "[Setup]
; the target constant
const=pi
; for some constants we have an index telling which one (like zeta(i). Constants with no index, like e and pi, ignore this)
i=3

; normal is a_n = A0+A1*n+A2*n^2+A3*n^3+...Ak*n^k
; indexed is A0*n^k+A1*(n-1)^k+A2*(n-2)^k+A3*(n-3)^k+...+Ak*(n-k)^k
; sparse is ...
ab_polys_type=normal
; special parameters, required by some of the a,b polynomials types:
;     sparse: [n_a, n_b] - the maximal degree of a/b. For either a or b, all interlaces must be of the same degree. Then
;                          k is evaluated by a/b_coeffs_range degrees (len(a/b_coeffs_range[0])), all (n over k) options
;                          for a polynomial with degree n and k non-zero coefficients are enumerated, with coefficients
;                          values of the regular enumerated a_coeffs, b_coeffs.
ab_polys_special_params=[5, 7]

; a, b contfrac polynomials range of enumeration.
; For example: [ [[], []], [[], [], []], [[], [], [], []], [[], []] ] is a 4-interlace with degrees of 2,3,4,2.
;              [m n] means running on coefficients between m to n-1
;; +27.9 bits - 5:30 hours on kaminer's station
a_coeffs_range=[[[-2, 2], [-2, 2], [-2, 2]], [[-2, 2], [-2, 2], [-2, 2]]]
b_coeffs_range=[[[-2, 2], [-2, 2], [-2, 2]], [[-2, 2], [-2, 2], [-2, 2]]]


; validate that no entries repetition occurs (e.g. if hashtable is expanded, and some of the existing parameters are
; re-enumerated). Actually, such double-occurences are avoided in any case, but in the case that such reoccurences are
; expected, setting this to true can save runtime
validate_hashtable_extend_no_replication=true
; run just for a hashtable generation - not looking for clicks. Options: 'true', 'false', 'auto'.
; if 'auto' - translated to True if hashtable_file_operation is 'generate'/'expand', False if it's 'use'
gen_hashtable_only=auto


; constant number of iterations for contfracs when building the hashtable.
; probably enough for the exponential converging cases. problematic for when the discriminant is <=0
; (that may create false entries in the hashtables that will be
; filtered after clicks)
hashtable_num_of_iterations=200
; number of digits saved in the hashtable
;; 8 = -26.6 bits
hashtable_precision=8
; constant number of iterations for contfracs at the first filtering round of refining clicks results.
first_filtering_num_of_iterations=1000
; number of digits to compare at the first filterting
;; 10 = -33.2 bits , 12 = 39.9 bits
first_filtering_precision=12
; required precision for the second filtering round. This filtering is done with a fitting number of iterations, after
; estimating the speed of approach, with a 'max_precision' upper boundary.
;; 13 = -43.2 bits
second_filtering_max_num_of_iterations=1200
second_filtering_precision=15
; similarly, for the third filtering round.
;; 16 = -53.15 bits, 20 = -66.43 bits
third_filtering_max_num_of_iterations=1500
third_filtering_precision=20




; type of LHS: ulcd = (u/const+const/l+c)/d  ;  rationalfunc = p(const)/q(const)
;lhs_type=ulcd
; u, l, c, d = lhs_params
;lhs_params=[[1, 3], [2, 4], [3, 5], [4, 6]]
lhs_type=rationalfunc
; same parsing as the ab polynomials, with the interlace being replaced by: p, q, force_bigger_numerator = lhs_params
; if force_bigger_numerator is True, only p,q with deg(p) >= deg(q) are evaluated. This is useful to save runtime if a
; 'safe_inverse' postproc-function is applied, and if the p,q ranges are symmetric
;; +23.9 bits
lhs_params=[[[-7, 8], [-7, 8], [-7, 8]], [[-7, 8], [-7, 8], [-7, 8]], true]

; the subgroup of postprocessing functions
;; 6 postproc funcs = +2.6 bits
postproc_funcs_filter=[""safe_inverse"", ""lambda x: x"", ""lambda x: x**2"", ""lambda x: safe_inverse(x**2)"", ""safe_sqrt"", ""lambda x: safe_inverse(safe_sqrt(x))""]

; options for hastable_file_opeartion: use, generate, expand
; generate will create a new file even if using an existing name (v2, v3,...)
; expand will first load the most updated file (v_latest) and then add the new entries and save to v_latest+1
; use will load the v_latest and use it (no generation of hash table)
hashtable_file_operation=use
; file name without the v_number part
hashtable_file=hashtable_pi_-4_to_5.pkl

; printing slow convergence cases that we thought should be fast (can be identified by the discriminant)
print_surprising_nonexp_contfracs=False".
(** config_pi_search_inter_cubic.ini:1-85 *)
Definition text_pi_search_inter_cubic : text := txt "[Setup]
; the target constant
const=pi
; for some constants we have an index telling which one (like zeta(i). Constants with no index, like e and pi, ignore this)
i=3

; normal is a_n = A0+A1*n+A2*n^2+A3*n^3+...Ak*n^k
; indexed is A0*n^k+A1*(n-1)^k+A2*(n-2)^k+A3*(n-3)^k+...+Ak*(n-k)^k
; sparse is ...
ab_polys_type=normal
; special parameters, required by some of the a,b polynomials types:
;     sparse: [n_a, n_b] - the maximal degree of a/b. For either a or b, all interlaces must be of the same degree. Then
;                          k is evaluated by a/b_coeffs_range degrees (len(a/b_coeffs_range[0])), all (n over k) options
;                          for a polynomial with degree n and k non-zero coefficients are enumerated, with coefficients
;                          values of the regular enumerated a_coeffs, b_coeffs.
ab_polys_special_params=[5, 7]

; a, b contfrac polynomials range of enumeration.
; For example: [ [[], []], [[], [], []], [[], [], [], []], [[], []] ] is a 4-interlace with degrees of 2,3,4,2.
;              [m n] means running on coefficients between m to n-1
;; +27.9 bits - 5:30 hours on kaminer's station
a_coeffs_range=[[[-2, 2], [-2, 2], [-2, 2]], [[-2, 2], [-2, 2], [-2, 2]]]
b_coeffs_range=[[[-2, 2], [-2, 2], [-2, 2]], [[-2, 2], [-2, 2], [-2, 2]]]


; validate that no entries repetition occurs (e.g. if hashtable is expanded, and some of the existing parameters are
; re-enumerated). Actually, such double-occurences are avoided in any case, but in the case that such reoccurences are
; expected, setting this to true can save runtime
validate_hashtable_extend_no_replication=true
; run just for a hashtable generation - not looking for clicks. Options: 'true', 'false', 'auto'.
; if 'auto' - translated to True if hashtable_file_operation is 'generate'/'expand', False if it's 'use'
gen_hashtable_only=auto


; constant number of iterations for contfracs when building the hashtable.
; probably enough for the exponential converging cases. problematic for when the discriminant is <=0
; (that may create false entries in the hashtables that will be
; filtered after clicks)
hashtable_num_of_iterations=200
; number of digits saved in the hashtable
;; 8 = -26.6 bits
hashtable_precision=8
; constant number of iterations for contfracs at the first filtering round of refining clicks results.
first_filtering_num_of_iterations=1000
; number of digits to compare at the first filterting
;; 10 = -33.2 bits , 12 = 39.9 bits
first_filtering_precision=12
; required precision for the second filtering round. This filtering is done with a fitting number of iterations, after
; estimating the speed of approach, with a 'max_precision' upper boundary.
;; 13 = -43.2 bits
second_filtering_max_num_of_iterations=1200
second_filtering_precision=15
; similarly, for the third filtering round.
;; 16 = -53.15 bits, 20 = -66.43 bits
third_filtering_max_num_of_iterations=1500
third_filtering_precision=20




; type of LHS: ulcd = (u/const+const/l+c)/d  ;  rationalfunc = p(const)/q(const)
;lhs_type=ulcd
; u, l, c, d = lhs_params
;lhs_params=[[1, 3], [2, 4], [3, 5], [4, 6]]
lhs_type=rationalfunc
; same parsing as the ab polynomials, with the interlace being replaced by: p, q, force_bigger_numerator = lhs_params
; if force_bigger_numerator is True, only p,q with deg(p) >= deg(q) are evaluated. This is useful to save runtime if a
; 'safe_inverse' postproc-function is applied, and if the p,q ranges are symmetric
;; +23.9 bits
lhs_params=[[[-7, 8], [-7, 8], [-7, 8]], [[-7, 8], [-7, 8], [-7, 8]], true]

; the subgroup of postprocessing functions
;; 6 postproc funcs = +2.6 bits
postproc_funcs_filter=[""safe_inverse"", ""lambda x: x"", ""lambda x: x**2"", ""lambda x: safe_inverse(x**2)"", ""safe_sqrt"", ""lambda x: safe_inverse(safe_sqrt(x))""]

; options for hastable_file_opeartion: use, generate, expand
; generate will create a new file even if using an existing name (v2, v3,...)
; expand will first load the most updated file (v_latest) and then add the new entries and save to v_latest+1
; use will load the v_latest and use it (no generation of hash table)
hashtable_file_operation=use
; file name without the v_number part
hashtable_file=hashtable_pi_interlaced_cubic.pkl

; printing slow convergence cases that we thought should be fast (can be identified by the discriminant)
print_surprising_nonexp_contfracs=False".
(** config_pi_search_inter_lin.ini:1-85 *)
Definition text_pi_search_inter_lin : text := txt "[Setup]
; the target constant
const=pi
; for some constants we have an index telling which one (like zeta(i). Constants with no index, like e and pi, ignore this)
i=3

; normal is a_n = A0+A1*n+A2*n^2+A3*n^3+...Ak*n^k
; indexed is A0*n^k+A1*(n-1)^k+A2*(n-2)^k+A3*(n-3)^k+...+Ak*(n-k)^k
; sparse is ...
ab_polys_type=normal
; special parameters, required by some of the a,b polynomials types:
;     sparse: [n_a, n_b] - the maximal degree of a/b. For either a or b, all interlaces must be of the same degree. Then
;                          k is evaluated by a/b_coeffs_range degrees (len(a/b_coeffs_range[0])), all (n over k) options
;                          for a polynomial with degree n and k non-zero coefficients are enumerated, with coefficients
;                          values of the regular enumerated a_coeffs, b_coeffs.
ab_polys_special_params=[5, 7]

; a, b contfrac polynomials range of enumeration.
; For example: [ [[], []], [[], [], []], [[], [], [], []], [[], []] ] is a 4-interlace with degrees of 2,3,4,2.
;              [m n] means running on coefficients between m to n-1
;; +27.9 bits - 5:30 hours on kaminer's station
a_coeffs_range=[[[-2, 2], [-2, 2], [-2, 2]], [[-2, 2], [-2, 2], [-2, 2]]]
b_coeffs_range=[[[-2, 2], [-2, 2], [-2, 2]], [[-2, 2], [-2, 2], [-2, 2]]]


; validate that no entries repetition occurs (e.g. if hashtable is expanded, and some of the existing parameters are
; re-enumerated). Actually, such double-occurences are avoided in any case, but in the case that such reoccurences are
; expected, setting this to true can save runtime
validate_hashtable_extend_no_replication=true
; run just for a hashtable generation - not looking for clicks. Options: 'true', 'false', 'auto'.
; if 'auto' - translated to True if hashtable_file_operation is 'generate'/'expand', False if it's 'use'
gen_hashtable_only=auto


; constant number of iterations for contfracs when building the hashtable.
; probably enough for the exponential converging cases. problematic for when the discriminant is <=0
; (that may create false entries in the hashtables that will be
; filtered after clicks)
hashtable_num_of_iterations=200
; number of digits saved in the hashtable
;; 8 = -26.6 bits
hashtable_precision=8
; constant number of iterations for contfracs at the first filtering round of refining clicks results.
first_filtering_num_of_iterations=1000
; number of digits to compare at the first filterting
;; 10 = -33.2 bits , 12 = 39.9 bits
first_filtering_precision=12
; required precision for the second filtering round. This filtering is done with a fitting number of iterations, after
; estimating the speed of approach, with a 'max_precision' upper boundary.
;; 13 = -43.2 bits
second_filtering_max_num_of_iterations=1200
second_filtering_precision=15
; similarly, for the third filtering round.
;; 16 = -53.15 bits, 20 = -66.43 bits
third_filtering_max_num_of_iterations=1500
third_filtering_precision=20




; type of LHS: ulcd = (u/const+const/l+c)/d  ;  rationalfunc = p(const)/q(const)
;lhs_type=ulcd
; u, l, c, d = lhs_params
;lhs_params=[[1, 3], [2, 4], [3, 5], [4, 6]]
lhs_type=rationalfunc
; same parsing as the ab polynomials, with the interlace being replaced by: p, q, force_bigger_numerator = lhs_params
; if force_bigger_numerator is True, only p,q with deg(p) >= deg(q) are evaluated. This is useful to save runtime if a
; 'safe_inverse' postproc-function is applied, and if the p,q ranges are symmetric
;; +23.9 bits
lhs_params=[[[-7, 8], [-7, 8], [-7, 8]], [[-7, 8], [-7, 8], [-7, 8]], true]

; the subgroup of postprocessing functions
;; 6 postproc funcs = +2.6 bits
postproc_funcs_filter=[""safe_inverse"", ""lambda x: x"", ""lambda x: x**2"", ""lambda x: safe_inverse(x**2)"", ""safe_sqrt"", ""lambda x: safe_inverse(safe_sqrt(x))""]

; options for hastable_file_opeartion: use, generate, expand
; generate will create a new file even if using an existing name (v2, v3,...)
; expand will first load the most updated file (v_latest) and then add the new entries and save to v_latest+1
; use will load the v_latest and use it (no generation of hash table)
hashtable_file_operation=use
; file name without the v_number part
hashtable_file=hashtable_pi_interlaced_linear.pkl

; printing slow convergence cases that we thought should be fast (can be identified by the discriminant)
print_surprising_nonexp_contfracs=False".
(** tests/fixtures/apery_sanitycheck_config.ini:1-79 *)
Definition fixtext_apery_sanitycheck : text := txt "[Setup]
; if is_test=true, results will be saved to tests/result/data/results
is_test=true

; the target constant
const=apery
; for some constants we have an index telling which one (like zeta(i). Constants with no index, like e and pi, ignore this)
i=3

; normal is a_n = A0+A1*n+A2*n^2+A3*n^3+...Ak*n^k
; indexed is A0*n^k+A1*(n-1)^k+A2*(n-2)^k+A3*(n-3)^k+...+Ak*(n-k)^k
; sparse is sparse polynomials. See below.
ab_polys_type=sparse
; special parameters, required by some of the a,b polynomials types:
;     sparse: [n_a, n_b] - the maximal degree of a/b. For either a or b, all interlaces must be of the same degree. Then
;                          k is evaluated by a/b_coeffs_range degrees (len(a/b_coeffs_range[0])), all (n over k) options
;                          for a polynomial with degree n and k non-zero coefficients are enumerated, with coefficients
;                          values of the regular enumerated a_coeffs, b_coeffs.
ab_polys_special_params=[4, 7]

; a, b contfrac polynomials range of enumeration.
; For example: [ [[], []], [[], [], []], [[], [], [], []], [[], []] ] is a 4-interlace with degrees of 2,3,4,2.
;              [m n] means running on coefficients between m to n-1
;a_coeffs_range=[[[2, 4], [7, 9], [9, 11], [1, 4]]]
;b_coeffs_range=[[[-3, -1], [3, 5]]]
a_coeffs_range=[[[2, 3], [8, 9], [10, 11], [3, 4]]]
b_coeffs_range=[[[-2, -1], [4, 5]]]

; run just for a hashtable generation - not looking for clicks. Options: 'true', 'false', 'auto'.
; if 'auto' - translated to True if hashtable_file_operation is 'generate'/'expand', False if it's 'use'
gen_hashtable_only=false

; constant number of iterations for contfracs when building the hashtable.
; probably enough for the exponential converging cases. problematic for when the discriminant is <=0
; (that may create false entries in the hashtables that will be
; filtered after clicks)
hashtable_num_of_iterations=200
; number of digits saved in the hashtable
;; 8 = -26.6 bits
hashtable_precision=8
; constant number of iterations for contfracs at the first filtering round of refining clicks results.
first_filtering_num_of_iterations=1000
; number of digits to compare at the first filterting
;; 10 = -33.2 bits
first_filtering_precision=10
; required precision for the second filtering round. This filtering is done with a fitting number of iterations, after
; estimating the speed of approach, with a 'max_precision' upper boundary.
;; 13 = -43.2 bits
second_filtering_max_num_of_iterations=1200
second_filtering_precision=13
; similarly, for the third filtering round.
;; 16 = -53.15 bits, 20 = -66.43 bits
third_filtering_max_num_of_iterations=1500
third_filtering_precision=20

; type of LHS: ulcd = (u/const+const/l+c)/d  ;  rationalfunc = p(const)/q(const)
;lhs_type=ulcd
; u, l, c, d = lhs_params
;lhs_params=[[1, 3], [2, 4], [3, 5], [4, 6]]
lhs_type=rationalfunc
; same parsing as the ab polynomials, with the interalce being replaced by: p, q, force_bigger_numerator = lhs_params
; if force_bigger_numerator is True, only p,q with deg(p) >= deg(q) are evaluated. This is useful to save runtime if a
; 'safe_inverse' postproc-function is applied, and if the p,q ranges are symmetric
;lhs_params=[[[3, 6]], [[-1, 2], [0, 3]], false]
lhs_params=[[[5, 6]], [[0, 1], [2, 3]], false]

; the subgroup of postprocessing functions
postproc_funcs_filter=[""safe_inverse"", ""lambda x: x"", ""lambda x: x**2"", ""lambda x: safe_inverse(x**2)"", ""safe_sqrt"", ""lambda x: safe_inverse(safe_sqrt(x))""]

; options for hastable_file_opeartion: use, generate, expand
; generate will create a new file even if using an existing name (v2, v3,...)
; expand will first load the most updated file (v_latest) and then add the new entries and save to v_latest+1
; use will load the v_latest and use it (no generation of hash table)
hashtable_file_operation=generate
; file name without the v_number part
hashtable_file = tests/result_data/hashtable_apery_sanity.pkl

; printing slow convergence cases that we thought should be fast (can be identified by the discriminant)
print_surprising_nonexp_contfracs=false".
(** tests/fixtures/apery_sanitycheck_with_big_lhs_config.ini:1-76 *)
Definition fixtext_apery_sanitycheck_with_big_lhs : text := txt "[Setup]
; the target constant
const=apery
; for some constants we have an index telling which one (like zeta(i). Constants with no index, like e and pi, ignore this)
i=3

; normal is a_n = A0+A1*n+A2*n^2+A3*n^3+...Ak*n^k
; indexed is A0*n^k+A1*(n-1)^k+A2*(n-2)^k+A3*(n-3)^k+...+Ak*(n-k)^k
; sparse is sparse polynomials. See below.
ab_polys_type=sparse
; special parameters, required by some of the a,b polynomials types:
;     sparse: [n_a, n_b] - the maximal degree of a/b. For either a or b, all interlaces must be of the same degree. Then
;                          k is evaluated by a/b_coeffs_range degrees (len(a/b_coeffs_range[0])), all (n over k) options
;                          for a polynomial with degree n and k non-zero coefficients are enumerated, with coefficients
;                          values of the regular enumerated a_coeffs, b_coeffs.
ab_polys_special_params=[5, 8]

; a, b contfrac polynomials range of enumeration.
; For example: [ [[], []], [[], [], []], [[], [], [], []], [[], []] ] is a 4-interlace with degrees of 2,3,4,2.
;              [m n] means running on coefficients between m to n-1
;a_coeffs_range=[[[2, 4], [7, 9], [9, 11], [1, 4]]]
;b_coeffs_range=[[[-3, -1], [3, 5]]]
a_coeffs_range=[[[2, 4], [8, 10], [10, 11], [3, 4]]]
b_coeffs_range=[[[-2, -1], [4, 7]]]

; run just for a hashtable generation - not looking for clicks. Options: 'true', 'false', 'auto'.
; if 'auto' - translated to True if hashtable_file_operation is 'generate'/'expand', False if it's 'use'
gen_hashtable_only=false

; constant number of iterations for contfracs when building the hashtable.
; probably enough for the exponential converging cases. problematic for when the discriminant is <=0
; (that may create false entries in the hashtables that will be
; filtered after clicks)
hashtable_num_of_iterations=200
; number of digits saved in the hashtable
;; 8 = -26.6 bits
hashtable_precision=8
; constant number of iterations for contfracs at the first filtering round of refining clicks results.
first_filtering_num_of_iterations=1000
; number of digits to compare at the first filterting
;; 10 = -33.2 bits
first_filtering_precision=10
; required precision for the second filtering round. This filtering is done with a fitting number of iterations, after
; estimating the speed of approach, with a 'max_precision' upper boundary.
;; 13 = -43.2 bits
second_filtering_max_num_of_iterations=1200
second_filtering_precision=13
; similarly, for the third filtering round.
;; 16 = -53.15 bits, 20 = -66.43 bits
third_filtering_max_num_of_iterations=1500
third_filtering_precision=20

; type of LHS: ulcd = (u/const+const/l+c)/d  ;  rationalfunc = p(const)/q(const)
;lhs_type=ulcd
; u, l, c, d = lhs_params
;lhs_params=[[1, 3], [2, 4], [3, 5], [4, 6]]
lhs_type=rationalfunc
; same parsing as the ab polynomials, with the interalce being replaced by: p, q, force_bigger_numerator = lhs_params
; if force_bigger_numerator is True, only p,q with deg(p) >= deg(q) are evaluated. This is useful to save runtime if a
; 'safe_inverse' postproc-function is applied, and if the p,q ranges are symmetric
;lhs_params=[[[3, 6]], [[-1, 2], [0, 3]], false]
lhs_params=[[[5, 6], [0, 6]], [[0, 5], [2, 6]], false]

; the subgroup of postprocessing functions
postproc_funcs_filter=[""safe_inverse"", ""lambda x: x"", ""lambda x: x**2"", ""lambda x: safe_inverse(x**2)"", ""safe_sqrt"", ""lambda x: safe_inverse(safe_sqrt(x))""]

; options for hastable_file_opeartion: use, generate, expand
; generate will create a new file even if using an existing name (v2, v3,...)
; expand will first load the most updated file (v_latest) and then add the new entries and save to v_latest+1
; use will load the v_latest and use it (no generation of hash table)
hashtable_file_operation=generate
; file name without the v_number part
hashtable_file = hashtable_apery_sanity.pkl

; printing slow convergence cases that we thought should be fast (can be identified by the discriminant)
print_surprising_nonexp_contfracs=False".
(** tests/fixtures/gen_hashtable_benchmark.ini:1-80 *)
Definition fixtext_gen_hashtable_benchmark : text := txt "[Setup]
; if is_test=true, results will be saved to tests/result/data/results
is_test=true
validate_hashtable_extend_no_replication=false

; the target constant
const=apery
; for some constants we have an index telling which one (like zeta(i). Constants with no index, like e and pi, ignore this)
i=3

; normal is a_n = A0+A1*n+A2*n^2+A3*n^3+...Ak*n^k
; indexed is A0*n^k+A1*(n-1)^k+A2*(n-2)^k+A3*(n-3)^k+...+Ak*(n-k)^k
; sparse is sparse polynomials. See below.
ab_polys_type=sparse
; special parameters, required by some of the a,b polynomials types:
;     sparse: [n_a, n_b] - the maximal degree of a/b. For either a or b, all interlaces must be of the same degree. Then
;                          k is evaluated by a/b_coeffs_range degrees (len(a/b_coeffs_range[0])), all (n over k) options
;                          for a polynomial with degree n and k non-zero coefficients are enumerated, with coefficients
;                          values of the regular enumerated a_coeffs, b_coeffs.
ab_polys_special_params=[4, 7]

; a, b contfrac polynomials range of enumeration.
; For example: [ [[], []], [[], [], []], [[], [], [], []], [[], []] ] is a 4-interlace with degrees of 2,3,4,2.
;              [m n] means running on coefficients between m to n-1
;a_coeffs_range=[[[2, 4], [7, 9], [9, 11], [1, 4]]]
;b_coeffs_range=[[[-3, -1], [3, 5]]]
a_coeffs_range=[[[0, 4], [6, 9], [9, 11], [3, 4]]]
b_coeffs_range=[[[-2, 1], [4, 7]]]

; run just for a hashtable generation - not looking for clicks. Options: 'true', 'false', 'auto'.
; if 'auto' - translated to True if hashtable_file_operation is 'generate'/'expand', False if it's 'use'
gen_hashtable_only=true

; constant number of iterations for contfracs when building the hashtable.
; probably enough for the exponential converging cases. problematic for when the discriminant is <=0
; (that may create false entries in the hashtables that will be
; filtered after clicks)
hashtable_num_of_iterations=200
; number of digits saved in the hashtable
;; 8 = -26.6 bits
hashtable_precision=8
; constant number of iterations for contfracs at the first filtering round of refining clicks results.
first_filtering_num_of_iterations=1000
; number of digits to compare at the first filterting
;; 10 = -33.2 bits
first_filtering_precision=10
; required precision for the second filtering round. This filtering is done with a fitting number of iterations, after
; estimating the speed of approach, with a 'max_precision' upper boundary.
;; 13 = -43.2 bits
second_filtering_max_num_of_iterations=1200
second_filtering_precision=13
; similarly, for the third filtering round.
;; 16 = -53.15 bits, 20 = -66.43 bits
third_filtering_max_num_of_iterations=1500
third_filtering_precision=20

; type of LHS: ulcd = (u/const+const/l+c)/d  ;  rationalfunc = p(const)/q(const)
;lhs_type=ulcd
; u, l, c, d = lhs_params
;lhs_params=[[1, 3], [2, 4], [3, 5], [4, 6]]
lhs_type=rationalfunc
; same parsing as the ab polynomials, with the interalce being replaced by: p, q, force_bigger_numerator = lhs_params
; if force_bigger_numerator is True, only p,q with deg(p) >= deg(q) are evaluated. This is useful to save runtime if a
; 'safe_inverse' postproc-function is applied, and if the p,q ranges are symmetric
;lhs_params=[[[3, 6]], [[-1, 2], [0, 3]], false]
lhs_params=[[[5, 6]], [[0, 1], [2, 3]], false]

; the subgroup of postprocessing functions
postproc_funcs_filter=[""safe_inverse"", ""lambda x: x"", ""lambda x: x**2"", ""lambda x: safe_inverse(x**2)"", ""safe_sqrt"", ""lambda x: safe_inverse(safe_sqrt(x))""]

; options for hastable_file_opeartion: use, generate, expand
; generate will create a new file even if using an existing name (v2, v3,...)
; expand will first load the most updated file (v_latest) and then add the new entries and save to v_latest+1
; use will load the v_latest and use it (no generation of hash table)
hashtable_file_operation=generate
; file name without the v_number part
hashtable_file = tests/result_data/hashtable_benchmark.pkl

; printing slow convergence cases that we thought should be fast (can be identified by the discriminant)
print_surprising_nonexp_contfracs=false".
(** tests/fixtures/pi_sanitycheck_config.ini:1-72 *)
Definition fixtext_pi_sanitycheck : text := txt "[Setup]
; the target constant
const=pi
; for some constants we have an index telling which one (like zeta(i). Constants with no index, like e and pi, ignore this)
i=3

; normal is a_n = A0+A1*n+A2*n^2+A3*n^3+...Ak*n^k
; indexed is A0*n^k+A1*(n-1)^k+A2*(n-2)^k+A3*(n-3)^k+...+Ak*(n-k)^k
; sparse is sparse polynomials. See below.
ab_polys_type=normal
; special parameters, required by some of the a,b polynomials types:
;     sparse: [n_a, n_b] - the maximal degree of a/b. For either a or b, all interlaces must be of the same degree. Then
;                          k is evaluated by a/b_coeffs_range degrees (len(a/b_coeffs_range[0])), all (n over k) options
;                          for a polynomial with degree n and k non-zero coefficients are enumerated, with coefficients
;                          values of the regular enumerated a_coeffs, b_coeffs.
ab_polys_special_params=none

; a, b contfrac polynomials range of enumeration.
; For example: [ [[], []], [[], [], []], [[], [], [], []], [[], []] ] is a 4-interlace with degrees of 2,3,4,2.
;              [m n] means running on coefficients between m to n-1
a_coeffs_range=[[[1, 2], [2, 3]]]
b_coeffs_range=[[[0, 1], [0, 1], [1, 2]]]

; run just for a hashtable generation - not looking for clicks. Options: 'true', 'false', 'auto'.
; if 'auto' - translated to True if hashtable_file_operation is 'generate'/'expand', False if it's 'use'
gen_hashtable_only=false

; constant number of iterations for contfracs when building the hashtable.
; probably enough for the exponential converging cases. problematic for when the discriminant is <=0
; (that may create false entries in the hashtables that will be
; filtered after clicks)
hashtable_num_of_iterations=200
; number of digits saved in the hashtable
;; 8 = -26.6 bits
hashtable_precision=8
; constant number of iterations for contfracs at the first filtering round of refining clicks results.
first_filtering_num_of_iterations=1000
; number of digits to compare at the first filterting
;; 10 = -33.2 bits
first_filtering_precision=10
; required precision for the second filtering round. This filtering is done with a fitting number of iterations, after
; estimating the speed of approach, with a 'max_precision' upper boundary.
;; 13 = -43.2 bits
second_filtering_max_num_of_iterations=1200
second_filtering_precision=13
; similarly, for the third filtering round.
;; 16 = -53.15 bits, 20 = -66.43 bits
third_filtering_max_num_of_iterations=1500
third_filtering_precision=20

; type of LHS: ulcd = (u/const+const/l+c)/d  ;  rationalfunc = p(const)/q(const)
lhs_type=ulcd
; u, l, c, d = lhs_params
lhs_params=[[0, 1], [4, 5], [0, 1], [1, 2]]
;lhs_type=rationalfunc
; same parsing as the ab polynomials, with the interalce being replaced by: p, q, force_bigger_numerator = lhs_params
; if force_bigger_numerator is True, only p,q with deg(p) >= deg(q) are evaluated. This is useful to save runtime if a
; 'safe_inverse' postproc-function is applied, and if the p,q ranges are symmetric
;lhs_params=[[[-3, 3], [-3, 3], [-3, 3]], [[-3, 3], [-3, 3], [-3, 3]], true]
; the subgroup of postprocessing functions
postproc_funcs_filter=[""lambda x: x"", ""safe_inverse"", ""lambda x: x**2"", ""lambda x: safe_inverse(x**2)"", ""safe_sqrt"", ""lambda x: safe_inverse(safe_sqrt(x))""]

; options for hastable_file_opeartion: use, generate, expand
; generate will create a new file even if using an existing name (v2, v3,...)
; expand will first load the most updated file (v_latest) and then add the new entries and save to v_latest+1
; use will load the v_latest and use it (no generation of hash table)
hashtable_file_operation=generate
; file name without the v_number part
hashtable_file=hashtable_general.pkl

; printing slow convergence cases that we thought should be fast (can be identified by the discriminant)
print_surprising_nonexp_contfracs=False".
(** The files of the first directory (config.ini:1-78 and the others) *)
Definition shipped_texts : list (text * text) := map (fun '(n, t) => (txt n, t))
  [("config.ini", text_default);
   ("config_apery.ini", text_apery);
   ("config_apery_extend_hashtable.ini", text_apery_extend_hashtable);
   ("config_e_search_-4_to_5.ini", text_e_search_m4_to_5);
   ("config_e_search_inter_cubic.ini", text_e_search_inter_cubic);
   ("config_e_search_inter_lin.ini", text_e_search_inter_lin);
   ("config_pi_-4_to_5.ini", text_pi_m4_to_5);
   ("config_pi_interlaced_cubic.ini", text_pi_interlaced_cubic);
   ("config_pi_interlaced_linear.ini", text_pi_interlaced_linear);
   ("config_pi_search_-4_to_5.ini", text_pi_search_m4_to_5);
   ("config_pi_search_inter_cubic.ini", text_pi_search_inter_cubic);
   ("config_pi_search_inter_lin.ini", text_pi_search_inter_lin)]%string.
(** tests/fixtures/pi_sanitycheck_config.ini:1-72 and the others *)
Definition fixture_texts : list (text * text) := map (fun '(n, t) => (txt n, t))
  [("apery_sanitycheck_config.ini", fixtext_apery_sanitycheck);
   ("apery_sanitycheck_with_big_lhs_config.ini", fixtext_apery_sanitycheck_with_big_lhs);
   ("gen_hashtable_benchmark.ini", fixtext_gen_hashtable_benchmark);
   ("pi_sanitycheck_config.ini", fixtext_pi_sanitycheck)]%string.

(** The stored results: the files of results/OldResults. No proofs. Of each row the polynomials, the number of the function
    and u, l, c, d are kept; the columns behind them (type and rate of convergence, two decimals) are not modelled. *)
From Coq Require Import String ZArith List.
Import ListNotations.
Local Open Scope Z_scope.
Local Open Scope string_scope.

(** A row: columns 1-7 (columns 1-6 in results.csv, whose rows have no number of a function). [results/OldResults/results_0005_120418.csv:2-16] *)
Record stored_row := stored { sr_a : list Z; sr_b : list Z; sr_func : Z; sr_u : Z; sr_l : Z; sr_c : Z; sr_d : Z }.
(** A file: its name, the functions of the header, the target of the header ("" where there is none), the rows. [results/OldResults/results_0005_120418.csv:1-16] *)
Record stored_file := { sf_name : string; sf_funcs : list string; sf_target : string; sf_rows : list stored_row }.

(** results/OldResults/results.csv:1-14 — no function column; one function; no target in the header *)
Definition old_results : stored_file := {| sf_name := "results.csv"; sf_funcs := ["1/x"]; sf_target := ""; sf_rows := [
  stored [-1; -2; 0] [0; 0; 1] 0 0 (-4) 0 1;
  stored [1; 2; 0] [0; 0; 1] 0 0 (-4) 0 1;
  stored [-1; -2; 0] [0; 0; 1] 0 0 (-2) 0 2;
  stored [1; 2; 0] [0; 0; 1] 0 0 (-2) 0 2;
  stored [-1; -2; 0] [0; 0; 1] 0 0 (-1) 0 4;
  stored [1; 2; 0] [0; 0; 1] 0 0 (-1) 0 4;
  stored [-1; -2; 0] [0; 0; 1] 0 0 1 0 4;
  stored [1; 2; 0] [0; 0; 1] 0 0 1 0 4;
  stored [-1; -2; 0] [0; 0; 1] 0 0 2 0 2;
  stored [1; 2; 0] [0; 0; 1] 0 0 2 0 2;
  stored [-1; -2; 0] [0; 0; 1] 0 0 4 0 1;
  stored [1; 2; 0] [0; 0; 1] 0 0 4 0 1] |}.
(** results/OldResults/results_0005_120418.csv:1-16 *)
Definition old_results_0005_120418 : stored_file := {| sf_name := "results_0005_120418.csv"; sf_funcs := ["safe_inverse"; "lambda x: x"; "lambda x: x**2"; "lambda x: safe_inverse(x**2)"]; sf_target := "e"; sf_rows := [
  stored [-2; -2; 0] [0; 4; 0] 0 0 (-2) 1 1;
  stored [-2; -1; 0] [2; 1; 0] 0 0 (-2) 1 1;
  stored [0; -2; 0] [0; 4; 0] 0 0 (-1) 1 2;
  stored [-3; -1; 0] [0; -1; 0] 1 0 (-1) 0 1;
  stored [-1; -1; 0] [0; 1; 0] 0 0 (-1) 2 1;
  stored [-1; -1; 0] [1; 1; 0] 1 0 (-1) 1 1;
  stored [-1; 2; 4] [0; 6; -4] 0 0 (-1) 1 1;
  stored [0; -1; 0] [0; 1; 0] 0 0 (-1) 1 1;
  stored [1; 1; 0] [1; 1; 0] 1 0 (-1) 1 (-1);
  stored [3; 1; 0] [0; -1; 0] 1 0 (-1) 0 (-1);
  stored [-3; -1; 0] [0; -1; 0] 1 0 1 0 (-1);
  stored [-1; -1; 0] [1; 1; 0] 1 0 1 (-1) (-1);
  stored [1; 1; 0] [1; 1; 0] 1 0 1 (-1) 1;
  stored [3; 1; 0] [0; -1; 0] 1 0 1 0 1] |}.
(** results/OldResults/results_0117_050418.csv:1-3 *)
Definition old_results_0117_050418 : stored_file := {| sf_name := "results_0117_050418.csv"; sf_funcs := ["safe_inverse"; "lambda x: x"; "lambda x: x**2"]; sf_target := "pi"; sf_rows := [
  stored [-1; -2; 0] [0; 0; 1] 0 0 (-2) 0 2] |}.
(** results/OldResults/results_0301_080418.csv:1-6 *)
Definition old_results_0301_080418 : stored_file := {| sf_name := "results_0301_080418.csv"; sf_funcs := ["lambda x: dec_sin(x/18)"; "lambda x: 2*dec_sin(x/18)"; "lambda x: dec_sin(2*safe_inverse(x)/9)"; "lambda x: 2*dec_sin(2*safe_inverse(x)/9)"]; sf_target := "percolation, 0"; sf_rows := [
  stored [-1; -2; 0] [0; 0; 1] 2 0 (-1) 1 (-2);
  stored [1; 2; 0] [0; 0; 1] 2 0 (-1) 1 2;
  stored [-1; -2; 0] [0; 0; 1] 2 0 1 (-1) 2;
  stored [1; 2; 0] [0; 0; 1] 2 0 1 (-1) (-2)] |}.
(** results/OldResults/results_1114_070418.csv:1-3 *)
Definition old_results_1114_070418 : stored_file := {| sf_name := "results_1114_070418.csv"; sf_funcs := ["safe_inverse"; "lambda x: x"; "lambda x: x**2"; "lambda x: safe_inverse(x**2)"]; sf_target := "pi"; sf_rows := [
  stored [-1; -2; 0] [0; 0; 1] 0 0 (-4) 0 1] |}.
(** results/OldResults/results_1205_230418.csv:1-13 *)
Definition old_results_1205_230418 : stored_file := {| sf_name := "results_1205_230418.csv"; sf_funcs := ["safe_inverse"; "lambda x: x"; "lambda x: x**2"; "lambda x: safe_inverse(x**2)"; "safe_sqrt"]; sf_target := "e"; sf_rows := [
  stored [-2; -1; 0] [2; 1; 0] 0 0 (-2) 1 1;
  stored [-3; -1; 0] [0; -1; 0] 1 0 (-1) 0 1;
  stored [-1; -1; 0] [0; 1; 0] 0 0 (-1) 2 1;
  stored [-1; -1; 0] [1; 1; 0] 1 0 (-1) 1 1;
  stored [0; -1; 0] [0; 1; 0] 0 0 (-1) 1 1;
  stored [1; 1; 0] [1; 1; 0] 1 0 (-1) 1 (-1);
  stored [3; 1; 0] [0; -1; 0] 1 0 (-1) 0 (-1);
  stored [-3; -1; 0] [0; -1; 0] 1 0 1 0 (-1);
  stored [-1; -1; 0] [1; 1; 0] 1 0 1 (-1) (-1);
  stored [1; 1; 0] [1; 1; 0] 1 0 1 (-1) 1;
  stored [3; 1; 0] [0; -1; 0] 1 0 1 0 1] |}.
(** results/OldResults/results_1208_230418.csv:1-13 *)
Definition old_results_1208_230418 : stored_file := {| sf_name := "results_1208_230418.csv"; sf_funcs := ["safe_inverse"; "lambda x: x"; "lambda x: x**2"; "lambda x: safe_inverse(x**2)"; "safe_sqrt"]; sf_target := "e"; sf_rows := [
  stored [-2; -1; 0] [2; 1; 0] 0 0 (-2) 1 1;
  stored [-3; -1; 0] [0; -1; 0] 1 0 (-1) 0 1;
  stored [-1; -1; 0] [0; 1; 0] 0 0 (-1) 2 1;
  stored [-1; -1; 0] [1; 1; 0] 1 0 (-1) 1 1;
  stored [0; -1; 0] [0; 1; 0] 0 0 (-1) 1 1;
  stored [1; 1; 0] [1; 1; 0] 1 0 (-1) 1 (-1);
  stored [3; 1; 0] [0; -1; 0] 1 0 (-1) 0 (-1);
  stored [-3; -1; 0] [0; -1; 0] 1 0 1 0 (-1);
  stored [-1; -1; 0] [1; 1; 0] 1 0 1 (-1) (-1);
  stored [1; 1; 0] [1; 1; 0] 1 0 1 (-1) 1;
  stored [3; 1; 0] [0; -1; 0] 1 0 1 0 1] |}.
(** results/OldResults/results_1303_230418.csv:1-13 *)
Definition old_results_1303_230418 : stored_file := {| sf_name := "results_1303_230418.csv"; sf_funcs := ["safe_inverse"; "lambda x: x"; "lambda x: x**2"; "lambda x: safe_inverse(x**2)"; "safe_sqrt"]; sf_target := "e"; sf_rows := [
  stored [-2; -1; 0] [2; 1; 0] 0 0 (-2) 1 1;
  stored [-3; -1; 0] [0; -1; 0] 1 0 (-1) 0 1;
  stored [-1; -1; 0] [0; 1; 0] 0 0 (-1) 2 1;
  stored [-1; -1; 0] [1; 1; 0] 1 0 (-1) 1 1;
  stored [0; -1; 0] [0; 1; 0] 0 0 (-1) 1 1;
  stored [1; 1; 0] [1; 1; 0] 1 0 (-1) 1 (-1);
  stored [3; 1; 0] [0; -1; 0] 1 0 (-1) 0 (-1);
  stored [-3; -1; 0] [0; -1; 0] 1 0 1 0 (-1);
  stored [-1; -1; 0] [1; 1; 0] 1 0 1 (-1) (-1);
  stored [1; 1; 0] [1; 1; 0] 1 0 1 (-1) 1;
  stored [3; 1; 0] [0; -1; 0] 1 0 1 0 1] |}.
(** results/OldResults/results_1309_230418.csv:1-13 *)
Definition old_results_1309_230418 : stored_file := {| sf_name := "results_1309_230418.csv"; sf_funcs := ["safe_inverse"; "lambda x: x"; "lambda x: x**2"; "lambda x: safe_inverse(x**2)"; "safe_sqrt"]; sf_target := "e"; sf_rows := [
  stored [-2; -1; 0] [2; 1; 0] 0 0 (-2) 1 1;
  stored [-3; -1; 0] [0; -1; 0] 1 0 (-1) 0 1;
  stored [-1; -1; 0] [0; 1; 0] 0 0 (-1) 2 1;
  stored [-1; -1; 0] [1; 1; 0] 1 0 (-1) 1 1;
  stored [0; -1; 0] [0; 1; 0] 0 0 (-1) 1 1;
  stored [1; 1; 0] [1; 1; 0] 1 0 (-1) 1 (-1);
  stored [3; 1; 0] [0; -1; 0] 1 0 (-1) 0 (-1);
  stored [-3; -1; 0] [0; -1; 0] 1 0 1 0 (-1);
  stored [-1; -1; 0] [1; 1; 0] 1 0 1 (-1) (-1);
  stored [1; 1; 0] [1; 1; 0] 1 0 1 (-1) 1;
  stored [3; 1; 0] [0; -1; 0] 1 0 1 0 1] |}.
(** results/OldResults/results_1334_230418.csv:1-13 *)
Definition old_results_1334_230418 : stored_file := {| sf_name := "results_1334_230418.csv"; sf_funcs := ["safe_inverse"; "lambda x: x"; "lambda x: x**2"; "lambda x: safe_inverse(x**2)"; "safe_sqrt"]; sf_target := "e"; sf_rows := [
  stored [-2; -1; 0] [2; 1; 0] 0 0 (-2) 1 1;
  stored [-3; -1; 0] [0; -1; 0] 1 0 (-1) 0 1;
  stored [-1; -1; 0] [0; 1; 0] 0 0 (-1) 2 1;
  stored [-1; -1; 0] [1; 1; 0] 1 0 (-1) 1 1;
  stored [0; -1; 0] [0; 1; 0] 0 0 (-1) 1 1;
  stored [1; 1; 0] [1; 1; 0] 1 0 (-1) 1 (-1);
  stored [3; 1; 0] [0; -1; 0] 1 0 (-1) 0 (-1);
  stored [-3; -1; 0] [0; -1; 0] 1 0 1 0 (-1);
  stored [-1; -1; 0] [1; 1; 0] 1 0 1 (-1) (-1);
  stored [1; 1; 0] [1; 1; 0] 1 0 1 (-1) 1;
  stored [3; 1; 0] [0; -1; 0] 1 0 1 0 1] |}.
(** results/OldResults/results_1336_230418.csv:1-13 *)
Definition old_results_1336_230418 : stored_file := {| sf_name := "results_1336_230418.csv"; sf_funcs := ["safe_inverse"; "lambda x: x"; "lambda x: x**2"; "lambda x: safe_inverse(x**2)"; "safe_sqrt"]; sf_target := "e"; sf_rows := [
  stored [-2; -1; 0] [2; 1; 0] 0 0 (-2) 1 1;
  stored [-3; -1; 0] [0; -1; 0] 1 0 (-1) 0 1;
  stored [-1; -1; 0] [0; 1; 0] 0 0 (-1) 2 1;
  stored [-1; -1; 0] [1; 1; 0] 1 0 (-1) 1 1;
  stored [0; -1; 0] [0; 1; 0] 0 0 (-1) 1 1;
  stored [1; 1; 0] [1; 1; 0] 1 0 (-1) 1 (-1);
  stored [3; 1; 0] [0; -1; 0] 1 0 (-1) 0 (-1);
  stored [-3; -1; 0] [0; -1; 0] 1 0 1 0 (-1);
  stored [-1; -1; 0] [1; 1; 0] 1 0 1 (-1) (-1);
  stored [1; 1; 0] [1; 1; 0] 1 0 1 (-1) 1;
  stored [3; 1; 0] [0; -1; 0] 1 0 1 0 1] |}.
(** results/OldResults/results_1414_070418.csv:1-3 *)
Definition old_results_1414_070418 : stored_file := {| sf_name := "results_1414_070418.csv"; sf_funcs := ["safe_inverse"; "lambda x: x"; "lambda x: x**2"; "lambda x: safe_inverse(x**2)"]; sf_target := "pi"; sf_rows := [
  stored [-1; -2; 0] [0; 0; 1] 0 0 (-4) 0 1] |}.
(** results/OldResults/results_1517_050418.csv:1-2 *)
Definition old_results_1517_050418 : stored_file := {| sf_name := "results_1517_050418.csv"; sf_funcs := ["safe_inverse"; "lambda x: x"; "lambda x: x**2"]; sf_target := "euler"; sf_rows := [] |}.
(** results/OldResults/results_1718_050418.csv:1-2 *)
Definition old_results_1718_050418 : stored_file := {| sf_name := "results_1718_050418.csv"; sf_funcs := ["safe_inverse"; "lambda x: x"; "lambda x: x**2"; "lambda x: safe_inverse(x**2)"]; sf_target := "euler"; sf_rows := [] |}.
(** results/OldResults/results_2115_070418.csv:1-2 *)
Definition old_results_2115_070418 : stored_file := {| sf_name := "results_2115_070418.csv"; sf_funcs := ["safe_inverse"; "lambda x: x"; "lambda x: x**2"; "lambda x: safe_inverse(x**2)"]; sf_target := "euler_masch"; sf_rows := [] |}.
(** results/OldResults/results_2218_070418.csv:1-2 *)
Definition old_results_2218_070418 : stored_file := {| sf_name := "results_2218_070418.csv"; sf_funcs := ["lambda x: x**3"; "lambda x: safe_inverse(x**3)"; "lambda x: x**4"; "lambda x: safe_inverse(x**4)"; "lambda x: x**5"; "lambda x: safe_inverse(x**5)"]; sf_target := "e"; sf_rows := [] |}.
(** results/OldResults/results_2819_070418.csv:1-2 *)
Definition old_results_2819_070418 : stored_file := {| sf_name := "results_2819_070418.csv"; sf_funcs := ["safe_inverse"; "lambda x: x"; "lambda x: x**2"; "lambda x: safe_inverse(x**2)"]; sf_target := "percolation, 0"; sf_rows := [] |}.
(** results/OldResults/results_3018_050418.csv:1-17 *)
Definition old_results_3018_050418 : stored_file := {| sf_name := "results_3018_050418.csv"; sf_funcs := ["safe_inverse"; "lambda x: x"; "lambda x: x**2"; "lambda x: safe_inverse(x**2)"]; sf_target := "pi"; sf_rows := [
  stored [-1; -3; 0] [0; 3; -2] 0 0 (-4) 0 1;
  stored [-1; -2; 0] [0; 0; 1] 0 0 (-4) 0 1;
  stored [-3; -2; 0] [0; 2; 1] 0 0 (-2) 1 2;
  stored [-3; -3; 0] [1; -1; -2] 1 0 (-2) (-1) 1;
  stored [-2; -3; 0] [0; 1; -2] 0 0 (-2) 1 1;
  stored [-1; -3; 0] [0; 1; -2] 0 0 (-2) 0 1;
  stored [-1; 3; 0] [0; 3; -2] 0 0 (-2) (-2) 1;
  stored [0; -3; 0] [0; 3; -2] 0 0 (-2) (-1) 1;
  stored [3; 3; 0] [1; -1; -2] 1 0 (-2) (-1) (-1);
  stored [-3; -3; 0] [1; -1; -2] 1 0 (-1) (-2) 2;
  stored [3; 3; 0] [1; -1; -2] 1 0 (-1) (-2) (-2);
  stored [-3; -3; 0] [1; -1; -2] 1 0 1 2 (-2);
  stored [3; 3; 0] [1; -1; -2] 1 0 1 2 2;
  stored [-3; -3; 0] [1; -1; -2] 1 0 2 1 (-1);
  stored [3; 3; 0] [1; -1; -2] 1 0 2 1 1] |}.
(** results/OldResults/results_3113_100418.csv:1-2 *)
Definition old_results_3113_100418 : stored_file := {| sf_name := "results_3113_100418.csv"; sf_funcs := ["safe_inverse"; "lambda x: x"; "lambda x: x**2"; "lambda x: safe_inverse(x**2)"]; sf_target := "percolation, 0"; sf_rows := [] |}.
(** results/OldResults/results_3122_070418.csv:1-2 *)
Definition old_results_3122_070418 : stored_file := {| sf_name := "results_3122_070418.csv"; sf_funcs := ["safe_inverse"; "lambda x: x"; "lambda x: x**2"; "lambda x: safe_inverse(x**2)"]; sf_target := "percolation, 0"; sf_rows := [] |}.
(** results/OldResults/results_3519_070418.csv:1-2 *)
Definition old_results_3519_070418 : stored_file := {| sf_name := "results_3519_070418.csv"; sf_funcs := ["safe_inverse"; "lambda x: x"; "lambda x: x**2"; "lambda x: safe_inverse(x**2)"]; sf_target := "percolation, 0"; sf_rows := [] |}.
(** results/OldResults/results_3719_070418.csv:1-2 *)
Definition old_results_3719_070418 : stored_file := {| sf_name := "results_3719_070418.csv"; sf_funcs := ["safe_inverse"; "lambda x: x"; "lambda x: x**2"; "lambda x: safe_inverse(x**2)"]; sf_target := "percolation, 0"; sf_rows := [] |}.
(** results/OldResults/results_3819_070418.csv:1-2 *)
Definition old_results_3819_070418 : stored_file := {| sf_name := "results_3819_070418.csv"; sf_funcs := ["safe_inverse"; "lambda x: x"; "lambda x: x**2"; "lambda x: safe_inverse(x**2)"]; sf_target := "percolation, 0"; sf_rows := [] |}.
(** results/OldResults/results_4019_070418.csv:1-2 *)
Definition old_results_4019_070418 : stored_file := {| sf_name := "results_4019_070418.csv"; sf_funcs := ["safe_inverse"; "lambda x: x"; "lambda x: x**2"; "lambda x: safe_inverse(x**2)"]; sf_target := "percolation, 0"; sf_rows := [] |}.
(** results/OldResults/results_4200_080418.csv:1-2 *)
Definition old_results_4200_080418 : stored_file := {| sf_name := "results_4200_080418.csv"; sf_funcs := ["lambda x: dec_sin(x/18)"; "lambda x: 2*dec_sin(x/18)"]; sf_target := "percolation, 1"; sf_rows := [] |}.
(** results/OldResults/results_4521_050418.csv:1-18 *)
Definition old_results_4521_050418 : stored_file := {| sf_name := "results_4521_050418.csv"; sf_funcs := ["safe_inverse"; "lambda x: x"; "lambda x: x**2"; "lambda x: safe_inverse(x**2)"]; sf_target := "pi"; sf_rows := [
  stored [-2; -4; 0] [0; 0; 4] 0 0 (-8) 0 1;
  stored [-1; -3; 0] [0; 3; -2] 0 0 (-4) 0 1;
  stored [-1; -2; 0] [0; 0; 1] 0 0 (-4) 0 1;
  stored [-3; -2; 0] [0; 2; 1] 0 0 (-2) 1 2;
  stored [-3; -3; 0] [1; -1; -2] 1 0 (-2) (-1) 1;
  stored [-2; -3; 0] [0; 1; -2] 0 0 (-2) 1 1;
  stored [-1; -3; 0] [0; 1; -2] 0 0 (-2) 0 1;
  stored [-1; 3; 0] [0; 3; -2] 0 0 (-2) (-2) 1;
  stored [0; -3; 0] [0; 3; -2] 0 0 (-2) (-1) 1;
  stored [3; 3; 0] [1; -1; -2] 1 0 (-2) (-1) (-1);
  stored [-3; -3; 0] [1; -1; -2] 1 0 (-1) (-2) 2;
  stored [3; 3; 0] [1; -1; -2] 1 0 (-1) (-2) (-2);
  stored [-3; -3; 0] [1; -1; -2] 1 0 1 2 (-2);
  stored [3; 3; 0] [1; -1; -2] 1 0 1 2 2;
  stored [-3; -3; 0] [1; -1; -2] 1 0 2 1 (-1);
  stored [3; 3; 0] [1; -1; -2] 1 0 2 1 1] |}.
(** results/OldResults/results_4614_070418.csv:1-15 *)
Definition old_results_4614_070418 : stored_file := {| sf_name := "results_4614_070418.csv"; sf_funcs := ["safe_inverse"; "lambda x: x"; "lambda x: x**2"; "lambda x: safe_inverse(x**2)"]; sf_target := "e"; sf_rows := [
  stored [-2; -2; 0] [0; 4; 0] 0 0 (-2) 1 1;
  stored [-2; -1; 0] [2; 1; 0] 0 0 (-2) 1 1;
  stored [0; -2; 0] [0; 4; 0] 0 0 (-1) 1 2;
  stored [-3; -1; 0] [0; -1; 0] 1 0 (-1) 0 1;
  stored [-1; -1; 0] [0; 1; 0] 0 0 (-1) 2 1;
  stored [-1; -1; 0] [1; 1; 0] 1 0 (-1) 1 1;
  stored [0; -1; 0] [0; 1; 0] 0 0 (-1) 1 1;
  stored [1; 1; 0] [1; 1; 0] 1 0 (-1) 1 (-1);
  stored [3; 1; 0] [0; -1; 0] 1 0 (-1) 0 (-1);
  stored [-3; -1; 0] [0; -1; 0] 1 0 1 0 (-1);
  stored [-1; -1; 0] [1; 1; 0] 1 0 1 (-1) (-1);
  stored [1; 1; 0] [1; 1; 0] 1 0 1 (-1) 1;
  stored [3; 1; 0] [0; -1; 0] 1 0 1 0 1] |}.
(** results/OldResults/results_5118_050418.csv:1-18 *)
Definition old_results_5118_050418 : stored_file := {| sf_name := "results_5118_050418.csv"; sf_funcs := ["safe_inverse"; "lambda x: x"; "lambda x: x**2"; "lambda x: safe_inverse(x**2)"]; sf_target := "pi"; sf_rows := [
  stored [-2; -4; 0] [0; 0; 4] 0 0 (-8) 0 1;
  stored [-1; -3; 0] [0; 3; -2] 0 0 (-4) 0 1;
  stored [-1; -2; 0] [0; 0; 1] 0 0 (-4) 0 1;
  stored [-3; -2; 0] [0; 2; 1] 0 0 (-2) 1 2;
  stored [-3; -3; 0] [1; -1; -2] 1 0 (-2) (-1) 1;
  stored [-2; -3; 0] [0; 1; -2] 0 0 (-2) 1 1;
  stored [-1; -3; 0] [0; 1; -2] 0 0 (-2) 0 1;
  stored [-1; 3; 0] [0; 3; -2] 0 0 (-2) (-2) 1;
  stored [0; -3; 0] [0; 3; -2] 0 0 (-2) (-1) 1;
  stored [3; 3; 0] [1; -1; -2] 1 0 (-2) (-1) (-1);
  stored [-3; -3; 0] [1; -1; -2] 1 0 (-1) (-2) 2;
  stored [3; 3; 0] [1; -1; -2] 1 0 (-1) (-2) (-2);
  stored [-3; -3; 0] [1; -1; -2] 1 0 1 2 (-2);
  stored [3; 3; 0] [1; -1; -2] 1 0 1 2 2;
  stored [-3; -3; 0] [1; -1; -2] 1 0 2 1 (-1);
  stored [3; 3; 0] [1; -1; -2] 1 0 2 1 1] |}.
(** results/OldResults/results_5200_080418.csv:1-14 *)
Definition old_results_5200_080418 : stored_file := {| sf_name := "results_5200_080418.csv"; sf_funcs := ["lambda x: dec_sin(x/18)"; "lambda x: 2*dec_sin(x/18)"; "lambda x: dec_sin(2*safe_inverse(x)/9)"; "lambda x: 2*dec_sin(2*safe_inverse(x)/9)"]; sf_target := "percolation, 1"; sf_rows := [
  stored [-1; -2; 0] [0; 0; 1] 2 0 (-2) 0 1;
  stored [1; 2; 0] [0; 0; 1] 2 0 (-2) 0 (-1);
  stored [-1; -2; 0] [0; 0; 1] 3 0 (-1) 0 1;
  stored [1; 2; 0] [0; 0; 1] 3 0 (-1) 0 (-1);
  stored [-1; -2; 0] [0; 0; 1] 2 0 (-1) 0 2;
  stored [1; 2; 0] [0; 0; 1] 2 0 (-1) 0 (-2);
  stored [-1; -2; 0] [0; 0; 1] 3 0 1 0 (-1);
  stored [1; 2; 0] [0; 0; 1] 3 0 1 0 1;
  stored [-1; -2; 0] [0; 0; 1] 2 0 1 0 (-2);
  stored [1; 2; 0] [0; 0; 1] 2 0 1 0 2;
  stored [-1; -2; 0] [0; 0; 1] 2 0 2 0 (-1);
  stored [1; 2; 0] [0; 0; 1] 2 0 2 0 1] |}.
(** results/OldResults/results_5300_080418.csv:1-14 *)
Definition old_results_5300_080418 : stored_file := {| sf_name := "results_5300_080418.csv"; sf_funcs := ["lambda x: dec_sin(x/18)"; "lambda x: 2*dec_sin(x/18)"; "lambda x: dec_sin(2*safe_inverse(x)/9)"; "lambda x: 2*dec_sin(2*safe_inverse(x)/9)"]; sf_target := "percolation, 1"; sf_rows := [
  stored [-1; -2; 0] [0; 0; 1] 2 0 (-2) 0 1;
  stored [1; 2; 0] [0; 0; 1] 2 0 (-2) 0 (-1);
  stored [-1; -2; 0] [0; 0; 1] 3 0 (-1) 0 1;
  stored [1; 2; 0] [0; 0; 1] 3 0 (-1) 0 (-1);
  stored [-1; -2; 0] [0; 0; 1] 2 0 (-1) 0 2;
  stored [1; 2; 0] [0; 0; 1] 2 0 (-1) 0 (-2);
  stored [-1; -2; 0] [0; 0; 1] 3 0 1 0 (-1);
  stored [1; 2; 0] [0; 0; 1] 3 0 1 0 1;
  stored [-1; -2; 0] [0; 0; 1] 2 0 1 0 (-2);
  stored [1; 2; 0] [0; 0; 1] 2 0 1 0 2;
  stored [-1; -2; 0] [0; 0; 1] 2 0 2 0 (-1);
  stored [1; 2; 0] [0; 0; 1] 2 0 2 0 1] |}.
(** results/OldResults/results_5517_070418.csv:1-2 *)
Definition old_results_5517_070418 : stored_file := {| sf_name := "results_5517_070418.csv"; sf_funcs := ["lambda x: x**3"; "lambda x: safe_inverse(x**3)"; "lambda x: x**4"; "lambda x: safe_inverse(x**4)"; "lambda x: x**5"; "lambda x: safe_inverse(x**5)"]; sf_target := "feig, 3"; sf_rows := [] |}.
(** results/OldResults/results_5715_070418.csv:1-2 *)
Definition old_results_5715_070418 : stored_file := {| sf_name := "results_5715_070418.csv"; sf_funcs := ["lambda x: x**3"; "lambda x: safe_inverse(x**3)"; "lambda x: x**4"; "lambda x: safe_inverse(x**4)"; "lambda x: x**5"; "lambda x: safe_inverse(x**5)"]; sf_target := "euler_masch"; sf_rows := [] |}.

(** all files of results/OldResults; the oldest one, results/OldResults/results.csv:1-14, has a format of its own *)
Definition stored_files : list stored_file :=
  [old_results_0005_120418; old_results_0117_050418; old_results_0301_080418; old_results_1114_070418; old_results_1205_230418; old_results_1208_230418; old_results_1303_230418; old_results_1309_230418; old_results_1334_230418; old_results_1336_230418; old_results_1414_070418; old_results_1517_050418; old_results_1718_050418; old_results_2115_070418; old_results_2218_070418; old_results_2819_070418; old_results_3018_050418; old_results_3113_100418; old_results_3122_070418; old_results_3519_070418; old_results_3719_070418; old_results_3819_070418; old_results_4019_070418; old_results_4200_080418; old_results_4521_050418; old_results_4614_070418; old_results_5118_050418; old_results_5200_080418; old_results_5300_080418; old_results_5517_070418; old_results_5715_070418].

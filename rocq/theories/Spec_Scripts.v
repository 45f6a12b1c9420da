(** Specifications for the scripts around the program. *)
From Coq Require Import Ascii String ZArith QArith List Bool Permutation.
From Verif Require Import PyBase Hashtable_Model Spec_ULCD Spec_Enum Spec_Config Spec_Dist Config_Model MITM_Model Main_Model Spec_Main.
Import ListNotations.
Local Open Scope Z_scope.
Local Open Scope list_scope.

(** A file name in the current directory: a stem that is not just dots, a dot, and an extension without dots. *)
Definition file_name (stem ext : list ascii) : Prop :=
  ~ In "/"%char stem /\ ~ In "/"%char ext /\ ~ In "."%char ext /\ exists c, In c stem /\ c <> "."%char.
Definition named (stem ext : list ascii) : list ascii := stem ++ chars "." ++ ext.
(** The directory and the files of the jobs. *)
Definition jobs_dir (stem : list ascii) (n : Z) : list ascii := stem ++ chars "_dist_" ++ int_chars n.
Definition job_file (stem ext : list ascii) (n i : Z) : list ascii :=
  in_dir (jobs_dir stem n) (named (stem ++ chars "_" ++ int_chars i) ext).
(** The name of the table of a job. *)
Definition two_digits (i : Z) : list ascii := if i <? 10 then chars "0" ++ int_chars i else int_chars i.
Definition part (base : list ascii) (i : Z) : list ascii := base ++ chars "_part" ++ two_digits i.
(** The path of a directory, written with small letters, digits, underscores, dashes, dots and slashes. *)
Definition plain_dir (d : list ascii) : Prop :=
  Forall (fun c => plain_char c \/ c = "."%char \/ c = "/"%char) d /\ exists d' c, d = d' ++ [c] /\ c <> "/"%char.
(** A name that ends in .pkl. *)
Definition pkl_name (n : list ascii) : Prop := exists s, n = s ++ chars ".pkl" /\ exists c, In c s /\ c <> "."%char.

(** Lists of integers, or of lists of them, and so on. *)
Inductive int_list : json -> Prop :=
| IL_int : forall z, int_list (JInt z)
| IL_list : forall l, Forall int_list l -> int_list (JList l).
Definition plain_setting (c : config) (k : string) : Prop :=
  c_get c k = CNone \/ (exists z, c_get c k = CInt z) \/ exists l, c_get c k = CList l /\ Forall int_list l.
(** The settings of a job are those of the whole search, except for the ranges and the table file. *)
Definition job_of (c : config) (j : space) (file : list ascii) (c' : config) : Prop :=
  ranges_setting c' "a_coeffs_range" (fst j) /\ ranges_setting c' "b_coeffs_range" (snd j) /\ table_path c' file /\
  forall k, In (txt k) (map fst CONFIG_PARAMS_TYPES) -> ~ In k ["a_coeffs_range"; "b_coeffs_range"; "hashtable_file"]%string ->
    c_get c' k = c_get c k.
(** The tables in the files of a directory with names ending in .pkl, in the order of the listing. *)
Inductive held (w : world) (d : list ascii) : list (list ascii) -> list saved -> Prop :=
| held_nil : held w d [] []
| held_pkl : forall n l s ss, pkl_name n -> table_at w (in_dir d n) = Some s -> held w d l ss -> held w d (n :: l) (s :: ss)
| held_other : forall n l ss, ~ pkl_name n -> held w d l ss -> held w d (n :: l) ss.
(** The path of a directory, not ending in a slash, and names without slashes. *)
Definition dir_path (d : list ascii) : Prop := exists d' c, d = d' ++ [c] /\ c <> "/"%char.
Definition bare (l : list (list ascii)) : Prop := Forall (fun n => ~ In "/"%char n) l.
(** What a run computes does not depend on the process, apart from the orders in which sets are visited. *)
Definition same_machine (v v' : env) : Prop :=
  v_fsqrt v' = v_fsqrt v /\ v_ibinom v' = v_ibinom v /\ v_target v' = v_target v /\ v_sq v' = v_sq v.
Definition masks_ok (v : env) : Prop := forall l, Permutation (v_masks v l) l.
(** A listing of the directory [d]: of the names with .pkl in them there are exactly those of the tables. *)
Definition lists (w : world) (d : list ascii) (l : list (list ascii)) : Prop :=
  NoDup l /\ bare l /\ forall r s, ~ In "/"%char (r ++ chars ".pkl" ++ s) ->
    (In (r ++ chars ".pkl" ++ s) l <-> table_at w (in_dir d (r ++ chars ".pkl" ++ s)) <> None).
(** The jobs in the files [fs] are run successfully, one after the other. *)
Inductive job_runs (v0 : env) (d : list ascii) : list (list ascii) -> world -> world -> Prop :=
| JR_nil : forall w, job_runs v0 d [] w w
| JR_cons : forall f fs v listdir its w w' w'', file_at w f = Some (OConf its) -> same_machine v0 v -> env_ok v -> masks_ok v ->
    lists w d (listdir d) -> run v listdir (Some its) w = (w', Some (Ok tt)) -> job_runs v0 d fs w' w'' -> job_runs v0 d (f :: fs) w w''.
(** What is needed of the binomial coefficients for the indexed class, and of the sizes for the sparse one. *)
Definition fits (v : env) (c : config) (s : space) : Prop :=
  match c_get c "ab_polys_type" with
  | CPoly PIndexed => forall n j, (j <= n)%nat -> v_ibinom v (Z.of_nat n) (Z.of_nat j) = pascal n j
  | CPoly PSparse => exists na nb ka kb, c_get c "ab_polys_special_params" = CList [JInt na; JInt nb] /\ 0 <= na /\ 0 <= nb /\ fst s <> [] /\ snd s <> [] /\
                   Forall (fun r => length r = ka) (fst s) /\ Forall (fun r => length r = kb) (snd s)
  | _ => True
  end.
(** The numbers 0, ..., n - 1. *)
Definition numbers (n : Z) : list Z := map Z.of_nat (seq 0 (Z.to_nat n)).

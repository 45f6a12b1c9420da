(** Properties C60, C61, C79-C81: post-processing functions and exported results. *)
From Coq Require Import Ascii String ZArith QArith Qabs List Bool Lia Permutation.
From Verif Require Import PyBase PyBase_Proofs Rnd Rnd_Proofs Utils_Model ContFrac_Model Hashtable_Model ULCD_Model Rational_Model MITM_Model
  Spec_Utils Spec_ContFrac Spec_ULCD Utils_Proofs ContFrac_Proofs ContFrac_Hist Results_Model Spec_Results Results_Proofs
  Hashtable_Proofs MITM_Build Properties_ContFrac Properties_MITM.
Import ListNotations.
Local Open Scope Z_scope.
Local Open Scope list_scope.

(** ---- C60: inverse pairs ---- *)
(** The table of inverse pairs relates exactly the functions 2k and 2k+1, in both directions ... *)
Theorem C60_pairs : exists ps, INVERSE_POSTPROC_PAIRS = Ok ps /\
  forall i j, In (i, j) ps <-> exists k, 0 <= k < 12 /\ ((i = 2 * k /\ j = 2 * k + 1) \/ (i = 2 * k + 1 /\ j = 2 * k)).
Proof.
  eexists. split; [vm_compute; reflexivity|]. intros i j. split.
  - intros H. cbn in H. repeat match goal with H : _ \/ _ |- _ => destruct H as [H|H] end; try contradiction;
      injection H as <- <-;
      match goal with |- exists k, _ /\ ((?a = _ /\ _) \/ _) => exists (a / 2) end; (split; [vm_compute; split; [discriminate|reflexivity]|]);
      first [left; split; reflexivity|right; split; reflexivity].
  - intros (k & K & H).
    assert (C : k = 0 \/ k = 1 \/ k = 2 \/ k = 3 \/ k = 4 \/ k = 5 \/ k = 6 \/ k = 7 \/ k = 8 \/ k = 9 \/ k = 10 \/ k = 11) by lia.
    destruct H as [[-> ->]|[-> ->]];
    repeat match goal with C : _ \/ _ |- _ => destruct C as [C|C] end; subst k; cbn; tauto.
Qed.
(** ... and function 2k+1 is 1/f for the function f number 2k, with infinity for 1/0, at every argument and for every
    class of numbers. *)
Theorem C60_inverse : forall N (ops : numops N) k f g x, 0 <= k < 12 ->
  py_nth (EVALUATED_POSTPROC_FUNCS ops) (2 * k) = Ok f -> py_nth (EVALUATED_POSTPROC_FUNCS ops) (2 * k + 1) = Ok g ->
  g x = (let* y := f x in let* z := no_is_zero ops y in if z then Ok (no_inf ops) else no_recip ops y).
Proof.
  intros N ops k f g x K F G.
  assert (C : k = 0 \/ k = 1 \/ k = 2 \/ k = 3 \/ k = 4 \/ k = 5 \/ k = 6 \/ k = 7 \/ k = 8 \/ k = 9 \/ k = 10 \/ k = 11) by lia.
  repeat match goal with C : _ \/ _ |- _ => destruct C as [C|C] end; subst k;
    vm_compute in F, G; injection F as <-; injection G as <-; reflexivity.
Qed.
(** The functions that can be evaluated are the documented ones: identity, powers, square root (NaN for a negative
    argument), exp, ln and their inverses. *)
Definition fn_of {N} (ops : numops N) (f : string) (y : N) : res N :=
  if String.eqb f "sqrt" then let* n := no_neg ops y in if n then Ok (no_nan ops) else no_sqrt ops y
  else no_meth ops (chars f) y.
Definition inv_of {N} (ops : numops N) (y : N) : res N := let* z := no_is_zero ops y in if z then Ok (no_inf ops) else no_recip ops y.
Theorem C60_values : forall N (ops : numops N) i f t x, 0 <= i < 12 \/ 20 <= i < 24 ->
  py_nth (EVALUATED_POSTPROC_FUNCS ops) i = Ok f -> post_tree i = Some t ->
  f x = ptree_val (inv_of ops) (no_pow ops) (fn_of ops) t x.
Proof.
  intros N ops i f t x H. assert (I : 0 <= i < 24) by lia. revert f t x H.
  pattern i. revert i I. apply idx24; intros f t x H F T; try lia;
    vm_compute in F, T; injection F as <-; injection T as <-; reflexivity.
Qed.
Example C60_ex : (let* f := py_nth (EVALUATED_POSTPROC_FUNCS (mpf_ops (rnd 20) (fun q => q))) 4 in f (Fin 3)) = Ok (Fin 27) /\
  (let* g := py_nth (EVALUATED_POSTPROC_FUNCS {| no_is_zero := fun q => Ok (Qeq_bool q 0); no_recip := fun q => Ok (/ q)%Q; no_pow := fun q n => Ok (Qpower q n);
    no_neg := fun q => Ok (negb (Qle_bool 0 q)); no_sqrt := fun q => Ok q; no_meth := fun _ q => Ok q; no_inf := 0%Q; no_nan := 0%Q |}) 5 in
   g 3%Q) = Ok (1 # 27)%Q.
Proof. split; vm_compute; reflexivity. Qed.

(** ---- C61: continued fractions in LaTeX ---- *)
(** The text for a_0..a_n and b_0..b_n is that of a_0 + b_1/(a_1 + ... b_n/(a_n + dots)); b_0 is not used. With more
    values of b than of a it is the last ones that are used. *)
Theorem C61_text : forall a0 l pre, latex_cont_frac (a0 :: map fst l) (pre ++ map snd l) = Ok (cf_text a0 l).
Proof. intros. apply latex_cf_ok. Qed.
(** There is a text exactly when a is not empty and b has at least as many values, less one. *)
Theorem C61_total : forall a b,
  (a <> [] /\ (length a <= length b + 1)%nat -> exists t, latex_cont_frac a b = Ok t) /\
  (a = [] \/ (length b + 1 < length a)%nat -> latex_cont_frac a b = Raise IndexError).
Proof.
  intros a b. split; [|apply latex_cf_raise]. intros [A L]. destruct a as [|a0 a]; [congruence|]. cbn [length] in L.
  exists (cf_text a0 (combine a (skipn (length b - length a) b))).
  pose proof (latex_cf_ok (combine a (skipn (length b - length a) b)) a0 (firstn (length b - length a) b)) as H.
  assert (E : length a = length (skipn (length b - length a) b)) by (rewrite skipn_length; lia).
  assert (M1 : map fst (combine a (skipn (length b - length a) b)) = a).
  { revert E. generalize (skipn (length b - length a) b). clear. induction a as [|x a IH]; intros [|y l] E; cbn in *; try lia; [reflexivity|].
    f_equal. apply IH. lia. }
  assert (M2 : map snd (combine a (skipn (length b - length a) b)) = skipn (length b - length a) b).
  { revert E. generalize (skipn (length b - length a) b). clear. induction a as [|x a IH]; intros [|y l] E; cbn in *; try lia; [reflexivity|].
    f_equal. apply IH. lia. }
  rewrite M1, M2, firstn_skipn in H. exact H.
Qed.
(** With the dots read as 0 the text denotes the convergent of the listed coefficients. *)
Theorem C61_denotes : forall a0 l, match cf_denotes a0 l 0, nested (inject_Z a0) (toQ l) with
  | Some x, Some y => (x == y)%Q | None, None => True | _, _ => False end.
Proof. intros. apply cf_denotes_nested. Qed.
(** Different coefficients have different texts. *)
Theorem C61_injective : forall a0 l a0' l', cf_text a0 l = cf_text a0' l' -> a0 = a0' /\ l = l'.
Proof. intros. apply (cf_text_inj _ _ _ _ [] []). now rewrite !app_nil_r. Qed.
Example C61_ex : latex_cont_frac [2; 4; -1] [3; 2; 7] = Ok (chars "2 + \frac{ 2 } { 4 + \frac{ 7 } { -1 + \dots } }") /\
  cf_denotes 2 [(4, 2); (-1, 7)] 0 = Some (inject_Z 2 + inject_Z 2 / (inject_Z 4 + inject_Z 7 / (inject_Z (-1) + 0)))%Q.
Proof. split; reflexivity. Qed.

(** ---- C79: which post-processing functions work ---- *)
(** The trigonometric ones raise NameError whatever the argument and the class of numbers. *)
Theorem C79_trig : forall N (ops : numops N) i f x, 12 <= i < 20 -> py_nth (EVALUATED_POSTPROC_FUNCS ops) i = Ok f -> f x = Raise NameError.
Proof.
  intros N ops i f x H. assert (I : 0 <= i < 24) by lia. revert f x H.
  pattern i. revert i I. apply idx24; intros f x H F; try lia; vm_compute in F; injection F as <-; reflexivity.
Qed.
(** With mpmath numbers (the values of all fractions) only the identity, the powers and the square root work: every
    inverse, exp and ln raise AttributeError. *)
Lemma func_total : forall N (ops : numops N) i, 0 <= i < 24 -> exists f, py_nth (EVALUATED_POSTPROC_FUNCS ops) i = Ok f.
Proof. intros N ops i H. pattern i. revert i H. apply idx24; eexists; vm_compute; reflexivity. Qed.
Definition mpf_works (i : Z) : bool := existsb (Z.eqb i) [0; 2; 4; 6; 8; 10].
Theorem C79_mpf : forall rd sq i, 0 <= i < 24 ->
  exists f, py_nth (EVALUATED_POSTPROC_FUNCS (mpf_ops rd sq)) i = Ok f /\
  forall x, if mpf_works i then exists v, f x = Ok v
            else f x = Raise (if (12 <=? i) && (i <? 20) then NameError else AttributeError).
Proof.
  intros rd sq i H. destruct (func_total _ (mpf_ops rd sq) i H) as (f & F). exists f. split; [exact F|]. intros x.
  destruct (Z_lt_dec i 12) as [L1|L1]; [|destruct (Z_lt_dec i 20) as [L2|L2]].
  3:{ assert (W : 0 <= i < 12 \/ 20 <= i < 24) by lia. revert f F x. assert (C : i = 20 \/ i = 21 \/ i = 22 \/ i = 23) by lia.
      destruct C as [C|[C|[C|C]]]; subst i; intros f F x; rewrite (C60_values _ _ _ _ _ x W F eq_refl); reflexivity. }
  2:{ rewrite (C79_trig _ _ _ _ x (conj (proj1 (Z.nlt_ge _ _) L1) L2) F).
      assert (C : i = 12 \/ i = 13 \/ i = 14 \/ i = 15 \/ i = 16 \/ i = 17 \/ i = 18 \/ i = 19) by lia.
      repeat match goal with C : _ \/ _ |- _ => destruct C as [C|C] end; subst i; reflexivity. }
  revert f F x.
  assert (C : i = 0 \/ i = 1 \/ i = 2 \/ i = 3 \/ i = 4 \/ i = 5 \/ i = 6 \/ i = 7 \/ i = 8 \/ i = 9 \/ i = 10 \/ i = 11) by lia.
  repeat match goal with C : _ \/ _ |- _ => destruct C as [C|C] end; assert (W : 0 <= i < 12 \/ 20 <= i < 24) by lia; subst i; intros f F x;
    rewrite (C60_values _ _ _ _ _ x W F eq_refl); cbn [mpf_works existsb Z.eqb Pos.eqb orb andb Z.leb Z.ltb Z.compare Pos.compare Pos.compare_cont];
    cbn [ptree_val]; destruct x as [q|]; try (eexists; reflexivity); try reflexivity;
    cbn [bind fn_of mpf_ops no_neg String.eqb Ascii.eqb Bool.eqb]; destruct (Qlt_le_dec q 0); first [eexists; reflexivity|reflexivity].
Qed.
(** So with mpmath numbers a build whose filter names any other function (the default filter (0, 1, 2, 10) does) raises as
    soon as one enumerated pair has a normal value. *)
Lemma funcs_loop_all rd trunc : forall fs ab v kb t t1 kb1, funcs_loop rd trunc fs ab v kb t = ((t1, kb1), Ok tt) ->
  forall i f, In (SPair i f) fs -> exists k, f (Fin v) = Ok k.
Proof.
  induction fs as [|s fs IH]; intros ab v kb t t1 kb1 H i f I; [contradiction|]. cbn [funcs_loop] in H.
  destruct s as [j g|j]; [|discriminate]. destruct (g (Fin v)) as [k|e] eqn:G; [|discriminate].
  destruct I as [I|I]; [injection I as <- <-; eauto|].
  destruct (negb (isnormal k)); [eauto|]. destruct (trunc_int rd trunc (absv k)) as [[q|]|e]; try discriminate.
  destruct (store ab j q t) as [t2 [[]|e]]; [|discriminate]. eauto.
Qed.
Lemma pairs_loop_all rd cfval trunc order : (forall ab l, Permutation (order ab l) l) ->
  forall pairs fs kb t t1 kb1, pairs_loop rd cfval trunc order pairs fs [] kb t = ((t1, kb1), Ok tt) ->
  forall ab v i f, In ab pairs -> cfval ab = Ok v -> ~ (v == 0)%Q -> In (SPair i f) fs -> exists k, f (Fin v) = Ok k.
Proof.
  intros HO. induction pairs as [|ab0 pairs IH]; intros fs kb t t1 kb1 H ab v i f I C N F; [contradiction|].
  cbn [pairs_loop d_get] in H.
  destruct I as [->|I].
  - rewrite C in H. assert (NB : isnormal (Fin v) = true) by (cbn; destruct (Qeq_bool v 0) eqn:E; [apply Qeq_bool_iff in E; contradiction|reflexivity]).
    rewrite NB in H. cbn [negb] in H.
    destruct (funcs_loop rd trunc (order ab fs) ab v kb t) as [[t2 kb2] [[]|e]] eqn:FL; [|discriminate].
    apply (funcs_loop_all _ _ _ _ _ _ _ _ _ FL i f). now apply (Permutation_in _ (Permutation_sym (HO ab fs))).
  - destruct (cfval ab0) as [v0|[]]; try discriminate; [|now apply (IH _ _ _ _ _ H ab v i f)].
    destruct (negb (isnormal (Fin v0))); [now apply (IH _ _ _ _ _ H ab v i f)|].
    destruct (funcs_loop rd trunc (order ab0 fs) ab0 v0 kb t) as [[t2 kb2] [[]|e]]; [|discriminate].
    now apply (IH _ _ _ _ _ H ab v i f).
Qed.
Theorem C79_build : forall (O : Type) rd sq fsqrt ibinom mo order target ra rb v (m : mitm O) pairs y ab i q,
  (forall ab l, Permutation (order ab l) l) ->
  mi_funcs m = EVALUATED_POSTPROC_FUNCS (mpf_ops rd sq) -> In i (mi_filter m) -> 0 <= i < 24 -> mpf_works i = false ->
  rhs_pairs rd fsqrt ibinom mo target m ra rb = Ok (pairs, y) -> In ab pairs -> cf_value rd (mi_iters m) ab = Ok q -> ~ (q == 0)%Q ->
  v = false \/ h_data (mi_table m) = [] ->
  exists e, snd (build_hashtable rd fsqrt ibinom mo order target ra rb v m) = Raise e.
Proof.
  intros O rd sq fsqrt ib mo order tg ra rb v m pairs y ab i q HO HF HI I24 HW HP HA HC HQ HV.
  unfold build_hashtable. rewrite HP. unfold iter2hashtable.
  destruct (filtered_funcs (mi_funcs m) (mi_filter m)) as [fs|e] eqn:EF; [|eexists; reflexivity].
  assert (EB : (if v then blacklist (mi_table m) else Ok []) = Ok []).
  { destruct HV as [->|HV]; [reflexivity|]. destruct v; [|reflexivity]. unfold blacklist. now rewrite HV. }
  rewrite EB. cbn [fst snd].
  destruct (C79_mpf rd sq i I24) as (f & Ef & Hf). rewrite HW in Hf.
  destruct (pairs_loop rd (cf_value rd (mi_iters m)) (mi_trunc m) order pairs fs [] (v && match h_data (mi_table m) with [] => false | _ => true end) (mi_table m))
    as [[t1 kb1] [[]|e]] eqn:PL; [|eexists; reflexivity].
  exfalso. destruct (filtered_funcs_spec _ _ _ EF) as [_ FI].
  destruct (pairs_loop_all _ _ _ _ HO _ _ _ _ _ _ PL ab q i f HA HC HQ) as (k & K); [apply FI; now rewrite HF|].
  rewrite Hf in K. discriminate.
Qed.
Definition m_def : mitm ulcd := match mitm_new true 3 {| s_target := 22 # 7; s_name := txt "pi"; s_filter := [0; 1; 2; 10]; s_trunc := true; s_hprec := 6;
  s_class := PNormal; s_special := None; s_prec := 60; s_funcs := EVALUATED_POSTPROC_FUNCS (mpf_ops (rnd 20) (rnd 20)) |} with Ok m => m | Raise _ => m_ex PNormal [0] 6 end.
Example C79_ex : In 1 (mi_filter m_def) /\ mpf_works 1 = false /\
  rhs_pairs (rnd 20) Enum_Roots.isqrt53 ib_ex (fun l => l) None m_def [[(1, 2); (1, 2)]] [[(1, 2)]] = Ok ([([[1; 1]], [[1]])], Ok tt) /\
  snd (build_hashtable (rnd 20) Enum_Roots.isqrt53 ib_ex (fun l => l) (fun _ l => l) None [[(1, 2); (1, 2)]] [[(1, 2)]] true m_def) = Raise AttributeError.
Proof. split; [cbn; auto|]. split; [reflexivity|]. split; vm_compute; reflexivity. Qed.

(** ---- C80: results as equations ---- *)
Definition somes {A} (l : list (option A)) : list A := flat_map (fun o => match o with Some x => [x] | None => [] end) l.
(** What the name of the constant becomes. *)
Definition shown_name (name : list ascii) : list ascii :=
  if list_eq_dec ascii_dec name (chars "pi") then chars "\pi"
  else if list_eq_dec ascii_dec name (chars "phi") then chars "\varphi" else name.
(** The equation of a click (with post-processing function number i): the left-hand side, and the function applied to
    the text of the fraction's coefficients number 0 to 4. *)
Definition good_eqn (lhs : list ascii) (ab : list (list Z) * list (list Z)) (i : Z) (eqn : list ascii) : Prop :=
  exists t, post_tree i = Some t /\
    eqn = lhs ++ chars " = " ++ ptree_text t (cf_text (icoef (fst ab) 0) (icoefs (fst ab) (snd ab) [1; 2; 3; 4])).
Definition latex_good (i : Z) : bool := negb (existsb (Z.eqb i) [10; 11; 20; 22]).

Lemma shown_known : forall name, known_target name = shown_name name.
Proof.
  intros. unfold known_target, shown_name.
  destruct (list_eq_dec ascii_dec name (chars "pi")) as [->|N1]; [reflexivity|].
  destruct (text_eqb name (txt "pi")) eqn:E; [apply text_eqb_eq in E; contradiction|].
  destruct (list_eq_dec ascii_dec name (chars "phi")) as [->|N2]; [reflexivity|].
  destruct (text_eqb name (txt "phi")) eqn:E2; [apply text_eqb_eq in E2; contradiction|]. reflexivity.
Qed.
Lemma first_coeffs_ok : forall p, p <> [] -> first_coeffs p 5 = Ok (map (icoef p) [0; 1; 2; 3; 4]).
Proof.
  intros p N. assert (L : 0 < Z.of_nat (length p)) by (destruct p; [congruence|cbn [length]; lia]).
  assert (S : forall i, (if Z.of_nat (length p) =? 0 then Raise ZeroDivisionError
                         else let* c := py_nth p (i mod Z.of_nat (length p)) in Ok (subs_in_polynom c i)) = Ok (icoef p i)).
  { intros i. exact (coef_at_ok p i N). }
  unfold first_coeffs. change (zrange 0 5) with [0; 1; 2; 3; 4]. cbn [mapM map]. rewrite !S. reflexivity.
Qed.
Lemma latex_entry : forall i lhs rhs, 0 <= i < 24 ->
  match py_nth POSTPROC_FUNCS i with
  | Ok f => match d_get text_eqb POSTPROC_FUNCS_LATEX f with
            | Some g => if latex_good i then exists t, post_tree i = Some t /\ g lhs rhs = Ok (lhs, ptree_text t rhs)
                        else g lhs rhs = match i with 20 => Ok (rhs, ptree_text (TFun "exp" TArg) rhs)
                                                    | 22 => Ok (rhs, ptree_text (TFun "ln" TArg) lhs)
                                                    | _ => Raise ValueError end
            | None => False
            end
  | Raise _ => False
  end.
Proof.
  intros i lhs rhs H. pattern i. revert i H.
  apply idx24; first [reflexivity | eexists; split; [vm_compute; reflexivity|]; first [reflexivity|cbn [ptree_text]; rewrite <- ?app_assoc; reflexivity]].
Qed.
Lemma first_zero : forall b n, (exists i, 1 <= i <= Z.of_nat n /\ icoef b i = 0) ->
  exists k, 1 <= k <= Z.of_nat n /\ icoef b k = 0 /\ forall j, 1 <= j < k -> icoef b j <> 0.
Proof.
  intros b. induction n as [|n IH]; intros (i & H & E); [lia|].
  destruct (Z.eq_dec i (Z.of_nat (S n))) as [->|D].
  - destruct (find (fun j => icoef b j =? 0) (map Z.of_nat (seq 1 n))) as [j|] eqn:F.
    + apply find_some in F as [F1 F2]. apply in_map_iff in F1 as (m & <- & F1). apply in_seq in F1. apply Z.eqb_eq in F2.
      destruct IH as (k & K1 & K2 & K3); [exists (Z.of_nat m); split; [lia|exact F2]|]. exists k. repeat split; auto; lia.
    + exists (Z.of_nat (S n)). repeat split; auto; try lia. intros j J Z0.
      pose proof (find_none _ _ F (Z.of_nat (Z.to_nat j))) as K. cbv beta in K. rewrite Z2Nat.id in K by lia. rewrite Z0 in K. discriminate K.
      apply in_map_iff. exists (Z.to_nat j). split; [lia|]. apply in_seq. lia.
  - destruct IH as (k & K1 & K2 & K3); [exists i; split; [lia|exact E]|]. exists k. repeat split; auto; lia.
Qed.
Lemma build_cases : forall (O : Type) rd funcs target (c : click O),
  match build_from_params rd funcs target 400 c with
  | Ok (cf, v, o) => o = ck_obj c /\ fst (ck_ab c) <> [] /\ snd (ck_ab c) <> [] /\
      (exists c0, fresh (fst (ck_ab c)) (snd (ck_ab c)) true false target c0 /\ cf_gen0 rd 400 true c0 = (cf, Ok tt)) /\
      (exists f, py_nth funcs (ck_ind c) = Ok f /\ f (cf_result cf) = Ok v) /\
      (forall i, 1 <= i <= 400 -> icoef (snd (ck_ab c)) i <> 0)
  | Raise (ZeroB n) => (exists i, 1 <= i <= 400 /\ icoef (snd (ck_ab c)) i = 0) \/
      (exists f x, py_nth funcs (ck_ind c) = Ok f /\ f x = Raise (ZeroB n))
  | Raise _ => True
  end.
Proof.
  intros O rd funcs target c. unfold build_from_params.
  destruct (ck_new target c) as [c0|e] eqn:N; cbn [bind].
  2:{ unfold ck_new, cf_new in N. destruct (norm_coeffs (Nested (fst (ck_ab c)))) as [a'|e1] eqn:E1; cbn [bind] in N.
      2:{ destruct (fst (ck_ab c)); cbn in E1; [|discriminate]. injection E1 as <-. injection N as <-. exact I. }
      destruct (norm_coeffs (Nested (snd (ck_ab c)))) as [b'|e2] eqn:E2; cbn [bind] in N.
      2:{ destruct (snd (ck_ab c)); cbn in E2; [|discriminate]. injection E2 as <-. injection N as <-. exact I. }
      destruct (autogen_first a') as [m|e3] eqn:E3; cbn [bind] in N; [discriminate|].
      unfold autogen_first in E3. destruct a' as [|[|] a']; try discriminate; injection E3 as <-; injection N as <-; exact I. }
  pose proof N as HF. unfold ck_new in HF. fold (fresh (fst (ck_ab c)) (snd (ck_ab c)) true false target c0) in HF.
  pose proof (fresh_inv _ _ _ _ _ _ HF) as (NA & NB & _).
  destruct (C08_only_zero_b rd _ _ _ _ _ _ [] c0 (Ok tt) 400 true HF eq_refl) as [_ Z0].
  destruct (cf_gen0 rd 400 true c0) as [cf [[]|e]] eqn:G; cbn [fst snd] in Z0.
  - destruct (py_nth funcs (ck_ind c)) as [f|e] eqn:F; cbn [bind].
    2:{ unfold py_nth in F. destruct (_ || _) in F; [injection F as <-; exact I|]. destruct (nth_error _ _); [discriminate|injection F as <-; exact I]. }
    destruct (f (cf_result cf)) as [v|e] eqn:V; cbn [bind].
    2:{ destruct e; auto. right. eauto. }
    repeat split; auto; [eauto|eauto|].
    intros i Hi E.
    destruct (first_zero (snd (ck_ab c)) (Z.to_nat i)) as (k & K1 & K2 & K3); [exists i; split; [lia|exact E]|].
    pose proof (proj2 (C08_zero_b_exact rd _ _ _ _ _ [] c0 (Ok tt) 400 true k HF eq_refl)) as Q.
    rewrite G in Q. cbn [snd] in Q. discriminate Q. repeat split; auto; lia.
  - destruct Z0 as [Z0|(i & Z0)]; [discriminate|]. injection Z0 as ->. left. exists i.
    pose proof (proj1 (C08_zero_b_exact rd _ _ _ _ _ [] c0 (Ok tt) 400 true i HF eq_refl)) as Q.
    rewrite G in Q. cbn [snd] in Q. destruct (Q eq_refl) as (Q1 & Q2 & _). auto.
Qed.
Lemma latex_first : forall ab : abpair, latex_cont_frac (map (icoef (fst ab)) [0; 1; 2; 3; 4]) (map (icoef (snd ab)) [0; 1; 2; 3; 4]) =
  Ok (cf_text (icoef (fst ab) 0) (icoefs (fst ab) (snd ab) [1; 2; 3; 4])).
Proof. intros ab. exact (C61_text (icoef (fst ab) 0) (icoefs (fst ab) (snd ab) [1; 2; 3; 4]) [icoef (snd ab) 0]). Qed.
Section Equations.
  Context {O : Type}.
  Variables (rd : Q -> Q) (lhs_latex : O -> text -> O * res text) (funcs : list (mpfv -> res mpfv)) (target : option Q).
  Variables (name : text) (ignore : bool).
  Notation eqns cs := (results_as_eqns rd lhs_latex funcs target POSTPROC_FUNCS_LATEX name POSTPROC_FUNCS ignore 5 cs).
  Notation one c := (result_eqn rd lhs_latex funcs target POSTPROC_FUNCS_LATEX name POSTPROC_FUNCS ignore 5 c).
  Hypothesis no_zerob : forall i f x n, py_nth funcs i = Ok f -> f x <> Raise (ZeroB n).

  Definition right_eqn (c : click O) (o : option text) : Prop :=
    match o with
    | None => ignore = true /\ exists i, 1 <= i <= 400 /\ icoef (snd (ck_ab c)) i = 0
    | Some eqn =>
        (forall i, 1 <= i <= 400 -> icoef (snd (ck_ab c)) i <> 0) /\
        (exists f x v, py_nth funcs (ck_ind c) = Ok f /\ f x = Ok v) /\
        exists lhs, snd (lhs_latex (ck_obj c) (shown_name name)) = Ok lhs /\ ck_ind c <> 10 /\ ck_ind c <> 11 /\
          let frac := cf_text (icoef (fst (ck_ab c)) 0) (icoefs (fst (ck_ab c)) (snd (ck_ab c)) [1; 2; 3; 4]) in
          if ck_ind c =? 20 then eqn = frac ++ chars " = \exp\left( " ++ frac ++ chars " \right)"
          else if ck_ind c =? 22 then eqn = frac ++ chars " = \ln\left( " ++ lhs ++ chars " \right)"
          else good_eqn lhs (ck_ab c) (ck_ind c) eqn
    end.
  Lemma one_right : forall c o x, 0 <= ck_ind c < 24 -> one c = (o, Ok x) -> right_eqn c x.
  Proof.
    intros c o x I H. unfold result_eqn in H. pose proof (build_cases O rd funcs target c) as B.
    destruct (build_from_params rd funcs target 400 c) as [[[cf v] o']|e].
    2:{ destruct e; try (injection H as _ H; discriminate). injection H as _ H. destruct ignore eqn:EI; [|discriminate]. injection H as <-.
        split; [exact EI|]. destruct B as [B|(f & y & F & Y)]; [exact B|]. now elim (no_zerob _ _ y i F). }
    destruct B as (-> & NA & NB & _ & (fn & FN & FV) & BZ).
    rewrite (first_coeffs_ok _ NA), (first_coeffs_ok _ NB) in H. cbn [bind] in H.
    destruct (lhs_latex (ck_obj c) (known_target name)) as [o1 l] eqn:LL. apply pair_equal_spec in H as [_ H].
    destruct l as [lhs|e]; [|discriminate]. cbn [bind] in H.
    rewrite (latex_first (ck_ab c)) in H. cbn [bind] in H.
    pose proof (latex_entry (ck_ind c) lhs (cf_text (icoef (fst (ck_ab c)) 0) (icoefs (fst (ck_ab c)) (snd (ck_ab c)) [1; 2; 3; 4])) I) as LE.
    destruct (py_nth POSTPROC_FUNCS (ck_ind c)) as [f|e]; [|contradiction]. cbn [bind] in H.
    destruct (d_get text_eqb POSTPROC_FUNCS_LATEX f) as [g|]; [|contradiction].
    set (frac := cf_text (icoef (fst (ck_ab c)) 0) (icoefs (fst (ck_ab c)) (snd (ck_ab c)) [1; 2; 3; 4])) in *.
    assert (HG : exists lr, g lhs frac = Ok lr) by (destruct (g lhs frac); [eauto|discriminate]). destruct HG as ([l' r'] & HG).
    rewrite HG in H. cbn [bind fst snd] in H. rewrite fmt_eqn in H. injection H as <-.
    split; [exact BZ|]. split; [eauto|]. exists lhs. rewrite <- shown_known, LL. split; [reflexivity|].
    destruct (latex_good (ck_ind c)) eqn:LG.
    - destruct LE as (t & PT & E). rewrite E in HG. injection HG as <- <-.
      unfold latex_good in LG. cbn [existsb] in LG. rewrite !negb_orb in LG. rewrite !andb_true_iff, !negb_true_iff in LG. 
      destruct LG as (L10 & L11 & L20 & L22 & _). rewrite L20, L22. apply Z.eqb_neq in L10, L11.
      split; [exact L10|]. split; [exact L11|]. exists t. split; [exact PT|]. reflexivity.
    - assert (C : ck_ind c = 10 \/ ck_ind c = 11 \/ ck_ind c = 20 \/ ck_ind c = 22).
      { unfold latex_good in LG. cbn [existsb] in LG. rewrite negb_false_iff, !orb_true_iff, !Z.eqb_eq in LG. intuition discriminate. }
      destruct C as [C|[C|[C|C]]]; rewrite C in *; rewrite LE in HG; try discriminate; injection HG as <- <-;
        (split; [discriminate|]); (split; [discriminate|]); cbn [Z.eqb Pos.eqb]; cbv zeta; fold frac;
        [ change (chars " = \exp\left( ") with (chars " = " ++ chars "\" ++ chars "exp" ++ chars "\left( ")
        | change (chars " = \ln\left( ") with (chars " = " ++ chars "\" ++ chars "ln" ++ chars "\left( ")]; cbn [ptree_text]; now rewrite <- ?app_assoc.
  Qed.
  Lemma eqns_right : forall cs cs' es, Forall (fun c => 0 <= ck_ind c < 24) cs -> eqns cs = (cs', Ok es) ->
    exists os, es = somes os /\ Forall2 right_eqn cs os.
  Proof.
    induction cs as [|c cs IH]; intros cs' es F H; cbn [results_as_eqns] in H.
    - injection H as _ <-. exists []. split; [reflexivity|constructor].
    - inversion F as [|? ? F1 F2]; subst. destruct (one c) as [o [x|e]] eqn:E; [|discriminate].
      destruct (eqns cs) as [cs1 [es1|e]] eqn:R; cbn [bind] in H; [|discriminate].
      injection H as _ <-. destruct (IH _ _ F2 eq_refl) as (os & -> & R2).
      exists (x :: os). split; [destruct x; reflexivity|]. constructor; [|exact R2]. exact (one_right _ _ _ F1 E).
  Qed.
  Lemma eqns_app : forall pre c post cs' es, eqns pre = (cs', Ok es) -> forall o e, one c = (o, Raise e) -> snd (eqns (pre ++ c :: post)) = Raise e.
  Proof.
    induction pre as [|p pre IH]; intros c post cs' es H o e E; cbn [app results_as_eqns].
    - now rewrite E.
    - cbn [results_as_eqns] in H. destruct (one p) as [o1 [x|e1]]; [|discriminate].
      destruct (eqns pre) as [cs1 [es1|e1]] eqn:R; cbn [bind] in H; [|discriminate].
      specialize (IH c post _ _ eq_refl o e E). destruct (eqns (pre ++ c :: post)) as [cs2 y]. cbn [snd] in IH. subst y. reflexivity.
  Qed.
End Equations.
(** One equation per result, in order, except that results whose fraction has a zero partial numerator among the first
    400 are left out. The equation is the left-hand side and the post-processing function applied to the first
    coefficients, except for the functions exp and ln (numbers 20 and 22), whose equations state something else; the
    square roots (10 and 11) never get an equation. *)
Theorem C80_equations : forall (O : Type) rd lhs_latex funcs target name ignore (cs : list (click O)) cs' es,
  (forall i f x n, py_nth funcs i = Ok f -> f x <> Raise (ZeroB n)) -> Forall (fun c => 0 <= ck_ind c < 24) cs ->
  results_as_eqns rd lhs_latex funcs target POSTPROC_FUNCS_LATEX name POSTPROC_FUNCS ignore 5 cs = (cs', Ok es) ->
  exists os, es = somes os /\ Forall2 (right_eqn lhs_latex funcs name ignore) cs os.
Proof. intros. eapply eqns_right; eauto. Qed.
(** The hypothesis on exceptions holds for the post-processing functions. *)
Theorem C80_functions : forall rd sq i f x n, py_nth (EVALUATED_POSTPROC_FUNCS (mpf_ops rd sq)) i = Ok f -> f x <> Raise (ZeroB n).
Proof.
  intros rd sq i f x n H.
  assert (I : exists j, 0 <= j < 24 /\ py_nth (EVALUATED_POSTPROC_FUNCS (mpf_ops rd sq)) j = Ok f).
  { unfold py_nth in *. change (Z.of_nat (length (EVALUATED_POSTPROC_FUNCS (mpf_ops rd sq)))) with 24 in *.
    set (j := if i <? 0 then i + 24 else i) in *. destruct ((j <? 0) || (24 <=? j)) eqn:B; [discriminate|].
    apply orb_false_iff in B as [B1 B2]. apply Z.ltb_ge in B1. apply Z.leb_gt in B2. exists j. split; [lia|].
    replace (j <? 0) with false by (symmetry; apply Z.ltb_ge; lia). rewrite (proj2 (Z.ltb_ge j 0) B1). rewrite (proj2 (Z.leb_gt 24 j) B2). exact H. }
  destruct I as (j & J & F). destruct (C79_mpf rd sq j J) as (g & G & W). rewrite F in G. injection G as <-. specialize (W x).
  destruct (mpf_works j); [destruct W as (v & ->); discriminate|]. rewrite W. destruct (_ && _); discriminate.
Qed.
(** With mpf and the project's own functions every equation is right: only the powers 1 to 5 get one. *)
Theorem C80_mpf : forall (O : Type) rd sq rd' lhs_latex target name ignore (cs : list (click O)) cs' es,
  Forall (fun c => 0 <= ck_ind c < 24) cs ->
  results_as_eqns rd lhs_latex (EVALUATED_POSTPROC_FUNCS (mpf_ops rd' sq)) target POSTPROC_FUNCS_LATEX name POSTPROC_FUNCS ignore 5 cs = (cs', Ok es) ->
  exists os, es = somes os /\ Forall2 (fun c o => match o with
    | None => ignore = true /\ exists i, 1 <= i <= 400 /\ icoef (snd (ck_ab c)) i = 0
    | Some eqn => In (ck_ind c) [0; 2; 4; 6; 8] /\ (forall i, 1 <= i <= 400 -> icoef (snd (ck_ab c)) i <> 0) /\
        exists lhs, snd (lhs_latex (ck_obj c) (shown_name name)) = Ok lhs /\ good_eqn lhs (ck_ab c) (ck_ind c) eqn
    end) cs os.
Proof.
  intros O rd sq rd' ll tg name ig cs cs' es F H.
  destruct (C80_equations O rd ll _ tg name ig cs cs' es (C80_functions rd' sq) F H) as (os & E & R). exists os. split; [exact E|].
  clear E H. induction R as [|c o cs os R1 R2 IH]; constructor; [|apply IH; now inversion F].
  destruct o as [eqn|]; [|exact R1]. destruct R1 as (BZ & (f & x & v & F1 & V) & lhs & L & N10 & N11 & G).
  inversion F as [|? ? I24 _]; subst. destruct (C79_mpf rd' sq (ck_ind c) I24) as (g & G1 & W). rewrite F1 in G1. injection G1 as <-.
  specialize (W x). destruct (mpf_works (ck_ind c)) eqn:M; [|rewrite W in V; discriminate].
  unfold mpf_works in M. apply existsb_exists in M as (j & J & EJ). apply Z.eqb_eq in EJ. subst j.
  assert (J' : In (ck_ind c) [0; 2; 4; 6; 8]) by (cbn [In] in *; intuition congruence).
  split; [exact J'|]. split; [exact BZ|]. exists lhs. split; [exact L|].
  assert (N20 : ck_ind c =? 20 = false) by (apply Z.eqb_neq; cbn [In] in J'; intuition congruence).
  assert (N22 : ck_ind c =? 22 = false) by (apply Z.eqb_neq; cbn [In] in J'; intuition congruence).
  rewrite N20, N22 in G. exact G.
Qed.
(** One result with a square root (that can be evaluated at all) and nothing is exported: ValueError. *)
Theorem C80_sqrt_aborts : forall (O : Type) rd lhs_latex funcs target name ignore (pre post : list (click O)) c cs' es b lhs,
  results_as_eqns rd lhs_latex funcs target POSTPROC_FUNCS_LATEX name POSTPROC_FUNCS ignore 5 pre = (cs', Ok es) ->
  build_from_params rd funcs target 400 c = Ok b -> snd (lhs_latex (ck_obj c) (shown_name name)) = Ok lhs -> ck_ind c = 10 \/ ck_ind c = 11 ->
  snd (results_as_eqns rd lhs_latex funcs target POSTPROC_FUNCS_LATEX name POSTPROC_FUNCS ignore 5 (pre ++ c :: post)) = Raise ValueError.
Proof.
  intros O rd ll funcs tg name ig pre post c cs' es b lhs HP HB HL HI.
  assert (E : exists o, result_eqn rd ll funcs tg POSTPROC_FUNCS_LATEX name POSTPROC_FUNCS ig 5 c = (o, Raise ValueError)).
  { unfold result_eqn. pose proof (build_cases O rd funcs tg c) as B. rewrite HB in *. destruct b as [[cf v] o'].
    destruct B as (-> & NA & NB & _). rewrite (first_coeffs_ok _ NA), (first_coeffs_ok _ NB). cbn [bind].
    rewrite shown_known. destruct (ll (ck_obj c) (shown_name name)) as [o1 l]. cbn [snd] in HL. subst l. exists o1. f_equal. cbn [bind].
    rewrite (latex_first (ck_ab c)). cbn [bind].
    generalize (cf_text (icoef (fst (ck_ab c)) 0) (icoefs (fst (ck_ab c)) (snd (ck_ab c)) [1; 2; 3; 4])). intros t.
    pose proof (latex_entry (ck_ind c) lhs t ltac:(lia)) as LE.
    destruct HI as [HI|HI]; rewrite HI in *;
      (destruct (py_nth POSTPROC_FUNCS _) as [f|e]; [|contradiction]); cbn [bind];
      (destruct (d_get text_eqb POSTPROC_FUNCS_LATEX f) as [g|]; [|contradiction]); cbn in LE; rewrite LE; reflexivity. }
  destruct E as (o & E). exact (eqns_app _ _ _ _ _ _ _ _ _ _ _ HP _ _ E).
Qed.
Definition lx (p : ulcd4) (n : text) : ulcd4 * res text := (p, Ok (ulcd_latex p n)).
Definition ck_l (a b : list Z) (p : ulcd4) (i : Z) : click ulcd4 := ([a], [b], p, i, None).
Definition fs20 := EVALUATED_POSTPROC_FUNCS (mpf_ops (rnd 20) (rnd 20)).
Example C80_ex :
  snd (results_as_eqns (rnd 20) lx fs20 None POSTPROC_FUNCS_LATEX (chars "pi") POSTPROC_FUNCS true 5
         [ck_l [1] [0] (0, 1, 0, 1) 0; ck_l [3] [-1] (1, 2, 0, 1) 2]) =
    Ok [chars "\frac{ 1 }{ \pi }+\frac{ \pi }{ 2 } = \left( 3 + \frac{ -1 } { 3 + \frac{ -1 } { 3 + \frac{ -1 } { 3 + \frac{ -1 } { 3 + \dots } } } } \right)^2"] /\
  snd (results_as_eqns (rnd 20) lx fs20 None POSTPROC_FUNCS_LATEX (chars "pi") POSTPROC_FUNCS true 5
         ([ck_l [1] [0] (0, 1, 0, 1) 0] ++ ck_l [3] [-1] (1, 2, 0, 1) 10 :: [])) = Raise ValueError.
Proof. split; vm_compute; reflexivity. Qed.

(** ---- C81: the csv file ---- *)
(** With mpf nothing can be exported: any non-empty list of results is an AttributeError, and no file is written. *)
Theorem C81_mpf_refuted : forall (O : Type) rd funcs target lhs_val lhs_params name (c : click O) cs,
  export_to_csv rd funcs target eng_mpf lhs_val lhs_params name (c :: cs) = Raise AttributeError.
Proof. reflexivity. Qed.
Lemma Ok_inj {A} (x y : A) : Ok x = Ok y -> x = y.
Proof. congruence. Qed.
(** What a row says, for a kind of number that can be written. *)
Definition right_row {O} prec (funcs : list (mpfv -> res mpfv)) (eng : mpfv -> res text) (lhs_val : O -> mpfv) (lhs_params : O -> text)
    (c : click O) (r : csv_row) : Prop :=
  cr_ab r = ck_ab c /\ cr_func r = ck_ind c /\ Some (cr_conv r) = ck_conv c /\ cr_params r = lhs_params (ck_obj c) /\
  eng (lhs_val (ck_obj c)) = Ok (cr_val r) /\ cr_type r = chars "Params " ++ cr_params r ++ chars ", Res " ++ cr_val r /\
  exists f x v, py_nth funcs (ck_ind c) = Ok f /\ f x = Ok v /\ eng v = Ok (cr_res r) /\
    forall w, nested (inject_Z (icoef (fst (ck_ab c)) 0)) (toQ (icoefs (fst (ck_ab c)) (snd (ck_ab c)) (map Z.of_nat (seq 1 400)))) = Some w ->
      exists q, x = Fin q /\ approx q w (4 * two_p (- prec)).
Theorem C81_rows : forall (O : Type) prec funcs target eng lhs_val lhs_params name (cs : list (click O)) n rows, 3 <= prec ->
  export_to_csv (rnd prec) funcs target eng lhs_val lhs_params name cs = Ok (n, rows) ->
  n = name /\ Forall2 (right_row prec funcs eng lhs_val lhs_params) cs rows.
Proof.
  intros O prec funcs tg eng lv lp name cs n rows HP H. unfold export_to_csv in H.
  destruct (mapM _ cs) as [rs|e] eqn:M; [|discriminate]. cbn [bind] in H. apply Ok_inj in H. apply pair_equal_spec in H as [-> ->].
  split; [reflexivity|]. revert rows M. induction cs as [|c cs IH]; intros rows M; cbn [mapM] in M.
  { apply Ok_inj in M. subst. constructor. }
  destruct (csv_row_of _ _ _ eng lv lp c) as [r|e] eqn:R; [|discriminate]. cbn [bind] in M.
  destruct (mapM _ cs) as [rs|e] eqn:M2; [|discriminate]. cbn [bind] in M. apply Ok_inj in M. subst rows.
  constructor; [|apply IH; reflexivity]. clear IH M2. unfold csv_row_of in R.
  destruct (lhs_str eng lv lp (ck_obj c)) as [ty|e] eqn:TY; [|discriminate]. cbn [bind] in R.
  pose proof (build_cases O (rnd prec) funcs tg c) as B.
  destruct (build_from_params (rnd prec) funcs tg 400 c) as [[[cf v] o]|e]; [|discriminate]. cbn [bind] in R.
  destruct B as (-> & NA & NB & (c0 & FR & G) & (f & F & V) & _). rewrite F in R. cbn [bind] in R.
  destruct (ck_conv c) as [cv|] eqn:CV; [|discriminate]. cbn [bind] in R.
  destruct (eng v) as [t1|e] eqn:T1; [|discriminate]. cbn [bind] in R.
  destruct (eng (lv (ck_obj c))) as [t2|e] eqn:T2; [|discriminate]. cbn [bind] in R. apply Ok_inj in R. subst r.
  unfold lhs_str in TY. rewrite T2 in TY. cbn [bind] in TY. apply Ok_inj in TY.
  unfold right_row. cbn [cr_ab cr_func cr_conv cr_params cr_val cr_type cr_res]. do 5 (split; [auto|]). split; [now rewrite <- TY|].
  exists f, (cf_result cf), v. repeat split; auto. intros w W.
  destruct (C06_convergent prec _ _ _ _ _ _ [] c0 (Ok tt) 400 cf w HP FR eq_refl ltac:(lia) G W) as (_ & _ & _ & _ & _ & X).
  apply X. now left.
Qed.
Definition eng_q (v : mpfv) : res text := match v with Fin q => Ok (z_text (1000 * Qnum q / Z.pos (Qden q))) | NaN => Raise ValueError end.
Example C81_ex : export_to_csv (O := Q) (rnd 20) fs20 None eng_q Fin (fun _ => chars "(1)") (chars "pi") [([[3]], [[-1]], 22 # 7, 2, Some (ATExp, APPair 1 2))] =
    Ok (chars "pi", [{| cr_ab := ([[3]], [[-1]]); cr_func := 2; cr_type := chars "Params (1), Res 3142"; cr_params := chars "(1)";
                        cr_conv := (ATExp, APPair 1 2); cr_res := chars "6854"; cr_val := chars "3142" |}]) /\
  export_to_csv (O := Q) (rnd 20) fs20 None eng_mpf Fin (fun _ => chars "(1)") (chars "pi") [] = Ok (chars "pi", []).
Proof. split; vm_compute; reflexivity. Qed.

Print Assumptions C60_pairs.
Print Assumptions C60_inverse.
Print Assumptions C60_values.
Print Assumptions C61_text.
Print Assumptions C61_total.
Print Assumptions C61_denotes.
Print Assumptions C61_injective.
Print Assumptions C79_trig.
Print Assumptions C79_mpf.
Print Assumptions C79_build.
Print Assumptions C80_equations.
Print Assumptions C80_functions.
Print Assumptions C80_mpf.
Print Assumptions C80_sqrt_aborts.
Print Assumptions C81_mpf_refuted.
Print Assumptions C81_rows.

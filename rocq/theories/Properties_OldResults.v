(** Claims C134, C135 (the stored results of results/OldResults). *)
From Coq Require Import Ascii String ZArith QArith Qabs List Bool Lia Lqa.
From Coq Require Reals Qreals Lra.
From Verif Require Import PyBase PyBase_Proofs Rnd Rnd_Proofs Hashtable_Model Spec_Utils ContFrac_Model Spec_ContFrac ContFrac_Proofs ContFrac_Hist Properties_ContFrac Errors_Proofs Properties_Errors.
From Verif Require Import Consts_Model Hashtable_Proofs Results_Model Spec_ULCD Spec_Legacy Properties_TestFracs OldResults_Model OldResults_Proofs.
From Verif Require Import Legacy_Text.
From Verif Require Legacy_Model Properties_Legacy CF_Old Spec_OldResults.
Import ListNotations.
Local Open Scope Z_scope.
Local Open Scope list_scope.

(** ---- C135: converting the stored files ---- *)
Import Legacy_Model Properties_Legacy.
(** The results of a file as the conversion sees them: with any further columns. *)
Definition same_result (s : stored_row) (r : old_result) : Prop :=
  old_a r = [sr_a s] /\ old_b r = [sr_b s] /\ old_func r = sr_func s /\ old_u r = sr_u s /\ old_l r = sr_l s /\ old_c r = sr_c s /\ old_d r = sr_d s /\
  old_flat_a r = false /\ old_flat_b r = false.
Definition file_text (f : stored_file) (titles : list (list ascii)) (rs : list old_result) : list (list (list ascii)) :=
  old_file (chars "postproc_funcs") (map chars (sf_funcs f)) [chars "target_name"; chars (sf_target f)] titles rs.
Definition known (f : stored_file) : bool := forallb (fun n => existsb (text_eqb (chars n)) POSTPROC_FUNCS) (sf_funcs f).
Lemma known_ok f : known f = true -> Forall (fun n => In n POSTPROC_FUNCS) (map chars (sf_funcs f)).
Proof.
  unfold known. rewrite forallb_forall. intros H. apply Forall_forall. intros n I. apply in_map_iff in I. destruct I as (m & <- & I). specialize (H m I).
  apply existsb_exists in H. destruct H as (x & J & E). apply text_eqb_eq in E. rewrite E. exact J.
Qed.
Definition power_names : list string := ["lambda x: x"; "lambda x: x**2"; "lambda x: x**3"; "lambda x: x**4"; "lambda x: x**5"]%string.
Definition other_row (f : stored_file) (r : stored_row) : bool :=
  (0 <=? sr_func r) && match nth_error (sf_funcs f) (Z.to_nat (sr_func r)) with Some n => negb (existsb (String.eqb n) power_names) | None => false end.
(** every file: unknown functions, or no row, or a row with a function that is not a power *)
Lemma kinds : forallb (fun f => negb (match sf_funcs f with [] => true | _ => false end) && (negb (known f) || (match sf_rows f with [] => true | _ => false end) || existsb (other_row f) (sf_rows f))) stored_files = true.
Proof. vm_compute. reflexivity. Qed.
Lemma chars_inj s t : chars s = chars t -> s = t.
Proof. intros H. rewrite <- (string_of_list_ascii_of_string s), <- (string_of_list_ascii_of_string t). unfold chars in H. now rewrite H. Qed.
Lemma power_in n : 1 <= n <= 5 -> exists s, In s power_names /\ power_name n = chars s.
Proof.
  intros H. assert (C : n = 1 \/ n = 2 \/ n = 3 \/ n = 4 \/ n = 5) by lia.
  destruct C as [->|[->|[->|[->| ->]]]]; [exists "lambda x: x"%string|exists "lambda x: x**2"%string|exists "lambda x: x**3"%string|exists "lambda x: x**4"%string|exists "lambda x: x**5"%string]; (split; [cbn; tauto|vm_compute; reflexivity]).
Qed.
Lemma py_nth_map {A} (l : list string) (g : string -> A) i n : 0 <= i -> nth_error l (Z.to_nat i) = Some n -> py_nth (map g l) i = Ok (g n).
Proof.
  intros Hi H. unfold py_nth. rewrite map_length. assert (L : (Z.to_nat i < length l)%nat) by (apply nth_error_Some; rewrite H; discriminate).
  replace (i <? 0) with false by (symmetry; apply Z.ltb_ge; lia). replace (i <? 0) with false by (symmetry; apply Z.ltb_ge; lia).
  replace (Z.of_nat (length l) <=? i) with false by (symmetry; apply Z.leb_gt; lia). cbn [orb]. rewrite (map_nth_error g _ _ H). reflexivity.
Qed.
(** the partial numerators do not vanish *)
Lemma base_b_nz a b k m i : In (a, b, k, m) bases -> 1 <= i -> poly_val b i <> 0.
Proof. intros I Hi. unfold bases in I. repeat (destruct I as [I|I]; [injection I as <- <- <- <-; cbn [poly_val]; nia|]). destruct I. Qed.
Definition all_rows : list stored_row := flat_map sf_rows (old_results :: stored_files).
Lemma rows_based : forallb (fun r => match find_base (sr_a r) (sr_b r) with Some _ => true | None => false end) all_rows = true.
Proof. vm_compute. reflexivity. Qed.
Lemma in_all f r : In f (old_results :: stored_files) -> In r (sf_rows f) -> In r all_rows.
Proof. intros I J. apply in_flat_map. eauto. Qed.
Lemma row_base f r : In f (old_results :: stored_files) -> In r (sf_rows f) ->
  exists s k m a0 b0, In (a0, b0, k, m) bases /\ s <> 0 /\ sr_a r = map (Z.mul s) a0 /\ sr_b r = map (Z.mul (s * s)) b0.
Proof.
  intros I J. pose proof (proj1 (forallb_forall _ _) rows_based r (in_all f r I J)) as B. cbn beta in B. destruct (find_base (sr_a r) (sr_b r)) as [[[s k] m]|] eqn:F; [|discriminate].
  destruct (find_base_ok _ _ _ _ _ F) as (a0 & b0 & X). exists s, k, m, a0, b0. exact X.
Qed.
Lemma row_b_nz f r i : In f (old_results :: stored_files) -> In r (sf_rows f) -> 1 <= i -> icoef [sr_b r] i <> 0.
Proof.
  intros I J Hi. destruct (row_base f r I J) as (s & k & m & a0 & b0 & B & Ns & _ & ->). rewrite icoef_one, poly_scale. pose proof (base_b_nz _ _ _ _ i B Hi). nia.
Qed.
Lemma row_a_nonempty f r : In f (old_results :: stored_files) -> In r (sf_rows f) -> sr_a r <> [].
Proof.
  intros I J. destruct (row_base f r I J) as (s & k & m & a0 & b0 & B & _ & -> & _). unfold bases in B. repeat (destruct B as [B|B]; [injection B as <- <- <- <-; discriminate|]). destruct B.
Qed.
Lemma same_proper s r : same_result s r -> proper r.
Proof. intros (A & B & _ & _ & _ & _ & _ & FA & FB). unfold proper. rewrite A, B, FA, FB. repeat split; discriminate. Qed.
Lemma target_more f (given : option text) : exists t, old_target given [chars "target_name"; chars (sf_target f)] = Some t.
Proof. destruct given as [[|c g]|]; cbn [old_target]; try (destruct (chars (sf_target f)); eauto); eauto. Qed.
Lemma unknown_files f : In f stored_files -> known f = false ->
  In (map chars (sf_funcs f)) (map (map chars) [["lambda x: dec_sin(x/18)"; "lambda x: 2*dec_sin(x/18)"; "lambda x: dec_sin(2*safe_inverse(x)/9)"; "lambda x: 2*dec_sin(2*safe_inverse(x)/9)"];
    ["lambda x: dec_sin(x/18)"; "lambda x: 2*dec_sin(x/18)"]]%string).
Proof.
  intros I. unfold stored_files in I. repeat (destruct I as [<-|I]; [intros K; vm_compute in K; first [discriminate K|vm_compute; tauto]|]). destruct I.
Qed.
Lemma header_unknown sq rd fs : In fs (map (map chars) [["lambda x: dec_sin(x/18)"; "lambda x: 2*dec_sin(x/18)"; "lambda x: dec_sin(2*safe_inverse(x)/9)"; "lambda x: 2*dec_sin(2*safe_inverse(x)/9)"];
    ["lambda x: dec_sin(x/18)"; "lambda x: 2*dec_sin(x/18)"]]%string) -> header_eval sq rd (header_funcs (list_str (map quoted fs))) = Raise ValueError.
Proof. intros [<-|[<-|[]]]; vm_compute; reflexivity. Qed.
Lemma convert_unknown sq pt et path (first : text) (fs more titles : list text) rs : In fs (map (map chars) [["lambda x: dec_sin(x/18)"; "lambda x: 2*dec_sin(x/18)"; "lambda x: dec_sin(2*safe_inverse(x)/9)"; "lambda x: 2*dec_sin(2*safe_inverse(x)/9)"];
    ["lambda x: dec_sin(x/18)"; "lambda x: 2*dec_sin(x/18)"]]%string) ->
  old_enum_csv_to_pdf sq pt et path (old_file first fs more titles rs) None = Raise ValueError /\
  forall given, exists e, old_enum_csv_to_pdf sq pt et path (old_file first fs more titles rs) given = Raise e.
Proof.
  intros I. assert (P1 : @py_nth text (first :: list_str (map quoted fs) :: more) 1 = @Ok text (list_str (map quoted fs))).
  { change (first :: list_str (map quoted fs) :: more) with ([first; list_str (map quoted fs)] ++ more). apply py_nth_pre; [reflexivity|lia]. }
  pose proof (header_unknown sq (rnd (mp_prec (set_dps 50))) fs I) as HU.
  change (old_file first fs more titles rs) with ((first :: (list_str (map quoted fs) : text) :: more) :: titles :: map old_row rs).
  assert (K : forall row, row = first :: (list_str (map quoted fs) : text) :: more -> py_nth row 1 = Ok (list_str (map quoted fs) : text)) by (intros row ->; exact P1).
  remember (first :: (list_str (map quoted fs) : text) :: more) as row eqn:ER. specialize (K row eq_refl). unfold old_enum_csv_to_pdf. split.
  - cbn [bind]. rewrite K. cbn [bind]. cbv zeta. rewrite HU. reflexivity.
  - intros [[|c g]|]; [|destruct (choose_gen pt et false (c :: g)) as [g0|e]; [|cbn [bind]; eauto]|]; cbn [bind]; rewrite K; cbn [bind]; cbv zeta; rewrite HU; cbn [bind]; eauto.
Qed.
(** No file with a result can be converted, whatever target the caller names. *)
Theorem C135_results_refuted : forall sq pt et path f titles rs (given : option (list ascii)), In f stored_files -> sf_rows f <> [] -> Forall2 same_result (sf_rows f) rs ->
  exists e, old_enum_csv_to_pdf sq pt et path (file_text f titles rs) given = Raise e.
Proof.
  intros sq pt et path f titles rs given I NR F2. unfold file_text. destruct (known f) eqn:KN; [|apply (proj2 (convert_unknown _ _ _ _ _ _ _ _ _ (unknown_files f I KN)))].
  pose proof (proj1 (forallb_forall _ _) kinds f I) as K. cbn beta in K. apply andb_true_iff in K. destruct K as [K1 K2]. rewrite KN in K2. cbn [negb orb] in K2.
  assert (N : map chars (sf_funcs f) <> []) by (destruct (sf_funcs f); [discriminate K1|discriminate]).
  assert (PR : Forall proper rs) by (clear -F2; induction F2; constructor; eauto using same_proper).
  destruct (target_more f given) as [t T].
  destruct (in_dec (list_eq_dec ascii_dec) t plain_targets) as [P|NP].
  - destruct (sf_rows f) as [|r0 rr] eqn:ER; [congruence|]. rewrite <- ER in *. replace (match sf_rows f with [] => true | _ => false end) with false in K2 by (rewrite ER; reflexivity). cbn [orb] in K2.
    apply existsb_exists in K2. destruct K2 as (s & J & O). unfold other_row in O. apply andb_true_iff in O. destruct O as [O1 O2]. apply Z.leb_le in O1.
    destruct (nth_error (sf_funcs f) (Z.to_nat (sr_func s))) as [n|] eqn:NE; [|discriminate].
    assert (X : exists r, In r rs /\ same_result s r) by (clear -F2 J; induction F2 as [|s' r' ss rr' H F2 IH]; [destruct J|destruct J as [->|J]; [eexists; split; [left; reflexivity|exact H]|destruct (IH J) as (r & A & B); exists r; split; [right; exact A|exact B]]]).
    destruct X as (r & Jr & SR). apply (C114_other_function sq pt et path _ _ _ titles rs given t r (chars n) N (known_ok f KN) T P PR Jr).
    + intros (i & Hi & E). destruct SR as (_ & B & _). rewrite B in E. exact (row_b_nz f s i (or_intror I) J ltac:(lia) E).
    + destruct SR as (_ & _ & F & _). rewrite F. apply py_nth_map; assumption.
    + intros k Hk E. destruct (power_in k Hk) as (p & IP & EP). rewrite EP in E. apply chars_inj in E. subst p. apply negb_true_iff in O2. assert (existsb (String.eqb n) power_names = true) by (apply existsb_exists; exists n; split; [exact IP|apply String.eqb_refl]). congruence.
  - destruct F2 as [|s r ss rs' SR F2]; [congruence|]. destruct (C116_targets sq pt et path (chars "postproc_funcs") _ _ titles r rs' given t N (known_ok f KN) (Forall_inv PR) T NP) as (e & E & _). eauto.
Qed.
(** The files without results: the two for euler and the one for percolation, 1 end in an exception, from the others there
    are no equations. *)
Theorem C135_empty_files : forall sq pt et path f titles, In f stored_files -> sf_rows f = [] ->
  let out := old_enum_csv_to_pdf sq pt et path (file_text f titles []) None in
  (sf_target f = "euler"%string -> out = Raise UnboundLocalError) /\ (sf_target f = "percolation, 1"%string -> out = Raise ValueError) /\
  (sf_target f <> "euler"%string -> sf_target f <> "percolation, 1"%string -> exists pdf, trimmed (chars ".csv") path pdf /\ out = Ok (pdf, [])).
Proof.
  intros sq pt et path f titles I ER out. unfold out, file_text. destruct (known f) eqn:KN.
  - pose proof (proj1 (forallb_forall _ _) kinds f I) as K. cbn beta in K. apply andb_true_iff in K. destruct K as [K1 _].
    assert (N : map chars (sf_funcs f) <> []) by (destruct (sf_funcs f); [discriminate K1|discriminate]).
    assert (T : old_target None [chars "target_name"; chars (sf_target f)] = Some (chars (sf_target f)) /\ sf_target f <> "percolation, 1"%string /\ (sf_target f <> "euler"%string -> exists g, choose_gen pt et true (chars (sf_target f)) = Ok (Some g))).
    { clear -I ER KN. unfold stored_files in I. repeat (destruct I as [<-|I]; [first [discriminate ER|vm_compute in KN; discriminate KN|(split; [reflexivity|]; split; [discriminate|]; intros H; first [now contradiction H|eexists; reflexivity])]|]). destruct I. }
    destruct T as (T & T1 & TG). split; [|split].
    + intros E. apply (C116_unknown sq pt et path _ _ _ titles [] None _ N (known_ok f KN) T); rewrite E; [intros [H|[H|[H|[]]]]; discriminate H|intros s H; discriminate H|intros s H; discriminate H].
    + contradiction.
    + intros NE _. destruct (TG NE) as [g G]. destruct (convert_eq sq pt et path (chars "postproc_funcs") _ _ titles [] None _ N (known_ok f KN) T _ G) as (funcs & _ & ->). cbn [map load_rows bind results_as_eqns snd].
      eexists. split; [apply strip_set_trimmed|]. reflexivity.
  - destruct (convert_unknown sq pt et path (chars "postproc_funcs") _ [chars "target_name"; chars (sf_target f)] titles [] (unknown_files f I KN)) as [E _].
    assert (TT : sf_target f = "percolation, 1"%string) by (clear -I ER KN; unfold stored_files in I; repeat (destruct I as [<-|I]; [first [discriminate ER|vm_compute in KN; discriminate KN|reflexivity]|]); destruct I).
    rewrite TT in *. split; [discriminate|]. split; [intros _; exact E|]. intros _ H. contradiction H. reflexivity.
Qed.
(** The oldest file, results.csv, has neither the list of functions nor the column of their numbers. *)
Theorem C135_oldest_refuted : forall sq pt et path rows, old_enum_csv_to_pdf sq pt et path ([chars "postproc_func"; chars "1/x"] :: rows) None = Raise ValueError.
Proof. intros. vm_compute. reflexivity. Qed.
Definition with_rest (s : stored_row) : old_result :=
  {| old_a := [sr_a s]; old_b := [sr_b s]; old_func := sr_func s; old_u := sr_u s; old_l := sr_l s; old_c := sr_c s; old_d := sr_d s;
     old_flat_a := false; old_flat_b := false; old_rest := [chars "exp"] |}.
Example C135_ex : In old_results_0117_050418 stored_files /\ sf_rows old_results_0117_050418 <> [] /\
  Forall2 same_result (sf_rows old_results_0117_050418) (map with_rest (sf_rows old_results_0117_050418)) /\
  old_row (with_rest (hd (stored [] [] 0 0 0 0 0) (sf_rows old_results_0117_050418))) = map chars ["((-1, -2, 0),)"; "((0, 0, 1),)"; "0"; "0"; "-2"; "0"; "2"; "exp"]%string /\
  In old_results_1517_050418 stored_files /\ sf_rows old_results_1517_050418 = [] /\ sf_target old_results_1517_050418 = "euler"%string.
Proof.
  split; [right; left; reflexivity|]. split; [discriminate|]. split; [repeat constructor|]. split; [vm_compute; reflexivity|].
  split; [unfold stored_files; do 11 right; left; reflexivity|]. split; reflexivity.
Qed.

(** ---- C134: the stored results are equations ---- *)
Import Reals Qreals Lra Spec_OldResults CF_Old.
Local Open Scope R_scope.
(** Every result of the files after the oldest: the function with that number, applied to the value of the fraction, is
    (u/x + x/l + c)/d at the constant x of the file. *)
Theorem C134_true : forall f r, In f stored_files -> In r (sf_rows f) ->
  exists name g x K, (0 <= sr_func r)%Z /\ nth_error (sf_funcs f) (Z.to_nat (sr_func r)) = Some name /\ func_of name = Some g /\
    const_of_name (sf_target f) = Some x /\ value_of (sr_a r) (sr_b r) K /\ K <> 0 /\ g K = ulcd_R (sr_u r) (sr_l r) (sr_c r) (sr_d r) x.
Proof.
  intros f r I J. pose proof (proj1 (forallb_forall _ _) files_ok f I) as O. unfold file_ok in O. pose proof (proj1 (forallb_forall _ _) O r J) as O1. cbn beta in O1.
  apply andb_true_iff in O1. destruct O1 as [P O1]. apply Z.leb_le in P. destruct (nth_error (sf_funcs f) (Z.to_nat (sr_func r))) as [name|]; [|discriminate].
  destruct (row_sound _ _ _ O1) as (g & x & K & X). exists name, g, x, K. tauto.
Qed.
(** The oldest file: the inverse of the value of the fraction is (u/pi + pi/l + c)/d if l and the first coefficient of a
    have the same sign; in the other rows it is the negative of that. *)
Lemma oldest_ok : forallb (fun r => let s := Z.sgn (hd 0%Z (sr_a r) * sr_l r) in
   negb (s =? 0)%Z && (sr_c r =? 0)%Z && (sr_u r =? 0)%Z && OldResults_Proofs.row_ok "pi"%string "1/x"%string (stored (sr_a r) (sr_b r) (sr_func r) (sr_u r) (s * sr_l r) (sr_c r) (sr_d r))) (sf_rows old_results) = true.
Proof. vm_compute. reflexivity. Qed.
Theorem C134_oldest_refuted : forall r, In r (sf_rows old_results) ->
  exists K, value_of (sr_a r) (sr_b r) K /\ K <> 0 /\
    (/ K = ulcd_R (sr_u r) (sr_l r) (sr_c r) (sr_d r) PI <-> (0 < hd 0 (sr_a r) * sr_l r)%Z) /\
    (/ K = - ulcd_R (sr_u r) (sr_l r) (sr_c r) (sr_d r) PI <-> (hd 0 (sr_a r) * sr_l r < 0)%Z).
Proof.
  intros r I. pose proof (proj1 (forallb_forall _ _) oldest_ok r I) as O. cbn beta zeta in O. repeat (apply andb_true_iff in O; destruct O as [O ?]).
  destruct (row_sound _ _ _ H) as (g & x & K & F & C & V & N & E). cbn [sr_a sr_b sr_func sr_u sr_l sr_c sr_d] in *. injection F as <-. injection C as <-. exists K. split; [exact V|]. split; [exact N|].
  apply negb_true_iff in O. apply Z.eqb_neq in O. apply Z.eqb_eq in H0, H1. rewrite H0, H1 in *. rewrite ulcd0 in *. cbn beta in E.
  assert (IK : / K <> 0) by (apply Rinv_neq_0_compat; exact N). set (p := (hd 0 (sr_a r) * sr_l r)%Z) in *.
  assert (OP : PI / IZR (-1 * sr_l r) + 0 = - (PI / IZR (sr_l r) + 0)).
  { rewrite mult_IZR. unfold Rdiv. rewrite Rinv_mult. replace (/ -1) with (-1) by field. ring. }
  destruct (Z.sgn_spec p) as [[P S]|[[P S]|[P S]]]; rewrite S in *; [|congruence|].
  - replace (1 * sr_l r)%Z with (sr_l r) in E by ring. split; split; intros Q; [exact P|exact E|exfalso; lra|lia].
  - change (- (1))%Z with (-1)%Z in E. rewrite OP in E. assert (E' : / K = - ((PI / IZR (sr_l r) + 0) / IZR (sr_d r))) by (rewrite E; unfold Rdiv; ring). split; split; intros Q; [exfalso; lra|lia|exact P|exact E'].
Qed.
(** An object that stands for the fraction of a result computes without exception, and from some number of iterations on
    its result is the value of the fraction up to a relative error of 5 units of the precision. *)
Lemma row_value f r : In f (old_results :: stored_files) -> In r (sf_rows f) -> exists K, value_of (sr_a r) (sr_b r) K /\ K <> 0.
Proof.
  intros [<-|I] J; [destruct (C134_oldest_refuted r J) as (K & V & N & _)|destruct (C134_true f r I J) as (name & g & x & K & _ & _ & _ & _ & V & N & _)]; eauto.
Qed.
Lemma row_gen f r prec lg c n v : In f (old_results :: stored_files) -> In r (sf_rows f) -> (3 <= prec)%Z -> stands_for prec [sr_a r] [sr_b r] lg c -> convergent (sr_a r) (sr_b r) n = Some v ->
  exists c', cf_gen0 (rnd prec) (Z.of_nat n) true c = (c', Ok tt) /\ (lg = false \/ (1 <= n)%nat -> exists x, cf_result c' = Fin x /\ approx x v (4 * two_p (- prec))).
Proof.
  intros I J Hp HS E. destruct (stands_gen prec [sr_a r] [sr_b r] lg c (Z.of_nat n) Hp) with (v := v) as (c' & G & X); auto.
  - exact (row_a_nonempty f r I J).
  - discriminate.
  - lia.
  - intros i Hi. exact (row_b_nz f r i I J Hi).
  - unfold Properties_Errors.cut. rewrite Nat2Z.id. exact E.
  - exists c'. split; [exact G|]. intros HL. apply X. destruct HL; [left; assumption|right; lia].
Qed.
Theorem C134_computes : forall f r prec lg c, In f (old_results :: stored_files) -> In r (sf_rows f) -> (3 <= prec)%Z -> stands_for prec [sr_a r] [sr_b r] lg c ->
  (forall n, exists c', cf_gen0 (rnd prec) (Z.of_nat n) true c = (c', Ok tt)) /\
  exists K N, value_of (sr_a r) (sr_b r) K /\ forall n, (N <= n)%nat ->
    exists c' x, cf_gen0 (rnd prec) (Z.of_nat n) true c = (c', Ok tt) /\ cf_result c' = Fin x /\ Rabs (Q2R x - K) <= Q2R (5 * two_p (- prec)) * Rabs K.
Proof.
  intros f r prec lg c I J Hp HS. destruct (row_value f r I J) as (K & VK & NK). pose proof VK as (V & HV & CV). split.
  - intros n. destruct (row_gen f r prec lg c n (V n) I J Hp HS (HV n)) as (c' & G & _). eauto.
  - assert (T0 : (0 < two_p (- prec))%Q) by apply two_p_pos.
    assert (T8 : (two_p (- prec) <= 1 # 8)%Q) by (change (1 # 8)%Q with (two_p (-3)); apply two_p_le; lia).
    apply Qlt_Rlt in T0. apply Qle_Rle in T8. replace (Q2R 0) with 0 in T0 by (unfold Q2R; cbn; lra). replace (Q2R (1 # 8)) with (/ 8) in T8 by (unfold Q2R; cbn; lra).
    assert (QA : forall z, Q2R (Qabs z) = Rabs (Q2R z)).
    { intros z. apply Qabs_case; intros Hz; apply Qle_Rle in Hz; replace (Q2R 0) with 0 in Hz by (unfold Q2R; cbn; lra); [rewrite Rabs_right by lra; reflexivity|rewrite Rabs_left1 by lra; apply Q2R_opp]. }
    assert (Q4 : Q2R (4 * two_p (- prec)) = 4 * Q2R (two_p (- prec))) by (rewrite Q2R_mult; f_equal; unfold Q2R; cbn; lra).
    assert (Q5 : Q2R (5 * two_p (- prec)) = 5 * Q2R (two_p (- prec))) by (rewrite Q2R_mult; f_equal; unfold Q2R; cbn; lra).
    set (e := Q2R (two_p (- prec))) in *. assert (K0 : 0 < Rabs K) by (apply Rabs_pos_lt; exact NK).
    destruct (CV (e * Rabs K / 2)) as [N HN]; [assert (0 < e * Rabs K) by (apply Rmult_lt_0_compat; lra); lra|].
    exists K, (S N). split; [exact VK|]. intros n Hn. specialize (HN n ltac:(lia)). unfold R_dist in HN.
    destruct (row_gen f r prec lg c n (V n) I J Hp HS (HV n)) as (c' & G & X). assert (N1 : (1 <= n)%nat) by lia. destruct (X (or_intror N1)) as (x & Ex & A). exists c', x. split; [exact G|]. split; [exact Ex|].
    unfold approx in A. apply Qle_Rle in A. rewrite Q2R_mult, !QA, Q2R_minus, Q4 in A. rewrite Q5.
    assert (T1 : Rabs (Q2R x - K) <= Rabs (Q2R x - Q2R (V n)) + Rabs (Q2R (V n) - K)) by (replace (Q2R x - K) with ((Q2R x - Q2R (V n)) + (Q2R (V n) - K)) by ring; apply Rabs_triang).
    assert (T2 : Rabs (Q2R (V n)) <= Rabs K + Rabs (Q2R (V n) - K)) by (replace (Q2R (V n)) with (K + (Q2R (V n) - K)) at 1 by ring; apply Rabs_triang).
    set (k := Rabs K) in *. set (y := Rabs (Q2R (V n) - K)) in *. set (z := Rabs (Q2R (V n))) in *.
    assert (0 < e * k) by (apply Rmult_lt_0_compat; lra). assert (4 * e * z <= 4 * e * (k + e * k / 2)) by (apply Rmult_le_compat_l; lra).
    assert (e * (e * k) <= / 8 * (e * k)) by (apply Rmult_le_compat_r; lra). lra.
Qed.
Definition old_obj (a b : list Z) : contfrac := match cf_new (Nested [a]) (Nested [b]) true None None None false with Ok c => c | Raise _ => exc end.
Example C134_ex : In old_results_0005_120418 stored_files /\ In (stored [-1; 2; 4] [0; 6; -4] 0 0 (-1) 1 1)%Z (sf_rows old_results_0005_120418) /\
  stands_for 53 [[-1; 2; 4]]%Z [[0; 6; -4]]%Z false (old_obj [-1; 2; 4] [0; 6; -4])%Z /\ convergent [-1; 2; 4]%Z [0; 6; -4]%Z 2 = Some (-53 # 91)%Q /\
  In (stored [-1; -2; 0] [0; 0; 1] 0 0 (-4) 0 1)%Z (sf_rows old_results) /\ In (stored [1; 2; 0] [0; 0; 1] 0 0 (-4) 0 1)%Z (sf_rows old_results).
Proof.
  split; [left; reflexivity|]. split; [cbn; tauto|]. split; [left; exists true, None; eexists; exists []; eexists; split; reflexivity|]. split; [vm_compute; reflexivity|]. split; cbn; tauto.
Qed.

Print Assumptions C135_results_refuted.
Print Assumptions C135_empty_files.
Print Assumptions C135_oldest_refuted.
Print Assumptions C134_true.
Print Assumptions C134_oldest_refuted.
Print Assumptions C134_computes.

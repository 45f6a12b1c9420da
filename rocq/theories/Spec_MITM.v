(** Specifications for the search, independent of the helpers of the model. *)
From Coq Require Import Ascii String ZArith QArith Qabs Qround List Bool Permutation.
From Verif Require Import PyBase ContFrac_Model Hashtable_Model MITM_Model.
Import ListNotations.
Local Open Scope Z_scope.

(** Entry [x] is in the list stored under the key [k]. *)
Definition stored (t : mtable) (k : rawkey) (x : tent) : Prop :=
  exists l, In (k, VList l) (h_data t) /\ In x l.
(** A table as it arises in runs: no key twice, numeric keys hold lists. *)
Definition table_ok (t : mtable) : Prop :=
  NoDup (map fst (h_data t)) /\ forall q v, In (KNum q, v) (h_data t) -> exists l, v = VList l.

(** Fractional part of a number that is not negative. *)
Definition frac (q : Q) : Q := (q - inject_Z (Qfloor q))%Q.

Section Records.
  Variable rd : Q -> Q.
  Variable cfval : abpair -> res Q.
  Variable funcs : list (mpfv -> res mpfv).
  Variable trunc : bool.
  (** The fraction of [ab] and its post-processed value are finite and not zero and the absolute value of the latter,
      without its integer part when this is asked for, is [k]. *)
  Definition gives (ab : abpair) (i : Z) (k : Q) : Prop :=
    exists v f w, cfval ab = Ok v /\ ~ (v == 0)%Q /\ py_nth funcs i = Ok f /\ f (Fin v) = Ok (Fin w) /\ ~ (w == 0)%Q /\
                  k = Qred (if trunc then rd (frac (Qabs w)) else Qabs w).
End Records.

(** [l] is [m] with some further elements at the end, each of them once and not in [m]. *)
Definition extends {A} (m l : list A) : Prop :=
  exists n, l = m ++ n /\ NoDup n /\ forall x, In x n -> ~ In x m.

(** Objects as they arise in runs: a new object, building (whatever its outcome), new settings, reset, the settings
    stored under 'parameters' (main.py:111-112), and tables of other such objects loaded or joined. *)
Section Built.
  Context {O : Type}.
  Inductive built : mitm O -> Prop :=
  | B_new : forall e n s m, (0 <= s_hprec s)%Z -> mitm_new e n s = Ok m -> built m
  | B_build : forall rd fsqrt ibinom mo order target ra rb v m,
      (forall ab l, Permutation (order ab l) l) -> built m ->
      built (fst (build_hashtable rd fsqrt ibinom mo order target ra rb v m))
  | B_redefine : forall s m, (0 <= s_hprec s)%Z -> built m -> built (fst (mitm_redefine s m))
  | B_reset : forall m, built m -> built (mitm_reset m)
  | B_params : forall eng m, built m -> built (with_table m (fst (ht_set eng (UStr (txt "parameters")) (VOne TParams) (mi_table m))))
  | B_load : forall m m2, built m -> built m2 -> built (with_table m (mi_table m2))
  | B_join : forall m m2, built m -> built m2 -> built (with_table m (fst (ht_append (mi_table m2) (mi_table m))))
  | B_clicks : forall m cs, built m -> built (with_params m cs).
End Built.

(** ---- look-ups ---- *)
(** The accuracies in the order in which they are tried. *)
Definition tried (t : mtable) : list Z := h_hist t ++ [h_acc t].
Definition stored_text (t : mtable) (s : text) (v : hval tent) : Prop := In (KStr s, v) (h_data t).
(** A look-up with the text [s] finds [v]: some prefix of it is stored and no prefix that is tried earlier. *)
Definition finds (t : mtable) (s : text) (v : hval tent) : Prop :=
  exists l1 a l2, tried t = l1 ++ a :: l2 /\ (forall b w, In b l1 -> ~ stored_text t (py_take (b + 1) s) w) /\
                  stored_text t (py_take (a + 1) s) v.
Definition finds_nothing (t : mtable) (s : text) : Prop := forall a w, In a (tried t) -> ~ stored_text t (py_take (a + 1) s) w.

(** The number that is looked up and compared. *)
Inductive key_of (rd : Q -> Q) (trunc : bool) : mpfv -> mpfv -> Prop :=
| key_fin : forall q, key_of rd trunc (Fin q) (Fin (if trunc then rd (frac (Qabs q)) else Qabs q))
| key_nan : trunc = false -> key_of rd trunc NaN NaN.
(** Its text. *)
Inductive text_of (eng : Q -> res text) : mpfv -> text -> Prop :=
| text_fin : forall q s, eng q = Ok s -> text_of eng (Fin q) s
| text_nan : text_of eng NaN (txt "NaN").

Section ClickSpec.
  Variable rd : Q -> Q.
  Variable eng : Q -> res text.
  Context {O : Type}.
  Variable cls : lhs_class O.
  Variable trunc : bool.
  (** One new object for every stored entry. *)
  Definition click_for (o : O) (x : tent) (c : click O) : Prop :=
    exists ab i o', x = TEnt ab i /\ lc_copy cls o = Ok o' /\ c = (ab, o', i, None).
  (** The clicks of one left-hand side. *)
  Inductive clicks_of (t : mtable) (o : O) : list (click O) -> Prop :=
  | no_hit : forall k s, key_of rd trunc (lc_val cls o) k -> text_of eng k s -> finds_nothing t s -> clicks_of t o []
  | degenerate : forall k s v o1, key_of rd trunc (lc_val cls o) k -> text_of eng k s -> finds t s v ->
      lc_degen cls o = (o1, Ok true) -> clicks_of t o []
  | hits : forall k s l o1 cs, key_of rd trunc (lc_val cls o) k -> text_of eng k s -> finds t s (VList l) ->
      lc_degen cls o = (o1, Ok false) -> Forall2 (click_for o1) l cs -> clicks_of t o cs.
End ClickSpec.

(** ---- refinement ---- *)
(** [n] is the integer part of [q], towards zero. *)
Definition whole (q : Q) (n : Z) : Prop :=
  ((0 <= q)%Q -> (inject_Z n <= q < inject_Z n + 1)%Q) /\ ((q <= 0)%Q -> (inject_Z n - 1 < q <= inject_Z n)%Q).
Section RefineSpec.
  Variable rd : Q -> Q.
  Variable eng : Q -> res text.
  Context {O : Type}.
  Variable cls : lhs_class O.
  Variable funcs : list (mpfv -> res mpfv).
  Variable trunc : bool.
  Variable ev : abpair -> Z -> option conv -> res mpfv.
  Variable accuracy : Z.
  (** The recomputed right-hand side of a click. *)
  Definition rhs_of (c : click O) (x : res mpfv) : Prop :=
    exists f, py_nth funcs (ck_ind c) = Ok f /\
      ((exists e, ev (ck_ab c) accuracy (ck_conv c) = Raise e /\ x = Raise e) \/
       (exists v, ev (ck_ab c) accuracy (ck_conv c) = Ok v /\ x = f v)).
  Definition same_digits (a b : mpfv) : Prop :=
    exists k1 k2 s1 s2, key_of rd trunc a k1 /\ key_of rd trunc b k2 /\ text_of eng k1 s1 /\ text_of eng k2 s2 /\
      py_take (accuracy + 2) s1 = py_take (accuracy + 2) s2.
  Definition other_digits (a b : mpfv) : Prop :=
    exists k1 k2 s1 s2, key_of rd trunc a k1 /\ key_of rd trunc b k2 /\ text_of eng k1 s1 /\ text_of eng k2 s2 /\
      py_take (accuracy + 2) s1 <> py_take (accuracy + 2) s2.
  Definition dropped (c : click O) : Prop :=
    rhs_of c (Raise ZeroDivisionError) \/ rhs_of c (Ok NaN) \/ (exists r, rhs_of c (Ok (Fin r)) /\ r == 0)%Q \/
    (exists r, rhs_of c (Ok (Fin r)) /\ ~ (r == 0)%Q /\ other_digits (Fin r) (lc_val cls (ck_obj c))).
  (** The sign of the left-hand side is changed when the signs are opposite; then the integer part of the difference
      is added; then the object is brought to canonical form. *)
  Definition kept (c c' : click O) : Prop :=
    exists r l n o1 o2 o3,
      rhs_of c (Ok (Fin r)) /\ ~ (r == 0)%Q /\ lc_val cls (ck_obj c) = Fin l /\ same_digits (Fin r) (Fin l) /\
      ((r * l < 0)%Q /\ lc_flip cls (ck_obj c) = (o1, Ok tt) /\ whole (rd (r - - l)) n \/
       (0 <= r * l)%Q /\ o1 = ck_obj c /\ whole (rd (r - l)) n) /\
      lc_add cls n o1 = (o2, Ok tt) /\ lc_canon cls o2 = (o3, Ok tt) /\ c' = (ck_ab c, o3, ck_ind c, ck_conv c).
End RefineSpec.

(** The sub-list of the elements that are kept, each replaced by what it becomes. *)
Inductive selects {A B} (keep : A -> B -> Prop) (drop : A -> Prop) : list A -> list B -> Prop :=
| sel_nil : selects keep drop [] []
| sel_keep : forall a b l r, keep a b -> selects keep drop l r -> selects keep drop (a :: l) (b :: r)
| sel_drop : forall a l r, drop a -> selects keep drop l r -> selects keep drop (a :: l) r.

(** ---- filters ---- *)
(** The elements at the positions whose flag is set. *)
Fixpoint picks {A} (fs : list bool) (l : list A) : list A :=
  match fs, l with
  | true :: fs', x :: l' => x :: picks fs' l'
  | false :: fs', _ :: l' => picks fs' l'
  | _, _ => []
  end.
Definition sublist {A} (r l : list A) : Prop := exists fs, length fs = length l /\ r = picks fs l.
(** The flags of the duplicate filter: an element is kept when the answer is "no" for it and every kept element before
    it, and dropped when the answer is "yes" for it and some kept element before it. *)
Definition first_flags {A} (test : A -> A -> res bool) (l : list A) (fs : list bool) : Prop :=
  length fs = length l /\
  forall k c, nth_error l k = Some c ->
    (nth_error fs k = Some true /\
     forall j u, (j < k)%nat -> nth_error fs j = Some true -> nth_error l j = Some u -> test u c = Ok false) \/
    (nth_error fs k = Some false /\
     exists j u, (j < k)%nat /\ nth_error fs j = Some true /\ nth_error l j = Some u /\ test u c = Ok true).
(** The answer of is_equiv for two clicks. *)
Definition equiv_answer {O} (cls : lhs_class O) (u c : click O) : res bool :=
  snd (lc_equiv cls (ck_ab u, ck_obj u, ck_ind u) (ck_ab c, ck_obj c, ck_ind c)).

(** The value of the left-hand side of a click has a text. *)
Definition printable {O} (eng : Q -> res text) (cls : lhs_class O) (c : click O) : Prop := exists s, engv eng (lc_val cls (ck_obj c)) = Ok s.
(** The fraction that is made anew for a click. *)
Definition fresh_cf {O} (target : option Q) (c : click O) (cf : contfrac) : Prop :=
  cf_new (Nested (fst (ck_ab c))) (Nested (snd (ck_ab c))) true None None target false = Ok cf.
Definition with_conv {O} (c : click O) (v : conv) : click O := (ck_ab c, ck_obj c, ck_ind c, Some v).
(** Neither None nor empty. *)
Definition nonempty {A} (l : option (list A)) : Prop := exists x r, l = Some (x :: r).
Definition member {A} (x : A) (l : option (list A)) : Prop := exists r, l = Some r /\ In x r.
Definition wanted (w b : option (list atype)) (t : atype) : Prop :=
  (nonempty w /\ member t w) \/ (nonempty b /\ ~ member t b).
(** [n] is the integer nearest to [q], the even one of two. *)
Definition nearest_even (q : Q) (n : Z) : Prop :=
  (Qabs (q - inject_Z n) <= 1 # 2)%Q /\ ((Qabs (q - inject_Z n) == 1 # 2)%Q -> Z.even n = true).
(** The test for positive integer roots: [c] is the float nearest to 1/1000. *)
Definition int_root (c re im : Q) : Prop :=
  (Qabs im < c)%Q /\ (c < re)%Q /\ exists n, nearest_even re n /\ (re - inject_Z n < c)%Q.

(** What the cleaning script of tables is for, independently of how it works. *)
From Coq Require Import Ascii String ZArith QArith List Bool.
From Verif Require Import PyBase ContFrac_Model Hashtable_Model MITM_Model.
Import ListNotations.
Local Open Scope Z_scope.
Local Open Scope list_scope.

(** The contents after cleaning: in every list the entries that are [bad] are gone and the others are in their old
    order; keys whose lists become empty are gone; the settings stay. *)
Definition is_settings (k : rawkey) : Prop := k = KStr (txt "parameters").
Inductive cleaned (bad : abpair -> Prop) : list (rawkey * hval tent) -> list (rawkey * hval tent) -> Prop :=
| cl_nil : cleaned bad [] []
| cl_settings v d d' : cleaned bad d d' -> cleaned bad ((KStr (txt "parameters"), v) :: d) ((KStr (txt "parameters"), v) :: d')
| cl_keep k l l' d d' : ~ is_settings k -> kept bad l l' -> l' <> [] -> cleaned bad d d' ->
    cleaned bad ((k, VList l) :: d) ((k, VList l') :: d')
| cl_drop k l d d' : ~ is_settings k -> kept bad l [] -> cleaned bad d d' -> cleaned bad ((k, VList l) :: d) d'
with kept (bad : abpair -> Prop) : list tent -> list tent -> Prop :=
| kp_nil : kept bad [] []
| kp_good ab i l l' : ~ bad ab -> kept bad l l' -> kept bad (TEnt ab i :: l) (TEnt ab i :: l')
| kp_bad ab i l l' : bad ab -> kept bad l l' -> kept bad (TEnt ab i :: l) l'.

(** A table whose text keys address themselves: no key is cut by the present accuracy, and where an older accuracy
    cuts it the cut text is not a key. *)
Definition self_addressed {V} (t : htab V) : Prop :=
  forall s, In (KStr s) (map fst (h_data t)) -> s <> txt "parameters" ->
    py_take (h_acc t + 1) s = s /\
    forall a, In a (h_hist t) -> py_take (a + 1) s = s \/ ~ In (KStr (py_take (a + 1) s)) (map fst (h_data t)).
(** All values but the settings are lists of entries. *)
Definition entry_lists (d : list (rawkey * hval tent)) : Prop :=
  forall k v, In (k, v) d -> k <> KStr (txt "parameters") ->
    exists l, v = VList l /\ forall x, In x l -> exists ab i, x = TEnt ab i.

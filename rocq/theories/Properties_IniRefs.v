(** Claim C148: what the settings of a configuration file say. *)
From Coq Require Import Ascii String ZArith List Bool Lia.
From Verif Require Import PyBase PyBase_Proofs Hashtable_Model Hashtable_Proofs Results_Model Config_Model Ini_Model Spec_Ini Ini_Proofs Ini_Save Spec_IniRefs IniRefs_Proofs.
From Verif Require Properties_Ini.
Import ListNotations.
Local Open Scope list_scope.

(** Loading a file is loading the list of what its settings say. *)
Theorem C148_meaning : forall listdir t secs items, ini_read t = Ok secs -> file_says secs items -> load_ini listdir (Some t) = load listdir (Some items).
Proof.
  intros listdir t secs items R S. destruct (read_distinct t secs R) as [A B]. unfold load_ini, load. rewrite R. cbn [bind]. now rewrite (cast_says secs items A B S).
Qed.
(** No section has two settings of the same name, no two sections have the same name. *)
Theorem C148_distinct : forall t secs, ini_read t = Ok secs -> NoDup (map fst secs) /\ Forall (fun ns => NoDup (map fst (snd ns))) secs.
Proof. exact read_distinct. Qed.
(** A value says one thing at most; one that says nothing makes loading fail. *)
Theorem C148_unique : forall t secs D n s v x y, ini_read t = Ok secs -> defaults_of secs D -> In (n, s) secs ->
  expands (value_in D s) 10 v x -> expands (value_in D s) 10 v y -> x = y.
Proof.
  intros t secs D n s v x y R HD I X Y. destruct (read_distinct t secs R) as [_ B]. pose proof (defaults_nodup secs D B HD) as ND. rewrite Forall_forall in B. specialize (B _ I). cbn [snd] in B.
  apply value_says in X, Y; try assumption. congruence.
Qed.
Theorem C148_says_nothing : forall listdir t secs D n s k v, ini_read t = Ok secs -> defaults_of secs D -> In (n, s) secs -> n <> txt "DEFAULT" -> value_in D s k v ->
  (forall x, ~ expands (value_in D s) 10 v x) -> exists e, load_ini listdir (Some t) = Raise e.
Proof.
  intros listdir t secs D n s k v R HD I N V X. destruct (read_distinct t secs R) as [A B]. destruct (cast_bad secs D n s k v A B HD I N V X) as [e E]. exists e.
  unfold load_ini. rewrite R. cbn [bind]. now rewrite E.
Qed.
(** So do settings that refer to themselves, directly or by way of others. *)
Lemma same_ref k k1 v v1 : k <> [] -> ~ In ")"%char k -> k1 <> [] -> ~ In ")"%char k1 -> txt "%(" ++ k ++ txt ")s" ++ v = txt "%(" ++ k1 ++ txt ")s" ++ v1 -> k = k1 /\ v = v1.
Proof.
  intros N I N1 I1 E. assert (E' : k ++ txt ")s" ++ v = k1 ++ txt ")s" ++ v1) by (exact (f_equal (fun l => tl (tl l)) E)).
  pose proof (proj2 (reference_iff (k ++ txt ")s" ++ v) k v) (conj eq_refl (conj N I))) as R.
  pose proof (proj2 (reference_iff (k ++ txt ")s" ++ v) k1 v1) (conj E' (conj N1 I1))) as R1. rewrite R in R1. now injection R1.
Qed.
Lemma lowered_one k a b : lowered k a -> lowered k b -> a = b.
Proof. intros A B. apply lowered_iff in A, B. congruence. Qed.
Lemma mentioned val n v k x : mentions v k -> expands val n v x -> exists w, val k w /\ (no_percent w \/ exists m y, n = S m /\ expands val m w y).
Proof.
  intros M. revert x. induction M as [k k' v N I LW|c v k N M IH|v k M IH|k0 v k N I M IH]; intros x H.
  - remember (txt "%(" ++ k ++ txt ")s" ++ v) as u eqn:EV. destruct H as [m|m c u t NC X|m u t X|m k1 k1' w u t N1 I1 L1 V NPW X|m k1 k1' w y u t N1 I1 L1 V EX X]; try discriminate.
    + injection EV as -> _. now elim NC.
    + destruct (same_ref _ _ _ _ N1 I1 N I EV) as [-> _]. rewrite (lowered_one _ _ _ LW L1). exists w. auto.
    + destruct (same_ref _ _ _ _ N1 I1 N I EV) as [-> _]. rewrite (lowered_one _ _ _ LW L1). exists w. split; [exact V|right]. exists m, y. auto.
  - remember (c :: v) as u eqn:EV. destruct H as [m|m c1 u t NC X|m u t X|m k1 k1' w u t N1 I1 L1 V NPW X|m k1 k1' w y u t N1 I1 L1 V EX X]; try discriminate; injection EV as E1 E2; try (now elim N).
    subst. exact (IH t X).
  - remember (txt "%%" ++ v) as u eqn:EV. destruct H as [m|m c1 u t NC X|m u t X|m k1 k1' w u t N1 I1 L1 V NPW X|m k1 k1' w y u t N1 I1 L1 V EX X]; try discriminate.
    + injection EV as -> _. now elim NC.
    + injection EV as ->. exact (IH t X).
  - remember (txt "%(" ++ k0 ++ txt ")s" ++ v) as u eqn:EV. destruct H as [m|m c1 u t NC X|m u t X|m k1 k1' w u t N1 I1 L1 V NPW X|m k1 k1' w y u t N1 I1 L1 V EX X]; try discriminate.
    + injection EV as -> _. now elim NC.
    + destruct (same_ref _ _ _ _ N1 I1 N I EV) as [_ ->]. exact (IH t X).
    + destruct (same_ref _ _ _ _ N1 I1 N I EV) as [_ ->]. exact (IH t X).
Qed.
Lemma mentions_percent v k : mentions v k -> ~ no_percent v.
Proof.
  induction 1 as [k k' v N I LW|c v k N M IH|v k M IH|k0 v k N I M IH]; intros H; try (apply H; now left). apply IH. intros Z. apply H. now right.
Qed.
Definition single (val : text -> text -> Prop) : Prop := forall k w w', val k w -> val k w' -> w = w'.
Lemma refers_percent val k n : single val -> refers val k n -> forall w, val k w -> ~ no_percent w.
Proof.
  intros S R. induction R as [k w n V M|k m n R1 IH1 R2 IH2]; [|exact IH1]. intros w' V' N. rewrite <- (S _ _ _ V V') in N. exact (mentions_percent _ _ M N).
Qed.
Lemma refers_down val k n : single val -> refers val k n -> forall w m x, val k w -> expands val m w x ->
  exists w', val n w' /\ (no_percent w' \/ exists m' y, (m' < m)%nat /\ expands val m' w' y).
Proof.
  intros S R. induction R as [k w n V M|k j n R1 IH1 R2 IH2]; intros w' m x V' X.
  - rewrite <- (S _ _ _ V V') in X. destruct (mentioned _ _ _ _ _ M X) as (w1 & V1 & H).
    exists w1. split; [exact V1|]. destruct H as [H|(m' & y & -> & H)]; [now left|right]. exists m', y. split; [lia|exact H].
  - destruct (IH1 w' m x V' X) as (w1 & V1 & [H|(m1 & y & L & H)]); [elim (refers_percent val j n S R2 w1 V1 H)|].
    destruct (IH2 w1 m1 y V1 H) as (w2 & V2 & [G|(m2 & z & L2 & G)]); exists w2; (split; [exact V2|]); [now left|right]. exists m2, z. split; [lia|exact G].
Qed.
Theorem C148_circle : forall listdir t secs D n s k v, ini_read t = Ok secs -> defaults_of secs D -> In (n, s) secs -> n <> txt "DEFAULT" -> value_in D s k v ->
  refers (value_in D s) k k -> exists e, load_ini listdir (Some t) = Raise e.
Proof.
  intros listdir t secs D n s k v R HD I N V C. apply (C148_says_nothing listdir t secs D n s k v R HD I N V).
  assert (S : single (value_in D s)).
  { destruct (read_distinct t secs R) as [_ B]. pose proof (defaults_nodup secs D B HD) as ND. rewrite Forall_forall in B. specialize (B _ I). cbn [snd] in B.
    intros k0 w w' A1 A2. apply lookup_iff in A1, A2; try assumption. congruence. }
  assert (X : forall m x, ~ expands (value_in D s) m v x).
  { intros m. induction m as [m IH] using (well_founded_induction lt_wf). intros x X. destruct (refers_down _ _ _ S C v m x V X) as (w & W & [H|(m' & y & L & H)]);
      rewrite <- (S _ _ _ V W) in H; [exact (refers_percent _ _ _ S C v V H)|exact (IH m' L y H)]. }
  exact (X 10%nat).
Qed.
Lemma nodup_dec (l : list text) : (if list_eq_dec (list_eq_dec ascii_dec) (nodup (list_eq_dec ascii_dec) l) l then true else false) = true -> NoDup l.
Proof. destruct (list_eq_dec _ _ _) as [E|]; [intros _|discriminate]. rewrite <- E. apply NoDup_nodup. Qed.
(** Eleven settings that refer to one another in a row, without a circle, are an error too; ten are not. *)
Definition chain (n : nat) : text := Properties_Ini.file_of ("[Setup]" :: firstn n ["b0 = %(b1)s"; "b1 = %(b2)s"; "b2 = %(b3)s"; "b3 = %(b4)s"; "b4 = %(b5)s"; "b5 = %(b6)s"; "b6 = %(b7)s"; "b7 = %(b8)s"; "b8 = %(b9)s"; "b9 = %(c0)s"; "c0 = %(c1)s"] ++
  firstn 1 (skipn n ["b0 = pi"; "b1 = pi"; "b2 = pi"; "b3 = pi"; "b4 = pi"; "b5 = pi"; "b6 = pi"; "b7 = pi"; "b8 = pi"; "b9 = pi"; "c0 = pi"; "c1 = pi"]))%string.
Theorem C148_chain_refuted : exists ten eleven, ini_read (chain 10) = Ok [(txt "Setup", ten)] /\ ini_read (chain 11) = Ok [(txt "Setup", eleven)] /\
  expands (value_in [] ten) 10 (txt "%(b1)s") (txt "pi") /\ expands (value_in [] eleven) 11 (txt "%(b1)s") (txt "pi") /\
  value_in [] eleven (txt "b0") (txt "%(b1)s") /\ (forall x, ~ expands (value_in [] eleven) 10 (txt "%(b1)s") x) /\ forall listdir, exists e, load_ini listdir (Some (chain 11)) = Raise e.
Proof.
  do 2 eexists. split; [vm_compute; reflexivity|]. split; [vm_compute; reflexivity|].
  split; [apply value_says; [constructor|apply nodup_dec; vm_compute; reflexivity|vm_compute; reflexivity]|].
  split; [apply value_says; [constructor|apply nodup_dec; vm_compute; reflexivity|vm_compute; reflexivity]|].
  split; [left; left; reflexivity|]. split; [|intros listdir; eexists; vm_compute; reflexivity].
  intros x X. apply value_says in X; [|constructor|apply nodup_dec; vm_compute; reflexivity]. vm_compute in X. discriminate.
Qed.
Example C148_ex : let t := Properties_Ini.file_of ["[DEFAULT]"; "const = pi"; "i = 7"; "[Setup]"; "i = 3"; "file = %(CONST)s_%(i)s_100%%"]%string in
  exists secs, ini_read t = Ok secs /\ defaults_of secs [(txt "const", txt "pi"); (txt "i", txt "7")] /\
  file_says secs [(txt "i", txt "3"); (txt "file", txt "pi_3_100%"); (txt "const", txt "pi")].
Proof.
  eexists. split; [vm_compute; reflexivity|]. split; [left; left; reflexivity|].
  exists [(txt "const", txt "pi"); (txt "i", txt "7")], [[(txt "i", txt "3"); (txt "file", txt "pi_3_100%"); (txt "const", txt "pi")]]. split; [left; left; reflexivity|]. split; [|reflexivity].
  apply Forall2_cons; [|constructor]. unfold section_says. 
  match goal with |- Forall2 _ ?l _ => let l' := eval vm_compute in l in change l with l' end.
  repeat (apply Forall2_cons; [split; [reflexivity|apply value_says; [apply nodup_dec; vm_compute; reflexivity|apply nodup_dec; vm_compute; reflexivity|vm_compute; reflexivity]]|]). constructor.
Qed.
Example C148_circle_ex : let t := Properties_Ini.file_of ["[Setup]"; "i = 1 %(J)s%%"; "j = 100%% of %(k)s and %(i)s"; "k = 7"]%string in
  exists s, ini_read t = Ok [(txt "Setup", s)] /\ value_in [] s (txt "i") (txt "1 %(J)s%%") /\ refers (value_in [] s) (txt "i") (txt "i").
Proof.
  eexists. split; [vm_compute; reflexivity|]. split; [left; left; reflexivity|].
  apply (R_more _ _ (txt "j")).
  - apply (R_one _ _ (txt "1 %(J)s%%")); [left; left; reflexivity|]. do 2 (apply M_char; [discriminate|]). apply (M_here (txt "J") (txt "j") (txt "%%")); [discriminate|intros [H|[]]; discriminate|apply lowered_iff; reflexivity].
  - apply (R_one _ _ (txt "100%% of %(k)s and %(i)s")); [left; right; left; reflexivity|]. do 3 (apply M_char; [discriminate|]). apply (M_percent (txt " of %(k)s and %(i)s")).
    do 4 (apply M_char; [discriminate|]). apply (M_later (txt "k") (txt " and %(i)s")); [discriminate|intros [H|[]]; discriminate|]. do 5 (apply M_char; [discriminate|]).
    apply (M_here (txt "i") (txt "i") []); [discriminate|intros [H|[]]; discriminate|apply lowered_iff; reflexivity].
Qed.
(** So do references to settings that do not exist, and percent signs before anything else. *)
Theorem C148_missing : forall listdir t secs D n s k v r, ini_read t = Ok secs -> defaults_of secs D -> In (n, s) secs -> n <> txt "DEFAULT" -> value_in D s k v ->
  mentions v r -> (forall w, ~ value_in D s r w) -> exists e, load_ini listdir (Some t) = Raise e.
Proof.
  intros listdir t secs D n s k v r R HD I N V E M. apply (C148_says_nothing listdir t secs D n s k v R HD I N V). intros x X.
  destruct (mentioned _ _ _ _ _ E X) as (w & W & _). exact (M w W).
Qed.
Lemma broken_says val n v x : broken v -> ~ expands val n v x.
Proof.
  intros M. revert x. induction M as [b B1 B2|c v N M IH|v M IH|k0 v N I M IH]; intros x H.
  - remember ("%"%char :: b) as u eqn:EV. destruct H as [m|m c u t NC X|m u t X|m k1 k1' w u t N1 I1 L1 V NPW X|m k1 k1' w y u t N1 I1 L1 V EX X]; try discriminate.
    + injection EV as -> _. now elim NC.
    + injection EV as EV. exact (B1 u (eq_sym EV)).
    + injection EV as EV. destruct (B2 k1 u (eq_sym EV)); contradiction.
    + injection EV as EV. destruct (B2 k1 u (eq_sym EV)); contradiction.
  - remember (c :: v) as u eqn:EV. destruct H as [m|m c1 u t NC X|m u t X|m k1 k1' w u t N1 I1 L1 V NPW X|m k1 k1' w y u t N1 I1 L1 V EX X]; try discriminate; injection EV as E1 E2; try (now elim N).
    subst. exact (IH t X).
  - remember (txt "%%" ++ v) as u eqn:EV. destruct H as [m|m c1 u t NC X|m u t X|m k1 k1' w u t N1 I1 L1 V NPW X|m k1 k1' w y u t N1 I1 L1 V EX X]; try discriminate.
    + injection EV as -> _. now elim NC.
    + injection EV as ->. exact (IH t X).
  - remember (txt "%(" ++ k0 ++ txt ")s" ++ v) as u eqn:EV. destruct H as [m|m c1 u t NC X|m u t X|m k1 k1' w u t N1 I1 L1 V NPW X|m k1 k1' w y u t N1 I1 L1 V EX X]; try discriminate.
    + injection EV as -> _. now elim NC.
    + destruct (same_ref _ _ _ _ N1 I1 N I EV) as [_ ->]. exact (IH t X).
    + destruct (same_ref _ _ _ _ N1 I1 N I EV) as [_ ->]. exact (IH t X).
Qed.
Theorem C148_lone_percent : forall listdir t secs D n s k v, ini_read t = Ok secs -> defaults_of secs D -> In (n, s) secs -> n <> txt "DEFAULT" -> value_in D s k v ->
  broken v -> exists e, load_ini listdir (Some t) = Raise e.
Proof.
  intros listdir t secs D n s k v R HD I N V B. apply (C148_says_nothing listdir t secs D n s k v R HD I N V). intros x. now apply broken_says.
Qed.
Example C148_broken_ex : broken (txt "%(i)s is 5% of x") /\ broken (txt "%%%()s") /\ broken (txt "a%").
Proof.
  split; [|split].
  - apply (B_later (txt "i") (txt " is 5% of x")); [discriminate|intros [H|[]]; discriminate|]. do 5 (apply B_char; [discriminate|]). apply B_here; [discriminate|]. discriminate.
  - apply (B_percent (txt "%()s")). apply B_here; [discriminate|]. intros [|c k] v E; [now left|right]. injection E as <- _. now left.
  - apply B_char; [discriminate|]. apply B_here; [discriminate|]. discriminate.
Qed.

Print Assumptions C148_meaning.
Print Assumptions C148_distinct.
Print Assumptions C148_unique.
Print Assumptions C148_says_nothing.
Print Assumptions C148_circle.
Print Assumptions C148_chain_refuted.
Print Assumptions C148_missing.
Print Assumptions C148_lone_percent.

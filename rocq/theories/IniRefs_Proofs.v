(** References between settings: proofs for Properties_IniRefs. *)
From Coq Require Import Ascii String ZArith List Bool Lia.
From Verif Require Import PyBase PyBase_Proofs Hashtable_Model Hashtable_Proofs Results_Model Config_Model Ini_Model Spec_Ini Ini_Proofs Ini_Save Spec_IniRefs.
Import ListNotations.
Local Open Scope res_scope.
Local Open Scope list_scope.

Lemma lowered_iff a : forall b, lowered a b <-> b = lower a.
Proof.
  assert (C : forall c d, ((65 <= nat_of_ascii c <= 90 -> nat_of_ascii d = nat_of_ascii c + 32)%nat /\ (~ (65 <= nat_of_ascii c <= 90)%nat -> d = c)) <-> d = lower_char c).
  { intros c d. unfold lower_char. cbv zeta. destruct (Nat.leb_spec 65 (nat_of_ascii c)); destruct (Nat.leb_spec (nat_of_ascii c) 90); cbn [andb].
    2-4: (split; [intros [_ X]; apply X; lia|intros ->; split; [lia|reflexivity]]).
    split; [intros [X _]; rewrite <- X by lia; symmetry; apply ascii_nat_embedding|]. intros ->. split; [|lia]. intros _. apply nat_ascii_embedding. lia. }
  unfold lower. induction a as [|c a IH]; intros [|d b]; cbn [map].
  - split; [reflexivity|constructor].
  - split; [intros H; inversion H|discriminate].
  - split; [intros H; inversion H|discriminate].
  - split.
    + intros H. inversion H as [|? ? ? ? X Y]; subst. apply C in X. apply IH in Y. congruence.
    + intros H. injection H as E1 E2. constructor; [now apply C|now apply IH].
Qed.
Lemma cut_inv p s : forall a b, cut_at p s = Some (a, b) -> exists c, s = a ++ c :: b /\ p c = true /\ forall x, In x a -> p x = false.
Proof.
  induction s as [|c s IH]; intros a b H; [discriminate|]. cbn [cut_at] in H. destruct (p c) eqn:P.
  - injection H as <- <-. exists c. split; [reflexivity|]. split; [exact P|intros x []].
  - destruct (cut_at p s) as [[a' b']|]; [|discriminate]. injection H as <- <-. destruct (IH a' b' eq_refl) as (d & -> & D & N). exists d. split; [reflexivity|]. split; [exact D|].
    intros x [<-|I]; [exact P|now apply N].
Qed.
Lemma reference_iff s k r : reference s = Some (k, r) <-> s = k ++ txt ")s" ++ r /\ k <> [] /\ ~ In ")"%char k.
Proof.
  unfold reference. split.
  - destruct (cut_at _ s) as [[[|c n] [|d q]]|] eqn:E; try discriminate. destruct (char_eqb d "s"%char) eqn:D; [|discriminate]. intros H. injection H as <- <-.
    apply ceq in D. subst d. destruct (cut_inv _ _ _ _ E) as (e & -> & X & N). apply ceq in X. subst e. split; [reflexivity|]. split; [discriminate|].
    intros I. specialize (N _ I). now rewrite crefl in N.
  - intros (-> & N & I). change (txt ")s" ++ r) with (")"%char :: "s"%char :: r). rewrite cut_first; [|intros x X; apply cneq; congruence|apply crefl].
    destruct k as [|c k]; [congruence|]. now rewrite crefl.
Qed.
Section Expand.
  Variable env : text -> option text.
  Definition val (k w : text) : Prop := env k = Some w.
  Lemma np_has w : no_percent w <-> has_percent w = false.
  Proof.
    destruct (has_percent w) eqn:E; split; intros H; try reflexivity; try discriminate.
    - exfalso. apply H. unfold has_percent in E. apply existsb_exists in E. destruct E as (c & I & X). apply ceq in X. now subst c.
    - intros I. assert (has_percent w = true); [|congruence]. apply existsb_exists. exists percent. split; [exact I|apply crefl].
  Qed.
  Lemma interp_iff d : (forall w x, interpolate d env w = Ok x <-> expands val d w x) ->
    forall n v t, (length v <= n)%nat -> (interpolate_text (interpolate d env) env n v = Ok t <-> expands val (S d) v t).
  Proof.
    intros ID. induction n as [|n IH]; intros v t L.
    { destruct v; [|cbn in L; lia]. cbn. split; [intros [= <-]; constructor|]. intros H. inversion H; subst; reflexivity || discriminate. }
    destruct v as [|c r]; cbn [interpolate_text].
    { split; [intros [= <-]; constructor|]. intros H. inversion H; reflexivity || discriminate. }
    cbn [length] in L. destruct (char_eqb c percent) eqn:P.
    2:{ split.
        - destruct (interpolate_text _ env n r) as [t'|e] eqn:E; [|discriminate]. intros [= <-]. apply X_char; [now apply cneq|]. apply IH; [lia|exact E].
        - intros H. apply cneq in P. remember (c :: r) as v eqn:EV. remember (S d) as sd eqn:ES. destruct H as [m|m c' v t N X|m v t X|m k k' w v t N I LW V NP X|m k k' w x v t N I LW V EX X];
            try discriminate; injection ES as ->; injection EV as E1 E2; [|now elim P..]. subst. apply IH in X; [|lia]. now rewrite X. }
    apply ceq in P. subst c. split.
    - destruct r as [|c2 r2]; [discriminate|]. cbn [length] in L. destruct (char_eqb c2 percent) eqn:P2.
      + apply ceq in P2. subst c2. destruct (interpolate_text _ env n r2) as [t'|e] eqn:E; [|discriminate]. intros [= <-]. apply X_percent. apply IH; [lia|exact E].
      + destruct (char_eqb c2 "("%char) eqn:P3; [|discriminate]. apply ceq in P3. subst c2. destruct (reference r2) as [[k rest]|] eqn:R; [|discriminate].
        apply reference_iff in R. destruct R as (-> & N & I). destruct (env (lower k)) as [w|] eqn:EK; [|discriminate].
        assert (LR : (length rest <= n)%nat) by (rewrite !app_length in L; cbn in L; lia).
        destruct (has_percent w) eqn:HP.
        * destruct (interpolate d env w) as [x|e] eqn:EX; [|discriminate]. cbn [bind]. destruct (interpolate_text _ env n rest) as [t'|e] eqn:E; [|discriminate]. intros [= <-].
          eapply (X_ref val d k (lower k) w x rest t'); [exact N|exact I|now apply lowered_iff|exact EK|now apply ID|now apply IH].
        * cbn [bind]. destruct (interpolate_text _ env n rest) as [t'|e] eqn:E; [|discriminate]. intros [= <-].
          eapply (X_plain val d k (lower k) w rest t'); [exact N|exact I|now apply lowered_iff|exact EK|now apply np_has|now apply IH].
    - intros H. remember (percent :: r) as v eqn:EV. remember (S d) as sd eqn:ES. destruct H as [m|m c v t N X|m v t X|m k k' w v t N I LW V NP X|m k k' w x v t N I LW V EX X]; injection ES as ->.
      + discriminate.
      + injection EV as -> _. now elim N.
      + injection EV as <-. cbn [length] in L. rewrite crefl. apply IH in X; [|lia]. now rewrite X.
      + assert (ER : r = "("%char :: k ++ txt ")s" ++ v) by (symmetry; exact (f_equal (@tl ascii) EV)). clear EV. subst r. change (char_eqb "("%char percent) with false. cbn iota. rewrite crefl. rewrite (proj2 (reference_iff (k ++ txt ")s" ++ v) k v)) by auto.
        apply lowered_iff in LW. subst k'. unfold val in V. rewrite V. apply np_has in NP. rewrite NP. cbn [bind]. apply IH in X; [now rewrite X|]. cbn [length] in L. rewrite !app_length in L. cbn in L. lia.
      + assert (ER : r = "("%char :: k ++ txt ")s" ++ v) by (symmetry; exact (f_equal (@tl ascii) EV)). clear EV. subst r. change (char_eqb "("%char percent) with false. cbn iota. rewrite crefl. rewrite (proj2 (reference_iff (k ++ txt ")s" ++ v) k v)) by auto.
        apply lowered_iff in LW. subst k'. unfold val in V. rewrite V. apply IH in X; [|cbn [length] in L; rewrite !app_length in L; cbn in L; lia].
        destruct (has_percent w) eqn:HP; [apply ID in EX; rewrite EX; cbn [bind]; now rewrite X|]. cbn [bind]. rewrite X. cbn [bind].
        apply ID in EX. destruct d as [|m]; [discriminate|]. rewrite interpolate_plain in EX by now apply np_has. injection EX as ->. reflexivity.
  Qed.
  Lemma interpolate_iff n : forall v t, interpolate n env v = Ok t <-> expands val n v t.
  Proof.
    induction n as [|n IH]; intros v t; [split; [discriminate|intros H; inversion H]|]. cbn [interpolate]. now apply interp_iff.
  Qed.
End Expand.

(** ---- what is read has no repeated names ---- *)
Lemma d_set_all {V} (P : V -> Prop) (d : list (text * V)) k v : Forall (fun x => P (snd x)) d -> P v -> Forall (fun x => P (snd x)) (d_set text_eqb d k v).
Proof.
  intros F H. induction F as [|[k0 v0] d X F IH]; cbn [d_set]; [constructor; [exact H|constructor]|]. destruct (text_eqb k k0); constructor; auto.
Qed.
Definition distinct (secs : list (text * rawsec)) : Prop := NoDup (map fst secs) /\ Forall (fun ns => NoDup (map fst (snd ns))) secs.
Lemma sec_distinct r n : distinct (r_secs r) -> NoDup (map fst (sec_of r n)).
Proof.
  intros [_ F]. unfold sec_of. destruct (d_get text_eqb (r_secs r) n) as [s|] eqn:E; [|constructor]. apply (d_get_Some_in _ text_eqb_eq) in E.
  rewrite Forall_forall in F. exact (F _ E).
Qed.
Lemma set_distinct r n s : distinct (r_secs r) -> NoDup (map fst s) -> distinct (d_set text_eqb (r_secs r) n s).
Proof. intros [A B] H. split; [now apply (d_keys_set_NoDup _ text_eqb_eq)|]. now apply (d_set_all (fun s : rawsec => NoDup (map fst s))). Qed.
Lemma put_distinct r n k ls : distinct (r_secs r) -> distinct (put r n k ls).
Proof. intros H. unfold put. apply set_distinct; [exact H|]. apply (d_keys_set_NoDup _ text_eqb_eq). now apply sec_distinct. Qed.
Lemma add_distinct r l r' : distinct (r_secs r) -> add_line r l = Some r' -> distinct (r_secs r').
Proof.
  intros H. unfold add_line. destruct (r_cur r) as [n|]; [|discriminate]. destruct (r_opt r) as [|c k]; [discriminate|]. intros [= <-]. now apply put_distinct.
Qed.
Lemma start_distinct r i v r' : distinct (r_secs r) -> start_line r i v = Ok r' -> distinct (r_secs r').
Proof.
  intros H. unfold start_line. destruct (header v) as [n|].
  - destruct (_ && _); [discriminate|]. intros [= <-]. cbn [r_secs]. apply set_distinct; [exact H|now apply sec_distinct].
  - destruct (r_cur r) as [n|]; [|discriminate]. destruct (cut_at delimiter v) as [[k w]|]; [|intros [= <-]; exact H].
    destruct (d_mem _ _ _); [discriminate|]. intros [= <-]. now apply put_distinct.
Qed.
Lemma line_distinct r l r' : distinct (r_secs r) -> read_line r l = Ok r' -> distinct (r_secs r').
Proof.
  intros H. unfold read_line. destruct (strip l) as [|c v].
  - intros [= <-]. destruct (add_line r []) as [r1|] eqn:E; [now apply (add_distinct r [])|exact H].
  - destruct (comment_char c); [intros [= <-]; exact H|]. destruct (Nat.ltb _ _).
    + destruct (add_line r (c :: v)) as [r1|] eqn:E; [intros [= <-]; now apply (add_distinct r (c :: v))|now apply start_distinct].
    + now apply start_distinct.
Qed.
Lemma lines_distinct ls : forall r r', distinct (r_secs r) -> foldM read_line ls r = Ok r' -> distinct (r_secs r').
Proof.
  induction ls as [|l ls IH]; intros r r' H E; [injection E as <-; exact H|]. cbn [foldM] in E. destruct (read_line r l) as [r1|e] eqn:R; [|discriminate].
  apply (IH r1 r'); [now apply (line_distinct r l)|exact E].
Qed.
Lemma read_distinct t secs : ini_read t = Ok secs -> NoDup (map fst secs) /\ Forall (fun ns => NoDup (map fst (snd ns))) secs.
Proof.
  unfold ini_read. destruct (foldM read_line _ _) as [r|e] eqn:E; [|discriminate]. cbn [bind]. destruct (r_bad r); [discriminate|]. intros [= <-].
  apply lines_distinct in E; [|split; constructor]. destruct E as [A B]. split.
  - rewrite map_map. rewrite (map_ext _ fst); [exact A|]. now intros [n s].
  - apply Forall_map. eapply Forall_impl; [|exact B]. intros [n s] N. cbn [snd] in *. rewrite map_map. rewrite (map_ext _ fst); [exact N|]. now intros [k ls].
Qed.

(** ---- loading ---- *)
Lemma lookup_iff D s : NoDup (map fst D) -> NoDup (map fst s) -> forall k w, lookup D s k = Some w <-> value_in D s k w.
Proof.
  intros ND NS k w. unfold lookup, value_in. destruct (d_get text_eqb s k) as [v|] eqn:E.
  - apply (d_get_Some_in _ text_eqb_eq) in E. split; [intros [= <-]; now left|]. intros [I|[N _]].
    + apply (d_in_get _ text_eqb_eq) in I, E; try exact NS. congruence.
    + elim N. exact (in_map fst _ _ E).
  - pose proof (proj1 (d_get_None _ text_eqb_eq s k) E) as N. split.
    + intros H. apply (d_get_Some_in _ text_eqb_eq) in H. right. now split.
    + intros [I|[_ I]]; [elim N; exact (in_map fst _ _ I)|]. now apply (d_in_get _ text_eqb_eq).
Qed.
Lemma expands_ext (v1 v2 : text -> text -> Prop) : (forall k w, v1 k w -> v2 k w) -> forall n v t, expands v1 n v t -> expands v2 n v t.
Proof.
  intros H n v t X. induction X; [constructor|now constructor|now constructor|eapply X_plain; eauto|eapply X_ref; eauto].
Qed.
Lemma value_says D s n v t : NoDup (map fst D) -> NoDup (map fst s) -> (interpolate n (lookup D s) v = Ok t <-> expands (value_in D s) n v t).
Proof.
  intros ND NS. rewrite interpolate_iff. split; apply expands_ext; intros k w; now rewrite <- (lookup_iff D s ND NS).
Qed.
Lemma options_in D s : options D s = map fst (settings_in D s).
Proof.
  unfold options, settings_in. rewrite map_app. f_equal. induction D as [|[k v] D IH]; [reflexivity|]. cbn [map filter fst].
  assert (M : d_mem text_eqb s k = if in_dec (list_eq_dec ascii_dec) k (map fst s) then true else false).
  { unfold d_mem. destruct (d_get text_eqb s k) as [w|] eqn:E; destruct (in_dec (list_eq_dec ascii_dec) k (map fst s)) as [I|I]; try reflexivity.
    - elim I. apply (d_get_Some_in _ text_eqb_eq) in E. exact (in_map fst _ _ E).
    - now apply (d_get_None _ text_eqb_eq) in E. }
  rewrite M. destruct (in_dec (list_eq_dec ascii_dec) k (map fst s)); cbn [negb]; [exact IH|]. cbn [map fst]. now f_equal.
Qed.
Lemma settings_value D s k v : NoDup (map fst D) -> NoDup (map fst s) -> In (k, v) (settings_in D s) -> lookup D s k = Some v.
Proof.
  intros ND NS I. apply lookup_iff; [exact ND|exact NS|]. unfold settings_in in I. apply in_app_iff in I. destruct I as [I|I]; [now left|]. apply filter_In in I. destruct I as [I F].
  cbn [fst] in F. destruct (in_dec (list_eq_dec ascii_dec) k (map fst s)); [discriminate|]. now right.
Qed.
Definition cast_one (D s : section) (c : config) (k : text) : res config :=
  let* v := interpolate 10 (lookup D s) (match lookup D s k with Some v => v | None => [] end) in let* x := cast_param_val k v in Ok (d_set text_eqb c k x).
Lemma cast_section D s : NoDup (map fst D) -> NoDup (map fst s) -> forall l items, (forall kv, In kv l -> In kv (settings_in D s)) ->
  Forall2 (fun kv kx => fst kx = fst kv /\ expands (value_in D s) 10 (snd kv) (snd kx)) l items ->
  forall c, foldM (cast_one D s) (map fst l) c = cast_all items c.
Proof.
  intros ND NS l items SUB F. induction F as [|[k v] [k' x] l items [E X] F IH]; intros c; [reflexivity|]. cbn [fst snd map] in *. subst k'. unfold cast_all. cbn [foldM].
  unfold cast_one at 1. rewrite (settings_value D s k v ND NS) by (apply SUB; now left). apply value_says in X; [|exact ND|exact NS]. rewrite X. cbn [bind].
  destruct (cast_param_val k x); cbn [bind]; [|reflexivity]. apply IH. intros kv I. apply SUB. now right.
Qed.
Lemma defaults_iff (secs : list (text * section)) (D : section) : NoDup (map fst secs) -> defaults_of secs D -> (match d_get text_eqb secs DEFAULT with Some s => s | None => [] end) = D.
Proof.
  intros N H. assert (X : d_get text_eqb secs DEFAULT = Some D \/ d_get text_eqb secs DEFAULT = None /\ D = []).
  { destruct H as [I|[I ->]]; [left; now apply (d_in_get _ text_eqb_eq)|right]. split; [now apply (d_get_None _ text_eqb_eq)|reflexivity]. }
  destruct X as [-> |[-> ->]]; reflexivity.
Qed.
Lemma defaults_nodup secs D : Forall (fun ns => NoDup (map fst (snd ns))) secs -> defaults_of secs D -> NoDup (map fst D).
Proof. intros F [I|[_ ->]]; [|constructor]. rewrite Forall_forall in F. exact (F _ I). Qed.
Lemma proper_filter (secs : list (text * section)) : filter (fun '(n, _) => negb (text_eqb n DEFAULT)) secs = proper_sections secs.
Proof.
  unfold proper_sections. apply filter_ext. intros [n s]. cbn [fst]. destruct (list_eq_dec ascii_dec n (txt "DEFAULT")) as [->|N].
  - unfold DEFAULT. now rewrite (proj2 (text_eqb_eq _ _) eq_refl).
  - destruct (text_eqb n DEFAULT) eqn:E; [|reflexivity]. apply text_eqb_eq in E. now elim N.
Qed.
Lemma cast_all_app a b c : cast_all (a ++ b) c = (let* c' := cast_all a c in cast_all b c').
Proof. unfold cast_all. apply foldM_app. Qed.
Lemma cast_file (secs : list (text * section)) (D : section) : NoDup (map fst secs) -> Forall (fun ns => NoDup (map fst (snd ns))) secs -> defaults_of secs D ->
  cast_sections secs = foldM (fun c '(_, s) => foldM (cast_one D s) (options D s) c) (proper_sections secs) [].
Proof. intros A B H. unfold cast_sections. rewrite (defaults_iff secs D A H). cbv zeta. now rewrite proper_filter. Qed.
Lemma cast_says secs items : NoDup (map fst secs) -> Forall (fun ns => NoDup (map fst (snd ns))) secs -> file_says secs items -> cast_sections secs = cast_all items [].
Proof.
  intros A B (D & parts & HD & F & ->). rewrite (cast_file secs D A B HD). pose proof (defaults_nodup secs D B HD) as ND.
  assert (S : Forall (fun ns => NoDup (map fst (snd ns))) (proper_sections secs)).
  { apply Forall_forall. intros ns I. apply filter_In in I. rewrite Forall_forall in B. now apply B. }
  clear A B HD. generalize ([] : config). induction F as [|[n s] part l parts X F IH]; intros c; [reflexivity|]. inversion S as [|? ? NS S']; subst. cbn [snd] in *. cbn [foldM concat].
  rewrite cast_all_app. rewrite options_in, (cast_section D s ND NS _ part (fun _ I => I) X). destruct (cast_all part c); cbn [bind]; [now apply IH|reflexivity].
Qed.
Lemma fold_raise {S A} (f : S -> A -> res S) l x : In x l -> (forall s, exists e, f s x = Raise e) -> forall s, exists e, foldM f l s = Raise e.
Proof.
  intros I H. induction l as [|y l IH]; intros s; [destruct I|]. cbn [foldM]. destruct I as [->|I].
  - destruct (H s) as [e ->]. now exists e.
  - destruct (f s y) as [s'|e]; cbn [bind]; [now apply IH|now exists e].
Qed.
Lemma cast_bad secs D n s k v : NoDup (map fst secs) -> Forall (fun ns => NoDup (map fst (snd ns))) secs -> defaults_of secs D -> In (n, s) secs -> n <> txt "DEFAULT" ->
  value_in D s k v -> (forall x, ~ expands (value_in D s) 10 v x) -> exists e, cast_sections secs = Raise e.
Proof.
  intros A B HD I N V X. rewrite (cast_file secs D A B HD). pose proof (defaults_nodup secs D B HD) as ND. assert (NS : NoDup (map fst s)) by (rewrite Forall_forall in B; exact (B _ I)).
  apply (fold_raise _ _ (n, s)).
  - apply filter_In. split; [exact I|]. cbn [fst]. now destruct (list_eq_dec ascii_dec n (txt "DEFAULT")).
  - intros c. apply (fold_raise _ _ k).
    + rewrite options_in. unfold settings_in. rewrite map_app. apply in_app_iff. destruct V as [V|[NV V]]; [left; exact (in_map fst _ _ V)|right].
      apply (in_map fst _ (k, v)). apply filter_In. split; [exact V|]. cbn [fst]. now destruct (in_dec (list_eq_dec ascii_dec) k (map fst s)).
    + intros c'. unfold cast_one. apply lookup_iff in V; [|exact ND|exact NS]. rewrite V. destruct (interpolate 10 (lookup D s) v) as [x|e] eqn:E; [|now exists e].
      elim (X x). now apply value_says.
Qed.

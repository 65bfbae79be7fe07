(** * Proofs about Args.v *)
From Verif Require Import Base PyStr Strings Config Context Args Spec_Args PyStr_P Base_P.
Local Open Scope string_scope.

Lemma table_documented : table = documented.
Proof. reflexivity. Qed.
Lemma in_table o : In o table <-> In o documented.
Proof. now rewrite table_documented. Qed.

Ltac each H := rewrite <- ?in_table in H; unfold table in H; cbn [In] in H;
  repeat (destruct H as [H|H]; [subst|]); [..|contradiction H].

Fixpoint distinctb (l : list string) : bool :=
  match l with [] => true | x :: r => (negb (existsb (String.eqb x) r) && distinctb r)%bool end.
Lemma distinctb_NoDup l : distinctb l = true -> NoDup l.
Proof.
  induction l as [|x r IH]; cbn [distinctb]; intro H; [constructor|]. apply andb_prop in H as [H1 H2]. constructor; auto.
  intro K. apply Bool.negb_true_iff in H1. assert (E : existsb (String.eqb x) r = true); [|congruence].
  apply existsb_exists. exists x. split; auto. apply String.eqb_refl.
Qed.
Lemma shorts_distinct : NoDup (map o_short table).
Proof. apply distinctb_NoDup. vm_compute. reflexivity. Qed.
Lemma longs_distinct : NoDup (map o_long table).
Proof. apply distinctb_NoDup. vm_compute. reflexivity. Qed.
Lemma map_inj_in {A B} (f : A -> B) l x y : NoDup (map f l) -> In x l -> In y l -> f x = f y -> x = y.
Proof.
  intros K H H' E. destruct (In_nth_error _ _ H) as [i Hi]. destruct (In_nth_error _ _ H') as [j Hj].
  assert (i = j). { rewrite NoDup_nth_error in K. apply K.
    - rewrite map_length. apply nth_error_Some. congruence.
    - now rewrite (map_nth_error _ _ _ Hi), (map_nth_error _ _ _ Hj), E. }
  congruence.
Qed.

Lemma shorts o : In o table -> exists c w, o_short o = String "-" (String c w) /\ c <> "-"%char /\ (w = "" \/ c = "v"%char /\ String.length w = 1%nat).
Proof. intro H. each H; (eexists _, _; split; [reflexivity|split; [discriminate|]]); auto. Qed.
Lemma longs o : In o table -> exists c w, o_long o = String "-" (String "-" (String c w)) /\ sexists (Ascii.eqb "=") (o_long o) = false /\ sexists (Ascii.eqb "=") (o_short o) = false /\ c <> "-"%char.
Proof. intro H. each H; (eexists _, _; split; [reflexivity|split; [reflexivity|split; [reflexivity|discriminate]]]). Qed.

Lemma short_inj o o' : In o table -> In o' table -> o_short o = o_short o' -> o = o'.
Proof. apply map_inj_in, shorts_distinct. Qed.
Lemma long_inj o o' : In o table -> In o' table -> o_long o = o_long o' -> o = o'.
Proof. apply map_inj_in, longs_distinct. Qed.
Lemma dest_inj o o' : In o table -> In o' table -> dest o = dest o' -> o = o'.
Proof.
  intros H H' E. apply long_inj; auto. unfold dest in E.
  destruct (longs o H) as (c & w & E1 & _). destruct (longs o' H') as (c' & w' & E2 & _). rewrite E1, E2 in *. cbn [sdrop] in E. congruence.
Qed.
Lemma NoDup_table : NoDup table.
Proof. apply (NoDup_map_inv o_short), shorts_distinct. Qed.

(** ** find_option *)
Lemma find_option_some s o : find_option s = Some o -> In o table /\ (s = o_short o \/ s = o_long o).
Proof.
  intro H. apply find_some in H as [H1 H2]. split; auto. apply orb_prop in H2 as [H2|H2]; apply String_eqb_spec' in H2; auto.
Qed.
Lemma find_option_none s : find_option s = None -> forall o, In o table -> s <> o_short o /\ s <> o_long o.
Proof.
  intros H o Ho. apply (find_none _ _ H) in Ho. apply orb_false_elim in Ho as [A B]. split; intros ->; rewrite String.eqb_refl in *; discriminate.
Qed.
Lemma short_not_long o o' : In o table -> In o' table -> o_short o <> o_long o'.
Proof.
  intros H H'. destruct (shorts o H) as (c & w & -> & Hc & _). destruct (longs o' H') as (c' & w' & -> & _). congruence.
Qed.
Lemma find_short o : In o table -> find_option (o_short o) = Some o.
Proof.
  intro H. destruct (find_option (o_short o)) as [o'|] eqn:E.
  - apply find_option_some in E as [H' [E|E]]; [f_equal; symmetry; now apply short_inj|]. now apply short_not_long in E.
  - destruct (find_option_none _ E o H) as [K _]. now elim K.
Qed.
Lemma find_long o : In o table -> find_option (o_long o) = Some o.
Proof.
  intro H. destruct (find_option (o_long o)) as [o'|] eqn:E.
  - apply find_option_some in E as [H' [E|E]]; [symmetry in E; now apply short_not_long in E|]. f_equal. symmetry. now apply long_inj.
  - destruct (find_option_none _ E o H) as [_ K]. now elim K.
Qed.

(** ** split at the first equals sign *)
Lemma split_eq_none s : split_eq s = None <-> sexists (Ascii.eqb "=") s = false.
Proof.
  induction s as [|c s IH]; cbn [split_eq sexists]; [tauto|]. rewrite (Ascii.eqb_sym "="%char c).
  destruct (Ascii.eqb c "=") eqn:E; cbn [orb]; [split; discriminate|].
  rewrite <- IH. destruct (split_eq s) as [[a b]|]; split; congruence.
Qed.
Lemma split_eq_some s a b : split_eq s = Some (a, b) <-> s = a +++ "=" +++ b /\ sexists (Ascii.eqb "=") a = false.
Proof.
  revert a b. induction s as [|c s IH]; intros a b; cbn [split_eq].
  - split; [discriminate|]. intros [E _]. destruct a; discriminate.
  - destruct (Ascii.eqb c "=") eqn:E.
    + apply Ascii.eqb_eq in E as ->. split.
      * intros [= <- <-]. auto.
      * intros [E K]. destruct a as [|x a]; [cbn in E; congruence|]. cbn [append] in E. injection E as E1 E2. cbn [sexists] in K. rewrite <- E1 in K. discriminate.
    + destruct (split_eq s) as [[p q]|] eqn:F.
      * destruct (proj1 (IH p q) eq_refl) as [F1 F2]. split.
        -- intros [= <- <-]. cbn [append sexists]. rewrite (Ascii.eqb_sym "="%char c), E. split; [now rewrite F1|exact F2].
        -- intros [G K]. destruct a as [|x a]; [cbn in G; injection G as G _; rewrite G, Ascii.eqb_refl in E; discriminate|].
           cbn [append] in G. injection G as G1 G2. subst x. cbn [sexists] in K. apply orb_false_elim in K as [_ K].
           destruct (IH a b) as [_ IH2]. specialize (IH2 (conj G2 K)). congruence.
      * split; [discriminate|]. intros [G K]. destruct a as [|x a]; [cbn in G; injection G as G _; rewrite G, Ascii.eqb_refl in E; discriminate|].
        cbn [append] in G. injection G as G1 G2. subst x. cbn [sexists] in K. apply orb_false_elim in K as [_ K].
        destruct (IH a b) as [_ IH2]. specialize (IH2 (conj G2 K)). congruence.
Qed.

Lemma starts_with_noeq n s : starts_with n s = true -> sexists (Ascii.eqb "=") s = false -> sexists (Ascii.eqb "=") n = false.
Proof. intros H K. apply starts_with_spec in H as [t ->]. rewrite sexists_app in K. now apply orb_false_elim in K. Qed.
Lemma named_noeq o n : In o documented -> named o n -> sexists (Ascii.eqb "=") n = false.
Proof.
  intros H N. rewrite <- in_table in H. destruct (longs o H) as (_ & _ & _ & K1 & K2 & _).
  inversion N; subst; auto. now apply starts_with_noeq in H2.
Qed.

(** ** lists with one element kept *)
Lemma filter_one {A} (p : A -> bool) l x : NoDup l -> In x l -> p x = true -> (forall y, In y l -> p y = true -> y = x) -> filter p l = [x].
Proof.
  induction l as [|a l IH]; intros N I P U; [contradiction I|]. inversion N; subst. cbn [filter]. destruct I as [->|I].
  - rewrite P. f_equal.
    destruct (filter p l) as [|y q] eqn:E; [reflexivity|]. exfalso.
    assert (K : In y (filter p l)) by (rewrite E; now left). apply filter_In in K as [K1 K2]. rewrite (U y) in K1; auto. now right.
  - destruct (p a) eqn:Ea.
    + rewrite (U a) in H1; [contradiction|now left|auto].
    + apply IH; auto. intros; apply U; auto. now right.
Qed.
Lemma flat_map_nil_all {A B} (g : A -> list B) l : (forall y, In y l -> g y = []) -> flat_map g l = [].
Proof. induction l as [|a l IH]; intro H; cbn [flat_map]; auto. rewrite H by now left. apply IH. intros; apply H. now right. Qed.
Lemma flat_map_one {A B} (g : A -> list B) l x : NoDup l -> In x l -> (forall y, In y l -> y <> x -> g y = []) -> flat_map g l = g x.
Proof.
  induction l as [|a l IH]; intros N I U; [contradiction I|]. inversion N; subst. cbn [flat_map].
  destruct I as [->|I].
  - rewrite (flat_map_nil_all g l); [apply List.app_nil_r|]. intros y Hy. apply U; [now right|]. intros ->. contradiction.
  - rewrite (U a); [|now left|intros ->; contradiction]. cbn [app]. apply IH; auto. intros; apply U; auto. now right.
Qed.

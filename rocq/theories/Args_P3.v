(** * Proofs about Args.v: the command line is read as it is spelled *)
From Verif Require Import Base PyStr Strings Config Context Args Spec_Args PyStr_P Base_P Args_P Args_P2.
Local Open Scope string_scope.

(** ** one-letter options *)
Definition complete (gs pend : list given) (last : option opt) (r : list string) : Prop :=
  match last with
  | None => gs = pend /\ r = []
  | Some o' => switch o' /\ gs = (pend ++ [(o', None)])%list /\ r = [] \/
               valued o' /\ exists v, r = [v] /\ separate v /\ gs = (pend ++ [(o', Some v)])%list
  end.
Lemma find_letter o c : In o table -> letter o c -> find_option (String "-" (String c "")) = Some o.
Proof. unfold letter. intros H <-. now apply find_short. Qed.
Lemma letters_head gs w r : letters gs w r -> exists c w', w = String c w'.
Proof. inversion 1; eauto. Qed.

(** what follows the letter of [o] in its argument *)
Definition chain_from (o : opt) (w : string) : res (list (opt * option string) * option opt * bool) :=
  match w with
  | String c e => if Ascii.eqb c "=" then chain o true true e else chain o true false w
  | EmptyString => Raise (AppExc 10000)
  end.
Lemma chain_value o d sep e : takes_value o = true -> chain o d sep e = Ok ([(o, Some e)], None, false).
Proof. intro H. destruct e; cbn [chain]; now rewrite H. Qed.
Lemma letters_in gs c w r : letters gs (String c w) r -> exists o, In o table /\ letter o c.
Proof.
  intro Hl. inversion Hl; subst; match goal with A : letter ?q c |- _ => exists q; split; [|exact A] end;
    match goal with A : switch _ |- _ => now apply switch_spec in A | A : valued _ |- _ => now apply valued_spec in A end.
Qed.
Lemma noeq_head v : starts_with "=" v = false -> v <> "" -> exists c t, v = String c t /\ Ascii.eqb c "=" = false.
Proof.
  intros H N. destruct v as [|c t]; [contradiction|]. exists c, t. split; auto. cbn [starts_with] in H. rewrite andb_true_r, Ascii.eqb_sym in H. exact H.
Qed.

Lemma chain_complete gs w r : letters gs w r -> forall c w', w = String c w' -> w' <> "" ->
  forall o, In o table -> letter o c -> exists pend last, chain_from o w' = Ok (pend, last, false) /\ complete gs pend last r.
Proof.
  induction 1 as [o c S L|o c v V L Sv|o c v V L Nv Qv|o c v V L|o c gs w r S L Hl IH]; intros c0 w0 E N o0 H0 L0; injection E as <- <-; try (now elim N).
  - apply valued_spec in V as [Hin Hv]. rewrite (letter_inj o0 o c) in * by auto.
    exists [(o, Some v)], None. split; [|now split]. destruct (noeq_head v Qv Nv) as (c1 & t & -> & Q). cbn [chain_from]. rewrite Q. now apply chain_value.
  - apply valued_spec in V as [Hin Hv]. rewrite (letter_inj o0 o c) in * by auto.
    exists [(o, Some v)], None. split; [|now split]. cbn [chain_from]. rewrite Ascii.eqb_refl. now apply chain_value.
  - apply switch_spec in S as [Hin Hv]. rewrite (letter_inj o0 o c) in * by auto. clear o0 H0 L0.
    destruct (letters_head _ _ _ Hl) as (c1 & w1 & ->). destruct (letters_in _ _ _ _ Hl) as (o1 & I1 & L1).
    destruct (letter_not_v o1 c1 I1 L1) as (_ & D1 & Q1). cbn [chain_from].
    rewrite (proj2 (Ascii.eqb_neq c1 "=") Q1). cbn [chain]. rewrite Hv. cbn [negb orb]. rewrite (proj2 (Ascii.eqb_neq c1 "-") D1).
    rewrite (find_letter o1 c1 I1 L1). destruct w1 as [|c2 w2].
    + exists [(o, None)], (Some o1). split; [reflexivity|]. unfold complete.
      inversion Hl as [o2 c2 S2 L2 E1 E2 E3|o2 c2 v2 V2 L2 Sv2 E1 E2 E3|o2 c2 v2 V2 L2 N2 Q2 E1 E2 E3|o2 c2 v2 V2 L2 E1 E2 E3|o2 c2 g2 w2 r2 S2 L2 Hl2 E1 E2 E3]; subst.
      * assert (o2 = o1) by (apply (letter_inj o2 o1 c1); auto; now apply switch_spec in S2). subst. left. auto.
      * assert (o2 = o1) by (apply (letter_inj o2 o1 c1); auto; now apply valued_spec in V2). subst. right. split; auto. exists v2. auto.
      * now elim N2.
      * destruct (letters_head _ _ _ Hl2) as (? & ? & ?). discriminate.
    + destruct (IH c1 (String c2 w2) eq_refl ltac:(discriminate) o1 I1 L1) as (pend & last & Ec & K). cbn [chain_from] in Ec.
      change (chain o1 true false (String c2 w2)) with (chain o1 true false (String c2 w2)) in Ec.
      rewrite Ec. cbn [rbind fst snd]. exists ((o, None) :: pend), last. split; [reflexivity|].
      destruct last as [o'|]; cbn [complete] in *.
      * destruct K as [(A & -> & B)|(A & v & B & C & ->)]; [left|right]; auto. split; auto. exists v. auto.
      * destruct K as [-> ->]. auto.
Qed.

Lemma chain_sound n : forall e o c sep pend last more, (String.length e <= n)%nat -> In o table -> letter o c ->
  (sep = false -> e <> "" /\ starts_with "=" e = false) -> chain o true sep e = Ok (pend, last, more) ->
  (forall o', last = Some o' -> In o' table /\ more = false) /\
  (more = false -> forall gs r, complete gs pend last r -> letters gs (String c (if sep then String "=" e else e)) r).
Proof.
  induction n as [|n IH]; intros e o c sep pend last more Ln H L N E; (destruct (takes_value o) eqn:T;
    [rewrite (chain_value o true sep e T) in E; injection E as <- <- <-; split; [discriminate|];
     intros _ gs r [-> ->]; destruct sep; [apply l_equals|apply l_joined]; auto; try (now apply valued_spec); now apply N|]).
  - destruct e as [|c1 e]; [|cbn [String.length] in Ln; lia]. cbn [chain] in E. rewrite T in E. discriminate.
  - destruct e as [|c1 e]; cbn [chain] in E; rewrite T in E; [discriminate|]. cbn [negb] in E. cbn [String.length] in Ln.
    destruct sep; [discriminate|]. cbn [orb] in E. destruct (Ascii.eqb c1 "-"); [discriminate|].
    assert (So : switch o) by now apply switch_spec.
    destruct (find_option _) as [o1|] eqn:F; [|injection E as <- <- <-; split; [discriminate|discriminate]].
    assert (K := F). apply find_option_some in K as [I1 L1]. assert (L1' : letter o1 c1).
    { destruct L1 as [L1|L1]; [symmetry; exact L1|]. destruct (longs o1 I1) as (? & ? & E1 & _). rewrite E1 in L1. discriminate. }
    destruct e as [|c2 e].
    + injection E as <- <- <-. split; [intros ? [= <-]; auto|]. intros _ gs r [(A & -> & ->)|(A & v & -> & B & ->)]; cbn [app].
      * apply l_more; auto. now apply l_switch.
      * apply l_more; auto. now apply l_apart.
    + assert (R : exists sep e1, (if Ascii.eqb c2 "=" then chain o1 true true e else chain o1 true false (String c2 e)) = chain o1 true sep e1 /\
                  (if sep then String "=" e1 else e1) = String c2 e /\ (sep = false -> e1 <> "" /\ starts_with "=" e1 = false) /\ (String.length e1 <= n)%nat).
      { cbn [String.length] in Ln. destruct (Ascii.eqb_spec c2 "=") as [-> |Nq].
        - exists true, e. repeat split; try discriminate; auto. lia.
        - exists false, (String c2 e). repeat split; try discriminate; [|cbn [String.length]; lia]. cbn [starts_with].
          now rewrite (proj2 (Ascii.eqb_neq "="%char c2)) by congruence. }
      destruct R as (sep & e1 & R & Es & Nz & Le). rewrite R in E.
      destruct (chain o1 true sep e1) as [[[p q] m]|] eqn:Ec; [|discriminate]. cbn [rbind fst snd] in E. injection E as <- <- <-.
      destruct (IH e1 o1 c1 sep p q m Le I1 L1' Nz Ec) as [A B]. rewrite Es in B. split; auto.
      intros M gs r K. specialize (B M). destruct q as [o'|]; cbn [complete] in K.
      * destruct K as [(S' & -> & ->)|(V' & v & -> & Sv & ->)]; cbn [app]; apply l_more; auto; apply B; [left|right]; auto. split; auto. exists v. auto.
      * destruct K as [-> ->]. apply l_more; auto. apply B. now split.
Qed.

(** ** taking the actions *)
Definition assign (ns : names) (g : given) : names :=
  dset String.eqb ns (dest (fst g))
    match o_kind (fst g), snd g with
    | OText _, Some s => VText s
    | OInt _, Some s => VInt (match py_int s with Some z => z | None => 0%Z end)
    | _, _ => VTrue
    end.
Definition shaped (g : given) : Prop := switch (fst g) /\ snd g = None \/ valued (fst g) /\ snd g <> None.
Lemma act_inv g ns : shaped g -> forall p, act (fst g) (snd g) ns = Ok p -> p = HelpShown \/ proper g /\ p = Parsed (assign ns g).
Proof.
  destruct g as [o v]. unfold shaped, act, proper, assign. cbn [fst snd]. intros S p E.
  destruct (o_kind o) as [ch|ch| |] eqn:K.
  - destruct v as [s|]; [|discriminate].
    destruct ch as [|x ch]; [injection E as <-; auto|]. destruct (str_mem s (x :: ch)) eqn:M; [|discriminate]. injection E as <-.
    right. split; auto. right. unfold str_mem in M. apply existsb_exists in M as (y & Y & M). apply String_eqb_spec' in M. now subst.
  - destruct v as [s|]; [|discriminate]. destruct (py_int s) as [z|] eqn:P; [|discriminate].
    destruct ch as [|x ch]; [injection E as <-; eauto 6|]. destruct (zmem z (x :: ch)) eqn:M; [|discriminate]. injection E as <-.
    right. split; auto. exists z. split; auto. right. now apply zmem_In.
  - injection E as <-. right. destruct S as [[_ ->]|[V _]]; auto. apply valued_spec in V as [_ V]. unfold takes_value in V. rewrite K in V. discriminate.
  - injection E as <-. auto.
Qed.
Lemma act_proper g ns : proper g -> act (fst g) (snd g) ns = Ok (Parsed (assign ns g)).
Proof.
  destruct g as [o v]. unfold act, proper, assign. cbn [fst snd]. intro P.
  destruct (o_kind o) as [ch|ch| |] eqn:K; destruct v as [s|]; try contradiction.
  - destruct ch as [|x ch]; [reflexivity|].
    destruct P as [P2|P2]; [discriminate|]. replace (str_mem s (x :: ch)) with true; [reflexivity|]. symmetry. unfold str_mem.
    apply existsb_exists. exists s. split; auto. apply String.eqb_refl.
  - destruct P as (z & P1 & P2). rewrite P1. destruct ch as [|x ch]; [reflexivity|].
    destruct P2 as [P2|P2]; [discriminate|]. replace (zmem z (x :: ch)) with true; [reflexivity|]. symmetry. now apply zmem_In.
  - reflexivity.
Qed.
Lemma acts_app a b ns : acts (a ++ b) ns = do p <- acts a ns; match p with Parsed ns' => acts b ns' | HelpShown => Ok HelpShown end.
Proof.
  revert ns. induction a as [|[o v] a IH]; intro ns; [reflexivity|]. cbn [app acts]. destruct (act o v ns) as [[ns'|]|e]; cbn [rbind]; auto.
Qed.
Lemma acts_inv gs : Forall shaped gs -> forall ns ns', acts gs ns = Ok (Parsed ns') -> Forall proper gs /\ ns' = fold_left assign gs ns.
Proof.
  induction 1 as [|g gs S SS IH]; intros ns ns' E.
  - cbn [acts] in E. injection E as <-. auto.
  - destruct g as [o v]. cbn [acts] in E. destruct (act o v ns) as [p|] eqn:A; [|discriminate]. cbn [rbind] in E.
    destruct (act_inv (o, v) ns S p A) as [-> |[P ->]]; [discriminate|]. destruct (IH _ _ E) as [I1 I2]. split; auto.
Qed.
Lemma acts_proper gs ns : Forall proper gs -> acts gs ns = Ok (Parsed (fold_left assign gs ns)).
Proof.
  intro P. revert ns. induction P as [|[o v] gs P PP IH]; intro ns; [reflexivity|]. cbn [acts fold_left].
  pose proof (act_proper (o, v) ns P) as A. cbn [fst snd] in A. rewrite A. cbn [rbind]. apply IH.
Qed.

Lemma shaped_switch o : switch o -> shaped (o, None). Proof. left. auto. Qed.
Lemma shaped_valued o v : valued o -> shaped (o, Some v). Proof. right. split; [assumption|discriminate]. Qed.
Lemma letters_shaped gs w r : letters gs w r -> Forall shaped gs.
Proof. induction 1; (apply Forall_cons; [auto using shaped_switch, shaped_valued|]); auto using Forall_nil. Qed.
Lemma spelling_shaped gs a : spelling gs a -> Forall shaped gs.
Proof.
  destruct 1 as [o n S N|o n v V N Sv|o n v V N|gs w r Hl].
  - apply Forall_cons; auto using shaped_switch, Forall_nil.
  - apply Forall_cons; auto using shaped_valued, Forall_nil.
  - apply Forall_cons; auto using shaped_valued, Forall_nil.
  - now apply letters_shaped in Hl.
Qed.
Lemma spelled_shaped gs a : spelled gs a -> Forall shaped gs.
Proof. induction 1; [constructor|]. apply Forall_app. split; auto. now apply spelling_shaped in H. Qed.

(** ** one spelling *)
Definition then_consume (gs : list given) (tl : list (string * tok)) (ns : names) (x : bool) : res (parsed names) :=
  do q <- acts gs ns; match q with Parsed ns' => consume tl ns' x | HelpShown => Ok HelpShown end.
Lemma classify_cons s t l tl : s <> "--" -> parse_optional s = Ok t -> classify l = Ok tl -> classify (s :: l) = Ok ((s, t) :: tl).
Proof. intros N P C. cbn [classify]. rewrite (proj2 (String.eqb_neq s "--") N), P. cbn [rbind]. now rewrite C. Qed.

Lemma valued_in o : valued o -> In o table /\ takes_value o = true. Proof. apply valued_spec. Qed.
Lemma switch_in o : switch o -> In o table /\ takes_value o = false. Proof. apply switch_spec. Qed.

Lemma noteq_2dash n v : n +++ "=" +++ v <> "--".
Proof.
  intro E. assert (K : sexists (Ascii.eqb "=") (n +++ "=" +++ v) = true) by (rewrite sexists_app; cbn; now rewrite orb_true_r).
  rewrite E in K. discriminate.
Qed.

Lemma consume_chain s o d sep e tl ns x pend last gs r :
  chain o d sep e = Ok (pend, last, false) -> complete gs pend last r ->
  exists tr, (forall l tl, classify l = Ok tl -> classify (r ++ l) = Ok (tr ++ tl)%list) /\
  consume ((s, TOpt (Some (o, d)) (Some (sep, e))) :: tr ++ tl) ns x = then_consume gs tl ns x.
Proof.
  intros Ec K. destruct last as [o'|]; cbn [complete] in K.
  - destruct K as [(S & -> & ->)|(V & v & -> & Sv & ->)].
    + exists []. split; [intros l tl' E; exact E|]. cbn [app consume]. rewrite Ec. cbn [rbind fst snd]. apply switch_in in S as [_ S]. rewrite S. reflexivity.
    + destruct (separate_tok v Sv) as [N P]. exists [(v, TPos)]. split.
      * intros l tl' E. cbn [app]. now apply classify_cons.
      * cbn [app consume]. rewrite Ec. cbn [rbind fst snd]. apply valued_in in V as [_ V]. rewrite V. reflexivity.
  - destruct K as [-> ->]. exists []. split; [intros l tl' E; exact E|]. cbn [app consume]. rewrite Ec. cbn [rbind]. rewrite orb_false_r. reflexivity.
Qed.

Lemma spelling_consume gs a : spelling gs a -> exists ta,
  (forall l tl, classify l = Ok tl -> classify (a ++ l) = Ok (ta ++ tl)%list) /\
  (forall tl ns x, consume (ta ++ tl) ns x = then_consume gs tl ns x).
Proof.
  destruct 1 as [o n S N|o n v V N Sv|o n v V N|gs w r Hl].
  - apply switch_in in S as [H T]. destruct (named_tok o n H N) as [d P]. destruct (named_dash o n H N) as (_ & _ & X).
    exists [(n, TOpt (Some (o, d)) None)]. split; [intros; now apply classify_cons|]. intros tl ns x. cbn [app consume rbind fst snd]. rewrite T. reflexivity.
  - apply valued_in in V as [H T]. destruct (named_tok o n H N) as [d P]. destruct (named_dash o n H N) as (_ & _ & X). destruct (separate_tok v Sv) as [X' P'].
    exists [(n, TOpt (Some (o, d)) None); (v, TPos)]. split; [intros; cbn [app]; apply classify_cons; auto; now apply classify_cons|].
    intros tl ns x. cbn [app consume rbind fst snd]. rewrite T. reflexivity.
  - apply valued_in in V as [H T]. pose proof (equals_tok o n v H N) as P. exists [(n +++ "=" +++ v, TOpt (Some (o, single_dash n)) (Some (true, v)))].
    split; [intros; cbn [app]; apply classify_cons; auto; apply noteq_2dash|].
    intros tl ns x. cbn [app consume]. rewrite (chain_value o _ true v T). cbn [rbind]. rewrite orb_false_r. reflexivity.
  - destruct (letters_head _ _ _ Hl) as (c & w' & ->). destruct (letters_in _ _ _ _ Hl) as (o & Hi & L).
    destruct (letter_not_v o c Hi L) as (_ & Dc & _).
    destruct w' as [|c1 w1].
    + assert (P : parse_optional (String "-" (String c "")) = Ok (TOpt (Some (o, true)) None)).
      { unfold parse_optional. change (starts_with "-" (String "-" (String c ""))) with true. cbn [negb]. rewrite (find_letter o c Hi L).
        unfold single_dash. now rewrite no_2dash by auto. }
      assert (X : String "-" (String c "") <> "--") by congruence.
      inversion Hl as [o2 c2 S2 L2 E1 E2 E3|o2 c2 v2 V2 L2 Sv2 E1 E2 E3|o2 c2 v2 V2 L2 N2 Q2 E1 E2 E3|o2 c2 v2 V2 L2 E1 E2 E3|o2 c2 g2 w2 r2 S2 L2 Hl2 E1 E2 E3]; subst.
      * destruct (switch_in o2 S2) as [I2 T2]. assert (o2 = o) by (apply (letter_inj o2 o c); auto). subst o2.
        exists [(String "-" (String c ""), TOpt (Some (o, true)) None)]. split; [intros; now apply classify_cons|]. intros tl ns x. cbn [app consume rbind fst snd]. rewrite T2. reflexivity.
      * destruct (valued_in o2 V2) as [I2 T2]. assert (o2 = o) by (apply (letter_inj o2 o c); auto). subst o2. destruct (separate_tok v2 Sv2) as [X' P'].
        exists [(String "-" (String c ""), TOpt (Some (o, true)) None); (v2, TPos)]. split; [intros; cbn [app]; apply classify_cons; auto; now apply classify_cons|].
        intros tl ns x. cbn [app consume rbind fst snd]. rewrite T2. reflexivity.
      * now elim N2.
      * destruct (letters_head _ _ _ Hl2) as (? & ? & ?). discriminate.
    + destruct (chain_complete _ _ _ Hl c (String c1 w1) eq_refl ltac:(discriminate) o Hi L) as (pend & last & Ec & K).
      assert (P : exists sep e, parse_optional (String "-" (String c (String c1 w1))) = Ok (TOpt (Some (o, true)) (Some (sep, e))) /\ chain o true sep e = Ok (pend, last, false)).
      { cbn [chain_from] in Ec. destruct (Ascii.eqb_spec c1 "=") as [-> |Nq].
        - exists true, w1. split; [|exact Ec]. pose proof (equals_tok o (o_short o) w1 Hi (by_short o)) as P. unfold single_dash in P.
          rewrite (short_no_2dash o Hi) in P. unfold letter in L. rewrite L in P. exact P.
        - exists false, (String c1 w1). split; [|exact Ec]. apply glued_tok; auto; [discriminate|]. intros v [= E _]. contradiction. }
      destruct P as (sep & e & P & Ech). set (s := String "-" (String c (String c1 w1))) in *.
      destruct (consume_chain s o true sep e [] [] false pend last gs r Ech K) as (tr & A & _).
      exists ((s, TOpt (Some (o, true)) (Some (sep, e))) :: tr). split.
      * intros l tl E. cbn [app]. apply classify_cons; auto. unfold s. congruence.
      * intros tl ns x. destruct (consume_chain s o true sep e tl ns x pend last gs r Ech K) as (tr' & A' & B').
        assert (tr' = tr). { specialize (A [] [] eq_refl). specialize (A' [] [] eq_refl). rewrite A in A'. rewrite !List.app_nil_r in A'. congruence. }
        subst. exact B'.
Qed.

(** ** whole command lines *)
Lemma spelled_consume gs a : spelled gs a -> exists l, classify a = Ok l /\ forall ns, consume l ns false = acts gs ns.
Proof.
  induction 1 as [|g a gs l S SS (tl & C & K)].
  - exists []. split; [reflexivity|]. reflexivity.
  - destruct (spelling_consume g a S) as (ta & A & B). exists (ta ++ tl)%list. split; [now apply A|]. intro ns. rewrite B. unfold then_consume.
    rewrite acts_app. destruct (acts g ns) as [[ns'|]|e]; cbn [rbind]; auto.
Qed.

Lemma consume_extra l ns : forall ns', consume l ns true <> Ok (Parsed ns').
Proof.
  remember (List.length l) as n eqn:L. revert l ns L. induction n as [n IH] using lt_wf_ind. intros l ns L ns'.
  destruct l as [|[s t] l]; cbn [consume]; [discriminate|]. cbn [List.length] in L.
  assert (I : forall l2 ns2, (List.length l2 < n)%nat -> consume l2 ns2 true <> Ok (Parsed ns')) by (intros; eapply IH; eauto).
  destruct t as [| |[[o d]|] e]; try (apply I; lia).
  destruct (match e with None => _ | Some _ => _ end) as [[[pend last] more]|] eqn:E; cbn [rbind fst snd]; [|discriminate].
  destruct last as [o'|].
  - destruct (takes_value o').
    + destruct l as [|[v [| |]] l']; try discriminate. destruct (acts _ ns) as [[ns2|]|] eqn:A; cbn [rbind]; try discriminate. apply I. cbn [List.length] in *. lia.
    + destruct (acts _ ns) as [[ns2|]|] eqn:A; cbn [rbind]; try discriminate. apply I. lia.
  - destruct (acts _ ns) as [[ns2|]|] eqn:A; cbn [rbind]; try discriminate. apply I. lia.
Qed.

Lemma single_named o n : In o table -> named o n -> single_dash n = true -> n = o_short o.
Proof.
  intros H N D. unfold single_dash in D. inversion N; subst; auto.
  - rewrite (long_2dash o H) in D. discriminate.
  - rewrite H1 in D. discriminate.
Qed.
Lemma chain_long o sep e p : chain o false sep e = Ok p -> takes_value o = true /\ p = ([(o, Some e)], None, false).
Proof. destruct e; cbn [chain]; destruct (takes_value o); cbn [negb]; try discriminate; intros [= <-]; auto. Qed.
Lemma chain_two o sep e p : In o table -> String.length (o_short o) = 3%nat -> chain o true sep e = Ok p -> takes_value o = true /\ p = ([(o, Some e)], None, false).
Proof.
  intros H L. assert (T : takes_value o = true) by (each H; try discriminate L; reflexivity).
  rewrite (chain_value o true sep e T). intros [= <-]. auto.
Qed.

Lemma consume_sound n : forall argv l ns ns', (List.length argv <= n)%nat -> classify argv = Ok l -> consume l ns false = Ok (Parsed ns') ->
  exists gs, spelled gs argv /\ acts gs ns = Ok (Parsed ns').
Proof.
  induction n as [|n IH]; intros argv l ns ns' Hn C K.
  { destruct argv as [|s r]; [|cbn [List.length] in Hn; lia]. cbn [classify] in C. injection C as <-. exists []. split; [constructor|exact K]. }
  destruct argv as [|s r]. { cbn [classify] in C. injection C as <-. exists []. split; [constructor|exact K]. }
  cbn [List.length] in Hn. cbn [classify] in C. destruct (String.eqb_spec s "--") as [-> |Ns].
  { injection C as <-. cbn [consume] in K. now apply consume_extra in K. }
  destruct (parse_optional s) as [t|] eqn:P; [|discriminate]. cbn [rbind] in C.
  destruct (classify r) as [lr|] eqn:Cr; [|discriminate]. cbn [rbind] in C. injection C as <-.
  pose proof (parse_inv s t Ns P) as V. cbn [consume] in K.
  destruct t as [| |[[o d]|] e]; try (now apply consume_extra in K).
  assert (next : forall g a l2 argv2 ns2, spelling g a -> s :: r = (a ++ argv2)%list -> (List.length argv2 <= n)%nat ->
            classify argv2 = Ok l2 -> acts g ns = Ok (Parsed ns2) -> consume l2 ns2 false = Ok (Parsed ns') ->
            exists gs, spelled gs (s :: r) /\ acts gs ns = Ok (Parsed ns')).
  { intros g a l2 argv2 ns2 Sp -> Ln C2 A K2. destruct (IH argv2 l2 ns2 ns' Ln C2 K2) as (gs & G1 & G2). exists (g ++ gs)%list. split.
    - now constructor.
    - rewrite acts_app, A. cbn [rbind]. exact G2. }
  (* an option o' without value in the argument, after the pending ones *)
  assert (after : forall pend o' (sp : list given -> list string -> Prop),
     (forall gs rr, complete gs pend (Some o') rr -> spelling gs (s :: rr)) -> In o' table ->
     (if takes_value o' then
        match lr with
        | (v, TPos) :: r' => do q <- acts (pend ++ [(o', Some v)])%list ns; match q with Parsed ns' => consume r' ns' false | HelpShown => Ok HelpShown end
        | _ => Raise (AppExc 10000)
        end
      else do q <- acts (pend ++ [(o', None)])%list ns; match q with Parsed ns' => consume lr ns' false | HelpShown => Ok HelpShown end) = Ok (Parsed ns') ->
     exists gs, spelled gs (s :: r) /\ acts gs ns = Ok (Parsed ns')).
  { intros pend o' _ Sp Io K2. destruct (takes_value o') eqn:T.
    - destruct lr as [|[v [| |]] lr']; try discriminate. destruct (acts _ ns) as [[ns2|]|] eqn:A; cbn [rbind] in K2; try discriminate.
      destruct r as [|v' r']; [cbn [classify] in Cr; discriminate|]. cbn [classify] in Cr. destruct (String.eqb_spec v' "--") as [-> |Nv]; [discriminate|].
      destruct (parse_optional v') as [tv|] eqn:Pv; [|discriminate]. cbn [rbind] in Cr. destruct (classify r') as [lr''|] eqn:Cr'; [|discriminate].
      cbn [rbind] in Cr. injection Cr as -> -> ->.
      refine (next (pend ++ [(o', Some v)])%list [s; v] lr' r' ns2 _ eq_refl _ Cr' A K2); [|cbn [List.length] in Hn; lia].
      apply Sp. right. split; [now apply valued_spec|]. exists v. pose proof (parse_inv v TPos Nv Pv) as Z. cbn in Z. auto.
    - destruct (acts _ ns) as [[ns2|]|] eqn:A; cbn [rbind] in K2; try discriminate.
      refine (next (pend ++ [(o', None)])%list [s] lr r ns2 _ eq_refl _ Cr A K2); [|lia]. apply Sp. left. split; [now apply switch_spec|auto]. }
  destruct e as [[sep e]|].
  - destruct V as [Hi V]. destruct (chain o d sep e) as [[[pend last] more]|] eqn:Ec; [|discriminate]. cbn [rbind fst snd] in K.
    assert (Sp : (forall o', last = Some o' -> In o' table /\ more = false) /\ (more = false -> forall gs rr, complete gs pend last rr -> spelling gs (s :: rr))).
    { destruct V as [(m & N & E & D & ->)|(c & L & E & D & Ne & -> & Nq)].
      - destruct d.
        + assert (m = o_short o) by (apply single_named; auto). subst m.
          destruct (shorts o Hi) as (c & w & Eo & _ & [-> |[-> Lw]]).
          * assert (L : letter o c) by exact Eo.
            destruct (chain_sound (String.length e) e o c true pend last more (le_n _) Hi L ltac:(discriminate) Ec) as [A B]. split; auto.
            intros M gs rr Kc. rewrite E, Eo. cbn [append]. apply s_letters. now apply B.
          * assert (L3 : String.length (o_short o) = 3%nat) by (rewrite Eo; cbn [String.length]; lia). destruct (chain_two o true e _ Hi L3 Ec) as [T Q]. injection Q as -> -> ->.
            split; [discriminate|]. intros _ gs rr [-> ->]. rewrite E. apply s_equals; [now apply valued_spec|constructor].
        + destruct (chain_long o true e _ Ec) as [T Q]. injection Q as -> -> ->. split; [discriminate|]. intros _ gs rr [-> ->]. rewrite E. apply s_equals; auto. now apply valued_spec.
      - subst d. assert (Z : starts_with "=" e = false).
        { destruct (starts_with "=" e) eqn:Z; auto. apply starts_with_spec in Z as [v Z]. now elim (Nq v). }
        destruct (chain_sound (String.length e) e o c false pend last more (le_n _) Hi L ltac:(auto) Ec) as [A B]. split; auto. intros M gs rr Kc. rewrite E. apply s_letters. now apply B. }
    destruct Sp as [Sl Sp]. destruct last as [o'|].
    + destruct (Sl o' eq_refl) as [Io M]. apply (after pend o' (fun _ _ => True)); auto.
    + destruct (acts pend ns) as [[ns2|]|] eqn:A; cbn [rbind] in K; try discriminate. cbn [orb] in K.
      destruct more; [now apply consume_extra in K|].
      refine (next pend [s] lr r ns2 _ eq_refl _ Cr A K); [|lia]. apply Sp; [reflexivity|]. now split.
  - destruct V as [Hi N]. cbn [rbind fst snd] in K. apply (after [] o (fun _ _ => True)); auto.
    intros gs rr [(S & -> & ->)|(Vo & v & -> & Sv & ->)]; cbn [app].
    + now apply s_switch.
    + now apply s_apart.
Qed.

(** ** integers *)
Lemma grouped_digit d r : sforall is_digit d = true -> grouped r -> grouped (d +++ r).
Proof.
  intros D G. destruct G as [e Ne De|e r Ne De G].
  - apply g_one; [destruct d; [exact Ne|discriminate]|]. now rewrite sforall_app, D.
  - rewrite <- sapp_assoc. apply g_more; auto; [destruct d; [exact Ne|discriminate]|]. now rewrite sforall_app, D.
Qed.
Lemma int_digits_spec s : forall acc z,
  (int_digits s acc true = Some z <-> grouped s /\ z = (acc * 10 ^ Z.of_nat (digit_count s) + decimal s)%Z) /\
  (int_digits s acc false = Some z <-> (s = "" \/ grouped s \/ (exists r, s = String "_" r /\ grouped r)) /\ z = (acc * 10 ^ Z.of_nat (digit_count s) + decimal s)%Z).
Proof.
  induction s as [|c s IH]; intros acc z.
  - cbn [int_digits digit_count decimal]. split.
    + split; [discriminate|]. intros [G _]. inversion G; subst; [contradiction|]. destruct d; discriminate.
    + split; [intros [= <-]; split; [auto|lia]|]. intros [_ ->]. f_equal. lia.
  - assert (U : is_digit "_"%char = false) by reflexivity.
    assert (H : int_digits (String c s) acc true = Some z <-> grouped (String c s) /\ z = (acc * 10 ^ Z.of_nat (digit_count (String c s)) + decimal (String c s))%Z).
    { cbn [int_digits digit_count decimal]. destruct (is_digit c) eqn:D.
      - rewrite (proj2 (IH (10 * acc + digit_val c)%Z z)).
        assert (V : ((10 * acc + digit_val c) * 10 ^ Z.of_nat (digit_count s) + decimal s = acc * 10 ^ Z.of_nat (S (digit_count s)) + (Z.of_nat (code c - 48) * 10 ^ Z.of_nat (digit_count s) + decimal s))%Z).
        { unfold digit_val. rewrite Nat2Z.inj_succ, Z.pow_succ_r by lia. ring. }
        rewrite V.
        assert (K : (s = "" \/ grouped s \/ (exists r, s = String "_" r /\ grouped r)) <-> grouped (String c s)).
        { split.
          - intros [-> |[G|(r & -> & G)]].
            + apply g_one; [discriminate|]. cbn [sforall]. now rewrite D.
            + apply (grouped_digit (String c "")); auto. cbn [sforall]. now rewrite D.
            + apply (g_more (String c "")); auto; [discriminate|]. cbn [sforall]. now rewrite D.
          - intro G. inversion G as [d Nd Dd E|d r Nd Dd Gr E].
            + subst. cbn [sforall] in Dd. apply andb_prop in Dd as [_ Dd]. destruct s; [auto|]. right. left. apply g_one; [discriminate|exact Dd].
            + destruct d as [|c' d]; [contradiction|]. cbn [append] in E. injection E as -> E. cbn [sforall] in Dd. apply andb_prop in Dd as [_ Dd].
              right. destruct d as [|c2 d]; [right; exists r; auto|left]. rewrite <- E. apply g_more; auto. discriminate. }
        rewrite K. reflexivity.
      - rewrite andb_false_r. split; [discriminate|]. intros [G _]. exfalso.
        inversion G as [d Nd Dd E|d r Nd Dd Gr E]; subst.
        + cbn [sforall] in Dd. rewrite D in Dd. discriminate.
        + destruct d as [|c' d]; [contradiction|]. cbn [append] in E. injection E as -> E. cbn [sforall] in Dd. rewrite D in Dd. discriminate. }
    split; [exact H|].
    cbn [int_digits]. destruct (is_digit c) eqn:D.
    + cbn [int_digits] in H. rewrite D in H. rewrite H. split; intros [G E]; split; auto. destruct G as [G|[G|(r & G & _)]]; [discriminate|exact G|]. injection G as -> _. rewrite U in D. discriminate.
    + cbn [negb]. rewrite andb_true_r. destruct (Ascii.eqb_spec c "_") as [-> |N].
      * rewrite (proj1 (IH acc z)). cbn [digit_count decimal]. rewrite U. split.
        -- intros [G E]. split; auto. right. right. eauto.
        -- intros [G E]. split; auto. destruct G as [G|[G|(r & G & Gr)]]; [discriminate| |injection G as <-; exact Gr].
           exfalso. inversion G as [d Nd Dd E'|d r Nd Dd Gr E']; subst.
           ++ cbn [sforall] in Dd. rewrite U in Dd. discriminate.
           ++ destruct d as [|c' d]; [contradiction|]. cbn [append] in E'. injection E' as -> E'. cbn [sforall] in Dd. rewrite U in Dd. discriminate.
      * split; [discriminate|]. intros [[G|[G|(r & G & Gr)]] _]; [discriminate| |injection G as -> _; contradiction].
        exfalso. inversion G as [d Nd Dd E'|d r Nd Dd Gr E']; subst.
        -- cbn [sforall] in Dd. rewrite D in Dd. discriminate.
        -- destruct d as [|c' d]; [contradiction|]. cbn [append] in E'. injection E' as -> E'. cbn [sforall] in Dd. rewrite D in Dd. discriminate.
Qed.
Lemma strip_between p a t b : sforall p a = true -> sforall p b = true -> sforall (fun c => negb (p c)) t = true -> t <> "" -> strip p (a +++ t +++ b) = t.
Proof.
  intros A B T N. unfold strip.
  assert (L : lstrip p (a +++ t +++ b) = t +++ b).
  { induction a as [|c a IH]; cbn [append lstrip].
    - destruct t as [|c t]; [contradiction|]. cbn [sforall] in T. apply andb_prop in T as [T _]. apply Bool.negb_true_iff in T. cbn [append lstrip]. now rewrite T.
    - cbn [sforall] in A. apply andb_prop in A as [A1 A2]. rewrite A1. auto. }
  rewrite L. clear L N A a. induction t as [|c t IH]; cbn [append].
  - destruct b as [|c b]; [reflexivity|]. cbn [rstrip]. now rewrite B.
  - cbn [sforall] in T. apply andb_prop in T as [T1 T2]. apply Bool.negb_true_iff in T1. cbn [rstrip sforall]. rewrite T1. cbn [andb]. now rewrite IH.
Qed.
Lemma digit_not_space c : is_digit c = true -> is_space c = false /\ c <> "-"%char /\ c <> "+"%char.
Proof.
  unfold is_digit, is_space. intro H. apply andb_prop in H as [H1 H2]. apply Nat.leb_le in H1, H2. repeat split.
  - rewrite (proj2 (Nat.eqb_neq (code c) 32)), (proj2 (Nat.leb_gt (code c) 13)), (proj2 (Nat.leb_gt (code c) 31)) by lia. rewrite !andb_false_r. reflexivity.
  - intros ->. vm_compute in H1. lia.
  - intros ->. vm_compute in H1. lia.
Qed.
Lemma grouped_chars s : grouped s -> sforall (fun c => negb (is_space c)) s = true /\ exists c t, s = String c t /\ is_digit c = true.
Proof.
  assert (K : forall d, sforall is_digit d = true -> sforall (fun c => negb (is_space c)) d = true).
  { intro d. apply sforall_impl. intros c H. now destruct (digit_not_space c H) as [-> _]. }
  induction 1 as [d N D|d r N D G [IH _]].
  - split; [now apply K|]. destruct d as [|c d]; [contradiction|]. cbn [sforall] in D. apply andb_prop in D as [D _]. eauto.
  - split; [rewrite !sforall_app, (K d D), IH; reflexivity|]. destruct d as [|c d]; [contradiction|]. cbn [sforall] in D. apply andb_prop in D as [D _]. cbn [append]. eauto.
Qed.
Lemma py_int_spec s z : py_int s = Some z <-> integer_text s z.
Proof.
  unfold py_int, integer_text, blank, strip_ws. split.
  - intro H. destruct (strip_spec is_space s) as (a & b & E & A & B). destruct (strip is_space s) as [|c t] eqn:St; [discriminate|].
    assert (G : forall t z, int_digits t 0 true = Some z -> grouped t /\ z = decimal t).
    { intros t0 z0 H0. apply (int_digits_spec t0 0%Z z0) in H0 as [G ->]. split; auto. }
    destruct (Ascii.eqb_spec c "-") as [-> |N1].
    + destruct (int_digits t 0 true) as [z'|] eqn:I; [|discriminate]. cbn [option_map] in H. assert (Z : z = (- z')%Z) by congruence. apply G in I as [Gr ->].
      exists a, "-", t, b. repeat split; auto.
    + destruct (Ascii.eqb_spec c "+") as [-> |N2].
      * apply G in H as [Gr ->]. exists a, "+", t, b. repeat split; auto.
      * apply G in H as [Gr ->]. exists a, "", (String c t), b. repeat split; auto.
  - intros (a & sign & ds & b & -> & A & B & G & V). destruct (grouped_chars ds G) as (C & c & t & Ed & Dc). destruct (digit_not_space c Dc) as (_ & N1 & N2).
    assert (I : int_digits ds 0 true = Some (decimal ds)) by (apply (int_digits_spec ds 0%Z); auto).
    assert (Nd : ds <> "") by (rewrite Ed; discriminate).
    destruct V as [[-> [-> | ->]]|[-> ->]].
    + change ("" +++ ds +++ b) with (ds +++ b). rewrite (strip_between _ a ds b A B C Nd). rewrite Ed. rewrite (proj2 (Ascii.eqb_neq c "-") N1), (proj2 (Ascii.eqb_neq c "+") N2). rewrite <- Ed. exact I.
    + rewrite <- (sapp_assoc "+" ds b). rewrite (strip_between _ a ("+" +++ ds) b A B C ltac:(discriminate)). cbn [append]. change (Ascii.eqb "+" "-") with false. cbv iota. rewrite Ascii.eqb_refl. exact I.
    + rewrite <- (sapp_assoc "-" ds b). rewrite (strip_between _ a ("-" +++ ds) b A B C ltac:(discriminate)). cbn [append]. rewrite Ascii.eqb_refl. now rewrite I.
Qed.

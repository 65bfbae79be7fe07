(** * Proofs about Args.v: classification of the arguments *)
From Verif Require Import Base PyStr Strings Config Context Args Spec_Args PyStr_P Base_P Args_P.
Local Open Scope string_scope.

Lemma letter_not_v o c : In o table -> letter o c -> c <> "v"%char /\ c <> "-"%char /\ c <> "="%char.
Proof. intros H L. unfold letter in L. each H; cbn [o_short] in L; try discriminate L; injection L as <-; repeat split; discriminate. Qed.
Lemma letter_inj o o' c : In o table -> In o' table -> letter o c -> letter o' c -> o = o'.
Proof. unfold letter. intros. apply short_inj; congruence. Qed.
Lemma valued_spec o : valued o <-> In o table /\ takes_value o = true.
Proof.
  unfold valued, takes_value. rewrite <- in_table. split.
  - intros [[H [ch E]]|[H [ch E]]]; rewrite E; auto.
  - intros [H K]. destruct (o_kind o) eqn:E; try discriminate; [left|right]; eauto.
Qed.
Lemma switch_spec o : switch o <-> In o table /\ takes_value o = false.
Proof.
  unfold switch, takes_value. rewrite <- in_table. split.
  - intros [H [E|E]]; rewrite E; auto.
  - intros [H K]. destruct (o_kind o) eqn:E; try discriminate; auto.
Qed.

Lemma starts_dash s : starts_with "-" s = true <-> exists t, s = String "-" t.
Proof. rewrite starts_with_spec. cbn [append]. reflexivity. Qed.
Lemma starts_2dash s : starts_with "--" s = true <-> exists t, s = String "-" (String "-" t).
Proof. rewrite starts_with_spec. cbn [append]. reflexivity. Qed.
Lemma dash2_dash s : starts_with "--" s = true -> starts_with "-" s = true.
Proof. rewrite starts_2dash, starts_dash. intros [t ->]. eauto. Qed.
Lemma no_2dash c w : c <> "-"%char -> starts_with "--" (String "-" (String c w)) = false.
Proof. intro H. destruct (starts_with "--" _) eqn:E; auto. apply starts_2dash in E as [t [= E _]]. contradiction. Qed.
Lemma short_no_2dash o : In o table -> starts_with "--" (o_short o) = false.
Proof. intro H. destruct (shorts o H) as (c & w & -> & Hc & _). now apply no_2dash. Qed.
Lemma long_2dash o : In o table -> starts_with "--" (o_long o) = true.
Proof. intro H. destruct (longs o H) as (c & w & -> & _). reflexivity. Qed.

Lemma named_dash o n : In o table -> named o n -> starts_with "-" n = true /\ (2 <= String.length n)%nat /\ n <> "--".
Proof.
  intros H N. inversion N; subst.
  - destruct (shorts o H) as (c & w & -> & Hc & _). split; [reflexivity|]. cbn [String.length]. split; [lia|]. congruence.
  - destruct (longs o H) as (c & w & -> & _). split; [reflexivity|]. cbn [String.length]. split; [lia|]. discriminate.
  - split; [now apply dash2_dash|]. apply starts_2dash in H1 as [t ->]. cbn [String.length]. split; [lia|auto].
Qed.
Lemma find_named o n : In o table -> named o n -> find_option n = Some o \/ find_option n = None /\ starts_with "--" n = true /\ starts_with n (o_long o) = true /\ (forall o', In o' table -> starts_with n (o_long o') = true -> o' = o).
Proof.
  intros H N. inversion N; subst.
  - left. now apply find_short.
  - left. now apply find_long.
  - destruct (find_option n) as [o'|] eqn:E; [left|right; repeat split; auto; intros; apply H3; auto; now rewrite <- in_table].
    apply find_option_some in E as [H' [-> | ->]].
    + rewrite short_no_2dash in H1 by auto. discriminate.
    + f_equal. apply H3; [now rewrite <- in_table|]. rewrite <- (sapp_nil_r (o_long o')) at 2. apply starts_with_app.
Qed.
Lemma find_noeq s o : find_option s = Some o -> sexists (Ascii.eqb "=") s = false.
Proof. intro H. apply find_option_some in H as [H E]. destruct (longs o H) as (_ & _ & _ & K1 & K2 & _). destruct E as [-> | ->]; auto. Qed.
Lemma find_eq_none a b : find_option (a +++ "=" +++ b) = None.
Proof.
  destruct (find_option _) as [o|] eqn:E; auto. apply find_noeq in E. rewrite sexists_app in E. apply orb_false_elim in E as [_ E].
  cbn in E. discriminate.
Qed.

Lemma tuples_long n o s e : In o table -> starts_with "--" s = true ->
  match split_eq s with Some (a, b) => (a, Some (true, b)) | None => (s, None) end = (n, e) ->
  starts_with n (o_long o) = true -> (forall o', In o' table -> starts_with n (o_long o') = true -> o' = o) ->
  option_tuples s = [(o, false, e)].
Proof.
  intros H D E P U. unfold option_tuples. rewrite D, E.
  rewrite (filter_one _ _ o); auto. apply NoDup_table.
Qed.

(** ** an option that is named *)
Lemma named_tok o n : In o table -> named o n -> exists d, parse_optional n = Ok (TOpt (Some (o, d)) None).
Proof.
  intros H N. destruct (named_dash o n H N) as (D & L & _). unfold parse_optional. rewrite D. cbn [negb].
  destruct (find_named o n H N) as [E|(E & E2 & P & U)]; rewrite E; [eauto|].
  assert (Q : split_eq n = None). { apply split_eq_none. eapply named_noeq; [rewrite <- in_table; exact H|exact N]. }
  rewrite (proj2 (Nat.eqb_neq _ 1)) by lia. rewrite Q.
  rewrite (tuples_long n o n None); auto; [eauto|now rewrite Q].
Qed.
Lemma equals_tok o n v : In o table -> named o n ->
  parse_optional (n +++ "=" +++ v) = Ok (TOpt (Some (o, single_dash n)) (Some (true, v))).
Proof.
  intros H N. destruct (named_dash o n H N) as (D & L & _). unfold parse_optional.
  assert (D' : starts_with "-" (n +++ "=" +++ v) = true). { apply starts_dash in D as [t ->]. reflexivity. }
  rewrite D', find_eq_none. cbn [negb].
  rewrite (proj2 (Nat.eqb_neq _ 1)) by (rewrite slen_app; lia).
  assert (Q : split_eq (n +++ "=" +++ v) = Some (n, v)). { apply split_eq_some. split; auto. eapply named_noeq; [rewrite <- in_table; exact H|exact N]. }
  rewrite Q.
  destruct (find_named o n H N) as [E|(E & E2 & P & U)]; rewrite E; [reflexivity|].
  rewrite (tuples_long n o _ (Some (true, v))); auto.
  - unfold single_dash. now rewrite E2.
  - apply starts_2dash in E2 as [t ->]. reflexivity.
  - now rewrite Q.
Qed.

(** ** one-letter options with something glued *)
Lemma find_glued o c w : In o table -> letter o c -> w <> "" -> find_option (String "-" (String c w)) = None.
Proof.
  intros H L W. destruct (letter_not_v o c H L) as (V & D & _). destruct (find_option _) as [o'|] eqn:E; auto.
  apply find_option_some in E as [H' [E|E]].
  - destruct (shorts o' H') as (c' & w' & E' & _ & [-> | [-> _]]); rewrite E' in E; congruence.
  - destruct (longs o' H') as (c' & w' & E' & _). rewrite E' in E. congruence.
Qed.
Lemma prefix_short s o : In o table -> starts_with s (o_short o) = true -> (2 <= String.length s)%nat -> s = o_short o \/ s = "-v".
Proof.
  intros H P L. apply starts_with_spec in P as [t E]. destruct (shorts o H) as (c & w & E' & _ & K). rewrite E' in *.
  destruct s as [|c1 [|c2 s]]; cbn [String.length] in L; try lia. cbn [append] in E. injection E as -> -> E.
  destruct K as [-> | [-> K]].
  - destruct s; [auto|discriminate].
  - destruct s as [|x s]; [auto|]. rewrite E in K. cbn [append String.length] in K. rewrite slen_app in K. destruct s; [|cbn [String.length] in K; lia].
    destruct t; [|cbn [String.length] in K; lia]. rewrite E, sapp_nil_r. auto.
Qed.
Lemma stake2_eq s c w : s = String "-" (String c w) -> stake 2 s = String "-" (String c "") /\ sdrop 2 s = w.
Proof. now intros ->. Qed.
Lemma stake2_v o : In o table -> o_short o <> "-v".
Proof. intros H E. each H; discriminate E. Qed.
Lemma tuples_glued o c w : In o table -> letter o c -> w <> "" ->
  option_tuples (String "-" (String c w)) = [(o, true, Some (false, w))].
Proof.
  intros H L W. destruct (letter_not_v o c H L) as (V & D & _). unfold option_tuples. rewrite no_2dash by auto.
  destruct (stake2_eq _ c w eq_refl) as [-> ->].
  assert (N : forall y, In y table -> starts_with (String "-" (String c w)) (o_long y) = false).
  { intros y Hy. destruct (starts_with _ _) eqn:E; auto. apply starts_with_spec in E as [t E]. destruct (longs y Hy) as (c' & w' & E' & _). rewrite E' in E. cbn [append] in E. congruence. }
  rewrite (flat_map_one _ _ o); [|apply NoDup_table|exact H|].
  - unfold letter in L. rewrite L, String.eqb_refl, (N o H). reflexivity.
  - intros y Hy Ny. rewrite (N y Hy). destruct (String.eqb_spec (o_short y) (String "-" (String c ""))) as [E|E].
    + elim Ny. apply short_inj; auto. unfold letter in L. congruence.
    + destruct (starts_with _ (o_short y)) eqn:P; [|reflexivity]. apply prefix_short in P as [P|P]; auto; [| |cbn [String.length]; lia].
      * destruct (shorts y Hy) as (c' & w' & E' & _ & [-> | [-> _]]); rewrite E' in P; congruence.
      * congruence.
Qed.
Lemma glued_tok o c w : In o table -> letter o c -> w <> "" -> (forall v, w <> String "=" v) ->
  parse_optional (String "-" (String c w)) = Ok (TOpt (Some (o, true)) (Some (false, w))).
Proof.
  intros H L W Q. unfold parse_optional. change (starts_with "-" (String "-" (String c w))) with true. cbn [negb].
  rewrite (find_glued o c w H L W). change (Nat.eqb (String.length (String "-" (String c w))) 1) with false. cbv iota.
  rewrite (tuples_glued o c w H L W).
  destruct (split_eq (String "-" (String c w))) as [[a b]|] eqn:E; [|reflexivity].
  apply split_eq_some in E as [E K].
  destruct (letter_not_v o c H L) as (_ & D & D').
  destruct a as [|x1 [|x2 a]]; cbn [append] in E; [discriminate|injection E as _ E _; congruence|].
  injection E as <- <- E. destruct a as [|x3 a]; [now elim (Q b)|].
  rewrite (find_glued o c (String x3 a) H L); [reflexivity|discriminate].
Qed.

(** ** values *)
Lemma after_digits_spec s : exists d, sforall is_digit d = true /\ s = d +++ after_digits s /\ (forall c t, after_digits s = String c t -> is_digit c = false).
Proof.
  induction s as [|c s (d & D & E & K)]; cbn [after_digits]; [exists ""; repeat split; discriminate|].
  destruct (is_digit c) eqn:C.
  - exists (String c d). cbn [sforall append]. rewrite C, D. repeat split; auto. now rewrite <- E.
  - exists "". repeat split; auto. intros c' t [= <- _]. exact C.
Qed.
Lemma digits_app_inj d t d' t' : sforall is_digit d = true -> sforall is_digit d' = true ->
  (forall c r, t = String c r -> is_digit c = false) -> (forall c r, t' = String c r -> is_digit c = false) ->
  d +++ t = d' +++ t' -> d = d' /\ t = t'.
Proof.
  revert d'. induction d as [|c d IH]; intros d' D D' T T' E; destruct d' as [|c' d']; cbn [append] in E.
  - auto.
  - cbn [sforall] in D'. apply andb_prop in D' as [D' _]. rewrite (T c' _ E) in D'. discriminate.
  - cbn [sforall] in D. apply andb_prop in D as [D _]. rewrite (T' c (d +++ t)) in D by auto. discriminate.
  - injection E as -> E. cbn [sforall] in *. apply andb_prop in D as [_ D]. apply andb_prop in D' as [_ D'].
    destruct (IH d' D D' T T' E) as [-> ->]. auto.
Qed.
Lemma isdigit_spec s : isdigit s = true <-> s <> "" /\ sforall is_digit s = true.
Proof. destruct s; cbn [isdigit]; split; try (intros; discriminate); intuition congruence. Qed.
Lemma negative_spec s : negative_number s = true <-> negative s.
Proof.
  unfold negative. destruct s as [|c s]; cbn [negative_number].
  - split; [discriminate|]. intros [(d & _ & _ & E)|(d & f & _ & _ & _ & E)]; discriminate.
  - split.
    + intro H. apply andb_prop in H as [H1 H2]. apply Ascii.eqb_eq in H1 as ->. apply orb_prop in H2 as [H2|H2].
      * apply isdigit_spec in H2 as [H2 H3]. left. exists s. auto.
      * destruct (after_digits_spec s) as (d & D & E & K). destruct (after_digits s) as [|c t]; [discriminate|]. apply andb_prop in H2 as [H2 H3].
        apply Ascii.eqb_eq in H2 as ->. apply isdigit_spec in H3 as [H3 H4]. right. exists d, t. repeat split; auto. cbn [append]. now rewrite E at 1.
    + intros [(d & N & D & E)|(d & f & D & N & F & E)]; cbn [append] in E; injection E as -> E; rewrite Ascii.eqb_refl; cbn [andb].
      * subst. apply orb_true_intro. left. apply isdigit_spec. auto.
      * apply orb_true_intro. right. destruct (after_digits_spec s) as (d' & D' & E' & K).
        destruct (digits_app_inj d' (after_digits s) d (String "." f)) as [_ ->]; auto; [now intros c r [= <- _]|now rewrite <- E', E|].
        rewrite Ascii.eqb_refl. now apply isdigit_spec.
Qed.
Lemma optlike_find s : optlike s -> (exists o, find_option s = Some o) \/
  (exists a b, split_eq s = Some (a, b) /\ exists o, find_option a = Some o) \/ option_tuples s <> [] \/ s = "--".
Proof.
  intros (o & H & [(n & w & E & N)|(c & w & L & E)]); rewrite <- in_table in H.
  - assert (Q : sexists (Ascii.eqb "=") n = false).
    { destruct (longs o H) as (_ & _ & _ & K1 & K2 & _). destruct N as [-> | [-> |[_ N]]]; auto. now apply starts_with_noeq in N. }
    assert (S0 : split_eq n = None) by now apply split_eq_none.
    assert (S : split_eq (n +++ "=" +++ w) = Some (n, w)) by now apply split_eq_some.
    destruct N as [-> | [-> |[N1 N2]]].
    + destruct E as [-> | ->]; [left; eexists; now apply find_short|right; left]. do 2 eexists. split; [exact S|]. eexists. now apply find_short.
    + destruct E as [-> | ->]; [left; eexists; now apply find_long|right; left]. do 2 eexists. split; [exact S|]. eexists. now apply find_long.
    + right. right. left. unfold option_tuples.
      assert (D : starts_with "--" s = true). { apply starts_2dash in N1 as [t ->]. destruct E as [-> | ->]; reflexivity. }
      rewrite D. assert (X : In o (filter (fun o => starts_with n (o_long o)) table)) by now apply filter_In.
      destruct E as [-> | ->]; rewrite ?S0, ?S; intro Z; apply map_eq_nil in Z; rewrite Z in X; contradiction X.
  - assert (L' := L). unfold letter in L'. rewrite E, L'. cbn [append]. destruct w as [|x w].
    + left. rewrite <- L'. eexists. now apply find_short.
    + right. right. left. rewrite (tuples_glued o c _ H L); discriminate.
Qed.
Lemma find_optlike s o : find_option s = Some o -> optlike s.
Proof.
  intro H. apply find_option_some in H as [H E]. exists o. rewrite <- in_table. split; auto. left. exists s, "". split; auto. destruct E; auto.
Qed.
Lemma tuples_optlike s : starts_with "-" s = true -> (2 <= String.length s)%nat -> s <> "-v" -> option_tuples s <> [] -> optlike s.
Proof.
  intros D L V. unfold option_tuples. destruct (starts_with "--" s) eqn:E.
  - destruct (match split_eq s with Some (a, b) => (a, Some (true, b)) | None => (s, None) end) as [p e] eqn:F.
    intro N. destruct (filter (fun o => starts_with p (o_long o)) table) as [|o q] eqn:G; [now elim N|].
    assert (K : In o (filter (fun o => starts_with p (o_long o)) table)) by (rewrite G; now left).
    apply filter_In in K as [K1 K2]. exists o. rewrite <- in_table. split; auto. left.
    destruct (split_eq s) as [[a b]|] eqn:Q; injection F as <- <-.
    + exists a, b. apply split_eq_some in Q as [Q _]. split; [auto|]. right; right. split; auto.
      apply starts_2dash in E as [t Et]. rewrite Et in Q. destruct (longs o K1) as (c & w & El & _).
      destruct a as [|x1 [|x2 a]]; cbn [append] in Q; try discriminate; injection Q as Q1 Q2 Q3; subst; reflexivity.
    + exists s, "". split; auto.
  - intro N. match type of N with flat_map ?g table <> [] => assert (exists o, In o table /\ g o <> []) as (o & K & G) end.
    { clear -N. induction table as [|a l IH]; [now elim N|]. cbn [flat_map] in N. destruct ((if String.eqb (o_short a) (stake 2 s) then _ else _) ++ _)%list eqn:X in N.
      - destruct (IH N) as (o & I & J). exists o. split; auto. now right.
      - exists a. split; [now left|]. rewrite X. discriminate. }
    exists o. rewrite <- in_table. split; auto.
    destruct s as [|c1 [|c2 s]]; try (cbn [String.length] in L; lia). apply starts_dash in D as [t [= -> _]].
    destruct (stake2_eq _ c2 s eq_refl) as [S1 S2]. rewrite S1, S2 in G.
    destruct (String.eqb_spec (o_short o) (String "-" (String c2 ""))) as [X|X].
    + right. exists c2, s. split; [exact X|]. rewrite X. reflexivity.
    + left. exists (String "-" (String c2 s)), "". split; auto.
      destruct (starts_with _ (o_short o)) eqn:P.
      * apply prefix_short in P as [P|P]; auto. contradiction.
      * destruct (starts_with _ (o_long o)) eqn:P2; [|now elim G]. apply starts_with_spec in P2 as [t' P2].
        destruct (longs o K) as (c & w & El & _). rewrite El in P2. cbn [append] in P2. injection P2 as P2 _. subst c2. discriminate.
Qed.

Lemma v_raises : parse_optional "-v" = Raise (AppExc 10000).
Proof. reflexivity. Qed.
Lemma separate_tok v : separate v -> v <> "--" /\ parse_optional v = Ok TPos.
Proof.
  intros [H|[-> | [H N]]].
  - split; [intros ->; discriminate|]. unfold parse_optional. now rewrite H.
  - split; [discriminate|reflexivity].
  - assert (V : v <> "--"). { intros ->. destruct N as [N|N]; [apply negative_spec in N; discriminate|discriminate]. }
    assert (V' : v <> "-v"). { intros ->. destruct N as [N|N]; [apply negative_spec in N; discriminate|discriminate]. }
    split; auto. unfold parse_optional. destruct (starts_with "-" v) eqn:D; [|reflexivity]. cbn [negb].
    destruct (find_option v) as [o|] eqn:F; [elim H; now apply find_optlike in F|].
    destruct (Nat.eqb (String.length v) 1) eqn:L; [reflexivity|].
    assert (L2 : (2 <= String.length v)%nat). { apply Nat.eqb_neq in L. apply starts_dash in D as [t ->]. cbn [String.length] in *. lia. }
    assert (T : option_tuples v = []). { destruct (option_tuples v) eqn:T; auto. elim H. apply tuples_optlike; auto. rewrite T. discriminate. }
    rewrite T.
    assert (S : match split_eq v with Some (a, b) => match find_option a with Some o => Some (o, single_dash a, b) | None => None end | None => None end = None).
    { destruct (split_eq v) as [[a b]|] eqn:Q; auto. destruct (find_option a) as [o|] eqn:Fa; auto. elim H.
      apply find_option_some in Fa as [I J]. apply split_eq_some in Q as [Q _]. exists o. rewrite <- in_table. split; auto. left. exists a, b. split; auto. destruct J; auto. }
    rewrite S. destruct N as [N|N]; [apply negative_spec in N; now rewrite N|]. rewrite N. now destruct (negative_number v).
Qed.

Lemma filter_2dash : filter (fun o => starts_with "--" (o_long o)) table = table.
Proof. vm_compute. reflexivity. Qed.

(** ** the converse: what a classification says of an argument *)
Lemma parse_inv s t : s <> "--" -> parse_optional s = Ok t ->
  match t with
  | TPos => separate s
  | TDash => False
  | TOpt None _ => True
  | TOpt (Some (o, d)) None => In o table /\ named o s
  | TOpt (Some (o, d)) (Some (sep, e)) =>
      In o table /\ ((exists n, named o n /\ s = n +++ "=" +++ e /\ d = single_dash n /\ sep = true) \/
                     (exists c, letter o c /\ s = String "-" (String c e) /\ d = true /\ e <> "" /\ sep = false /\ forall v, e <> String "=" v))
  end.
Proof.
  intros S2 H. unfold parse_optional in H.
  destruct (starts_with "-" s) eqn:D; cbn [negb] in H; [|injection H as <-; now left].
  destruct (find_option s) as [o|] eqn:F.
  { injection H as <-. apply find_option_some in F as [I J]. split; auto. destruct J as [-> | ->]; constructor. }
  destruct (Nat.eqb (String.length s) 1) eqn:L.
  { injection H as <-. right. left. apply Nat.eqb_eq in L. apply starts_dash in D as [t ->]. destruct t; [reflexivity|discriminate]. }
  assert (L2 : (2 <= String.length s)%nat). { apply Nat.eqb_neq in L. apply starts_dash in D as [t' ->]. cbn [String.length] in *. lia. }
  destruct (split_eq s) as [[a b]|] eqn:Q.
  - destruct (find_option a) as [o|] eqn:Fa.
    { injection H as <-. apply find_option_some in Fa as [I J]. split; auto. left. exists a. apply split_eq_some in Q as [Q _]. split; [destruct J as [-> | ->]; constructor|auto]. }
    assert (Q' := Q). apply split_eq_some in Q' as [Q1 Q2].
    destruct (option_tuples s) as [|[[o d] e] [|]] eqn:T; try discriminate.
    + assert (NO : ~ optlike s). { intro O. destruct (optlike_find s O) as [[o E]|[(a' & b' & E1 & o & E2)|[E|E]]]; try congruence. }
      destruct (negative_number s) eqn:N; [injection H as <-; right; right; split; auto; left; now apply negative_spec|].
      destruct (contains " " s) eqn:C; injection H as <-; auto. right; right; split; auto.
    + injection H as <-. unfold option_tuples in T. rewrite Q in T. destruct (starts_with "--" s) eqn:D2.
      * destruct (filter (fun o => starts_with a (o_long o)) table) as [|o' [|]] eqn:G; try discriminate. injection T as -> <- <-.
        assert (X : forall y, In y (filter (fun o => starts_with a (o_long o)) table) <-> y = o) by (intro y; rewrite G; cbn; intuition congruence).
        assert (I : In o table /\ starts_with a (o_long o) = true) by (apply (filter_In (fun o => starts_with _ (o_long o))); apply X; reflexivity). destruct I as [I J].
        split; auto. left. exists a.
        assert (A2 : starts_with "--" a = true).
        { apply starts_2dash in D2 as [t Et]. rewrite Et in Q1. destruct a as [|x1 [|x2 a]]; cbn [append] in Q1; try discriminate; injection Q1 as Q1 Q3 Q4; subst; reflexivity. }
        split; [|split; [exact Q1|split; [unfold single_dash; now rewrite A2|reflexivity]]].
        apply by_prefix; auto.
        -- intros ->. rewrite filter_2dash in G. discriminate G.
        -- intros o' I' P. apply (proj1 (X o')). apply (filter_In (fun o => starts_with a (o_long o))). split; [now rewrite in_table|exact P].
      * destruct s as [|c1 [|c2 s]]; try (cbn [String.length] in L2; lia). apply starts_dash in D as [t [= -> _]].
        assert (C2 : c2 <> "-"%char) by (intros ->; discriminate).
        destruct (List.find (fun o => String.eqb (o_short o) (String "-" (String c2 ""))) table) as [o'|] eqn:G.
        -- apply find_some in G as [G1 G2]. apply String_eqb_spec' in G2.
           assert (W : s <> ""). { intros ->. destruct (find_option_none _ F o' G1) as [Z _]. apply Z. symmetry. exact G2. }
           pose proof (tuples_glued o' c2 s G1 G2 W) as TG. unfold option_tuples in TG. rewrite no_2dash in TG by auto. rewrite TG in T. injection T as <- <- <-.
           split; auto. right. exists c2. repeat split; auto. intros v ->.
           assert (Z : split_eq (String "-" (String c2 (String "=" v))) = Some (String "-" (String c2 ""), v)).
           { apply split_eq_some. split; [reflexivity|]. cbn [sexists]. destruct (letter_not_v o' c2 G1 G2) as (_ & _ & K).
             rewrite (proj2 (Ascii.eqb_neq "="%char c2)) by congruence. reflexivity. }
           rewrite Z in Q. injection Q as <- <-. rewrite <- G2, (find_short o' G1) in Fa. discriminate.
        -- exfalso. destruct (stake2_eq _ c2 s eq_refl) as [S1 S3]. rewrite S1, S3 in T.
           assert (NG : forall y, In y table -> String.eqb (o_short y) (String "-" (String c2 "")) = false) by (intros y Hy; now apply (find_none _ _ G) in Hy).
           assert (T' : exists y, In y table /\ starts_with (String "-" (String c2 s)) (o_short y) = true).
           { assert (K : In (o, d, e) [(o, d, e)]) by now left. rewrite <- T in K. apply in_flat_map in K as (y & Y1 & Y2). rewrite (NG y Y1) in Y2.
             apply in_app_iff in Y2 as [Y2|Y2].
             - exists y. split; auto. destruct (starts_with _ (o_short y)); auto; contradiction Y2.
             - destruct (starts_with _ (o_long y)) eqn:P2; [|contradiction Y2]. apply starts_with_spec in P2 as [t' P2].
               destruct (longs y Y1) as (c & w & El & _). rewrite El in P2. cbn [append] in P2. injection P2 as P2 _. congruence. }
           destruct T' as (y & Y1 & Y2). apply prefix_short in Y2 as [Y2|Y2]; auto.
           ++ now apply (find_option_none _ F y Y1) in Y2.
           ++ injection Y2 as -> ->. discriminate Q.
  - destruct (option_tuples s) as [|[[o d] e] [|]] eqn:T; try discriminate.
    + assert (NO : ~ optlike s). { intro O. destruct (optlike_find s O) as [[o E]|[(a' & b' & E1 & o & E2)|[E|E]]]; try congruence. }
      destruct (negative_number s) eqn:N; [injection H as <-; right; right; split; auto; left; now apply negative_spec|].
      destruct (contains " " s) eqn:C; injection H as <-; auto. right; right; split; auto.
    + injection H as <-. unfold option_tuples in T. rewrite Q in T. destruct (starts_with "--" s) eqn:D2.
      * destruct (filter (fun o => starts_with s (o_long o)) table) as [|o' [|]] eqn:G; try discriminate. injection T as -> <- <-.
        assert (X : forall y, In y (filter (fun o => starts_with s (o_long o)) table) <-> y = o) by (intro y; rewrite G; cbn; intuition congruence).
        assert (I : In o table /\ starts_with s (o_long o) = true) by (apply (filter_In (fun o => starts_with _ (o_long o))); apply X; reflexivity). destruct I as [I J].
        split; auto. apply by_prefix; auto. intros o' I' P. apply (proj1 (X o')). apply (filter_In (fun o => starts_with s (o_long o))). split; [now rewrite in_table|exact P].
      * destruct s as [|c1 [|c2 s]]; try (cbn [String.length] in L2; lia). apply starts_dash in D as [t [= -> _]].
        assert (C2 : c2 <> "-"%char) by (intros ->; discriminate).
        destruct (List.find (fun o => String.eqb (o_short o) (String "-" (String c2 ""))) table) as [o'|] eqn:G.
        -- apply find_some in G as [G1 G2]. apply String_eqb_spec' in G2.
           assert (W : s <> ""). { intros ->. destruct (find_option_none _ F o' G1) as [Z _]. apply Z. symmetry. exact G2. }
           pose proof (tuples_glued o' c2 s G1 G2 W) as TG. unfold option_tuples in TG. rewrite no_2dash in TG by auto. rewrite TG in T. injection T as <- <- <-.
           split; auto. right. exists c2. repeat split; auto. intros v ->.
           apply split_eq_none in Q. cbn [sexists] in Q. rewrite Ascii.eqb_refl in Q. rewrite !orb_true_r in Q. discriminate.
        -- exfalso. destruct (stake2_eq _ c2 s eq_refl) as [S1 S3]. rewrite S1, S3 in T.
           assert (NG : forall y, In y table -> String.eqb (o_short y) (String "-" (String c2 "")) = false) by (intros y Hy; now apply (find_none _ _ G) in Hy).
           assert (T' : exists y, In y table /\ starts_with (String "-" (String c2 s)) (o_short y) = true).
           { assert (K : In (o, d, e) [(o, d, e)]) by now left. rewrite <- T in K. apply in_flat_map in K as (y & Y1 & Y2). rewrite (NG y Y1) in Y2.
             apply in_app_iff in Y2 as [Y2|Y2].
             - exists y. split; auto. destruct (starts_with _ (o_short y)); auto; contradiction Y2.
             - destruct (starts_with _ (o_long y)) eqn:P2; [|contradiction Y2]. apply starts_with_spec in P2 as [t' P2].
               destruct (longs y Y1) as (c & w & El & _). rewrite El in P2. cbn [append] in P2. injection P2 as P2 _. congruence. }
           destruct T' as (y & Y1 & Y2). apply prefix_short in Y2 as [Y2|Y2]; auto.
           ++ now apply (find_option_none _ F y Y1) in Y2.
           ++ injection Y2 as -> ->. discriminate T.
Qed.

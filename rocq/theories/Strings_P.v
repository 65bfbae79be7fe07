From Verif Require Import Base Base_P PyStr PyStr_P Strings Spec_Strings.
From Coq Require Import Sorted Permutation.
Local Open Scope string_scope.

(** ** words of a string *)
Definition blank (c : ascii) : bool := Ascii.eqb c " ".
Definition words (s : string) : list string := filter nonempty (split_on blank s).
(** no quotes, and no white space other than blanks *)
Definition plain_ch (c : ascii) : bool := (negb (Ascii.eqb c DQ) && (negb (is_space c) || blank c))%bool.
Definition plain (s : string) : Prop := sforall plain_ch s = true.

Lemma plain_not_nl c : plain_ch c = true -> is_nl c = false.
Proof.
  unfold plain_ch, is_nl, blank. rewrite andb_true_iff, orb_true_iff. intros [_ [H|H]].
  - apply negb_true_iff in H. unfold is_space in H. destruct (Nat.eqb_spec (code c) 10) as [E|E]; [rewrite E in H; discriminate|].
    destruct (Nat.eqb_spec (code c) 13) as [E'|E']; [rewrite E' in H; discriminate|]. reflexivity.
  - apply Ascii.eqb_eq in H. subst. reflexivity.
Qed.
Lemma plain_not_dq c : plain_ch c = true -> Ascii.eqb c DQ = false.
Proof. unfold plain_ch. rewrite andb_true_iff, negb_true_iff. tauto. Qed.

Lemma csv_plain s : plain s -> forall cur,
  csv_go InField cur s = match split_on blank s with w :: ws => (cur +++ w) :: ws | [] => [] end.
Proof.
  unfold plain. induction s as [|c s IH]; intros H cur.
  - cbn. rewrite sapp_nil_r. reflexivity.
  - cbn [sforall] in H. apply andb_true_iff in H as [Hc H].
    cbn [csv_go]. rewrite plain_not_nl by exact Hc. rewrite split_on_cons. fold (blank c).
    destruct (blank c) eqn:E.
    + rewrite sapp_nil_r. f_equal. destruct s as [|c' s]; [reflexivity|].
      cbn [csv_go]. cbn [sforall] in H. apply andb_true_iff in H as [Hc' H].
      rewrite plain_not_nl, plain_not_dq by exact Hc'. rewrite split_on_cons. fold (blank c').
      specialize (IH ltac:(cbn [sforall]; rewrite Hc', H; reflexivity) "").
      cbn [csv_go] in IH. rewrite plain_not_nl in IH by exact Hc'. fold (blank c') in IH.
      rewrite split_on_cons in IH. destruct (blank c') eqn:E'; [exact IH|].
      destruct (split_on_nonnil blank s) as [w [ws Hw]]. rewrite Hw in *. exact IH.
    + rewrite IH by exact H. destruct (split_on_nonnil blank s) as [w [ws ->]].
      rewrite sapp_assoc. reflexivity.
Qed.
Lemma csv_record s : plain s -> s <> "" -> csv_go StartRecord "" s = split_on blank s.
Proof.
  intros H Hn. destruct s as [|c s]; [congruence|]. unfold plain in H. cbn [sforall] in H.
  apply andb_true_iff in H as [Hc H]. pose proof (csv_plain (String c s)) as Hp.
  assert (Hpl : plain (String c s)) by (unfold plain; cbn [sforall]; rewrite Hc, H; reflexivity).
  specialize (Hp Hpl ""). cbn [csv_go] in *. rewrite plain_not_nl in * by exact Hc.
  rewrite plain_not_dq by exact Hc.
  fold (blank c) in *. destruct (split_on_nonnil blank (String c s)) as [w [ws Hw]]. rewrite Hw in *.
  destruct (blank c); exact Hp.
Qed.
Lemma csv_error_plain s : plain s -> forall st, st <> InQuoted -> csv_error st false s = false.
Proof.
  unfold plain. induction s as [|c s IH]; intros H st Hst; [reflexivity|]. cbn [sforall] in H. apply andb_true_iff in H as [Hc H].
  pose proof (plain_not_nl c Hc) as Hn. unfold is_nl in Hn. apply orb_false_iff in Hn as [N1 N2].
  assert (E : csv_error st false (String c s) = csv_error (if Ascii.eqb c " " then StartField else InField) false s).
  { destruct st; cbn [csv_error]; try congruence; rewrite N1, N2, (plain_not_dq c Hc); now destruct (Ascii.eqb c " "). }
  rewrite E. apply IH; [exact H|]. now destruct (Ascii.eqb c " ").
Qed.
Lemma to_argv_plain s : plain s -> s <> "" -> to_argv s = Ok (words s).
Proof.
  intros H Hn. unfold to_argv. destruct (String.eqb_spec s ""); [congruence|].
  rewrite csv_error_plain by (assumption || discriminate). rewrite csv_record by assumption. reflexivity.
Qed.

Lemma words_app_blank a b : words (a +++ String " " b) = (words a ++ words b)%list.
Proof. unfold words. rewrite split_on_app_sep by reflexivity. apply filter_app. Qed.
Lemma words_nil : words "" = [].
Proof. reflexivity. Qed.
Lemma word_no_blank w : word w -> sexists blank w = false.
Proof.
  intros [_ H]. apply negb_true_iff. rewrite <- sforall_negb_sexists.
  eapply sforall_impl; [|exact H]. intros c Hc. unfold word_char in Hc. apply andb_true_iff in Hc as [Hc _].
  unfold blank. destruct (Ascii.eqb_spec c " "); [subst; discriminate|reflexivity].
Qed.
Lemma words_word w : word w -> words w = [w].
Proof.
  intro H. unfold words. rewrite split_on_none by (apply word_no_blank; exact H).
  destruct H as [H _]. cbn. unfold nonempty. destruct (String.eqb_spec w ""); [congruence|reflexivity].
Qed.
Lemma words_blanks_l a s : sforall blank a = true -> words (a +++ s) = words s.
Proof.
  induction a as [|c a IH]; [reflexivity|]. cbn [sforall append]. rewrite andb_true_iff. intros [Hc H].
  unfold words in *. rewrite split_on_cons, Hc. cbn. apply IH. exact H.
Qed.
Lemma words_blanks b : sforall blank b = true -> words b = [].
Proof.
  induction b as [|c b IH]; [reflexivity|]. cbn [sforall]. rewrite andb_true_iff. intros [Hc H].
  unfold words in *. rewrite split_on_cons, Hc. cbn. apply IH. exact H.
Qed.
Lemma words_blanks_r s b : sforall blank b = true -> words (s +++ b) = words s.
Proof.
  destruct b as [|c b]; [rewrite sapp_nil_r; reflexivity|]. cbn [sforall]. rewrite andb_true_iff. intros [Hc H].
  unfold blank in Hc. apply Ascii.eqb_eq in Hc. subst c. rewrite words_app_blank, (words_blanks b) by exact H.
  apply app_nil_r.
Qed.
Lemma plain_space c : plain_ch c = true -> is_space c = blank c.
Proof.
  unfold plain_ch. rewrite andb_true_iff, orb_true_iff. intros [_ [H|H]].
  - apply negb_true_iff in H. rewrite H. unfold blank. destruct (Ascii.eqb_spec c " "); [subst; discriminate|reflexivity].
  - rewrite H. unfold blank in H. apply Ascii.eqb_eq in H. subst. reflexivity.
Qed.
Lemma sforall_plain_space s : plain s -> sforall is_space s = true -> sforall blank s = true.
Proof.
  unfold plain. induction s as [|c s IH]; [auto|]. cbn [sforall]. rewrite !andb_true_iff. intros [H1 H2] [H3 H4].
  rewrite <- plain_space by exact H1. auto.
Qed.
Lemma plain_app a b : plain (a +++ b) <-> plain a /\ plain b.
Proof. unfold plain. rewrite sforall_app, andb_true_iff. reflexivity. Qed.
Lemma words_strip s : plain s -> words (strip_ws s) = words s /\ plain (strip_ws s).
Proof.
  intro H. unfold strip_ws. destruct (strip_spec is_space s) as [a [b [E [Ha Hb]]]].
  rewrite E in H. apply plain_app in H as [H1 H2]. apply plain_app in H2 as [H2 H3]. split; [|exact H2].
  rewrite E at 2. rewrite words_blanks_l by (apply sforall_plain_space; assumption).
  rewrite words_blanks_r by (apply sforall_plain_space; assumption). reflexivity.
Qed.
Lemma word_plain w : word w -> plain w.
Proof.
  intros [_ H]. unfold plain. eapply sforall_impl; [|exact H]. intros c Hc. unfold word_char in Hc. unfold plain_ch, DQ.
  apply andb_true_iff in Hc as [H1 H2]. rewrite H1, H2. reflexivity.
Qed.

(** ** the builder *)
Lemma join_nil_cons x l : join "" (x :: l) = x +++ join "" l.
Proof. destruct l as [|y l]; cbn; [rewrite sapp_nil_r; reflexivity|reflexivity]. Qed.

Definition good (d : list (string * string)) : Prop :=
  forall o v, In (o, v) d -> word o /\ (v = "" \/ word v).

Lemma words_args d : good d ->
  let s := join "" (map (fun kv => fst kv +++ " " +++ snd kv +++ " ") d) in
  plain s /\ words s = tokens d.
Proof.
  induction d as [|[o v] d IH]; intro H; cbn [map]; [split; reflexivity|].
  rewrite join_nil_cons. cbn [fst snd].
  assert (Hd : good d) by (intros o' v' Hi; apply H; right; exact Hi).
  destruct (IH Hd) as [Hp Hw]. destruct (H o v (or_introl eq_refl)) as [Ho Hv].
  set (r := join "" _) in *. rewrite !sapp_assoc. cbn [append].
  split.
  - apply plain_app. split; [apply word_plain; exact Ho|].
    change (plain (" " +++ v +++ (" " +++ r))). apply plain_app. split; [reflexivity|].
    apply plain_app. split; [destruct Hv as [->|Hv]; [reflexivity|apply word_plain; exact Hv]|].
    apply plain_app. split; [reflexivity|exact Hp].
  - rewrite words_app_blank, words_app_blank, Hw. unfold tokens. cbn [flat_map fst snd].
    rewrite (words_word o) by exact Ho. destruct (String.eqb_spec v "") as [->|Hne].
    + reflexivity.
    + destruct Hv as [Hv|Hv]; [congruence|]. rewrite (words_word v) by exact Hv. reflexivity.
Qed.

Lemma cmd_argv_good d : good d -> cmd_argv d = Ok (tokens (sort_str fst d)).
Proof.
  intro H. unfold cmd_argv, cmd_str.
  assert (Hs : good (sort_str fst d)).
  { intros o v Hi. apply H. eapply Permutation_in; [apply sort_str_perm|exact Hi]. }
  destruct (words_args _ Hs) as [Hp Hw]. set (s := join "" _) in *.
  destruct (words_strip s Hp) as [Hw' Hp'].
  rewrite to_argv_plain.
  - cbn [rbind]. change ("pyg2p " +++ strip_ws s) with ("pyg2p" +++ String " " (strip_ws s)).
    rewrite words_app_blank, Hw', Hw. reflexivity.
  - apply plain_app. split; [reflexivity|exact Hp'].
  - discriminate.
Qed.

Lemma dget_calls calls d o :
  dget String.eqb (cmd_calls d calls) o =
  match last_setting calls o with Some v => Some v | None => dget String.eqb d o end.
Proof.
  unfold cmd_calls. revert d. induction calls as [|[o' v] calls IH]; intro d; cbn [fold_left last_setting]; [reflexivity|].
  rewrite IH. destruct (last_setting calls o); [reflexivity|]. unfold cmd_with. cbn [fst snd].
  rewrite (dget_dset String.eqb String_eqb_spec'). destruct (String.eqb o o'); reflexivity.
Qed.
Lemma calls_NoDup calls d : NoDup (map fst d) -> NoDup (map fst (cmd_calls d calls)).
Proof.
  unfold cmd_calls. revert d. induction calls as [|[o v] calls IH]; intros d H; cbn [fold_left]; [exact H|].
  apply IH. apply (NoDup_dset String.eqb String_eqb_spec'). exact H.
Qed.
Lemma NoDup_fst {A B} (d : list (A * B)) : NoDup (map fst d) -> NoDup d.
Proof. apply NoDup_map_inv. Qed.
Lemma same_dict_perm (d e : sdict) : NoDup (map fst d) -> NoDup (map fst e) ->
  (forall o, dget String.eqb d o = dget String.eqb e o) -> Permutation d e.
Proof.
  intros Hd He H. apply NoDup_Permutation; try (apply NoDup_fst; assumption).
  intros [o v]. split; intro Hi.
  - apply (In_dget String.eqb String_eqb_spec') in Hi; [|exact Hd]. rewrite H in Hi.
    apply (dget_In String.eqb String_eqb_spec') in Hi. exact Hi.
  - apply (In_dget String.eqb String_eqb_spec') in Hi; [|exact He]. rewrite <- H in Hi.
    apply (dget_In String.eqb String_eqb_spec') in Hi. exact Hi.
Qed.

Lemma order_irrelevant d c1 c2 : NoDup (map fst d) ->
  (forall o, last_setting c1 o = last_setting c2 o) ->
  cmd_str (cmd_calls d c1) = cmd_str (cmd_calls d c2).
Proof.
  intros Hd H. unfold cmd_str. erewrite sort_str_canonical; [reflexivity| |].
  - apply calls_NoDup. exact Hd.
  - apply same_dict_perm; try (apply calls_NoDup; exact Hd). intro o. rewrite !dget_calls, H. reflexivity.
Qed.

Lemma last_setting_In calls o v : last_setting calls o = Some v -> In (o, v) calls.
Proof.
  induction calls as [|[o' v'] calls IH]; cbn [last_setting]; [discriminate|].
  destruct (last_setting calls o) as [w|].
  - intro H. right. apply IH. exact H.
  - destruct (String.eqb_spec o o'); [|discriminate]. intro H. injection H as <-. subst. left. reflexivity.
Qed.

Lemma builder_argv d init calls : NoDup (map fst d) -> good d -> good calls ->
  (forall o, dget String.eqb d o = last_setting init o) ->
  exists l, cmd_argv (cmd_calls d calls) = Ok (tokens l) /\
    NoDup (map fst l) /\
    (forall o v, In (o, v) l <-> last_setting (init ++ calls) o = Some v).
Proof.
  intros Hd Hg Hc Hi.
  assert (Hn := calls_NoDup calls d Hd).
  assert (Hl : forall o, dget String.eqb (cmd_calls d calls) o = last_setting (init ++ calls) o).
  { intro o. rewrite dget_calls, Hi. clear.
    induction init as [|[o' v] init IH]; cbn [app last_setting].
    - destruct (last_setting calls o); reflexivity.
    - rewrite <- IH. destruct (last_setting calls o); [reflexivity|]. reflexivity. }
  assert (HIn : forall o v, In (o, v) (cmd_calls d calls) <-> last_setting (init ++ calls) o = Some v).
  { intros o v. rewrite <- Hl. split; [apply (In_dget String.eqb String_eqb_spec'); exact Hn|apply (dget_In String.eqb String_eqb_spec')]. }
  exists (sort_str fst (cmd_calls d calls)). split; [|split].
  - apply cmd_argv_good. intros o v Hin. apply (In_dget String.eqb String_eqb_spec') in Hin; [|exact Hn].
    rewrite dget_calls in Hin. destruct (last_setting calls o) eqn:E.
    + injection Hin as <-. apply last_setting_In in E. apply (Hc _ _ E).
    + apply (dget_In String.eqb String_eqb_spec') in Hin. apply (Hg _ _ Hin).
  - eapply Permutation_NoDup; [|exact Hn]. apply Permutation_map. symmetry. apply sort_str_perm.
  - intros o v. rewrite <- HIn. split; apply Permutation_in; [|symmetry]; apply sort_str_perm.
Qed.

(** ** parsing a command line made of pairs *)
Fixpoint flat (ps : list (string * string)) : list string :=
  match ps with [] => [] | (o, v) :: r => o :: v :: flat r end.
Lemma pairs_of_flat ps x : pairs_of (flat ps ++ [x]) = ps.
Proof. induction ps as [|[o v] ps IH]; cbn [flat app pairs_of]; [reflexivity|]. rewrite IH. reflexivity. Qed.
Lemma join_app_last l x : l <> [] -> join " " l +++ " " +++ x = join " " (l ++ [x]).
Proof.
  induction l as [|a l IH]; intro H; [congruence|]. destruct l as [|b l].
  - reflexivity.
  - cbn [app]. change (join " " (a :: b :: l)) with (a +++ " " +++ join " " (b :: l)).
    rewrite !sapp_assoc, IH by discriminate. reflexivity.
Qed.
Lemma split_join p l : p " "%char = true -> l <> [] -> (forall w, In w l -> sexists p w = false) ->
  split_on p (join " " l) = l.
Proof.
  intros Hp. induction l as [|a l IH]; intros H Hw; [congruence|]. destruct l as [|b l].
  - cbn [join]. apply split_on_none. apply Hw. left. reflexivity.
  - change (join " " (a :: b :: l)) with (a +++ String " " (join " " (b :: l))).
    rewrite split_on_app_sep by exact Hp. rewrite IH; [|discriminate|intros w Hi; apply Hw; right; exact Hi].
    rewrite split_on_none by (apply Hw; left; reflexivity). reflexivity.
Qed.
Lemma lstrip_cons p c s : p c = false -> lstrip p (String c s) = String c s.
Proof. intro H. cbn. rewrite H. reflexivity. Qed.
Lemma rstrip_last p s c : p c = false -> rstrip p (s +++ String c "") = s +++ String c "".
Proof.
  intro H. induction s as [|x s IH]; cbn [append rstrip sforall].
  - rewrite H. cbn. reflexivity.
  - rewrite sforall_app. cbn [sforall]. rewrite H. cbn [andb]. rewrite !andb_false_r, IH. reflexivity.
Qed.
Lemma last_char s : s <> "" -> exists t c, s = t +++ String c "".
Proof.
  induction s as [|x s IH]; intro H; [congruence|]. destruct s as [|y s].
  - exists "", x. reflexivity.
  - destruct IH as [t [c E]]; [discriminate|]. exists (String x t), c. cbn. rewrite <- E. reflexivity.
Qed.
Lemma word_chars w c t u : word w -> w = t +++ String c u -> is_space c = false.
Proof.
  intros [_ H] ->. rewrite sforall_app in H. cbn [sforall] in H. apply andb_true_iff in H as [_ H].
  apply andb_true_iff in H as [H _]. unfold word_char in H. apply andb_true_iff in H as [H _].
  apply negb_true_iff. exact H.
Qed.
Lemma join_ends l : l <> [] -> (forall w, In w l -> word w) ->
  (exists c s, join " " l = String c s /\ is_space c = false) /\
  (exists s c, join " " l = s +++ String c "" /\ is_space c = false).
Proof.
  induction l as [|a l IH]; intros H Hw; [congruence|].
  assert (Ha : word a) by (apply Hw; left; reflexivity).
  destruct a as [|ca sa]; [destruct Ha; congruence|].
  assert (Hca : is_space ca = false) by (apply (word_chars (String ca sa) ca "" sa Ha); reflexivity).
  destruct l as [|b l].
  - split; [exists ca, sa; auto|]. cbn [join].
    destruct (last_char (String ca sa)) as [t [c E]]; [discriminate|]. exists t, c. split; [exact E|].
    apply (word_chars (String ca sa) c t "" Ha E).
  - destruct (IH ltac:(discriminate) (fun w Hi => Hw w (or_intror Hi))) as [_ [s [c [E Hc]]]].
    change (join " " (String ca sa :: b :: l)) with (String ca sa +++ " " +++ join " " (b :: l)).
    split.
    + eexists _, _. split; [reflexivity|exact Hca].
    + rewrite E. exists (String ca sa +++ " " +++ s), c. rewrite !sapp_assoc. auto.
Qed.
Lemma strip_join l : l <> [] -> (forall w, In w l -> word w) -> strip_ws (join " " l) = join " " l.
Proof.
  intros H Hw. destruct (join_ends l H Hw) as [[c [s [E Hc]]] [s' [c' [E' Hc']]]].
  unfold strip_ws, strip. rewrite E, lstrip_cons by exact Hc. rewrite <- E, E'. apply rstrip_last. exact Hc'.
Qed.
Lemma flat_In ps w : In w (flat ps) -> exists o v, In (o, v) ps /\ (w = o \/ w = v).
Proof.
  induction ps as [|[o v] ps IH]; cbn [flat]; [intros []|]. intros [<-|[<-|H]].
  - exists o, v. split; [left; reflexivity|auto].
  - exists o, v. split; [left; reflexivity|auto].
  - destruct (IH H) as [o' [v' [Hi He]]]. exists o', v'. split; [right; exact Hi|exact He].
Qed.

Definition is_eq (c : ascii) : bool := Ascii.eqb c "=".
Definition pair_ok (ov : string * string) : Prop :=
  word (fst ov) /\ word (snd ov) /\ sexists is_eq (fst ov) = false /\ sexists is_eq (snd ov) = false.

Lemma last_setting_app a b o : last_setting (a ++ b) o =
  match last_setting b o with Some v => Some v | None => last_setting a o end.
Proof.
  induction a as [|[o' v'] a IH]; cbn [app last_setting].
  - destruct (last_setting b o); reflexivity.
  - rewrite IH. destruct (last_setting b o); reflexivity.
Qed.
Lemma dget_dict_of_last ps o : dget String.eqb (dict_of String.eqb ps) o = last_setting ps o.
Proof.
  unfold dict_of, dupdate. change (fold_left _ ps []) with (cmd_calls [] ps).
  rewrite dget_calls. destruct (last_setting ps o); reflexivity.
Qed.

Lemma command_line_pairs ps : ps <> [] -> Forall pair_ok ps ->
  exists d, cmd_init (Some ("pyg2p " +++ join " " (flat ps))) [] = Ok d /\
    NoDup (map fst d) /\ good d /\
    forall o, dget String.eqb d o = last_setting (("-l", "ERROR") :: ps) o.
Proof.
  intros Hne Hok. rewrite Forall_forall in Hok.
  assert (Hw : forall w, In w (flat ps) -> word w).
  { intros w Hi. destruct (flat_In _ _ Hi) as [o [v [Hi' [->| ->]]]]; destruct (Hok _ Hi') as [H1 [H2 _]]; assumption. }
  assert (Hfne : flat ps <> []) by (destruct ps as [|[o v] ps]; [congruence|discriminate]).
  assert (Htext : cmd_text ("pyg2p " +++ join " " (flat ps)) [] = join " " (flat ps)).
  { unfold cmd_text. cbn [fold_left].
    assert (E : lstrip (fun c => ch_in c "pyg2p") ("pyg2p " +++ join " " (flat ps)) = " " +++ join " " (flat ps)) by reflexivity.
    rewrite E. exact (strip_join _ Hfne Hw). }
  unfold cmd_init. rewrite Htext.
  assert (Hjne : String.eqb (join " " (flat ps)) "" = false).
  { apply String.eqb_neq. destruct (join_ends _ Hfne Hw) as [[c [s [-> _]]] _]. discriminate. }
  rewrite Hjne.
  assert (Hd : to_argdict (join " " (flat ps) +++ " -A") = dict_of String.eqb ps).
  { unfold to_argdict. change " -A" with (" " +++ "-A"). rewrite join_app_last by exact Hfne.
    assert (HwA : forall w, In w (flat ps ++ ["-A"]) -> word w).
    { intros w Hi. apply in_app_or in Hi as [Hi|[<-|[]]]; [apply Hw; exact Hi|split; [discriminate|reflexivity]]. }
    assert (HneA : (flat ps ++ ["-A"])%list <> []) by (destruct (flat ps); discriminate).
    rewrite strip_join by assumption. rewrite split_join; [rewrite pairs_of_flat; reflexivity|reflexivity|exact HneA|].
    intros w Hi. apply in_app_or in Hi as [Hi|[<-|[]]]; [|reflexivity].
    destruct (flat_In _ _ Hi) as [o [v [Hi' Hov]]]. destruct (Hok _ Hi') as [H1 [H2 [H3 H4]]]. cbn [fst snd] in *.
    assert (Hb : forall x, word x -> sexists is_eq x = false -> sexists (fun c => (Ascii.eqb c " " || Ascii.eqb c "=")%bool) x = false).
    { intros x Hx He. apply word_no_blank in Hx. revert Hx He. clear. induction x as [|c x IH]; [reflexivity|].
      cbn [sexists]. rewrite !orb_false_iff. unfold blank, is_eq. tauto. }
    destruct Hov as [->| ->]; apply Hb; assumption. }
  rewrite Hd.
  assert (Hn : NoDup (map fst (dict_of String.eqb ps))).
  { apply (NoDup_dupdate String.eqb String_eqb_spec'). constructor. }
  assert (Hgood : good (dict_of String.eqb ps)).
  { intros o v Hi. apply (In_dget String.eqb String_eqb_spec') in Hi; [|exact Hn].
    rewrite dget_dict_of_last in Hi. apply last_setting_In in Hi. destruct (Hok _ Hi) as [H1 [H2 _]]. auto. }
  unfold dmem. rewrite dget_dict_of_last. destruct (last_setting ps "-l") as [lv|] eqn:El.
  - exists (dict_of String.eqb ps). split; [reflexivity|]. split; [exact Hn|]. split; [exact Hgood|].
    intro o. rewrite dget_dict_of_last. cbn [last_setting]. destruct (last_setting ps o) eqn:Eo; [reflexivity|].
    destruct (String.eqb_spec o "-l"); [congruence|reflexivity].
  - eexists. split; [reflexivity|]. split; [apply (NoDup_dset String.eqb String_eqb_spec'); exact Hn|]. split.
    + intros o v Hi. unfold cmd_with in Hi. apply (In_dget String.eqb String_eqb_spec') in Hi;
        [|apply (NoDup_dset String.eqb String_eqb_spec'); exact Hn].
      rewrite (dget_dset String.eqb String_eqb_spec') in Hi. destruct (String.eqb_spec o "-l") as [->|].
      * injection Hi as <-. split; [split; [discriminate|reflexivity]|right; split; [discriminate|reflexivity]].
      * apply (dget_In String.eqb String_eqb_spec') in Hi. apply Hgood. exact Hi.
    + intro o. unfold cmd_with. rewrite (dget_dset String.eqb String_eqb_spec'), dget_dict_of_last. cbn [last_setting].
      destruct (String.eqb_spec o "-l") as [->|]; [rewrite El; reflexivity|]. destruct (last_setting ps o); reflexivity.
Qed.

Lemma command_line_argv ps calls : ps <> [] -> Forall pair_ok ps ->
  (forall o v, In (o, v) calls -> word o /\ (v = "" \/ word v)) ->
  exists d l, cmd_init (Some ("pyg2p " +++ join " " (flat ps))) [] = Ok d /\
    cmd_argv (cmd_calls d calls) = Ok (tokens l) /\ NoDup (map fst l) /\
    (forall o v, In (o, v) l <-> last_setting (("-l", "ERROR") :: ps ++ calls) o = Some v).
Proof.
  intros H1 H2 H3. destruct (command_line_pairs ps H1 H2) as [d [Hd [Hn [Hg Hl]]]].
  destruct (builder_argv d (("-l", "ERROR") :: ps) calls Hn Hg H3 Hl) as [l Hx]. exists d, l. split; [exact Hd|exact Hx].
Qed.

(** ** normalize_filename *)
Lemma drop_dates_forall p k s : sforall p s = true -> sforall p (drop_dates k s) = true.
Proof.
  revert k. induction s as [|c s IH]; intros k H; [reflexivity|]. cbn [sforall] in H. apply andb_true_iff in H as [H1 H2].
  destruct k as [|k]; cbn [drop_dates]; [|apply IH; exact H2].
  destruct (Nat.leb 8 _); [apply IH; exact H2|]. cbn [sforall]. rewrite H1. apply IH. exact H2.
Qed.
Lemma lower_not_upper s : sforall (fun c => negb (is_upper c)) (lower s) = true.
Proof.
  apply sforall_smap. intro c.
  destruct c as [b0 b1 b2 b3 b4 b5 b6 b7]. destruct b0, b1, b2, b3, b4, b5, b6, b7; reflexivity.
Qed.
Definition clean_ch (c : ascii) : bool :=
  (negb (is_upper c) && negb (Ascii.eqb "." c) && negb (Ascii.eqb "-" c) && negb (Ascii.eqb "_" c))%bool.
Lemma sforall_and p q s : sforall p s = true -> sforall q s = true -> sforall (fun c => p c && q c)%bool s = true.
Proof. induction s as [|c s IH]; cbn; [auto|]. rewrite !andb_true_iff. tauto. Qed.

(** what is left of a name: at most 10 clean characters, unless fewer than 3 characters remain *)
Lemma normalize_cases name : (exists s, normalize_filename name = stake 10 s /\ (3 <= String.length s)%nat /\ sforall clean_ch s = true)
  \/ normalize_filename name = smap (fun a => if Ascii.eqb "." a then "_"%char else a) name.
Proof.
  unfold normalize_filename. set (n1 := if String.eqb _ "" then _ else _).
  rewrite replace_char_del, replace_char_del, replace_char_del, replace_char_char.
  set (n2 := sfilter _ (sfilter _ (sfilter _ n1))).
  destruct (Nat.ltb_spec (String.length n2) 3) as [H|H]; [right; reflexivity|left].
  exists n2. split; [reflexivity|]. split; [lia|].
  assert (Hu : sforall (fun c => negb (is_upper c)) n1 = true).
  { unfold n1. destruct (String.eqb _ ""); [apply lower_not_upper|apply drop_dates_forall, lower_not_upper]. }
  unfold clean_ch. apply sforall_and; [apply sforall_and; [apply sforall_and|]|]; unfold n2.
  - repeat apply sforall_filter. exact Hu.
  - apply sforall_sfilter.
  - apply sforall_filter, sforall_filter, sforall_sfilter.
  - apply sforall_filter, sforall_sfilter.
Qed.

(** * Properties C61 and C62: commands given over several lines, dates in file
    names. Vocabulary: Props_Strings2.v. *)
From Verif Require Import Base PyStr Strings Spec_Strings Base_P PyStr_P Strings_P Props_Strings2.
Local Open Scope string_scope.

(** the ends of lines: a line feed, alone or after a carriage return *)
Definition line_feed : string := String "010" "".
Definition line_end (e : string) : Prop := e = line_feed \/ e = String "013" line_feed.
Definition no_carriage_return (s : string) : Prop := sexists (Ascii.eqb "013") s = false.

(** ** only the first line of a command is read: what follows the end of a line
    outside quotes is ignored *)
Lemma csv_error_nocr s : no_carriage_return s -> forall st, csv_error st false s = false.
Proof.
  unfold no_carriage_return. induction s as [|c s IH]; intros H st; [reflexivity|]. cbn [sexists] in H. apply Bool.orb_false_iff in H as [Hc H].
  assert (N : Nat.eqb (code c) 13 = false).
  { revert Hc. clear. destruct c as [b0 b1 b2 b3 b4 b5 b6 b7]; destruct b0, b1, b2, b3, b4, b5, b6, b7; vm_compute; congruence. }
  destruct st; cbn [csv_error]; rewrite ?N; repeat destruct (Nat.eqb _ _); repeat destruct (Ascii.eqb _ _); apply (IH H).
Qed.
Theorem C61_first_line : forall l e rest, l <> [] -> Forall (fun t => t <> "") l -> line_end e -> no_carriage_return rest ->
  to_argv (join " " (map quoted l) +++ (e +++ rest)) = Ok l.
Proof.
  intros l e rest0 Hne Hl He Hr. pose proof (csv_error_nocr _ Hr) as Hr'.
  assert (H : exists c rest, e +++ rest0 = String c rest /\ (c = "010"%char \/ c = "013"%char) /\ csv_error QuoteInQuoted false (String c rest) = false).
  { destruct He as [-> | ->]; eexists; eexists; (split; [reflexivity|]); (split; [now (left + right)|]); cbn [line_feed String.append]; apply (Hr' StartRecord). }
  destruct H as (c & rest & -> & Hc & Hq). clear e He rest0 Hr Hr'.
  assert (G : forall l, l <> [] -> forall st, st = StartRecord \/ st = StartField -> csv_go st "" (join " " (map quoted l) +++ String c rest) = l).
  { clear - Hc. induction l as [|t l IH]; intros Hne st Hst; [easy|].
    assert (E : forall r, csv_go st "" (String """" r) = csv_go InQuoted "" r) by (intro r; destruct Hst as [-> | ->]; reflexivity).
    destruct l as [|u l].
    - cbn [map join]. unfold quoted. cbn [String.append]. rewrite E, sapp_assoc. cbn [String.append]. rewrite csv_quoted. cbn [String.append].
      destruct Hc as [-> | ->]; reflexivity.
    - assert (Ej : join " " (map quoted (t :: u :: l)) = quoted t +++ String " " (join " " (map quoted (u :: l)))) by reflexivity.
      rewrite Ej. unfold quoted at 1. cbn [String.append]. rewrite !sapp_assoc. cbn [String.append]. rewrite E, csv_quoted. cbn [String.append].
      assert (E2 : forall cur r, csv_go QuoteInQuoted cur (String " " r) = cur :: csv_go StartField "" r) by reflexivity.
      rewrite E2. f_equal. apply IH; [easy|now right]. }
  unfold to_argv. destruct (String.eqb_spec (join " " (map quoted l) +++ String c rest) "") as [E|_].
  { exfalso. destruct (join " " (map quoted l)); discriminate E. }
  rewrite (csv_error_list l Hne StartRecord _ (or_introl eq_refl)), Hq.
  rewrite (G l Hne StartRecord (or_introl eq_refl)). f_equal.
  clear G Hne. induction Hl as [|t l Ht _ IH]; [reflexivity|]. cbn [filter]. unfold nonempty at 1.
  destruct (String.eqb_spec t "") as [E|_]; [easy|]. cbn [negb]. now rewrite IH.
Qed.
Print Assumptions C61_first_line.
Example C61_first_line_nonvacuous : line_end (String "013" line_feed) /\ no_carriage_return "-s 0" /\
  to_argv (join " " (map quoted ["-c"; "t2.json"]) +++ (String "013" line_feed +++ "-s 0")) = Ok ["-c"; "t2.json"].
Proof. split; [now right|]. split; reflexivity. Qed.

(** a carriage return inside a line, in the first or in a later one: refused *)
Theorem C61_carriage_return : forall l c rest, l <> [] -> c <> "010"%char -> c <> "013"%char ->
  (exists e, to_argv (join " " (map quoted l) +++ String "013" (String c rest)) = Raise e) /\
  (forall m, m <> [] -> exists e, to_argv (join " " (map quoted m) +++ (line_feed +++ (join " " (map quoted l) +++ String "013" (String c rest)))) = Raise e).
Proof.
  intros l c rest Hne N1 N2.
  assert (B : forall st, st = StartRecord \/ st = StartField -> csv_error st false (join " " (map quoted l) +++ String "013" (String c rest)) = true).
  { intros st Hst. rewrite (csv_error_list l Hne st _ Hst).
    revert N1 N2. clear. destruct c as [b0 b1 b2 b3 b4 b5 b6 b7]; destruct b0, b1, b2, b3, b4, b5, b6, b7; intros A B; first [reflexivity | now elim A | now elim B]. }
  assert (T : forall s, csv_error StartRecord false s = true -> exists e, to_argv s = Raise e).
  { intros s H. unfold to_argv. destruct (String.eqb s ""); [now eexists|]. rewrite H. now eexists. }
  split.
  - apply T, B. now left.
  - intros m Hm. apply T. rewrite (csv_error_list m Hm StartRecord _ (or_introl eq_refl)). cbn [line_feed String.append].
    assert (E : forall x, csv_error QuoteInQuoted false (String "010" x) = csv_error StartRecord false x) by reflexivity.
    rewrite E. apply B. now left.
Qed.
Print Assumptions C61_carriage_return.

(** ** C62: dates in file names *)
Definition only_digits (s : string) : Prop := sforall is_digit s = true.

Lemma digit_run_app t q : sforall is_digit t = true -> sexists is_digit q = false -> digit_run (t +++ q) = String.length t.
Proof.
  intros Ht Hq. induction t as [|c t IH]; [now apply digit_run_none|]. cbn [sforall] in Ht. apply andb_prop in Ht as [H1 H2].
  cbn [String.append digit_run String.length]. rewrite H1. now rewrite IH.
Qed.
Lemma drop_skip t q : drop_dates (String.length t) (t +++ q) = drop_dates O q.
Proof. induction t as [|c t IH]; [reflexivity|exact IH]. Qed.
Lemma drop_date p t q : sexists is_digit p = false -> sforall is_digit t = true -> sexists is_digit q = false -> (8 <= String.length t <= 10)%nat ->
  drop_dates O (p +++ t +++ q) = p +++ q.
Proof.
  intros Hp Ht Hq Hl. induction p as [|c p IH].
  - cbn [String.append]. pose proof (digit_run_app _ _ Ht Hq) as R. destruct t as [|c t]; [cbn in Hl; lia|].
    cbn [String.append] in *. cbn [drop_dates]. rewrite R. replace (8 <=? _)%nat with true by (symmetry; apply Nat.leb_le; lia).
    replace (Nat.min 10 _ - 1)%nat with (String.length t) by (cbn [String.length] in *; lia). rewrite drop_skip. now apply drop_dates_none.
  - cbn [sexists] in Hp. apply Bool.orb_false_iff in Hp as [H1 H2]. cbn [String.append drop_dates digit_run]. rewrite H1. cbn [Nat.leb].
    now rewrite (IH H2).
Qed.
Lemma lower_app a b : lower (a +++ b) = lower a +++ lower b.
Proof. unfold lower. induction a as [|c a IH]; [reflexivity|]. cbn [String.append smap]. now rewrite IH. Qed.
Lemma lower_only t : sforall is_digit t = true -> sforall is_digit (lower t) = true /\ String.length (lower t) = String.length t.
Proof.
  unfold lower. induction t as [|c t IH]; [auto|]. cbn [sforall smap String.length]. intro H. apply andb_prop in H as [H1 H2].
  destruct (IH H2) as [A B]. rewrite A, B, Bool.andb_true_r. split; [|reflexivity].
  revert H1. destruct c as [b0 b1 b2 b3 b4 b5 b6 b7]; destruct b0, b1, b2, b3, b4, b5, b6, b7; vm_compute; congruence.
Qed.

(** a date of 8 to 10 digits (yyyymmdd, yyyymmddhh) in the path does not count *)
Theorem C62_date : forall d b1 date b2 e, directory d -> sexists (Ascii.eqb "/") (b1 +++ date +++ b2) = false ->
  sexists (fun c => negb (Ascii.eqb c ".")) (b1 +++ date +++ b2) = true -> sexists (Ascii.eqb "/") e = false -> sexists (Ascii.eqb ".") e = false ->
  sexists is_digit (d +++ b1) = false -> only_digits date -> (8 <= String.length date <= 10)%nat -> sexists is_digit b2 = false ->
  (3 <= String.length (key_of (d +++ b1 +++ b2)))%nat ->
  normalize_filename (d +++ (b1 +++ date +++ b2) +++ "." +++ e) = stake 10 (key_of (d +++ b1 +++ b2)).
Proof.
  intros d b1 date b2 e Hd Hb Hb' He He' H1 H2 Hl H3 Hk. unfold normalize_filename. rewrite (without_ext_drop d _ e Hd Hb Hb' He He'). cbv zeta.
  destruct (lower_only date H2) as [L1 L2].
  assert (D : drop_dates O (lower (d +++ b1 +++ date +++ b2)) = lower (d +++ b1 +++ b2)).
  { rewrite <- !sapp_assoc, !lower_app, !sapp_assoc, <- sapp_assoc, <- lower_app. rewrite drop_date; [now rewrite lower_app, sapp_assoc| | | |].
    - now rewrite lower_digits. - exact L1. - now rewrite lower_digits. - now rewrite L2. }
  rewrite D. set (w := d +++ b1 +++ b2) in *.
  assert (Nz : String.eqb (lower w) "" = false).
  { destruct (String.eqb_spec (lower w) "") as [E|E]; [|reflexivity]. unfold key_of in Hk. rewrite E in Hk. cbn in Hk. lia. }
  rewrite Nz. rewrite !replace_char_del, !sfilter_sfilter.
  replace (sfilter _ (lower w)) with (key_of w); [|unfold key_of; apply sfilter_ext; intro c; rewrite !(Ascii.eqb_sym c);
    destruct (Ascii.eqb "-" c), (Ascii.eqb "_" c), (Ascii.eqb "." c); reflexivity].
  replace (String.length (key_of w) <? 3)%nat with false by (symmetry; apply Nat.ltb_ge; exact Hk). reflexivity.
Qed.
Print Assumptions C62_date.
Example C62_date_nonvacuous : only_digits "2012040312" /\ sexists is_digit (".b" +++ "/EFAS_") = false /\
  normalize_filename ("b/" +++ ("EFAS_" +++ "2012040312" +++ "_fc") +++ "." +++ "grb") = "b/efasfc" /\ key_of "b/EFAS__fc" = "b/efasfc".
Proof. repeat split. Qed.

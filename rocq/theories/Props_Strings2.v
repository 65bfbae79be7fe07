(** * Props_Strings2: quoted arguments (C61) and names of maps (C62).
    Vocabulary: Spec_Strings.v. *)
From Verif Require Import Base PyStr Strings Spec_Strings Base_P PyStr_P Strings_P.
Local Open Scope string_scope.

(** ** C61: quoting *)
(** the text between double quotes, its double quotes doubled *)
Fixpoint doubled (s : string) : string :=
  match s with
  | EmptyString => EmptyString
  | String c s' => if Ascii.eqb c """" then String c (String c (doubled s')) else String c (doubled s')
  end.
Definition quoted (s : string) : string := String """" (doubled s +++ String """" "").

Lemma csv_quoted s : forall cur r, csv_go InQuoted cur (doubled s +++ String """" r) = csv_go QuoteInQuoted (cur +++ s) r.
Proof.
  induction s as [|c s IH]; intros cur r.
  - cbn [doubled String.append csv_go]. unfold DQ. rewrite Ascii.eqb_refl. now rewrite sapp_nil_r.
  - cbn [doubled]. destruct (Ascii.eqb c """") eqn:E.
    + apply Ascii.eqb_eq in E. subst c. cbn [String.append csv_go]. unfold DQ in *. rewrite !Ascii.eqb_refl. rewrite IH.
      now rewrite sapp_assoc.
    + cbn [String.append csv_go]. unfold DQ in *. rewrite E. rewrite IH. now rewrite sapp_assoc.
Qed.
Lemma csv_error_quoted s r : csv_error InQuoted false (doubled s +++ String """" r) = csv_error QuoteInQuoted false r.
Proof.
  induction s as [|c s IH]; [reflexivity|]. cbn [doubled]. destruct (Ascii.eqb c """") eqn:E.
  - apply Ascii.eqb_eq in E. subst c. exact IH.
  - cbn [String.append csv_error]. unfold DQ. rewrite E. exact IH.
Qed.
Lemma csv_error_list l : l <> [] -> forall st r, st = StartRecord \/ st = StartField ->
  csv_error st false (join " " (map quoted l) +++ r) = csv_error QuoteInQuoted false r.
Proof.
  induction l as [|t l IH]; intros Hne st r Hst; [easy|].
  assert (E : forall x, csv_error st false (String """" x) = csv_error InQuoted false x) by (intro x; destruct Hst as [-> | ->]; reflexivity).
  destruct l as [|u l].
  - cbn [map join]. unfold quoted. cbn [String.append]. rewrite E, sapp_assoc. cbn [String.append]. apply csv_error_quoted.
  - assert (Ej : join " " (map quoted (t :: u :: l)) = quoted t +++ String " " (join " " (map quoted (u :: l)))) by reflexivity.
    rewrite Ej. unfold quoted at 1. cbn [String.append]. rewrite !sapp_assoc. cbn [String.append]. rewrite E, csv_error_quoted.
    assert (E2 : forall x, csv_error QuoteInQuoted false (String " " x) = csv_error StartField false x) by reflexivity.
    rewrite E2. apply IH; [easy|now right].
Qed.
(** a command line of quoted tokens is split into exactly these tokens, whatever
    blanks, quotes or other characters they contain *)
Theorem C61_quoted : forall l, l <> [] -> Forall (fun t => t <> "") l -> to_argv (join " " (map quoted l)) = Ok l.
Proof.
  intros l Hne Hl.
  assert (G : forall l, l <> [] -> forall st, st = StartRecord \/ st = StartField -> csv_go st "" (join " " (map quoted l)) = l).
  { clear. induction l as [|t l IH]; intros Hne st Hst; [easy|]. destruct l as [|u l].
    - cbn [map join]. unfold quoted.
      assert (E : csv_go st "" (String """" (doubled t +++ String """" "")) = csv_go InQuoted "" (doubled t +++ String """" ""))
        by (destruct Hst as [-> | ->]; reflexivity).
      rewrite E, csv_quoted. reflexivity.
    - assert (Ej : join " " (map quoted (t :: u :: l)) = quoted t +++ String " " (join " " (map quoted (u :: l)))) by reflexivity.
      rewrite Ej. unfold quoted at 1. cbn [String.append]. rewrite sapp_assoc. cbn [String.append].
      assert (E : forall r, csv_go st "" (String """" r) = csv_go InQuoted "" r) by (intro r; destruct Hst as [-> | ->]; reflexivity).
      rewrite E, csv_quoted. cbn [String.append].
      assert (E2 : forall cur r, csv_go QuoteInQuoted cur (String " " r) = cur :: csv_go StartField "" r) by reflexivity.
      rewrite E2. f_equal. apply IH; [easy|now right]. }
  unfold to_argv. destruct (String.eqb_spec (join " " (map quoted l)) "") as [E|_].
  { exfalso. destruct l as [|t [|u l]]; [now apply Hne|discriminate E|discriminate E]. }
  rewrite <- (sapp_nil_r (join " " (map quoted l))) at 1. rewrite (csv_error_list l Hne StartRecord "" (or_introl eq_refl)). cbn [csv_error].
  rewrite (G l Hne StartRecord (or_introl eq_refl)). f_equal.
  clear G Hne. induction Hl as [|t l Ht _ IH]; [reflexivity|]. cbn [filter]. unfold nonempty at 1.
  destruct (String.eqb_spec t "") as [E|_]; [easy|]. cbn [negb]. now rewrite IH.
Qed.
Print Assumptions C61_quoted.
Example C61_quoted_nonvacuous : to_argv (join " " (map quoted ["-c"; "my file.json"; "a""b"])) = Ok ["-c"; "my file.json"; "a""b"].
Proof. reflexivity. Qed.

(** ** C62: which part of a file name is used *)
(** what is left of a path: its characters in lower case without dots, dashes and underscores *)
Definition key_of (p : string) : string :=
  sfilter (fun c => negb (Ascii.eqb c "." || Ascii.eqb c "-" || Ascii.eqb c "_"))%bool (lower p).
(** directory part of a path *)
Definition directory (d : string) : Prop := d = "" \/ exists d', d = d' +++ "/".

Lemma rfind_go_none p s : sexists p s = false -> forall i, rfind_go p s i = None.
Proof.
  induction s as [|c s IH]; intros H i; [reflexivity|]. cbn [sexists] in H. apply Bool.orb_false_iff in H as [H1 H2].
  cbn [rfind_go]. rewrite (IH H2). now rewrite H1.
Qed.
Lemma rfind_go_last p a c b : p c = true -> sexists p b = false -> forall i, rfind_go p (a +++ String c b) i = Some (i + String.length a)%nat.
Proof.
  intros Hc Hb. induction a as [|x a IH]; intro i.
  - cbn [String.append rfind_go String.length]. rewrite (rfind_go_none p b Hb), Hc. f_equal. lia.
  - cbn [String.append rfind_go String.length]. rewrite IH. f_equal. lia.
Qed.
Lemma sexists_sym c s : sexists (fun x => Ascii.eqb x c) s = sexists (Ascii.eqb c) s.
Proof. induction s as [|x s IH]; [reflexivity|]. cbn [sexists]. now rewrite IH, Ascii.eqb_sym. Qed.

Lemma dir_start d b : directory d -> sexists (Ascii.eqb "/") b = false ->
  match rfind "/" (d +++ b) with Some i => S i | None => O end = String.length d.
Proof.
  intros [-> | [d' ->]] Hb.
  - cbn [String.append]. unfold rfind. now rewrite rfind_go_none.
  - rewrite sapp_assoc. cbn [String.append]. unfold rfind. rewrite rfind_go_last by (try reflexivity; exact Hb).
    rewrite slen_app. cbn [String.length]. lia.
Qed.

(** the extension is dropped; dots of directories do not matter *)
Lemma without_ext_drop d b e : directory d -> sexists (Ascii.eqb "/") b = false -> sexists (fun c => negb (Ascii.eqb c ".")) b = true ->
  sexists (Ascii.eqb "/") e = false -> sexists (Ascii.eqb ".") e = false ->
  without_ext (d +++ b +++ "." +++ e) = d +++ b.
Proof.
  intros Hd Hb Hb2 He He2. unfold without_ext.
  rewrite dir_start; [|exact Hd|].
  2:{ rewrite !sexists_app, Hb, He. reflexivity. }
  assert (E : d +++ b +++ "." +++ e = (d +++ b) +++ String "." e) by now rewrite sapp_assoc.
  rewrite E. unfold rfind. rewrite rfind_go_last by (try reflexivity; exact He2). cbn [Nat.add].
  replace (String.length d <=? String.length (d +++ b))%nat with true
    by (symmetry; apply Nat.leb_le; rewrite slen_app; lia).
  rewrite stake_app, sdrop_app, Hb2. reflexivity.
Qed.
Lemma without_ext_keep d b : directory d -> sexists (Ascii.eqb "/") b = false -> sexists (Ascii.eqb ".") b = false ->
  without_ext (d +++ b) = d +++ b.
Proof.
  intros Hd Hb Hb2. unfold without_ext. rewrite (dir_start d b Hd Hb).
  destruct (rfind "." (d +++ b)) as [i|] eqn:E; [|reflexivity].
  assert (Hi : (i < String.length d)%nat).
  { revert E. unfold rfind. assert (G : forall a k, rfind_go (Ascii.eqb ".") (a +++ b) k = Some i -> (i < k + String.length a)%nat).
    { induction a as [|x a IH]; intros k H.
      - cbn [String.append] in H. rewrite (rfind_go_none _ _ Hb2) in H. discriminate.
      - cbn [String.append rfind_go] in H. destruct (rfind_go (Ascii.eqb ".") (a +++ b) (S k)) as [j|] eqn:Ej.
        + specialize (IH (S k)). rewrite Ej in IH. specialize (IH H). cbn [String.length]. lia.
        + destruct (Ascii.eqb "." x); [|discriminate]. injection H as <-. cbn [String.length]. lia. }
    intro H. apply G in H. exact H. }
  replace (String.length d <=? i)%nat with false by (symmetry; apply Nat.leb_gt; exact Hi). reflexivity.
Qed.

Lemma digit_run_none s : sexists is_digit s = false -> digit_run s = O.
Proof. destruct s as [|c s]; intro H; [reflexivity|]. cbn [sexists] in H. apply Bool.orb_false_iff in H as [H _]. cbn [digit_run]. now rewrite H. Qed.
Lemma drop_dates_none s : sexists is_digit s = false -> drop_dates O s = s.
Proof.
  induction s as [|c s IH]; intro H; [reflexivity|]. pose proof (digit_run_none _ H) as Hd. cbn [sexists] in H. apply Bool.orb_false_iff in H as [_ H2].
  cbn [drop_dates]. rewrite Hd. cbn [Nat.leb]. now rewrite (IH H2).
Qed.
Lemma lower_digits s : sexists is_digit (lower s) = sexists is_digit s.
Proof.
  unfold lower. induction s as [|c s IH]; [reflexivity|]. cbn [smap sexists]. rewrite IH. f_equal.
  destruct c as [b0 b1 b2 b3 b4 b5 b6 b7]; destruct b0, b1, b2, b3, b4, b5, b6, b7; vm_compute; reflexivity.
Qed.
Lemma sfilter_sfilter p q s : sfilter p (sfilter q s) = sfilter (fun c => q c && p c)%bool s.
Proof. induction s as [|c s IH]; [reflexivity|]. cbn [sfilter]. destruct (q c); cbn [andb sfilter]; now rewrite IH. Qed.
Lemma sfilter_ext p q s : (forall c, p c = q c) -> sfilter p s = sfilter q s.
Proof. intro H. induction s as [|c s IH]; [reflexivity|]. cbn [sfilter]. now rewrite H, IH. Qed.

Lemma normalize_plain name p : without_ext name = p -> sexists is_digit p = false -> (3 <= String.length (key_of p))%nat ->
  normalize_filename name = stake 10 (key_of p).
Proof.
  intros Hp Hd Hl. unfold normalize_filename. rewrite Hp. cbv zeta.
  rewrite (drop_dates_none (lower p)) by now rewrite lower_digits.
  assert (E : (if String.eqb (lower p) "" then lower p else lower p) = lower p) by now destruct (String.eqb _ _).
  rewrite E. rewrite !replace_char_del, !sfilter_sfilter.
  assert (Ek : sfilter (fun c => (negb (Ascii.eqb "-" c) && negb (Ascii.eqb "_" c)) && negb (Ascii.eqb "." c))%bool (lower p) = key_of p).
  { unfold key_of. apply sfilter_ext. intro c. rewrite !(Ascii.eqb_sym c).
    destruct (Ascii.eqb "-" c), (Ascii.eqb "_" c), (Ascii.eqb "." c); reflexivity. }
  replace (sfilter _ (lower p)) with (key_of p); [|rewrite <- Ek; apply sfilter_ext; intro c;
    destruct (Ascii.eqb "-" c), (Ascii.eqb "_" c), (Ascii.eqb "." c); reflexivity].
  replace (String.length (key_of p) <? 3)%nat with false by (symmetry; apply Nat.ltb_ge; exact Hl). reflexivity.
Qed.
(** path d/b.e without digits: the first ten characters of the path without its
    extension, lower case, without dots, dashes and underscores *)
Theorem C62_extension : forall d b e, directory d -> sexists (Ascii.eqb "/") b = false -> sexists (fun c => negb (Ascii.eqb c ".")) b = true ->
  sexists (Ascii.eqb "/") e = false -> sexists (Ascii.eqb ".") e = false -> sexists is_digit (d +++ b) = false ->
  (3 <= String.length (key_of (d +++ b)))%nat ->
  normalize_filename (d +++ b +++ "." +++ e) = stake 10 (key_of (d +++ b)).
Proof. intros d b e H1 H2 H3 H4 H5 H6 H7. apply normalize_plain; [now apply without_ext_drop|exact H6|exact H7]. Qed.
Print Assumptions C62_extension.
(** path d/b without extension, even if the directory has dots *)
Theorem C62_no_extension : forall d b, directory d -> sexists (Ascii.eqb "/") b = false -> sexists (Ascii.eqb ".") b = false ->
  sexists is_digit (d +++ b) = false -> (3 <= String.length (key_of (d +++ b)))%nat ->
  normalize_filename (d +++ b) = stake 10 (key_of (d +++ b)).
Proof. intros d b H1 H2 H3 H4 H5. apply normalize_plain; [now apply without_ext_keep|exact H4|exact H5]. Qed.
Print Assumptions C62_no_extension.
(** full statement of uniqueness: different input files get different names *)
Definition C62_distinct_full : Prop := forall a b, normalize_filename a = normalize_filename b -> a = b.
(** input files with the same beginning collide (the name is part of the id of the interpolation table) *)
Theorem C62_collision_refuted : ~ C62_distinct_full.
Proof. intro H. specialize (H "ecmwf_europe_lat.grb" "ecmwf_europe_lon.grb" eq_refl). discriminate H. Qed.
Print Assumptions C62_collision_refuted.
Example C62_extension_nonvacuous : directory "maps.d/" /\ normalize_filename "maps.d/Lat_X.map" = "mapsd/latx" /\
  normalize_filename "a.b/lat-map" = "ab/latmap".
Proof. split; [right; now exists "maps.d"|]. split; reflexivity. Qed.

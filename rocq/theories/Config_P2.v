(** * Config_P2: variables in paths, geopotential registry. *)
From Verif Require Import Base PyStr Writers Config Spec_Config Base_P PyStr_P Writers_P Config_P.
From Coq Require Import Permutation.
Local Open Scope string_scope.

(** ** C66 *)
Lemma nb_head c s : no_braces (String c s) -> is_brace_open c = false /\ is_brace_close c = false /\ no_braces s.
Proof.
  unfold no_braces. cbn. rewrite Bool.andb_true_iff, Bool.negb_true_iff, Bool.orb_false_iff.
  rewrite is_brace_open_spec, is_brace_close_spec. tauto.
Qed.

Lemma format_lit vars s r : no_braces s -> str_format vars (s +++ r) = do x <- str_format vars r; Ok (s +++ x).
Proof.
  unfold str_format. induction s as [|c s IH]; intro H.
  - cbn [String.append]. destruct (format_go vars FOut r); reflexivity.
  - apply nb_head in H as [H1 [H2 H3]]. cbn [String.append format_go]. rewrite H1, H2, (IH H3).
    destruct (format_go vars FOut r); reflexivity.
Qed.

Lemma word_no_brace c : is_word1 c = true -> is_brace_open c = false /\ is_brace_close c = false.
Proof.
  unfold is_word1, is_brace_open, is_brace_close, is_upper, is_lower. intro H. split; apply Nat.eqb_neq; intro E; rewrite E in H; vm_compute in H; discriminate.
Qed.
Lemma word1_spec c : is_word1 c = (is_upper c || is_lower c || Ascii.eqb c "_")%bool.
Proof. unfold is_word1. now rewrite code_eqb by lia. Qed.

Lemma format_in vars v r : sforall is_word1 v = true -> forall acc,
  format_go vars (FIn acc) (v +++ String "}" r) = do x <- field_value vars (acc +++ v); do y <- format_go vars FOut r; Ok (x +++ y).
Proof.
  induction v as [|c v IH]; intros H acc.
  - cbn [String.append]. rewrite sapp_nil_r. reflexivity.
  - cbn [sforall] in H. apply andb_prop in H as [H1 H2]. destruct (word_no_brace _ H1) as [E1 E2].
    cbn [String.append format_go]. rewrite E2, E1. rewrite (IH H2). now rewrite sapp_assoc.
Qed.

Lemma format_var vars v r : var_name v -> str_format vars ("{" +++ v +++ "}" +++ r) =
  do x <- field_value vars v; do y <- str_format vars r; Ok (x +++ y).
Proof.
  intros [Hne Hv]. unfold str_format. cbn [String.append].
  assert (Hw : sforall is_word1 v = true) by (rewrite <- Hv; apply sforall_ext; apply word1_spec).
  destruct v as [|c v]; [congruence|]. cbn [sforall] in Hw. apply andb_prop in Hw as [H1 H2].
  destruct (word_no_brace _ H1) as [E1 E2]. cbn [format_go String.append].
  change (is_brace_open "{") with true. cbn iota. rewrite E1, E2.
  rewrite (format_in vars v r H2 (String c "")). reflexivity.
Qed.

Definition env_of (vars : list (string * string)) (v : string) : string :=
  match dget String.eqb vars v with Some x => x | None => "" end.

Lemma word_value vars v : var_name v -> field_value vars v = match dget String.eqb vars v with Some x => Ok x | None => Raise KeyError end.
Proof.
  intros [Hne Hv]. assert (Hw : sforall is_word1 v = true) by (rewrite <- Hv; apply sforall_ext; apply word1_spec).
  unfold field_value. destruct v as [|c r]; [congruence|]. cbn [sforall] in Hw. apply andb_prop in Hw as [H1 H2].
  assert (D : sforall is_digit (String c r) = false) by (cbn [sforall]; apply Bool.andb_false_iff; left; unfold is_word1, is_digit, is_upper, is_lower in *; lia).
  assert (P : sforall (fun c => negb (is_field_syntax c)) (String c r) = true).
  { assert (N : forall x, is_word1 x = true -> negb (is_field_syntax x) = true) by (intros x Hx; unfold is_word1, is_field_syntax, is_upper, is_lower in *; lia).
    cbn [sforall]. rewrite (N c H1). cbn. eapply sforall_impl; [|exact H2]. exact N. }
  rewrite D, P. reflexivity.
Qed.

Lemma format_template vars ps : Forall piece_ok ps ->
  (forall v, In (Var v) ps -> dget String.eqb vars v <> None) ->
  str_format vars (template ps) = Ok (rendered (env_of vars) ps).
Proof.
  induction 1 as [|p ps Hp Hps IH]; intro Hd; [reflexivity|].
  assert (IH' : str_format vars (template ps) = Ok (rendered (env_of vars) ps)).
  { apply IH. intros v Hv. apply Hd. now right. }
  destruct p as [s|v]; cbn [template rendered fold_right]; fold (template ps); fold (rendered (env_of vars) ps).
  - rewrite format_lit by exact Hp. now rewrite IH'.
  - rewrite format_var by exact Hp. rewrite IH', (word_value _ _ Hp).
    specialize (Hd v (or_introl eq_refl)). unfold env_of. destruct (dget String.eqb vars v); [reflexivity|congruence].
Qed.

Lemma format_undefined vars ps : Forall piece_ok ps ->
  (exists v, In (Var v) ps /\ dget String.eqb vars v = None) ->
  str_format vars (template ps) = Raise KeyError.
Proof.
  induction 1 as [|p ps Hp Hps IH]; intros [v [Hin Hv]]; [contradiction|].
  destruct p as [s|v0]; cbn [template fold_right]; fold (template ps).
  - rewrite format_lit by exact Hp. rewrite IH; [reflexivity|]. destruct Hin as [Hin|Hin]; [discriminate|eauto].
  - rewrite format_var by exact Hp. destruct (dget String.eqb vars v0) as [x|] eqn:E.
    + rewrite (word_value _ _ Hp), E. cbn [rbind]. rewrite IH; [reflexivity|].
      destruct Hin as [Hin|Hin]; [injection Hin as ->; congruence|eauto].
    + rewrite (word_value _ _ Hp), E. reflexivity.
Qed.

Lemma has_var_lit s r : no_braces s -> has_var_go None (s +++ r) = has_var_go None r.
Proof.
  induction s as [|c s IH]; intro H; [reflexivity|]. apply nb_head in H as [H1 [H2 H3]].
  cbn [String.append has_var_go]. rewrite H1. now apply IH.
Qed.
Lemma has_var_in v r : sforall is_word1 v = true -> forall b, (b = true \/ v <> "") ->
  has_var_go (Some b) (v +++ String "}" r) = true.
Proof.
  induction v as [|c v IH]; intros H b Hb.
  - destruct Hb as [->|Hb]; [reflexivity|congruence].
  - cbn [sforall] in H. apply andb_prop in H as [H1 H2]. destruct (word_no_brace _ H1) as [E1 E2].
    cbn [String.append has_var_go]. rewrite E1, H1. apply IH; [exact H2|now left].
Qed.
Lemma has_var_template ps : Forall piece_ok ps -> (exists v, In (Var v) ps) -> has_var (template ps) = true.
Proof.
  unfold has_var. induction 1 as [|p ps Hp Hps IH]; intros [v Hin]; [contradiction|].
  destruct p as [s|v0]; cbn [template fold_right]; fold (template ps).
  - rewrite has_var_lit by exact Hp. apply IH. destruct Hin as [Hin|Hin]; [discriminate|eauto].
  - destruct Hp as [Hne Hv0]. cbn [String.append has_var_go]. change (is_brace_open "{") with true. cbn iota.
    apply has_var_in; [|now right]. rewrite <- Hv0. apply sforall_ext. apply word1_spec.
Qed.
Lemma has_var_no_braces s : no_braces s -> has_var s = false.
Proof. intro H. unfold has_var. rewrite <- (sapp_nil_r s). now rewrite has_var_lit. Qed.
Lemma no_braces_app a b : no_braces a -> no_braces b -> no_braces (a +++ b).
Proof. unfold no_braces. intros H1 H2. rewrite sforall_app, H1, H2. reflexivity. Qed.
Lemma rendered_no_braces env ps : Forall piece_ok ps -> (forall v, In (Var v) ps -> no_braces (env v)) -> no_braces (rendered env ps).
Proof.
  induction 1 as [|p ps Hp Hps IH]; intro H; [reflexivity|].
  assert (IH' : no_braces (rendered env ps)) by (apply IH; intros v Hv; apply H; now right).
  destruct p as [s|v]; cbn [rendered fold_right]; fold (rendered env ps); apply no_braces_app; auto. apply H. now left.
Qed.

Lemma interpolate_ok vars ps : Forall piece_ok ps ->
  (forall v, In (Var v) ps -> exists x, dget String.eqb vars v = Some x /\ no_braces x) ->
  interpolate_string vars (template ps) = Ok (rendered (env_of vars) ps).
Proof.
  intros Hps Hv. unfold interpolate_string. destruct (has_var (template ps)) eqn:E.
  - rewrite format_template; [|exact Hps|]. 2:{ intros v Hin. destruct (Hv v Hin) as [x [E1 _]]. congruence. }
    cbn [rbind]. rewrite has_var_no_braces; [reflexivity|]. apply rendered_no_braces; [exact Hps|].
    intros v Hin. destruct (Hv v Hin) as [x [E1 E2]]. unfold env_of. now rewrite E1.
  - assert (Hno : forall v, ~ In (Var v) ps).
    { intros v Hin. assert (has_var (template ps) = true) by (apply has_var_template; eauto). congruence. }
    f_equal. clear E Hv. induction Hps as [|p ps Hp Hps IH]; [reflexivity|].
    destruct p as [s|v]; [|exfalso; apply (Hno v); now left]. cbn [template rendered fold_right].
    fold (template ps). fold (rendered (env_of vars) ps). rewrite IH; [reflexivity|]. intros v Hin. apply (Hno v). now right.
Qed.

Lemma interpolate_undefined vars ps : Forall piece_ok ps ->
  (exists v, In (Var v) ps /\ dget String.eqb vars v = None) ->
  interpolate_string vars (template ps) = Raise KeyError.
Proof.
  intros Hps Hv. unfold interpolate_string. rewrite has_var_template; [|exact Hps|destruct Hv as [v [Hv _]]; eauto].
  rewrite format_undefined by assumption. reflexivity.
Qed.

(** ** C27 *)
Lemma first_existing_spec isfile folders filename p : first_existing isfile folders filename = Some p ->
  exists l f r, folders = (l ++ Some f :: r)%list /\ f <> "" /\ p = path_join f filename /\ isfile p = true /\
    Forall (fun o => match o with Some f' => f' = "" \/ isfile (path_join f' filename) = false | None => True end) l.
Proof.
  induction folders as [|o folders IH]; intro H; [discriminate|]. cbn [first_existing] in H. destruct o as [f|].
  - destruct (String.eqb_spec f "") as [->|Hf]; cbn [negb andb] in H.
    + destruct (IH H) as [l [f' [r [-> Hr]]]]. exists (Some "" :: l)%list, f', r. split; [reflexivity|].
      destruct Hr as [R1 [R2 [R3 R4]]]. repeat split; auto.
    + destruct (isfile (path_join f filename)) eqn:E.
      * injection H as <-. exists []%list, f, folders. repeat split; auto.
      * destruct (IH H) as [l [f' [r [-> Hr]]]]. exists (Some f :: l)%list, f', r. split; [reflexivity|].
        destruct Hr as [R1 [R2 [R3 R4]]]. repeat split; auto.
  - destruct (IH H) as [l [f' [r [-> Hr]]]]. exists (None :: l)%list, f', r. split; [reflexivity|].
    destruct Hr as [R1 [R2 [R3 R4]]]. repeat split; auto.
Qed.
Lemma first_existing_none isfile folders filename : first_existing isfile folders filename = None ->
  forall f, In (Some f) folders -> f = "" \/ isfile (path_join f filename) = false.
Proof.
  induction folders as [|o folders IH]; intros H f Hin; [contradiction|]. cbn [first_existing] in H. destruct o as [f0|].
  - destruct (String.eqb_spec f0 "") as [->|Hf]; cbn [negb andb] in H.
    + destruct Hin as [Hin|Hin]; [injection Hin as <-; now left|auto].
    + destruct (isfile (path_join f0 filename)) eqn:E; [discriminate|].
      destruct Hin as [Hin|Hin]; [injection Hin as <-; now right|auto].
  - destruct Hin as [Hin|Hin]; [discriminate|auto].
Qed.

(** ** C26 *)
Lemma sapp_split_slash s : exists d, s = d +++ basename s /\ plain_name (basename s) /\ (d = "" \/ exists d', d = d' +++ "/").
Proof.
  unfold basename. set (p := fun c => Nat.eqb (code c) 47).
  assert (Hp : forall c, p c = Ascii.eqb c "/") by (intro c; unfold p; now rewrite code_eqb by lia).
  induction s as [|c s IH].
  - exists "". repeat split. now left.
  - rewrite split_on_cons. destruct (split_on_nonnil p s) as [w [ws E]]. rewrite E in *. rewrite Hp.
    destruct IH as [d [H1 [H2 H3]]]. destruct (Ascii.eqb_spec c "/") as [->|Hc].
    + exists (String "/" d). split; [|split; [exact H2|right]].
      * cbn [String.append]. f_equal. rewrite H1 at 1. reflexivity.
      * destruct H3 as [->|[d' ->]]; [now exists ""|now exists (String "/" d')].
    + destruct ws as [|w2 ws].
      * cbn [last] in *. exists "". split; [|split; [|now left]].
        -- cbn [String.append]. f_equal. destruct (split_on_nonnil p s) as [w' [ws' E']].
           rewrite E in E'. injection E' as <- <-.
           assert (G : forall t w, split_on p t = [w] -> t = w).
           { clear. induction t as [|c t IH]; intros w H; [now injection H|]. rewrite split_on_cons in H.
             destruct (split_on_nonnil p t) as [w' [ws' E']]. rewrite E' in H. destruct (p c); [discriminate|].
             injection H as <- ->. f_equal. now apply IH. }
           now apply G.
        -- unfold plain_name in *. cbn [sforall]. rewrite H2. destruct (Ascii.eqb_spec c "/"); [contradiction|reflexivity].
      * change (last (String c w :: w2 :: ws) "") with (last (w :: w2 :: ws) "").
        exists (String c d). split; [cbn [String.append]; f_equal; exact H1|]. split; [exact H2|].
        right. destruct H3 as [->|[d' ->]].
        -- exfalso. cbn [String.append] in H1. unfold plain_name in H2. rewrite <- H1 in H2.
           (* s contains a slash since its split has two words *)
           assert (G : forall t, sforall (fun c => negb (Ascii.eqb c "/")) t = true -> split_on p t = [t]).
           { intros t Ht. apply split_on_none. apply Bool.negb_true_iff. rewrite <- sforall_negb_sexists, <- Ht.
             apply sforall_ext. intro a. now rewrite Hp. }
           rewrite (G s H2) in E. discriminate.
        -- now exists (String c d').
Qed.

Lemma basename_plain s : plain_name (basename s).
Proof. destruct (sapp_split_slash s) as [d [_ [H _]]]. exact H. Qed.

Lemma plain_not_slash f : plain_name f -> starts_with "/" f = false.
Proof.
  destruct f as [|c f]; [reflexivity|]. unfold plain_name. cbn [sforall]. rewrite Bool.andb_true_iff, Bool.negb_true_iff.
  intros [H _]. rewrite starts_slash_head. rewrite Ascii.eqb_sym. exact H.
Qed.

Lemma path_join_base_inj a b f g : plain_name f -> plain_name g -> f <> "" -> g <> "" ->
  a <> "" -> b <> "" -> path_join a f = path_join b g -> f = g.
Proof.
  intros Hf Hg _ _ Ha Hb H.
  assert (G : forall a f, a <> "" -> plain_name f -> exists d, path_join a f = d +++ "/" +++ f).
  { clear. intros a f Ha Hf. unfold path_join. rewrite (plain_not_slash _ Hf).
    destruct (String.eqb_spec a "") as [|_]; [contradiction|]. cbn [orb].
    destruct (starts_with "/" (rev_string a)) eqn:E.
    - apply starts_with_spec in E as [t Et]. exists (rev_string t).
      assert (E2 : a = rev_string t +++ "/").
      { unfold rev_string in *. rewrite <- (string_of_list_ascii_of_string a).
        rewrite <- (rev_involutive (list_ascii_of_string a)).
        rewrite <- (list_ascii_of_string_of_list_ascii (rev (list_ascii_of_string a))), Et.
        assert (A : forall x y, list_ascii_of_string (x +++ y) = (list_ascii_of_string x ++ list_ascii_of_string y)%list).
        { induction x as [|c x IH]; intro; [reflexivity|]. cbn. now rewrite IH. }
        assert (B : forall x y, string_of_list_ascii (x ++ y)%list = string_of_list_ascii x +++ string_of_list_ascii y).
        { induction x as [|c x IH]; intro; [reflexivity|]. cbn. now rewrite IH. }
        rewrite A, rev_app_distr, B. reflexivity. }
      rewrite E2, sapp_assoc. reflexivity.
    - exists a. reflexivity. }
  destruct (G a f Ha Hf) as [d1 E1]. destruct (G b g Hb Hg) as [d2 E2]. rewrite E1, E2 in H. clear -Hf Hg H.
  (* compare from the right: neither name contains a slash *)
  assert (B : forall d f, plain_name f -> basename (d +++ "/" +++ f) = f).
  { clear. intros d f Hf. unfold basename. set (p := fun c => Nat.eqb (code c) 47).
    assert (Hp : forall c, p c = Ascii.eqb c "/") by (intro c; unfold p; now rewrite code_eqb by lia).
    change ("/" +++ f) with (String "/" f). rewrite split_on_app_sep by now rewrite Hp.
    rewrite (split_on_none p f).
    - apply last_last.
    - apply Bool.negb_true_iff. rewrite <- sforall_negb_sexists. unfold plain_name in Hf. rewrite <- Hf.
      apply sforall_ext. intro a. now rewrite Hp. }
  apply (f_equal basename) in H. now rewrite !B in H.
Qed.

Definition geo_loaded (e : geo_env) (g : geo) : Prop :=
  NoDup (dkeys (g_user g)) /\ g_file g = Some (g_user g) /\ g_vars g = dupdate String.eqb (ge_global e) (g_user g).

Lemma reload_loaded e g u : g_file g = Some u -> NoDup (dkeys u) -> exists g', geo_reload e g = Ok g' /\ geo_loaded e g' /\
  g_user g' = u /\ g_fs g' = g_fs g.
Proof.
  intros H Hn. unfold geo_reload. rewrite H. eexists. split; [reflexivity|]. unfold geo_loaded. cbn. auto.
Qed.

Lemma add_inv e g path g' : geo_add e g path = Ok g' -> exists id_,
  dget String.eqb (g_fs g) path = Some id_ /\ dget String.eqb (g_vars g) id_ = None /\ ge_data e <> "" /\
  g_user g' = dset String.eqb (g_user g) id_ (basename path) /\ g_file g' = geo_dump (g_user g') /\
  g_vars g' = g_vars g /\
  g_fs g' = dset String.eqb (g_fs g) (path_join (ge_data e) (basename path)) id_.
Proof.
  unfold geo_add. destruct (dget String.eqb (g_fs g) path) as [id_|] eqn:E; [|discriminate].
  unfold dmem. destruct (dget String.eqb (g_vars g) id_) eqn:E2; [discriminate|].
  destruct (String.eqb_spec (ge_data e) "") as [|Hd]; [discriminate|].
  destruct (ge_isdir e); cbn [negb]; [|discriminate]. destruct (ge_writable e); cbn [negb]; [|discriminate].
  cbv zeta. destruct (String.eqb path (path_join (ge_data e) (basename path))); [discriminate|].
  intros [= <-]. exists id_. cbn [g_user g_file g_vars g_fs]. repeat split; auto.
Qed.

Lemma user_nonempty {V} (d : list (string * V)) k v : dset String.eqb d k v <> [].
Proof. destruct d as [|[k' v'] d]; cbn; [discriminate|]. destruct (String.eqb k k'); discriminate. Qed.

Lemma geo_dump_some user : user <> [] -> geo_dump user = Some (sort_str fst user).
Proof. destruct user; [congruence|reflexivity]. Qed.

Lemma loaded_vars e g k : geo_loaded e g -> dget String.eqb (g_vars g) k =
  match dget String.eqb (g_user g) k with Some v => Some v | None => dget String.eqb (ge_global e) k end.
Proof. intros [Hn [_ ->]]. now apply dget_update. Qed.

(** effect of an accepted add on the configuration of the next process *)
Lemma add_reload e g path g' : geo_loaded e g -> geo_add e g path = Ok g' -> exists id_ g2,
  dget String.eqb (g_fs g) path = Some id_ /\ geo_reload e g' = Ok g2 /\ geo_loaded e g2 /\
  (forall k, dget String.eqb (g_user g2) k = if String.eqb k id_ then Some (basename path) else dget String.eqb (g_user g) k) /\
  (forall k, dget String.eqb (g_vars g2) k = if String.eqb k id_ then Some (basename path) else dget String.eqb (g_vars g) k) /\
  g_fs g2 = dset String.eqb (g_fs g) (path_join (ge_data e) (basename path)) id_.
Proof.
  intros Hl H. pose proof Hl as [Hn _]. apply add_inv in H as [id_ [Hid [Hnew [Hdata [Hu [Hf [Hv Hfs]]]]]]].
  assert (Hnu : NoDup (dkeys (g_user g'))) by (rewrite Hu; apply NoDup_dset; [apply String_eqb_spec'|exact Hn]).
  rewrite geo_dump_some in Hf by (rewrite Hu; apply user_nonempty).
  destruct (reload_loaded e g' _ Hf (NoDup_sorted _ Hnu)) as [g2 [Hr [Hl2 [Hu2 Hfs2]]]].
  exists id_, g2. split; [exact Hid|]. split; [exact Hr|]. split; [exact Hl2|].
  assert (Huser : forall k, dget String.eqb (g_user g2) k = if String.eqb k id_ then Some (basename path) else dget String.eqb (g_user g) k).
  { intro k. rewrite Hu2, dget_sorted by exact Hnu. rewrite Hu. now rewrite dget_dset by apply String_eqb_spec'. }
  split; [exact Huser|]. split; [|congruence].
  intro k. rewrite (loaded_vars _ _ _ Hl2), (loaded_vars _ _ _ Hl), Huser. now destruct (String.eqb k id_).
Qed.

Definition names_plain (e : geo_env) (g : geo) : Prop :=
  forall k f, dget String.eqb (g_vars g) k = Some f -> plain_name f.

Lemma first_existing_ext i1 i2 folders f : (forall d, In (Some d) folders -> d <> "" -> i1 (path_join d f) = i2 (path_join d f)) ->
  first_existing i1 folders f = first_existing i2 folders f.
Proof.
  induction folders as [|o folders IH]; intro H; [reflexivity|]. cbn [first_existing].
  rewrite IH by (intros d Hd; apply H; now right). destruct o as [d|]; [|reflexivity].
  destruct (String.eqb_spec d "") as [|Hd]; [reflexivity|]. cbn [negb andb]. rewrite H; [reflexivity|now left|exact Hd].
Qed.

Lemma add_spec e g path g' : geo_loaded e g -> names_plain e g -> basename path <> "" ->
  (forall k f, dget String.eqb (g_vars g) k = Some f -> f <> basename path) ->
  geo_add e g path = Ok g' -> exists id_ g2,
  dget String.eqb (g_fs g) path = Some id_ /\ geo_reload e g' = Ok g2 /\ geo_loaded e g2 /\
  (exists p, geo_lookup e g2 None id_ = Ok p /\ dget String.eqb (g_fs g2) p = Some id_) /\
  (forall other, other <> id_ ->
     geo_lookup e g2 None other = geo_lookup e g None other /\
     forall p, geo_lookup e g None other = Ok p -> dget String.eqb (g_fs g2) p = dget String.eqb (g_fs g) p) /\
  (forall path', dget String.eqb (g_fs g2) path' = Some id_ -> geo_add e g2 path' = Raise (AppExc 8300)).
Proof.
  intros Hl Hplain Hb Hfresh H. pose proof (add_inv _ _ _ _ H) as [id0 [Hid0 [_ [Hdata _]]]].
  destruct (add_reload _ _ _ _ Hl H) as [id_ [g2 [Hid [Hr [Hl2 [Hu [Hv Hfs]]]]]]].
  exists id_, g2. split; [exact Hid|]. split; [exact Hr|]. split; [exact Hl2|].
  set (target := path_join (ge_data e) (basename path)) in *.
  assert (Ht : dget String.eqb (g_fs g2) target = Some id_).
  { rewrite Hfs, dget_dset by apply String_eqb_spec'. now rewrite String.eqb_refl. }
  split; [|split].
  - exists target. split; [|exact Ht]. unfold geo_lookup, get_filepath. rewrite Hv, String.eqb_refl.
    destruct (String.eqb_spec (basename path) "") as [|_]; [contradiction|]. cbn [first_existing].
    destruct (String.eqb_spec (ge_data e) "") as [|_]; [contradiction|]. cbn [negb andb]. fold target. unfold dmem. now rewrite Ht.
  - intros other Hne. unfold geo_lookup, get_filepath. rewrite Hv.
    destruct (String.eqb_spec other id_) as [|_]; [contradiction|].
    destruct (dget String.eqb (g_vars g) other) as [f|] eqn:Ef; [|split; [reflexivity|discriminate]].
    destruct (String.eqb_spec f "") as [|Hfne]; [split; [reflexivity|discriminate]|].
    assert (Hother : forall d, d <> "" -> dget String.eqb (g_fs g2) (path_join d f) = dget String.eqb (g_fs g) (path_join d f)).
    { intros d Hd. rewrite Hfs, dget_dset by apply String_eqb_spec'.
      destruct (String.eqb_spec (path_join d f) target) as [E|]; [|reflexivity]. exfalso.
      apply (Hfresh other f Ef). unfold target in E. eapply path_join_base_inj; [| | | | | |exact E]; auto.
      - eapply Hplain; eauto.
      - apply basename_plain. }
    rewrite (first_existing_ext (fun p => dmem String.eqb (g_fs g2) p) (fun p => dmem String.eqb (g_fs g) p)).
    2:{ intros d _ Hd. unfold dmem. now rewrite Hother. }
    split; [reflexivity|]. intros p Hp.
    destruct (first_existing _ _ f) as [p'|] eqn:Efe; [|discriminate]. injection Hp as <-.
    apply first_existing_spec in Efe as [l [d [r [_ [Hd [-> _]]]]]]. now apply Hother.
  - intros path' Hp'. unfold geo_add. rewrite Hp'. unfold dmem. rewrite Hv, String.eqb_refl. reflexivity.
Qed.

Lemma key_of_spec d v k : key_of d v = Some k -> exists p q, d = (p ++ (k, v) :: q)%list /\ Forall (fun kv => snd kv <> v) p.
Proof.
  induction d as [|[k' v'] d IH]; intro H; [discriminate|]. cbn in H. destruct (String.eqb_spec v' v) as [->|Hne].
  - injection H as <-. exists [], d. split; [reflexivity|constructor].
  - destruct (IH H) as [p [q [-> Hp]]]. exists ((k', v') :: p)%list, q. split; [reflexivity|]. now constructor.
Qed.
Lemma key_of_none d v : key_of d v = None -> forall k, ~ In (k, v) d.
Proof.
  induction d as [|[k' v'] d IH]; intros H k Hin; [contradiction|]. cbn in H. destruct (String.eqb_spec v' v) as [->|Hne]; [discriminate|].
  destruct Hin as [E|Hin]; [congruence|]. now apply (IH H k).
Qed.

Lemma In_ddel_keys {V} (d : list (string * V)) k x : In x (dkeys (ddel String.eqb d k)) -> In x (dkeys d).
Proof.
  induction d as [|[k2 v2] d IH]; intro Hi; [contradiction|]. cbn [ddel] in Hi.
  destruct (String.eqb k k2); [now right|]. destruct Hi as [Hi|Hi]; [now left|right; now apply IH].
Qed.
Lemma NoDup_ddel {V} (d : list (string * V)) k : NoDup (dkeys d) -> NoDup (dkeys (ddel String.eqb d k)).
Proof.
  induction d as [|[k' v] d IH]; intro H; [constructor|].
  assert (H' : NoDup (k' :: dkeys d)) by exact H. inversion H' as [|? ? H1 H2]; subst. cbn [ddel].
  destruct (String.eqb k k'); [assumption|]. constructor; [|now apply IH].
  intro Hi. apply H1. apply In_ddel_keys in Hi. exact Hi.
Qed.

(** removing what was just added restores the configuration *)
Lemma remove_spec e g path g' g2 : geo_loaded e g -> g_user g <> [] ->
  (forall k f, dget String.eqb (g_user g) k = Some f -> f <> basename path) ->
  geo_add e g path = Ok g' -> geo_reload e g' = Ok g2 ->
  exists g4, geo_reload e (geo_remove g2 (basename path)) = Ok g4 /\ geo_loaded e g4 /\
    (forall k, dget String.eqb (g_user g4) k = dget String.eqb (g_user g) k) /\
    (forall k, dget String.eqb (g_vars g4) k = dget String.eqb (g_vars g) k).
Proof.
  intros Hl Hne Hfresh Ha Hr. pose proof (add_inv _ _ _ _ Ha) as [id0 [Hid0 [Hnew _]]].
  destruct (add_reload _ _ _ _ Hl Ha) as [id_ [g2' [Hid [Hr' [Hl2 [Hu [Hv Hfs]]]]]]].
  rewrite Hr in Hr'. injection Hr' as <-. rewrite Hid in Hid0. injection Hid0 as <-.
  pose proof Hl2 as [Hn2 _]. pose proof Hl as [Hn _].
  assert (Hold : dget String.eqb (g_user g) id_ = None).
  { rewrite (loaded_vars _ _ _ Hl) in Hnew. destruct (dget String.eqb (g_user g) id_); [discriminate|reflexivity]. }
  unfold geo_remove. destruct (key_of (g_user g2) (basename path)) as [k|] eqn:Ek.
  2:{ exfalso. apply (key_of_none _ _ Ek id_). apply (dget_In String.eqb String_eqb_spec'). now rewrite Hu, String.eqb_refl. }
  assert (Hk : k = id_).
  { apply key_of_spec in Ek as [p [q [Hpq _]]].
    assert (Hd : dget String.eqb (g_user g2) k = Some (basename path)).
    { apply In_dget; [apply String_eqb_spec'|exact Hn2|]. rewrite Hpq. apply in_or_app. right. now left. }
    rewrite Hu in Hd. destruct (String.eqb_spec k id_) as [|_]; [assumption|]. exfalso. exact (Hfresh _ _ Hd eq_refl). }
  subst k. set (u := ddel String.eqb (g_user g2) id_).
  assert (Hg : forall k, dget String.eqb u k = dget String.eqb (g_user g) k).
  { intro k. unfold u. rewrite dget_ddel by (auto using String_eqb_spec'). rewrite Hu.
    destruct (String.eqb_spec k id_) as [->|]; [now rewrite Hold|reflexivity]. }
  assert (Hnu : NoDup (dkeys u)).
  { now apply NoDup_ddel. }
  assert (Hune : u <> []).
  { intro E. apply Hne. destruct (g_user g) as [|[k v] d] eqn:Eg; [reflexivity|]. exfalso.
    specialize (Hg k). rewrite E in Hg. cbn in Hg. rewrite String.eqb_refl in Hg. discriminate. }
  destruct (reload_loaded e {| g_vars := g_vars g2; g_user := u; g_file := geo_dump u; g_fs := g_fs g2 |} (sort_str fst u)) as [g4 [R1 [R2 [R3 R4]]]].
  { cbn. now apply geo_dump_some. }
  { now apply NoDup_sorted. }
  exists g4. split; [exact R1|]. split; [exact R2|].
  assert (Hg4 : forall k, dget String.eqb (g_user g4) k = dget String.eqb (g_user g) k).
  { intro k. rewrite R3, dget_sorted by exact Hnu. apply Hg. }
  split; [exact Hg4|]. intro k. rewrite (loaded_vars _ _ _ R2), (loaded_vars _ _ _ Hl), Hg4. reflexivity.
Qed.

(** ** histories *)
Inductive geo_op := OAdd (path : string) | ORemove (filename : string).
(** each command runs in its own process: load, operate, dump; an error leaves
    the files as they are *)
Definition geo_step (e : geo_env) (g : geo) (o : geo_op) : res geo :=
  do g1 <- geo_reload e g;
  match o with
  | OAdd path => match geo_add e g1 path with Ok g2 => Ok g2 | Raise _ => Ok g1 end
  | ORemove f => Ok (geo_remove g1 f)
  end.
Definition geo_run (e : geo_env) (g : geo) (ops : list geo_op) : res geo := foldM (geo_step e) ops g.

Fixpoint added (ops : list geo_op) : list string :=
  match ops with [] => [] | OAdd p :: r => p :: added r | ORemove _ :: r => added r end.

(** every entry except the description points to a stored file of that grid *)
Definition entries_ok (e : geo_env) (user fs : list (string * string)) : Prop :=
  forall id_ name, dget String.eqb user id_ = Some name -> id_ <> "description" ->
    dget String.eqb fs (path_join (ge_data e) name) = Some id_.

Definition hist_inv (e : geo_env) (src : list (string * string)) (d0 : string) (used future : list string) (g : geo) : Prop :=
  exists u, g_file g = Some u /\ NoDup (dkeys u) /\ dget String.eqb u "description" = Some d0 /\
    entries_ok e u (g_fs g) /\
    (forall id_ name, dget String.eqb u id_ = Some name -> id_ <> "description" -> In name (map basename used)) /\
    (forall p, In p future -> dget String.eqb (g_fs g) p = dget String.eqb src p).

Lemma geo_remove_user g f : (g_user (geo_remove g f) = g_user g /\ g_file (geo_remove g f) = g_file g /\ g_fs (geo_remove g f) = g_fs g) \/
  (exists k, key_of (g_user g) f = Some k /\ g_user (geo_remove g f) = ddel String.eqb (g_user g) k /\
     g_file (geo_remove g f) = geo_dump (ddel String.eqb (g_user g) k) /\ g_fs (geo_remove g f) = g_fs g).
Proof. unfold geo_remove. destruct (key_of (g_user g) f) as [k|]; [right; exists k; cbn; auto|left; auto]. Qed.


Lemma hist_step e src d0 used future g o : ge_data e <> "" ->
  hist_inv e src d0 used (match o with OAdd p => p :: future | _ => future end) g ->
  (match o with
   | OAdd p => ~ In (basename p) (map basename used) /\ basename p <> "" /\
               (forall q, In q future -> q <> path_join (ge_data e) (basename p)) /\ dget String.eqb src p <> Some "description"
   | ORemove f => f <> d0
   end) ->
  exists g', geo_step e g o = Ok g' /\
  hist_inv e src d0 (match o with OAdd p => p :: used | _ => used end) future g'.
Proof.
  intros Hdata [u [Hf [Hn [Hdesc [Hent [Hnames Hsrc]]]]]] Hop.
  unfold geo_step. destruct (reload_loaded e g u Hf Hn) as [g1 [Hr [Hl [Hu Hfs]]]]. rewrite Hr. cbn [rbind].
  pose proof Hl as [Hn1 [Hfile1 _]].
  destruct o as [path|f].
  - destruct Hop as [Hfresh [Hb [Hfut Hnd]]]. destruct (geo_add e g1 path) as [g2|ex] eqn:Ea.
    + exists g2. split; [reflexivity|]. apply add_inv in Ea as [id_ [Hid [Hnew [_ [Hu2 [Hf2 [Hv2 Hfs2]]]]]]].
      assert (Hnu : NoDup (dkeys (g_user g2))) by (rewrite Hu2; apply NoDup_dset; [apply String_eqb_spec'|exact Hn1]).
      rewrite geo_dump_some in Hf2 by (rewrite Hu2; apply user_nonempty).
      assert (Hget : forall k, dget String.eqb (sort_str fst (g_user g2)) k = if String.eqb k id_ then Some (basename path) else dget String.eqb u k).
      { intro k. rewrite dget_sorted by exact Hnu. rewrite Hu2, dget_dset by apply String_eqb_spec'. now rewrite Hu. }
      assert (Hidnd : id_ <> "description").
      { intros ->. rewrite Hfs in Hid. rewrite Hsrc in Hid by now left. congruence. }
      exists (sort_str fst (g_user g2)). split; [exact Hf2|]. split; [now apply NoDup_sorted|]. split; [|split; [|split]].
      * rewrite Hget. destruct (String.eqb_spec "description" id_) as [E|]; [congruence|exact Hdesc].
      * intros id2 name Hg Hne. rewrite Hget in Hg. rewrite Hfs2, dget_dset by apply String_eqb_spec'. rewrite Hfs.
        destruct (String.eqb_spec id2 id_) as [->|Hne2].
        -- injection Hg as <-. now rewrite String.eqb_refl.
        -- destruct (String.eqb_spec (path_join (ge_data e) name) (path_join (ge_data e) (basename path))) as [E|_].
           ++ exfalso. specialize (Hnames _ _ Hg Hne). apply Hfresh. apply in_map_iff in Hnames as [q [<- Hq]].
              assert (Eb : basename q = basename path).
              { apply path_join_inj in E; [exact E|]. now rewrite !plain_not_slash by apply basename_plain. }
              rewrite <- Eb. now apply in_map.
           ++ now apply Hent.
      * intros id2 name Hg Hne. rewrite Hget in Hg. cbn [map]. destruct (String.eqb id2 id_).
        -- injection Hg as <-. now left.
        -- right. now apply (Hnames id2).
      * intros q Hq. rewrite Hfs2, dget_dset by apply String_eqb_spec'.
        destruct (String.eqb_spec q (path_join (ge_data e) (basename path))) as [E|_]; [exfalso; now apply (Hfut q)|].
        rewrite Hfs. apply Hsrc. now right.
    + exists g1. split; [reflexivity|]. exists u. split; [congruence|]. split; [exact Hn|]. split; [exact Hdesc|]. rewrite Hfs. split; [exact Hent|]. split.
      * intros id2 name Hg Hne. right. now apply (Hnames id2).
      * intros q Hq. apply Hsrc. now right.
  - exists (geo_remove g1 f). split; [reflexivity|]. destruct (geo_remove_user g1 f) as [[E1 [E2 E3]]|[k [Ek [E1 [E2 E3]]]]].
    + exists u. rewrite E2, E3, Hfs. repeat split; auto. congruence.
    + assert (Hk : k <> "description").
      { intros ->. apply key_of_spec in Ek as [p [q [Hpq _]]]. apply Hop.
        assert (Hx : dget String.eqb u "description" = Some f).
        { rewrite <- Hu. apply In_dget; [apply String_eqb_spec'|exact Hn1|]. rewrite Hpq. apply in_or_app. right. now left. }
        congruence. }
      assert (Hg : forall k2, dget String.eqb (ddel String.eqb (g_user g1) k) k2 = if String.eqb k2 k then None else dget String.eqb u k2).
      { intro k2. rewrite dget_ddel by (auto using String_eqb_spec'). now rewrite Hu. }
      assert (Hn2 : NoDup (dkeys (ddel String.eqb (g_user g1) k))) by now apply NoDup_ddel.
      assert (Hd2 : dget String.eqb (ddel String.eqb (g_user g1) k) "description" = Some d0).
      { rewrite Hg. destruct (String.eqb_spec "description" k) as [E|]; [congruence|exact Hdesc]. }
      assert (Hne : ddel String.eqb (g_user g1) k <> []) by (intro E; rewrite E in Hd2; discriminate).
      exists (sort_str fst (ddel String.eqb (g_user g1) k)).
      rewrite E2, geo_dump_some by exact Hne. split; [reflexivity|]. split; [now apply NoDup_sorted|].
      assert (Hg2 : forall k2, dget String.eqb (sort_str fst (ddel String.eqb (g_user g1) k)) k2 = if String.eqb k2 k then None else dget String.eqb u k2).
      { intro k2. rewrite dget_sorted by exact Hn2. apply Hg. }
      split; [rewrite dget_sorted by exact Hn2; exact Hd2|]. rewrite E3, Hfs. split; [|split].
      * intros id2 name Hx Hne2. rewrite Hg2 in Hx. destruct (String.eqb id2 k); [discriminate|]. now apply Hent.
      * intros id2 name Hx Hne2. rewrite Hg2 in Hx. destruct (String.eqb id2 k); [discriminate|]. now apply (Hnames id2).
      * exact Hsrc.
Qed.

(** conditions on a history of commands, relative to the basenames already
    used *)
Fixpoint ops_ok (e : geo_env) (src : list (string * string)) (d0 : string) (used : list string) (ops : list geo_op) : Prop :=
  match ops with
  | [] => True
  | OAdd p :: r => ~ In (basename p) (map basename used) /\ basename p <> "" /\
      (forall q, In q (added r) -> q <> path_join (ge_data e) (basename p)) /\ dget String.eqb src p <> Some "description" /\
      ops_ok e src d0 (p :: used) r
  | ORemove f :: r => f <> d0 /\ ops_ok e src d0 used r
  end.

Lemma hist_run e src d0 : forall ops used g, ge_data e <> "" -> hist_inv e src d0 used (added ops) g ->
  ops_ok e src d0 used ops -> exists g' used', geo_run e g ops = Ok g' /\ hist_inv e src d0 used' [] g'.
Proof.
  induction ops as [|o ops IH]; intros used g Hd Hi Ho.
  - exists g, used. auto.
  - destruct (hist_step e src d0 used (added ops) g o) as [g1 [Hs Hi1]]; [exact Hd|destruct o; exact Hi| |].
    { destruct o; cbn [ops_ok] in Ho; tauto. }
    unfold geo_run. cbn [foldM]. rewrite Hs. cbn [rbind].
    eapply IH; [exact Hd|exact Hi1|]. destruct o; cbn [ops_ok] in Ho; tauto.
Qed.

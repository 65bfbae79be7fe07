(** * Interp_P: names and histories of tables *)
From Verif Require Import Base Num PyStr Writers Config Spec_Config GribInterp Reader Interp Spec_Interp Base_P PyStr_P Writers_P Config_P2.
From Coq Require Import DecimalString.
Local Open Scope string_scope.

(** ** strings *)
Lemma is_slash_eqb c : is_slash c = Ascii.eqb c "/".
Proof.
  unfold is_slash. destruct (Ascii.eqb_spec c "/") as [->|H]; [reflexivity|]. apply Nat.eqb_neq. intro E. apply H. apply code_inj. exact E.
Qed.
Lemma plain_no_slash s : plain_name s -> sexists is_slash s = false.
Proof.
  unfold plain_name. intro H. apply Bool.negb_true_iff. rewrite <- sforall_negb_sexists, <- H. apply sforall_ext. intro c. now rewrite is_slash_eqb.
Qed.
Lemma list_ascii_app a b : list_ascii_of_string (a +++ b) = (list_ascii_of_string a ++ list_ascii_of_string b)%list.
Proof. induction a as [|c a IH]; [reflexivity|]. cbn. now rewrite IH. Qed.
Lemma rev_string_app a b : rev_string (a +++ b) = rev_string b +++ rev_string a.
Proof.
  unfold rev_string. rewrite list_ascii_app, rev_app_distr. generalize (rev (list_ascii_of_string b)). intro l.
  induction l as [|c l IH]; [reflexivity|]. cbn. now rewrite IH.
Qed.
Lemma rev_string_inv a : rev_string (rev_string a) = a.
Proof. unfold rev_string. rewrite list_ascii_of_string_of_list_ascii, rev_involutive. apply string_of_list_ascii_of_string. Qed.
Lemma ends_with_spec p s : ends_with p s = true <-> exists t, s = t +++ p.
Proof.
  unfold ends_with. rewrite starts_with_spec. split.
  - intros [t E]. exists (rev_string t). rewrite <- (rev_string_inv s), E, rev_string_app, rev_string_inv. reflexivity.
  - intros [t ->]. exists (rev_string t). apply rev_string_app.
Qed.
Lemma ends_with_app s p : ends_with p (s +++ p) = true. Proof. apply ends_with_spec. eauto. Qed.

(** ** paths *)
Lemma norm_comp_name sl acc f : file_name f -> norm_comp sl acc f = f :: acc.
Proof.
  intros [_ [H1 [H2 H3]]]. unfold norm_comp. destruct (String.eqb_spec f ""); [contradiction|]. destruct (String.eqb_spec f "."); [contradiction|].
  destruct (String.eqb_spec f ".."); [contradiction|]. reflexivity.
Qed.
Lemma join_snoc l f : join "/" (l ++ [f])%list = (match l with [] => "" | _ => join "/" l +++ "/" end) +++ f.
Proof.
  induction l as [|x l IH]; [reflexivity|]. destruct l as [|y l].
  - cbn [app join]. now rewrite sapp_assoc.
  - change ((x :: y :: l) ++ [f])%list with (x :: ((y :: l) ++ [f]))%list.
    assert (E : forall z t, t <> [] -> join "/" (z :: t) = z +++ "/" +++ join "/" t) by (intros z t Ht; destruct t; [congruence|reflexivity]).
    rewrite (E x); [|destruct l; discriminate]. rewrite IH. rewrite (E x (y :: l)) by discriminate. rewrite !sapp_assoc. reflexivity.
Qed.
Lemma initial_slashes_tail X f g : file_name f -> file_name g -> initial_slashes (X +++ "/" +++ f) = initial_slashes (X +++ "/" +++ g).
Proof.
  intros [Pf [Nf _]] [Pg [Ng _]]. pose proof (plain_not_slash _ Pf) as Sf. pose proof (plain_not_slash _ Pg) as Sg.
  unfold initial_slashes. destruct X as [|a [|b [|c X]]]; cbn [String.append].
  - destruct f as [|f0 f]; [congruence|]. destruct g as [|g0 g]; [congruence|]. rewrite starts_slash_head in Sf, Sg. cbn [starts_with]. rewrite Sf, Sg. now rewrite !Bool.andb_false_r.
  - destruct f as [|f0 f]; [congruence|]. destruct g as [|g0 g]; [congruence|]. rewrite starts_slash_head in Sf, Sg. cbn [starts_with]. rewrite Sf, Sg. reflexivity.
  - cbn [starts_with]. reflexivity.
  - cbn [starts_with]. reflexivity.
Qed.
(** the path of a file name in a directory: a prefix that depends on the
    directory only *)
Lemma normpath_go X f : file_name f ->
  let s := initial_slashes (X +++ "/" +++ f) in
  let l := rev (fold_left (norm_comp (negb (String.eqb s ""))) (split_on is_slash X) []) in
  normpath (X +++ "/" +++ f) = (s +++ match l with [] => "" | _ => join "/" l +++ "/" end) +++ f.
Proof.
  intros Hf s l. pose proof Hf as [Pf [Nf _]]. unfold normpath.
  destruct (String.eqb_spec (X +++ "/" +++ f) "") as [E|_]; [destruct X; discriminate E|]. fold s.
  change (X +++ "/" +++ f) with (X +++ String "/" f). rewrite (split_on_app_sep is_slash X "/" f) by reflexivity.
  rewrite (split_on_none is_slash f) by now apply plain_no_slash. rewrite fold_left_app. cbn [fold_left]. rewrite norm_comp_name by exact Hf.
  cbn [rev]. fold l. rewrite join_snoc. rewrite <- sapp_assoc. destruct (String.eqb_spec ((s +++ match l with [] => "" | _ => join "/" l +++ "/" end) +++ f) "") as [E|_]; [|reflexivity].
  exfalso. apply Nf. assert (L : String.length ((s +++ match l with [] => "" | _ => join "/" l +++ "/" end) +++ f) = O) by now rewrite E. rewrite slen_app in L. destruct f; [reflexivity|cbn in L; lia].
Qed.
Lemma full_path_form dir : exists P, (P = "" \/ exists P', P = P' +++ "/") /\ forall f, file_name f -> full_path dir f = P +++ f.
Proof.
  assert (G : forall X, exists P, (P = "" \/ exists P', P = P' +++ "/") /\ forall f, file_name f -> normpath (X +++ "/" +++ f) = P +++ f).
  { intro X. assert (Hx : file_name "x") by (repeat split; discriminate). set (s := initial_slashes (X +++ "/" +++ "x")).
    set (l := rev (fold_left (norm_comp (negb (String.eqb s ""))) (split_on is_slash X) [])).
    exists (s +++ match l with [] => "" | _ => join "/" l +++ "/" end). split.
    - destruct l as [|a l'] eqn:El.
      + rewrite sapp_nil_r. unfold s, initial_slashes. clear. destruct (negb (starts_with "/" (X +++ "/" +++ "x"))); [now left|]. right.
        destruct (starts_with "//" (X +++ "/" +++ "x") && negb (starts_with "///" (X +++ "/" +++ "x")))%bool; [now exists "/"|now exists ""].
      + right. exists (s +++ join "/" (a :: l')). now rewrite sapp_assoc.
    - intros f Hf. rewrite (normpath_go X f Hf). rewrite (initial_slashes_tail X f "x" Hf Hx). reflexivity. }
  unfold full_path. destruct (String.eqb_spec dir "") as [->|Hd].
  - exists "". split; [now left|]. intros f Hf. pose proof Hf as [Pf [Nf _]]. unfold path_join. rewrite (plain_not_slash _ Pf). cbn [String.eqb orb String.append].
    unfold normpath. destruct (String.eqb_spec f ""); [contradiction|].
    assert (Es : initial_slashes f = "") by (unfold initial_slashes; now rewrite (plain_not_slash _ Pf)). rewrite Es. rewrite (split_on_none is_slash f) by now apply plain_no_slash.
    cbn [fold_left]. rewrite norm_comp_name by exact Hf. cbn [rev app join String.append]. destruct (String.eqb_spec f ""); [contradiction|reflexivity].
  - destruct (starts_with "/" (rev_string dir)) eqn:E.
    + apply starts_with_spec in E as [t Et]. assert (Ed : dir = rev_string t +++ "/") by (rewrite <- (rev_string_inv dir), Et, rev_string_app; reflexivity).
      destruct (G (rev_string t)) as [P [H1 H2]]. exists P. split; [exact H1|]. intros f Hf. rewrite <- H2 by exact Hf. f_equal.
      unfold path_join. rewrite (plain_not_slash _ (proj1 Hf)). destruct (String.eqb_spec dir ""); [contradiction|]. cbn [orb]. rewrite Et. rewrite starts_with_app. rewrite Ed at 1. now rewrite sapp_assoc.
    + destruct (G dir) as [P [H1 H2]]. exists P. split; [exact H1|]. intros f Hf. rewrite <- H2 by exact Hf. f_equal.
      unfold path_join. rewrite (plain_not_slash _ (proj1 Hf)). destruct (String.eqb_spec dir ""); [contradiction|]. cbn [orb]. now rewrite E.
Qed.
Lemma full_path_inj dir f g : file_name f -> file_name g -> full_path dir f = full_path dir g -> f = g.
Proof. intros Hf Hg. destruct (full_path_form dir) as [P [_ H]]. rewrite (H f Hf), (H g Hg). apply sapp_inj_l. Qed.
Lemma basename_app_slash P f : plain_name f -> basename (P +++ "/" +++ f) = f.
Proof.
  intro Hf. unfold basename. change (fun c : ascii => Nat.eqb (code c) 47) with is_slash. change (P +++ "/" +++ f) with (P +++ String "/" f).
  rewrite (split_on_app_sep is_slash P "/" f) by reflexivity. rewrite (split_on_none is_slash f) by now apply plain_no_slash. apply last_last.
Qed.
Lemma basename_name f : plain_name f -> basename f = f.
Proof. intro Hf. unfold basename. change (fun c : ascii => Nat.eqb (code c) 47) with is_slash. rewrite (split_on_none is_slash f) by now apply plain_no_slash. reflexivity. Qed.
Lemma basename_full_path dir f : file_name f -> basename (full_path dir f) = f.
Proof.
  intro Hf. destruct (full_path_form dir) as [P [HP H]]. rewrite (H f Hf). destruct HP as [->|[P' ->]].
  - apply basename_name. apply Hf.
  - rewrite sapp_assoc. apply basename_app_slash. apply Hf.
Qed.
Lemma full_path_gz dir f : file_name f -> full_path dir f +++ ".gz" = full_path dir (f +++ ".gz").
Proof.
  intro Hf. destruct (full_path_form dir) as [P [_ H]]. rewrite (H f Hf), (H (f +++ ".gz")); [now rewrite sapp_assoc|].
  destruct Hf as [Pf [Nf _]]. split; [unfold plain_name in *; rewrite sforall_app, Pf; reflexivity|].
  repeat split; intro C; apply (f_equal String.length) in C; rewrite slen_app in C; destruct f; try congruence; cbn in C; lia.
Qed.
Lemma ends_with_full_path dir f p : file_name f -> ends_with p f = true -> ends_with p (full_path dir f) = true.
Proof.
  intros Hf H. destruct (full_path_form dir) as [P [_ HP]]. rewrite (HP f Hf). apply ends_with_spec in H as [t ->]. rewrite <- sapp_assoc. apply ends_with_app.
Qed.

(** ** table names *)
Lemma plain_app a b : plain_name a -> plain_name b -> plain_name (a +++ b).
Proof. unfold plain_name. intros H1 H2. now rewrite sforall_app, H1, H2. Qed.
Definition is_int_char (c : ascii) : bool := (is_digit c || Ascii.eqb c "-")%bool.
Lemma uint_digits u : sforall is_digit (NilEmpty.string_of_uint u) = true.
Proof. induction u as [|u IH|u IH|u IH|u IH|u IH|u IH|u IH|u IH|u IH|u IH]; cbn [NilEmpty.string_of_uint sforall]; try rewrite IH; reflexivity. Qed.
Lemma uint_digits0 u : sforall is_digit (NilZero.string_of_uint u) = true.
Proof. destruct u; try reflexivity; apply (uint_digits (_ u)). Qed.
Lemma str_of_Z_chars z : sforall is_int_char (str_of_Z z) = true.
Proof.
  unfold str_of_Z. assert (G : forall s, sforall is_digit s = true -> sforall is_int_char s = true) by (intros s; apply sforall_impl; intros c Hc; unfold is_int_char; now rewrite Hc).
  destruct (Z.to_int z) as [u|u]; cbn [NilZero.string_of_int].
  - apply G, uint_digits0.
  - cbn [sforall]. rewrite (G _ (uint_digits0 u)). reflexivity.
Qed.
Lemma int_char_neq c d : is_int_char d = false -> is_int_char c = true -> negb (Ascii.eqb c d) = true.
Proof. intros Hd Hc. destruct (Ascii.eqb_spec c d) as [->|_]; [congruence|reflexivity]. Qed.
Lemma plain_str_of_Z z : plain_name (str_of_Z z).
Proof. unfold plain_name. apply (sforall_impl is_int_char); [|apply str_of_Z_chars]. intros c. now apply int_char_neq. Qed.
Lemma plain_prognum i : plain_name (prognum i).
Proof. destruct i; [reflexivity|]. unfold prognum. apply plain_app; [reflexivity|apply plain_str_of_Z]. Qed.
Lemma suffix_cases m : In m (map fst suffixes) -> In (suffix_of m) (map snd suffixes).
Proof. cbn. intros H. repeat (destruct H as [<-|H]; [cbn; tauto|]). destruct H. Qed.
Lemma plain_suffix m : plain_name (suffix_of m).
Proof.
  unfold suffix_of. destruct (dget String.eqb suffixes m) as [s|] eqn:E; [|reflexivity]. apply (dget_In String.eqb String_eqb_spec') in E. cbn in E.
  repeat (destruct E as [E|E]; [injection E as <- <-; reflexivity|]). destruct E.
Qed.
Lemma table_name_file r i : good_request r -> file_name (table_name r (prognum i)).
Proof.
  intros [_ Hs]. split.
  - unfold table_name. repeat (apply plain_app); try reflexivity; try exact Hs; try apply plain_prognum; try apply plain_str_of_Z; apply plain_suffix.
  - unfold table_name. repeat split; discriminate.
Qed.
Lemma prognum_inj i j : prognum i = prognum j -> i = j.
Proof.
  unfold prognum. destruct i, j; intro H; try reflexivity; try discriminate H. injection H as H. apply str_of_Z_inj in H. lia.
Qed.
Lemma table_name_inj r i j : table_name r (prognum i) = table_name r (prognum j) -> i = j.
Proof.
  unfold table_name. intro H. apply sapp_inj_l in H. apply prognum_inj. revert H. apply sapp_inj_r.
Qed.
Lemma table_name_gz r p : ends_with ".gz" (table_name r p) = true.
Proof.
  apply ends_with_spec. unfold table_name. exists ("tbl" +++ p +++ "_" +++ q_source r +++ "_" +++ str_of_Z (q_size r) +++ "_" +++ suffix_of (q_mode r) +++ ".npy").
  rewrite !sapp_assoc. reflexivity.
Qed.
Lemma table_name_tbl r p : starts_with "tbl" (table_name r p) = true. Proof. reflexivity. Qed.

(** ** the loop over names *)
Lemma fresh_name_spec d dir r fuel : forall i path, fresh_name fuel d dir r i = Some path ->
  exists_file d path = false /\ exists j, path = full_path dir (table_name r (prognum j)).
Proof.
  induction fuel as [|fuel IH]; intros i path H; cbn [fresh_name] in H; [discriminate|].
  destruct (exists_file d (full_path dir (table_name r (prognum i)))) eqn:E; [exact (IH _ _ H)|]. injection H as <-. split; [exact E|]. now exists i.
Qed.
Lemma fresh_name_none d dir r fuel : forall i, fresh_name fuel d dir r i = None ->
  forall k, (i <= k < i + fuel)%nat -> exists_file d (full_path dir (table_name r (prognum k))) = true.
Proof.
  induction fuel as [|fuel IH]; intros i H k Hk; [lia|]. cbn [fresh_name] in H.
  destruct (exists_file d (full_path dir (table_name r (prognum i)))) eqn:E; [|discriminate].
  destruct (Nat.eq_dec k i) as [->|Hn]; [exact E|]. apply (IH (S i) H). lia.
Qed.
Lemma fresh_name_total d dir r : good_request r -> exists path, fresh_name (S (List.length (d_files d))) d dir r 0 = Some path.
Proof.
  intro Hr. destruct (fresh_name (S (List.length (d_files d))) d dir r 0) as [path|] eqn:E; [eauto|]. exfalso.
  pose proof (fresh_name_none d dir r _ _ E) as H.
  set (names := map (fun k => full_path dir (table_name r (prognum k))) (seq 0 (S (List.length (d_files d))))).
  assert (Hi : incl names (dkeys (d_files d))).
  { intros p Hp. apply in_map_iff in Hp as [k [<- Hk]]. apply in_seq in Hk. apply (dmem_In String.eqb String_eqb_spec'). apply H. lia. }
  assert (Hn : NoDup names).
  { unfold names. apply FinFun.Injective_map_NoDup; [|apply seq_NoDup]. intros a b Eab. apply (table_name_inj r). apply (full_path_inj dir); [now apply table_name_file|now apply table_name_file|exact Eab]. }
  pose proof (NoDup_incl_length Hn Hi) as L. unfold names, dkeys in L. rewrite !map_length, seq_length in L. lia.
Qed.

(** ** overwriting *)
Lemma keeps_refl d : keeps d d. Proof. intros path c H. exact H. Qed.
Lemma keeps_trans a b c : keeps a b -> keeps b c -> keeps a c. Proof. intros H1 H2 path x H. apply H2, H1, H. Qed.
Lemma exists_file_false d p : exists_file d p = false <-> dget String.eqb (d_files d) p = None.
Proof. unfold exists_file, dmem. destruct (dget String.eqb (d_files d) p); split; congruence. Qed.
Lemma save_keeps d path c : exists_file d (saved_as path) = false -> keeps d (save_table d path c).
Proof.
  intros H p x Hp. unfold save_table. cbn [d_files]. rewrite (dget_dset String.eqb String_eqb_spec'). destruct (String.eqb_spec p (saved_as path)) as [->|_]; [|exact Hp].
  apply exists_file_false in H. congruence.
Qed.
(** what _intertable_filename gives *)
Lemma filename_new e d p r path : dget String.eqb (p_vars p) (table_id r) = None -> intertable_filename e d p r = Ok path ->
  e_create e = true /\ e_write e = Ok tt /\ exists_file d path = false /\ exists j, path = full_path (p_dir p) (table_name r (prognum j)).
Proof.
  intros Hn H. unfold intertable_filename in H. rewrite Hn in H. destruct (e_create e); [|discriminate]. cbn [negb] in H.
  destruct (e_write e) as [[]|]; [|discriminate]. cbn [rbind] in H. destruct (fresh_name _ d (p_dir p) r 0) as [q|] eqn:E; [|discriminate].
  injection H as <-. apply fresh_name_spec in E. tauto.
Qed.
Lemma saved_as_gz path : ends_with ".gz" path = true -> saved_as path = path.
Proof. intro H. unfold saved_as. now rewrite H. Qed.
Lemma interpolate_keeps e d p r d' p' c : good_request r ->
  (forall name, dget String.eqb (p_vars p) (table_id r) = Some name -> file_name name /\ (ends_with ".gz" name = true \/ ends_with ".npy" name = true)) ->
  interpolate e d p r = Ok (d', p', c) -> keeps d d'.
Proof.
  intros Hr Hc H. unfold interpolate in H. apply rbind_ok in H as [path [Hp H]].
  destruct (table_found d r path) eqn:Ef.
  { apply rbind_ok in H as [[c0 p0] [_ H]]. injection H as <- _ _. apply keeps_refl. }
  destruct (e_create e); [|discriminate]. apply rbind_ok in H as [u [_ H]]. unfold register in H. injection H as <- _ _.
  assert (G : exists_file d (saved_as path) = false).
  { destruct (dget String.eqb (p_vars p) (table_id r)) as [name|] eqn:En.
    - destruct (Hc name eq_refl) as [Hf He].
      assert (Enf : exists_file d path = false) by (unfold table_found in Ef; destruct (is_grib_mode _); [exact Ef|now apply Bool.orb_false_iff in Ef]).
      unfold intertable_filename in Hp. rewrite En in Hp.
      assert (Gp : forall dir, exists_file d (full_path dir name) = false -> exists_file d (saved_as (full_path dir name)) = false).
      { intros dir Hx. destruct He as [He|He]; [rewrite saved_as_gz by (apply ends_with_full_path; assumption); exact Hx|].
        unfold saved_as. destruct (ends_with ".gz" (full_path dir name)); [exact Hx|]. rewrite (ends_with_full_path dir name ".npy" Hf He). exact Hx. }
      destruct (negb (String.eqb (p_dir p) "") && (exists_file d (full_path (p_dir p) name) || exists_file d (full_path (p_dir p) name +++ ".gz")))%bool eqn:E1;
        [injection Hp as <-; now apply Gp|].
      destruct (exists_file d (full_path (e_gdir e) name)) eqn:E3; cbn [orb] in Hp; [injection Hp as <-; congruence|].
      destruct (exists_file d (full_path (e_gdir e) name +++ ".gz")) eqn:E4; [injection Hp as <-; now apply Gp|].
      destruct (e_create e); [|discriminate]. cbn [negb] in Hp. apply rbind_ok in Hp as [u' [_ Hp]]. injection Hp as <-.
      destruct (ends_with ".gz" (full_path (p_dir p) name)) eqn:Eg; [rewrite saved_as_gz by exact Eg; exact Enf|].
      rewrite saved_as_gz by apply ends_with_app. exact Enf.
    - destruct (filename_new e d p r path En Hp) as [_ [_ [Hx [j ->]]]]. rewrite saved_as_gz; [exact Hx|]. apply ends_with_full_path; [now apply table_name_file|apply table_name_gz]. }
  intros q x Hq. cbn [d_files]. exact (save_keeps d path (Some r) G q x Hq).
Qed.

(** ** histories *)
Definition pinv (e : env) (d : disk) (dir : string) (p : proc) : Prop :=
  p_dir p = dir /\ p_user p = d_user d /\ (forall id, dget String.eqb (p_vars p) id = configured e d id) /\
  (forall path c, dget String.eqb (p_cache p) path = Some c -> dget String.eqb (d_files d) path = Some c).
Definition inv (e : env) (dir : string) (s : state) : Prop :=
  dir <> "" /\ NoDup (dkeys (d_user (s_disk s))) /\ no_double_gz (s_disk s) /\ own_tables e (s_disk s) dir /\ match s_proc s with Some p => pinv e (s_disk s) dir p | None => True end.

Lemma last_binding_NoDup (l : list (string * string)) k : NoDup (dkeys l) -> last_binding String.eqb l k = dget String.eqb l k.
Proof.
  induction l as [|[k0 v0] l IH]; intro H; cbn [last_binding dget]; [reflexivity|]. cbn [dkeys map fst] in H. inversion H as [|? ? Hn Hd]; subst.
  rewrite (IH Hd). destruct (dget String.eqb l k) as [v|] eqn:E.
  - destruct (String.eqb_spec k k0) as [->|_]; [|reflexivity]. exfalso. apply Hn. apply (dget_In String.eqb String_eqb_spec') in E. apply in_map_iff. exists (k0, v). auto.
  - reflexivity.
Qed.
Lemma start_inv e d dir : NoDup (dkeys (d_user d)) -> pinv e d dir (start e d dir).
Proof.
  intro H. unfold pinv, start. cbn [p_dir p_user p_vars p_cache]. split; [reflexivity|]. split; [reflexivity|]. split; [|intros path c C; discriminate C].
  intro id. rewrite (dget_dupdate String.eqb String_eqb_spec'). rewrite last_binding_NoDup by exact H. reflexivity.
Qed.
Lemma tbl_gz_prefix n : starts_with "tbl" (n +++ ".gz") = true -> starts_with "tbl" n = true.
Proof.
  destruct n as [|a [|b [|c n]]]; cbn [String.append starts_with]; intro H.
  - discriminate H.
  - rewrite Bool.andb_true_iff in H. destruct H as [_ H]. discriminate H.
  - rewrite !Bool.andb_true_iff in H. destruct H as [_ [_ [H _]]]. discriminate H.
  - rewrite !Bool.andb_true_iff in *. tauto.
Qed.
Lemma file_name_gz f : file_name f -> file_name (f +++ ".gz").
Proof.
  intros [Pf [Nf _]]. split; [unfold plain_name in *; rewrite sforall_app, Pf; reflexivity|].
  repeat split; intro C; apply (f_equal String.length) in C; rewrite slen_app in C; destruct f; try congruence; cbn in C; lia.
Qed.
(** a new file under a name that is not in use leaves the tables in place *)
Lemma own_tables_save e d dir j r c : good_request r -> own_tables e d dir ->
  exists_file d (full_path dir (table_name r (prognum j))) = false ->
  own_tables e (save_table d (full_path dir (table_name r (prognum j))) c) dir.
Proof.
  intros Hr Ho Hx id name Hc. set (path := full_path dir (table_name r (prognum j))) in *.
  assert (Es : saved_as path = path) by (apply saved_as_gz; apply ends_with_full_path; [now apply table_name_file|apply table_name_gz]).
  assert (K : keeps d (save_table d path c)) by (apply save_keeps; now rewrite Es).
  destruct (Ho id name Hc) as [Hf Ht]. split; [exact Hf|]. destruct Ht as [[r' [H1 H2]]|[H0 [H1 [H2 [r' [H3 H4]]]]]].
  - left. exists r'. split; [now apply K|exact H2].
  - right. split; [exact H0|].
    assert (G : forall f, file_name f -> starts_with "tbl" f = false -> exists_file d (full_path dir f) = false -> exists_file (save_table d path c) (full_path dir f) = false).
    { intros f Hff Ht Hxf. unfold exists_file, save_table, dmem. cbn [d_files]. rewrite (dget_dset String.eqb String_eqb_spec'), Es.
      destruct (String.eqb_spec (full_path dir f) path) as [E|_]; [|exact Hxf]. exfalso. apply full_path_inj in E; [|exact Hff|now apply table_name_file]. rewrite E in Ht. discriminate Ht. }
    split; [now apply G|]. rewrite (full_path_gz dir name Hf) in *. split.
    { apply G; [now apply file_name_gz| |exact H2]. destruct (starts_with "tbl" (name +++ ".gz")) eqn:E; [|reflexivity]. apply tbl_gz_prefix in E. congruence. }
    exists r'. split; [now apply K|exact H4].
Qed.
Lemma saved_table d dir j r : good_request r -> has_table (save_table d (full_path dir (table_name r (prognum j))) (Some r)) (full_path dir (table_name r (prognum j))) (table_id r).
Proof.
  intro Hr. exists r. split; [|reflexivity]. unfold save_table. cbn [d_files]. rewrite saved_as_gz by (apply ends_with_full_path; [now apply table_name_file|apply table_name_gz]).
  rewrite (dget_dset String.eqb String_eqb_spec'), (proj2 (String_eqb_spec' _ _) eq_refl). reflexivity.
Qed.

(** a use of a configured table *)
Lemma use_configured e d dir p r name : dir <> "" -> pinv e d dir p -> own_tables e d dir -> configured e d (table_id r) = Some name ->
  exists p' r', interpolate e d p r = Ok (d, p', Some r') /\ table_id r' = table_id r /\ pinv e d dir p'.
Proof.
  intros Nd [Pd [Pu [Pv Pc]]] Ho Hc. destruct (Ho _ _ Hc) as [Hf Ht]. apply String.eqb_neq in Nd.
  assert (G : exists path r', intertable_filename e d p r = Ok path /\ dget String.eqb (d_files d) path = Some (Some r') /\ table_id r' = table_id r).
  { unfold intertable_filename. rewrite Pv, Hc, Pd, Nd. cbn [negb andb]. destruct Ht as [[r' [H1 H2]]|[_ [H1 [H2 [r' [H3 H4]]]]]].
    - exists (full_path dir name), r'. assert (E : exists_file d (full_path dir name) = true) by (unfold exists_file, dmem; now rewrite H1). rewrite E. auto.
    - exists (full_path (e_gdir e) name), r'. rewrite H1, H2. cbn [orb]. assert (E : exists_file d (full_path (e_gdir e) name) = true) by (unfold exists_file, dmem; now rewrite H3). rewrite E. auto. }
  destruct G as [path [r' [H1 [H2 H3]]]]. unfold interpolate. rewrite H1. cbn [rbind].
  assert (E : exists_file d path = true) by (unfold exists_file, dmem; now rewrite H2).
  assert (Ef : table_found d r path = true) by (unfold table_found; rewrite E; now destruct (is_grib_mode _)). rewrite Ef.
  unfold read_intertable. destruct (dget String.eqb (p_cache p) path) as [c|] eqn:Ec.
  - cbn [rbind]. pose proof (Pc _ _ Ec) as Hcc. assert (c = Some r') by congruence. subst c. exists p, r'. split; [reflexivity|]. split; [exact H3|]. repeat split; assumption.
  - assert (El : load d path = Ok (Some r')) by (unfold load; now rewrite H2). rewrite El. destruct (ends_with ".gz" path); cbn [rbind]; eexists _, r'; (split; [reflexivity|]; split; [exact H3|]; unfold pinv; cbn [p_dir p_user p_vars p_cache]; repeat split; try assumption;
      intros q c Hq; rewrite (dget_dset String.eqb String_eqb_spec') in Hq; revert Hq; destruct (String.eqb_spec q path) as [->|_]; intro Hq; [rewrite H2; exact Hq|exact (Pc _ _ Hq)]).
Qed.
Lemma path_gz path : ends_with ".gz" path = true -> exists q, path = q +++ ".gz". Proof. apply ends_with_spec. Qed.
Lemma sapp_cancel_r a b s : a +++ s = b +++ s -> a = b. Proof. apply sapp_inj_r. Qed.
Lemma no_double_save d dir r j c : good_request r -> no_double_gz d -> no_double_gz (save_table d (full_path dir (table_name r (prognum j))) c).
Proof.
  intros Hr Hd q. unfold exists_file, dmem, save_table. cbn [d_files]. rewrite saved_as_gz by (apply ends_with_full_path; [now apply table_name_file|apply table_name_gz]).
  rewrite (dget_dset String.eqb String_eqb_spec'). destruct (String.eqb_spec (q +++ ".gz.gz") (full_path dir (table_name r (prognum j)))) as [E|_]; [|exact (Hd q)].
  exfalso. destruct (full_path_form dir) as [P [_ HP]]. rewrite (HP _ (table_name_file r j Hr)) in E. unfold table_name in E.
  change (".npy.gz") with (".npy" +++ ".gz") in E. change (".gz.gz") with (".gz" +++ ".gz") in E. rewrite <- !sapp_assoc in E. apply sapp_inj_r in E.
  assert (L : forall a b, a +++ ".gz" = b +++ ".npy" -> False).
  { intros a b H. apply (f_equal rev_string) in H. rewrite !rev_string_app in H. discriminate H. }
  exact (L _ _ E).
Qed.
(** a use that creates a table *)
Lemma use_new e d dir p r : dir <> "" -> good_request r -> NoDup (dkeys (d_user d)) -> no_double_gz d -> pinv e d dir p -> own_tables e d dir -> configured e d (table_id r) = None ->
  e_create e = true -> e_write e = Ok tt ->
  exists d' p' path, interpolate e d p r = Ok (d', p', Some r) /\ keeps d d' /\ inv e dir (mkState d' (Some p')) /\
    configured e d' (table_id r) = Some (basename path) /\ dget String.eqb (d_files d') path = Some (Some r) /\ exists_file d path = false.
Proof.
  intros Nd Hr Hnd Hdg [Pd [Pu [Pv Pc]]] Ho Hn Hcr Hwr.
  assert (Ev : dget String.eqb (p_vars p) (table_id r) = None) by now rewrite Pv.
  destruct (fresh_name_total d (p_dir p) r Hr) as [path Efr].
  assert (Hp : intertable_filename e d p r = Ok path) by (unfold intertable_filename; rewrite Ev, Hcr, Hwr; cbn [negb rbind]; now rewrite Efr).
  apply fresh_name_spec in Efr as [Hx [j Ej]]. rewrite Pd in Ej.
  assert (Gz : ends_with ".gz" path = true) by (rewrite Ej; apply ends_with_full_path; [now apply table_name_file|apply table_name_gz]).
  assert (Ef : table_found d r path = false).
  { unfold table_found. rewrite Hx. destruct (path_gz path Gz) as [q Eq]. cbn [orb]. destruct (is_grib_mode (q_mode r)); [reflexivity|].
    rewrite Eq, sapp_assoc. exact (Hdg q). }
  unfold interpolate. rewrite Hp. cbn [rbind]. rewrite Ef, Hcr, Hwr. cbn [rbind]. unfold register.
  eexists _, _, path. split; [reflexivity|].
  assert (Es : saved_as path = path) by now apply saved_as_gz.
  assert (K : keeps d (save_table d path (Some r))) by (apply save_keeps; now rewrite Es).
  assert (Hname : basename path = table_name r (prognum j)) by (rewrite Ej; apply basename_full_path; now apply table_name_file).
  assert (Hcf : forall id, configured e (mkDisk (d_files (save_table d path (Some r))) (dset String.eqb (p_user p) (table_id r) (basename path))) id =
                 if String.eqb id (table_id r) then Some (basename path) else configured e d id).
  { intro id. unfold configured. cbn [d_user]. rewrite (dget_dset String.eqb String_eqb_spec'), Pu. destruct (String.eqb id (table_id r)); reflexivity. }
  assert (Hfile : dget String.eqb (d_files (save_table d path (Some r))) path = Some (Some r)).
  { unfold save_table. cbn [d_files]. rewrite Es, (dget_dset String.eqb String_eqb_spec'), (proj2 (String_eqb_spec' _ _) eq_refl). reflexivity. }
  split; [exact K|]. split; [|split; [rewrite Hcf, (proj2 (String_eqb_spec' _ _) eq_refl); reflexivity|split; [exact Hfile|exact Hx]]].
  split; [exact Nd|]. split; [cbn [s_disk d_user]; rewrite Pu; now apply (NoDup_dset String.eqb String_eqb_spec')|].
  split; [intro q; cbn [s_disk]; unfold exists_file; cbn [d_files]; rewrite Ej; exact (no_double_save d dir r j (Some r) Hr Hdg q)|]. split.
  - intros id name Hc. cbn [s_disk] in *. rewrite Hcf in Hc. revert Hc. destruct (String.eqb_spec id (table_id r)) as [->|_]; intro Hc.
    + assert (En : name = basename path) by congruence. subst name. rewrite Hname. split; [now apply table_name_file|]. left. rewrite <- Ej. exists r. split; [exact Hfile|reflexivity].
    + rewrite Ej in Hx. pose proof (own_tables_save e d dir j r (Some r) Hr Ho Hx id name) as G. rewrite <- Ej in G. exact (G Hc).
  - cbn [s_disk s_proc]. unfold pinv. cbn [p_dir p_user p_vars p_cache d_user d_files]. split; [exact Pd|]. split; [reflexivity|]. split.
    + intro id. rewrite Hcf, (dget_dset String.eqb String_eqb_spec'). destruct (String.eqb id (table_id r)); [reflexivity|apply Pv].
    + intros q c Hq. rewrite (dget_dset String.eqb String_eqb_spec') in Hq. revert Hq. destruct (String.eqb_spec q path) as [->|_]; intro Hq; [|exact (K _ _ (Pc _ _ Hq))].
      assert (c = Some r) by congruence. subst c. exact Hfile.
Qed.
(** a use that cannot create a table *)
Lemma use_blocked e d dir p r : pinv e d dir p -> configured e d (table_id r) = None -> e_create e && is_ok (e_write e) = false ->
  exists x, interpolate e d p r = Raise x.
Proof.
  intros [_ [_ [Pv _]]] Hn Hb. unfold interpolate, intertable_filename. rewrite Pv, Hn. destruct (e_create e); cbn [negb rbind]; [|eauto].
  destruct (e_write e) as [[]|x]; [discriminate Hb|]. cbn [rbind]. eauto.
Qed.
Lemma crashed_inv e d dir p r c : dir <> "" -> good_request r -> NoDup (dkeys (d_user d)) -> no_double_gz d -> own_tables e d dir -> pinv e d dir p ->
  inv e dir (mkState (crashed e d p r c) None) /\ keeps d (crashed e d p r c).
Proof.
  intros Nd Hr Hnd Hdg Ho HP. pose proof (proj2 (String.eqb_neq _ _) Nd) as Nd'. pose proof HP as [Pd [_ [Pv _]]]. unfold crashed.
  destruct (intertable_filename e d p r) as [path|] eqn:Ep; [|split; [exact (conj Nd (conj Hnd (conj Hdg (conj Ho I))))|apply keeps_refl]].
  destruct (table_found d r path) eqn:Ef; [split; [exact (conj Nd (conj Hnd (conj Hdg (conj Ho I))))|apply keeps_refl]|].
  destruct (configured e d (table_id r)) as [name|] eqn:Hc.
  { exfalso. destruct (use_configured e d dir p r name Nd HP Ho Hc) as [p' [r' [Hu _]]]. unfold interpolate in Hu. rewrite Ep in Hu. cbn [rbind] in Hu. rewrite Ef in Hu.
    (* a configured table is found, never created *)
    destruct (Ho _ _ Hc) as [Hf Ht]. unfold intertable_filename in Ep. rewrite Pv, Hc, Pd, Nd' in Ep. cbn [negb andb] in Ep.
    assert (G : exists_file d path = true).
    { destruct Ht as [[r0 [H1 _]]|[_ [H1 [H2 [r0 [H3 _]]]]]].
      - assert (E : exists_file d (full_path dir name) = true) by (unfold exists_file, dmem; now rewrite H1). rewrite E in Ep. cbn [orb] in Ep. injection Ep as <-. exact E.
      - assert (E : exists_file d (full_path (e_gdir e) name) = true) by (unfold exists_file, dmem; now rewrite H3). rewrite H1, H2, E in Ep. cbn [orb] in Ep. injection Ep as <-. exact E. }
    unfold table_found in Ef. rewrite G in Ef. destruct (is_grib_mode (q_mode r)); discriminate Ef. }
  assert (Ev : dget String.eqb (p_vars p) (table_id r) = None) by now rewrite Pv.
  destruct (filename_new e d p r path Ev Ep) as [_ [_ [Hx [j Ej]]]]. rewrite Pd in Ej. subst path.
  assert (G : forall k, inv e dir (mkState (save_table d (full_path dir (table_name r (prognum j))) k) None) /\ keeps d (save_table d (full_path dir (table_name r (prognum j))) k)).
  { intro k. split; [split; [exact Nd|]; split; [exact Hnd|split; [now apply no_double_save|split; [now apply own_tables_save|exact I]]]|].
    apply save_keeps. rewrite saved_as_gz by (apply ends_with_full_path; [now apply table_name_file|apply table_name_gz]). exact Hx. }
  destruct c; [split; [exact (conj Nd (conj Hnd (conj Hdg (conj Ho I))))|apply keeps_refl]|apply G|apply G].
Qed.

(** what a use of the state gives: the table of the request, unless there is
    none and none can be created *)
Definition fair (e : env) (o : request * res content) : Prop :=
  match snd o with
  | Ok c => built_for (fst o) c
  | Raise _ => e_create e && is_ok (e_write e) = false
  end.
Lemma step_inv e dir s ev : inv e dir s -> in_dir dir ev ->
  inv e dir (fst (step e s ev)) /\ keeps (s_disk s) (s_disk (fst (step e s ev))) /\ match snd (step e s ev) with Some o => fair e o | None => True end.
Proof.
  intros Hi Hd. pose proof Hi as [Nd [Hnd [Hdg [Ho HP]]]]. destruct s as [d sp]. cbn [s_disk s_proc] in *. destruct ev as [dir'|r|r c]; cbn [in_dir] in Hd; unfold step; cbn [s_disk s_proc].
  - subst dir'. cbn [fst snd s_disk]. split; [split; [exact Nd|split; [exact Hnd|split; [exact Hdg|split; [exact Ho|now apply start_inv]]]]|]. split; [apply keeps_refl|exact I].
  - destruct sp as [p|]; [|cbn [fst snd s_disk]; split; [exact Hi|split; [apply keeps_refl|exact I]]].
    destruct (configured e d (table_id r)) as [name|] eqn:Hc.
    + destruct (use_configured e d dir p r name Nd HP Ho Hc) as [p' [r' [Hu [Ht HP']]]]. rewrite Hu. cbn [fst snd s_disk].
      split; [split; [exact Nd|split; [exact Hnd|split; [exact Hdg|split; [exact Ho|exact HP']]]]|]. split; [apply keeps_refl|]. exists r'. auto.
    + destruct (e_create e && is_ok (e_write e)) eqn:Hb.
      * apply Bool.andb_true_iff in Hb as [Hb1 Hb2]. destruct (e_write e) as [[]|] eqn:Hw; [|discriminate Hb2].
        destruct (use_new e d dir p r Nd Hd Hnd Hdg HP Ho Hc Hb1 Hw) as [d' [p' [path [Hu [K [HI _]]]]]]. rewrite Hu. cbn [fst snd s_disk]. split; [exact HI|]. split; [exact K|]. exists r. auto.
      * destruct (use_blocked e d dir p r HP Hc Hb) as [x Hu]. rewrite Hu. cbn [fst snd s_disk]. split; [exact Hi|]. split; [apply keeps_refl|]. exact Hb.
  - destruct sp as [p|]; [|cbn [fst snd s_disk]; split; [exact Hi|split; [apply keeps_refl|exact I]]].
    cbn [fst snd s_disk]. destruct (crashed_inv e d dir p r c Nd Hd Hnd Hdg Ho HP) as [H1 H2]. split; [exact H1|]. split; [exact H2|exact I].
Qed.
Lemma run_inv e dir evs : forall s, inv e dir s -> Forall (in_dir dir) evs ->
  inv e dir (fst (run e s evs)) /\ keeps (s_disk s) (s_disk (fst (run e s evs))) /\ Forall (fair e) (snd (run e s evs)).
Proof.
  induction evs as [|ev evs IH]; intros s Hi Hf; cbn [run]; [split; [exact Hi|split; [apply keeps_refl|constructor]]|].
  inversion Hf as [|? ? H1 H2]; subst. destruct (step_inv e dir s ev Hi H1) as [A [B C]]. destruct (step e s ev) as [s' o]. cbn [fst snd] in *.
  destruct (IH s' A H2) as [D [E F]]. destruct (run e s' evs) as [s'' os]. cbn [fst snd] in *. split; [exact D|]. split; [exact (keeps_trans _ _ _ B E)|].
  destruct o; [constructor; assumption|exact F].
Qed.

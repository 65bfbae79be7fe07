(** * Property C89: check of the configuration (config.py:334-358, files.py:7-26).
    Vocabulary: Spec_Store.v. Proofs: Store_P.v, Store_P3.v. *)
From Verif Require Import Base PyStr Writers Config Json Interp Store Spec_Config Spec_Store Base_P PyStr_P Config_P Config_P2 Json_P Store_P Store_P3.
From Coq Require Import Permutation Lia.
Local Open Scope string_scope.

(** an entry of intertables.json as pyg2p registers it *)
Definition table_entry (i : json) (name : string) : Prop :=
  exists d, i = JObj d /\ dget String.eqb d "filename" = Some (JStr name).
Lemma table_entry_item i name : table_entry i name <-> jitem i "filename" = Ok (JStr name).
Proof.
  split.
  - intros [d [-> E]]. cbn [jitem]. unfold dgetx. now rewrite E.
  - destruct i as [| | | | |d]; try discriminate. cbn [jitem]. unfold dgetx. destruct (dget String.eqb d "filename") as [v|] eqn:E; [|discriminate].
    intro H. exists d. split; [reflexivity|]. congruence.
Qed.
(** the folders can be listed *)
Definition listable (e : check_env) (t : tables) : Prop :=
  exists dir gdir, tb_data t = Some dir /\ tb_global t = Some gdir /\
    (exists l, ck_listdir e (Some dir) = Ok l) /\ (exists l, ck_listdir e (Some gdir) = Ok l).
(** an unfinished check leaves everything as it is, so the properties speak of
    the result *)
Definition checked := (list string * list string * list (string * json) * string)%type.

(** full statement: for every configuration made by pyg2p itself (a description
    and registered tables) the check succeeds, removes exactly the entries whose
    file is missing, and leaves a configuration that can be loaded *)
Definition C89_full : Prop := forall e t g dir, listable e t -> listable e g -> tb_data t = Some dir ->
  NoDup (map fst (tb_user t)) -> NoDup (map fst (tb_vars t)) ->
  (forall k i, In (k, i) (tb_user t ++ tb_vars t) -> (k = "description" /\ exists s, i = JStr s) \/ exists name, table_entry i name) ->
  exists rep_t rep_g user text, check_conf e t g = Ok (rep_t, rep_g, user, text) /\
    (forall k i name, In (k, i) (tb_user t) -> table_entry i name ->
       (dget String.eqb user k = Some i <-> ck_isfile e (path_join dir name) = true)) /\
    exists u, conf_start (JObj []) (Some text) = Ok u.

(** with a description, and so with every file made by pyg2p, the check always
    fails: a string has no file name *)
Theorem C89_description : forall e t g k s, In (k, JStr s) (tb_vars t) ->
  (forall r, check_conf e t g <> Ok r) /\
  ((forall k' i, In (k', i) (tb_vars t) -> (exists s', i = JStr s') \/ exists name, table_entry i name) -> check_conf e t g = Raise TypeError).
Proof.
  intros e t g k s Hin. unfold check_conf.
  assert (H : forall l, In (k, JStr s) l -> forall us, mapM (fun i => jitem i "filename") (dvals l) <> Ok us).
  { induction l as [|[k' i] l IH]; [contradiction|]. cbn [In dvals map snd mapM]. intros [E|Hl] us.
    - injection E as -> ->. cbn. discriminate.
    - destruct (jitem i "filename"); [|discriminate]. cbn [rbind]. specialize (IH Hl). unfold dvals in IH.
      destruct (mapM (fun i => jitem i "filename") (map snd l)) as [us'|]; [now destruct (IH us')|discriminate]. }
  split.
  - intros r E. destruct (mapM (fun i => jitem i "filename") (dvals (tb_vars t))) as [us|] eqn:Em; [|discriminate]. exact (H _ Hin us Em).
  - intro Hall. assert (G : forall l, In (k, JStr s) l -> (forall k' i, In (k', i) l -> (exists s', i = JStr s') \/ exists name, table_entry i name) ->
      mapM (fun i => jitem i "filename") (dvals l) = Raise TypeError).
    { clear. induction l as [|[k' i] l IH]; [contradiction|]. intros Hl Ha. cbn [dvals map snd mapM].
      destruct (Ha k' i (or_introl eq_refl)) as [[s' ->]|[name Hn]]; [reflexivity|].
      rewrite (proj1 (table_entry_item i name) Hn). cbn [rbind].
      destruct Hl as [E|Hl]; [injection E as -> ->; destruct Hn as [d [Hd _]]; discriminate|].
      fold (dvals l). rewrite IH; [reflexivity|exact Hl|]. intros. eapply Ha. right. eassumption. }
    rewrite (G (tb_vars t) Hin Hall). reflexivity.
Qed.
Print Assumptions C89_description.

Definition ex_check : check_env := {| ck_listdir := fun p => match p with Some "/home/u/tables" => Ok ["tbl_1.npy.gz"; "old.npy"] | _ => Ok [] end;
  ck_isdir := fun _ => false; ck_isfile := fun p => String.eqb p "/home/u/tables/tbl_1.npy.gz" |}.
Definition ex_entry (name : string) : json := JObj [("filename", JStr name); ("method", JStr "grib_nearest")].
Definition ex_tables (vars : list (string * json)) : tables :=
  {| tb_vars := vars; tb_user := vars; tb_data := Some "/home/u/tables"; tb_global := Some "/global/tables" |}.
Definition ex_geos : tables := {| tb_vars := [("description", JStr "d")]; tb_user := [("description", JStr "d")];
  tb_data := Some "/home/u/geo"; tb_global := Some "/global/geo" |}.
Lemma ex_listable vars : listable ex_check (ex_tables vars).
Proof. exists "/home/u/tables", "/global/tables". repeat split; eexists; reflexivity. Qed.
Lemma ex_listable_g : listable ex_check ex_geos.
Proof. exists "/home/u/geo", "/global/geo". repeat split; eexists; reflexivity. Qed.

Theorem C89_refuted : ~ C89_full.
Proof.
  intro H. destruct (H ex_check (ex_tables [("description", JStr "d"); ("a", ex_entry "tbl_1.npy.gz")]) ex_geos "/home/u/tables" (ex_listable _) ex_listable_g eq_refl)
    as [rt [rg [u [t [E _]]]]].
  - cbn. repeat constructor; cbn; intuition discriminate.
  - cbn. repeat constructor; cbn; intuition discriminate.
  - intros k i [E|[E|[E|[E|[]]]]]; injection E as <- <-; try (left; split; [reflexivity|eexists; reflexivity]);
      right; exists "tbl_1.npy.gz"; eexists; split; reflexivity.
  - vm_compute in E. discriminate.
Qed.
Print Assumptions C89_refuted.

(** proved: if every entry is a table, the check succeeds, and an entry stays
    exactly if its file is there; the file then holds the entries that stay *)
Theorem C89_partial : forall e t g dir, listable e t -> listable e g -> tb_data t = Some dir -> NoDup (map fst (tb_user t)) ->
  (forall k i, In (k, i) (tb_user t ++ tb_vars t) -> exists name, table_entry i name) ->
  exists rep_t rep_g user, check_conf e t g = Ok (rep_t, rep_g, user, conf_text (JObj user)) /\
    (forall k i name, dget String.eqb (tb_user t) k = Some i -> table_entry i name ->
       dget String.eqb user k = if ck_isfile e (path_join dir name) then Some i else None) /\
    (forall k, dget String.eqb (tb_user t) k = None -> dget String.eqb user k = None).
Proof.
  intros e t g dir Ht Hg Hdir Hn He. unfold check_conf.
  assert (Hm : exists us, mapM (fun i => jitem i "filename") (dvals (tb_vars t)) = Ok us).
  { assert (G : forall l : list (string * json), (forall k i, In (k, i) l -> exists name, table_entry i name) -> exists us, mapM (fun i => jitem i "filename") (dvals l) = Ok us).
    { clear. induction l as [|[k i] l IH]; intro H; [eexists; reflexivity|]. cbn [dvals map snd mapM].
      destruct (H k i (or_introl eq_refl)) as [name E]. rewrite (proj1 (table_entry_item i name) E). cbn [rbind].
      destruct IH as [us Eu]; [intros; eapply H; right; eassumption|]. fold (dvals l). rewrite Eu. eexists. reflexivity. }
    apply G. intros k i Hi. apply (He k i). apply in_or_app. now right. }
  destruct Hm as [us Eu]. rewrite Eu. cbn [rbind].
  assert (Hls : forall x, listable e x -> exists l l', ls e (tb_data x) "npy" = Ok l /\ ls e (tb_global x) "npy" = Ok l').
  { clear. intros x [d1 [d2 [-> [-> [[l1 E1] [l2 E2]]]]]]. unfold ls. rewrite E1, E2. cbn [rbind]. eauto. }
  destruct (Hls t Ht) as [lt [lt' [-> ->]]]. destruct (Hls g Hg) as [lg [lg' [-> ->]]]. cbn [rbind].
  assert (Hu : forall k i, In (k, i) (tb_user t) -> exists name, jitem i "filename" = Ok (JStr name)).
  { intros k i Hi. destruct (He k i) as [name E]; [apply in_or_app; now left|]. exists name. now apply table_entry_item. }
  destruct (keep_existing_total e dir (tb_user t) (tb_user t) Hu) as [user Ek]. rewrite Hdir, Ek. cbn [rbind].
  eexists _, _, user. split; [reflexivity|].
  destruct (keep_existing_inv e dir _ _ _ Hn Ek Hn) as [_ [_ K]]. split.
  - intros k i name Hk Hi. rewrite K, Hk. rewrite (proj1 (table_entry_item i name) Hi). reflexivity.
  - intros k Hk. rewrite K, Hk. reflexivity.
Qed.
Print Assumptions C89_partial.
Example C89_nonvacuous :
  check_conf ex_check (ex_tables [("a", ex_entry "tbl_1.npy.gz"); ("b", ex_entry "gone.npy.gz")]) ex_geos =
  Ok (["/home/u/tables/old.npy"], [], [("a", ex_entry "tbl_1.npy.gz")], conf_text (JObj [("a", ex_entry "tbl_1.npy.gz")])) /\
  loads (conf_text (JObj [("a", ex_entry "tbl_1.npy.gz")])) = Some (JObj [("a", ex_entry "tbl_1.npy.gz")]).
Proof. split; vm_compute; reflexivity. Qed.

(** when no entry stays, no process can start any more *)
Theorem C89_all_removed_refuted : ~ forall e t g rep_t rep_g user text init,
  check_conf e t g = Ok (rep_t, rep_g, user, text) -> exists u, conf_start init (Some text) = Ok u.
Proof.
  intro H. destruct (H ex_check (ex_tables [("b", ex_entry "gone.npy.gz")]) ex_geos ["/home/u/tables/old.npy"] [] [] (conf_text (JObj [])) (JObj [])) as [u Hu].
  - vm_compute. reflexivity.
  - vm_compute in Hu. discriminate.
Qed.
Print Assumptions C89_all_removed_refuted.

(** *** the files it reports *)
(** full statement: every file in the table folders that no entry names is
    reported *)
Definition unused (e : check_env) (t : tables) (f : string) : Prop :=
  exists dir name l, (tb_data t = Some dir \/ tb_global t = Some dir) /\ ck_listdir e (Some dir) = Ok l /\ In name l /\
    f = path_join dir name /\ forall k i, In (k, i) (tb_vars t) -> ~ table_entry i (basename f).
Definition C89_unused_full : Prop := forall e t g rep_t rep_g user text, check_conf e t g = Ok (rep_t, rep_g, user, text) ->
  forall f, unused e t f -> In f rep_t.
(** the tables pyg2p writes have names that end in .npy.gz: they are never
    reported *)
Theorem C89_unused_refuted : ~ C89_unused_full.
Proof.
  intro H. specialize (H ex_check (ex_tables []) ex_geos ["/home/u/tables/old.npy"] [] [] (conf_text (JObj [])) ltac:(vm_compute; reflexivity) "/home/u/tables/tbl_1.npy.gz").
  destruct H as [H|[]]; [|discriminate]. exists "/home/u/tables", "tbl_1.npy.gz", ["tbl_1.npy.gz"; "old.npy"].
  split; [now left|]. split; [reflexivity|]. split; [now left|]. split; [reflexivity|]. intros k i [].
Qed.
Print Assumptions C89_unused_refuted.
(** proved: a file is reported exactly if it is unused, its name ends in npy and
    the working directory has no folder of that name *)
Lemma ls_iff e path ext l : ls e path ext = Ok l -> forall f, In f l <->
  exists dir name names, path = Some dir /\ ck_listdir e (Some dir) = Ok names /\ In name names /\ f = path_join dir name /\
    ends_with ext name = true /\ is_dir e name = false.
Proof.
  unfold ls. destruct (ck_listdir e path) as [names|] eqn:E; [|discriminate]. cbn [rbind]. destruct path as [dir|].
  - intros H f. injection H as <-. rewrite in_map_iff. split.
    + intros [name [<- Hn]]. apply filter_In in Hn as [H1 H2]. apply andb_prop in H2 as [H2 H3]. exists dir, name, names.
      repeat split; auto. now apply Bool.negb_true_iff in H2.
    + intros [d [name [ns [Hd [Hl [Hin [-> [H1 H2]]]]]]]]. injection Hd as <-. exists name. split; [reflexivity|]. apply filter_In.
      rewrite Hl in E. injection E as ->. split; [exact Hin|]. rewrite H1, H2. reflexivity.
  - intros H f. split.
    + destruct (filter _ names); [|discriminate]. injection H as <-. contradiction.
    + intros [dir [? [? [? _]]]]. discriminate.
Qed.
Lemma named_iff l us name : mapM (fun i => jitem i "filename") (dvals l) = Ok us ->
  named us name = true <-> exists (k : string) i, In (k, i) l /\ table_entry i name.
Proof.
  revert us. induction l as [|[k i] l IH]; intros us H; cbn [dvals map snd mapM] in H.
  - injection H as <-. split; [discriminate|]. intros [? [? [[] _]]].
  - destruct (jitem i "filename") as [v|] eqn:Ev; [|discriminate]. cbn [rbind] in H. fold (dvals l) in H.
    destruct (mapM (fun i => jitem i "filename") (dvals l)) as [us'|]; [|discriminate]. cbn [rbind] in H. injection H as <-.
    specialize (IH us' eq_refl). unfold named in *. cbn [existsb]. rewrite Bool.orb_true_iff, IH. split.
    + intros [H|[k' [i' [H1 H2]]]]; [|exists k', i'; split; [now right|exact H2]].
      exists k, i. split; [now left|]. apply table_entry_item. rewrite Ev. unfold jis in H. destruct v; try discriminate.
      apply String.eqb_eq in H. now subst.
    + intros [k' [i' [[E|H1] H2]]]; [|right; eauto]. injection E as <- <-. left. apply table_entry_item in H2.
      rewrite Ev in H2. injection H2 as ->. cbn [jis]. apply String.eqb_refl.
Qed.
Theorem C89_reported_partial : forall e t g rep_t rep_g user text, check_conf e t g = Ok (rep_t, rep_g, user, text) ->
  forall f,
  (In f rep_t <->
    exists dir name l, (tb_data t = Some dir \/ tb_global t = Some dir) /\ ck_listdir e (Some dir) = Ok l /\ In name l /\
      f = path_join dir name /\ ends_with "npy" name = true /\ is_dir e name = false /\
      forall k i, In (k, i) (tb_vars t) -> ~ table_entry i (basename f)) /\
  (In f rep_g <->
    exists dir name l, (tb_data g = Some dir \/ tb_global g = Some dir) /\ ck_listdir e (Some dir) = Ok l /\ In name l /\
      f = path_join dir name /\ ends_with "npy" name = true /\ is_dir e name = false /\
      ~ In (JStr (basename f)) (map snd (tb_vars g))).
Proof.
  intros e t g rt rg user text H f. unfold check_conf in H.
  destruct (mapM (fun i => jitem i "filename") (dvals (tb_vars t))) as [us|] eqn:Eu; [|discriminate]. cbn [rbind] in H.
  destruct (ls e (tb_data t) "npy") as [lt|] eqn:E1; [|discriminate]. cbn [rbind] in H.
  destruct (ls e (tb_global t) "npy") as [lt'|] eqn:E2; [|discriminate]. cbn [rbind] in H.
  destruct (ls e (tb_data g) "npy") as [lg|] eqn:E3; [|discriminate]. cbn [rbind] in H.
  destruct (ls e (tb_global g) "npy") as [lg'|] eqn:E4; [|discriminate]. cbn [rbind] in H.
  destruct (keep_existing e (tb_data t) (tb_user t) (tb_user t)) as [u|]; [|discriminate]. cbn [rbind] in H.
  assert (Er : rt = filter (fun f => negb (named us (basename f))) (lt ++ lt')) by congruence.
  assert (Eg : rg = filter (fun f => negb (named (dvals (tb_vars g)) (basename f))) (lg ++ lg')) by congruence. clear H. subst rt rg. split.
  - rewrite filter_In, in_app_iff, (ls_iff _ _ _ _ E1), (ls_iff _ _ _ _ E2), Bool.negb_true_iff.
    assert (N : named us (basename f) = false <-> forall k i, In (k, i) (tb_vars t) -> ~ table_entry i (basename f)).
    { rewrite <- Bool.not_true_iff_false, (named_iff _ _ _ Eu). split; [intros H k i Hi Ht; apply H; eauto|]. intros H [k [i [H1 H2]]]. exact (H k i H1 H2). }
    rewrite N. clear. firstorder.
  - rewrite filter_In, in_app_iff, (ls_iff _ _ _ _ E3), (ls_iff _ _ _ _ E4), Bool.negb_true_iff.
    assert (N : named (dvals (tb_vars g)) (basename f) = false <-> ~ In (JStr (basename f)) (map snd (tb_vars g))).
    { rewrite <- Bool.not_true_iff_false. unfold named, dvals. rewrite existsb_exists. apply not_iff_compat. split.
      - intros [v [Hv Ev]]. unfold jis in Ev. destruct v; try discriminate. apply String.eqb_eq in Ev. subst. exact Hv.
      - intro Hv. exists (JStr (basename f)). split; [exact Hv|]. cbn [jis]. apply String.eqb_refl. }
    rewrite N. clear. firstorder.
Qed.
Print Assumptions C89_reported_partial.
Example C89_reported_nonvacuous :
  let e := {| ck_listdir := fun p => match p with Some "/home/u/geo" => Ok ["z.grb"; "z.npy"; "dir.npy"; "used.npy"] | _ => Ok [] end;
              ck_isdir := fun p => String.eqb p "dir.npy"; ck_isfile := fun _ => false |} in
  check_conf e (ex_tables []) {| tb_vars := [("id", JStr "used.npy")]; tb_user := []; tb_data := Some "/home/u/geo"; tb_global := Some "/global/geo" |} =
  Ok ([], ["/home/u/geo/z.npy"], [], conf_text (JObj [])).
Proof. vm_compute. reflexivity. Qed.

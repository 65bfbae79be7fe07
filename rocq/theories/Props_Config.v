(** * Properties C22-C27 and C66 (main/config.py). Vocabulary: Spec_Config.v.
    Proofs: Config_P.v, Config_P2.v. *)
From Verif Require Import Base PyStr Writers Config Spec_Config Base_P PyStr_P Config_P Config_P2.
From Coq Require Import Permutation.
Local Open Scope string_scope.

(** ** C22: properties files *)
(** full statement: loading succeeds and every key has the text after the first
    equals sign of the last line that defines it *)
Definition C22_full : Prop := forall lines, lines <> [] -> Forall one_line lines ->
  exists d, load_properties (join newline lines) = Ok d /\ forall k, dget String.eqb d k = last_def lines k.
(** a value that contains an equals sign is cut at that sign *)
Theorem C22_value_with_equals_refuted : ~ C22_full.
Proof.
  intro H. destruct (H ["URL=http://host/?a=b"]) as [d [Hd Hk]]; [discriminate|repeat constructor|].
  vm_compute in Hd. injection Hd as <-. specialize (Hk "URL"). vm_compute in Hk. discriminate.
Qed.
Print Assumptions C22_value_with_equals_refuted.
(** proved when every line that is not blank or a comment has exactly one
    equals sign *)
Theorem C22_properties_partial : forall lines, lines <> [] -> Forall one_line lines ->
  Forall (fun l => meaningful l = true -> count_eq (strip_ws l) = 1%nat) lines ->
  exists d, load_properties (join newline lines) = Ok d /\ forall k, dget String.eqb d k = last_def lines k.
Proof. exact load_properties_ok. Qed.
Print Assumptions C22_properties_partial.
(** loading fails exactly when some line has no equals sign, and then with an
    IndexError *)
Theorem C22_malformed_line : forall lines, lines <> [] -> Forall one_line lines ->
  ((exists d, load_properties (join newline lines) = Ok d) <->
     Forall (fun l => meaningful l = true -> (1 <= count_eq (strip_ws l))%nat) lines) /\
  (load_properties (join newline lines) = Raise IndexError <->
     Exists (fun l => meaningful l = true /\ count_eq (strip_ws l) = O) lines).
Proof. exact load_properties_total. Qed.
Print Assumptions C22_malformed_line.
Example C22_nonvacuous :
  let lines := ["# paths"; ""; "  MAPS = /data/maps "; "EMPTY="; "MAPS=/other"; "TMP = ""/tmp/x"""] in
  Forall one_line lines /\ Forall (fun l => meaningful l = true -> count_eq (strip_ws l) = 1%nat) lines /\
  load_properties (join newline lines) = Ok [("MAPS", "/other"); ("EMPTY", ""); ("TMP", "/tmp/x")].
Proof.
  cbv zeta. split; [repeat constructor|]. split; [|reflexivity].
  repeat constructor; intro H; vm_compute in H; try discriminate H; reflexivity.
Qed.

(** ** C23: user configuration overrides the global one *)
Theorem C23_merge : forall global descr init user c, NoDup (dkeys user) ->
  merge_with_user_conf global descr init (Some (Some (JObj user))) = Ok c ->
  c_user c = JObj user /\ c_file c = Some (JObj user) /\
  forall k, dget String.eqb (c_vars c) k =
    match dget String.eqb user k with Some v => Some v | None => dget String.eqb global k end.
Proof. exact merge_lookup. Qed.
Print Assumptions C23_merge.
(** no user file yet: a file with the description and the initial entries *)
Theorem C23_first_run : forall global descr init, NoDup (dkeys init) -> ~ In "description" (dkeys init) -> exists c,
  merge_with_user_conf global descr init None = Ok c /\
  c_user c = JObj (("description", JStr descr) :: init) /\
  (forall k, dget String.eqb (c_vars c) k =
     match dget String.eqb (("description", JStr descr) :: init) k with Some v => Some v | None => dget String.eqb global k end) /\
  exists d, c_file c = Some (JObj d) /\ Permutation d (("description", JStr descr) :: init).
Proof. exact merge_first_run. Qed.
Print Assumptions C23_first_run.
(** merging the merged configuration with the same user entries changes nothing *)
Theorem C23_idempotent : forall global descr init user c c', NoDup (dkeys user) ->
  merge_with_user_conf global descr init (Some (Some (JObj user))) = Ok c ->
  merge_with_user_conf (c_vars c) descr init (Some (Some (JObj user))) = Ok c' ->
  (forall k, dget String.eqb (c_vars c') k = dget String.eqb (c_vars c) k) /\ c_user c' = c_user c /\ c_file c' = c_file c.
Proof.
  intros global descr init user c c' Hn H1 H2.
  destruct (merge_lookup _ _ _ _ _ Hn H1) as [A1 [A2 A3]]. destruct (merge_lookup _ _ _ _ _ Hn H2) as [B1 [B2 B3]].
  split; [|split; congruence]. intro k. rewrite B3, A3. now destruct (dget String.eqb user k).
Qed.
Print Assumptions C23_idempotent.
Example C23_nonvacuous : exists c,
  merge_with_user_conf [("tp", JStr "a"); ("2t", JStr "b")] "" [] (Some (Some (JObj [("2t", JStr "mine"); ("x", JNum 1)]))) = Ok c /\
  dget String.eqb (c_vars c) "tp" = Some (JStr "a") /\ dget String.eqb (c_vars c) "2t" = Some (JStr "mine") /\
  dget String.eqb (c_vars c) "x" = Some (JNum 1) /\ dget String.eqb (c_vars c) "y" = None.
Proof. eexists. split; [reflexivity|]. repeat split. Qed.

(** ** C24: dump and reload *)
Definition C24_full : Prop := forall global descr init user, NoDup (dkeys user) -> exists c d,
  merge_with_user_conf global descr init (Some (conf_dump (JObj user))) = Ok c /\ c_user c = JObj d /\
  forall k, dget String.eqb d k = dget String.eqb user k.
(** an empty configuration is written as a JSON string, and the next start
    fails with a ValueError *)
Theorem C24_empty_refuted : ~ C24_full /\
  (forall global descr init, merge_with_user_conf global descr init (Some (conf_dump (JObj []))) = Raise ValueError).
Proof.
  assert (G : forall global descr init, merge_with_user_conf global descr init (Some (conf_dump (JObj []))) = Raise ValueError) by reflexivity.
  split; [|exact G]. intro H. destruct (H [] "" [] []) as [c [d [E _]]]; [constructor|]. rewrite G in E. discriminate.
Qed.
Print Assumptions C24_empty_refuted.
Theorem C24_dump_reload : forall global descr init user, NoDup (dkeys user) -> user <> [] -> exists c d,
  merge_with_user_conf global descr init (Some (conf_dump (JObj user))) = Ok c /\ c_user c = JObj d /\
  (forall k, dget String.eqb d k = dget String.eqb user k) /\
  (forall k, dget String.eqb (c_vars c) k =
     match dget String.eqb user k with Some v => Some v | None => dget String.eqb global k end) /\
  (forall f, c_file c = f -> exists d', f = Some (JObj d') /\ forall k, In k (dkeys d') <-> In k (dkeys user)).
Proof. exact dump_reload. Qed.
Print Assumptions C24_dump_reload.
Example C24_nonvacuous :
  conf_dump (JObj [("b", JNum 1); ("a", JStr "x")]) = Some (JObj [("a", JStr "x"); ("b", JNum 1)]) /\
  NoDup (dkeys [("b", JNum 1); ("a", JStr "x")]).
Proof. split; [reflexivity|]. repeat constructor; cbn; intuition discriminate. Qed.

(** ** C25: parameters and conversions *)
Theorem C25_parameter : forall vars short_name,
  (forall p, param_get vars short_name = Ok p <-> dget String.eqb vars short_name = Some p /\ jtruthy p = true) /\
  (param_get vars short_name = Raise (AppExc 1100) <->
     forall p, dget String.eqb vars short_name = Some p -> jtruthy p = false).
Proof.
  intros vars s. unfold param_get. destruct (dget String.eqb vars s) as [p|].
  - destruct (jtruthy p) eqn:E.
    + split; [intro q; split; [intros [= <-]; auto|intros [[= <-] _]; reflexivity]|].
      split; [discriminate|]. intro H. specialize (H p eq_refl). congruence.
    + split; [intro q; split; [discriminate|intros [[= <-] H]; congruence]|].
      split; [intros _ q [= <-]; exact E|reflexivity].
  - split; [intro q; split; [discriminate|intros [H _]; discriminate]|]. split; [intros _ q H; discriminate|reflexivity].
Qed.
Print Assumptions C25_parameter.

(** the conversions of a parameter: one object or a list of objects *)
Definition conversions (parameter : list (string * json)) : list json :=
  match dget String.eqb parameter "Conversion" with
  | Some (JArr l) => l
  | Some (JObj d) => [JObj d]
  | _ => []
  end.
(** full statement: the first conversion with that id, or error 1200 *)
Definition C25_full : Prop := forall parameter id_,
  (exists c p q, get_conversion parameter id_ = Ok c /\ conversions parameter = (p ++ c :: q)%list /\ has_id c id_ /\
     Forall (fun c' => ~ has_id c' id_) p) \/
  (get_conversion parameter id_ = Raise (AppExc 1200) /\ Forall (fun c => ~ has_id c id_) (conversions parameter)).
(** a conversion without an id, or a parameter without a short name, gives a
    KeyError instead *)
Theorem C25_keyerror_refuted : ~ C25_full.
Proof.
  intro H. destruct (H [("@unit", JStr "K")] "k2c") as [[c [p [q [E _]]]]|[E _]]; discriminate E.
Qed.
Print Assumptions C25_keyerror_refuted.
Theorem C25_conversion : forall parameter id_,
  Forall (fun c => exists i, has_id c i) (conversions parameter) ->
  (exists s, dget String.eqb parameter "@shortName" = Some s) ->
  (exists c p q, get_conversion parameter id_ = Ok c /\ conversions parameter = (p ++ c :: q)%list /\ has_id c id_ /\
     Forall (fun c' => ~ has_id c' id_) p) \/
  (get_conversion parameter id_ = Raise (AppExc 1200) /\ Forall (fun c => ~ has_id c id_) (conversions parameter)).
Proof.
  intros parameter id_ Hc [s Hs]. unfold get_conversion.
  assert (Hnf : conversion_not_found parameter = Raise (AppExc 1200)) by (unfold conversion_not_found, dgetx; now rewrite Hs).
  unfold conversions in *. destruct (dget String.eqb parameter "Conversion") as [[| | | |l|d]|];
    try (right; split; [exact Hnf|constructor]).
  - destruct (find_conversion_spec l id_ Hc) as [[c [H1 [p [q H2]]]]|[H1 H2]]; rewrite H1; cbn [rbind].
    + left. exists c, p, q. tauto.
    + right. split; [exact Hnf|exact H2].
  - inversion Hc as [|? ? [i [d' [E Hd]]] _]; subst. injection E as <-. unfold dgetx. rewrite Hd. cbn [rbind jis].
    destruct (String.eqb_spec i id_) as [->|Hne].
    + left. exists (JObj d), [], []. repeat split; [|constructor]. exists d. auto.
    + right. split; [exact Hnf|]. constructor; [|constructor]. intros [d' [E E']]. injection E as <-. congruence.
Qed.
Print Assumptions C25_conversion.
Example C25_nonvacuous :
  let c1 := JObj [("@id", JStr "k2c"); ("@function", JStr "x=x-273.15")] in
  let c2 := JObj [("@id", JStr "id"); ("@function", JStr "x=x")] in
  let par := [("@shortName", JStr "2t"); ("Conversion", JArr [c1; c2])] in
  get_conversion par "id" = Ok c2 /\ get_conversion par "none" = Raise (AppExc 1200) /\
  Forall (fun c => exists i, has_id c i) (conversions par).
Proof.
  cbv zeta. split; [reflexivity|]. split; [reflexivity|].
  repeat constructor; eexists; eexists; split; reflexivity.
Qed.

(** ** C26: geopotential registry *)
(** full statement, one clause at a time: after an accepted add, the file
    returned for the grid contains that grid, *)
Definition C26_add_full : Prop := forall e g path g',
  geo_loaded e g -> geo_add e g path = Ok g' ->
  exists id_ p, dget String.eqb (g_fs g) path = Some id_ /\ geo_lookup e g' None id_ = Ok p /\ dget String.eqb (g_fs g') p = Some id_.
(** a second file for the same grid is refused, *)
Definition C26_second_full : Prop := forall e g path g' path' id_,
  geo_loaded e g -> geo_add e g path = Ok g' -> dget String.eqb (g_fs g) path = Some id_ ->
  dget String.eqb (g_fs g') path' = Some id_ -> geo_add e g' path' = Raise (AppExc 8300).
(** and other grids keep their file and its content *)
Definition C26_others_full : Prop := forall e g path g' id_ other p,
  geo_loaded e g -> geo_add e g path = Ok g' -> dget String.eqb (g_fs g) path = Some id_ -> other <> id_ ->
  geo_lookup e g None other = Ok p -> geo_lookup e g' None other = Ok p /\ dget String.eqb (g_fs g') p = dget String.eqb (g_fs g) p.

Definition ex_env := {| ge_global := []; ge_data := "/data"; ge_global_path := None; ge_isdir := true; ge_writable := true |}.
Definition ex_geo (fs : list (string * string)) (user : list (string * string)) :=
  {| g_vars := user; g_user := user; g_file := Some user; g_fs := fs |}.

Theorem C26_same_process_lookup_refuted : ~ C26_add_full.
Proof.
  intro H. set (g := ex_geo [("/a/z.grb", "grid1")] [("description", "d")]).
  destruct (H ex_env g "/a/z.grb" _ ltac:(repeat constructor; cbn; auto) eq_refl) as [i [p [E1 [E2 _]]]].
  vm_compute in E1. injection E1 as <-. vm_compute in E2. discriminate.
Qed.
Print Assumptions C26_same_process_lookup_refuted.
Theorem C26_second_add_refuted : ~ C26_second_full.
Proof.
  intro H. set (g := ex_geo [("/a/z.grb", "grid1"); ("/b/y.grb", "grid1")] [("description", "d")]).
  specialize (H ex_env g "/a/z.grb" _ "/b/y.grb" "grid1" ltac:(repeat constructor; cbn; auto) eq_refl eq_refl eq_refl).
  vm_compute in H. discriminate.
Qed.
Print Assumptions C26_second_add_refuted.
(** a file with the same base name overwrites the file of another grid *)
Theorem C26_same_name_refuted : ~ C26_others_full.
Proof.
  intro H. set (g := ex_geo [("/a/z.grb", "grid1"); ("/data/z.grb", "grid2")] [("grid2", "z.grb")]).
  specialize (H ex_env g "/a/z.grb" _ "grid1" "grid2" "/data/z.grb" ltac:(repeat constructor; cbn; auto) eq_refl eq_refl ltac:(discriminate) eq_refl).
  destruct H as [_ H]. vm_compute in H. discriminate.
Qed.
Print Assumptions C26_same_name_refuted.

(** proved: in the processes that follow the add, when the file name is new *)
Theorem C26_add_partial : forall e g path g', geo_loaded e g -> names_plain e g -> basename path <> "" ->
  (forall k f, dget String.eqb (g_vars g) k = Some f -> f <> basename path) ->
  geo_add e g path = Ok g' -> exists id_ g2,
  dget String.eqb (g_fs g) path = Some id_ /\ geo_reload e g' = Ok g2 /\ geo_loaded e g2 /\
  (exists p, geo_lookup e g2 None id_ = Ok p /\ dget String.eqb (g_fs g2) p = Some id_) /\
  (forall other, other <> id_ ->
     geo_lookup e g2 None other = geo_lookup e g None other /\
     forall p, geo_lookup e g None other = Ok p -> dget String.eqb (g_fs g2) p = dget String.eqb (g_fs g) p) /\
  (forall path', dget String.eqb (g_fs g2) path' = Some id_ -> geo_add e g2 path' = Raise (AppExc 8300)).
Proof. exact add_spec. Qed.
Print Assumptions C26_add_partial.
(** a grid already configured is refused and nothing changes *)
Theorem C26_refused : forall e g path id_ f, dget String.eqb (g_fs g) path = Some id_ ->
  dget String.eqb (g_vars g) id_ = Some f -> geo_add e g path = Raise (AppExc 8300).
Proof. intros e g path id_ f H1 H2. unfold geo_add. rewrite H1. unfold dmem. now rewrite H2. Qed.
Print Assumptions C26_refused.
(** removing what was added restores the configuration, if it was not empty *)
Theorem C26_remove_partial : forall e g path g' g2, geo_loaded e g -> g_user g <> [] ->
  (forall k f, dget String.eqb (g_user g) k = Some f -> f <> basename path) ->
  geo_add e g path = Ok g' -> geo_reload e g' = Ok g2 ->
  exists g4, geo_reload e (geo_remove g2 (basename path)) = Ok g4 /\ geo_loaded e g4 /\
    (forall k, dget String.eqb (g_user g4) k = dget String.eqb (g_user g) k) /\
    (forall k, dget String.eqb (g_vars g4) k = dget String.eqb (g_vars g) k).
Proof. exact remove_spec. Qed.
Print Assumptions C26_remove_partial.
(** histories of any length, one process per command, starting from a new user
    configuration: when the names of the added files are distinct and the
    added files are not those of the data folder itself, every registered grid
    is looked up to a file that contains it *)
Theorem C26_history_partial : forall e d0 fs ops,
  ge_data e <> "" -> (forall k f, dget String.eqb (ge_global e) k = Some f -> k = "description") ->
  ops_ok e fs d0 [] ops ->
  let g0 := {| g_vars := dupdate String.eqb (ge_global e) [("description", d0)]; g_user := [("description", d0)];
               g_file := Some [("description", d0)]; g_fs := fs |} in
  exists g g', geo_run e g0 ops = Ok g /\ geo_reload e g = Ok g' /\
    forall id_ p, id_ <> "description" -> geo_lookup e g' None id_ = Ok p -> dget String.eqb (g_fs g') p = Some id_.
Proof.
  intros e d0 fs ops Hd Hg Ho g0. destruct (hist_run e fs d0 ops [] g0 Hd) as [g [used [Hr Hi]]]; [|exact Ho|].
  { exists [("description", d0)]. split; [reflexivity|]. split; [repeat constructor; cbn; tauto|]. split; [reflexivity|].
    split; [|split; [|reflexivity]]; intros id_ name H Hne; exfalso; cbn in H;
      destruct (String.eqb_spec id_ "description"); congruence. }
  destruct Hi as [u [Hf [Hn [Hdesc [Hent [Hnames _]]]]]].
  destruct (reload_loaded e g u Hf Hn) as [g' [Hr' [Hl [Hu Hfs]]]].
  exists g, g'. split; [exact Hr|]. split; [exact Hr'|]. intros id_ p Hne Hlk.
  unfold geo_lookup, get_filepath in Hlk. rewrite (loaded_vars _ _ _ Hl), Hu in Hlk.
  destruct (dget String.eqb u id_) as [f|] eqn:Ef.
  - specialize (Hent _ _ Ef Hne). destruct (String.eqb f ""); [discriminate|].
    cbn [first_existing] in Hlk. destruct (String.eqb_spec (ge_data e) "") as [|_]; [contradiction|]. cbn [negb andb] in Hlk.
    assert (Em : dmem String.eqb (g_fs g') (path_join (ge_data e) f) = true) by (unfold dmem; now rewrite Hfs, Hent).
    rewrite Em in Hlk. injection Hlk as <-. now rewrite Hfs.
  - destruct (dget String.eqb (ge_global e) id_) as [f|] eqn:Eg; [|discriminate]. exfalso. apply Hne. eapply Hg; eauto.
Qed.
Print Assumptions C26_history_partial.
Example C26_nonvacuous :
  let fs := [("/a/z1.grb", "grid1"); ("/b/z2.grb", "grid2"); ("/c/z3.grb", "grid1")] in
  let ops := [OAdd "/a/z1.grb"; OAdd "/b/z2.grb"; ORemove "z1.grb"; OAdd "/c/z3.grb"] in
  ops_ok ex_env fs "d" [] ops /\
  (do g <- geo_run ex_env (ex_geo fs [("description", "d")]) ops; do g' <- geo_reload ex_env g;
   do p1 <- geo_lookup ex_env g' None "grid1"; do p2 <- geo_lookup ex_env g' None "grid2"; Ok (p1, p2))
  = Ok ("/data/z3.grb", "/data/z2.grb").
Proof.
  cbv zeta. split.
  - cbn. repeat split; intuition (try discriminate); subst; discriminate.
  - vm_compute. reflexivity.
Qed.

(** ** C27: order of the lookup *)
Theorem C27_lookup_order : forall isfile data global additional vars id_,
  (forall p, get_filepath isfile data global additional vars id_ = Ok p ->
     exists filename before folder after,
       dget String.eqb vars id_ = Some filename /\
       [additional; data; global] = (before ++ Some folder :: after)%list /\
       p = path_join folder filename /\ isfile p = true /\
       forall f, In (Some f) before -> f = "" \/ isfile (path_join f filename) = false) /\
  (get_filepath isfile data global additional vars id_ = Raise (AppExc 4000) <->
     dget String.eqb vars id_ = None \/ dget String.eqb vars id_ = Some "") /\
  (get_filepath isfile data global additional vars id_ = Raise (AppExc 4200) <->
     exists filename, dget String.eqb vars id_ = Some filename /\ filename <> "" /\
       forall f, In (Some f) [additional; data; global] -> f = "" \/ isfile (path_join f filename) = false) /\
  (forall x, get_filepath isfile data global additional vars id_ = Raise x -> x = AppExc 4000 \/ x = AppExc 4200).
Proof.
  intros isfile data global additional vars id_. unfold get_filepath.
  destruct (dget String.eqb vars id_) as [fn|].
  2:{ split; [discriminate|]. split; [split; auto|]. split; [split; [discriminate|intros [? [? _]]; discriminate]|].
      intros x [= <-]. auto. }
  destruct (String.eqb_spec fn "") as [->|Hne].
  - split; [discriminate|]. split; [split; auto|]. split; [split; [discriminate|intros [f [E [Hf _]]]; congruence]|].
    intros x [= <-]. auto.
  - destruct (first_existing isfile [additional; data; global] fn) as [p|] eqn:E.
    + apply first_existing_spec in E as [l [f [r [E1 [E2 [E3 [E4 E5]]]]]]].
      split; [intros q [= <-]; exists fn, l, f, r; repeat split; auto; intros f' Hf'; rewrite Forall_forall in E5; exact (E5 _ Hf')|]. split; [|split; [|intros x Hx; discriminate Hx]].
      * split; [discriminate|]. intros [H|H]; congruence.
      * split; [discriminate|]. intros [fn' [[= <-] [_ H]]]. exfalso.
        destruct (H f) as [H'|H']; [rewrite E1; apply in_or_app; right; now left|contradiction|congruence].
    + pose proof (first_existing_none _ _ _ E) as Hn.
      split; [discriminate|]. split; [split; [discriminate|intros [H|H]; congruence]|]. split.
      * split; [intros _; exists fn; auto|reflexivity].
      * intros x [= <-]. auto.
Qed.
Print Assumptions C27_lookup_order.
Example C27_nonvacuous :
  let vars := [("g", "z.grb")] in
  let isfile l p := existsb (String.eqb p) l in
  get_filepath (isfile ["/u/z.grb"; "/s/z.grb"]) (Some "/u") (Some "/s") None vars "g" = Ok "/u/z.grb" /\
  get_filepath (isfile ["/s/z.grb"]) (Some "/u") (Some "/s") None vars "g" = Ok "/s/z.grb" /\
  get_filepath (isfile []) (Some "/u") (Some "/s") None vars "g" = Raise (AppExc 4200).
Proof. repeat split. Qed.

(** ** C66: user variables in paths *)
(** full statement: variables are replaced by their values; an undefined one
    is reported with error 8000 *)
Definition C66_full : Prop := forall vars ps, Forall piece_ok ps ->
  (forall v x, dget String.eqb vars v = Some x -> no_braces x) ->
  ((forall v, In (Var v) ps -> dget String.eqb vars v <> None) ->
     interpolate_string vars (template ps) = Ok (rendered (fun v => match dget String.eqb vars v with Some x => x | None => "" end) ps)) /\
  ((exists v, In (Var v) ps /\ dget String.eqb vars v = None) -> interpolate_string vars (template ps) = Raise (AppExc 8000)).
Theorem C66_undefined_refuted : ~ C66_full.
Proof.
  intro H. destruct (H [] [Var "MAPS"; Lit "/lat.map"]) as [_ H2].
  - repeat constructor. discriminate.
  - discriminate.
  - specialize (H2 ltac:(exists "MAPS"; split; [now left|reflexivity])). vm_compute in H2. discriminate.
Qed.
Print Assumptions C66_undefined_refuted.
(** an undefined variable always ends with a KeyError *)
Theorem C66_undefined_keyerror : forall vars ps, Forall piece_ok ps ->
  (exists v, In (Var v) ps /\ dget String.eqb vars v = None) -> interpolate_string vars (template ps) = Raise KeyError.
Proof. exact interpolate_undefined. Qed.
Print Assumptions C66_undefined_keyerror.
Theorem C66_interpolation : forall vars ps, Forall piece_ok ps ->
  (forall v, In (Var v) ps -> exists x, dget String.eqb vars v = Some x /\ no_braces x) ->
  interpolate_string vars (template ps) = Ok (rendered (fun v => match dget String.eqb vars v with Some x => x | None => "" end) ps).
Proof. exact interpolate_ok. Qed.
Print Assumptions C66_interpolation.
Example C66_nonvacuous :
  template [Var "CONF_DIR"; Lit "/"; Var "MAPS"; Lit "lat.map"] = "{CONF_DIR}/{MAPS}lat.map" /\
  interpolate_string [("MAPS", "maps/"); ("CONF_DIR", "/etc")] "{CONF_DIR}/{MAPS}lat.map" = Ok "/etc/maps/lat.map".
Proof. split; reflexivity. Qed.

(** * Props_Interp2: C108 stored tables are found; C42 what the numbers of an identifier are. *)
From Verif Require Import Base Num PyStr Writers Config Spec_Config GribInterp Reader Interp Spec_Interp Base_P Num_P PyStr_P Writers_P Config_P2 Interp_P Interp_P2 Interp_P3 Props_Interp.
Local Open Scope string_scope.

(** ** vocabulary *)
(** where a table of that name can be, in the order of preference *)
Definition places (e : env) (dir name : string) : list string :=
  ((if String.eqb dir "" then [] else [full_path dir name; full_path dir name +++ ".gz"]) ++ [full_path (e_gdir e) name; full_path (e_gdir e) name +++ ".gz"])%list.
(** the first of the files that exists *)
Fixpoint first_file (d : disk) (paths : list string) : option (string * content) :=
  match paths with
  | [] => None
  | p :: r => match dget String.eqb (d_files d) p with Some c => Some (p, c) | None => first_file d r end
  end.
Definition grib_mode (m : string) : Prop := m = "grib_nearest" \/ m = "grib_invdist".

(** full statement: a configured table that is stored, plain or compressed, in
    the directory of the user or the global one, is the one that is applied *)
Definition C108_full : Prop := forall e d dir r name path r', good_request r -> NoDup (dkeys (d_user d)) -> no_double_gz d ->
  configured e d (table_id r) = Some name -> first_file d (places e dir name) = Some (path, Some r') ->
  exists p', interpolate e d (start e d dir) r = Ok (d, p', Some r').

Lemma grib_mode_iff r : good_request r -> is_grib_mode (q_mode r) = true <-> grib_mode (q_mode r).
Proof.
  intros [H _]. unfold grib_mode. cbn [suffixes map fst In] in H.
  split; intro G.
  - repeat destruct H as [H|H]; try contradiction; rewrite <- H in *; try (left; reflexivity); try (right; reflexivity); discriminate G.
  - destruct G as [-> | ->]; reflexivity.
Qed.
Lemma file_of d p c : dget String.eqb (d_files d) p = Some c -> exists_file d p = true.
Proof. unfold exists_file, dmem. now intros ->. Qed.
Lemma no_file_of d p : dget String.eqb (d_files d) p = None -> exists_file d p = false.
Proof. unfold exists_file, dmem. now intros ->. Qed.

(** what intertable_filename answers for a configured table *)
Lemma filename_stored e d dir r name : NoDup (dkeys (d_user d)) -> configured e d (table_id r) = Some name ->
  match first_file d (places e dir name) with
  | Some (path, c) => exists q, intertable_filename e d (start e d dir) r = Ok q /\ (q = path \/ path = q +++ ".gz" /\ exists_file d q = false)
  | None => intertable_filename e d (start e d dir) r =
              if e_create e then do _ <- e_write e; Ok (if ends_with ".gz" (full_path dir name) then full_path dir name else full_path dir name +++ ".gz")
              else Raise (AppExc 8100)
  end.
Proof.
  intros Hn Hc. pose proof (start_inv e d dir Hn) as [Pd [_ [Pv _]]]. unfold intertable_filename. rewrite Pv, Hc, Pd. unfold places.
  assert (G : forall tail, match first_file d (full_path (e_gdir e) name :: (full_path (e_gdir e) name +++ ".gz") :: [])%list with
    | Some (path, c) => exists q, (if (exists_file d (full_path (e_gdir e) name) || exists_file d (full_path (e_gdir e) name +++ ".gz"))%bool then Ok (full_path (e_gdir e) name) else tail) = Ok q
                          /\ (q = path \/ path = q +++ ".gz" /\ exists_file d q = false)
    | None => (if (exists_file d (full_path (e_gdir e) name) || exists_file d (full_path (e_gdir e) name +++ ".gz"))%bool then Ok (full_path (e_gdir e) name) else tail) = tail
    end).
  { intro tail. cbn [first_file]. destruct (dget String.eqb (d_files d) (full_path (e_gdir e) name)) as [c|] eqn:E1.
    - rewrite (file_of _ _ _ E1). cbn [orb]. eauto.
    - rewrite (no_file_of _ _ E1). cbn [orb]. destruct (dget String.eqb (d_files d) (full_path (e_gdir e) name +++ ".gz")) as [c|] eqn:E2.
      + rewrite (file_of _ _ _ E2). pose proof (no_file_of _ _ E1). eauto 6.
      + now rewrite (no_file_of _ _ E2). }
  destruct (String.eqb dir "") eqn:Ed; cbn [app negb andb].
  - specialize (G (if negb (e_create e) then Raise (AppExc 8100) else do _ <- e_write e; Ok (if ends_with ".gz" (full_path dir name) then full_path dir name else full_path dir name +++ ".gz"))).
    destruct (first_file d _) as [[path c]|]; [exact G|]. rewrite G. destruct (e_create e); reflexivity.
  - cbn [first_file] in *. destruct (dget String.eqb (d_files d) (full_path dir name)) as [c|] eqn:E1.
    + rewrite (file_of _ _ _ E1). cbn [orb]. eauto.
    + rewrite (no_file_of _ _ E1). cbn [orb]. destruct (dget String.eqb (d_files d) (full_path dir name +++ ".gz")) as [c|] eqn:E2.
      * rewrite (file_of _ _ _ E2). pose proof (no_file_of _ _ E1). eauto 6.
      * rewrite (no_file_of _ _ E2). cbn [orb].
        specialize (G (if negb (e_create e) then Raise (AppExc 8100) else do _ <- e_write e; Ok (if ends_with ".gz" (full_path dir name) then full_path dir name else full_path dir name +++ ".gz"))).
        destruct (dget String.eqb (d_files d) (full_path (e_gdir e) name)) as [c|]; [exact G|].
        destruct (dget String.eqb (d_files d) (full_path (e_gdir e) name +++ ".gz")) as [c|]; [exact G|].
        rewrite G. destruct (e_create e); reflexivity.
Qed.
Lemma first_file_spec d ps p c : first_file d ps = Some (p, c) -> dget String.eqb (d_files d) p = Some c.
Proof.
  induction ps as [|q ps IH]; cbn [first_file]; [discriminate|]. destruct (dget String.eqb (d_files d) q) as [c0|] eqn:E; [|exact IH].
  intros [= <- <-]. exact E.
Qed.
(** reading what intertable_filename answered *)
Lemma read_stored e d dir q path c : no_double_gz d -> (q = path \/ path = q +++ ".gz" /\ exists_file d q = false) -> dget String.eqb (d_files d) path = Some c ->
  match c with
  | Some r' => exists p', read_intertable d (start e d dir) q = Ok (Some r', p')
  | None => read_intertable d (start e d dir) q = Raise OtherError
  end.
Proof.
  intros Hg Hq Hp. unfold read_intertable, start. cbn [p_cache dget].
  destruct Hq as [->|[-> Hx]].
  - assert (L : load d path = match c with Some r' => Ok (Some r') | None => Raise OtherError end) by (unfold load; rewrite Hp; now destruct c).
    rewrite L. destruct c as [r'|]; destruct (ends_with ".gz" path); cbn [rbind]; try reflexivity; eexists; reflexivity.
  - destruct (ends_with ".gz" q) eqn:Eg.
    + exfalso. destruct (path_gz q Eg) as [q0 ->]. rewrite sapp_assoc in Hp. apply file_of in Hp. specialize (Hg q0). change (".gz" +++ ".gz") with ".gz.gz" in Hp. congruence.
    + assert (L : load d q = Raise FileNotFoundError). { unfold load. unfold exists_file, dmem in Hx. destruct (dget String.eqb (d_files d) q); [discriminate|reflexivity]. }
      rewrite L, (file_of _ _ _ Hp).
      assert (L2 : load d (q +++ ".gz") = match c with Some r' => Ok (Some r') | None => Raise OtherError end) by (unfold load; rewrite Hp; now destruct c).
      rewrite L2. destruct c; cbn [rbind]; [eexists; reflexivity|reflexivity].
Qed.

(** the scipy modes: proved *)
Theorem C108_scipy_partial : forall e d dir r name, good_request r -> ~ grib_mode (q_mode r) -> NoDup (dkeys (d_user d)) -> no_double_gz d ->
  configured e d (table_id r) = Some name ->
  match first_file d (places e dir name) with
  | Some (path, Some r') => exists p', interpolate e d (start e d dir) r = Ok (d, p', Some r')
  | Some (path, None) => interpolate e d (start e d dir) r = Raise OtherError
  | None => e_create e = false -> interpolate e d (start e d dir) r = Raise (AppExc 8100)
  end.
Proof.
  intros e d dir r name Hr Hm Hn Hg Hc. pose proof (filename_stored e d dir r name Hn Hc) as F.
  assert (Gm : is_grib_mode (q_mode r) = false). { destruct (is_grib_mode (q_mode r)) eqn:E; [|reflexivity]. exfalso. apply Hm. now apply (proj1 (grib_mode_iff r Hr)). }
  destruct (first_file d (places e dir name)) as [[path c]|] eqn:Ef.
  - apply first_file_spec in Ef. destruct F as [q [Eq Hq]]. pose proof (read_stored e d dir q path c Hg Hq Ef) as R.
    assert (T : table_found d r q = true).
    { unfold table_found. rewrite Gm. apply Bool.orb_true_iff. destruct Hq as [->|[-> _]]; [left|right]; exact (file_of _ _ _ Ef). }
    unfold interpolate. rewrite Eq. cbn [rbind]. rewrite T. destruct c as [r'|].
    + destruct R as [p' R]. rewrite R. cbn [rbind]. eexists. reflexivity.
    + rewrite R. reflexivity.
  - intro Hcr. unfold interpolate. rewrite F, Hcr. reflexivity.
Qed.
Print Assumptions C108_scipy_partial.

(** the grib modes: only a plain file is used; when the directory has the
    compressed file only (of a name without the extension .gz), the table is
    refused without --create and built again with it *)
Definition in_directory (d : disk) (dir name : string) : Prop := exists_file d (full_path dir name) = true \/ exists_file d (full_path dir name +++ ".gz") = true.
(** the directory a table is taken from: that of the user, then the global one *)
Definition taken_from (e : env) (d : disk) (dir name from : string) : Prop :=
  (dir <> "" /\ from = dir /\ in_directory d dir name) \/
  ((dir = "" \/ ~ in_directory d dir name) /\ from = e_gdir e /\ in_directory d (e_gdir e) name).
Lemma in_directory_b d dir name : in_directory d dir name <-> (exists_file d (full_path dir name) || exists_file d (full_path dir name +++ ".gz"))%bool = true.
Proof. unfold in_directory. now rewrite Bool.orb_true_iff. Qed.
Lemma filename_taken e d dir r name from : NoDup (dkeys (d_user d)) -> configured e d (table_id r) = Some name -> taken_from e d dir name from ->
  intertable_filename e d (start e d dir) r = Ok (full_path from name).
Proof.
  intros Hn Hc Ht. pose proof (start_inv e d dir Hn) as [Pd [_ [Pv _]]]. unfold intertable_filename. rewrite Pv, Hc, Pd.
  destruct Ht as [[Nd [-> I]]|[Hd [-> I]]]; apply in_directory_b in I.
  - apply String.eqb_neq in Nd. rewrite Nd, I. reflexivity.
  - assert (X : (negb (String.eqb dir "") && (exists_file d (full_path dir name) || exists_file d (full_path dir name +++ ".gz")))%bool = false).
    { destruct Hd as [->|Hd]; [reflexivity|]. apply Bool.andb_false_iff. right.
      destruct (exists_file d (full_path dir name) || exists_file d (full_path dir name +++ ".gz"))%bool eqn:E; [|reflexivity]. exfalso. apply Hd. now apply in_directory_b. }
    rewrite X, I. reflexivity.
Qed.
Theorem C108_grib_partial : forall e d dir r name from, good_request r -> grib_mode (q_mode r) -> NoDup (dkeys (d_user d)) ->
  configured e d (table_id r) = Some name -> taken_from e d dir name from ->
  (forall r', dget String.eqb (d_files d) (full_path from name) = Some (Some r') -> exists p', interpolate e d (start e d dir) r = Ok (d, p', Some r')) /\
  (dget String.eqb (d_files d) (full_path from name) = Some None -> interpolate e d (start e d dir) r = Raise OtherError) /\
  (dget String.eqb (d_files d) (full_path from name) = None ->
     (e_create e = false -> interpolate e d (start e d dir) r = Raise (AppExc 8100)) /\
     (e_create e = true -> e_write e = Ok tt -> exists d' p', interpolate e d (start e d dir) r = Ok (d', p', Some r) /\
        d_files d' = dset String.eqb (d_files d) (saved_as (full_path from name)) (Some r))).
Proof.
  intros e d dir r name from Hr Hm Hn Hc Ht. pose proof (filename_taken e d dir r name from Hn Hc Ht) as F.
  assert (Gm : is_grib_mode (q_mode r) = true) by now apply (proj2 (grib_mode_iff r Hr)).
  assert (T : table_found d r (full_path from name) = exists_file d (full_path from name)) by (unfold table_found; now rewrite Gm).
  unfold interpolate. rewrite F. cbn [rbind]. rewrite T. split; [|split].
  - intros r' H. rewrite (file_of _ _ _ H). unfold read_intertable, start. cbn [p_cache dget].
    assert (L : load d (full_path from name) = Ok (Some r')) by (unfold load; now rewrite H). rewrite L.
    destruct (ends_with ".gz" (full_path from name)); cbn [rbind]; eexists; reflexivity.
  - intro H. rewrite (file_of _ _ _ H). unfold read_intertable, start. cbn [p_cache dget].
    assert (L : load d (full_path from name) = Raise OtherError) by (unfold load; now rewrite H). rewrite L.
    destruct (ends_with ".gz" (full_path from name)); reflexivity.
  - intro H. rewrite (no_file_of _ _ H). split.
    + intros ->. reflexivity.
    + intros -> ->. cbn [rbind]. unfold register. eexists _, _. split; reflexivity.
Qed.
Print Assumptions C108_grib_partial.

Definition ex_g : request := mkReq "0$359.5$720$361$259920$regular_ll" "T" "grib_nearest" "pf10tp" 550800.
Definition ex_gz_disk : disk := mkDisk [("/tables/old.npy.gz", Some ex_g)] [(table_id ex_g, "old.npy")].
Lemma no_double_ex_gz : no_double_gz ex_gz_disk.
Proof.
  intro q. unfold exists_file, dmem, ex_gz_disk. cbn [d_files dget]. destruct (String.eqb_spec (q +++ ".gz.gz") "/tables/old.npy.gz") as [E|_]; [|reflexivity].
  exfalso. apply (f_equal rev_string) in E. rewrite rev_string_app in E. discriminate E.
Qed.
Theorem C108_grib_refuted : ~ C108_full.
Proof.
  intro H. destruct (H (mkEnv [] "/global" false (Ok tt)) ex_gz_disk "/tables" ex_g "old.npy" "/tables/old.npy.gz" ex_g) as [p' E].
  - split; [cbn; tauto|reflexivity].
  - repeat constructor; cbn; tauto.
  - exact no_double_ex_gz.
  - reflexivity.
  - reflexivity.
  - vm_compute in E. discriminate.
Qed.
Print Assumptions C108_grib_refuted.

(** a process killed while it writes again a table whose file was lost: no
    later process can use or repair that table *)
Theorem C108_killed : forall e d dir r name evs, good_request r -> file_name name -> ends_with ".gz" name = true ->
  NoDup (dkeys (d_user d)) -> dget String.eqb (d_user d) (table_id r) = Some name -> dir <> "" ->
  (forall p, In p (places e dir name) -> exists_file d p = false) -> e_create e = true -> e_write e = Ok tt ->
  Forall (fun ev => ev = Start dir \/ ev = Use r) evs ->
  let d' := crashed e d (start e d dir) r WhileSaving in
  s_disk (fst (run e (mkState d' None) evs)) = d' /\
  Forall (fun o => o = (r, Raise OtherError)) (snd (run e (mkState d' None) evs)).
Proof.
  intros e d dir r name evs Hr Hf Hz Hn Hu Nd Hx Hcr Hwr Hev d'.
  assert (Hc : configured e d (table_id r) = Some name) by (unfold configured; now rewrite Hu).
  assert (Ez : ends_with ".gz" (full_path dir name) = true) by now apply ends_with_full_path.
  assert (Ed : d' = mkDisk (dset String.eqb (d_files d) (full_path dir name) None) (d_user d)).
  { unfold d', crashed. pose proof (filename_stored e d dir r name Hn Hc) as F.
    assert (E0 : first_file d (places e dir name) = None).
    { clear -Hx. induction (places e dir name) as [|a l IH]; [reflexivity|]. cbn [first_file].
      assert (A : exists_file d a = false) by (apply Hx; now left). unfold exists_file, dmem in A. destruct (dget String.eqb (d_files d) a); [discriminate|].
      apply IH. intros p Hp. apply Hx. now right. }
    rewrite E0, Hcr, Hwr in F. cbn [rbind] in F. rewrite Ez in F. rewrite F.
    assert (T : table_found d r (full_path dir name) = false).
    { apply String.eqb_neq in Nd. unfold table_found. rewrite (Hx (full_path dir name)), (Hx (full_path dir name +++ ".gz")) by (unfold places; rewrite Nd; cbn; tauto). now destruct (is_grib_mode _). }
    rewrite T. unfold save_table. rewrite saved_as_gz by exact Ez. reflexivity. }
  assert (Hfile : dget String.eqb (d_files d') (full_path dir name) = Some None).
  { rewrite Ed. cbn [d_files]. rewrite (dget_dset String.eqb String_eqb_spec'), (proj2 (String_eqb_spec' _ _) eq_refl). reflexivity. }
  assert (Hn' : NoDup (dkeys (d_user d'))) by (rewrite Ed; exact Hn).
  assert (Hc' : configured e d' (table_id r) = Some name) by (rewrite Ed; exact Hc).
  assert (U : interpolate e d' (start e d' dir) r = Raise OtherError).
  { assert (Ht : taken_from e d' dir name dir). { left. split; [exact Nd|]. split; [reflexivity|]. left. exact (file_of _ _ _ Hfile). }
    pose proof (filename_taken e d' dir r name dir Hn' Hc' Ht) as F. unfold interpolate. rewrite F. cbn [rbind].
    assert (T : table_found d' r (full_path dir name) = true) by (unfold table_found; rewrite (file_of _ _ _ Hfile); now destruct (is_grib_mode _)).
    rewrite T. unfold read_intertable, start. cbn [p_cache dget]. rewrite Ez.
    assert (L : load d' (full_path dir name) = Raise OtherError) by (unfold load; now rewrite Hfile). rewrite L. reflexivity. }
  clear Ed. clearbody d'.
  assert (G : forall sp, sp = None \/ sp = Some (start e d' dir) -> s_disk (fst (run e (mkState d' sp) evs)) = d' /\ Forall (fun o => o = (r, Raise OtherError)) (snd (run e (mkState d' sp) evs))).
  { induction Hev as [|ev evs He _ IH]; intros sp Hsp; [split; [reflexivity|constructor]|].
    cbn [run]. destruct He as [-> | ->].
    - cbn [step s_disk s_proc]. destruct (IH (Some (start e d' dir)) (or_intror eq_refl)) as [I1 I2]. destruct (run e _ evs) as [s'' os]. cbn [fst snd] in *. auto.
    - destruct Hsp as [-> | ->]; cbn [step s_disk s_proc].
      + destruct (IH None (or_introl eq_refl)) as [I1 I2]. destruct (run e _ evs) as [s'' os]. cbn [fst snd] in *. auto.
      + rewrite U. destruct (IH (Some (start e d' dir)) (or_intror eq_refl)) as [I1 I2]. destruct (run e _ evs) as [s'' os]. cbn [fst snd] in *. auto. }
  exact (G None (or_introl eq_refl)).
Qed.
Print Assumptions C108_killed.
(** while a process killed when it creates a table that is not configured yet
    does no harm: the next one creates it under another name *)
Theorem C108_killed_new : forall e d dir r c, good_request r -> dir <> "" -> NoDup (dkeys (d_user d)) -> no_double_gz d -> own_tables e d dir ->
  configured e d (table_id r) = None -> e_create e = true -> e_write e = Ok tt ->
  let d' := crashed e d (start e d dir) r c in
  exists d2 p2, interpolate e d' (start e d' dir) r = Ok (d2, p2, Some r) /\ keeps d' d2.
Proof.
  intros e d dir r c Hr Nd Hn Hg Ho Hc Hcr Hwr d'.
  destruct (crashed_inv e d dir (start e d dir) r c Nd Hr Hn Hg Ho (start_inv e d dir Hn)) as [[_ [Hn' [Hg' [Ho' _]]]] _]. cbn [s_disk] in *. fold d' in Hn', Hg', Ho'.
  assert (Hc' : configured e d' (table_id r) = None).
  { replace (configured e d' (table_id r)) with (configured e d (table_id r)); [exact Hc|]. unfold configured. replace (d_user d') with (d_user d); [reflexivity|].
    unfold d', crashed. destruct (intertable_filename e d (start e d dir) r); [|reflexivity]. destruct (table_found d r a); [reflexivity|]. destruct c; reflexivity. }
  destruct (use_new e d' dir (start e d' dir) r Nd Hr Hn' Hg' (start_inv e d' dir Hn') Ho' Hc' Hcr Hwr) as [d2 [p2 [path [H1 [H2 _]]]]].
  exists d2, p2. auto.
Qed.
Print Assumptions C108_killed_new.
Example C108_nonvacuous :
  first_file (mkDisk [("/tables/old.npy.gz", Some ex_r1)] [(table_id ex_r1, "old.npy")]) (places ex_env "/tables" "old.npy") = Some ("/tables/old.npy.gz", Some ex_r1) /\
  taken_from ex_env ex_gz_disk "/tables" "old.npy" "/tables" /\
  crashed ex_env (mkDisk [] [(table_id ex_r1, "t.npy.gz")]) (start ex_env (mkDisk [] [(table_id ex_r1, "t.npy.gz")]) "/tables") ex_r1 WhileSaving =
    mkDisk [("/tables/t.npy.gz", None)] [(table_id ex_r1, "t.npy.gz")].
Proof.
  split; [vm_compute; reflexivity|]. split; [|vm_compute; reflexivity].
  left. split; [discriminate|]. split; [reflexivity|]. right. vm_compute. reflexivity.
Qed.

(** the directory may be written with doubled slashes, dots and a final slash:
    the tables are in the same place *)
Definition kept_component (c : string) : bool := (negb (String.eqb c "") && negb (String.eqb c "."))%bool.
Lemma split_join l : l <> [] -> Forall plain_name l -> split_on is_slash (join "/" l) = l.
Proof.
  intros Hne F. induction F as [|x l Hx Fl IH]; [congruence|]. destruct l as [|y l].
  - cbn [join]. now rewrite (split_on_none is_slash x) by now apply plain_no_slash.
  - change (join "/" (x :: y :: l)) with (x +++ String "/" (join "/" (y :: l))). rewrite (split_on_app_sep is_slash x "/" _) by reflexivity.
    rewrite (split_on_none is_slash x) by now apply plain_no_slash. rewrite IH by discriminate. reflexivity.
Qed.
Lemma fold_norm sl l : ~ In ".." l -> forall acc, fold_left (norm_comp sl) l acc = (rev (filter kept_component l) ++ acc)%list.
Proof.
  induction l as [|c l IH]; intros H acc; [reflexivity|]. cbn [fold_left filter]. rewrite IH by (intro; apply H; now right).
  unfold norm_comp, kept_component. destruct (String.eqb_spec c "") as [->|N1]; [reflexivity|]. destruct (String.eqb_spec c ".") as [->|N2]; [reflexivity|].
  destruct (String.eqb_spec c "..") as [->|N3]; [exfalso; apply H; now left|]. cbn [negb orb andb rev]. now rewrite <- app_assoc.
Qed.
Lemma normpath_dir h l f : plain_name h -> h <> "" -> Forall plain_name l -> ~ In ".." (h :: l) -> file_name f ->
  normpath (("/" +++ join "/" (h :: l)) +++ "/" +++ f) = "/" +++ join "/" (filter kept_component (h :: l) ++ [f])%list.
Proof.
  intros Ph Nh Fl Nd Hf. rewrite normpath_go by exact Hf.
  assert (Es : initial_slashes (("/" +++ join "/" (h :: l)) +++ "/" +++ f) = "/").
  { destruct h as [|c h]; [congruence|]. pose proof (plain_not_slash _ Ph) as Sh. rewrite starts_slash_head in Sh.
    assert (E : exists t, join "/" (String c h :: l) = String c t) by (destruct l; cbn [join String.append]; eauto). destruct E as [t ->].
    unfold initial_slashes. cbn [String.append starts_with]. rewrite Sh. cbn. reflexivity. }
  cbv zeta. rewrite Es. change ("/" +++ join "/" (h :: l)) with ("" +++ String "/" (join "/" (h :: l))).
  rewrite (split_on_app_sep is_slash "" "/" _) by reflexivity. rewrite split_join; [|discriminate|now constructor].
  change (split_on is_slash "") with [""]. rewrite fold_left_app, (fold_norm _ (h :: l) Nd).
  change (fold_left (norm_comp (negb (String.eqb "/" ""))) [""] []) with (@nil string). rewrite app_nil_r, rev_involutive. rewrite join_snoc, <- sapp_assoc. reflexivity.
Qed.
Theorem C108_same_directory : forall h l name, plain_name h -> h <> "" -> Forall plain_name l -> ~ In ".." (h :: l) -> file_name name ->
  full_path ("/" +++ join "/" (h :: l)) name = "/" +++ join "/" (filter kept_component (h :: l) ++ [name])%list.
Proof.
  intros h l name Ph Nh Fl Nd Hf. unfold full_path, path_join. rewrite (plain_not_slash _ (proj1 Hf)).
  destruct (String.eqb_spec ("/" +++ join "/" (h :: l)) "") as [E|_]; [discriminate E|]. cbn [orb].
  destruct (starts_with "/" (rev_string ("/" +++ join "/" (h :: l)))) eqn:E; [|now apply normpath_dir].
  (* a final slash: the last component is empty *)
  assert (L : exists l0, l = (l0 ++ [""])%list).
  { destruct (exists_last (l := h :: l) ltac:(discriminate)) as [l0 [z Ez]].
    assert (Pz : plain_name z). { assert (F : Forall plain_name (h :: l)) by now constructor. rewrite Ez in F. apply Forall_app in F as [_ F]. now inversion F. }
    assert (z = "").
    { destruct (String.eqb_spec z "") as [|Nz]; [assumption|exfalso]. rewrite Ez, join_snoc, <- sapp_assoc, rev_string_app in E.
      assert (S : starts_with "/" (rev_string z) = true).
      { destruct (rev_string z) as [|c t] eqn:Er; [exfalso; apply Nz; rewrite <- (rev_string_inv z), Er; reflexivity|]. cbn [String.append] in E. rewrite starts_slash_head in *. exact E. }
      apply starts_with_spec in S as [t Et]. assert (Z : z = rev_string t +++ "/") by (rewrite <- (rev_string_inv z), Et, rev_string_app; reflexivity).
      unfold plain_name in Pz. rewrite Z, sforall_app in Pz. apply andb_prop in Pz as [_ Pz]. discriminate Pz. }
    subst z. destruct l0 as [|a l0]; cbn [app] in Ez; injection Ez as -> El; [congruence|eauto]. }
  destruct L as [l0 ->]. change (h :: l0 ++ [""])%list with ((h :: l0) ++ [""])%list. rewrite join_snoc, sapp_nil_r.
  rewrite filter_app. change (filter kept_component [""]) with (@nil string). rewrite app_nil_r.
  replace (("/" +++ join "/" (h :: l0) +++ "/") +++ name) with (("/" +++ join "/" (h :: l0)) +++ "/" +++ name) by now rewrite !sapp_assoc.
  apply normpath_dir; auto.
  - apply Forall_app in Fl. tauto.
  - intro I. apply Nd. change (h :: l0 ++ [""])%list with ((h :: l0) ++ [""])%list. apply in_or_app. now left.
Qed.
Print Assumptions C108_same_directory.
Example C108_directory_nonvacuous : full_path "/data/./tables//" "t.npy" = "/data/tables/t.npy" /\ full_path "/data/tables" "t.npy" = "/data/tables/t.npy" /\
  "/data/./tables//" = "/" +++ join "/" ["data"; "."; "tables"; ""; ""].
Proof. repeat split. Qed.

(** ** C42: the numbers of an identifier, said without the functions of the model *)
(** [int(x)]: the integer part, towards zero *)
Definition integer_part (x : Qc) (z : Z) : Prop :=
  (0 <= x -> ZQ z <= x /\ x < ZQ (z + 1))%Qc /\ (x <= 0 -> ZQ (z - 1) < x /\ x <= ZQ z)%Qc.
Definition least (l : list Qc) (m : Qc) : Prop := In m l /\ forall x, In x l -> (m <= x)%Qc.
Definition greatest (l : list Qc) (m : Qc) : Prop := In m l /\ forall x, In x l -> (x <= m)%Qc.
Lemma trunc_integer_part x : integer_part x (trunc x).
Proof.
  unfold integer_part, trunc. unfold Qcle, Qclt. rewrite !(fun z => eq_refl : this (ZQ z) = Qred (inject_Z z)).
  destruct x as [[n d] Hx]. cbn [this Qnum Qden]. rewrite !Qred_correct. unfold Qle, Qlt, inject_Z. cbn [Qnum Qden].
  pose proof (Z.quot_rem' n (Z.pos d)) as E. assert (Dp : (0 < Z.pos d)%Z) by lia.
  split; intro H; change (Qnum (Q2Qc 0)) with 0%Z in H; change (Qden (Q2Qc 0)) with 1%positive in H.
  - assert (N : (0 <= n)%Z) by lia. pose proof (Z.rem_bound_pos n (Z.pos d) N Dp). split; nia.
  - assert (N : (n <= 0)%Z) by lia. pose proof (Z.rem_bound_pos_neg n (Z.pos d) Dp N). split; nia.
Qed.

Lemma qmin_least l : l <> [] -> least l (qmin l).
Proof.
  intro H. unfold qmin. destruct l as [|a l]; [congruence|]. cbn [List.hd].
  assert (G : forall l0, (In (fold_right (fun a b => if Qc_ltb a b then a else b) a l0) (a :: l0)) /\
    (forall x, In x (a :: l0) -> (fold_right (fun a b => if Qc_ltb a b then a else b) a l0 <= x)%Qc)).
  { induction l0 as [|b l0 [I1 I2]]; [split; [now left|intros x [<-|[]]; apply Qcle_refl]|]. cbn [fold_right].
    set (m := fold_right _ a l0) in *. destruct (Qc_ltb b m) eqn:E.
    - apply Qc_ltb_spec in E. split; [right; now left|]. intros x [<-|[<-|Hx]]; [| apply Qcle_refl |].
      + apply Qcle_trans with m; [now apply Qclt_le_weak|apply I2; now left].
      + apply Qcle_trans with m; [now apply Qclt_le_weak|apply I2; now right].
    - apply Qc_ltb_false in E. split; [destruct I1 as [<-|I1]; [now left|right; now right]|]. intros x [<-|[<-|Hx]]; [apply I2; now left|exact E|apply I2; now right]. }
  destruct (G (a :: l)) as [G1 G2]. split; [destruct G1 as [<-|G1]; [now left|exact G1]|]. intros x Hx. apply G2. now right.
Qed.
Lemma qmax_greatest l : l <> [] -> greatest l (qmax l).
Proof.
  intro H. unfold qmax. destruct l as [|a l]; [congruence|]. cbn [List.hd].
  assert (G : forall l0, (In (fold_right (fun a b => if Qc_ltb b a then a else b) a l0) (a :: l0)) /\
    (forall x, In x (a :: l0) -> (x <= fold_right (fun a b => if Qc_ltb b a then a else b) a l0)%Qc)).
  { induction l0 as [|b l0 [I1 I2]]; [split; [now left|intros x [<-|[]]; apply Qcle_refl]|]. cbn [fold_right].
    set (m := fold_right _ a l0) in *. destruct (Qc_ltb m b) eqn:E.
    - apply Qc_ltb_spec in E. split; [right; now left|]. intros x [<-|[<-|Hx]]; [| apply Qcle_refl |].
      + apply Qcle_trans with m; [apply I2; now left|now apply Qclt_le_weak].
      + apply Qcle_trans with m; [apply I2; now right|now apply Qclt_le_weak].
    - apply Qc_ltb_false in E. split; [destruct I1 as [<-|I1]; [now left|right; now right]|]. intros x [<-|[<-|Hx]]; [apply I2; now left|exact E|apply I2; now right]. }
  destruct (G (a :: l)) as [G1 G2]. split; [destruct G1 as [<-|G1]; [now left|exact G1]|]. intros x Hx. apply G2. now right.
Qed.
Lemma least_unique l a b : least l a -> least l b -> a = b.
Proof. intros [A1 A2] [B1 B2]. apply Qcle_antisym; [apply A2; exact B1|apply B2; exact A1]. Qed.
Lemma greatest_unique l a b : greatest l a -> greatest l b -> a = b.
Proof. intros [A1 A2] [B1 B2]. apply Qcle_antisym; [apply B2; exact A1|apply A2; exact B1]. Qed.
Lemma integer_part_unique x a b : integer_part x a -> integer_part x b -> a = b.
Proof.
  intros [A1 A2] [B1 B2]. destruct (Qclt_le_dec x 0) as [H|H].
  - apply Qclt_le_weak in H. destruct (A2 H) as [P1 P2]. destruct (B2 H) as [Q1 Q2].
    pose proof (proj2 (ZQ_lt _ _) (Qclt_le_trans _ _ _ P1 Q2)). pose proof (proj2 (ZQ_lt _ _) (Qclt_le_trans _ _ _ Q1 P2)). lia.
  - destruct (A1 H) as [P1 P2]. destruct (B1 H) as [Q1 Q2].
    pose proof (proj2 (ZQ_lt _ _) (Qcle_lt_trans _ _ _ P1 Q2)). pose proof (proj2 (ZQ_lt _ _) (Qcle_lt_trans _ _ _ Q1 P2)). lia.
Qed.
(** equal identifiers of PCRaster targets: the same integer parts *)
Definition same_integer_part (x x' : Qc) : Prop := forall z, integer_part x z <-> integer_part x' z.
Lemma same_trunc x x' : trunc x = trunc x' -> same_integer_part x x'.
Proof.
  intros E z. split; intro H.
  - rewrite (integer_part_unique x z (trunc x) H (trunc_integer_part x)), E. apply trunc_integer_part.
  - rewrite (integer_part_unique x' z (trunc x') H (trunc_integer_part x')), <- E. apply trunc_integer_part.
Qed.
Theorem C42_pcraster_numbers_partial : forall a b a' b', pcr_target_id a b = pcr_target_id a' b' ->
  forall f, In f [m_x; m_y; m_w; m_h] -> same_integer_part (f a) (f a') /\ same_integer_part (f b) (f b').
Proof.
  intros a b a' b' E f Hf. destruct (C42_pcraster_partial a b a' b' E) as [[A1 [A2 [A3 [A4 _]]]] [B1 [B2 [B3 [B4 _]]]]].
  destruct Hf as [<-|[<-|[<-|[<-|[]]]]]; split; now apply same_trunc.
Qed.
Print Assumptions C42_pcraster_numbers_partial.
(** and they are equal when all the numbers are: the identifier tells nothing else *)
Theorem C42_pcraster_exact_partial : forall a a',
  (forall f, In f [m_x; m_y; m_w; m_h] -> same_integer_part (f a) (f a')) -> m_min a = m_min a' -> m_max a = m_max a' -> pcr_identifier a = pcr_identifier a'.
Proof.
  intros a a' H E1 E2. assert (G : forall x x', same_integer_part x x' -> trunc x = trunc x').
  { intros x x' S. apply (integer_part_unique x'); [apply S; apply trunc_integer_part|apply trunc_integer_part]. }
  unfold pcr_identifier. rewrite (G _ _ (H m_x ltac:(cbn; tauto))), (G _ _ (H m_y ltac:(cbn; tauto))), (G _ _ (H m_w ltac:(cbn; tauto))), (G _ _ (H m_h ltac:(cbn; tauto))), E1, E2. reflexivity.
Qed.
Print Assumptions C42_pcraster_exact_partial.
(** equal identifiers of netCDF targets: extremes of both coordinates within one
    hundredth, the same integer parts of the lower ones and of the first steps *)
Theorem C42_netcdf_numbers_partial : forall m m', nc_identifier m = nc_identifier m' ->
  forall f, In f [n_lats; n_lons] -> forall lo hi lo' hi', least (f m) lo -> greatest (f m) hi -> least (f m') lo' -> greatest (f m') hi' ->
  near 100 lo lo' /\ near 100 hi hi' /\ same_integer_part lo lo' /\
  (forall x y l x' y' l', f m = x :: y :: l -> f m' = x' :: y' :: l' -> same_integer_part (y - x) (y' - x')).
Proof.
  intros m m' E f Hf lo hi lo' hi' L H L' H'. destruct (C42_netcdf_partial m m' E) as [T1 [T2 [T3 [T4 [N1 [N2 [N3 N4]]]]]]].
  assert (Ne : forall l x, In x l -> l <> (@nil Qc)) by (intros l x I ->; exact I).
  rewrite (least_unique _ _ _ L (qmin_least _ (Ne _ _ (proj1 L)))), (least_unique _ _ _ L' (qmin_least _ (Ne _ _ (proj1 L')))).
  rewrite (greatest_unique _ _ _ H (qmax_greatest _ (Ne _ _ (proj1 H)))), (greatest_unique _ _ _ H' (qmax_greatest _ (Ne _ _ (proj1 H')))).
  destruct Hf as [<-|[<-|[]]].
  - split; [exact N1|]. split; [exact N2|]. split; [now apply same_trunc|]. intros x y l x' y' l' A B. apply same_trunc. rewrite A, B in T4. exact T4.
  - split; [exact N3|]. split; [exact N4|]. split; [now apply same_trunc|]. intros x y l x' y' l' A B. apply same_trunc. rewrite A, B in T3. exact T3.
Qed.
Print Assumptions C42_netcdf_numbers_partial.
Example C42_numbers_nonvacuous : nc_identifier (mkNc [ZQ 10; ZQ 11; ZQ 12] [ZQ 1; ZQ 2]) = nc_identifier (mkNc [ZQ 10; Q2Qc (56 # 5); ZQ 12] [ZQ 1; ZQ 2]) /\
  least [ZQ 10; ZQ 11; ZQ 12] (ZQ 10) /\ greatest [ZQ 10; ZQ 11; ZQ 12] (ZQ 12) /\ integer_part (Q2Qc (-5 # 2)) (-2).
Proof.
  split; [vm_compute; reflexivity|].
  assert (L : least [ZQ 10; ZQ 11; ZQ 12] (qmin [ZQ 10; ZQ 11; ZQ 12])) by (apply qmin_least; discriminate).
  assert (G : greatest [ZQ 10; ZQ 11; ZQ 12] (qmax [ZQ 10; ZQ 11; ZQ 12])) by (apply qmax_greatest; discriminate).
  split; [exact L|]. split; [exact G|]. exact (trunc_integer_part (Q2Qc (-5 # 2))).
Qed.

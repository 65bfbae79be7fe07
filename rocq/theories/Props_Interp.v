(** * Props_Interp: C41-C43 *)
From Verif Require Import Base Num PyStr Writers Config Spec_Config GribInterp Reader Interp Spec_Interp Base_P Num_P PyStr_P Interp_P Interp_P2 Interp_P3.
Local Open Scope string_scope.

(** ** C41: names of tables *)
(** a new name: in the directory of the user, not the name of an existing file,
    determined by the request and the files of the directory; the search for it
    ends *)
Theorem C41_new_name : forall e d p r, good_request r -> dget String.eqb (p_vars p) (table_id r) = None -> e_create e = true -> e_write e = Ok tt ->
  exists path i, intertable_filename e d p r = Ok path /\ exists_file d path = false /\ path = full_path (p_dir p) (table_name r (prognum i)).
Proof.
  intros e d p r Hr Hn Hc Hw. destruct (fresh_name_total d (p_dir p) r Hr) as [path E]. exists path.
  assert (H : intertable_filename e d p r = Ok path) by (unfold intertable_filename; rewrite Hn, Hc, Hw; cbn [negb rbind]; now rewrite E).
  destruct (filename_new e d p r path Hn H) as [_ [_ [Hx [i Hi]]]]. exists i. auto.
Qed.
Print Assumptions C41_new_name.
(** no interpolation changes or removes a file, whatever the configuration, if
    configured names are file names that end in .gz or .npy *)
Theorem C41_never_overwrites : forall e d p r d' p' c, good_request r ->
  (forall name, dget String.eqb (p_vars p) (table_id r) = Some name -> file_name name /\ (ends_with ".gz" name = true \/ ends_with ".npy" name = true)) ->
  interpolate e d p r = Ok (d', p', c) -> keeps d d'.
Proof. exact interpolate_keeps. Qed.
Print Assumptions C41_never_overwrites.
(** a table that is created is found again: by the same process and by a new
    one, with the same content, and it stays the one used whatever is created
    afterwards in the same directory *)
Theorem C41_found_again : forall e d dir p r r2, dir <> "" -> good_request r -> NoDup (dkeys (d_user d)) -> no_double_gz d -> own_tables e d dir ->
  p = start e d dir -> configured e d (table_id r) = None -> e_create e = true -> e_write e = Ok tt -> table_id r2 = table_id r ->
  exists d' p' path, interpolate e d p r = Ok (d', p', Some r) /\ exists_file d path = false /\ dget String.eqb (d_files d') path = Some (Some r) /\
    configured e d' (table_id r) = Some (basename path) /\
    (exists p2 r', interpolate e d' p' r2 = Ok (d', p2, Some r') /\ table_id r' = table_id r) /\
    (exists p2 r', interpolate e d' (start e d' dir) r2 = Ok (d', p2, Some r') /\ table_id r' = table_id r).
Proof.
  intros e d dir p r r2 Nd Hr Hnd Hdg Ho -> Hn Hc Hw E2. pose proof (start_inv e d dir Hnd) as HP.
  destruct (use_new e d dir (start e d dir) r Nd Hr Hnd Hdg HP Ho Hn Hc Hw) as [d' [p' [path [Hu [_ [[_ [Hnd' [_ [Ho' HP']]]] [Hcf [Hf Hx]]]]]]]].
  cbn [s_disk s_proc] in *. exists d', p', path. repeat (split; [assumption|]). rewrite <- E2 in Hcf. split.
  - destruct (use_configured e d' dir p' r2 _ Nd HP' Ho' Hcf) as [p2 [r' [H1 [H2 _]]]]. exists p2, r'. split; [exact H1|congruence].
  - destruct (use_configured e d' dir (start e d' dir) r2 _ Nd (start_inv e d' dir Hnd') Ho' Hcf) as [p2 [r' [H1 [H2 _]]]]. exists p2, r'. split; [exact H1|congruence].
Qed.
Print Assumptions C41_found_again.

(** what a user expects of any history: a table is only applied to the grid,
    target and mode it was built for *)
Definition C41_full : Prop := forall e evs, e_global e = [] -> Forall (fun ev => match ev with Start _ => True | Use r => good_request r | Crash r _ => good_request r end) evs ->
  Forall (fun o => match snd o with Ok c => built_for (fst o) c | Raise _ => True end) (snd (run e (mkState (mkDisk [] []) None) evs)).
(** true of every history of processes, with crashes at any point, that use one
    directory for new tables; the files are never changed *)
Theorem C41_partial : forall e dir s evs, dir <> "" -> s_proc s = None -> NoDup (dkeys (d_user (s_disk s))) -> no_double_gz (s_disk s) -> own_tables e (s_disk s) dir ->
  Forall (in_dir dir) evs ->
  keeps (s_disk s) (s_disk (fst (run e s evs))) /\
  Forall (fun o => match snd o with Ok c => built_for (fst o) c | Raise _ => e_create e && is_ok (e_write e) = false end) (snd (run e s evs)).
Proof.
  intros e dir s evs Nd Hp Hnd Hdg Ho Hf. assert (Hi : inv e dir s) by (split; [exact Nd|]; split; [exact Hnd|split; [exact Hdg|split; [exact Ho|now rewrite Hp]]]).
  destruct (run_inv e dir evs s Hi Hf) as [_ [K F]]. split; [exact K|exact F].
Qed.
Print Assumptions C41_partial.
Definition ex_env : env := mkEnv [] "/global" true (Ok tt).
Definition ex_r1 : request := mkReq "0$359.5$720$361$259920$regular_ll" "-25_22_0_0_22.76_72.24_-25_22_0_0_-25.24_50.24" "nearest" "pf10tp" 550800.
Definition ex_r2 : request := mkReq "0$359.25$1440$721$1038240$regular_ll" "-25_22_0_0_22.76_72.24_-25_22_0_0_-25.24_50.24" "nearest" "pf10tp" 550800.
Lemma ex_good1 : good_request ex_r1. Proof. split; [cbn; tauto|reflexivity]. Qed.
Lemma ex_good2 : good_request ex_r2. Proof. split; [cbn; tauto|reflexivity]. Qed.
Example C41_nonvacuous : Forall (in_dir "/user/tables/") [Start "/user/tables/"; Use ex_r1; Crash ex_r2 WhileSaving; Start "/user/tables/"; Use ex_r2; Use ex_r1] /\
  snd (run ex_env (mkState (mkDisk [] []) None) [Start "/user/tables/"; Use ex_r1; Crash ex_r2 WhileSaving; Start "/user/tables/"; Use ex_r2; Use ex_r1]) =
  [(ex_r1, Ok (Some ex_r1)); (ex_r2, Ok (Some ex_r2)); (ex_r1, Ok (Some ex_r1))] /\
  map fst (d_files (s_disk (fst (run ex_env (mkState (mkDisk [] []) None) [Start "/user/tables/"; Use ex_r1; Crash ex_r2 WhileSaving; Start "/user/tables/"; Use ex_r2; Use ex_r1])))) =
  ["/user/tables/tbl_pf10tp_550800_scipy_nearest.npy.gz"; "/user/tables/tbl_1_pf10tp_550800_scipy_nearest.npy.gz"; "/user/tables/tbl_2_pf10tp_550800_scipy_nearest.npy.gz"].
Proof.
  split; [repeat (constructor; [first [exact eq_refl|exact ex_good1|exact ex_good2]|]); constructor|]. split; vm_compute; reflexivity.
Qed.
Example C41_found_nonvacuous : own_tables ex_env (mkDisk [] []) "/user" /\ no_double_gz (mkDisk [] []) /\ configured ex_env (mkDisk [] []) (table_id ex_r1) = None.
Proof. split; [intros id name H; discriminate H|]. split; [intro; reflexivity|reflexivity]. Qed.
(** false of a user who changes the directory of new tables (option -N): the
    second directory gets a table of the same name for another grid, and the
    first grid then uses it *)
Theorem C41_two_directories_refuted : ~ C41_full.
Proof.
  intro H. specialize (H ex_env [Start "/a"; Use ex_r1; Start "/b"; Use ex_r2; Use ex_r1] eq_refl).
  assert (G : Forall (fun ev => match ev with Start _ => True | Use r => good_request r | Crash r _ => good_request r end) [Start "/a"; Use ex_r1; Start "/b"; Use ex_r2; Use ex_r1]).
  { repeat (constructor; [first [exact I|exact ex_good1|exact ex_good2]|]); constructor. }
  specialize (H G). assert (E : snd (run ex_env (mkState (mkDisk [] []) None) [Start "/a"; Use ex_r1; Start "/b"; Use ex_r2; Use ex_r1]) = [(ex_r1, Ok (Some ex_r1)); (ex_r2, Ok (Some ex_r2)); (ex_r1, Ok (Some ex_r2))]) by (vm_compute; reflexivity).
  rewrite E in H. inversion H as [|? ? _ H2]; subst. inversion H2 as [|? ? _ H3]; subst. inversion H3 as [|? ? H4 _]; subst. cbn [snd fst] in H4. destruct H4 as [r' [E1 E2]]. injection E1 as <-. discriminate E2.
Qed.
Print Assumptions C41_two_directories_refuted.
(** the chosen name can be in use in the configuration: for a table of the
    global directory, which the new table then hides, also when the configured
    name has no .gz *)
Definition C41_not_in_use : Prop := forall e d dir r path, NoDup (dkeys (d_user d)) -> good_request r -> intertable_filename e d (start e d dir) r = Ok path ->
  configured e d (table_id r) = None -> forall id name, configured e d id = Some name -> path <> full_path dir name /\ path <> full_path dir name +++ ".gz".
Definition ex_genv : env := mkEnv [(table_id ex_r2, "tbl_pf10tp_550800_scipy_nearest.npy")] "/global" true (Ok tt).
Definition ex_gdisk : disk := mkDisk [("/global/tbl_pf10tp_550800_scipy_nearest.npy", Some ex_r2)] [].
Theorem C41_in_use_refuted : ~ C41_not_in_use /\
  snd (run ex_genv (mkState ex_gdisk None) [Start "/a"; Use ex_r2; Use ex_r1; Start "/a"; Use ex_r2]) = [(ex_r2, Ok (Some ex_r2)); (ex_r1, Ok (Some ex_r1)); (ex_r2, Ok (Some ex_r1))].
Proof.
  split; [|vm_compute; reflexivity]. intro H.
  destruct (H ex_genv ex_gdisk "/a" ex_r1 "/a/tbl_pf10tp_550800_scipy_nearest.npy.gz" ltac:(constructor) ex_good1 ltac:(vm_compute; reflexivity) ltac:(vm_compute; reflexivity)
    (table_id ex_r2) "tbl_pf10tp_550800_scipy_nearest.npy" ltac:(vm_compute; reflexivity)) as [_ G]. apply G. vm_compute. reflexivity.
Qed.
Print Assumptions C41_in_use_refuted.
(** two processes at the same time, same directory: both choose the same name;
    the last one to save wins, and the other grid uses its table from then on;
    also one of the two registrations is lost *)
Theorem C41_concurrent_refuted :
  let d0 := mkDisk [] [] in let w r := mkWorker (start ex_env d0 "/a") r None in
  let d := race ex_env d0 (w ex_r1) (w ex_r2) [(true, Choose); (false, Choose); (true, Save); (false, Save); (false, Register); (true, Register)] in
  (exists p, interpolate ex_env d (start ex_env d "/a") ex_r1 = Ok (d, p, Some ex_r2)) /\ configured ex_env d (table_id ex_r2) = None.
Proof. cbv zeta. split; [eexists; vm_compute; reflexivity|vm_compute; reflexivity]. Qed.
Print Assumptions C41_concurrent_refuted.

(** ** C42: identifiers *)
(** what a user expects: tables are shared only between equal geometries *)
Definition C42_full : Prop :=
  (forall a b a' b', pcr_target_id a b = pcr_target_id a' b' -> m_cells a = m_cells a' /\ m_cells b = m_cells b') /\
  (forall m m' g, build_id m = Ok g -> build_id m' = Ok g ->
     dget String.eqb (gm_dbl m) "latitudeOfFirstGridPointInDegrees" = dget String.eqb (gm_dbl m') "latitudeOfFirstGridPointInDegrees") /\
  (forall m m', nc_identifier m = nc_identifier m' -> n_lats m = n_lats m' /\ n_lons m = n_lons m').
(** a key of a message with a value: present, and not encoded as missing *)
Definition known (m : gmsg) (k : string) : Prop :=
  ~ In k (gm_missing m) /\ (In k (map fst (gm_keys m)) \/ In k (map fst (gm_dbl m))).
Lemma dmem_in {A} (l : list (string * A)) k : dmem String.eqb l k = true <-> In k (map fst l).
Proof.
  unfold dmem. destruct (dget String.eqb l k) as [v|] eqn:E.
  - split; [|reflexivity]. intros _. apply (dget_In _ String_eqb_spec') in E. now apply (in_map fst) in E.
  - split; [discriminate|]. intro H. exfalso. apply in_map_iff in H as ([k' v] & Hk & Hin). cbn [fst] in Hk. subst k'. revert E Hin. clear. induction l as [|[a b] l IH]; cbn [dget In]; [tauto|].
    destruct (String.eqb_spec k a) as [->|N]; [discriminate|]. intros E [H|H]; [congruence|auto].
Qed.
Lemma known_iff m k : key_missing m k = false <-> known m k.
Proof.
  unfold key_missing, known. rewrite Bool.orb_false_iff, Bool.negb_false_iff, Bool.orb_true_iff, !dmem_in.
  assert (E : existsb (String.eqb k) (gm_missing m) = false <-> ~ In k (gm_missing m)); [|tauto].
  destruct (existsb (String.eqb k) (gm_missing m)) eqn:X.
  - apply existsb_exists in X as (y & Hy & E). apply String.eqb_eq in E. subst y. split; [discriminate|contradiction].
  - split; [|reflexivity]. intros _ Hin. assert (X' : existsb (String.eqb k) (gm_missing m) = true) by (apply existsb_exists; exists k; split; [exact Hin|apply String.eqb_refl]). congruence.
Qed.
(** the identifier of a grid ignores every key but six *)
Theorem C42_grid_keys : forall m m',
  (forall k, In k ["Ni"; "Nj"; "numberOfValues"; "gridType"] -> dget String.eqb (gm_keys m) k = dget String.eqb (gm_keys m') k) ->
  (forall k, In k ["longitudeOfFirstGridPointInDegrees"; "longitudeOfLastGridPointInDegrees"] -> dget String.eqb (gm_dbl m) k = dget String.eqb (gm_dbl m') k) ->
  (forall k, In k ["Ni"; "Nj"; "longitudeOfLastGridPointInDegrees"] -> known m k <-> known m' k) ->
  build_id m = build_id m'.
Proof.
  intros m m' Hk Hd Hm0.
  assert (Hm : forall k, In k ["Ni"; "Nj"; "longitudeOfLastGridPointInDegrees"] -> key_missing m k = key_missing m' k).
  { intros k Hin. specialize (Hm0 k Hin). rewrite <- !known_iff in Hm0. destruct (key_missing m k), (key_missing m' k); try reflexivity; [|symmetry]; now apply Hm0. }
  unfold build_id, opt_int, show_opt_str.
  rewrite (Hk "Ni"), (Hk "Nj"), (Hk "numberOfValues"), (Hk "gridType"), (Hd "longitudeOfFirstGridPointInDegrees"), (Hd "longitudeOfLastGridPointInDegrees"), (Hm "Ni"), (Hm "Nj"), (Hm "longitudeOfLastGridPointInDegrees") by (cbn; tauto). reflexivity.
Qed.
Print Assumptions C42_grid_keys.
(** and the identifier of a map ignores its cells and the decimals of its cell size *)
Definition ex_lat (w : Qc) (cells : list Qc) : pcr_map := mkPcr (ZQ 0) (ZQ 50) w w (ZQ 40) (ZQ 50) cells.
Definition ex_coarse : pcr_map := ex_lat (Q2Qc (1 # 2)) [ZQ 40; ZQ 50].
Definition ex_fine : pcr_map := ex_lat (Q2Qc (1 # 10)) [ZQ 40; ZQ 45; ZQ 50].
Theorem C42_refuted : ~ C42_full /\ pcr_target_id ex_coarse ex_coarse = pcr_target_id ex_fine ex_fine /\ m_w ex_coarse <> m_w ex_fine /\
  (let g lat := mkGmsg [("Ni", JNum 720); ("Nj", JNum 361); ("numberOfValues", JNum 259920); ("gridType", JStr "regular_ll")]
                  [("longitudeOfFirstGridPointInDegrees", nint 0); ("longitudeOfLastGridPointInDegrees", nint 359); ("latitudeOfFirstGridPointInDegrees", nint lat)] [] [] [] in
   build_id (g 90%Z) = build_id (g (-90)%Z) /\ is_ok (build_id (g 90%Z)) = true).
Proof.
  split; [|split; [vm_compute; reflexivity|split; [cbn [m_w ex_coarse ex_fine ex_lat]; intro C; apply (f_equal (Qc_eqb (Q2Qc (1 # 10)))) in C; vm_compute in C; discriminate C|vm_compute; split; reflexivity]]].
  intros [H _]. destruct (H ex_coarse ex_coarse ex_fine ex_fine ltac:(vm_compute; reflexivity)) as [E _]. discriminate E.
Qed.
Print Assumptions C42_refuted.
(** the consequence: the second target gets the table of the first, which has
    another number of cells *)
Theorem C42_wrong_table_applied :
  let r n := mkReq "0$359$720$361$259920$regular_ll" (pcr_target_id ex_coarse ex_coarse) "nearest" "pf10tp" n in
  let r' n := mkReq "0$359$720$361$259920$regular_ll" (pcr_target_id ex_fine ex_fine) "nearest" "pf10tp" n in
  snd (run ex_env (mkState (mkDisk [] []) None) [Start "/a"; Use (r 4%Z); Use (r' 9%Z)]) = [(r 4%Z, Ok (Some (r 4%Z))); (r' 9%Z, Ok (Some (r 4%Z)))].
Proof. vm_compute. reflexivity. Qed.
Print Assumptions C42_wrong_table_applied.
(** what equal identifiers do guarantee. PCRaster targets: origin and cell size
    with equal integer parts, extremes within one hundredth *)
Theorem C42_pcraster_partial : forall a b a' b', pcr_target_id a b = pcr_target_id a' b' -> alike a a' /\ alike b b'.
Proof. exact pcr_target_inj. Qed.
Print Assumptions C42_pcraster_partial.
Theorem C42_netcdf_partial : forall m m', nc_identifier m = nc_identifier m' -> nc_alike m m'.
Proof. exact nc_target_inj. Qed.
Print Assumptions C42_netcdf_partial.
(** grids: same sizes and type, extreme longitudes within 1/10000 *)
Theorem C42_grid_partial : forall m m' g, build_id m = Ok g -> build_id m' = Ok g ->
  (forall k z z', In k ["Ni"; "Nj"] -> known m k -> known m' k -> opt_int m k = Some z -> opt_int m' k = Some z' -> z = z') /\
  (forall k z, In k ["Ni"; "Nj"] -> known m k -> opt_int m k = Some z -> known m' k) /\
  (forall z z', opt_int m "numberOfValues" = Some z -> opt_int m' "numberOfValues" = Some z' -> z = z') /\
  show_opt_str m "gridType" = show_opt_str m' "gridType" /\
  (forall x x', dget String.eqb (gm_dbl m) "longitudeOfFirstGridPointInDegrees" = Some (Fin x) -> dget String.eqb (gm_dbl m') "longitudeOfFirstGridPointInDegrees" = Some (Fin x') -> near 10000 x x') /\
  (forall x x', known m "longitudeOfLastGridPointInDegrees" -> known m' "longitudeOfLastGridPointInDegrees" ->
     dget String.eqb (gm_dbl m) "longitudeOfLastGridPointInDegrees" = Some (Fin x) -> dget String.eqb (gm_dbl m') "longitudeOfLastGridPointInDegrees" = Some (Fin x') -> near 10000 x x').
Proof.
  intros m m' g B B'. destruct (build_id_form m g B) as [x [l [Hx [Hl [Tl Eg]]]]]. destruct (build_id_form m' g B') as [x' [l' [Hx' [Hl' [Tl' Eg']]]]].
  fold (points m "Ni") in Eg. fold (points m "Nj") in Eg. fold (points m' "Ni") in Eg'. fold (points m' "Nj") in Eg'. rewrite Eg in Eg'.
  apply tok_cut_d in Eg' as [E1 E]; try apply fmt_long_tok. apply tok_cut_d in E as [E2 E]; try assumption. apply tok_cut_d in E as [E3 E]; try apply points_tok.
  apply tok_cut_d in E as [E4 E]; try apply points_tok. apply tok_cut_d in E as [E5 E6]; try apply show_tok.
  assert (Gp : forall k, In k ["Ni"; "Nj"] -> points m k = points m' k) by (intros k [<-|[<-|[]]]; assumption).
  split; [|split; [|split; [|split; [exact E6|split]]]].
  - intros k z z' Hk M M' Z Z'. apply known_iff in M. apply known_iff in M'. specialize (Gp k Hk). unfold points in Gp. rewrite M, M', Z, Z' in Gp. cbn [show_opt_int] in Gp. now apply str_of_Z_inj.
  - intros k z Hk M Z. apply known_iff in M. apply known_iff. specialize (Gp k Hk). unfold points in Gp. rewrite M, Z in Gp. cbn [show_opt_int] in Gp. destruct (key_missing m' k); [|reflexivity].
    pose proof (str_of_Z_chars z) as C. rewrite Gp in C. discriminate C.
  - intros z z' Z Z'. rewrite Z, Z' in E5. cbn [show_opt_int] in E5. now apply str_of_Z_inj.
  - intros y y' Hy Hy'. rewrite Hx in Hy. rewrite Hx' in Hy'. assert (x = Fin y) by congruence. assert (x' = Fin y') by congruence. subst. now apply fmt_long_close.
  - intros y y' M M' Hy Hy'. apply known_iff in M. apply known_iff in M'. rewrite M in Hl. rewrite M' in Hl'. destruct Hl as [z [Hz ->]]. destruct Hl' as [z' [Hz' ->]]. rewrite Hz in Hy. rewrite Hz' in Hy'.
    assert (z = Fin y) by congruence. assert (z' = Fin y') by congruence. subst. now apply fmt_long_close.
Qed.
Print Assumptions C42_grid_partial.
(** the identifier of a table determines the identifiers of grid and target and
    the mode *)
Theorem C42_table_identifier : forall m g m' g' t t' md md' src src' n n',
  build_id m = Ok g -> build_id m' = Ok g' -> sforall letter (show_opt_str m "gridType") = true -> sforall letter (show_opt_str m' "gridType") = true ->
  (exists a b, t = pcr_target_id a b) \/ (exists c, t = nc_identifier c) -> (exists a b, t' = pcr_target_id a b) \/ (exists c, t' = nc_identifier c) ->
  In md (map fst suffixes) -> In md' (map fst suffixes) ->
  table_id (mkReq g t md src n) = table_id (mkReq g' t' md' src' n') -> g = g' /\ t = t' /\ md = md'.
Proof.
  intros m g m' g' t t' md md' src src' n n' B B' L L' T T' M M' E.
  assert (G : forall s, (exists a b, s = pcr_target_id a b) \/ (exists c, s = nc_identifier c) -> sforall num_us s = true /\ first_num s).
  { intros s [[a [b ->]]|[c ->]]; [apply pcr_target_chars|apply nc_target_chars]. }
  destruct (G _ T) as [G1 G2]. destruct (G _ T') as [G3 G4]. exact (table_id_cut m g m' g' t t' md md' src src' n n' B B' L L' G1 G3 G2 G4 M M' E).
Qed.
Print Assumptions C42_table_identifier.
Example C42_nonvacuous : pcr_target_id ex_coarse ex_fine = "0_50_0_0_40.00_50.00_0_50_0_0_40.00_50.00" /\
  sforall letter "regular_ll" = true /\ sforall letter "rotated_gg" = true /\
  pcr_identifier (mkPcr (Q2Qc (-5049 # 200)) (ZQ 72) (Q2Qc (1 # 60)) (Q2Qc (-1 # 60)) (Q2Qc (-4548 # 200)) (Q2Qc (14448 # 200)) []) = "-25_72_0_0_-22.74_72.24" /\
  fmt_long (Fin (Q2Qc (-63 # 4))) = "-15.75".
Proof. vm_compute. repeat split. Qed.

(** ** C43: applying a table *)
(** one neighbour: the value at the index, or the missing value *)
Theorem C43_nearest : forall v mv ks xs, Forall2 (used (adata v) mv) ks xs -> apply_single v mv ks = Ok xs.
Proof. intros v mv ks xs H. now apply used_mapM. Qed.
Print Assumptions C43_nearest.
(** several neighbours: every cell gets the weighted sum of its values. A row is
    (weights, indexes, values at the indexes) *)
Theorem C43_weighted_sum : forall v mv (rows : list (list Qc * list Z * list Qc)),
  (forall ws ks xs, In (ws, ks, xs) rows -> List.length ws = List.length ks /\ Forall2 (fun k x => used (adata v) mv k (Fin x)) ks xs) ->
  apply_weighted v mv (map (fun r => (map Fin (fst (fst r)), snd (fst r))) rows) = Ok (map (fun r => Fin (dot (fst (fst r)) (snd r))) rows).
Proof.
  intros v mv rows H. unfold apply_weighted. induction rows as [|[[ws ks] xs] rows IH]; [reflexivity|]. cbn [map mapM fst snd].
  destruct (H ws ks xs (or_introl eq_refl)) as [L F].
  assert (Em : mapM (py_index (append_mv v mv)) ks = Ok (map Fin xs)) by (apply used_mapM; clear - F; induction F; cbn [map]; constructor; assumption).
  rewrite Em. cbn [rbind]. rewrite weighted_row_ok by (rewrite L; now apply Forall2_length in F). cbn [rbind].
  rewrite IH by (intros; apply H; now right). reflexivity.
Qed.
Print Assumptions C43_weighted_sum.
(** with convex weights the sum is within the range of the values used *)
Theorem C43_convex : forall ws xs lo hi, List.length ws = List.length xs -> (forall w, In w ws -> 0 <= w)%Qc -> total ws = 1%Qc ->
  (forall x, In x xs -> lo <= x <= hi)%Qc -> (lo <= dot ws xs <= hi)%Qc.
Proof.
  intros ws xs lo hi L Hw Ht Hx. destruct (dot_bounds ws xs lo hi L Hw Hx) as [H1 H2]. rewrite Ht in *. split; [replace lo with (lo * 1)%Qc by ring|replace hi with (hi * 1)%Qc by ring]; assumption.
Qed.
Print Assumptions C43_convex.
(** all the weight at one index: the value at this index; if the index is one
    past the end, the missing value *)
Theorem C43_single_weight : forall v mv ws ks xs i k x, List.length ws = List.length ks -> Forall2 (fun k x => used (adata v) mv k (Fin x)) ks xs ->
  nth_error ws i = Some 1%Qc -> (forall j w, j <> i -> nth_error ws j = Some w -> w = 0%Qc) -> nth_error ks i = Some k -> used (adata v) mv k (Fin x) ->
  apply_weighted v mv [(map Fin ws, ks)] = Ok [Fin x].
Proof.
  intros v mv ws ks xs i k x L F W1 W0 K U. pose proof (C43_weighted_sum v mv [(ws, ks, xs)]) as G. cbn [map fst snd] in G. rewrite G.
  2: intros ws' ks' xs' [E|[]]; injection E as <- <- <-; auto. do 3 f_equal. 
  assert (Hx : nth_error xs i = Some x).
  { clear - F K U. revert i K. induction F as [|k0 x0 ks xs H F IH]; intros [|i] K; cbn [nth_error] in *; try discriminate; [|now apply IH].
    assert (k0 = k) by congruence. subst k0. clear - H U. pose proof (used_index _ _ _ _ H) as A. pose proof (used_index _ _ _ _ U) as B. congruence. }
  apply (dot_single xs ws) with (i := i); try assumption. rewrite L. now apply Forall2_length in F.
Qed.
Print Assumptions C43_single_weight.
(** the mask of the field plays no role: a masked point is used like any other,
    with the value under the mask (the code intends to mask these cells) *)
Theorem C43_mask_ignored : forall d m mv,
  (forall ks, apply_single (Ma d m) mv ks = apply_single (Nd d) mv ks) /\ (forall t, apply_weighted (Ma d m) mv t = apply_weighted (Nd d) mv t).
Proof. intros d m mv. split; reflexivity. Qed.
Print Assumptions C43_mask_ignored.
Example C43_nonvacuous :
  let v := Ma [nint 10; nint 20; nint 9999] (Some [false; false; true]) in
  Forall2 (used (adata v) (nint (-1))) [1%Z; 3%Z; 2%Z] [nint 20; nint (-1); nint 9999] /\
  Forall2 (fun k x => used (adata v) (nint (-1)) k (Fin x)) [0%Z; 1%Z] [ZQ 10; ZQ 20] /\ total [Q2Qc (1 # 4); Q2Qc (3 # 4)] = 1%Qc /\ dot [Q2Qc (1 # 4); Q2Qc (3 # 4)] [ZQ 10; ZQ 20] = Q2Qc (35 # 2).
Proof.
  cbv zeta. split; [|split; [|split; apply Qc_is_canon; vm_compute; reflexivity]].
  - constructor; [left; split; [cbn; lia|reflexivity]|]. constructor; [right; split; reflexivity|]. constructor; [left; split; [cbn; lia|reflexivity]|constructor].
  - constructor; [left; split; [cbn; lia|reflexivity]|]. constructor; [left; split; [cbn; lia|reflexivity]|constructor].
Qed.

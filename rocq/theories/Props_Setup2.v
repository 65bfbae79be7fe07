(** * Props_Setup2: C77 stored tables and options, C78 the API and the command
    file describe the same execution. *)
From Verif Require Import Base PyStr Strings Config Context Setup Spec_Context Base_P PyStr_P Strings_P Config_P Context_P Context_P2.
From Verif Require Import Props_Context Props_Setup.
Local Open Scope string_scope.

(** ** C77, continued: the table applied was computed with the options asked for *)
Section Tables.
Import Interp.
Definition C77_tables_full : Prop := forall e evs,
  Forall (fun u => match snd u with Ok used => used = Some (fst u) | Raise _ => True end) (run_o e (mkDisk [] []) None [] evs).
Definition ex_o1 : iopts := mkIopts (JStr "a.nc") (JStr "NewEtAl") JNull (JBool false) JNull (JBool false).
Definition ex_o2 : iopts := mkIopts (JStr "b.nc") (JStr "Hofstra") JNull (JBool false) JNull (JBool true).
Definition ex_cdd : request := mkReq "0$359$720$361$259920$regular_ll" "t" "cdd" "pf10tp" 4%Z.
Definition ex_tenv : Interp.env := Interp.mkEnv [] "/global" true (Ok tt).
Theorem C77_stored_options_refuted : ~ C77_tables_full.
Proof.
  intro H. specialize (H ex_tenv [OStart "/a"; OUse ex_cdd ex_o1; OStart "/a"; OUse ex_cdd ex_o2]).
  assert (E : run_o ex_tenv (mkDisk [] []) None [] [OStart "/a"; OUse ex_cdd ex_o1; OStart "/a"; OUse ex_cdd ex_o2] = [(ex_o1, Ok (Some ex_o1)); (ex_o2, Ok (Some ex_o1))]) by (vm_compute; reflexivity).
  rewrite E in H. inversion H as [|? ? _ H2]; subst. inversion H2 as [|? ? H3 _]; subst. cbn in H3. discriminate.
Qed.
Print Assumptions C77_stored_options_refuted.

(** all uses with the same options, no table at the beginning *)
Definition asks (o : iopts) (ev : oevent) : Prop := match ev with OStart _ => True | OUse _ o' => o' = o end.
Definition known (o : iopts) (d : disk) (g : ghost) : Prop :=
  (forall k o', dget String.eqb g k = Some o' -> o' = o) /\ (forall k, dmem String.eqb (d_files d) k = true -> dget String.eqb g k <> None).
Lemma known_cons o d g k : known o d g -> known o d ((k, o) :: g).
Proof.
  intros [H1 H2]. split.
  - intros k' o'. cbn [dget]. destruct (String.eqb k' k); [congruence|apply H1].
  - intros k' Hk. cbn [dget]. destruct (String.eqb k' k); [discriminate|now apply H2].
Qed.
Lemma dmem_dset {V} (l : list (string * V)) k v k' : dmem String.eqb (dset String.eqb l k v) k' = true -> k' = k \/ dmem String.eqb l k' = true.
Proof.
  unfold dmem. induction l as [|[k0 v0] l IH]; cbn [dset dget].
  - destruct (String.eqb_spec k' k); [auto|discriminate].
  - destruct (String.eqb_spec k k0) as [<-|Hne]; cbn [dget].
    + destruct (String.eqb_spec k' k); auto.
    + destruct (String.eqb k' k0); auto.
Qed.
Lemma applied_known o d g q path : known o d g -> table_found d q path = true -> applied_options g path = Some o.
Proof.
  intros [H1 H2] Hf. assert (F : dget String.eqb g path <> None \/ dget String.eqb g (path +++ ".gz") <> None).
  { unfold table_found, exists_file in Hf. destruct (is_grib_mode (q_mode q)); [left; now apply H2|].
    apply Bool.orb_true_iff in Hf as [Hf|Hf]; [left|right]; now apply H2. }
  unfold applied_options. destruct (dget String.eqb g path) as [o'|] eqn:E1; [f_equal; eauto|].
  destruct (dget String.eqb g (path +++ ".gz")) as [o'|] eqn:E2; [f_equal; eauto|]. destruct F; contradiction.
Qed.
Theorem C77_same_options_partial : forall e o evs, Forall (asks o) evs ->
  Forall (fun u => match snd u with Ok used => used = Some (fst u) | Raise _ => True end) (run_o e (mkDisk [] []) None [] evs).
Proof.
  intros e o evs. assert (G : forall evs d p g, known o d g -> Forall (asks o) evs ->
    Forall (fun u => match snd u with Ok used => used = Some (fst u) | Raise _ => True end) (run_o e d p g evs)).
  { clear evs. induction evs as [|ev evs IH]; intros d p g Hg Hf; [constructor|]. apply Forall_cons_iff in Hf as [Ha Hf].
    destruct ev as [dir|q o']; cbn [run_o]; [now apply IH|]. cbn in Ha. subst o'. destruct p as [p0|]; [|now apply IH].
    destruct (interpolate_o e d p0 g q o) as [[[[d' p'] g'] used]|x] eqn:E; [|constructor; [exact I|now apply IH]].
    unfold interpolate_o in E. inv_bind E. inv_bind E. destruct a0 as [[d1 p1] c1]. unfold interpolate in E1. rewrite E0 in E1. cbn [rbind] in E1.
    destruct (table_found d q a) eqn:Hft.
    - injection E as <- <- <- <-. inv_bind E1. destruct a0 as [c2 p2]. injection E1 as <- <- <-.
      constructor; [|now apply IH]. cbn [snd fst]. eapply applied_known; eassumption.
    - injection E as <- <- <- <-. destruct (e_create e); [|discriminate]. inv_bind E1. unfold register, save_table in E1. injection E1 as <- <- <-.
      constructor; [reflexivity|]. apply IH; [|exact Hf]. apply known_cons. destruct Hg as [H1 H2]. split.
      + intros k o'. cbn [dget]. destruct (String.eqb k (saved_as a)); [congruence|apply H1].
      + intros k Hk. cbn [d_files] in Hk. cbn [dget]. destruct (String.eqb_spec k (saved_as a)) as [->|Hne]; [discriminate|].
        apply dmem_dset in Hk as [Hk|Hk]; [contradiction|now apply H2]. }
  intro Hf. apply G; [|exact Hf]. split; [intros k o'; discriminate|intros k; discriminate].
Qed.
Print Assumptions C77_same_options_partial.
Example C77_same_nonvacuous : run_o ex_tenv (mkDisk [] []) None [] [OStart "/a"; OUse ex_cdd ex_o1; OStart "/a"; OUse ex_cdd ex_o1] = [(ex_o1, Ok (Some ex_o1)); (ex_o1, Ok (Some ex_o1))].
Proof. vm_compute. reflexivity. Qed.
End Tables.

(** ** C78 *)
(** the same sections for a command file (an at sign before every key) and for
    the API *)
Definition at_keys (l : list (string * json)) : list (string * json) := map (fun kv => ("@" +++ fst kv, snd kv)) l.
Definition command_of (name : string) (par out ic ag : list (string * json)) : json :=
  JObj [("Execution", JObj [("@name", JStr name); ("Parameter", JObj (at_keys par));
     ("OutMaps", JObj (("Interpolation", JObj (at_keys ic)) :: at_keys out)); ("Aggregation", JObj (at_keys ag))])].
(** the top keys of the API: what the options of the command line are to a command *)
Definition arguments (a : cli) : list (string * json) :=
  [("loggerLevel", JStr (dflt (a_level a) "INFO")); ("inputFile", of_s (a_input a)); ("inputFile2", of_s (a_input2 a));
   ("start", of_z (a_start a)); ("end", of_z (a_end a)); ("dataTime", of_z (a_dataTime a)); ("dataDate", of_z (a_dataDate a));
   ("perturbationNumber", of_z (a_member a)); ("intertableDir", of_s (a_idir a)); ("geopotentialDir", of_s (a_gdir a));
   ("createIntertable", JBool (a_create a)); ("interpolationParallel", JBool (a_parallel a));
   ("fmap", JNum (dflt (a_fmap a) 1%Z)); ("ext", JNum (dflt (a_ext a) 1%Z)); ("namePrefix", of_s (a_prefix a));
   ("scaleFactor", of_s (a_scale a)); ("offset", of_s (a_offset a)); ("validMin", of_s (a_vmin a)); ("validMax", of_s (a_vmax a));
   ("valueFormat", of_s (a_vformat a)); ("outputStepUnits", of_s (a_units a))].
Definition dictionary_of (a : cli) (par out ic ag : list (string * json)) : json :=
  JObj (arguments a ++ [("Parameter", JObj par); ("OutMaps", JObj (("Interpolation", JObj ic) :: out)); ("Aggregation", JObj ag)])%list.
(** the same context, but for the output format and the half weights, which the
    API does not have *)
Definition without_format_half (x : ctx) : ctx :=
  {| x_loglevel := x_loglevel x; x_input := x_input x;
        x_tstart := x_tstart x; x_tend := x_tend x; x_dataTime := x_dataTime x; x_dataDate := x_dataDate x;
        x_idirs_user := x_idirs_user x; x_gdirs_user := x_gdirs_user x; x_create := x_create x; x_parallel := x_parallel x;
        x_fmap := x_fmap x; x_ext := x_ext x; x_format := JNull; x_prefix := x_prefix x; x_scale := x_scale x;
        x_offset := x_offset x; x_vmin := x_vmin x; x_vmax := x_vmax x; x_vformat := x_vformat x; x_units := x_units x;
        x_outDir := x_outDir x; x_member := x_member x; x_input2 := x_input2 x;
        x_doAggr := x_doAggr x; x_doConv := x_doConv x; x_doCorr := x_doCorr x;
        x_short := x_short x; x_descr := x_descr x; x_unit := x_unit x; x_convUnit := x_convUnit x;
        x_convFun := x_convFun x; x_cutoff := x_cutoff x;
        x_formula := x_formula x; x_gem := x_gem x; x_dem := x_dem x;
        x_clone := x_clone x; x_mode := x_mode x; x_lat := x_lat x; x_lon := x_lon x;
        x_unitTime := x_unitTime x; x_level := x_level x;
        x_astep := x_astep x; x_atype := x_atype x; x_ahalf := JNull; x_aforce := x_aforce x |}.

Lemma at_key k l : dget String.eqb (at_keys l) ("@" +++ k) = dget String.eqb l k.
Proof.
  induction l as [|[k' v] l IH]; [reflexivity|]. cbn [at_keys map dget fst snd]. fold (at_keys l). rewrite IH.
  change ("@" +++ k) with (String "@" k). change ("@" +++ k') with (String "@" k'). cbn [String.eqb]. rewrite Ascii.eqb_refl. reflexivity.
Qed.
Lemma at_item k k' l : k' = "@" +++ k -> jitem (JObj (at_keys l)) k' = jitem (JObj l) k.
Proof. intros ->. cbn [jitem]. unfold dgetx. now rewrite at_key. Qed.
Lemma at_get_d k k' d l : k' = "@" +++ k -> jget_d (JObj (at_keys l)) k' d = jget_d (JObj l) k d.
Proof. intros ->. cbn [jget_d]. now rewrite at_key. Qed.
Lemma at_get k k' l : k' = "@" +++ k -> jget (JObj (at_keys l)) k' = jget (JObj l) k.
Proof. apply at_get_d. Qed.
Definition outmaps (at_ : bool) (ic out : list (string * json)) : json := JObj (("Interpolation", JObj (if at_ then at_keys ic else ic)) :: if at_ then at_keys out else out).
Lemma out_key k k' ic out : k' = "@" +++ k -> String.eqb k "Interpolation" = false ->
  (forall d, jget_d (outmaps true ic out) k' d = jget_d (outmaps false ic out) k d) /\
  jitem (outmaps true ic out) k' = jitem (outmaps false ic out) k.
Proof.
  intros -> Hk. unfold outmaps. cbn [jget_d jitem]. unfold dgetx. cbn [dget]. rewrite Hk, at_key.
  assert (E : String.eqb ("@" +++ k) "Interpolation" = false) by reflexivity. rewrite E. split; reflexivity.
Qed.
Lemma out_get k k' ic out : k' = "@" +++ k -> String.eqb k "Interpolation" = false -> jget (outmaps true ic out) k' = jget (outmaps false ic out) k.
Proof. intros H Hk. unfold jget. apply (out_key k k' ic out H Hk). Qed.
Lemma at_conversion e par : define_conversion e "@" (JObj (at_keys par)) = define_conversion e "" (JObj par).
Proof.
  unfold define_conversion. rewrite (at_item "shortName" ("@" +++ "shortName") par eq_refl), (at_get "applyConversion" ("@" +++ "applyConversion") par eq_refl). reflexivity.
Qed.
Lemma at_correction par : define_correction "@" (JObj (at_keys par)) = define_correction "" (JObj par).
Proof.
  unfold define_correction. rewrite (at_get "correctionFormula" ("@" +++ "correctionFormula") par eq_refl), (at_get "gem" ("@" +++ "gem") par eq_refl), (at_get "demMap" ("@" +++ "demMap") par eq_refl). reflexivity.
Qed.
Lemma at_aggregation ex c ag : jget ex "Aggregation" = Ok (JObj (at_keys ag)) -> jget c "Aggregation" = Ok (JObj ag) ->
  define_aggregation "" false c = do '(d, s, t, h, f) <- define_aggregation "@" true ex; Ok (d, s, t, JNull, f).
Proof.
  intros H1 H2. unfold define_aggregation. rewrite H1, H2. cbn [rbind].
  assert (Q : forall k, jget (JObj ag) ("" +++ k) = jget (JObj ag) k) by reflexivity.
  assert (Q' : forall k d, jget_d (JObj ag) ("" +++ k) d = jget_d (JObj ag) k d) by reflexivity. rewrite !Q, Q'.
  assert (T : jtruthy (JObj (at_keys ag)) = jtruthy (JObj ag)) by (destruct ag; reflexivity). rewrite T. destruct (jtruthy (JObj ag)); [|reflexivity].
  rewrite (at_get "step" ("@" +++ "step") ag eq_refl), (at_get "type" ("@" +++ "type") ag eq_refl), (at_get "halfweights" ("@" +++ "halfweights") ag eq_refl), (at_get_d "forceZeroArray" ("@" +++ "forceZeroArray") _ ag eq_refl).
  destruct (jget (JObj ag) "step"); [|reflexivity]. cbn [rbind]. destruct (jget (JObj ag) "type") as [ty|]; [|reflexivity]. cbn [rbind].
  assert (Eh : exists h, jget (JObj ag) "halfweights" = Ok h) by (eexists; reflexivity). destruct Eh as [h ->]. cbn [rbind].
  destruct (jis ty "accumulation"); [|reflexivity]. destruct (jget_d (JObj ag) "forceZeroArray" (JStr "False")) as [f|]; [|reflexivity]. cbn [rbind].
  destruct (not_false_string f); reflexivity.
Qed.
Lemma at_int g k k' l : k' = "@" +++ k -> int_option g (JObj (at_keys l)) k' = int_option g (JObj l) k.
Proof. intro H. unfold int_option. now rewrite (at_get k k' l H). Qed.
Lemma out_or g k k' ic out d : k' = "@" +++ k -> String.eqb k "Interpolation" = false ->
  opt_or g (outmaps true ic out) k' d = opt_or g (outmaps false ic out) k d.
Proof. intros H Hk. unfold opt_or, jget. now rewrite (proj1 (out_key k k' ic out H Hk)). Qed.
Lemma out_opt g k k' ic out : k' = "@" +++ k -> String.eqb k "Interpolation" = false ->
  opt_get g (outmaps true ic out) k' = opt_get g (outmaps false ic out) k.
Proof. intros H Hk. unfold opt_get, jget. now rewrite (proj1 (out_key k k' ic out H Hk)). Qed.
Lemma out_sent g s k k' ic out d : k' = "@" +++ k -> String.eqb k "Interpolation" = false ->
  sentinel_or g s (outmaps true ic out) k' d = sentinel_or g s (outmaps false ic out) k d.
Proof. intros H Hk. unfold sentinel_or, jget. now rewrite (proj1 (out_key k k' ic out H Hk)). Qed.
Lemma dirs_none ic k k' dir dflt_ : k' = "@" +++ k -> requested (JObj ic) k = None ->
  (if jtruthy dir then Ok dir else (do v <- jget (JObj (at_keys ic)) k'; Ok (jor v dflt_))) = Ok (jor dir dflt_).
Proof.
  intros -> H. unfold jor at 2. destruct (jtruthy dir); [reflexivity|]. rewrite (at_get k _ ic eq_refl).
  destruct (jget (JObj ic) k) as [v|x] eqn:E; [|discriminate]. rewrite (requested_get _ _ _ E) in H. cbn [rbind]. unfold jor. destruct (jtruthy v); [discriminate|reflexivity].
Qed.

(** one step of both programs at a time *)
Lemma do_left {A B} (x : res A) v (f : A -> res B) r : x = Ok v -> f v = r -> rbind x f = r.
Proof. intros -> H. exact H. Qed.
Lemma do_right {A B C} (x : res A) v (g : A -> res B) (h : B -> res C) l : x = Ok v -> l = rbind (g v) h -> l = rbind (rbind x g) h.
Proof. intros -> H. exact H. Qed.
Lemma do_both {A B C} (x y : res A) (f : A -> res C) (g : A -> res B) (h : B -> res C) : x = y -> (forall v, f v = rbind (g v) h) -> rbind x f = rbind (rbind y g) h.
Proof. intros -> H. destruct y as [v|e]; [apply H|reflexivity]. Qed.
Theorem C78_same_context : forall e a name par out ic ag, a_commands a <> None -> a_outDir a = None ->
  requested (JObj ic) "intertableDir" = None -> requested (JObj ic) "geopotentialDir" = None ->
  define_api_params e (dictionary_of a par out ic ag) =
  (do x <- define_exec_params e a (Some (command_of name par out ic ag)); Ok (without_format_half x)).
Proof.
  intros e a name par out ic ag Hc Ho Hi Hg. unfold define_exec_params. destruct (a_commands a) as [cf|]; [clear Hc|contradiction].
  unfold define_api_params.
  assert (D : forall k v, dget String.eqb (arguments a ++ [("Parameter", JObj par); ("OutMaps", outmaps false ic out); ("Aggregation", JObj ag)])%list k = Some v ->
     jitem (dictionary_of a par out ic ag) k = Ok v /\ (forall d, jget_d (dictionary_of a par out ic ag) k d = Ok v)).
  { intros k v H. unfold dictionary_of. change (JObj (("Interpolation", JObj ic) :: out)) with (outmaps false ic out).
    cbn [jitem jget_d]. unfold dgetx. rewrite H. split; reflexivity. }
  assert (Dag : jget (dictionary_of a par out ic ag) "Aggregation" = Ok (JObj ag)) by apply (proj2 (D "Aggregation" _ eq_refl)).
  assert (X : exists ex, jitem (command_of name par out ic ag) "Execution" = Ok ex /\ jitem ex "@name" = Ok (JStr name) /\
    jitem ex "Parameter" = Ok (JObj (at_keys par)) /\ jitem ex "OutMaps" = Ok (outmaps true ic out) /\ jget ex "Aggregation" = Ok (JObj (at_keys ag))).
  { eexists. split; [reflexivity|]. repeat split. }
  destruct X as (ex & X1 & X2 & X3 & X4 & X5).
  pose proof (at_aggregation ex _ ag X5 Dag) as Eag.
  generalize dependent (dictionary_of a par out ic ag). intros c D Dag Eag.
  generalize dependent (command_of name par out ic ag). intros u X1.
  eapply (do_right _ _ _ _ _ X1). eapply (do_right _ _ _ _ _ X2). eapply (do_right _ _ _ _ _ X3).
  do 1 eapply (do_left _ _ _ _ (proj2 (D "loggerLevel" _ eq_refl) _)).
  eapply (do_left _ _ _ _ (proj1 (D "inputFile" _ eq_refl))).
  eapply (do_left _ _ _ _ (proj1 (D "start" _ eq_refl))).
  eapply (do_left _ _ _ _ (proj1 (D "end" _ eq_refl))).
  do 17 (match goal with |- rbind (jget_d c ?k ?d) _ = _ => eapply (do_left _ _ _ _ (proj2 (D k _ eq_refl) d)) | |- rbind (jget c ?k) _ = _ => eapply (do_left (jget c k) _ _ _ (proj2 (D k _ eq_refl) _)) end).
  eapply (do_left _ _ _ _ (proj1 (D "Parameter" _ eq_refl))).
  eapply do_both; [symmetry; apply (at_item "shortName" "@shortName" par eq_refl)|intro short].
  eapply do_both; [symmetry; apply at_conversion|intro k].
  eapply do_both; [symmetry; apply at_correction|intros [[[docorr f] g] dem]].
  eapply (do_left _ _ _ _ (proj1 (D "OutMaps" _ eq_refl))). eapply (do_right _ _ _ _ _ X4).
  eapply do_both; [symmetry; apply (proj2 (out_key "cloneMap" "@cloneMap" ic out eq_refl eq_refl))|intro clone].
  assert (I1 : jitem (outmaps true ic out) "Interpolation" = Ok (JObj (at_keys ic))) by reflexivity.
  assert (I2 : jitem (outmaps false ic out) "Interpolation" = Ok (JObj ic)) by reflexivity.
  eapply (do_left _ _ _ _ I2). eapply (do_right _ _ _ _ _ I1). clear I1 I2.
  eapply do_both; [symmetry; apply (at_get_d "mode" "@mode" _ ic eq_refl)|intro mode].
  eapply (do_right _ _ _ _ _ (dirs_none ic "intertableDir" "@intertableDir" _ _ eq_refl Hi)).
  eapply (do_right _ _ _ _ _ (dirs_none ic "geopotentialDir" "@geopotentialDir" _ _ eq_refl Hg)).
  eapply do_both; [symmetry; apply (at_item "latMap" "@latMap" ic eq_refl)|intro lat].
  eapply do_both; [symmetry; apply (at_item "lonMap" "@lonMap" ic eq_refl)|intro lon].
  eapply do_both; [symmetry; apply (out_get "unitTime" "@unitTime" ic out eq_refl eq_refl)|intro ut].
  eapply do_both; [rewrite (out_get "namePrefix" "@namePrefix" ic out eq_refl eq_refl); reflexivity|intro prefix].
  eapply do_both; [symmetry; apply (out_or _ "scaleFactor" "@scaleFactor" ic out _ eq_refl eq_refl)|intro scale].
  eapply do_both; [symmetry; apply (out_or _ "offset" "@offset" ic out _ eq_refl eq_refl)|intro offset].
  eapply do_both; [symmetry; apply (out_opt _ "validMin" "@validMin" ic out eq_refl eq_refl)|intro vmin].
  eapply do_both; [symmetry; apply (out_opt _ "validMax" "@validMax" ic out eq_refl eq_refl)|intro vmax].
  eapply do_both; [symmetry; apply (out_opt _ "valueFormat" "@valueFormat" ic out eq_refl eq_refl)|intro vformat].
  eapply do_both; [symmetry; apply (out_opt _ "outputStepUnits" "@outputStepUnits" ic out eq_refl eq_refl)|intro units].
  eapply do_both; [symmetry; apply (out_sent _ _ "fmap" "@fmap" ic out _ eq_refl eq_refl)|intro fmap].
  eapply do_both; [symmetry; apply (out_sent _ _ "ext" "@ext" ic out _ eq_refl eq_refl)|intro ext].
  assert (F : exists fm, sentinel_or (JStr (dflt (a_format a) "notset")) (JStr "notset") (outmaps true ic out) "@format" (JStr "pcraster") = Ok fm)
    by (unfold sentinel_or; destruct (String.eqb _ _); eexists; reflexivity).
  destruct F as [fm F]. eapply (do_right _ _ _ _ _ F).
  eapply do_both; [symmetry; apply (at_int _ "tstart" "@tstart" par eq_refl)|intro ts].
  eapply do_both; [symmetry; apply (at_int _ "tend" "@tend" par eq_refl)|intro te].
  eapply do_both; [symmetry; apply (at_int _ "dataTime" "@dataTime" par eq_refl)|intro dt].
  eapply do_both; [symmetry; apply (at_int _ "dataDate" "@dataDate" par eq_refl)|intro dd].
  eapply do_both; [symmetry; apply (at_get "level" "@level" par eq_refl)|intro lev].
  rewrite Eag. destruct (define_aggregation "@" true ex) as [[[[[doa st] ty] hw] fo]|x]; [cbn [rbind]|reflexivity].
  eapply do_both; [reflexivity|intros [[[d' c'] la'] lo']].
  rewrite Ho. reflexivity.
Qed.
Print Assumptions C78_same_context.
(** the checks decide the same way *)
Theorem C78_same_verdict : forall e fs a name par out ic ag, a_commands a <> None -> a_outDir a = None -> cli_choices a = true ->
  requested (JObj ic) "intertableDir" = None -> requested (JObj ic) "geopotentialDir" = None ->
  api_context e fs (dictionary_of a par out ic ag) =
  (do x <- execution_context e fs a (Some (command_of name par out ic ag)); Ok (without_format_half x)).
Proof.
  intros e fs a name par out ic ag Hc Ho Hch Hi Hg. unfold api_context, execution_context. rewrite (C78_same_context e a name par out ic ag Hc Ho Hi Hg), Hch.
  cbn [guard rbind]. destruct (define_exec_params e a (Some (command_of name par out ic ag))) as [x|er]; [cbn [rbind]|reflexivity].
  unfold check_exec_params.
  cbn [without_format_half x_input x_lon x_lat x_clone x_mode x_outDir x_level x_unitTime x_tstart x_tend x_doCorr x_gem x_dem x_formula].
  repeat (match goal with |- rbind ?A _ = _ => destruct A as [?v|?er]; [cbn [rbind]|reflexivity] end). reflexivity.
Qed.
Print Assumptions C78_same_verdict.
(** so are the options of the interpolation *)
Theorem C78_same_options : forall a name par out ic ag, api_options (dictionary_of a par out ic ag) = exec_options (command_of name par out ic ag).
Proof.
  intros a name par out ic ag. unfold api_options, exec_options.
  assert (O : jitem (dictionary_of a par out ic ag) "OutMaps" = Ok (outmaps false ic out)) by reflexivity. rewrite O. cbn [rbind].
  assert (X : exists ex, jitem (command_of name par out ic ag) "Execution" = Ok ex /\ jitem ex "OutMaps" = Ok (outmaps true ic out)) by (eexists; split; reflexivity).
  destruct X as (ex & X1 & X2). rewrite X1. cbn [rbind]. rewrite X2. cbn [rbind].
  assert (I1 : jitem (outmaps true ic out) "Interpolation" = Ok (JObj (at_keys ic))) by reflexivity.
  assert (I2 : jitem (outmaps false ic out) "Interpolation" = Ok (JObj ic)) by reflexivity. rewrite I1, I2. cbn [rbind]. unfold read_options.
  rewrite (at_get_d "cdd_map" ("@" +++ "cdd_map") _ ic eq_refl), (at_get_d "cdd_mode" ("@" +++ "cdd_mode") _ ic eq_refl), (at_get_d "cdd_options" ("@" +++ "cdd_options") _ ic eq_refl),
    (at_get_d "use_broadcasting" ("@" +++ "use_broadcasting") _ ic eq_refl), (at_get_d "num_of_splits" ("@" +++ "num_of_splits") _ ic eq_refl),
    (at_get_d "rotated_target" ("@" +++ "rotated_target") _ ic eq_refl). reflexivity.
Qed.
Print Assumptions C78_same_options.
(** full statement: an API dictionary that has the required keys and the
    sections of a command file gives the context of that command *)
Definition C78_full : Prop := forall e a name par out ic ag x y, a = mkCli (a_commands a) None (a_input a) None (a_start a) (a_end a) None None None None None None None
    None None None None None None None None None false false None None false false -> a_commands a <> None ->
  define_exec_params e a (Some (command_of name par out ic ag)) = Ok x ->
  define_api_params e (JObj [("inputFile", of_s (a_input a)); ("start", of_z (a_start a)); ("end", of_z (a_end a));
    ("Parameter", JObj par); ("OutMaps", JObj (("Interpolation", JObj ic) :: out)); ("Aggregation", JObj ag)]) = Ok y ->
  x_fmap y = x_fmap x /\ x_ext y = x_ext x /\ x_parallel y = x_parallel x /\ x_idirs_user y = x_idirs_user x /\ x_ahalf y = x_ahalf x.
Definition ex_sections : list (string * json) * list (string * json) * list (string * json) * list (string * json) :=
  ([("shortName", JStr "2t")], [("cloneMap", JStr "{MAPS}/clone.map"); ("fmap", JNum 3)],
   [("latMap", JStr "{MAPS}/lat.map"); ("lonMap", JStr "{MAPS}/lon.map"); ("mode", JStr "nearest"); ("intertableDir", JStr "/tables")],
   [("step", JNum 24); ("type", JStr "average"); ("halfweights", JBool true)]).
Theorem C78_defaults_refuted : ~ C78_full /\
  let '(par, out, ic, ag) := ex_sections in
  exists x y, define_exec_params ex_env ex_cli (Some (command_of "t" par out ic ag)) = Ok x /\
    define_api_params ex_env (JObj [("inputFile", JStr "in.grb"); ("start", JNull); ("end", JNull);
      ("Parameter", JObj par); ("OutMaps", JObj (("Interpolation", JObj ic) :: out)); ("Aggregation", JObj ag)]) = Ok y /\
    (x_fmap x, x_parallel x, x_idirs_user x, x_ahalf x) = (JNum 3, JBool false, JStr "/tables", JBool true) /\
    (x_fmap y, x_parallel y, x_idirs_user y, x_ahalf y) = (JNull, JBool true, JNull, JNull).
Proof.
  split.
  - intro H. destruct (H ex_env ex_cli "t" (fst (fst (fst ex_sections))) (snd (fst (fst ex_sections))) (snd (fst ex_sections)) (snd ex_sections) _ _ eq_refl ltac:(discriminate) eq_refl eq_refl) as [E _].
    vm_compute in E. discriminate.
  - cbn [ex_sections]. eexists _, _. repeat split; vm_compute; reflexivity.
Qed.
Print Assumptions C78_defaults_refuted.
Example C78_nonvacuous : let ic := [("latMap", JStr "{MAPS}/lat.map"); ("lonMap", JStr "{MAPS}/lon.map"); ("mode", JStr "nearest")] in
  let '(par, out, _, ag) := ex_sections in
  requested (JObj ic) "intertableDir" = None /\ is_ok (api_context ex_env ex_fs (dictionary_of ex_cli par out ic ag)) = true.
Proof. vm_compute. split; reflexivity. Qed.

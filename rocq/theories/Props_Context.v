(** * Properties C30-C33 (main/context.py, ApiContext of main/api.py).
    Vocabulary: Spec_Context.v. Proofs: Context_P.v, Context_P2.v. *)
From Verif Require Import Base PyStr Strings Config Context Spec_Context Base_P Config_P Context_P Context_P2.
Local Open Scope string_scope.

(** ** Examples used below: one parameter, one command file, no option *)
Definition ex_params : list (string * json) :=
  [("2t", JObj [("@description", JStr "temperature"); ("@shortName", JStr "2t"); ("@unit", JStr "K");
     ("Conversion", JObj [("@id", JStr "k2c"); ("@unit", JStr "C"); ("@function", JStr "x=x-273.15"); ("@cutOffNegative", JBool false)])])].
Definition ex_env : env := mkEnv ex_params [("MAPS", "/maps")] JNull JNull.
Definition ex_cli : cli := mkCli (Some "t.json") None (Some "in.grb") None None None None None None None None None None
  None None None None None None None None None false false None None false false.
Definition ex_cmd (par out aggr : list (string * json)) : json :=
  JObj [("Execution", JObj [("@name", JStr "t");
     ("Parameter", JObj (("@shortName", JStr "2t") :: par));
     ("OutMaps", JObj (("@cloneMap", JStr "{MAPS}/clone.map") ::
        ("Interpolation", JObj [("@latMap", JStr "{MAPS}/lat.map"); ("@lonMap", JStr "{MAPS}/lon.map"); ("@mode", JStr "nearest")]) :: out));
     ("Aggregation", JObj aggr)])].
Definition ex_fs : fsys := mkFs (fun p => str_mem p ["in.grb"; "/maps/clone.map"; "/maps/lat.map"; "/maps/lon.map"]) (fun _ => true) (fun _ => true).
Definition with_opts (fmap ext start_ end_ : option Z) (format : option string) : cli :=
  mkCli (Some "t.json") None (Some "in.grb") None start_ end_ None None None fmap format ext None
  None None None None None None None None None false false None None false false.

(** ** C30: validation *)
(** full statement: the first violated rule decides *)
Definition C30_full : Prop := forall e fs a cmd x, define_exec_params e a (Some cmd) = Ok x -> cli_choices a = true ->
  out_dir_usable fs x -> (x_unitTime x = JNull \/ exists z, jint (x_unitTime x) = Ok z) ->
  match first_violated (rules fs x) with
  | None => exists x', execution_context e fs a (Some cmd) = Ok x'
  | Some c => execution_context e fs a (Some cmd) = Raise (AppExc c)
  end.
(** a range that ends at step 0 is accepted whatever its start is *)
Theorem C30_end_zero_refuted : ~ C30_full.
Proof.
  intro H.
  specialize (H ex_env ex_fs (with_opts None None (Some 12%Z) (Some 0%Z) None) (ex_cmd [] [] []) _ eq_refl eq_refl
    ltac:(eexists; reflexivity) ltac:(now left)). vm_compute in H. discriminate.
Qed.
Print Assumptions C30_end_zero_refuted.
(** a level given as a number in the command file ends with an AttributeError *)
Theorem C30_numeric_level_refuted : ~ C30_full /\
  execution_context ex_env ex_fs ex_cli (Some (ex_cmd [("@level", JNum 850)] [] [])) = Raise AttributeError.
Proof.
  split; [|vm_compute; reflexivity]. intro H.
  specialize (H ex_env ex_fs ex_cli (ex_cmd [("@level", JNum 850)] [] []) _ eq_refl eq_refl
    ltac:(eexists; reflexivity) ltac:(now left)). vm_compute in H. destruct H as [x' H]. discriminate.
Qed.
Print Assumptions C30_numeric_level_refuted.
(** the output format of the command file is not checked *)
Theorem C30_format_refuted : ~ (forall e fs a cmd x, execution_context e fs a cmd = Ok x ->
  x_format x = JStr "netcdf" \/ x_format x = JStr "pcraster").
Proof.
  intro H. specialize (H ex_env ex_fs ex_cli (Some (ex_cmd [] [("@format", JStr "geotiff")] [])) _ eq_refl).
  vm_compute in H. destruct H; discriminate.
Qed.
Print Assumptions C30_format_refuted.

(** any context with values of the expected types *)
Theorem C30_check_partial : forall fs x, typed x -> range_checked x -> out_dir_usable fs x ->
  match first_violated (rules fs x) with
  | None => exists x', check_exec_params fs x = Ok x'
  | Some c => check_exec_params fs x = Raise (AppExc c)
  end.
Proof. exact check_spec. Qed.
Print Assumptions C30_check_partial.
(** a command: level given as text, bounds different from 0 or in order *)
Theorem C30_execution_partial : forall e fs a cmd x, define_exec_params e a (Some cmd) = Ok x -> cli_choices a = true ->
  out_dir_usable fs x -> (x_unitTime x = JNull \/ exists z, jint (x_unitTime x) = Ok z) ->
  (x_level x = JNull \/ exists s, x_level x = JStr s) -> range_checked x ->
  match first_violated (rules fs x) with
  | None => exists x', execution_context e fs a (Some cmd) = Ok x'
  | Some c => execution_context e fs a (Some cmd) = Raise (AppExc c)
  end.
Proof.
  intros e fs a cmd x Hd Hc Ho Hu Hl Hr. unfold execution_context. rewrite Hc, Hd. cbn [guard rbind].
  apply check_spec; auto. eapply exec_typed; eauto.
Qed.
Print Assumptions C30_execution_partial.
(** the API *)
Theorem C30_api_partial : forall e fs c x, define_api_params e c = Ok x -> typed x -> range_checked x -> out_dir_usable fs x ->
  match first_violated (rules fs x) with
  | None => exists x', api_context e fs c = Ok x'
  | Some k => api_context e fs c = Raise (AppExc k)
  end.
Proof. intros e fs c x Hd Ht Hr Ho. unfold api_context. rewrite Hd. cbn [rbind]. now apply check_spec. Qed.
Print Assumptions C30_api_partial.
(** before these rules: options, command file, short name *)
Theorem C30_earlier_errors : forall e fs a cmd,
  (cli_choices a = false -> execution_context e fs a cmd = Raise (AppExc 10000)) /\
  (cli_choices a = true -> a_commands a <> None -> execution_context e fs a None = Raise (AppExc 0)) /\
  (forall par d s, cli_choices a = true -> a_commands a <> None -> cmd = Some (JObj [("Execution", JObj (("@name", d) :: ("Parameter", JObj (("@shortName", JStr s) :: par)) :: nil))]) ->
     dget String.eqb (e_params e) s = None -> execution_context e fs a cmd = Raise (AppExc 1100)).
Proof.
  intros e fs a cmd. unfold execution_context. split; [intros ->; reflexivity|]. split.
  - intros -> Hc. cbn [guard rbind]. unfold define_exec_params. destruct (a_commands a); [reflexivity|congruence].
  - intros par d s -> Hc -> Hs. cbn [guard rbind]. unfold define_exec_params. destruct (a_commands a); [|congruence].
    cbn. unfold define_conversion. cbn. unfold param_get. rewrite Hs. reflexivity.
Qed.
Print Assumptions C30_earlier_errors.
Example C30_nonvacuous :
  (exists x x', define_exec_params ex_env ex_cli (Some (ex_cmd [("@level", JStr "850"); ("@tstart", JNum 12); ("@tend", JStr "36")] [] [])) = Ok x /\
    first_violated (rules ex_fs x) = None /\ range_checked x /\
    execution_context ex_env ex_fs ex_cli (Some (ex_cmd [("@level", JStr "850"); ("@tstart", JNum 12); ("@tend", JStr "36")] [] [])) = Ok x' /\
    x_level x' = JNum 850) /\
  execution_context ex_env ex_fs ex_cli (Some (ex_cmd [("@level", JStr "8a")] [] [])) = Raise (AppExc 1400) /\
  execution_context ex_env ex_fs ex_cli (Some (ex_cmd [("@tstart", JNum 37); ("@tend", JStr "36")] [] [])) = Raise (AppExc 1500).
Proof.
  split; [|split; vm_compute; reflexivity].
  eexists _, _. split; [vm_compute; reflexivity|]. split; [vm_compute; reflexivity|]. split; [|split; vm_compute; reflexivity].
  intros a b Ha Hb. cbn in Ha, Hb. injection Ha as <-. injection Hb as <-. lia.
Qed.

(** ** C31: the command line wins over the command file *)
Definition C31_full : Prop := forall e a cmd x, define_exec_params e a (Some cmd) = Ok x -> overrides a cmd x.
(** [-f 1] is ignored when the command file gives another number *)
Theorem C31_fmap_one_refuted : ~ C31_full.
Proof.
  intro H. specialize (H ex_env (with_opts (Some 1%Z) None None None None) (ex_cmd [] [("@fmap", JNum 5)] []) _ eq_refl).
  destruct H as (_ & _ & _ & _ & _ & _ & _ & H & _). vm_compute in H. discriminate.
Qed.
Print Assumptions C31_fmap_one_refuted.
(** dataTime 0 of the command file is ignored *)
Theorem C31_midnight_refuted : ~ C31_full /\
  (exists x, define_exec_params ex_env ex_cli (Some (ex_cmd [("@dataTime", JNum 0)] [] [])) = Ok x /\ x_dataTime x = JNull).
Proof.
  split.
  - intro H. specialize (H ex_env ex_cli (ex_cmd [("@dataTime", JNum 0)] [] []) _ eq_refl).
    destruct H as (_ & _ & _ & _ & _ & _ & _ & _ & _ & _ & _ & _ & H & _). vm_compute in H.
    destruct H as [z [_ H]]. discriminate.
  - eexists. split; vm_compute; reflexivity.
Qed.
Print Assumptions C31_midnight_refuted.
Theorem C31_overrides_partial : forall e a cmd x, define_exec_params e a (Some cmd) = Ok x ->
  let out := outmaps_conf cmd in let par := parameter_conf cmd in
  a_prefix a <> Some "" -> a_format a <> Some "notset" ->
  (a_fmap a = Some 1%Z -> conf_value out "@fmap" = None) -> (a_ext a = Some 1%Z -> conf_value out "@ext" = None) ->
  Forall (truthy_if_given out) ["@namePrefix"; "@scaleFactor"; "@offset"; "@fmap"; "@ext"; "@format"] ->
  Forall (truthy_if_given par) ["@tstart"; "@tend"; "@dataTime"; "@dataDate"] ->
  overrides a cmd x.
Proof. exact exec_overrides. Qed.
Print Assumptions C31_overrides_partial.
(** without any condition on the command file: a value of the command line
    other than the defaults is always the one used *)
Theorem C31_command_line : forall e a cmd x, define_exec_params e a (Some cmd) = Ok x ->
  (forall n, a_fmap a = Some n -> n <> 1%Z -> x_fmap x = JNum n) /\
  (forall n, a_ext a = Some n -> n <> 1%Z -> x_ext x = JNum n) /\
  (forall s, a_format a = Some s -> s <> "notset" -> x_format x = JStr s) /\
  (forall s, a_prefix a = Some s -> s <> "" -> x_prefix x = JStr s) /\
  (forall s, a_scale a = Some s -> x_scale x = JStr s) /\ (forall s, a_offset a = Some s -> x_offset x = JStr s) /\
  (forall s, a_vmin a = Some s -> x_vmin x = JStr s) /\ (forall s, a_vmax a = Some s -> x_vmax x = JStr s) /\
  (forall s, a_vformat a = Some s -> x_vformat x = JStr s) /\ (forall s, a_units a = Some s -> x_units x = JStr s) /\
  (forall z, a_start a = Some z -> x_tstart x = JNum z) /\ (forall z, a_end a = Some z -> x_tend x = JNum z) /\
  (forall z, a_dataTime a = Some z -> x_dataTime x = JNum z) /\ (forall z, a_dataDate a = Some z -> x_dataDate x = JNum z).
Proof.
  intros e a cmd x H. apply define_exec_inv in H. destruct H as (ex & par0 & out0 & ic & k & docorr & formula & gem & dem & doaggr & astep & atype & ahalf &
    aforce & dem0 & clone0 & lat0 & lon0 & H1 & H2 & H3 & _ & _ & H4 & H5 & _ & _ & _ & _ & Hpre & Hsc & Hof & Hvm & HvM & Hvf & Hun & Hfmap & Hext & Hfor &
    Hts & Hte & Hdt & Hdd & _).
  repeat split; intros v E; try rewrite E in *; try (cbn in *; congruence).
  - intro Hn. cbn in Hfmap. destruct v as [|[p|p|]|p]; cbn in Hfmap; congruence.
  - intro Hn. cbn in Hext. destruct v as [|[p|p|]|p]; cbn in Hext; congruence.
  - intro Hn. cbn [dflt sentinel_or] in Hfor. destruct (String.eqb_spec v "notset"); congruence.
  - intro Hn. cbn [of_s jtruthy] in Hpre. destruct (String.eqb_spec v ""); [congruence|]. cbn in Hpre. congruence.
Qed.
Print Assumptions C31_command_line.
Example C31_nonvacuous :
  (exists x, define_exec_params ex_env (with_opts (Some 3%Z) None (Some 0%Z) None None)
     (Some (ex_cmd [("@tstart", JNum 12); ("@tend", JStr "36")] [("@fmap", JNum 5); ("@ext", JNum 2)] [])) = Ok x /\
     x_fmap x = JNum 3 /\ x_ext x = JNum 2 /\ x_tstart x = JNum 0 /\ x_tend x = JNum 36 /\ x_format x = JStr "pcraster").
Proof. eexists. repeat split. Qed.

(** ** C32: selection of messages *)
Theorem C32_selection : forall x m s start_ end_ sel, x_short x = JStr s ->
  scalar (x_level x) -> scalar (x_dataTime x) -> scalar (x_dataDate x) -> scalar (x_member x) ->
  (exists b, dget String.eqb m "endStep" = Some (JNum b)) -> (exists a, dget String.eqb m "startStep" = Some (JNum a)) ->
  select_cmd x start_ end_ = Ok sel ->
  (find m sel = Ok true <->
   (exists t, dget String.eqb m "shortName" = Some (JStr t) /\ short_variant s t) /\
   opt_matches (x_level x) m "level" /\ opt_matches (x_dataTime x) m "dataTime" /\
   opt_matches (x_dataDate x) m "dataDate" /\ opt_matches (x_member x) m "perturbationNumber" /\
   exists a b, dget String.eqb m "startStep" = Some (JNum a) /\ dget String.eqb m "endStep" = Some (JNum b) /\ in_window start_ end_ a b).
Proof. exact select_spec. Qed.
Print Assumptions C32_selection.
(** the criteria of an accepted command are scalars *)
Theorem C32_scalars : forall e fs a cmd x, execution_context e fs a (Some cmd) = Ok x ->
  scalar (x_level x) /\ scalar (x_dataTime x) /\ scalar (x_dataDate x) /\ scalar (x_member x).
Proof.
  intros e fs a cmd x H. unfold execution_context in H. inv_bind H. inv_bind H.
  apply define_exec_inv in E0. destruct E0 as (ex & par0 & out0 & ic & k & docorr & formula & gem & dem & doaggr & astep & atype & ahalf &
    aforce & dem0 & clone0 & lat0 & lon0 & E0). do 23 (destruct E0 as [_ E0]). destruct E0 as (Hdt & Hdd & E0).
  do 10 (destruct E0 as [_ E0]). destruct E0 as (_ & _ & Hm & _).
  unfold check_exec_params in H. do 15 inv_bind H. inv_bind H. inv_bind H. injection H as <-. cbn [x_level x_dataTime x_dataDate x_member].
  split; [|split; [|split]].
  - assert (G : forall j v, check_level j = Ok v -> scalar v).
    { clear. intros j v H. unfold check_level in H. destruct (jtruthy j); [|injection H as <-; exact I].
      destruct j; try discriminate. destruct (isdigit s); [|discriminate]. inv_bind H. injection H as <-. exact I. }
    match goal with H : check_level _ = Ok ?v |- scalar ?v => exact (G _ _ H) end.
  - apply int_option_type in Hdt as [->|[z ->]]; exact I.
  - apply int_option_type in Hdd as [->|[z ->]]; exact I.
  - rewrite Hm. destruct (a_member a); exact I.
Qed.
Print Assumptions C32_scalars.
Example C32_nonvacuous :
  let msg s a b := [("shortName", JStr s); ("level", JNum 0); ("startStep", JNum a); ("endStep", JNum b)] in
  exists x sel, define_exec_params ex_env ex_cli (Some (ex_cmd [] [] [])) = Ok x /\ select_cmd x 0 24 = Ok sel /\
    find (msg "2t" 6%Z 12%Z) sel = Ok true /\ find (msg "2T" 0%Z 24%Z) sel = Ok true /\ find (msg "2t" 18%Z 30%Z) sel = Ok false /\
    find (msg "tp" 6%Z 12%Z) sel = Ok false.
Proof. eexists _, _. repeat split. Qed.

(** ** C33: aggregation options *)
Theorem C33_command : forall e a cmd x, define_exec_params e a (Some cmd) = Ok x ->
  let ag := aggregation_conf cmd in
  let key k := match conf_value ag k with Some v => v | None => JNull end in
  (x_doAggr x = true <-> jtruthy (key "@step") = true /\ jtruthy (key "@type") = true) /\
  (x_doAggr x = true -> x_astep x = key "@step" /\ x_atype x = key "@type") /\
  (x_aforce x = true <-> key "@type" = JStr "accumulation" /\
     exists s, dget String.eqb (match ag with JObj d => d | _ => [] end) "@forceZeroArray" = Some (JStr s) /\ ~ means_false s) /\
  (jtruthy ag = true -> x_ahalf x = JBool (jtruthy (key "@halfweights"))).
Proof. exact exec_aggregation. Qed.
Print Assumptions C33_command.
(** full statement for half weights in the API: the flag reaches the aggregator *)
Definition C33_api_full : Prop := forall e c x d v, define_api_params e c = Ok x -> c = JObj d ->
  dget String.eqb d "Aggregation" = Some (JObj v) -> dget String.eqb v "halfweights" = Some (JBool true) ->
  jtruthy (x_ahalf x) = true.
Definition ex_api (aggr : list (string * json)) : json :=
  JObj [("inputFile", JStr "in.grb"); ("start", JNum 0); ("end", JNum 24); ("Parameter", JObj [("shortName", JStr "2t")]);
    ("OutMaps", JObj [("cloneMap", JStr "{MAPS}/clone.map"); ("Interpolation", JObj [("latMap", JStr "{MAPS}/lat.map"); ("lonMap", JStr "{MAPS}/lon.map")])]);
    ("Aggregation", JObj aggr)].
Theorem C33_api_halfweights_refuted : ~ C33_api_full.
Proof.
  intro H. specialize (H ex_env (ex_api [("step", JNum 24); ("type", JStr "average"); ("halfweights", JBool true)]) _ _ _ eq_refl eq_refl eq_refl eq_refl).
  vm_compute in H. discriminate.
Qed.
Print Assumptions C33_api_halfweights_refuted.
(** a false spelling given as text switches half weights on *)
Theorem C33_halfweights_text_refuted : ~ (forall e a cmd x s, define_exec_params e a (Some cmd) = Ok x ->
  conf_value (aggregation_conf cmd) "@halfweights" = Some (JStr s) -> means_false s -> x_ahalf x = JBool false).
Proof.
  intro H. specialize (H ex_env ex_cli (ex_cmd [] [] [("@step", JNum 24); ("@type", JStr "average"); ("@halfweights", JStr "False")]) _ "False" eq_refl eq_refl).
  assert (E : means_false "False") by (cbn; auto). specialize (H E). vm_compute in H. discriminate.
Qed.
Print Assumptions C33_halfweights_text_refuted.
Example C33_nonvacuous :
  exists x, define_exec_params ex_env ex_cli (Some (ex_cmd [] [] [("@step", JNum 24); ("@type", JStr "accumulation"); ("@forceZeroArray", JStr "y")])) = Ok x /\
    x_doAggr x = true /\ x_aforce x = true /\ x_ahalf x = JBool false.
Proof. eexists. repeat split. Qed.

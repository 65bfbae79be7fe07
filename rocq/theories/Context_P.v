From Verif Require Import Base PyStr Strings Config Context Spec_Context Base_P PyStr_P Strings_P Config_P.
Local Open Scope string_scope.

Ltac inv_bind H := let a := fresh "a" in let E := fresh "E" in apply rbind_ok in H as [a [E H]].

(** inversion of the definition of a command context *)
Lemma define_exec_inv e a cmd x : define_exec_params e a (Some cmd) = Ok x ->
  exists ex par out ic k docorr formula gem dem doaggr astep atype ahalf aforce dem0 clone0 lat0 lon0,
    jitem cmd "Execution" = Ok ex /\ jitem ex "Parameter" = Ok par /\ jitem par "@shortName" = Ok (x_short x) /\
    define_conversion e "@" par = Ok k /\ define_correction "@" par = Ok (docorr, formula, gem, dem) /\
    jitem ex "OutMaps" = Ok out /\ jitem out "Interpolation" = Ok ic /\
    jget_d ic "@mode" (JStr "grib_nearest") = Ok (x_mode x) /\
    (if jtruthy (of_s (a_idir a)) then Ok (of_s (a_idir a)) else (do v <- jget ic "@intertableDir"; Ok (jor v (e_idir e)))) = Ok (x_idirs_user x) /\
    (if jtruthy (of_s (a_gdir a)) then Ok (of_s (a_gdir a)) else (do v <- jget ic "@geopotentialDir"; Ok (jor v (e_gdir e)))) = Ok (x_gdirs_user x) /\
    jget out "@unitTime" = Ok (x_unitTime x) /\
    (if jtruthy (of_s (a_prefix a)) then Ok (of_s (a_prefix a)) else (do v <- jget out "@namePrefix"; Ok (jor v (x_short x)))) = Ok (x_prefix x) /\
    opt_or (of_s (a_scale a)) out "@scaleFactor" (JNum 1) = Ok (x_scale x) /\
    opt_or (of_s (a_offset a)) out "@offset" (JNum 0) = Ok (x_offset x) /\
    opt_get (of_s (a_vmin a)) out "@validMin" = Ok (x_vmin x) /\
    opt_get (of_s (a_vmax a)) out "@validMax" = Ok (x_vmax x) /\
    opt_get (of_s (a_vformat a)) out "@valueFormat" = Ok (x_vformat x) /\
    opt_get (of_s (a_units a)) out "@outputStepUnits" = Ok (x_units x) /\
    sentinel_or (JNum (dflt (a_fmap a) 1%Z)) (JNum 1) out "@fmap" (JNum 1) = Ok (x_fmap x) /\
    sentinel_or (JNum (dflt (a_ext a) 1%Z)) (JNum 1) out "@ext" (JNum 1) = Ok (x_ext x) /\
    sentinel_or (JStr (dflt (a_format a) "notset")) (JStr "notset") out "@format" (JStr "pcraster") = Ok (x_format x) /\
    int_option (of_z (a_start a)) par "@tstart" = Ok (x_tstart x) /\
    int_option (of_z (a_end a)) par "@tend" = Ok (x_tend x) /\
    int_option (of_z (a_dataTime a)) par "@dataTime" = Ok (x_dataTime x) /\
    int_option (of_z (a_dataDate a)) par "@dataDate" = Ok (x_dataDate x) /\
    jget par "@level" = Ok (x_level x) /\
    define_aggregation "@" true ex = Ok (doaggr, astep, atype, ahalf, aforce) /\
    interpolate_all (e_uvars e) (if docorr then Some dem else None) clone0 lat0 lon0 = Ok
      (dem0, match x_clone x with JStr s => s | _ => "" end, match x_lat x with JStr s => s | _ => "" end, match x_lon x with JStr s => s | _ => "" end) /\
    jitem out "@cloneMap" = Ok clone0 /\ jitem ic "@latMap" = Ok lat0 /\ jitem ic "@lonMap" = Ok lon0 /\
    (exists s, x_clone x = JStr s) /\ (exists s, x_lat x = JStr s) /\ (exists s, x_lon x = JStr s) /\
    x_input x = of_s (a_input a) /\ x_input2 x = of_s (a_input2 a) /\ x_outDir x = dflt (a_outDir a) "./" /\ x_member x = of_z (a_member a) /\
    x_doAggr x = doaggr /\ x_astep x = astep /\ x_atype x = atype /\ x_ahalf x = ahalf /\ x_aforce x = aforce /\
    x_doConv x = k_do k /\ x_doCorr x = docorr /\ x_formula x = formula /\ x_gem x = gem /\ x_dem x = of_s dem0 /\
    x_convFun x = k_fun k /\ x_cutoff x = k_cut k /\ x_unit x = k_unit k /\ x_convUnit x = k_convUnit k.
Proof.
  intro H. unfold define_exec_params in H. destruct (a_commands a); [|discriminate].
  repeat (first [inv_bind H | match type of H with (match ?p with (_, _) => _ end) = _ => destruct p end]).
  injection H as <-. do 18 eexists.
  cbn [x_short x_mode x_idirs_user x_gdirs_user x_unitTime x_prefix x_scale x_offset x_vmin x_vmax x_vformat x_units x_fmap x_ext x_format
       x_tstart x_tend x_dataTime x_dataDate x_level x_clone x_lat x_lon x_input x_input2 x_outDir x_member x_doAggr x_astep x_atype x_ahalf
       x_aforce x_doConv x_doCorr x_formula x_gem x_dem x_convFun x_cutoff x_unit x_convUnit].
  repeat match goal with |- _ /\ _ => split end; try eassumption; try reflexivity; try (eexists; reflexivity).
Qed.

Lemma jitem_inv j k v : jitem j k = Ok v -> exists d, j = JObj d /\ dget String.eqb d k = Some v.
Proof.
  destruct j as [| | | | |d]; try discriminate. cbn. unfold dgetx. destruct (dget String.eqb d k) eqn:E; [|discriminate].
  intros [= <-]. eauto.
Qed.
Lemma jget_inv j k v : jget j k = Ok v -> exists d, j = JObj d /\ v = match dget String.eqb d k with Some w => w | None => JNull end.
Proof. destruct j as [| | | | |d]; try discriminate. cbn. intros [= <-]. eauto. Qed.
Lemma jget_conf j k v : jget j k = Ok v -> v = match conf_value j k with Some w => w | None => JNull end.
Proof.
  intro H. apply jget_inv in H as [d [-> ->]]. cbn. destruct (dget String.eqb d k) as [[| | | | |]|]; reflexivity.
Qed.

Definition truthy_if_given (conf : json) (key : string) : Prop := forall w, conf_value conf key = Some w -> jtruthy w = true.

Lemma opt_get_spec o out k v : opt_get (of_s o) out k = Ok v -> v = effective (option_map JStr o) out k JNull.
Proof.
  unfold opt_get. destruct o as [s|]; cbn [of_s is_null option_map effective].
  - now intros [= <-].
  - intro H. now apply jget_conf.
Qed.
Lemma jor_conf out k v d : jget out k = Ok v -> truthy_if_given out k ->
  jor v d = match conf_value out k with Some w => w | None => d end.
Proof.
  intros H Ht. apply jget_conf in H. unfold truthy_if_given in Ht. destruct (conf_value out k) as [w|]; subst v.
  - unfold jor. now rewrite (Ht w eq_refl).
  - reflexivity.
Qed.
Lemma opt_or_spec o out k d v : opt_or (of_s o) out k d = Ok v -> truthy_if_given out k ->
  v = effective (option_map JStr o) out k d.
Proof.
  unfold opt_or. destruct o as [s|]; cbn [of_s is_null option_map effective].
  - now intros [= <-].
  - intros H Ht. inv_bind H. injection H as <-. now apply jor_conf.
Qed.
Lemma sentinel_num_spec o (n : Z) out k v :
  sentinel_or (JNum (dflt o n)) (JNum n) out k (JNum n) = Ok v -> truthy_if_given out k ->
  (o = Some n -> conf_value out k = None) ->
  v = effective (option_map JNum o) out k (JNum n).
Proof.
  unfold sentinel_or. destruct o as [z|]; cbn [dflt option_map effective]; intros H Ht Hn.
  - destruct (Z.eqb_spec z n) as [->|Hne]; [|now injection H].
    inv_bind H. injection H as <-. rewrite (jor_conf out k _ _ E Ht). now rewrite (Hn eq_refl).
  - rewrite Z.eqb_refl in H. inv_bind H. injection H as <-. now apply jor_conf.
Qed.
Lemma sentinel_str_spec o (n : string) d out k v :
  sentinel_or (JStr (dflt o n)) (JStr n) out k d = Ok v -> truthy_if_given out k -> o <> Some n ->
  v = effective (option_map JStr o) out k d.
Proof.
  unfold sentinel_or. destruct o as [z|]; cbn [dflt option_map effective]; intros H Ht Hn.
  - destruct (String.eqb_spec z n) as [->|Hne]; [congruence|now injection H].
  - rewrite String.eqb_refl in H. inv_bind H. injection H as <-. now apply jor_conf.
Qed.
Lemma int_option_spec o out k v : int_option (of_z o) out k = Ok v -> truthy_if_given out k -> effective_int o out k v.
Proof.
  unfold int_option, effective_int. destruct o as [z|]; cbn [of_z is_null].
  - now intros [= <-].
  - intros H Ht. inv_bind H. pose proof (jget_conf _ _ _ E) as Ea. unfold truthy_if_given in Ht.
    destruct (conf_value out k) as [w|]; subst a.
    + rewrite (Ht w eq_refl) in H. inv_bind H. injection H as <-. eauto.
    + cbn in H. now injection H.
Qed.
Lemma int_option_type o out k v : int_option (of_z o) out k = Ok v -> v = JNull \/ exists z, v = JNum z.
Proof.
  unfold int_option. destruct o as [z|]; cbn [of_z is_null].
  - intros [= <-]. eauto.
  - intro H. inv_bind H. destruct (jtruthy a); [|injection H as <-; auto]. inv_bind H. injection H as <-. eauto.
Qed.

Lemma confs cmd ex par out ic : jitem cmd "Execution" = Ok ex -> jitem ex "Parameter" = Ok par ->
  jitem ex "OutMaps" = Ok out -> jitem out "Interpolation" = Ok ic ->
  parameter_conf cmd = par /\ outmaps_conf cmd = out /\ interpolation_conf cmd = ic.
Proof.
  intros H1 H2 H3 H4. apply jitem_inv in H1 as [d [-> H1]]. apply jitem_inv in H2 as [d2 [-> H2]].
  apply jitem_inv in H3 as [d3 [E H3]]. injection E as <-. apply jitem_inv in H4 as [d4 [-> H4]].
  unfold interpolation_conf, parameter_conf, outmaps_conf. rewrite H1, H2, H3, H4. auto.
Qed.

Lemma exec_overrides e a cmd x : define_exec_params e a (Some cmd) = Ok x ->
  let out := outmaps_conf cmd in let par := parameter_conf cmd in
  a_prefix a <> Some "" -> a_format a <> Some "notset" ->
  (a_fmap a = Some 1%Z -> conf_value out "@fmap" = None) -> (a_ext a = Some 1%Z -> conf_value out "@ext" = None) ->
  Forall (truthy_if_given out) ["@namePrefix"; "@scaleFactor"; "@offset"; "@fmap"; "@ext"; "@format"] ->
  Forall (truthy_if_given par) ["@tstart"; "@tend"; "@dataTime"; "@dataDate"] ->
  overrides a cmd x.
Proof.
  intros H out par Hp Hf Hfm Hex Ho Hpar.
  apply define_exec_inv in H. destruct H as (ex & par0 & out0 & ic & k & docorr & formula & gem & dem & doaggr & astep & atype & ahalf &
    aforce & dem0 & clone0 & lat0 & lon0 & H1 & H2 & H3 & _ & _ & H4 & H5 & _ & _ & _ & _ & Hpre & Hsc & Hof & Hvm & HvM & Hvf & Hun & Hfmap & Hext & Hfor &
    Hts & Hte & Hdt & Hdd & _).
  destruct (confs _ _ _ _ _ H1 H2 H4 H5) as [C1 [C2 C3]]. unfold overrides. subst out par. rewrite C1, C2 in *. clear C1 C2 C3.
  repeat (match goal with H : Forall _ (_ :: _) |- _ => apply Forall_cons_iff in H as [? H] end).
  split. { destruct (a_prefix a) as [[|c s]|] eqn:Ep; [congruence| |].
    - cbn in Hpre. injection Hpre as <-. reflexivity.
    - cbn [of_s jtruthy option_map effective] in *. inv_bind Hpre. injection Hpre as <-. now apply jor_conf. }
  split; [now apply opt_or_spec|]. split; [now apply opt_or_spec|].
  split; [now apply opt_get_spec|]. split; [now apply opt_get_spec|]. split; [now apply opt_get_spec|]. split; [now apply opt_get_spec|].
  split; [now apply sentinel_num_spec|]. split; [now apply sentinel_num_spec|]. split; [now apply sentinel_str_spec with (n := "notset")|].
  split; [now apply int_option_spec|]. split; [now apply int_option_spec|]. split; now apply int_option_spec.
Qed.

(** ** C33 *)
Lemma smap_idem f s : (forall c, f (f c) = f c) -> smap f (smap f s) = smap f s.
Proof. intro H. induction s as [|c s IH]; cbn; [reflexivity|]. now rewrite H, IH. Qed.
Lemma lower_ch_idem c : lower_ch (lower_ch c) = lower_ch c.
Proof. destruct c as [[] [] [] [] [] [] [] []]; vm_compute; reflexivity. Qed.
Lemma lower_idem s : lower (lower s) = lower s.
Proof. apply smap_idem, lower_ch_idem. Qed.
Lemma false_string_iff s : str_mem (lower s) FALSE_STRINGS = true <-> means_false s.
Proof.
  unfold means_false, str_mem, FALSE_STRINGS, false_spellings. rewrite existsb_exists. split.
  - intros [t [Ht E]]. apply String.eqb_eq in E. pose proof (lower_idem s) as Hi. rewrite E in *.
    cbn [In] in Ht. repeat (destruct Ht as [<-|Ht]; [vm_compute in Hi; first [discriminate Hi|cbn [In]; intuition]|]). contradiction.
  - intro H. exists (lower s). split; [|apply String.eqb_refl]. cbn [In] in *. intuition.
Qed.

Lemma exec_aggregation e a cmd x : define_exec_params e a (Some cmd) = Ok x ->
  let ag := aggregation_conf cmd in
  let key k := match conf_value ag k with Some v => v | None => JNull end in
  (x_doAggr x = true <-> jtruthy (key "@step") = true /\ jtruthy (key "@type") = true) /\
  (x_doAggr x = true -> x_astep x = key "@step" /\ x_atype x = key "@type") /\
  (x_aforce x = true <-> key "@type" = JStr "accumulation" /\ exists s, dget String.eqb (match ag with JObj d => d | _ => [] end) "@forceZeroArray" = Some (JStr s) /\ ~ means_false s) /\
  (jtruthy ag = true -> x_ahalf x = JBool (jtruthy (key "@halfweights"))).
Proof.
  intro H. apply define_exec_inv in H. destruct H as (ex & par0 & out0 & ic & k & docorr & formula & gem & dem & doaggr & astep & atype & ahalf &
    aforce & dem0 & clone0 & lat0 & lon0 & H1 & H).
  do 25 (destruct H as [_ H]). destruct H as [Hag H]. do 11 (destruct H as [_ H]).
  destruct H as (F1 & F2 & F3 & F4 & F5 & _). rewrite F1, F2, F3, F4, F5. clear F1 F2 F3 F4 F5.
  apply jitem_inv in H1 as [d [-> H1]]. unfold define_aggregation in Hag. inv_bind Hag.
  pose proof E as E0. apply jget_inv in E as [d2 [-> E]].
  assert (Hc : aggregation_conf (JObj d) = a0).
  { unfold aggregation_conf. rewrite H1. now subst a0. }
  cbv zeta. rewrite Hc. clear Hc E E0 H1. destruct (jtruthy a0) eqn:Et.
  - inv_bind Hag. inv_bind Hag. inv_bind Hag. inv_bind Hag. injection Hag as <- <- <- <- <-. cbn [String.append] in *.
    rewrite <- (jget_conf _ _ _ E), <- (jget_conf _ _ _ E0). apply jget_inv in E as [da [-> E]].
    split; [rewrite Bool.andb_true_iff; tauto|]. split; [auto|]. split.
    + destruct (jis a2 "accumulation") eqn:Ej.
      * assert (Ea : a2 = JStr "accumulation").
        { destruct a2; try discriminate. cbn in Ej. apply String.eqb_eq in Ej. now subst. }
        inv_bind E2. cbn [jget_d] in E3. injection E3 as <-. cbn [String.append] in *.
        destruct (dget String.eqb da "@forceZeroArray") as [v|]; cbn [not_false_string] in E2.
        -- destruct v as [| | |s| |]; try discriminate. cbn [not_false_string] in E2. injection E2 as <-.
           assert (Hm : negb (str_mem (lower s) FALSE_STRINGS) = true <-> ~ means_false s).
           { rewrite <- false_string_iff. destruct (str_mem (lower s) FALSE_STRINGS); cbn; split; congruence. }
           rewrite Hm. clear Hm. split.
           ++ intro Hn. split; [exact Ea|]. exists s. auto.
           ++ intros [_ [s' [Es Hn]]]. injection Es as <-. exact Hn.
        -- injection E2 as <-. split; [discriminate|]. intros [_ [s [Es _]]]. discriminate.
      * injection E2 as <-. split; [discriminate|]. intros [Ea _]. subst a2. discriminate.
    + intros _. inv_bind E1. injection E1 as <-. now rewrite <- (jget_conf _ _ _ E3).
  - injection Hag as <- <- <- <- <-.
    assert (Hno : forall k, conf_value a0 k = None).
    { intro k0. destruct a0 as [| | | | |[|]]; try reflexivity; discriminate. }
    rewrite !Hno. cbn [jtruthy]. split; [split; [discriminate|intros [? _]; discriminate]|]. split; [discriminate|].
    split; [split; [discriminate|intros [? _]; discriminate]|discriminate].
Qed.

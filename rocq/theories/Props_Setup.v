(** * Props_Setup: C76 conversion and correction asked for by a command or an API
    dictionary, C77 options of the interpolation. *)
From Verif Require Import Base PyStr Strings Config Context Setup Spec_Context Base_P PyStr_P Strings_P Config_P Context_P Context_P2.
From Verif Require Import Props_Config Props_Context.
Local Open Scope string_scope.

(** a key that asks for something: present, and neither null nor empty *)
Definition requested (conf : json) (key : string) : option json :=
  match conf_value conf key with Some v => if jtruthy v then Some v else None | None => None end.

(** the cut off flag: absent means no; a text means yes if it begins with T or Y *)
Definition cuts_negative (c : list (string * json)) (b : bool) : Prop :=
  match dget String.eqb c "@cutOffNegative" with
  | None | Some JNull => b = false
  | Some (JBool v) => b = v
  | Some (JStr s) => b = true <-> exists ch t, s = String ch t /\ In ch ["t"; "T"; "y"; "Y"]%char
  | Some _ => False
  end.
Definition conversion_set_up (params : list (string * json)) (pre : string) (par : json) (x : ctx) : Prop :=
  exists short p, conf_value par (pre +++ "shortName") = Some (JStr short) /\ x_short x = JStr short /\
    dget String.eqb params short = Some (JObj p) /\
    dget String.eqb p "@description" = Some (x_descr x) /\ dget String.eqb p "@unit" = Some (x_unit x) /\
    match requested par (pre +++ "applyConversion") with
    | None => x_doConv x = false /\ x_convUnit x = x_unit x
    | Some id_ => x_doConv x = true /\ exists i c before after, id_ = JStr i /\
        conversions p = (before ++ JObj c :: after)%list /\
        dget String.eqb c "@id" = Some (JStr i) /\ Forall (fun c' => ~ has_id c' i) before /\
        dget String.eqb c "@unit" = Some (x_convUnit x) /\ dget String.eqb c "@function" = Some (x_convFun x) /\
        cuts_negative c (x_cutoff x)
    end.
Definition correction_set_up (uvars : list (string * string)) (pre : string) (par : json) (x : ctx) : Prop :=
  match requested par (pre +++ "correctionFormula"), requested par (pre +++ "gem"), requested par (pre +++ "demMap") with
  | Some f, Some g, Some d => x_doCorr x = true /\ x_formula x = f /\ x_gem x = g /\
      exists s t, d = JStr s /\ interpolate_string uvars s = Ok t /\ x_dem x = JStr t
  | _, _, _ => x_doCorr x = false
  end.

Lemma requested_get par k v : jget par k = Ok v -> requested par k = if jtruthy v then Some v else None.
Proof.
  intro H. pose proof (jget_conf _ _ _ H) as E. unfold requested. destruct (conf_value par k); subst v; reflexivity.
Qed.
Lemma conf_item par k v : jitem par k = Ok v -> v <> JNull -> conf_value par k = Some v.
Proof. intros H Hn. apply jitem_inv in H as [d [-> H]]. cbn. rewrite H. destruct v; congruence. Qed.
Lemma item_some d k v : jitem (JObj d) k = Ok v -> dget String.eqb d k = Some v.
Proof. intro H. apply jitem_inv in H as [d' [E H]]. injection E as <-. exact H. Qed.

Lemma find_conversion_first l i c : find_conversion l i = Ok (Some c) ->
  exists p q, l = (p ++ c :: q)%list /\ has_id c i /\ Forall (fun c' => ~ has_id c' i) p.
Proof.
  induction l as [|a l IH]; cbn [find_conversion]; [discriminate|]. intro H. inv_bind H.
  apply jitem_inv in E as [d [-> E]]. destruct (jis a0 i) eqn:Ej.
  - injection H as <-. exists [], l. split; [reflexivity|]. split; [|constructor]. exists d. split; [reflexivity|].
    destruct a0; try discriminate. cbn in Ej. apply String.eqb_eq in Ej. now subst.
  - destruct (IH H) as (p & q & -> & Hc & Hp). exists (JObj d :: p), q. split; [reflexivity|]. split; [exact Hc|].
    constructor; [|exact Hp]. intros [d' [E1 E2]]. injection E1 as <-. rewrite E in E2. injection E2 as ->. cbn in Ej.
    now rewrite String.eqb_refl in Ej.
Qed.
Lemma get_conversion_first p i c : get_conversion p i = Ok c ->
  exists b q, conversions p = (b ++ c :: q)%list /\ has_id c i /\ Forall (fun c' => ~ has_id c' i) b.
Proof.
  assert (N : forall (P : Prop), conversion_not_found p = Ok c -> P).
  { unfold conversion_not_found. intros P H. inv_bind H. discriminate. }
  unfold get_conversion, conversions. intro H. destruct (dget String.eqb p "Conversion") as [[| | | |l|d]|]; try (destruct (N False H)).
  - inv_bind H. destruct a as [c'|]; [injection H as ->|destruct (N False H)]. now apply find_conversion_first.
  - inv_bind H. destruct (jis a i) eqn:Ej; [|destruct (N False H)]. injection H as <-. exists [], []. split; [reflexivity|]. split; [|constructor].
    exists d. split; [reflexivity|]. unfold dgetx in E. destruct (dget String.eqb d "@id") as [v|]; [|discriminate].
    injection E as ->. destruct a; try discriminate. apply String.eqb_eq in Ej. now subst.
Qed.
Lemma upper_ty ch : (Ascii.eqb (upper_ch ch) "T" || Ascii.eqb (upper_ch ch) "Y")%bool = true <-> In ch ["t"; "T"; "y"; "Y"]%char.
Proof.
  split.
  - intro H. destruct ch as [[] [] [] [] [] [] [] []]; vm_compute in H; try discriminate; cbn; auto.
  - intros [<-|[<-|[<-|[<-|[]]]]]; reflexivity.
Qed.
Lemma jboolean_cuts c v b : jget (JObj c) "@cutOffNegative" = Ok v -> jboolean v = Ok b -> cuts_negative c b.
Proof.
  intros H Hb. apply jget_inv in H as [d [E ->]]. injection E as <-. unfold cuts_negative.
  destruct (dget String.eqb c "@cutOffNegative") as [[|v|z|s| |]|]; cbn in Hb; try discriminate; try (injection Hb as <-; reflexivity).
  destruct s as [|ch t]; [discriminate|]. injection Hb as <-. rewrite upper_ty. split.
  - intro H. exists ch, t. auto.
  - intros (ch' & t' & E & Hi). injection E as -> ->. exact Hi.
Qed.

Lemma conversion_spec e pre par short k x : jitem par (pre +++ "shortName") = Ok short -> define_conversion e pre par = Ok k ->
  x_short x = short -> x_descr x = k_descr k -> x_unit x = k_unit k -> x_doConv x = k_do k -> x_convUnit x = k_convUnit k ->
  x_convFun x = k_fun k -> x_cutoff x = k_cut k -> conversion_set_up (e_params e) pre par x.
Proof.
  intros Hs H X1 X2 X3 X4 X5 X6 X7. unfold define_conversion in H. rewrite Hs in H. cbn [rbind] in H.
  inv_bind H. inv_bind H. inv_bind H. inv_bind H. rename a into p, a0 into descr, a1 into unit, a2 into ac.
  destruct short as [| | |short| |]; try discriminate. cbn [param_lookup] in E.
  pose proof E0 as E0'. apply jitem_inv in E0' as [pd [-> E0']]. apply item_some in E1.
  apply C25_parameter in E as [E _]. exists short, pd.
  split; [apply conf_item; [exact Hs|discriminate]|]. split; [exact X1|]. split; [exact E|].
  rewrite (requested_get _ _ _ E2). destruct (jtruthy ac).
  - inv_bind H. inv_bind H. inv_bind H. inv_bind H. inv_bind H. injection H as <-. cbn [k_descr k_unit k_do k_convUnit k_fun k_cut] in *.
    split; [now rewrite X2|]. split; [now rewrite X3|]. split; [exact X4|].
    destruct ac as [| | |i| |]; try discriminate E3. cbn [conversion_lookup] in E3.
    apply get_conversion_first in E3 as (b & q & Hc & [cd [-> Hid]] & Hb).
    exists i, cd, b, q. split; [reflexivity|]. split; [exact Hc|]. split; [exact Hid|]. split; [exact Hb|].
    rewrite X5, X6, X7. split; [now apply item_some|]. split; [now apply item_some|]. eapply jboolean_cuts; eassumption.
  - injection H as <-. cbn [k_descr k_unit k_do k_convUnit k_fun k_cut] in *.
    split; [now rewrite X2|]. split; [now rewrite X3|]. split; [exact X4|]. congruence.
Qed.

Lemma interpolate_all_dem_path uvars dem c la lo d' c' la' lo' : interpolate_all uvars (Some dem) c la lo = Ok (d', c', la', lo') ->
  exists s t, dem = JStr s /\ interpolate_string uvars s = Ok t /\ d' = Some t.
Proof.
  unfold interpolate_all. intro H. do 8 inv_bind H. injection H as <- <- <- <-. destruct dem; try discriminate. cbn in E. injection E as ->. eauto.
Qed.
Lemma correction_spec uvars pre par docorr f g d clone lat lon d' c' la' lo' x :
  define_correction pre par = Ok (docorr, f, g, d) ->
  interpolate_all uvars (if docorr then Some d else None) clone lat lon = Ok (d', c', la', lo') ->
  x_doCorr x = docorr -> x_formula x = f -> x_gem x = g -> x_dem x = of_s d' -> correction_set_up uvars pre par x.
Proof.
  intros H Hi X1 X2 X3 X4. unfold correction_set_up, define_correction in *. inv_bind H. rewrite (requested_get _ _ _ E).
  destruct (jtruthy a).
  2: { injection H as <- <- <- <-. destruct (requested par (pre +++ "gem")); destruct (requested par (pre +++ "demMap")); exact X1. }
  inv_bind H. rewrite (requested_get _ _ _ E0). destruct (jtruthy a0); [|injection H as <- <- <- <-; exact X1].
  inv_bind H. rewrite (requested_get _ _ _ E1). destruct (jtruthy a1); [|injection H as <- <- <- <-; exact X1].
  injection H as <- <- <- <-. split; [exact X1|]. split; [exact X2|]. split; [exact X3|].
  apply interpolate_all_dem_path in Hi as (s & t & -> & Hst & ->). exists s, t. auto.
Qed.

(** ** C76: conversion and correction of a command *)
Definition api_parameter (c : json) : json := match c with JObj d => match dget String.eqb d "Parameter" with Some p => p | None => JNull end | _ => JNull end.

Theorem C76_command : forall e a cmd x, define_exec_params e a (Some cmd) = Ok x ->
  conversion_set_up (e_params e) "@" (parameter_conf cmd) x /\ correction_set_up (e_uvars e) "@" (parameter_conf cmd) x.
Proof.
  intros e a cmd x H. unfold define_exec_params in H. destruct (a_commands a); [|discriminate].
  repeat (first [inv_bind H | match type of H with (match ?p with (_, _) => _ end) = _ => destruct p end]).
  assert (P : parameter_conf cmd = a2) by (eapply confs; eassumption). rewrite P. injection H as <-. split.
  - eapply conversion_spec; try eassumption; reflexivity.
  - eapply correction_spec; try eassumption; reflexivity.
Qed.
Print Assumptions C76_command.

Theorem C76_api : forall e c x, define_api_params e c = Ok x ->
  conversion_set_up (e_params e) "" (api_parameter c) x /\ correction_set_up (e_uvars e) "" (api_parameter c) x.
Proof.
  intros e c x H. unfold define_api_params in H.
  repeat (first [inv_bind H | match type of H with (match ?p with (_, _) => _ end) = _ => destruct p end]).
  match goal with H : jitem c "Parameter" = Ok ?p |- _ => assert (P : api_parameter c = p) by (apply jitem_inv in H as [dd [-> H]]; cbn; now rewrite H) end.
  rewrite P. injection H as <-. split.
  - eapply conversion_spec; try eassumption; reflexivity.
  - eapply correction_spec; try eassumption; reflexivity.
Qed.
Print Assumptions C76_api.

(** full statement: a correction that is asked for is done, or the execution is refused *)
Definition C76_full : Prop := forall e fs a cmd x, execution_context e fs a (Some cmd) = Ok x ->
  requested (parameter_conf cmd) "@correctionFormula" <> None -> x_doCorr x = true.
Theorem C76_incomplete_correction_refuted : ~ C76_full.
Proof.
  intro H. specialize (H ex_env ex_fs ex_cli (ex_cmd [("@correctionFormula", JStr "p+gem-dem*0.0065"); ("@gem", JStr "(z/9.81)*0.0065")] [] [])).
  specialize (H _ eq_refl). assert (E : Some (JStr "p+gem-dem*0.0065") <> None) by discriminate. specialize (H E). vm_compute in H. discriminate.
Qed.
Print Assumptions C76_incomplete_correction_refuted.
Example C76_nonvacuous :
  (exists x, define_exec_params ex_env ex_cli (Some (ex_cmd [("@applyConversion", JStr "k2c")] [] [])) = Ok x /\
     x_doConv x = true /\ x_convUnit x = JStr "C" /\ x_convFun x = JStr "x=x-273.15" /\ x_unit x = JStr "K" /\ x_cutoff x = false) /\
  (exists x, define_exec_params ex_env ex_cli (Some (ex_cmd [("@correctionFormula", JStr "f"); ("@gem", JStr "g"); ("@demMap", JStr "{MAPS}/dem.map")] [] [])) = Ok x /\
     x_doCorr x = true /\ x_dem x = JStr "/maps/dem.map" /\ x_gem x = JStr "g" /\ x_convUnit x = JStr "K").
Proof. split; eexists; vm_compute; repeat split. Qed.

(** ** C77: options of the interpolation *)
(** the value under a key of a JSON object (null included), or the default *)
Definition key_or (conf : json) (key : string) (d : json) : json :=
  match conf with JObj o => match dget String.eqb o key with Some v => v | None => d end | _ => d end.
Definition options_from (pre : string) (ic : json) (o : iopts) : Prop :=
  o_cdd_map o = key_or ic (pre +++ "cdd_map") (JStr "") /\ o_cdd_mode o = key_or ic (pre +++ "cdd_mode") (JStr "") /\
  o_cdd_options o = key_or ic (pre +++ "cdd_options") JNull /\ o_broadcast o = key_or ic (pre +++ "use_broadcasting") (JBool false) /\
  o_splits o = key_or ic (pre +++ "num_of_splits") JNull /\ o_rotated o = key_or ic (pre +++ "rotated_target") (JBool false).
Lemma jget_d_key ic k d v : jget_d ic k d = Ok v -> v = key_or ic k d.
Proof. destruct ic; try discriminate. cbn. now intros [= <-]. Qed.
Lemma read_options_spec pre ic o : read_options pre ic = Ok o -> options_from pre ic o.
Proof.
  unfold read_options. intro H. do 6 inv_bind H. injection H as <-. unfold options_from. cbn [o_cdd_map o_cdd_mode o_cdd_options o_broadcast o_splits o_rotated].
  repeat split; now apply jget_d_key.
Qed.
Definition api_interpolation (c : json) : json :=
  match c with JObj d => match dget String.eqb d "OutMaps" with
    | Some (JObj out) => match dget String.eqb out "Interpolation" with Some ic => ic | None => JNull end | _ => JNull end | _ => JNull end.
Theorem C77_options : forall cmd o,
  (exec_options cmd = Ok o -> options_from "@" (interpolation_conf cmd) o) /\
  (api_options cmd = Ok o -> options_from "" (api_interpolation cmd) o).
Proof.
  intros cmd o. split; intro H.
  - unfold exec_options in H. inv_bind H. inv_bind H. inv_bind H. apply read_options_spec in H.
    apply jitem_inv in E as [d [-> E]]. apply jitem_inv in E0 as [d2 [-> E0]]. apply jitem_inv in E1 as [d3 [-> E1]].
    unfold interpolation_conf, outmaps_conf. now rewrite E, E0, E1.
  - unfold api_options in H. inv_bind H. inv_bind H. apply read_options_spec in H.
    apply jitem_inv in E as [d [-> E]]. apply jitem_inv in E0 as [d2 [-> E0]]. unfold api_interpolation. now rewrite E, E0.
Qed.
Print Assumptions C77_options.
Example C77_nonvacuous : exists o, exec_options (ex_cmd [] [] []) = Ok o /\ o_splits o = JNull /\ o_broadcast o = JBool false.
Proof. eexists. vm_compute. repeat split. Qed.

(** the paths of the maps may contain variables of the configuration, the path
    of the CDD map may not: full statement and counterexample *)
Definition C77_paths_full : Prop := forall e a cmd x o, define_exec_params e a (Some cmd) = Ok x -> exec_options cmd = Ok o ->
  forall key s, In key ["@latMap"; "@lonMap"; "@cdd_map"] -> conf_value (interpolation_conf cmd) key = Some (JStr s) ->
  exists t, interpolate_string (e_uvars e) s = Ok t /\
    JStr t = (if String.eqb key "@latMap" then x_lat x else if String.eqb key "@lonMap" then x_lon x else o_cdd_map o).
Definition ex_cmd_cdd (path : json) (b : json) : json :=
  JObj [("Execution", JObj [("@name", JStr "t"); ("Parameter", JObj [("@shortName", JStr "2t")]);
     ("OutMaps", JObj [("@cloneMap", JStr "{MAPS}/clone.map");
        ("Interpolation", JObj [("@latMap", JStr "{MAPS}/lat.map"); ("@lonMap", JStr "{MAPS}/lon.map"); ("@mode", JStr "cdd");
           ("@cdd_map", path); ("@cdd_mode", JStr "MixHofstraShepard"); ("@use_broadcasting", b)])])])].
Theorem C77_cdd_path_refuted : ~ C77_paths_full.
Proof.
  intro H. destruct (H ex_env ex_cli (ex_cmd_cdd (JStr "{MAPS}/cdd.nc") (JBool false)) _ _ eq_refl eq_refl "@cdd_map" "{MAPS}/cdd.nc" ltac:(cbn; auto) eq_refl) as (t & E1 & E2).
  vm_compute in E1, E2. congruence.
Qed.
Print Assumptions C77_cdd_path_refuted.
(** the two coordinate maps do *)
Lemma interpolate_all_coords uvars dem c la lo d' c' la' lo' : interpolate_all uvars dem c la lo = Ok (d', c', la', lo') ->
  (exists s, c = JStr s /\ interpolate_string uvars s = Ok c') /\ (exists s, la = JStr s /\ interpolate_string uvars s = Ok la') /\
  (exists s, lo = JStr s /\ interpolate_string uvars s = Ok lo').
Proof.
  unfold interpolate_all. intro H. do 8 inv_bind H. injection H as <- <- <- <-.
  destruct c; try discriminate E0; destruct la; try discriminate E1; destruct lo; try discriminate E2.
  cbn in E0, E1, E2. injection E0 as ->. injection E1 as ->. injection E2 as ->.
  split; [|split]; eexists; (split; [reflexivity|assumption]).
Qed.
Theorem C77_map_paths_partial : forall e a cmd x, define_exec_params e a (Some cmd) = Ok x ->
  forall key s, In key ["@latMap"; "@lonMap"] -> conf_value (interpolation_conf cmd) key = Some (JStr s) ->
  exists t, interpolate_string (e_uvars e) s = Ok t /\ JStr t = (if String.eqb key "@latMap" then x_lat x else x_lon x).
Proof.
  intros e a cmd x H key s Hk Hs. unfold define_exec_params in H. destruct (a_commands a); [|discriminate].
  repeat (first [inv_bind H | match type of H with (match ?p with (_, _) => _ end) = _ => destruct p end]).
  match goal with H : interpolate_all _ _ _ _ _ = _ |- _ => apply interpolate_all_coords in H as (_ & (sla & E1' & I1) & (slo & E2' & I2)) end.
  match goal with H1 : jitem cmd "Execution" = Ok ?ex, H2 : jitem ?ex "Parameter" = Ok ?par, H3 : jitem ?ex "OutMaps" = Ok ?out, H4 : jitem ?out "Interpolation" = Ok ?ic |- _ =>
    destruct (confs _ _ _ _ _ H1 H2 H3 H4) as (_ & _ & Ci) end.
  rewrite Ci in Hs. injection H as <-. cbn [x_lat x_lon].
  match goal with H : jitem _ "@latMap" = Ok _ |- _ => rename H into Hla end.
  match goal with H : jitem _ "@lonMap" = Ok _ |- _ => rename H into Hlo end.
  rewrite E1' in Hla. rewrite E2' in Hlo.
  destruct Hk as [<- | [<- | []]].
  - apply conf_item in Hla; [|discriminate]. rewrite Hla in Hs. injection Hs as <-. eauto.
  - apply conf_item in Hlo; [|discriminate]. rewrite Hlo in Hs. injection Hs as <-. eauto.
Qed.
Print Assumptions C77_map_paths_partial.
(** a switch given as the text False is on *)
Theorem C77_text_switch_refuted : ~ (forall cmd o s, exec_options cmd = Ok o ->
  conf_value (interpolation_conf cmd) "@use_broadcasting" = Some (JStr s) -> means_false s -> jtruthy (o_broadcast o) = false).
Proof.
  intro H. specialize (H (ex_cmd_cdd (JStr "c.nc") (JStr "False")) _ "False" eq_refl eq_refl). assert (E : means_false "False") by (cbn; auto).
  specialize (H E). vm_compute in H. discriminate.
Qed.
Print Assumptions C77_text_switch_refuted.

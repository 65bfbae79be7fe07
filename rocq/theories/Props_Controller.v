(** * Properties C28, C29, C34-C36, C64 (main/controller.py, main/__init__.py,
    loops of main/writers/__init__.py, Step of __init__.py).
    Vocabulary: Spec_Controller.v. Proofs: Controller_P.v .. Controller_P5.v. *)
From Verif Require Import Base Num PyStr Strings Config Context Aggregator Converter Reader Controller Spec_Controller Spec_Reader Spec_Context
  Base_P PyStr_P Context_P Context_P2 Reader_P Reader_P2 Reader_P3 Reader_P4 Controller_P Controller_P2 Controller_P3 Controller_P4 Controller_P5 Controller_P6 Props_Context Props_Reader.
From Coq Require Import Permutation Sorted.
Local Open Scope string_scope.

(** ** Examples: a context, the outside world, a file whose grid changes *)
Definition ex_x (format : string) (tstart tend : json) (aggr : bool) (astep : json) (atype : string) : ctx :=
  mkCtx JNull (JStr "in.grb") tstart tend JNull JNull JNull JNull JNull JNull JNull JNull (JStr format) JNull JNull JNull
    JNull JNull JNull JNull "" JNull JNull aggr false false (JStr "2t") JNull JNull JNull JNull false JNull JNull JNull
    JNull JNull JNull JNull (JNum 24) JNull astep (JStr atype) (JBool false) false.
Definition ex_ext (f : option gfile) : ext :=
  mkExt (fun _ => f) (fun _ _ => Ok tt) (fun _ => Some (fun v => v)) (fun _ _ a => Ok a) (fun _ => Ok tt) (Ok tt) (fun _ => Ok tt).
Definition ex_two : gfile := mkGfile true
  [ex_msg "2t" 0 0 2 0 0 [nint 1; nint 2]; ex_msg "2t" 6 6 2 0 0 [nint 3; nint 4]; ex_msg "2t" 12 12 2 0 0 [nint 5; nint 6];
   ex_msg "2t" 18 18 2 0 0 [nint 7; nint 8]; ex_msg "2t" 24 24 2 0 0 [nint 9; nint 10];
   ex_msg "2t" 24 24 1 0 0 [nint 11]; ex_msg "2t" 36 36 1 0 0 [nint 12]; ex_msg "2t" 48 48 1 0 0 [nint 13]].
Definition ran (o : ext) (x : ctx) : outcome * list (Z * Z * Z * bool) :=
  let '(out, s) := run_command o x world0 in (out, map (fun w => (wn_map w, s_start (wn_step w), s_end (wn_step w), wn_second w)) (c_out s)).

(** ** C28: exit status, resources *)
(** everything opened since [w0] is released *)
Definition released (w0 w : world) : Prop :=
  w_live w = w_live w0 /\ w_bad w = w_bad w0 /\ w_index w = w_index w0 /\ w_files w = w_files w0.
Definition C28_full : Prop := forall o x w r s out s', good_world w ->
  execute o x true (cst0 w) = (r, s) -> run_command o x w = (out, s') ->
  out = documented_status r /\ w_index (c_w s') = w_index w /\ w_files (c_w s') = w_files w.
(** a NetCDF request without matching message: closing the writer fails *)
Theorem C28_netcdf_refuted : ~ C28_full.
Proof.
  intro H. pose (o := ex_ext (Some ex_two)). pose (x := ex_x "netcdf" (JNum 50) (JNum 60) true (JNum 1) "average").
  destruct (execute o x true (cst0 world0)) as [r s] eqn:E1. destruct (run_command o x world0) as [out s'] eqn:E2.
  destruct (H o x world0 r s out s' ltac:(repeat constructor) E1 E2) as [H1 _].
  assert (T1 : fst (run_command o x world0) = Uncaught AttributeError) by (vm_compute; reflexivity).
  assert (T2 : documented_status (fst (execute o x true (cst0 world0))) <> Uncaught AttributeError) by (vm_compute; discriminate).
  rewrite E1 in T2. rewrite E2 in T1. cbn [fst] in T1, T2. congruence.
Qed.
Print Assumptions C28_netcdf_refuted.

Lemma run_spec o x w r s out s' : execute o x true (cst0 w) = (r, s) -> run_command o x w = (out, s') ->
  out = (match c_wr s with Some (true, false) => Uncaught AttributeError | _ => documented_status r end) /\
  c_w s' = (let w := match c_r1 s with Some r => snd (snd (close r (c_w s))) | None => c_w s end in
            match c_r2 s with Some r => snd (snd (close r w)) | None => w end).
Proof.
  intros H1 H2. unfold run_command in H2. rewrite H1 in H2.
  pose proof (wk_execute o x true (cst0 w) (wk0 x w)) as K. rewrite H1 in K. cbn [snd] in K.
  destruct (ctl_close_spec x s K) as [s2 [Hc [_ [_ [_ [_ Hw]]]]]]. rewrite Hc in H2.
  destruct (c_wr s) as [[[] []]|]; injection H2 as <- <-; auto; (split; [|exact Hw]; destruct r as [v|[]]; reflexivity).
Qed.
(** Proved part 1: the exact status. It is the documented one, except when a
    NetCDF writer was made whose file was never created: then the process ends
    with AttributeError whatever happened. Index and files are closed in every
    case. *)
Theorem C28_exact : forall o x w r s out s', execute o x true (cst0 w) = (r, s) -> run_command o x w = (out, s') ->
  out = (match c_wr s with Some (true, false) => Uncaught AttributeError | _ => documented_status r end) /\
  w_index (c_w s') = w_index w /\ w_files (c_w s') = w_files w.
Proof.
  intros o x w r s out s' H1 H2. destruct (run_spec _ _ _ _ _ _ _ H1 H2) as [A B]. split; [exact A|].
  pose proof (wk_execute o x true (cst0 w) (wk0 x w)) as K. rewrite H1 in K. cbn [snd] in K. destruct K as [K1 [K2 _]].
  assert (C : cnt0 w (cst0 w)) by (unfold cnt0, cnt, io; cbn; rewrite !Nat.add_0_r; auto).
  pose proof (ci_execute o x w true (cst0 w) C) as G. rewrite H1 in G. cbn [snd] in G.
  pose proof (cnt_close w s G K1 K2) as I. rewrite <- B in I. unfold io in I. injection I as I1 I2. auto.
Qed.
Print Assumptions C28_exact.
(** Proved part 2: a command that returns a status returns the documented one,
    and has released every handle, index and file it opened. *)
Theorem C28_status : forall o x w r s z s', good_world w -> execute o x true (cst0 w) = (r, s) -> run_command o x w = (Exit z, s') ->
  (z = 0%Z <-> (exists v, r = Ok v) \/ r = Raise (AppExc 3000)) /\
  (z = 1%Z <-> exists c, r = Raise (AppExc c) /\ c <> 3000%Z) /\ (z = 0 \/ z = 1)%Z /\
  released w (c_w s').
Proof.
  intros o x w r s z s' Hw H1 H2. destruct (run_spec _ _ _ _ _ _ _ H1 H2) as [A B].
  assert (D : documented_status r = Exit z) by (destruct (c_wr s) as [[[] []]|]; congruence). clear A.
  assert (R : app_outcome r) by (destruct r as [v|[]]; try exact I; discriminate).
  pose proof (execute_sinv _ _ _ _ _ _ Hw H1 R) as S. destruct (sinv_close _ _ S) as [s2 [E S2]]. rewrite <- B in E.
  assert (G : released w (c_w s')) by (rewrite <- E; exact S2).
  destruct r as [v|e]; cbn in D.
  - injection D as <-. split; [split; [intros _; left; eauto|reflexivity]|]. split; [split; [discriminate|intros [c [Hc _]]; discriminate]|]. auto.
  - destruct e as [c| | | | | | | |]; try discriminate. destruct (Z.eqb_spec c 3000) as [->|Hc]; injection D as <-.
    + split; [split; [auto|reflexivity]|]. split; [split; [discriminate|intros [c [Hc Hn]]; injection Hc as <-; congruence]|]. auto.
    + split; [split; [discriminate|intros [[v Hv]|Hv]; congruence]|]. split; [split; [intros _; eauto|reflexivity]|]. auto.
Qed.
Print Assumptions C28_status.
(** with PCRaster output, and for every successful execution, the status is the
    documented one *)
Theorem C28_pcraster : forall o x w r s out s', execute o x true (cst0 w) = (r, s) -> run_command o x w = (out, s') ->
  x_format x = JStr "pcraster" \/ (exists v, r = Ok v) -> out = documented_status r.
Proof.
  intros o x w r s out s' H1 H2 Hx. destruct (run_spec _ _ _ _ _ _ _ H1 H2) as [A _].
  pose proof (wk_execute o x true (cst0 w) (wk0 x w)) as K. rewrite H1 in K. cbn [snd] in K. destruct K as [_ [_ K]].
  destruct (c_wr s) as [[[] []]|] eqn:E; try exact A. exfalso. destruct Hx as [Hx|[v ->]].
  - destruct K as [K _]. unfold pcraster in K. rewrite Hx in K. discriminate.
  - exact (execute_written _ _ _ _ _ H1 E).
Qed.
Print Assumptions C28_pcraster.
Example C28_nonvacuous :
  fst (ran (ex_ext (Some ex_two)) (ex_x "pcraster" JNull JNull true (JNum 12) "average")) = Exit 0 /\
  fst (ran (ex_ext (Some ex_two)) (ex_x "netcdf" JNull JNull true (JNum 12) "average")) = Exit 0 /\
  fst (ran (ex_ext (Some (mkGfile true []))) (ex_x "pcraster" JNull JNull true (JNum 12) "average")) = Exit 0 /\
  fst (ran (ex_ext (Some ex_two)) (ex_x "pcraster" JNull JNull false JNull "")) = Uncaught TypeError /\
  fst (ran (mkExt (fun _ => Some ex_two) (fun _ _ => Raise (AppExc 2100)) (fun _ => None) (fun _ _ a => Ok a) (fun _ => Ok tt) (Ok tt) (fun _ => Ok tt))
      (ex_x "netcdf" JNull JNull true (JNum 12) "average")) = Exit 1.
Proof. vm_compute. auto. Qed.

(** ** C29: configuration commands *)
(** [wanted a act]: the command line asks for the configuration action *)
Inductive wanted (a : cli) : action -> Prop :=
| WantGeo f : a_addgeo a = Some f -> wanted a (AddedGeopotential f)
| WantData d : a_download a = Some d -> d <> "" -> wanted a (Downloaded d)
| WantCheck : a_check a = true -> wanted a CheckedConf.
Definition C29_full : Prop := forall e fs o a cmd w act out acts s, wanted a act -> cli_choices a = true ->
  pyg2p_exe e fs o a cmd w = (out, acts, s) -> In act acts /\ ~ In Extraction acts.
(** what holds for every command line: no configuration action is ever done.
    -W and -K always end with status 1; -g has no effect at all: the command is
    executed as without it. *)
Definition without_g (a : cli) : cli :=
  mkCli (a_commands a) (a_outDir a) (a_input a) (a_input2 a) (Context.a_start a) (Context.a_end a) (a_member a) (a_dataTime a) (a_dataDate a)
    (a_fmap a) (a_format a) (a_ext a) (a_prefix a) (a_offset a) (a_scale a) (a_vmax a) (a_vmin a) (a_vformat a) (a_units a) (a_level a)
    (a_idir a) (a_gdir a) (a_create a) (a_parallel a) None (a_download a) (a_api a) (a_check a).
Theorem C29_none_done : forall e fs o a cmd w out acts s, pyg2p_exe e fs o a cmd w = (out, acts, s) ->
  (acts = [] \/ acts = [Extraction]) /\
  (is_config_command a = true -> out = Exit 1 /\ acts = [] /\ s = cst0 w) /\
  pyg2p_exe e fs o (without_g a) cmd w = (out, acts, s).
Proof.
  intros e fs o a cmd w out acts s H.
  assert (G : pyg2p_exe e fs o (without_g a) cmd w = pyg2p_exe e fs o a cmd w).
  { unfold pyg2p_exe. assert (Ed : forall c, define_exec_params e (without_g a) c = define_exec_params e a c) by reflexivity.
    unfold new_context. rewrite Ed. destruct (guard _ _); cbn [rbind]; [|reflexivity].
    change (is_config_command (without_g a)) with (is_config_command a). change (check_config_params fs (without_g a)) with (check_config_params fs a).
    destruct (is_config_command a); [|reflexivity]. unfold check_config_params. destruct (guard _ _); cbn [rbind]; [|reflexivity].
    destruct (exists_file _ _) as [b|]; cbn [rbind]; [|reflexivity]. destruct (guard b 1000); reflexivity. }
  rewrite G. clear G. split; [|split; [|exact H]].
  - unfold pyg2p_exe in H. destruct (new_context e fs a cmd) as [[|x]|ex]; [| |injection H as <- <- <-; auto].
    + unfold config_command in H. destruct (to_download a); [injection H as <- <- <-; auto|]. destruct (a_check a); injection H as <- <- <-; auto.
    + destruct (run_command o x w) as [r s1]. injection H as <- <- <-. auto.
  - intro Hc. unfold pyg2p_exe, new_context in H. rewrite Hc in H. destruct (guard (cli_choices a) 10000); cbn [rbind] in H; [|injection H as <- <- <-; auto].
    unfold check_config_params in H. destruct (guard (jtruthy (of_s (a_input a))) 1001); cbn [rbind] in H; [|injection H as <- <- <-; auto].
    destruct (exists_file fs (of_s (a_input a))) as [b|]; cbn [rbind] in H; [|injection H as <- <- <-; auto].
    destruct (guard b 1000); cbn [rbind] in H; injection H as <- <- <-; auto.
Qed.
Print Assumptions C29_none_done.
Theorem C29_refuted : ~ C29_full.
Proof.
  intro H. set (a := mkCli None None (Some "in.grb") None None None None None None None None None None
     None None None None None None None None None false false None (Some "geopotentials") false false).
  destruct (pyg2p_exe ex_env ex_fs (ex_ext None) a None world0) as [[out acts] s] eqn:E.
  destruct (H ex_env ex_fs (ex_ext None) a None world0 (Downloaded "geopotentials") out acts s) as [H1 _]; [constructor; [reflexivity|discriminate]| reflexivity|exact E|].
  destruct (C29_none_done _ _ _ _ _ _ _ _ _ E) as [[-> | ->] _]; [destruct H1|destruct H1 as [H1|[]]; discriminate].
Qed.
Print Assumptions C29_refuted.
(** Proved part: -W and -K never start an extraction, and touch no file. *)
Theorem C29_partial : forall e fs o a cmd w out acts s, pyg2p_exe e fs o a cmd w = (out, acts, s) ->
  (exists d, a_download a = Some d /\ d <> "") \/ a_check a = true -> ~ In Extraction acts /\ c_w s = w.
Proof.
  intros e fs o a cmd w out acts s H Ha. destruct (C29_none_done _ _ _ _ _ _ _ _ _ H) as [_ [G _]].
  destruct G as [_ [-> ->]]; [|auto]. unfold is_config_command, to_download. destruct Ha as [[d [-> Hd]]| ->]; [|now rewrite !Bool.orb_true_r].
  apply String.eqb_neq in Hd. rewrite Hd. reflexivity.
Qed.
Print Assumptions C29_partial.
(** the other half fails for -g: an extraction is executed *)
Example C29_nonvacuous :
  let a := mkCli (Some "t.json") None (Some "in.grb") None None None None None None None None None None
     None None None None None None None None None false false (Some "geo.grb") None false false in
  wanted a (AddedGeopotential "geo.grb") /\
  (let '(out, acts, _) := pyg2p_exe ex_env ex_fs (ex_ext (Some ex_two)) a (Some (ex_cmd [] [] [("@step", JNum 12); ("@type", JStr "average")])) world0 in
   out = Exit 0 /\ acts = [Extraction]).
Proof. split; [now constructor|vm_compute; auto]. Qed.

(** ** C34: time range *)
Definition C34_full : Prop := forall x i t s e g, choose_range x i t = Ok (s, e, g) ->
  used_range s e g = (requested_or (x_tstart x) (i_start i), requested_or (x_tend x) (i_end i)).
(** no first step requested: 0 is used, not the first step of the GRIB *)
Theorem C34_start_refuted : ~ C34_full.
Proof. intro H. specialize (H (ex_x "pcraster" JNull JNull false JNull "") (mkInfo 6 36 6 (-1) "") "instant" _ _ _ eq_refl). discriminate. Qed.
Print Assumptions C34_start_refuted.
(** last step 0 requested: the last step of the GRIB is used *)
Theorem C34_end_zero_refuted : ~ (forall x i t s e g z, choose_range x i t = Ok (s, e, g) -> x_tstart x = JNum z ->
  snd (used_range s e g) = requested_or (x_tend x) (i_end i)).
Proof. intro H. specialize (H (ex_x "pcraster" (JNum 0) (JNum 0) false JNull "") (mkInfo 0 36 6 (-1) "") "instant" _ _ _ _ eq_refl eq_refl). discriminate. Qed.
Print Assumptions C34_end_zero_refuted.
(** Proved part: exactly which range is used; requested steps are, unless the
    last one is 0. With aggregation the messages read begin one aggregation step
    earlier (not below 0). *)
Theorem C34_partial : forall x i t s e g, choose_range x i t = Ok (s, e, g) ->
  fst (used_range s e g) = requested_or (x_tstart x) 0 /\
  (x_tend x <> JNum 0 -> snd (used_range s e g) = requested_or (x_tend x) (i_end i)) /\
  (x_tend x = JNum 0 -> snd (used_range s e g) = i_end i) /\
  (x_doAggr x = false -> g = None) /\
  (x_doAggr x = true -> exists a, jint (x_astep x) = Ok a /\ g <> None /\ e = snd (used_range s e g) /\
     s = if (i_step i =? 0)%Z then fst (used_range s e g) else Z.max 0 (fst (used_range s e g) - a)).
Proof.
  intros x i t s e g H. destruct (choose_range_inv _ _ _ _ _ _ H) as [s0 [e0 [Hs [He Hg]]]].
  assert (E1 : s0 = requested_or (x_tstart x) 0).
  { unfold or_int in Hs. destruct (x_tstart x); try discriminate; cbn; [congruence|]. destruct (Z.eqb_spec z 0); congruence. }
  assert (E2 : x_tend x <> JNum 0 -> e0 = requested_or (x_tend x) (i_end i)).
  { unfold or_int in He. destruct (x_tend x); try discriminate; cbn; [congruence|]. destruct (Z.eqb_spec z 0); congruence. }
  assert (E3 : x_tend x = JNum 0 -> e0 = i_end i) by (intro E; rewrite E in He; cbn in He; congruence).
  destruct g as [g|].
  - destruct Hg as [Hd [Hn [Hu [He1 He2]]]]. destruct (new_aggr_inv _ _ _ _ _ _ Hn) as [u [a [Ha [_ Eg]]]].
    assert (S1 : a_start g = s0) by (now rewrite Eg). cbn [used_range fst snd]. rewrite S1, <- He1, He2.
    split; [exact E1|]. split; [exact E2|]. split; [exact E3|]. split; [congruence|]. intros _. exists a. split; [exact Ha|]. split; [discriminate|]. split; [reflexivity|].
    rewrite Hu, Eg. cbn. destruct (i_step i =? 0)%Z; cbn; [reflexivity|]. destruct (Z.ltb_spec (s0 - a) 0); lia.
  - destruct Hg as [Hd [-> ->]]. cbn [used_range fst snd]. split; [exact E1|]. split; [exact E2|]. split; [exact E3|]. split; [auto|]. congruence.
Qed.
Print Assumptions C34_partial.
(** no field outside the range that was asked for *)
Definition C34_inside_full : Prop := forall x s e sel r w m r' w' k, good_world w -> select_cmd x s e = Ok sel ->
  select_messages sel r w = (Ok m, (r', w')) -> In k (map fst (m_first m)) \/ In k (map fst (m_second m)) -> in_window s e (s_start k) (s_end k).
(** the second attempt of the selection ignores the first step *)
Definition ex_uni : gfile := mkGfile true
  [ex_msg "2t" 0 0 2 0 0 [nint 1; nint 2]; ex_msg "2t" 6 6 2 0 0 [nint 3; nint 4]; ex_msg "2t" 12 12 2 0 0 [nint 5; nint 6]].
Theorem C34_outside_refuted : ~ C34_inside_full.
Proof.
  intro H. pose (x := ex_x "pcraster" (JNum 30) (JNum 35) false JNull "").
  destruct (reader_new (Some ex_uni) false world0) as [[r|e] w] eqn:Er; [|discriminate].
  destruct (select_cmd x 30 35) as [sel|] eqn:Es; [|discriminate].
  destruct (select_messages sel r w) as [y [r' w']] eqn:E.
  assert (L : match reader_new (Some ex_uni) false world0, select_cmd x 30 35 with
              | (Ok r, w), Ok sel => match fst (select_messages sel r w) with Ok m => map (fun k => (s_start k, s_end k)) (map fst (m_first m)) | _ => [] end
              | _, _ => [] end = [(0, 0); (6, 6); (12, 12)]%Z) by (vm_compute; reflexivity).
  rewrite Er, Es, E in L. cbn [fst] in L. destruct y as [m|ex]; [|discriminate].
  destruct (map fst (m_first m)) as [|k ks] eqn:Ek; [discriminate|]. cbn [map] in L. injection L as L1 L2 _.
  assert (Hw : good_world w) by (unfold reader_new in Er; cbn in Er; injection Er as _ <-; repeat constructor).
  specialize (H x 30%Z 35%Z sel r w m r' w' k Hw Es E). rewrite Ek in H. specialize (H (or_introl (or_introl eq_refl))).
  unfold in_window in H. cbn in H. lia.
Qed.
Print Assumptions C34_outside_refuted.
(** Proved part: when some message of the file is in the range (and matches the
    other criteria), all fields read are. *)
Theorem C34_inside_partial : forall x nm s e sel r w wp m r' w' k, good_world w -> r_index r = Some wp ->
  x_short x = JStr nm -> NoDup [nm; upper nm; nm +++ "var"] -> typed_pert sel ->
  scalar (x_level x) -> scalar (x_dataTime x) -> scalar (x_dataDate x) -> scalar (x_member x) ->
  select_cmd x s e = Ok sel -> existsb (accepted sel) (r_msgs r) = true ->
  select_messages sel r w = (Ok m, (r', w')) -> In k (map fst (m_first m)) \/ In k (map fst (m_second m)) ->
  in_window s e (s_start k) (s_end k).
Proof.
  intros x nm s e sel r w wp m r' w' k Hw Hi Hs Hnd Hty S1 S2 S3 S4 Hsel Hex H Hk.
  assert (Hn : sel_names sel = Ok (map JStr [nm; upper nm; nm +++ "var"])) by (unfold select_cmd in Hsel; rewrite Hs in Hsel; injection Hsel as <-; reflexivity).
  destruct (select_selected _ _ _ _ _ _ _ _ Hw Hi Hn Hnd Hty H) as [gms [sel' [He [Hp Hb]]]].
  destruct He as [[-> _]|[He _]]; [|congruence].
  destruct (build_keys _ _ _ _ _ k Hb Hk) as [gm [Hin [K1 [K2 _]]]].
  assert (Ha : accepted sel (snd gm) = true).
  { assert (Hi2 : In (snd gm) (filter (accepted sel) (r_msgs r))) by (rewrite <- Hp; now apply in_map). now apply filter_In in Hi2. }
  unfold accepted in Ha. destruct (find (gm_keys (snd gm)) sel) as [b|] eqn:Ef; [|discriminate]. subst b.
  apply (select_spec x _ nm s e sel Hs S1 S2 S3 S4) in Ef; [|eexists; exact K2|eexists; exact K1|exact Hsel].
  destruct Ef as [_ [_ [_ [_ [_ [a [b [A [B W]]]]]]]]]. unfold has_int in K1, K2. rewrite K1 in A. rewrite K2 in B. injection A as <-. injection B as <-. exact W.
Qed.
Print Assumptions C34_inside_partial.
Example C34_nonvacuous :
  let x := ex_x "pcraster" (JNum 6) (JNum 12) false JNull "" in
  choose_range x (mkInfo 0 12 6 (-1) "") "instant" = Ok (6%Z, 12%Z, None) /\
  ran (ex_ext (Some ex_uni)) x = (Exit 0, [(1, 6, 6, false); (2, 12, 12, false)]%Z) /\
  match reader_new (Some ex_uni) false world0, select_cmd x 6 12 with
  | (Ok r, w), Ok sel => existsb (accepted sel) (r_msgs r) = true /\ r_index r = Some false /\ typed_pert sel
  | _, _ => False end.
Proof. split; [reflexivity|]. split; [vm_compute; reflexivity|]. vm_compute. repeat split. discriminate. Qed.

(** ** C35: chronological order, one map per field, its own grid *)
(** the maps a successful writing adds: one per field in the given order,
    numbered from 1 (PCRaster) or 0 (NetCDF) on, the map of each field made
    from the grid it is marked with *)
Definition maps_of (o : ext) (x : ctx) (m : messages) (vals : fields) (flags : list bool) (ws : list written) : Prop :=
  map (fun w => (wn_map w, wn_step w, wn_field w)) ws = numbered (if jis (x_format x) "pcraster" then 1 else 0) vals /\
  map wn_second ws = flags /\
  Forall (fun w => xt_map o (wn_grid w) (wn_second w) (wn_field w) = Ok (wn_out w) /\
                   (wn_second w = false -> wn_grid w = m_grid m) /\
                   (forall gr k, wn_second w = true -> m_grid2 m = Some (gr, k) -> wn_grid w = gr)) ws.
Lemma write_ok o x vals m change s s' : write_maps o x vals m change s = (Ok tt, s') ->
  exists ws, c_out s' = (c_out s ++ ws)%list /\ maps_of o x m vals (marks m change false vals) ws.
Proof.
  unfold write_maps, pcraster, maps_of. intro H.
  assert (G : forall ws, Forall (map_ok o m) ws -> Forall (fun w => xt_map o (wn_grid w) (wn_second w) (wn_field w) = Ok (wn_out w) /\
                   (wn_second w = false -> wn_grid w = m_grid m) /\
                   (forall gr k, wn_second w = true -> m_grid2 m = Some (gr, k) -> wn_grid w = gr)) ws).
  { intros ws F. eapply Forall_impl; [|exact F]. intros w [A B]. split; [exact B|]. rewrite A. split.
    - intros ->. reflexivity.
    - intros gr k -> Hg. unfold grid_of. now rewrite Hg. }
  destruct (jis (x_format x) "pcraster").
  - destruct (pcr_loop o m change false 1 vals) as [ws r] eqn:E. injection H as -> <-. destruct (pcr_loop_ok _ _ _ _ _ _ _ E) as [A [B C]].
    exists ws. cbn [c_out]. split; [reflexivity|]. split; [exact A|]. split; [exact B|exact (G _ C)].
  - destruct (jis (x_format x) "netcdf"); [|discriminate]. destruct (nc_loop o m change false 0 vals) as [ws|] eqn:E; [|discriminate].
    destruct (xt_nc_open o); [|discriminate]. cbv zeta in H. destruct (xt_nc_write o ws); [|discriminate]. injection H as <-.
    destruct (nc_loop_ok _ _ _ _ _ _ _ E) as [A [B C]]. exists ws. cbn [c_out]. split; [reflexivity|]. split; [exact A|]. split; [exact B|exact (G _ C)].
Qed.
(** the fields of the first resolution: aggregated, or as selected *)
Definition produced (g : option aggr) (l out : fields) : Prop :=
  match g with Some g => do_manipulation g l = Ok out | None => out = l end.
(** Whatever is executed, the fields handed to the writer are sorted by end step. *)
Theorem C35_order : forall ev x input e g m vals m' change, exec_values ev x input e g m = Ok (vals, m', change) -> by_end vals.
Proof.
  intros ev x input e g m vals m' change H. unfold exec_values in H. apply rbind_ok in H as [[c mm] [Hc H]].
  apply rbind_ok in H as [[v ch] [Ha H]]. assert (E : vals = order_fields c v) by congruence. subst vals. apply order_sorted.
Qed.
Print Assumptions C35_order.
(** Single resolution: the maps written are exactly the converted, then
    aggregated (or selected) and cut-off fields, each once, from the only grid. *)
Theorem C35_single : forall ev o x input e g m vals m' change s s',
  exec_values ev x input e g m = Ok (vals, m', change) -> m_grid2 m = None -> write_maps o x vals m' change s = (Ok tt, s') ->
  map fst (m_first m') = map fst (m_first m) /\
  (exists out, produced g (m_first m') out /\ Permutation vals (cut x out)) /\ by_end vals /\
  exists ws, c_out s' = (c_out s ++ ws)%list /\ maps_of o x m' vals (repeat false (List.length vals)) ws.
Proof.
  intros ev o x input e g m vals m' change s s' H Hg Hw. pose proof (C35_order _ _ _ _ _ _ _ _ _ H) as O. unfold exec_values in H. apply rbind_ok in H as [[c mm] [Hc H]].
  apply rbind_ok in H as [[v ch] [Ha H]]. assert (E : vals = order_fields c v /\ m' = mm /\ change = ch) by (repeat split; congruence). destruct E as [E1 [-> ->]].
  destruct (convert_messages_inv _ _ _ _ _ Hc) as [K1 [_ [K3 [_ [_ K]]]]]. split; [exact K1|].
  destruct (aggregate_inv _ _ _ _ _ _ _ Ha) as [out [Ho G]]. rewrite K3, Hg in G. destruct G as [-> ->]. split; [|split; [exact O|]].
  - exists out. split.
    + unfold first_fields in Ho. rewrite K3, Hg in Ho. unfold produced. destruct g; exact Ho.
    + rewrite E1, K. apply sort_by_perm.
  - destruct (write_ok _ _ _ _ _ _ _ Hw) as [ws [W1 W2]]. exists ws. split; [exact W1|]. rewrite <- (marks_none mm None vals); [exact W2|].
    intros k _. unfold at_change. now rewrite Bool.andb_false_r.
Qed.
Print Assumptions C35_single.
(** The two sets of fields read from one file have different numbers of points
    along a meridian (the hypothesis of the theorems below). *)
Theorem C35_two_grids : forall step step2 change ms m k1 k2, build_messages step step2 change ms = Ok m ->
  In k1 (map fst (m_first m)) -> In k2 (map fst (m_second m)) -> s_res k1 <> s_res k2.
Proof. intros step step2 change ms m k1 k2 H. exact (build_meridians _ _ _ _ _ H k1 k2). Qed.
Print Assumptions C35_two_grids.

(** Full statement for two resolutions: the selected fields of both are written
    (no aggregation), every window that fits before the last step is written. *)
Definition C35_selected_full : Prop := forall ev x input e m gr k, m_grid2 m = Some (gr, k) -> two_meridians m -> x_doConv x = false -> x_doAggr x = false ->
  exists vals m' change, exec_values ev x input e None m = Ok (vals, m', change) /\ Permutation vals (m_first m ++ m_second m)%list.
(** without aggregation the step of the aggregation, None, is converted to an
    integer: TypeError, for all fields *)
Theorem C35_no_aggregation : forall ev x input e m gr k c m', m_grid2 m = Some (gr, k) -> x_astep x = JNull ->
  convert_messages ev x m = Ok (c, m') -> exec_values ev x input e None m = Raise TypeError.
Proof.
  intros ev x input e m gr k c m' Hg Hs Hc. unfold exec_values. rewrite Hc. cbn [rbind]. destruct (convert_messages_inv _ _ _ _ _ Hc) as [_ [_ [K _]]].
  unfold aggregate. cbn [rbind]. rewrite K, Hg, Hs. reflexivity.
Qed.
Print Assumptions C35_no_aggregation.
(** messages for the examples: windows of both resolutions, the change step *)
Definition ex_key (r : Z) (p : Z * Z) : step := mkStep (fst p) (snd p) r 6 0.
Definition ex_messages (first second : list (Z * Z)) (at_ : Z * Z) : messages :=
  mkMessages (map (fun p => (ex_key 2 p, Nd [nint 1; nint 2])) first) (map (fun p => (ex_key 1 p, Nd [nint 3])) second)
    NaN "K" "surface" "instant" "" (mkDate 2020 1 1 0) (ex_key 2 (0, 0)%Z) (mkGrid 0 "" (Some 2%Z)) (Some (mkGrid 0 "" (Some 1%Z), ex_key 1 at_)).
Theorem C35_selected_refuted : ~ C35_selected_full.
Proof.
  intro H. pose (m := ex_messages [(0, 0); (6, 6)]%Z [(12, 12)]%Z (12, 12)%Z). pose (x := ex_x "pcraster" JNull JNull false JNull "").
  assert (Tm : two_meridians m).
  { intros k1 k2 H1 H2. cbn in H1, H2. destruct H2 as [<-|[]]. destruct H1 as [<-|[<-|[]]]; discriminate. }
  destruct (H (fun _ => None) x 6%Z 12%Z m _ _ eq_refl Tm eq_refl eq_refl) as [vals [m' [change [E _]]]].
  rewrite (C35_no_aggregation (fun _ => None) x 6 12 m _ _ None m eq_refl eq_refl eq_refl) in E. discriminate.
Qed.
Print Assumptions C35_selected_refuted.
(** the window that begins at the change step and ends at the last step is
    not written when it is the only one of the second resolution *)
Definition C35_last_full : Prop := forall x i t s e g ev m vals m' change gr k a,
  choose_range x i t = Ok (s, e, Some g) -> exec_values ev x (i_step i) e (Some g) m = Ok (vals, m', change) ->
  m_grid2 m = Some (gr, k) -> two_meridians m -> jint (x_astep x) = Ok a -> (0 < a)%Z -> aggr_name (x_atype x) = "accumulation" -> (s_end k + a <= e)%Z ->
  exists k2, In k2 (map fst vals) /\ window k2 = (s_end k, s_end k + a)%Z.
Theorem C35_last_refuted : ~ C35_last_full.
Proof.
  intro H. pose (m := ex_messages [(0, 0); (12, 12); (24, 24)]%Z [(24, 24); (36, 36)]%Z (24, 24)%Z).
  pose (x := ex_x "pcraster" (JNum 12) (JNum 36) true (JNum 12) "accumulation").
  destruct (choose_range x (mkInfo 0 36 12 (-1) "") "instant") as [[[s e] [g|]]|] eqn:E1; try discriminate.
  assert (Ee : e = 36%Z) by (vm_compute in E1; injection E1 as _ <-; reflexivity). subst e.
  assert (Tm : two_meridians m).
  { intros k1 k2 H1 H2. cbn in H1, H2. destruct H2 as [<-|[<-|[]]]; destruct H1 as [<-|[<-|[<-|[]]]]; discriminate. }
  destruct (exec_values (fun _ => None) x 12 36 (Some g) m) as [[[vals m'] change]|] eqn:E2.
  - assert (L : match choose_range x (mkInfo 0 36 12 (-1) "") "instant" with
                | Ok (_, _, Some g) => match exec_values (fun _ => None) x 12 36 (Some g) m with Ok (v, _, _) => map window (map fst v) | _ => [(0, 0)%Z] end
                | _ => [(0, 0)%Z] end = [(0, 12); (12, 24)]%Z) by (vm_compute; reflexivity).
    rewrite E1, E2 in L.
    destruct (H x (mkInfo 0 36 12 (-1) "") "instant" s 36%Z g (fun _ => None) m vals m' change _ _ 12%Z E1 E2 eq_refl Tm eq_refl ltac:(lia) eq_refl) as [k2 [K1 K2]]; [cbn; lia|].
    apply (in_map window) in K1. rewrite L, K2 in K1. cbn in K1. destruct K1 as [K|[K|[]]]; discriminate.
  - assert (L : match choose_range x (mkInfo 0 36 12 (-1) "") "instant" with
                | Ok (_, _, Some g) => match exec_values (fun _ => None) x 12 36 (Some g) m with Ok _ => true | _ => false end
                | _ => true end = true) by (vm_compute; reflexivity).
    rewrite E1, E2 in L. discriminate.
Qed.
Print Assumptions C35_last_refuted.

(** Proved part: two resolutions, aggregation, and room for more than one window
    after the change step. The maps are those of the first resolution, then those
    of the second, in chronological order, each written once and made from its
    own grid; nothing else is written. *)
Theorem C35_two_partial : forall ev o x i t s e g m vals m' change gr k a st st',
  choose_range x i t = Ok (s, e, Some g) -> exec_values ev x (i_step i) e (Some g) m = Ok (vals, m', change) ->
  m_grid2 m = Some (gr, k) -> two_meridians m -> jint (x_astep x) = Ok a -> (0 < a)%Z -> (0 <= s_start k <= s_end k)%Z -> (0 <= i_step i)%Z -> (s_end k + a < e)%Z ->
  write_maps o x vals m' change st = (Ok tt, st') ->
  map fst (m_first m') = map fst (m_first m) /\ map fst (m_second m') = map fst (m_second m) /\
  exists g2 out1 out2 l1 l2 ws,
    produced (Some (change_end_step g (s_start k))) (m_first m') out1 /\
    new_aggr x (i_step i) (m_type m) (s_end k + a) e = Ok g2 /\ produced (Some g2) (m_second m') out2 /\
    vals = (l1 ++ l2)%list /\ by_end vals /\ NoDup (map fst vals) /\ Permutation l1 (cut x out1) /\ Permutation l2 (cut x out2) /\ l2 <> [] /\
    c_out st' = (c_out st ++ ws)%list /\ maps_of o x m' vals (repeat false (List.length l1) ++ repeat true (List.length l2))%list ws /\
    m_grid m' = m_grid m /\ m_grid2 m' = Some (gr, k).
Proof.
  intros ev o x i t s e g m vals m' change gr k a st st' Hr H Hg Hm Ha Hp Hk Hi He Hw.
  pose proof (C35_order _ _ _ _ _ _ _ _ _ H) as O. unfold exec_values in H. apply rbind_ok in H as [[c mm] [Hc H]].
  apply rbind_ok in H as [[v ch] [Hag H]]. assert (E : vals = order_fields c v /\ m' = mm /\ change = ch) by (repeat split; congruence). destruct E as [E1 [-> ->]].
  destruct (convert_messages_inv _ _ _ _ _ Hc) as [K1 [K2 [K3 [K4 [K5 K]]]]].
  assert (Hm' : two_meridians mm) by (intros k1 k2 A B; rewrite K1 in A; rewrite K2 in B; exact (Hm k1 k2 A B)).
  assert (Hg' : m_grid2 mm = Some (gr, k)) by congruence.
  destruct (two_resolutions _ _ _ _ _ _ _ _ _ _ _ _ Hr Hag Hg' Hm' Ha Hp ltac:(lia) Hi He)
    as [g2 [out1 [out2 [cc [M1 [M2 [M3 [M4 [M5 [M6 [M7 [M8 [M9 [M10 M11]]]]]]]]]]]]]].
  split; [exact K1|]. split; [exact K2|].
  set (key := fun kv : step * arr => s_end (fst kv)) in *.
  assert (Ev : vals = (sort_by key (cut x out1) ++ sort_by key (cut x out2))%list).
  { rewrite E1, K, M4, cut_app. apply sort_by_app. apply Forall_forall. intros p Hp1. apply Forall_forall. intros q Hq.
    assert (I1 : In (fst p) (map fst out1)) by (rewrite <- (cut_keys x); now apply in_map).
    assert (I2 : In (fst q) (map fst out2)) by (rewrite <- (cut_keys x); now apply in_map).
    destruct (M10 _ I1) as [A1 A2]. destruct (M11 _ I2) as [B1 B2]. unfold key.
    destruct (String.eqb_spec (aggr_name (x_atype x)) "average") as [Et|Et]; cbn [andb] in A1.
    - assert (s_end (fst q) = s_start (fst q) + a)%Z by (destruct B2 as [[B2 _]|B2]; [congruence|exact B2]). destruct (a_start g =? 0)%Z; lia.
    - destruct B2 as [[_ B2]|B2]; lia. }
  assert (P1 : Permutation (sort_by key (cut x out1)) (cut x out1)) by apply sort_by_perm.
  assert (P2 : Permutation (sort_by key (cut x out2)) (cut x out2)) by apply sort_by_perm.
  assert (Hn : NoDup (map fst vals)).
  { rewrite Ev, map_app. assert (Q1 := Permutation_map fst P1). assert (Q2 := Permutation_map fst P2). rewrite cut_keys in Q1, Q2.
    apply (Permutation_NoDup (l := (map fst out1 ++ map fst out2)%list)); [symmetry; now apply Permutation_app|].
    destruct M7 as [PP [[N1 _] _]]. destruct M8 as [PP2 [[N2 _] _]]. apply NoDup_app2; [exact N1|exact N2|].
    intros kk I1 I2. exact (M9 kk kk I1 I2 eq_refl). }
  destruct (write_ok _ _ _ _ _ _ _ Hw) as [ws [W1 W2]].
  assert (Hc2 : exists aa r, sort_by key (cut x out2) = (cc, aa) :: r).
  { apply first_by_end_sorted. rewrite (first_by_end_keys (cut x out2) out2); [exact M6|apply cut_keys]. }
  destruct Hc2 as [aa [r Hc2]].
  exists g2, out1, out2, (sort_by key (cut x out1)), (sort_by key (cut x out2)), ws.
  split; [exact M1|]. split; [rewrite <- K5; exact M2|]. split; [exact M3|]. split; [exact Ev|]. split; [exact O|]. split; [exact Hn|].
  split; [exact P1|]. split; [exact P2|]. split; [rewrite Hc2; discriminate|]. split; [exact W1|]. split; [|split; [exact K4|exact Hg']].
  assert (Ef : marks mm ch false vals = (repeat false (List.length (sort_by key (cut x out1))) ++ repeat true (List.length (sort_by key (cut x out2))))%list).
  { rewrite Ev, Hc2, M5. apply (marks_change mm gr k); [exact Hg'|]. intro Hin. rewrite Ev, Hc2, map_app in Hn.
    cbn [map fst] in Hn. apply NoDup_remove_2 in Hn. apply Hn. apply in_or_app. now left. }
  rewrite <- Ef. exact W2.
Qed.
Print Assumptions C35_two_partial.
Example C35_nonvacuous :
  ran (ex_ext (Some ex_uni)) (ex_x "netcdf" JNull JNull false JNull "") = (Exit 0, [(0, 0, 0, false); (1, 6, 6, false); (2, 12, 12, false)]%Z) /\
  ran (ex_ext (Some ex_two)) (ex_x "pcraster" JNull JNull true (JNum 12) "accumulation") = (Exit 0, [(1, 0, 12, false); (2, 12, 24, false); (3, 24, 36, true); (4, 36, 48, true)]%Z) /\
  ran (ex_ext (Some ex_two)) (ex_x "pcraster" JNull (JNum 36) true (JNum 12) "accumulation") = (Exit 0, [(1, 0, 12, false); (2, 12, 24, false)]%Z) /\
  (let x := ex_x "pcraster" (JNum 12) (JNum 48) true (JNum 12) "accumulation" in
   let i := mkInfo 0 48 12 (-1) "" in
   let m := ex_messages [(0, 0); (12, 12); (24, 24)]%Z [(24, 24); (36, 36); (48, 48)]%Z (24, 24)%Z in
   two_meridians m /\ jint (x_astep x) = Ok 12%Z /\
   match choose_range x i "instant" with
   | Ok (_, e, Some g) => e = 48%Z /\
       match exec_values (fun _ => None) x 12 e (Some g) m with
       | Ok (v, m', c) => map window (map fst v) = [(0, 12); (12, 24); (24, 36); (36, 48)]%Z /\ fst (write_maps (ex_ext None) x v m' c (cst0 world0)) = Ok tt
       | _ => False end
   | _ => False end).
Proof.
  split; [vm_compute; reflexivity|]. split; [vm_compute; reflexivity|]. split; [vm_compute; reflexivity|]. cbv zeta. split; [|split; [reflexivity|vm_compute; auto]].
  intros k1 k2 H1 H2 E. cbn in H1, H2. decompose [or] H1; decompose [or] H2; subst; try contradiction; discriminate.
Qed.

(** ** C36: hand-over between the resolutions *)
(** Full statement: windows of the first resolution end at the change step at
    the latest, those of the second begin there at the earliest, and no window
    is produced twice. *)
Definition C36_full : Prop := forall x i t s e g ev m vals m' change gr k a,
  choose_range x i t = Ok (s, e, Some g) -> exec_values ev x (i_step i) e (Some g) m = Ok (vals, m', change) ->
  m_grid2 m = Some (gr, k) -> two_meridians m -> jint (x_astep x) = Ok a -> (0 < a)%Z -> (0 <= s_start k <= s_end k)%Z -> (0 <= i_step i)%Z -> (s_end k + a < e)%Z ->
  NoDup (map window (map fst vals)).
(** an instantaneous aggregation gives the change step twice *)
Theorem C36_refuted : ~ C36_full.
Proof.
  intro H. pose (m := ex_messages [(0, 0); (12, 12); (24, 24)]%Z [(24, 24); (36, 36); (48, 48)]%Z (24, 24)%Z).
  pose (x := ex_x "pcraster" (JNum 12) (JNum 48) true (JNum 12) "instantaneous").
  destruct (choose_range x (mkInfo 0 48 12 (-1) "") "instant") as [[[s e] [g|]]|] eqn:E1; try discriminate.
  assert (Ee : e = 48%Z) by (vm_compute in E1; injection E1 as _ <-; reflexivity). subst e.
  assert (Tm : two_meridians m).
  { intros k1 k2 H1 H2 E. cbn in H1, H2. decompose [or] H1; decompose [or] H2; subst; try contradiction; discriminate. }
  destruct (exec_values (fun _ => None) x 12 48 (Some g) m) as [[[vals m'] change]|] eqn:E2.
  - assert (L : match choose_range x (mkInfo 0 48 12 (-1) "") "instant" with
                | Ok (_, _, Some g) => match exec_values (fun _ => None) x 12 48 (Some g) m with Ok (v, _, _) => map window (map fst v) | _ => [] end
                | _ => [] end = [(12, 12); (24, 24); (24, 24); (36, 36); (48, 48)]%Z) by (vm_compute; reflexivity).
    rewrite E1, E2 in L.
    specialize (H x (mkInfo 0 48 12 (-1) "") "instant" s 48%Z g (fun _ => None) m vals m' change _ _ 12%Z E1 E2 eq_refl Tm eq_refl).
    cbn [i_step s_start s_end ex_key fst snd] in H. specialize (H ltac:(lia) ltac:(lia) ltac:(lia) ltac:(lia)). rewrite L in H.
    inversion H as [|? ? _ H2]; subst. inversion H2 as [|? ? H3 _]; subst. apply H3. now left.
  - assert (L : match choose_range x (mkInfo 0 48 12 (-1) "") "instant" with
                | Ok (_, _, Some g) => match exec_values (fun _ => None) x 12 48 (Some g) m with Ok _ => true | _ => false end
                | _ => true end = true) by (vm_compute; reflexivity).
    rewrite E1, E2 in L. discriminate.
Qed.
Print Assumptions C36_refuted.
(** Proved part. The fields are those of the first resolution, each computed
    from messages of the first resolution only, and those of the second, from
    messages of the second only. Windows of the first end at the change step at
    the latest (one step later for averages that begin at step 0), windows of
    the second begin at it at the earliest. No window is produced twice, except
    by instantaneous aggregations and by averages from 0 over windows of 1. *)
Theorem C36_partial : forall ev x i t s e g m vals m' change gr k a,
  choose_range x i t = Ok (s, e, Some g) -> exec_values ev x (i_step i) e (Some g) m = Ok (vals, m', change) ->
  m_grid2 m = Some (gr, k) -> two_meridians m -> jint (x_astep x) = Ok a -> (0 < a)%Z -> (0 <= s_start k <= s_end k)%Z -> (0 <= i_step i)%Z -> (s_end k + a < e)%Z ->
  exists g2 out1 out2,
    do_manipulation (change_end_step g (s_start k)) (m_first m') = Ok out1 /\
    new_aggr x (i_step i) (m_type m) (s_end k + a) e = Ok g2 /\ do_manipulation g2 (m_second m') = Ok out2 /\
    Permutation vals (cut x out1 ++ cut x out2)%list /\
    (forall k1, In k1 (map fst out1) ->
       s_end k1 <= if (String.eqb (aggr_name (x_atype x)) "average" && (requested_or (x_tstart x) 0 =? 0))%bool then s_start k + 1 else s_start k)%Z /\
    (forall k2, In k2 (map fst out2) -> s_end k <= s_start k2)%Z /\
    (aggr_name (x_atype x) <> "instantaneous" ->
     (aggr_name (x_atype x) = "average" -> requested_or (x_tstart x) 0 = 0 -> 1 < a)%Z ->
     NoDup (map window (map fst vals))).
Proof.
  intros ev x i t s e g m vals m' change gr k a Hr H Hg Hm Ha Hp Hk Hi He.
  destruct (C34_partial _ _ _ _ _ _ Hr) as [R _]. cbn [used_range fst] in R.
  unfold exec_values in H. apply rbind_ok in H as [[c mm] [Hc H]].
  apply rbind_ok in H as [[v ch] [Hag H]]. assert (E : vals = order_fields c v /\ m' = mm /\ change = ch) by (repeat split; congruence). destruct E as [E1 [-> ->]].
  destruct (convert_messages_inv _ _ _ _ _ Hc) as [K1 [K2 [K3 [K4 [K5 K]]]]].
  assert (Hm' : two_meridians mm) by (intros k1 k2 A B; rewrite K1 in A; rewrite K2 in B; exact (Hm k1 k2 A B)).
  assert (Hg' : m_grid2 mm = Some (gr, k)) by congruence.
  destruct (two_resolutions _ _ _ _ _ _ _ _ _ _ _ _ Hr Hag Hg' Hm' Ha Hp ltac:(lia) Hi He)
    as [g2 [out1 [out2 [cc [M1 [M2 [M3 [M4 [M5 [M6 [M7 [M8 [M9 [M10 M11]]]]]]]]]]]]]].
  exists g2, out1, out2. split; [exact M1|]. split; [rewrite <- K5; exact M2|]. split; [exact M3|].
  assert (P : Permutation vals (cut x out1 ++ cut x out2)%list) by (rewrite E1, K, M4, cut_app; apply sort_by_perm).
  split; [exact P|]. rewrite R in M10. split; [intros k1 I1; exact (proj1 (M10 k1 I1))|]. split; [intros k2 I2; exact (proj1 (M11 k2 I2))|].
  intros Hni Hav. apply (Permutation_map fst) in P. rewrite map_app, !cut_keys in P.
  apply (Permutation_NoDup (l := map window (map fst out1 ++ map fst out2)%list)); [symmetry; now apply Permutation_map|]. rewrite map_app.
  destruct M7 as [PP1 [N1 [r1 [l1 [i1 U1]]]]]. destruct M8 as [PP2 [N2 [r2 [l2 [i2 U2]]]]].
  apply NoDup_app2; [exact (windows_NoDup _ _ _ _ _ U1 N1)|exact (windows_NoDup _ _ _ _ _ U2 N2)|].
  intros w I1 I2. apply in_map_iff in I1 as [k1 [W1 I1]]. apply in_map_iff in I2 as [k2 [W2 I2]]. subst w. unfold window in W2. injection W2 as W2 W3.
  destruct (M10 _ I1) as [A1 _]. destruct (M11 _ I2) as [B1 [[B2 _]|B2]]; [contradiction|].
  destruct (String.eqb_spec (aggr_name (x_atype x)) "average") as [Et|Et]; cbn [andb] in A1; [|lia].
  destruct (Z.eqb_spec (requested_or (x_tstart x) 0) 0) as [Ez|Ez]; [specialize (Hav Et Ez)|]; lia.
Qed.
Print Assumptions C36_partial.
(** A further finding: accumulated fields begin at step 0, so their change step
    begins at 0 as well; then all windows of the first resolution are lost. *)
Theorem C36_accumulated_lost : forall g k first out, a_type g = "accumulation" -> (0 <= a_start g)%Z -> (0 < a_step g)%Z -> s_start k = 0%Z ->
  do_manipulation (change_end_step g (s_start k)) first = Ok out -> out = [].
Proof.
  intros g k first out Ht Hs Hp Hk H. rewrite Hk in H. unfold do_manipulation in H. cbn [a_type change_end_step] in H. rewrite Ht in H. cbn [String.eqb Ascii.eqb Bool.eqb] in H.
  unfold accumulation in H. apply rbind_ok in H as [st [H Ho]]. unfold accumulation_run in H. apply rbind_ok in H as [[k0 a0] [_ H]].
  cbn [a_start a_step a_end change_end_step] in H. apply rbind_ok in H as [iters [Hi H]].
  rewrite py_range_nil in Hi; [|lia|destruct (Z.eqb_spec (a_start g) 0); lia]. assert (iters = []) by congruence. subst iters. cbn [foldM] in H. injection H as <-. cbn [ac_out] in Ho. congruence.
Qed.
Print Assumptions C36_accumulated_lost.
Example C36_nonvacuous :
  ran (ex_ext (Some ex_two)) (ex_x "pcraster" JNull JNull true (JNum 12) "average") = (Exit 0, [(1, 0, 12, false); (2, 12, 24, false); (3, 24, 36, true); (4, 36, 48, true)]%Z) /\
  ran (ex_ext (Some ex_two)) (ex_x "pcraster" JNull JNull true (JNum 12) "instantaneous") =
    (Exit 0, [(1, 0, 0, false); (2, 12, 12, false); (3, 24, 24, false); (4, 24, 24, true); (5, 36, 36, true); (6, 48, 48, true)]%Z).
Proof. split; vm_compute; reflexivity. Qed.

(** ** C64: step keys *)
Theorem C64_keys : forall a b, step_eqb a b = true <->
  s_start a = s_start b /\ s_end a = s_end b /\ s_res a = s_res b /\ s_input a = s_input b /\ s_level a = s_level b.
Proof.
  intros a b. rewrite step_eqb_iff. destruct a, b; cbn. split; [intro E; injection E as -> -> -> -> ->; auto|intros [-> [-> [-> [-> ->]]]]; reflexivity].
Qed.
Print Assumptions C64_keys.
(** as dictionary keys: a field stored under a key is the one found under it,
    and storing it changes what is found under another key only if all five
    components are equal *)
Theorem C64_dictionary : forall (d : fields) a b v,
  dget step_eqb (dset step_eqb d a v) b = if step_eqb a b then Some v else dget step_eqb d b.
Proof.
  intros d a b v. rewrite (dget_dset step_eqb step_eqb_iff). destruct (step_eqb a b) eqn:E1; destruct (step_eqb b a) eqn:E2; auto;
  [apply step_eqb_iff in E1; subst; assert (step_eqb b b = true) by (now apply step_eqb_iff); congruence|apply step_eqb_iff in E2; subst; assert (step_eqb a a = true) by (now apply step_eqb_iff); congruence].
Qed.
Print Assumptions C64_dictionary.
Theorem C64_sort : forall c values, Permutation (map fst (order_fields c values)) (map fst values) /\
  (c = None -> Permutation (order_fields c values) values).
Proof.
  intros c values. unfold order_fields. split.
  - rewrite (Permutation_map fst (sort_by_perm _ _)). destruct c as [c|]; [|reflexivity]. destruct (cv_cut c); [|reflexivity]. now rewrite cut_off_keys.
  - intros ->. apply sort_by_perm.
Qed.
Print Assumptions C64_sort.
(** Full statement: the aggregations sort their fields without losing one *)
Definition C64_full : Prop := forall values : fields, NoDup (map fst values) -> Permutation (map snd (by_end_step values)) (map snd values).
Theorem C64_refuted : ~ C64_full.
Proof.
  intro H. specialize (H [(mkStep 0 12 2 6 0, Nd [nint 1]); (mkStep 6 12 2 6 0, Nd [nint 2])]).
  assert (N : NoDup (map fst [(mkStep 0 12 2 6 0, Nd [nint 1]); (mkStep 6 12 2 6 0, Nd [nint 2])])).
  { cbn. constructor; [intros [E|[]]; discriminate|constructor; [intros []|constructor]]. }
  specialize (H N). apply Permutation_length in H. vm_compute in H. discriminate.
Qed.
Print Assumptions C64_refuted.
(** Proved part: no field is lost when end steps differ; otherwise the last
    field with that end step remains. *)
Theorem C64_by_end_step : forall values : fields, NoDup (map (fun kv => s_end (fst kv)) values) ->
  Permutation (by_end_step values) (map (fun kv => (s_end (fst kv), snd kv)) values).
Proof.
  intros values H. unfold by_end_step. rewrite sort_by_perm. rewrite (dict_of_NoDup Z.eqb Zeqb_spec'); [reflexivity|]. unfold dkeys. rewrite map_map. exact H.
Qed.
Print Assumptions C64_by_end_step.
Example C64_nonvacuous : NoDup (map (fun kv => s_end (fst kv)) [(mkStep 6 12 2 6 0, Nd [nint 1]); (mkStep 0 6 2 6 0, Nd [nint 2])]) /\
  by_end_step [(mkStep 6 12 2 6 0, Nd [nint 1]); (mkStep 0 6 2 6 0, Nd [nint 2])] = [(6, Nd [nint 2]); (12, Nd [nint 1])]%Z.
Proof. split; [|reflexivity]. cbn. constructor; [intros [E|[]]; discriminate|constructor; [intros []|constructor]]. Qed.

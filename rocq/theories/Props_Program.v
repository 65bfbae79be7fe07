(** * Property C93: the whole program, from its arguments to its exit status and
    the maps written. Vocabulary: Spec_Program.v, Spec_Args.v, Spec_Flow.v. *)
From Verif Require Import Base Num PyStr Strings Config Context Args Spec_Args Aggregator Converter Reader Controller Spec_Controller Spec_Reader Spec_Context Spec_Flow Program Spec_Program
  Base_P PyStr_P Context_P Reader_P Reader_P2 Controller_P2 Flow_P Program_P Props_Context Props_Reader Props_Controller Props_Flow Props_Args.
From Coq Require Import Permutation Sorted.
Local Open Scope string_scope.

(** the command file named by the arguments *)
Definition command_file (files : string -> option json) (a : cli) : option json := match a_commands a with Some p => files p | None => None end.
(** the extraction the arguments ask for *)
Definition asks_for (e : env) (fs : fsys) (files : string -> option json) (argv : list string) (x : ctx) : Prop :=
  exists gs, spelled gs argv /\ Forall proper gs /\ execution_context e fs (understood gs) (command_file files (understood gs)) = Ok x.

(** ** Full statement: status 0 means that the help was shown, or that every
    map has been written, or that there was nothing to write. Refuted below. *)
Definition C93_full : Prop := forall e fs o files argv w acts s, good_world w -> program e fs o files argv w = (Exit 0, acts, s) ->
  (read_argv argv = Ok HelpShown /\ acts = [] /\ s = cst0 w) \/
  (acts = [Extraction] /\ exists x, asks_for e fs files argv x /\ (all_written o x w s \/ none_written o x s)).

Lemma exec_context e fs a cmd x : new_context e fs a cmd = Ok (CExec x) -> execution_context e fs a cmd = Ok x.
Proof.
  unfold new_context, execution_context. intro H. apply rbind_ok in H as [u [-> H]]. cbn [rbind]. destruct (is_config_command a).
  - apply rbind_ok in H as [? [_ H]]. discriminate.
  - apply rbind_ok in H as [x0 [-> H]]. cbn [rbind]. apply rbind_ok in H as [x1 [-> H]]. congruence.
Qed.
Lemma no_conf e fs a cmd : new_context e fs a cmd <> Ok CConf.
Proof.
  unfold new_context. intro H. apply rbind_ok in H as [u [_ H]]. destruct (is_config_command a).
  - apply rbind_ok in H as [? [H _]]. unfold check_config_params in H. do 3 (apply rbind_ok in H as [? [_ H]]). discriminate.
  - apply rbind_ok in H as [x0 [_ H]]. apply rbind_ok in H as [x1 [_ H]]. discriminate.
Qed.
Lemma program_cases e fs o files argv w out acts s : program e fs o files argv w = (out, acts, s) ->
  (acts = [] /\ s = cst0 w /\ (out = Exit 1 \/ out = Exit 0 /\ read_argv argv = Ok HelpShown)) \/
  (acts = [Extraction] /\ exists x, asks_for e fs files argv x /\ run_command o x w = (out, s)).
Proof.
  unfold program. intro H. destruct (read_argv argv) as [[a|]|ex] eqn:R; [|left; assert (E : (Exit 0, @nil action, cst0 w) = (out, acts, s)) by exact H; injection E as <- <- <-; auto|left; injection H as <- <- <-; auto].
  fold (command_file files a) in H. unfold pyg2p_exe in H. destruct (new_context e fs a (command_file files a)) as [[|x]|ex] eqn:N.
  - now apply no_conf in N.
  - destruct (run_command o x w) as [r s'] eqn:E. injection H as <- <- <-. right. split; [reflexivity|]. exists x. split; [|exact E].
    apply C90_exact in R as (_ & gs & G & P & ->). exists gs. split; [exact G|]. split; [exact P|]. now apply exec_context.
  - left. injection H as <- <- <-. auto.
Qed.
Lemma out_closed o x w r s out s' : execute o x true (cst0 w) = (r, s) -> run_command o x w = (out, s') -> c_out s' = c_out s.
Proof.
  intros H1 H2. unfold run_command in H2. rewrite H1 in H2. pose proof (keep_close s) as K. destruct (ctl_close s) as [[u|e] s2]; cbn [snd] in K; congruence.
Qed.
(** what has been written, whatever happened *)
Lemma execute_out o x w r s : execute o x true (cst0 w) = (r, s) ->
  match r with
  | Ok (vals, m, change) => map entry_of (c_out s) = numbered (if pcraster x then 1 else 0) vals
  | Raise _ => c_out s = [] \/ pcraster x = true /\ exists ev input e g m0 vals m change l1 l2,
      exec_values ev x input e g m0 = Ok (vals, m, change) /\ vals = (l1 ++ l2)%list /\ l2 <> [] /\ map entry_of (c_out s) = numbered 1 l1
  end.
Proof.
  intro H. unfold execute in H.
  assert (K0 : forall (A : Type) (y : M A) s0 z s1, keep y -> y s0 = (z, s1) -> c_out s1 = c_out s0) by (intros A y s0 z s1 Hk E; specialize (Hk s0); rewrite E in Hk; exact Hk).
  destruct (init_execution o x (cst0 w)) as [z1 s1] eqn:E1. pose proof (K0 _ _ _ _ _ (keep_init o x) E1) as O1. change (c_out (cst0 w)) with (@nil written) in O1.
  unfold bind at 1 in H. rewrite E1 in H. destruct z1 as [[[[input sel] e] g]|ex]; [|injection H as <- <-; now left].
  destruct (on1 (select_messages sel) s1) as [z2 s2] eqn:E2. pose proof (K0 _ _ _ _ _ (keep_on1 (select_messages sel)) E2) as O2.
  unfold bind at 1 in H. rewrite E2 in H. destruct z2 as [m1|ex]; [|injection H as <- <-; left; congruence].
  destruct (second_file o x sel m1 s2) as [z3 s3] eqn:E3. pose proof (K0 _ _ _ _ _ (keep_second o x sel m1) E3) as O3.
  unfold bind at 1 in H. rewrite E3 in H. destruct z3 as [m2|ex]; [|injection H as <- <-; left; congruence].
  destruct (on1 intertable_gids s3) as [z4 s4] eqn:E4. pose proof (K0 _ _ _ _ _ (keep_on1 intertable_gids) E4) as O4.
  unfold bind at 1 in H. rewrite E4 in H. destruct z4 as [au|ex]; [|injection H as <- <-; left; congruence].
  unfold bind at 1 in H. unfold lift in H. destruct (exec_values (xt_numexpr o) x input e g m2) as [[[vals m'] change]|ex] eqn:E5; [|injection H as <- <-; left; congruence].
  assert (O : c_out s4 = []) by congruence.
  unfold bind at 1 in H. destruct (write_maps o x vals m' change s4) as [z5 s5] eqn:E6.
  destruct z5 as [[]|ex].
  - unfold ret in H. injection H as <- <-. destruct (write_ok _ _ _ _ _ _ _ E6) as (ws & Ew & A & _). rewrite O in Ew. cbn [app] in Ew. rewrite Ew. exact A.
  - injection H as <- <-. unfold write_maps in E6. destruct (pcraster x).
    + destruct (pcr_loop o m' change false 1 vals) as [ws rr] eqn:El. assert (rr = Raise ex) by congruence. subst rr.
      assert (Es : c_out s5 = ws) by (injection E6 as <-; cbn [c_out]; now rewrite O).
      destruct (pcr_loop_fail _ _ _ _ _ _ _ _ El) as (l1 & l2 & A & B & C). right. split; [reflexivity|].
      exists (xt_numexpr o), input, e, g, m2, vals, m', change, l1, l2. rewrite Es. auto.
    + left. destruct (jis _ _); [|injection E6 as <- <-; exact O]. destruct (nc_loop o m' change false 0 vals) as [ws|]; [|injection E6 as <- <-; exact O].
      destruct (xt_nc_open o); [|injection E6 as <- <-; exact O]. cbv zeta in E6. destruct (xt_nc_write o ws); [discriminate|]. injection E6 as <- <-. exact O.
Qed.
Lemma execute_values o x w vals m change s : execute o x true (cst0 w) = (Ok (vals, m, change), s) ->
  exists ev input en g m0, exec_values ev x input en g m0 = Ok (vals, m, change).
Proof.
  intro H. unfold execute in H. apply bind_ok in H as ([[[input sel] e] g] & s1 & _ & H). apply bind_ok in H as (m1 & s2 & _ & H). apply bind_ok in H as (m2 & s3 & _ & H).
  apply bind_ok in H as (u & s4 & _ & H). apply bind_ok in H as ([[v mm] ch] & s5 & V & H). apply lift_ok in V as [V ->]. apply bind_ok in H as (u' & s6 & _ & H). apply ret_ok in H as [H ->].
  exists (xt_numexpr o), input, e, g, m2. congruence.
Qed.
Lemma entries_numbered ws i vals : map entry_of ws = numbered i vals -> map (fun w => (wn_step w, wn_field w)) ws = vals.
Proof. intro H. destruct (numbered_spec vals i) as [N _]. rewrite <- H in N. rewrite map_map in N. exact N. Qed.

(** ** Proved part 1: the full statement if neither the correction nor a writer
    raises the error for no messages (the correction does: see below) *)
Theorem C93_zero_partial : forall e fs o files argv w acts s, quiet o -> good_world w -> program e fs o files argv w = (Exit 0, acts, s) ->
  (read_argv argv = Ok HelpShown /\ acts = [] /\ s = cst0 w) \/
  (acts = [Extraction] /\ exists x, asks_for e fs files argv x /\ (all_written o x w s \/ none_written o x s)).
Proof.
  intros e fs o files argv w acts s Q Hw H. destruct (program_cases _ _ _ _ _ _ _ _ _ H) as [(-> & -> & [D|[_ R]])|(-> & x & A & R)]; [discriminate|now left|].
  right. split; [reflexivity|]. exists x. split; [exact A|]. destruct (execute o x true (cst0 w)) as [r s1] eqn:E.
  pose proof (out_closed _ _ _ _ _ _ _ E R) as O. destruct (run_spec _ _ _ _ _ _ _ E R) as [D _]. pose proof (execute_out _ _ _ _ _ E) as W.
  destruct r as [[[vals m] change]|ex].
  - left. exists vals, m, change, s1. split; [exact E|]. rewrite O. exact (entries_numbered _ _ _ W).
  - right. assert (ex = AppExc 3000).
    { destruct (c_wr s1) as [[[] []]|]; try discriminate; cbn [documented_status] in D; destruct ex as [c| | | | | | | |]; try discriminate; destruct (Z.eqb_spec c 3000); congruence. }
    subst ex. destruct (execute_none o x w s1 Q Hw E) as [E0 N]. split; [congruence|exact N].
Qed.

(** ** Proved part 2: whatever happens, the maps written are the first fields in
    order, numbered without gaps; a NetCDF file is written complete or not at
    all; refused arguments and unusable commands write nothing *)
Theorem C93_prefix : forall e fs o files argv w out acts s, program e fs o files argv w = (out, acts, s) ->
  (acts = [] /\ c_out s = [] /\ (out = Exit 1 \/ out = Exit 0 /\ read_argv argv = Ok HelpShown)) \/
  (acts = [Extraction] /\ exists x, asks_for e fs files argv x /\
    (c_out s = [] \/ exists ev input en g m0 vals m change rest, exec_values ev x input en g m0 = Ok (vals ++ rest, m, change)%list /\ (pcraster x = false -> rest = []) /\
       map (fun w => (wn_map w, wn_step w, wn_field w)) (c_out s) = numbered (if pcraster x then 1 else 0) vals)).
Proof.
  intros e fs o files argv w out acts s H. destruct (program_cases _ _ _ _ _ _ _ _ _ H) as [(-> & -> & D)|(-> & x & A & R)]; [left; auto|right].
  split; [reflexivity|]. exists x. split; [exact A|]. destruct (execute o x true (cst0 w)) as [r s1] eqn:E.
  pose proof (out_closed _ _ _ _ _ _ _ E R) as O. pose proof (execute_out _ _ _ _ _ E) as W. rewrite O.
  destruct r as [[[vals m] change]|ex].
  - right. destruct (execute_values o x w vals m change s1 E) as (ev & input & en & g & m0 & V). exists ev, input, en, g, m0, vals, m, change, []. rewrite app_nil_r. auto.
  - destruct W as [W|[P (ev & input & en & g & m0 & vals & m & change & l1 & l2 & V & -> & _ & W)]]; [now left|]. right.
    exists ev, input, en, g, m0, l1, m, change, l2. rewrite P. split; [exact V|]. split; [discriminate|exact W].
Qed.

(** ** Proved part 3: from the arguments to the maps of a plain request *)
Lemma upper_length s : String.length (upper s) = String.length s.
Proof. unfold upper. induction s as [|c s IH]; [reflexivity|]. cbn. now rewrite IH. Qed.
Lemma context_member e fs a cmd x : execution_context e fs a cmd = Ok x -> x_member x = of_z (a_member a).
Proof.
  intro H. unfold execution_context in H. apply rbind_ok in H as [u [_ H]]. apply rbind_ok in H as [x0 [E0 H]].
  assert (Hm : x_member x0 = of_z (a_member a)).
  { destruct cmd as [cmd|]; [|unfold define_exec_params in E0; destruct (a_commands a); discriminate].
    apply define_exec_inv in E0. destruct E0 as (ex & par0 & out0 & ic & k & docorr & formula & gem & dem & doaggr & astep & atype & ahalf &
      aforce & dem0 & clone0 & lat0 & lon0 & E0). do 35 (destruct E0 as [_ E0]). destruct E0 as (_ & _ & Hm & _). exact Hm. }
  unfold check_exec_params in H. do 17 (apply rbind_ok in H as [? [_ H]]). assert (E : Ok x = Ok x) by reflexivity. rewrite <- H in E at 1. rewrite <- Hm. 
  match goal with K : Ok ?y = Ok x |- _ => assert (x = y) by congruence; subst x; reflexivity end.
Qed.
Lemma context_usable e fs files argv x nm : asks_for e fs files argv x -> x_short x = JStr nm -> upper nm <> nm -> usable_request x nm.
Proof.
  intros (gs & _ & _ & A) Hs Hu. destruct (command_file files (understood gs)) as [cmd|] eqn:C.
  - destruct (C32_scalars _ _ _ _ _ A) as (S1 & S2 & S3 & _). split; [exact Hs|]. split; [|split; [exact S1|split; [exact S2|split; [exact S3|]]]].
    + assert (L : forall t, String.length t = String.length nm -> t <> nm +++ "var").
      { intros t Ht ->. rewrite slen_app in Ht. cbn in Ht. lia. }
      constructor; [intros [E|[E|[]]]; [now apply Hu|exact (L nm eq_refl (eq_sym E))]|]. constructor; [|constructor; [intros []|constructor]].
      intros [E|[]]. exact (L (upper nm) (upper_length nm) (eq_sym E)).
    + rewrite (context_member _ _ _ _ _ A). destruct (a_member (understood gs)) as [z|]; [right; now exists z|now left].
  - exfalso. unfold execution_context in A. apply rbind_ok in A as [u [_ A]]. apply rbind_ok in A as [x0 [A _]]. unfold define_exec_params in A. destruct (a_commands _); discriminate.
Qed.
(** a plain request for one variable of which the file has messages: with status
    0, if some message is asked for, exactly one map is written for each of them
    (all different in steps and level), numbered without gaps in the order of the
    end steps, each the interpolated field of its message *)
Theorem C93_plain_partial : forall e fs o files argv w acts s x nm f, quiet o -> good_world w ->
  program e fs o files argv w = (Exit 0, acts, s) -> acts <> [] -> asks_for e fs files argv x ->
  x_short x = JStr nm -> upper nm <> nm -> plain_request x ->
  xt_file o (x_input x) = Some f -> usable_file f -> Exists (same_variable x nm) (gf_msgs f) ->
  exists i last, file_range x nm f i /\ last_step x i last /\
   (Exists (wanted_message x nm (requested_or (x_tstart x) 0) last) (gf_msgs f) ->
    exists ms, those (wanted_message x nm (requested_or (x_tstart x) 0) last) (gf_msgs f) ms /\
     forall n, Forall (fun m => has_int m "Nj" n) ms -> exists xs, Forall2 reads ms xs /\
      (NoDup (map rd_id xs) ->
       Permutation (map (fun w => (wn_id w, wn_field w)) (c_out s)) (map (fun r => (rd_id r, rd_field r)) xs) /\
       map wn_map (c_out s) = map (fun k => ((if jis (x_format x) "pcraster" then 1 else 0) + Z.of_nat k)%Z) (seq 0 (List.length ms)) /\
       StronglySorted (fun a b => (s_end (wn_step a) <= s_end (wn_step b))%Z) (c_out s) /\
       Forall (fun w => wn_second w = false /\ xt_map o (wn_grid w) false (wn_field w) = Ok (wn_out w) /\
                        exists g0 m0, In m0 ms /\ grid_details g0 m0 = Ok (wn_grid w)) (c_out s))).
Proof.
  intros e fs o files argv w acts s x nm f Q Hw H Ha A Hs Hu P Hx Hf Hex.
  pose proof (context_usable _ _ _ _ _ _ A Hs Hu) as U.
  destruct (program_cases _ _ _ _ _ _ _ _ _ H) as [(-> & _)|(-> & x' & A' & R)]; [now elim Ha|].
  assert (x' = x).
  { destruct A as (gs & G & Pr & C). destruct A' as (gs' & G' & Pr' & C'). assert (N : argv <> []).
    { intros ->. unfold program in H. cbn [read_argv] in H. discriminate. }
    assert (E1 : read_argv argv = Ok (Parsed (understood gs))) by (apply C90_exact; split; [exact N|exists gs; auto]).
    assert (E2 : read_argv argv = Ok (Parsed (understood gs'))) by (apply C90_exact; split; [exact N|exists gs'; auto]).
    assert (E3 : understood gs = understood gs') by congruence. rewrite E3 in C. congruence. }
  subst x'. destruct (execute o x true (cst0 w)) as [r s1] eqn:E.
  pose proof (out_closed _ _ _ _ _ _ _ E R) as O. destruct (run_spec _ _ _ _ _ _ _ E R) as [D _]. rewrite O.
  destruct r as [v|ex].
  - exact (C84_plain_partial o x nm f w v s1 Hw U P Hx Hf E).
  - assert (ex = AppExc 3000).
    { destruct (c_wr s1) as [[[] []]|]; try discriminate; cbn [documented_status] in D; destruct ex as [c| | | | | | | |]; try discriminate; destruct (Z.eqb_spec c 3000); congruence. }
    subst ex. destruct (execute_none o x w s1 Q Hw E) as [E0 N]. destruct (N nm f U Hx Hf) as [V|(i & t & st & en & g & F & C & V)].
    + exfalso. apply Exists_exists in Hex as (m & Hm & S). rewrite Forall_forall in V. exact (V m Hm S).
    + destruct P as (P1 & P2 & P3). destruct (C34_partial _ _ _ _ _ _ C) as (Q1 & Q2 & Q3 & Q4 & _). specialize (Q4 P2). subst g. cbn [used_range fst snd] in Q1, Q2, Q3.
      exists i, en. split; [exact F|]. split; [split; assumption|]. rewrite <- Q1. intro W. exfalso. destruct V as [V|[V _]]; [|congruence].
      apply Exists_exists in W as (m & Hm & S). rewrite Forall_forall in V. exact (V m Hm S).
Qed.

(** ** Refutation of the full statement: the correction reads the geopotential
    file with select_messages (correction.py:83-87), which raises the error for
    no messages when that file has none; the program then ends with status 0
    although fields were selected. With two grids part of the maps has already
    been written. *)
Definition ex_geo (f : gfile) : res messages :=
  match reader_new (Some f) false world0 with
  | (Ok r, w) => fst (select_messages [("shortName", SList (map JStr ["fis"; "z"; "FIS"; "orog"]))] r w)
  | (Raise e, _) => Raise e
  end.
Definition ex_corrected (f geo1 geo2 : gfile) : ext :=
  mkExt (fun _ => Some f) (fun _ _ => Ok tt) (fun _ => Some (fun v => v)) (fun _ second a => do _ <- ex_geo (if second then geo2 else geo1); Ok a)
    (fun _ => Ok tt) (Ok tt) (fun _ => Ok tt).
Definition ex_z : gfile := mkGfile true [ex_msg "z" 0 0 2 0 0 [nint 1; nint 2]].
Definition ex_files (aggr : list (string * json)) (p : string) : option json := if String.eqb p "t.json" then Some (ex_cmd [] [] aggr) else None.
Definition ex_argv : list string := ["-c"; "t.json"; "-i"; "in.grb"].
Definition shown (p : outcome * list action * cst) : outcome * list action * list (Z * Z) :=
  let '(out, acts, s) := p in (out, acts, map (fun w => (s_start (wn_step w), s_end (wn_step w))) (c_out s)).
Definition ex_aggr : list (string * json) := [("@step", JNum 12); ("@type", JStr "average")].
Lemma shown_eq p out acts l : shown p = (out, acts, l) -> exists s, p = (out, acts, s) /\ map (fun w => (s_start (wn_step w), s_end (wn_step w))) (c_out s) = l.
Proof. destruct p as [[o' a'] s]. cbn. intro H. exists s. split; congruence. Qed.
Lemma ex_shown : shown (program ex_env ex_fs (ex_corrected ex_two ex_z (mkGfile true [])) (ex_files ex_aggr) ex_argv world0) = (Exit 0, [Extraction], [(0, 12); (12, 24)]%Z) /\
  shown (program ex_env ex_fs (ex_corrected ex_two ex_z ex_z) (ex_files ex_aggr) ex_argv world0) = (Exit 0, [Extraction], [(0, 12); (12, 24); (24, 36); (36, 48)]%Z).
Proof. split; vm_compute; reflexivity. Qed.
Definition ex_refused (o : ext) (aggr : list (string * json)) : bool :=
  match read_argv ex_argv with
  | Ok (Parsed a) => match execution_context ex_env ex_fs a (command_file (ex_files aggr) a) with
                     | Ok x => match fst (execute o x true (cst0 world0)) with Ok _ => false | Raise _ => true end
                     | Raise _ => false end
  | _ => false
  end.
Lemma ex_partly : ex_refused (ex_corrected ex_two ex_z (mkGfile true [])) ex_aggr = true.
Proof. vm_compute. reflexivity. Qed.
Lemma asks_fun e fs files argv x a : read_argv argv = Ok (Parsed a) -> asks_for e fs files argv x -> execution_context e fs a (command_file files a) = Ok x.
Proof.
  intros R (gs & G & P & C). assert (N : argv <> []) by (intros ->; discriminate).
  assert (E : read_argv argv = Ok (Parsed (understood gs))) by (apply C90_exact; split; [exact N|exists gs; auto]). congruence.
Qed.
Lemma refused_not o aggr x s : ex_refused o aggr = true -> asks_for ex_env ex_fs (ex_files aggr) ex_argv x -> ~ all_written o x world0 s.
Proof.
  unfold ex_refused. destruct (read_argv ex_argv) as [[a|]|] eqn:R; try discriminate. intros H A (vals & m & ch & s1 & E & _).
  rewrite (asks_fun _ _ _ _ _ _ R A), E in H. discriminate.
Qed.
Lemma ex_world : good_world world0.
Proof. repeat constructor. Qed.
Theorem C93_refuted : ~ C93_full.
Proof.
  intro F. destruct (shown_eq _ _ _ _ (proj1 ex_shown)) as (s & E & O).
  destruct (F _ _ _ _ _ _ _ _ ex_world E) as [(_ & D & _)|(_ & x & A & [W|[W _]])]; [discriminate| |].
  - exact (refused_not _ _ _ _ ex_partly A W).
  - rewrite W in O. discriminate.
Qed.

(** status 0 does not mean either that no message of the file was asked for: the
    range of steps is looked for under the short name as it is given
    (context.py:170-178, grib.py:243-263), while the fields may also have
    the name in capitals or with var appended (context.py:145-150) *)
Definition C93_silent_full : Prop := forall e fs o files argv w acts s x nm f, quiet o -> good_world w ->
  program e fs o files argv w = (Exit 0, acts, s) -> asks_for e fs files argv x -> x_short x = JStr nm -> upper nm <> nm -> plain_request x ->
  xt_file o (x_input x) = Some f -> usable_file f ->
  (exists last m, In m (gf_msgs f) /\ wanted_message x nm (requested_or (x_tstart x) 0) last m /\ x_tend x = JNum last) -> c_out s <> [].
Definition ex_upper : gfile := mkGfile true [ex_msg "2T" 0 0 2 0 0 [nint 1; nint 2]].
Definition ex_argv_end : list string := ["-c"; "t.json"; "-i"; "in.grb"; "-e"; "12"].
Definition ex_asked (argv : list string) : res ctx :=
  match read_argv argv with
  | Ok (Parsed a) => execution_context ex_env ex_fs a (command_file (ex_files []) a)
  | _ => Raise OtherError
  end.
Lemma ex_asked_spec argv x : ex_asked argv = Ok x -> asks_for ex_env ex_fs (ex_files []) argv x.
Proof.
  unfold ex_asked. destruct (read_argv argv) as [[a|]|] eqn:R; try discriminate. intro H. apply C90_exact in R as (_ & gs & G & P & ->). exists gs. auto.
Qed.
Lemma ex_quiet f : quiet (ex_ext f).
Proof. unfold quiet, no3. cbn. repeat split; intros; discriminate. Qed.
Lemma ex_upper_shown : shown (program ex_env ex_fs (ex_ext (Some ex_upper)) (ex_files []) ex_argv_end world0) = (Exit 0, [Extraction], []).
Proof. vm_compute. reflexivity. Qed.
Definition ex_end_x : ctx := match ex_asked ex_argv_end with Ok x => x | Raise _ => ex_x "" JNull JNull false JNull "" end.
Lemma ex_end_ok : ex_asked ex_argv_end = Ok ex_end_x.
Proof. vm_compute. reflexivity. Qed.
Lemma ex_end_fields : x_short ex_end_x = JStr "2t" /\ x_tend ex_end_x = JNum 12 /\ x_tstart ex_end_x = JNull /\ x_member ex_end_x = JNull /\
  x_level ex_end_x = JNull /\ x_dataTime ex_end_x = JNull /\ x_dataDate ex_end_x = JNull /\ plain_request ex_end_x.
Proof. vm_compute. repeat split. Qed.
Lemma ex_end_wanted t : short_variant "2t" t -> wanted_message ex_end_x "2t" (requested_or (x_tstart ex_end_x) 0) 12 (ex_msg t 0 0 2 0 0 [nint 1; nint 2]).
Proof.
  destruct ex_end_fields as (_ & _ & Es & E1 & E2 & E3 & E4 & _). intro V. unfold wanted_message. rewrite Es, E1, E2, E3, E4.
  split; [exists t; split; [reflexivity|exact V]|]. do 4 (split; [now left|]). exists 0%Z, 0%Z. cbn. repeat split; lia.
Qed.
Theorem C93_silent_refuted : ~ C93_silent_full.
Proof.
  intro F. destruct (shown_eq _ _ _ _ ex_upper_shown) as (s & E & O). destruct ex_end_fields as (E0 & Ee & _ & _ & _ & _ & _ & P).
  refine (F _ _ _ _ _ _ _ _ ex_end_x "2t" ex_upper (ex_quiet _) ex_world E (ex_asked_spec _ _ ex_end_ok) E0 _ P eq_refl _ _ _).
  - discriminate.
  - file_ok.
  - exists 12%Z, (ex_msg "2T" 0 0 2 0 0 [nint 1; nint 2]). split; [now left|]. split; [|exact Ee]. apply ex_end_wanted. right. now left.
  - destruct (c_out s); [reflexivity|discriminate].
Qed.

(** the hypotheses are met *)
Definition C93_example : Prop :=
  let o := ex_ext (Some ex_uni) in
  quiet o /\ good_world world0 /\ usable_file ex_uni /\ Exists (same_variable ex_end_x "2t") (gf_msgs ex_uni) /\
  asks_for ex_env ex_fs (ex_files []) ex_argv_end ex_end_x /\ plain_request ex_end_x /\
  shown (program ex_env ex_fs o (ex_files []) ex_argv_end world0) = (Exit 0, [Extraction], [(0, 0); (6, 6); (12, 12)]%Z) /\
  shown (program ex_env ex_fs o (ex_files []) ["-h"] world0) = (Exit 0, [], []) /\
  shown (program ex_env ex_fs o (ex_files []) ["-c"; "t.json"; "--input=in.grb"] world0) = (Exit 1, [], []) /\
  shown (program ex_env ex_fs o (ex_files []) ["-c"; "u.json"; "-i"; "in.grb"] world0) = (Exit 1, [], []).
Example C93_nonvacuous : C93_example.
Proof.
  unfold C93_example. cbv zeta. split; [apply ex_quiet|]. split; [exact ex_world|]. split; [file_ok|]. split.
  - apply Exists_cons_hd. split; [reflexivity|]. rewrite (proj1 (proj2 (proj2 (proj2 ex_end_fields)))). now left.
  - split; [apply ex_asked_spec, ex_end_ok|]. split; [apply ex_end_fields|]. vm_compute. repeat split.
Qed.
Print Assumptions C93_zero_partial.
Print Assumptions C93_prefix.
Print Assumptions C93_plain_partial.
Print Assumptions C93_refuted.
Print Assumptions C93_silent_refuted.

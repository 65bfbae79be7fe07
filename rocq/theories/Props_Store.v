(** * Properties C24 (text) and C86-C89: files kept between runs
    (main/config.py, util/files.py). Vocabulary: Spec_Store.v. Proofs: Json_P.v,
    Store_P.v, Store_P2.v, Store_P3.v. *)
From Verif Require Import Base PyStr Writers Config Json Interp Store Spec_Config Spec_Store Base_P PyStr_P Config_P Config_P2 Json_P Store_P Store_P2 Store_P3.
From Coq Require Import Permutation Lia.
Local Open Scope string_scope.

(** ** C24 at the level of the text: dump, then load *)
(** every non-empty dictionary with distinct keys, of any depth, comes back with
    the same values; only the order of keys may change *)
Theorem C24_text : forall user, distinct_keys (JObj user) -> user <> [] ->
  exists d, loads (conf_text (JObj user)) = Some (JObj d) /\ jsame (JObj user) (JObj d) /\
    (forall k, osame (dget String.eqb d k) (dget String.eqb user k)) /\ (forall k, In k (map fst d) <-> In k (map fst user)).
Proof.
  intros user Hu Hne. apply distinct_jwf in Hu. destruct (dumped user Hu Hne) as [d [H1 [H2 [H3 H4]]]]. exists d. split; [exact H1|].
  assert (E : JObj d = jsort (JObj user)).
  { unfold conf_text in H1. destruct user as [|kv u]; [congruence|]. cbn [jtruthy] in H1. rewrite loads_dumps in H1 by exact Hu. congruence. }
  split; [rewrite E; apply jsame_jsort, Hu|]. split.
  - intro k. apply csame_osame.
    + intros x Hx. eapply dget_jwf; eassumption.
    + intros x Hx. eapply dget_jwf; [exact Hu|exact Hx].
    + rewrite H4. unfold csame. destruct (dget String.eqb user k) as [v|] eqn:Ev; [|reflexivity]. cbn [option_map].
      f_equal. apply jsort_idem. exact (dget_jwf user k v Hu Ev).
  - intro k. cbn [jsort] in E. assert (E2 : d = sort_str fst (map (fun kv => (fst kv, jsort (snd kv))) user)) by congruence. clear E.
    assert (P : Permutation (map fst d) (map fst user)).
    { rewrite E2. etransitivity; [apply Permutation_map, sort_str_perm|]. rewrite map_map. reflexivity. }
    split; apply Permutation_in; [exact P|symmetry; exact P].
Qed.
Print Assumptions C24_text.
(** the empty dictionary is written as a string and read back as one *)
Theorem C24_text_empty_refuted : ~ forall user, distinct_keys (JObj user) -> exists d, loads (conf_text (JObj user)) = Some (JObj d).
Proof. intro H. destruct (H []) as [d Hd]; [repeat constructor|]. vm_compute in Hd. discriminate. Qed.
Print Assumptions C24_text_empty_refuted.
(** a text that is cut anywhere before its end cannot be read, and neither can
    one that is followed by anything but blanks *)
Theorem C24_text_cut : forall j p t, distinct_keys j -> (forall z, j <> JNum z) -> t <> "" ->
  (p +++ t = conf_text j -> loads p = None) /\ (sforall is_ws t = false -> loads (conf_text j +++ t) = None).
Proof.
  intros j p t Hj Hnum Ht. apply distinct_jwf in Hj. unfold conf_text, dumps.
  set (j0 := if jtruthy j then j else JStr "{}").
  assert (H0 : jwf j0) by (unfold j0; destruct (jtruthy j); [exact Hj|exact I]).
  assert (H1 : is_num (jsort j0) = false).
  { unfold j0. destruct (jtruthy j); [|reflexivity]. destruct j; try reflexivity. now destruct (Hnum z). }
  split.
  - intro E. eapply cut_unreadable; [apply jwf_jsort, H0|exact H1|exact E|exact Ht].
  - intro Hw. apply tail_unreadable'; [apply jwf_jsort, H0|exact H1|]. unfold skip_ws. intro E.
    destruct (lstrip_spec is_ws t) as [a [E1 E2]]. rewrite E, sapp_nil_r in E1. subst. congruence.
Qed.
Print Assumptions C24_text_cut.
Example C24_text_nonvacuous :
  let user := [("tbl", JObj [("shape", JArr [JNum 3; JNum (-4)]); ("info", JStr ("a" +++ String quote (String (chr 10) "b")))]); ("description", JStr "d")] in
  distinct_keys (JObj user) /\ loads (conf_text (JObj user)) =
    Some (JObj [("description", JStr "d"); ("tbl", JObj [("info", JStr ("a" +++ String quote (String (chr 10) "b"))); ("shape", JArr [JNum 3; JNum (-4)])])]) /\
  loads (stake 100 (conf_text (JObj user))) = None /\ (100 < String.length (conf_text (JObj user)))%nat.
Proof.
  cbn zeta. split; [apply distinct_jwf; repeat split; repeat constructor; cbn; intuition discriminate|]. split; [vm_compute; reflexivity|].
  split; [vm_compute; reflexivity|]. apply Nat.ltb_lt. vm_compute. reflexivity.
Qed.

(** ** C87: a process that is killed *)
(** full statement: whenever processes are killed, the next one starts *)
Definition C87_full : Prop := forall init h, usual_init init -> Forall (fun s => Forall ordinary (fst s)) h ->
  exists u, conf_start (JObj init) (sessions (JObj init) None h) = Ok u.
Definition ex_init : list (string * json) := [("description", JStr "Config file for geopotentials. Do NOT edit this file!")].
Lemma ex_init_usual : usual_init ex_init.
Proof. split; [apply distinct_jwf; repeat split; repeat constructor; cbn; intuition discriminate|discriminate]. Qed.
(** killed after [open(.., 'w')]: the file is empty, and JSON_ERROR is raised by
    every later process *)
Theorem C87_killed_refuted : ~ C87_full.
Proof.
  intro H. destruct (H ex_init [([Put "id" (JStr "z.grb")], Some (1%nat, Written 0%nat))] ex_init_usual) as [u Hu].
  - constructor; [|constructor]. constructor; [|constructor]. split; [discriminate|constructor].
  - vm_compute in Hu. discriminate.
Qed.
Print Assumptions C87_killed_refuted.

(** killed at any other point: the next process starts, and finds every change
    whose dump was completed (all those of the processes that were not killed,
    a prefix of those of the others) *)
Theorem C87_partial : forall init h, usual_init init ->
  Forall (fun s => Forall ordinary (fst s) /\ match snd s with Some (_, Written _) => False | _ => True end) h ->
  exists dumped_changes,
    Forall2 (fun s pre => exists rest, fst s = (pre ++ rest)%list /\ (snd s = None -> rest = [])) h dumped_changes /\
    match sessions (JObj init) None h with
    | None => List.concat dumped_changes = []
    | Some text => holds text (fun k => last_value (dget String.eqb init k) (List.concat dumped_changes) k)
    end /\ exists u, conf_start (JObj init) (sessions (JObj init) None h) = Ok u.
Proof.
  intros init h [Hi1 Hi2] Hh. apply distinct_jwf in Hi1. assert (Hi : good init) by (split; assumption).
  destruct (sessions_inv init Hi h None [] Hh eq_refl) as [pres [P1 P2]]. exists pres. split; [exact P1|].
  cbn [app] in P2. destruct (sessions (JObj init) None h) as [t|]; cbn [fholds] in P2; [|split; [exact P2|eexists; reflexivity]].
  destruct P2 as [d [L [G K]]]. split.
  - exists d. split; [exact L|]. intro k. apply csame_osame; [| |apply K].
    + intros x Hx. eapply dget_jwf; [apply G|exact Hx].
    + assert (Hc : Forall ordinary (List.concat pres)).
      { clear -P1 Hh. induction P1 as [|s pre h pres [rest [E _]] P IH]; [constructor|]. inversion Hh as [|? ? [H1 _] H2]; subst.
        cbn [List.concat]. apply Forall_app. split; [|now apply IH]. rewrite E in H1. now apply Forall_app in H1 as [H1 _]. }
      assert (Ho : forall x, dget String.eqb init k = Some x -> jwf x) by (intros x Hx; eapply dget_jwf; [apply Hi|exact Hx]).
      clear -Hc Ho. revert Ho. generalize (dget String.eqb init k). induction Hc as [|[k' v|k'] cs Hv Hc IH]; intros o Ho; cbn [last_value]; [exact Ho| |]; apply IH.
      * destruct (String.eqb k' k); [|exact Ho]. intros x E. injection E as <-. apply distinct_jwf, Hv.
      * destruct (String.eqb k' k); [discriminate|exact Ho].
  - unfold conf_start. rewrite L. eexists. reflexivity.
Qed.
Print Assumptions C87_partial.

(** killed between opening and the end of writing: unless all of the text had
    been written, the file cannot be read *)
Theorem C87_killed_writing : forall init h cs i n file', usual_init init ->
  Forall (fun s => Forall ordinary (fst s) /\ match snd s with Some (_, Written _) => False | _ => True end) h -> Forall ordinary cs ->
  session (JObj init) (sessions (JObj init) None h) cs (Some (i, Written n)) = (file', Killed) ->
  exists text d, loads text = Some (JObj d) /\ file' = Some (stake n text) /\ ((String.length text <= n)%nat \/ loads (stake n text) = None).
Proof.
  intros init h cs i n file' [Hi1 Hi2] Hh Hc E. apply distinct_jwf in Hi1. assert (Hi : good init) by (split; assumption).
  destruct (sessions_inv init Hi h None [] Hh eq_refl) as [pres [_ P2]].
  destruct (session_torn init cs _ i n file' _ Hi Hc P2 E) as [d [G Ef]].
  destruct (dumped_good d G) as [d' [L _]]. exists (conf_text (JObj d)), d'. split; [exact L|]. split; [exact Ef|]. now apply conf_text_cut.
Qed.
Print Assumptions C87_killed_writing.
(** and it stays so: no process repairs it *)
Theorem C87_never_repaired : forall init text, loads text = None ->
  (forall cs kill, session init (Some text) cs kill = (Some text, Error (AppExc 8200))) /\
  (forall h, sessions init (Some text) h = Some text).
Proof.
  intros init text H. assert (G : forall cs kill, session init (Some text) cs kill = (Some text, Error (AppExc 8200))).
  { intros. unfold session, conf_start. rewrite H. reflexivity. }
  split; [exact G|]. intro h. unfold sessions. induction h as [|s h IH]; [reflexivity|]. cbn [fold_left]. rewrite G. exact IH.
Qed.
Print Assumptions C87_never_repaired.
Example C87_nonvacuous :
  let h := [([Put "a" (JStr "a.grb"); Put "b" (JStr "b.grb")], Some (2%nat, NotOpened)); ([Del "a"; Put "c" (JStr "c.grb")], None)] in
  Forall (fun s => Forall ordinary (fst s) /\ match snd s with Some (_, Written _) => False | _ => True end) h /\
  sessions (JObj ex_init) None h = Some (conf_text (JObj (ex_init ++ [("c", JStr "c.grb")]))) /\
  session (JObj ex_init) (sessions (JObj ex_init) None h) [Put "x" (JStr "y")] (Some (0%nat, Written 7%nat)) = (Some (stake 7 (conf_text (JObj ex_init))), Killed).
Proof.
  cbn zeta. split; [|split; vm_compute; reflexivity].
  constructor; [split; [|exact I]|constructor; [split; [|exact I]|constructor]].
  - constructor; [split; [discriminate|constructor]|constructor; [split; [discriminate|constructor]|constructor]].
  - constructor; [discriminate|constructor; [split; [discriminate|constructor]|constructor]].
Qed.

(** ** C88: processes that run at the same time *)
(** full statement: when processes start, change entries and dump in any
    interleaving, no process is disturbed, and in the end the file holds the last
    value of every key *)
Definition usual_file (text : string) (d : list (string * json)) : Prop :=
  loads text = Some (JObj d) /\ usual_init d.
Definition C88_full : Prop := forall init text d ws, usual_file text d -> Forall wordinary ws ->
  (forall a p c e, ws = (a ++ Updates p c :: e)%list -> exists a1 b, a = (a1 ++ Starts p :: b)%list /\ ~ In p (starters a1)) ->
  exists text', m_file (mrun init (fresh_machine text) (whole_schedule ws)) = Some text' /\
    holds text' (fun k => last_value (dget String.eqb d k) (updates ws) k).
Definition ex_text : string := conf_text (JObj ex_init).
Lemma ex_text_usual : usual_file ex_text ex_init.
Proof. split; [vm_compute; reflexivity|exact ex_init_usual]. Qed.
(** two processes each add an entry: the dump of the second one removes the
    entry of the first, even when no two steps of dumps are interleaved *)
Theorem C88_lost_refuted : ~ C88_full.
Proof.
  intro H. destruct (H (JObj ex_init) ex_text ex_init [Starts 1; Starts 2; Updates 1 (Put "a" (JStr "a.grb")); Updates 2 (Put "b" (JStr "b.grb"))]%nat ex_text_usual) as [t [E [d [L K]]]].
  - repeat constructor; discriminate.
  - intros a p c e E. destruct a as [|w0 [|w1 [|w2 [|w3 a]]]]; try discriminate; injection E; clear E; intros; subst.
    + exists [], [Starts 2]%nat. split; [reflexivity|intros []].
    + exists [Starts 1]%nat, [Updates 1%nat (Put "a" (JStr "a.grb"))]. split; [reflexivity|]. cbn. intros [H1|[]]. discriminate.
    + destruct a; discriminate.
  - vm_compute in E. injection E as <-. vm_compute in L. injection L as <-.
    specialize (K "a"). vm_compute in K. exact K.
Qed.
Print Assumptions C88_lost_refuted.
(** a process that starts while another one dumps fails with JSON_ERROR *)
Theorem C88_start_refuted : ~ forall init text d sched p, usual_file text d ->
  Forall (fun ev => match snd ev with Do c => ordinary c | _ => True end) sched ->
  forall e, m_procs (mrun init (fresh_machine text) sched) p <> Dead e.
Proof.
  intro H. apply (H (JObj ex_init) ex_text ex_init [(1, Begin); (1, Do (Put "a" (JStr "a.grb"))); (1, OpenW); (2, Begin)]%nat 2%nat ex_text_usual) with (e := AppExc 8200).
  - repeat constructor. discriminate.
  - vm_compute. reflexivity.
Qed.
Print Assumptions C88_start_refuted.
(** two dumps at the same time can leave a file that cannot be read *)
Theorem C88_overlap_refuted : ~ forall init text d sched, usual_file text d ->
  Forall (fun ev => match snd ev with Do c => ordinary c | _ => True end) sched ->
  (forall p, match m_procs (mrun init (fresh_machine text) sched) p with Idle | Ready _ => True | _ => False end) ->
  forall t, m_file (mrun init (fresh_machine text) sched) = Some t -> loads t <> None.
Proof.
  intro H. refine (H (JObj ex_init) ex_text ex_init
    [(1, Begin); (2, Begin); (1, Do (Put "a" (JStr "a_long_name.grb"))); (2, Do (Put "b" (JStr "b.grb"))); (1, OpenW); (2, OpenW); (1, WriteW); (2, WriteW)]%nat ex_text_usual _ _ _ eq_refl _).
  - repeat constructor; discriminate.
  - intros [|[|[|p]]]; exact I.
  - vm_compute. reflexivity.
Qed.
Print Assumptions C88_overlap_refuted.

(** proved: if steps of dumps are not interleaved, the file is what the last
    process to dump had read when it started, with its own changes *)
Theorem C88_last_writer : forall init text d a p b c e, usual_file text d -> ~ In p (starters a) ->
  Forall wordinary (a ++ Starts p :: b ++ Updates p c :: e) -> updates e = [] ->
  exists text1 d1 text2,
    m_file (mrun init (fresh_machine text) (whole_schedule a)) = Some text1 /\ loads text1 = Some (JObj d1) /\
    m_file (mrun init (fresh_machine text) (whole_schedule (a ++ Starts p :: b ++ Updates p c :: e))) = Some text2 /\
    holds text2 (fun k => last_value (dget String.eqb d1 k) (updates_of p b ++ [c]) k).
Proof.
  intros init text d a p b c e [Hl [Hd1 Hd2]] Hp Hw He. apply distinct_jwf in Hd1.
  destruct (last_writer init text d a p b c e Hl (conj Hd1 Hd2) Hp Hw He) as [t1 [d1 [t2 [d2 [F1 [L1 [G1 [F2 [L2 [G2 K]]]]]]]]]].
  exists t1, d1, t2. split; [exact F1|]. split; [exact L1|]. split; [exact F2|]. exists d2. split; [exact L2|].
  intro k. apply csame_osame; [| |apply K].
  - intros x Hx. eapply dget_jwf; [apply G2|exact Hx].
  - apply last_value_jwf; [|intros x Hx; eapply dget_jwf; [apply G1|exact Hx]].
    apply Forall_app in Hw as [_ Hw]. inversion Hw as [|? ? _ Hw']; subst. apply Forall_app in Hw' as [Hb Hw']. inversion Hw'; subst.
    apply Forall_app. split; [|now repeat constructor]. clear -Hb. induction Hb as [|[q|q x] b H Hb IH]; cbn [updates_of]; [constructor|exact IH|].
    destruct (Nat.eqb q p); [constructor; [exact H|exact IH]|exact IH].
Qed.
Print Assumptions C88_last_writer.
(** proved: nothing is lost if, moreover, no other process dumps between the
    start of a process and its last dump *)
Theorem C88_serial_partial : forall init text d ws, usual_file text d -> Forall wordinary ws ->
  (forall a p c e, ws = (a ++ Updates p c :: e)%list ->
     exists a1 b, a = (a1 ++ Starts p :: b)%list /\ ~ In p (starters a1) /\
       Forall (fun w => match w with Starts _ => True | Updates q _ => q = p end) b) ->
  exists text', m_file (mrun init (fresh_machine text) (whole_schedule ws)) = Some text' /\
    holds text' (fun k => last_value (dget String.eqb d k) (updates ws) k).
Proof.
  intros init text d ws [Hl [Hd1 Hd2]] Hw Hu. apply distinct_jwf in Hd1.
  destruct (serial init text d Hl (conj Hd1 Hd2) (List.length ws) ws (le_n _) Hw Hu) as [t [d' [F [L [G K]]]]].
  exists t. split; [exact F|]. exists d'. split; [exact L|]. intro k. apply csame_osame; [| |apply K].
  - intros x Hx. eapply dget_jwf; [apply G|exact Hx].
  - apply last_value_jwf; [|intros x Hx; eapply dget_jwf; [exact Hd1|exact Hx]].
    clear -Hw. induction Hw as [|[q|q x] b H Hb IH]; cbn [updates]; [constructor|exact IH|constructor; [exact H|exact IH]].
Qed.
Print Assumptions C88_serial_partial.
Example C88_nonvacuous :
  let ws := [Starts 1; Updates 1 (Put "a" (JStr "a.grb")); Starts 2; Updates 2 (Put "b" (JStr "b.grb")); Updates 2 (Del "a")]%nat in
  undisturbed ws /\ Forall wordinary ws /\
  m_file (mrun (JObj ex_init) (fresh_machine ex_text) (whole_schedule ws)) = Some (conf_text (JObj (ex_init ++ [("b", JStr "b.grb")]))).
Proof.
  cbn zeta. split; [|split; [repeat constructor; discriminate|vm_compute; reflexivity]].
  intros a p c e E. destruct a as [|w0 [|w1 [|w2 [|w3 [|w4 a]]]]]; try discriminate; injection E; clear E; intros; subst.
  - exists [], []. split; [reflexivity|]. split; [intros []|constructor].
  - exists [Starts 1; Updates 1 (Put "a" (JStr "a.grb"))]%nat, []. split; [reflexivity|]. split; [|constructor]. cbn. intros [H|[]]. discriminate.
  - exists [Starts 1; Updates 1 (Put "a" (JStr "a.grb"))]%nat, [Updates 2%nat (Put "b" (JStr "b.grb"))]. split; [reflexivity|]. split; [|repeat constructor].
    cbn. intros [H|[]]. discriminate.
  - destruct a; discriminate.
Qed.

(** ** C86: download of data *)
(** full statement: after any history of attempts, an attempt that ends without
    an error leaves every remote file complete in the user's folder, unless the
    user had a file of that name before *)
Definition C86_full : Prop := forall e dataset dir r fs h,
  local_dir e dataset = Some dir -> dir <> "" -> remote_of e dataset r -> Forall (fun f => plain_name f /\ f <> "") (r_names r) ->
  snd (download_data e dataset None (downloads e dataset fs h)) = Ok tt ->
  forall f text, wanted r f -> r_content r f = Some text -> dget String.eqb fs (path_join dir f) = None ->
  dget String.eqb (fst (download_data e dataset None (downloads e dataset fs h))) (path_join dir f) = Some text.
Definition ex_remote : remote := {| r_names := ["."; ".."; "readme.txt"; "tbl_1.npy.gz"; "tbl_2.npy.gz"];
  r_content := fun f => if String.eqb f "tbl_1.npy.gz" then Some "first table" else if String.eqb f "tbl_2.npy.gz" then Some "second table" else None |}.
Definition ex_dl : download_env := {| dl_geopotentials := None; dl_intertables := Some "/home/u/tables"; dl_folder := Some "/pyg2p";
  dl_remote := fun p => if String.eqb p "/pyg2p/intertables" then Some ex_remote else None; dl_open := fun _ => None |}.
Lemma ex_plain : Forall (fun f => plain_name f /\ f <> "") (r_names ex_remote).
Proof. cbn. repeat constructor; discriminate. Qed.
Lemma ex_remote_of : remote_of ex_dl "intertables" ex_remote.
Proof. exists "/pyg2p". split; reflexivity. Qed.
(** a file that was being fetched when an attempt was interrupted exists, so
    that every later attempt skips it *)
Theorem C86_interrupted_refuted : ~ C86_full.
Proof.
  intro H. specialize (H ex_dl "intertables" "/home/u/tables" ex_remote [] [Some (Cut 3 (Written 5))] eq_refl).
  specialize (H ltac:(discriminate) ex_remote_of ex_plain eq_refl "tbl_1.npy.gz" "first table").
  specialize (H ltac:(split; [cbn; tauto|cbn; intuition discriminate]) eq_refl eq_refl). vm_compute in H. discriminate.
Qed.
Print Assumptions C86_interrupted_refuted.
(** proved: an attempt that ends without an error fetches the whole of every
    wanted file that was not there, and changes nothing else *)
Theorem C86_attempt : forall e dataset dir r c fs fs',
  local_dir e dataset = Some dir -> dir <> "" -> remote_of e dataset r -> Forall (fun f => plain_name f /\ f <> "") (r_names r) ->
  download_data e dataset c fs = (fs', Ok tt) ->
  (forall p x, dget String.eqb fs p = Some x -> dget String.eqb fs' p = Some x) /\
  (forall f, wanted r f -> dget String.eqb fs (path_join dir f) = None ->
     exists text, r_content r f = Some text /\ dget String.eqb fs' (path_join dir f) = Some text) /\
  (forall p, (forall f, wanted r f -> p <> path_join dir f) -> dget String.eqb fs' p = dget String.eqb fs p).
Proof.
  intros e dataset dir r c fs fs' Hl Hd Hr Hn E. rewrite (download_eq e dataset dir r c fs Hl Hr) in E.
  destruct (fetch_all_inv e r dir (r_names r) c fs) as [bad [H1 [H2 H3]]]. rewrite E in *. cbn [fst snd failures] in *.
  destruct bad; [|cbn in H1; lia]. split; [|split].
  - intros p x Hx. eapply stored_kept; eauto.
  - intros f [Hf Hnd] Hnone. apply no_data_spec in Hnd. specialize (H3 eq_refl f Hf Hnd).
    destruct (H2 (path_join dir f)) as [K|[_ [g [x [Kg [Kn [Kp [Kx Kc]]]]]]]].
    + unfold dmem in H3. rewrite K, Hnone in H3. discriminate.
    + rewrite Forall_forall in Hn. destruct (Hn f Hf) as [Pf Nf]. destruct (Hn g Kg) as [Pg Ng].
      assert (f = g) by (eapply path_join_base_inj with (a := dir) (b := dir); eauto). subst g.
      destruct (r_content r f) as [text|]; [|destruct Kc as [_ []]]. destruct Kc as [_ [[]|Kc]]. subst. eauto.
  - intros p Hp. destruct (H2 p) as [K|[_ [g [x [Kg [Kn [Kp _]]]]]]]; [exact K|]. exfalso. apply (Hp g); [|exact Kp].
    split; [exact Kg|]. now apply no_data_spec.
Qed.
Print Assumptions C86_attempt.
(** proved: after any history every file that was there is unchanged, every new
    file holds a prefix of the remote one, and all but at most one for each
    failed attempt are complete *)
Theorem C86_history_partial : forall e dataset dir r fs h,
  local_dir e dataset = Some dir -> remote_of e dataset r ->
  (forall p x, dget String.eqb fs p = Some x -> dget String.eqb (downloads e dataset fs h) p = Some x) /\
  exists incomplete, (List.length incomplete <= failed e dataset fs h)%nat /\
    forall p x, dget String.eqb fs p = None -> dget String.eqb (downloads e dataset fs h) p = Some x ->
      exists f, wanted r f /\ p = path_join dir f /\
        match r_content r f with
        | Some text => prefix_of x text /\ (x = text \/ In p incomplete)
        | None => x = "" /\ In p incomplete
        end.
Proof.
  intros e dataset dir r fs h Hl Hr. destruct (downloads_inv e dataset dir r Hl Hr h fs) as [bad [H1 H2]]. split.
  - intros p x Hx. eapply stored_kept; eauto.
  - exists bad. split; [exact H1|]. intros p x Hn Hx. destruct (H2 p) as [K|[_ [f [y [Kf [Kn [Kp [Ky Kc]]]]]]]]; [congruence|].
    assert (y = x) by congruence. subst y. exists f. split; [split; [exact Kf|now apply no_data_spec]|]. split; [exact Kp|].
    destruct (r_content r f); destruct Kc as [C1 C2]; (split; [exact C1|]); [destruct C2; auto|exact C2].
Qed.
Print Assumptions C86_history_partial.
(** errors: another name of data set, and no folder defined by the user *)
Theorem C86_refused : forall e dataset c fs,
  (dataset <> "geopotentials" -> dataset <> "intertables" -> download_data e dataset c fs = (fs, Raise AttributeError)) /\
  (forall r, (dataset = "geopotentials" /\ dl_geopotentials e = None \/ dataset = "intertables" /\ dl_intertables e = None) ->
     remote_of e dataset r -> (exists f, wanted r f) -> fst (download_data e dataset None fs) = fs /\ snd (download_data e dataset None fs) = Raise TypeError).
Proof.
  intros e dataset c fs. split.
  - intros H1 H2. unfold download_data. destruct (String.eqb_spec dataset "geopotentials"); [contradiction|].
    destruct (String.eqb_spec dataset "intertables"); [contradiction|]. reflexivity.
  - intros r Hd [folder [E1 E2]] [f [Hf Hn]]. apply no_data_spec in Hn.
    assert (E : download_data e dataset None fs = fetch_all e r None None fs (r_names r)).
    { unfold download_data. destruct Hd as [[-> E]|[-> E]]; cbn [String.eqb Ascii.eqb Bool.eqb]; rewrite E, E1, E2; reflexivity. }
    rewrite E. clear E E1 E2 Hd. induction (r_names r) as [|g names IH]; [contradiction|]. cbn [fetch_all]. unfold fetch.
    destruct (no_data g) eqn:Eg; [|split; reflexivity]. destruct Hf as [->|Hf]; [congruence|]. exact (IH Hf).
Qed.
Print Assumptions C86_refused.
Example C86_nonvacuous :
  downloads ex_dl "intertables" [] [Some (Cut 4 (Written 6)); None] = [("/home/u/tables/tbl_1.npy.gz", "first table"); ("/home/u/tables/tbl_2.npy.gz", "second")] /\
  failed ex_dl "intertables" [] [Some (Cut 4 (Written 6)); None] = 1%nat /\
  download_data ex_dl "intertables" None [] = ([("/home/u/tables/tbl_1.npy.gz", "first table"); ("/home/u/tables/tbl_2.npy.gz", "second table")], Ok tt) /\
  download_data ex_dl "geopotentials" None [] = ([], Raise OtherError).
Proof. repeat split; vm_compute; reflexivity. Qed.

(** * Properties C61-C63 (util/strings.py, util/files.py, main/api.py) and C65
    (exceptions.py). Vocabulary: Spec_Strings.v. Proofs: Strings_P.v. *)
From Verif Require Import Base PyStr Strings Spec_Strings Exceptions Base_P PyStr_P Strings_P.
Local Open Scope string_scope.

(** ** C61: the API command builder *)
Theorem C61_order_irrelevant : forall d c1 c2, NoDup (map fst d) ->
  (forall o, last_setting c1 o = last_setting c2 o) ->
  cmd_str (cmd_calls d c1) = cmd_str (cmd_calls d c2).
Proof. exact order_irrelevant. Qed.
Print Assumptions C61_order_irrelevant.
(** a command given as option/value pairs, then any sequence of with_ calls:
    the argument vector consists exactly of the last settings *)
Theorem C61_argv_partial : forall ps calls, ps <> [] -> Forall pair_ok ps ->
  (forall o v, In (o, v) calls -> word o /\ (v = "" \/ word v)) ->
  exists d l, cmd_init (Some ("pyg2p " +++ join " " (flat ps))) [] = Ok d /\
    cmd_argv (cmd_calls d calls) = Ok (tokens l) /\ NoDup (map fst l) /\
    (forall o v, In (o, v) l <-> last_setting (("-l", "ERROR") :: ps ++ calls) o = Some v).
Proof. exact command_line_argv. Qed.
Print Assumptions C61_argv_partial.
(** full statement: an option that precedes its value on the command line
    still precedes it when the same line is run through the API *)
Definition C61_full : Prop := forall line argv0 d argv,
  to_argv line = Ok argv0 -> NoDup argv0 ->
  cmd_init (Some ("pyg2p " +++ line)) [] = Ok d -> cmd_argv d = Ok argv ->
  forall o v, starts_with "-" o = true -> starts_with "-" v = false -> followed_by argv0 o v -> followed_by argv o v.
(** a flag without value in front of another option breaks the pairing *)
Theorem C61_flag_refuted : ~ C61_full.
Proof.
  intro H. specialize (H "-B -i rain.grb" ["-B"; "-i"; "rain.grb"] [("-B", "-i"); ("rain.grb", "-A"); ("-l", "ERROR")] ["-B"; "-i"; "-l"; "ERROR"; "rain.grb"; "-A"] eq_refl).
  assert (Hn : NoDup ["-B"; "-i"; "rain.grb"]) by (repeat constructor; cbn; intuition discriminate).
  specialize (H Hn eq_refl eq_refl "-i" "rain.grb" eq_refl eq_refl).
  destruct H as [p [q E]]; [exists ["-B"], []; reflexivity|].
  repeat (destruct p as [|? p]; cbn [app] in E; [congruence|]; try discriminate; injection E as _ E).
Qed.
Print Assumptions C61_flag_refuted.
(** the under-API flag "-A" appended by the constructor never reaches the
    argument vector of a command made of option/value pairs *)
Theorem C61_api_flag_refuted : ~ (forall ps d argv, ps <> [] -> Forall pair_ok ps ->
  cmd_init (Some ("pyg2p " +++ join " " (flat ps))) [] = Ok d -> cmd_argv d = Ok argv -> In "-A" argv).
Proof.
  intro H. assert (Hin : In "-A" ["-c"; "a.json"; "-l"; "ERROR"]).
  { eapply (H [("-c", "a.json")]); [discriminate| |reflexivity|reflexivity].
    constructor; [|constructor]. repeat split; try discriminate. }
  cbn in Hin. intuition discriminate.
Qed.
Print Assumptions C61_api_flag_refuted.
Example C61_nonvacuous : exists d,
  cmd_init (Some "pyg2p -c a.json -i b.grb") [] = Ok d /\
  cmd_argv (cmd_calls d [("-o", "out"); ("-B", ""); ("-i", "c.grb")]) = Ok ["-B"; "-c"; "a.json"; "-i"; "c.grb"; "-l"; "ERROR"; "-o"; "out"]
  /\ Forall pair_ok [("-c", "a.json"); ("-i", "b.grb")].
Proof.
  eexists. split; [reflexivity|]. split; [reflexivity|]. repeat constructor; discriminate.
Qed.

(** ** C62: normalised names *)
Definition C62_full : Prop := forall name, (String.length (normalize_filename name) <= 10)%nat.
Theorem C62_long_name_refuted : ~ C62_full.
Proof. intro H. specialize (H "a_____________b.map"). vm_compute in H. lia. Qed.
Print Assumptions C62_long_name_refuted.
(** either at most 10 clean characters, or (fewer than 3 characters would
    remain) the whole name with its dots replaced *)
Theorem C62_normalized : forall name,
  ((String.length (normalize_filename name) <= 10)%nat /\ (3 <= String.length (normalize_filename name))%nat /\
   sforall (fun c => negb (is_upper c) && negb (Ascii.eqb "." c) && negb (Ascii.eqb "-" c) && negb (Ascii.eqb "_" c))%bool
     (normalize_filename name) = true)
  \/ normalize_filename name = smap (fun a => if Ascii.eqb "." a then "_"%char else a) name.
Proof.
  intro name. destruct (normalize_cases name) as [[s [E [Hl Hc]]]|E]; [left|right; exact E].
  rewrite E. rewrite stake_length. split; [lia|]. split; [lia|]. apply sforall_stake. exact Hc.
Qed.
Print Assumptions C62_normalized.
Example C62_nonvacuous : normalize_filename "Lat-20151225_ABCDEFGHIJK.map" = "latabcdefg".
Proof. reflexivity. Qed.

(** ** C63: boolean options *)
Theorem C63_boolean : to_boolean PNone = Ok false /\
  (forall b, to_boolean (PBool b) = Ok b) /\
  (forall c s, exists b, to_boolean (PStr (String c s)) = Ok b /\
     (b = true <-> In c ["T"%char; "t"%char; "Y"%char; "y"%char])) /\
  to_boolean (PStr "") = Raise IndexError.
Proof.
  split; [reflexivity|]. split; [reflexivity|]. split; [|reflexivity]. intros c s. eexists. split; [reflexivity|].
  destruct c as [b0 b1 b2 b3 b4 b5 b6 b7]. cbn [In].
  destruct b0, b1, b2, b3, b4, b5, b6, b7; cbv; split; intro H; try discriminate; intuition discriminate.
Qed.
Print Assumptions C63_boolean.
Theorem C63_empty_string_refuted : ~ (forall x, exists b, to_boolean x = Ok b).
Proof. intro H. destruct (H (PStr "")) as [b E]. discriminate. Qed.
Print Assumptions C63_empty_string_refuted.

(** ** C65: application errors *)
Theorem C65_every_raised_code_is_defined : forall c details, In c raised_codes \/ In c (map snd error_names) ->
  exists m, get_exc c details = Ok (c, m).
Proof.
  intros c details H.
  assert (Hd : forallb (fun c => dmem Z.eqb error_messages c) (raised_codes ++ map snd error_names) = true) by (vm_compute; reflexivity).
  rewrite forallb_forall in Hd. assert (Hi : In c (raised_codes ++ map snd error_names)) by (apply in_or_app; exact H).
  specialize (Hd c Hi). unfold dmem in Hd. unfold get_exc, dgetx. destruct (dget Z.eqb error_messages c); [|discriminate].
  eexists. reflexivity.
Qed.
Print Assumptions C65_every_raised_code_is_defined.
Theorem C65_unknown_code : forall c details, ~ In c (map fst message_entries) -> get_exc c details = Raise KeyError.
Proof.
  intros c details H. unfold get_exc, dgetx. replace (dget Z.eqb error_messages c) with (@None string); [reflexivity|].
  symmetry. apply (dget_None Z.eqb Zeqb_spec'). intro Hi. apply H. revert Hi. vm_compute. tauto.
Qed.
Print Assumptions C65_unknown_code.
(** all the names have distinct codes, except for one pair *)
Theorem C65_distinct : forall n1 n2 c, In (n1, c) error_names -> In (n2, c) error_names -> n1 <> n2 -> c = 8600%Z.
Proof.
  intros n1 n2 c H1 H2 Hn.
  assert (Hd : forallb (fun p => forallb (fun q => (negb (Z.eqb (snd p) (snd q)) || String.eqb (fst p) (fst q) || Z.eqb (snd p) 8600)%bool) error_names) error_names = true)
    by (vm_compute; reflexivity).
  rewrite forallb_forall in Hd. specialize (Hd _ H1). cbv beta in Hd. rewrite forallb_forall in Hd. specialize (Hd _ H2). cbn [fst snd] in Hd.
  rewrite Z.eqb_refl in Hd. cbn [negb orb] in Hd. apply orb_true_iff in Hd as [Hd|Hd].
  - apply String.eqb_eq in Hd. congruence.
  - apply Z.eqb_eq in Hd. exact Hd.
Qed.
Print Assumptions C65_distinct.
Theorem C65_distinct_refuted : ~ (forall n1 n2 c, In (n1, c) error_names -> In (n2, c) error_names -> n1 = n2).
Proof.
  intro H. specialize (H "NO_READ_PERMISSIONS" "NOT_EXISTING_PATH" 8600%Z).
  assert (E : "NO_READ_PERMISSIONS" = "NOT_EXISTING_PATH") by (apply H; cbn; tauto). discriminate.
Qed.
Print Assumptions C65_distinct_refuted.

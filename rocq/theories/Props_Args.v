(** * Property C90: the command line (main/context.py:217-316 with argparse).
    Vocabulary: Spec_Args.v. Proofs: Args_P.v, Args_P2.v, Args_P3.v. *)
From Verif Require Import Base PyStr Strings Config Context Args Spec_Args PyStr_P Base_P Args_P Args_P2 Args_P3.
Local Open Scope string_scope.

Lemma assign_other gs : forall ns k, Forall shaped gs -> (forall o, In o table -> dest o = k -> last_given (o_short o) gs = None) ->
  dget String.eqb (fold_left assign gs ns) k = dget String.eqb ns k.
Proof.
  induction gs as [|[o v] gs IH]; intros ns k S H; [reflexivity|]. inversion S; subst. cbn [fold_left].
  assert (Hi : In o table) by (destruct H2 as [[A _]|[A _]]; cbn [fst] in A; [now apply switch_in in A|now apply valued_in in A]).
  rewrite IH; auto.
  - unfold assign. cbn [fst snd]. rewrite (dget_dset String.eqb String_eqb_spec'). destruct (String.eqb_spec k (dest o)) as [-> |]; [|reflexivity].
    exfalso. specialize (H o Hi eq_refl). cbn [last_given] in H. destruct (last_given (o_short o) gs); [discriminate|]. rewrite String.eqb_refl in H. discriminate.
  - intros o' I E. specialize (H o' I E). cbn [last_given] in H. destruct (last_given (o_short o') gs); [discriminate|reflexivity].
Qed.
Definition val_of (o : opt) (v : option string) : val :=
  match o_kind o, v with
  | OText _, Some s => VText s
  | OInt _, Some s => VInt (match py_int s with Some z => z | None => 0%Z end)
  | _, _ => VTrue
  end.
Lemma assign_last gs : forall ns o, Forall shaped gs -> In o table -> forall v, last_given (o_short o) gs = Some v ->
  dget String.eqb (fold_left assign gs ns) (dest o) = Some (val_of o v).
Proof.
  induction gs as [|[o' v'] gs IH]; intros ns o S Hi v L; [discriminate|]. inversion S; subst. cbn [last_given] in L. cbn [fold_left].
  assert (Hi' : In o' table) by (destruct H1 as [[A _]|[A _]]; cbn [fst] in A; [now apply switch_in in A|now apply valued_in in A]).
  destruct (last_given (o_short o) gs) as [w|] eqn:E; [injection L as <-; now apply IH|].
  destruct (String.eqb_spec (o_short o') (o_short o)) as [Eo|]; [|discriminate]. injection L as <-. apply short_inj in Eo; auto. subst o'.
  rewrite assign_other; auto.
  - unfold assign. cbn [fst snd]. rewrite (dget_dset String.eqb String_eqb_spec'), String.eqb_refl. reflexivity.
  - intros o2 I2 E2. apply dest_inj in E2; auto. now subst.
Qed.
Lemma last_given_in gs short v : last_given short gs = Some v -> exists o, In (o, v) gs /\ o_short o = short.
Proof.
  induction gs as [|[o w] gs IH]; cbn [last_given]; [discriminate|]. destruct (last_given short gs) as [u|].
  - intros [= <-]. destruct (IH eq_refl) as (o' & A & B). exists o'. split; [now right|auto].
  - destruct (String.eqb_spec (o_short o) short); [|discriminate]. intros [= <-]. exists o. split; [now left|auto].
Qed.
Lemma shaped_table g : shaped g -> In (fst g) table.
Proof. intros [[A _]|[A _]]; [now apply switch_in in A|now apply valued_in in A]. Qed.

Lemma read_text gs o ch : Forall shaped gs -> Forall proper gs -> In o table -> o_kind o = OText ch ->
  text_of (fold_left assign gs []) (dest o) = text_given gs (o_short o).
Proof.
  intros S P Hi K. unfold text_of, text_given. destruct (last_given (o_short o) gs) as [v|] eqn:L.
  - rewrite (assign_last gs [] o S Hi v L). unfold val_of. rewrite K. now destruct v.
  - rewrite assign_other; auto. intros o' I' E. apply dest_inj in E; auto. now subst.
Qed.
Lemma read_int gs o ch : Forall shaped gs -> Forall proper gs -> In o table -> o_kind o = OInt ch ->
  int_of (fold_left assign gs []) (dest o) = int_given gs (o_short o).
Proof.
  intros S P Hi K. unfold int_of, int_given. destruct (last_given (o_short o) gs) as [v|] eqn:L.
  - rewrite (assign_last gs [] o S Hi v L). unfold val_of. rewrite K. destruct (last_given_in _ _ _ L) as (o' & I & E).
    rewrite Forall_forall in S, P. pose proof (shaped_table _ (S _ I)) as T. cbn [fst] in T. apply short_inj in E; auto. subst o'.
    specialize (P _ I). unfold proper in P. cbn [fst snd] in P. rewrite K in P. destruct v as [s|]; [|contradiction]. destruct P as (z & -> & _). reflexivity.
  - rewrite assign_other; auto. intros o' I' E. apply dest_inj in E; auto. now subst.
Qed.
Lemma read_flag gs o : Forall shaped gs -> Forall proper gs -> In o table -> o_kind o = OFlag ->
  flag_of (fold_left assign gs []) (dest o) = is_given gs (o_short o).
Proof.
  intros S P Hi K. unfold flag_of, is_given. destruct (last_given (o_short o) gs) as [v|] eqn:L.
  - rewrite (assign_last gs [] o S Hi v L). unfold val_of. now rewrite K.
  - rewrite assign_other; auto. intros o' I' E. apply dest_inj in E; auto. now subst.
Qed.
Lemma row_in n o : nth_error table n = Some o -> In o table. Proof. apply nth_error_In. Qed.
Lemma cli_understood gs : Forall shaped gs -> Forall proper gs -> cli_of (fold_left assign gs []) = understood gs.
Proof.
  intros S P. unfold cli_of, understood. revert S P. 
  set (ns := fold_left assign gs []). intros S P.
  assert (E1 : text_of ns "commandsFile" = text_given gs "-c") by exact (read_text gs (mkOpt "-c" "--commandsFile" (OText [])) [] S P (row_in 1%nat (mkOpt "-c" "--commandsFile" (OText [])) eq_refl) eq_refl).
  assert (E2 : text_of ns "outDir" = text_given gs "-o") by exact (read_text gs (mkOpt "-o" "--outDir" (OText [])) [] S P (row_in 2%nat (mkOpt "-o" "--outDir" (OText [])) eq_refl) eq_refl).
  assert (E3 : text_of ns "inputFile" = text_given gs "-i") by exact (read_text gs (mkOpt "-i" "--inputFile" (OText [])) [] S P (row_in 3%nat (mkOpt "-i" "--inputFile" (OText [])) eq_refl) eq_refl).
  assert (E4 : text_of ns "inputFile2" = text_given gs "-I") by exact (read_text gs (mkOpt "-I" "--inputFile2" (OText [])) [] S P (row_in 4%nat (mkOpt "-I" "--inputFile2" (OText [])) eq_refl) eq_refl).
  assert (E5 : int_of ns "start" = int_given gs "-s") by exact (read_int gs (mkOpt "-s" "--start" (OInt [])) [] S P (row_in 5%nat (mkOpt "-s" "--start" (OInt [])) eq_refl) eq_refl).
  assert (E6 : int_of ns "end" = int_given gs "-e") by exact (read_int gs (mkOpt "-e" "--end" (OInt [])) [] S P (row_in 6%nat (mkOpt "-e" "--end" (OInt [])) eq_refl) eq_refl).
  assert (E7 : int_of ns "perturbationNumber" = int_given gs "-m") by exact (read_int gs (mkOpt "-m" "--perturbationNumber" (OInt [])) [] S P (row_in 7%nat (mkOpt "-m" "--perturbationNumber" (OInt [])) eq_refl) eq_refl).
  assert (E8 : int_of ns "dataTime" = int_given gs "-T") by exact (read_int gs (mkOpt "-T" "--dataTime" (OInt [0; 1200]%Z)) [0; 1200]%Z S P (row_in 8%nat (mkOpt "-T" "--dataTime" (OInt [0; 1200]%Z)) eq_refl) eq_refl).
  assert (E9 : int_of ns "dataDate" = int_given gs "-D") by exact (read_int gs (mkOpt "-D" "--dataDate" (OInt [])) [] S P (row_in 9%nat (mkOpt "-D" "--dataDate" (OInt [])) eq_refl) eq_refl).
  assert (E10 : int_of ns "fmap" = int_given gs "-f") by exact (read_int gs (mkOpt "-f" "--fmap" (OInt [])) [] S P (row_in 10%nat (mkOpt "-f" "--fmap" (OInt [])) eq_refl) eq_refl).
  assert (E11 : text_of ns "format" = text_given gs "-F") by exact (read_text gs (mkOpt "-F" "--format" (OText ["netcdf"; "pcraster"; "notset"])) ["netcdf"; "pcraster"; "notset"] S P (row_in 11%nat (mkOpt "-F" "--format" (OText ["netcdf"; "pcraster"; "notset"])) eq_refl) eq_refl).
  assert (E12 : int_of ns "ext" = int_given gs "-x") by exact (read_int gs (mkOpt "-x" "--ext" (OInt [])) [] S P (row_in 12%nat (mkOpt "-x" "--ext" (OInt [])) eq_refl) eq_refl).
  assert (E13 : text_of ns "namePrefix" = text_given gs "-n") by exact (read_text gs (mkOpt "-n" "--namePrefix" (OText [])) [] S P (row_in 13%nat (mkOpt "-n" "--namePrefix" (OText [])) eq_refl) eq_refl).
  assert (E14 : text_of ns "offset" = text_given gs "-O") by exact (read_text gs (mkOpt "-O" "--offset" (OText [])) [] S P (row_in 14%nat (mkOpt "-O" "--offset" (OText [])) eq_refl) eq_refl).
  assert (E15 : text_of ns "scaleFactor" = text_given gs "-S") by exact (read_text gs (mkOpt "-S" "--scaleFactor" (OText [])) [] S P (row_in 15%nat (mkOpt "-S" "--scaleFactor" (OText [])) eq_refl) eq_refl).
  assert (E16 : text_of ns "validMax" = text_given gs "-vM") by exact (read_text gs (mkOpt "-vM" "--validMax" (OText [])) [] S P (row_in 16%nat (mkOpt "-vM" "--validMax" (OText [])) eq_refl) eq_refl).
  assert (E17 : text_of ns "validMin" = text_given gs "-vm") by exact (read_text gs (mkOpt "-vm" "--validMin" (OText [])) [] S P (row_in 17%nat (mkOpt "-vm" "--validMin" (OText [])) eq_refl) eq_refl).
  assert (E18 : text_of ns "valueFormat" = text_given gs "-vf") by exact (read_text gs (mkOpt "-vf" "--valueFormat" (OText [])) [] S P (row_in 18%nat (mkOpt "-vf" "--valueFormat" (OText [])) eq_refl) eq_refl).
  assert (E19 : text_of ns "outputStepUnits" = text_given gs "-U") by exact (read_text gs (mkOpt "-U" "--outputStepUnits" (OText [])) [] S P (row_in 19%nat (mkOpt "-U" "--outputStepUnits" (OText [])) eq_refl) eq_refl).
  assert (E20 : text_of ns "loggerLevel" = text_given gs "-l") by exact (read_text gs (mkOpt "-l" "--loggerLevel" (OText ["ERROR"; "WARNING"; "INFO"; "DEBUG"])) ["ERROR"; "WARNING"; "INFO"; "DEBUG"] S P (row_in 20%nat (mkOpt "-l" "--loggerLevel" (OText ["ERROR"; "WARNING"; "INFO"; "DEBUG"])) eq_refl) eq_refl).
  assert (E21 : text_of ns "intertableDir" = text_given gs "-N") by exact (read_text gs (mkOpt "-N" "--intertableDir" (OText [])) [] S P (row_in 21%nat (mkOpt "-N" "--intertableDir" (OText [])) eq_refl) eq_refl).
  assert (E22 : text_of ns "geopotentialDir" = text_given gs "-G") by exact (read_text gs (mkOpt "-G" "--geopotentialDir" (OText [])) [] S P (row_in 22%nat (mkOpt "-G" "--geopotentialDir" (OText [])) eq_refl) eq_refl).
  assert (E23 : flag_of ns "createIntertable" = is_given gs "-B") by exact (read_flag gs (mkOpt "-B" "--createIntertable" OFlag) S P (row_in 23%nat (mkOpt "-B" "--createIntertable" OFlag) eq_refl) eq_refl).
  assert (E24 : flag_of ns "interpolationParallel" = is_given gs "-X") by exact (read_flag gs (mkOpt "-X" "--interpolationParallel" OFlag) S P (row_in 24%nat (mkOpt "-X" "--interpolationParallel" OFlag) eq_refl) eq_refl).
  assert (E25 : text_of ns "addGeopotential" = text_given gs "-g") by exact (read_text gs (mkOpt "-g" "--addGeopotential" (OText [])) [] S P (row_in 25%nat (mkOpt "-g" "--addGeopotential" (OText [])) eq_refl) eq_refl).
  assert (E26 : text_of ns "downloadConf" = text_given gs "-W") by exact (read_text gs (mkOpt "-W" "--downloadConf" (OText ["geopotentials"; "intertables"])) ["geopotentials"; "intertables"] S P (row_in 26%nat (mkOpt "-W" "--downloadConf" (OText ["geopotentials"; "intertables"])) eq_refl) eq_refl).
  assert (E27 : flag_of ns "underApi" = is_given gs "-A") by exact (read_flag gs (mkOpt "-A" "--underApi" OFlag) S P (row_in 27%nat (mkOpt "-A" "--underApi" OFlag) eq_refl) eq_refl).
  assert (E28 : flag_of ns "checkConf" = is_given gs "-K") by exact (read_flag gs (mkOpt "-K" "--checkConf" OFlag) S P (row_in 28%nat (mkOpt "-K" "--checkConf" OFlag) eq_refl) eq_refl).
  clearbody ns. rewrite E1, E2, E3, E4, E5, E6, E7, E8, E9, E10, E11, E12, E13, E14, E15, E16, E17, E18, E19, E20, E21, E22, E23, E24, E25, E26, E27, E28. reflexivity.
Qed.

(** C90: the options are the documented ones *)
Theorem C90_options : table = documented.
Proof. reflexivity. Qed.

(** C90: exactly the command lines spelled from the documented options, with
    values of the right type among the choices, are accepted, and every item has
    the value of the last occurrence of its option *)
Theorem C90_exact : forall argv a,
  read_argv argv = Ok (Parsed a) <-> argv <> [] /\ exists gs, spelled gs argv /\ Forall proper gs /\ a = understood gs.
Proof.
  intros argv a. split.
  - intro H. split; [intros ->; discriminate|]. destruct argv as [|s r]; [discriminate|]. unfold read_argv in H.
    destruct (classify (s :: r)) as [l|] eqn:C; [|discriminate]. cbn [rbind] in H.
    destruct (consume l [] false) as [[ns|]|] eqn:K; cbn [rbind] in H; try discriminate. assert (E : a = cli_of ns) by congruence. clear H. subst a.
    destruct (consume_sound (List.length (s :: r)) (s :: r) l [] ns (le_n _) C K) as (gs & G & A). exists gs. split; auto.
    pose proof (spelled_shaped _ _ G) as S. destruct (acts_inv gs S [] ns A) as [P ->]. split; auto. now apply cli_understood.
  - intros (N & gs & G & P & ->). pose proof (spelled_shaped _ _ G) as S. destruct (spelled_consume gs argv G) as (l & C & K).
    unfold read_argv. destruct argv as [|s r]; [now elim N|]. rewrite C. cbn [rbind]. rewrite K, (acts_proper gs [] P). cbn [rbind].
    now rewrite cli_understood.
Qed.

(** the outcome is determined: acceptance, the help, or refusal with 10000 *)
Definition fine {A} (r : res (parsed A)) : Prop := match r with Ok _ => True | Raise e => e = AppExc 10000 end.
Lemma act_fine o v ns : fine (act o v ns).
Proof.
  unfold act, fine. destruct (o_kind o) as [ch|ch| |], v as [s|]; auto.
  - destruct ch; auto. destruct (str_mem _ _); auto.
  - destruct (py_int s); auto. destruct ch; auto. destruct (zmem _ _); auto.
Qed.
Lemma acts_fine l : forall ns, fine (acts l ns).
Proof.
  induction l as [|[o v] l IH]; intro ns; cbn [acts]; [exact I|]. pose proof (act_fine o v ns) as F.
  destruct (act o v ns) as [[ns'|]|e]; cbn [rbind]; [apply IH|exact I|exact F].
Qed.
Lemma chain_fine : forall n e, (String.length e <= n)%nat -> forall o d sep, match chain o d sep e with Ok _ => True | Raise ex => ex = AppExc 10000 end.
Proof.
  induction n as [|n IH]; intros e L o d sep; (destruct e as [|c e]; cbn [chain]; destruct (takes_value o); auto); cbn [String.length] in L; [lia|].
  destruct d; cbn [negb]; auto. destruct (sep || _)%bool; auto. destruct (find_option _) as [o'|]; auto. destruct e as [|c2 e2]; auto.
  cbn [String.length] in L. destruct (Ascii.eqb c2 "=").
  - assert (F := IH e2 ltac:(lia) o' true true). destruct (chain o' true true e2); cbn [rbind]; auto.
  - assert (F := IH (String c2 e2) ltac:(cbn [String.length]; lia) o' true false). destruct (chain o' true false (String c2 e2)); cbn [rbind]; auto.
Qed.
Lemma consume_fine l : forall ns x, fine (consume l ns x).
Proof.
  remember (List.length l) as n eqn:L. revert l L. induction n as [n IH] using lt_wf_ind. intros l L ns x.
  assert (J : forall l2 ns2 x2, (List.length l2 < n)%nat -> fine (consume l2 ns2 x2)) by (intros; eapply IH; eauto).
  assert (R : fine (@Raise (parsed names) (AppExc 10000))) by reflexivity.
  destruct l as [|[s t] l]; cbn [consume]; [destruct x; [exact R|exact I]|]. cbn [List.length] in L.
  destruct t as [| |[[o d]|] e]; try (apply J; lia).
  assert (Q : forall p l2 y, (List.length l2 < n)%nat -> fine (do q <- acts p ns; match q with Parsed ns' => consume l2 ns' y | HelpShown => Ok HelpShown end)).
  { intros p l2 y H. pose proof (acts_fine p ns) as F. destruct (acts p ns) as [[ns'|]|ex]; cbn [rbind]; [apply J; exact H|exact I|exact F]. }
  destruct e as [[sep e]|].
  - pose proof (chain_fine _ e (le_n _) o d sep) as Ch. destruct (chain o d sep e) as [[[p [o'|]] more]|ex]; cbn [rbind].
    + destruct (takes_value o'); [|apply Q; lia]. destruct l as [|[v [| |]] l']; try exact R. apply Q. cbn [List.length] in *. lia.
    + apply Q. lia.
    + rewrite Ch. exact R.
  - cbn [rbind]. destruct (takes_value o); [|apply Q; lia]. destruct l as [|[v [| |]] l']; try exact R. apply Q. cbn [List.length] in *. lia.
Qed.
Theorem C90_refusals : forall argv, 
  (exists a, read_argv argv = Ok (Parsed a)) \/ read_argv argv = Ok HelpShown \/ read_argv argv = Raise (AppExc 10000).
Proof.
  intro argv. unfold read_argv. destruct argv as [|s r]; [auto|].
  assert (C : match classify (s :: r) with Ok _ => True | Raise e => e = AppExc 10000 end).
  { generalize (s :: r). intro l. induction l as [|x l IH]; cbn [classify]; auto. destruct (String.eqb x "--"); auto.
    assert (Px : match parse_optional x with Ok _ => True | Raise e => e = AppExc 10000 end).
    { unfold parse_optional. destruct (negb _); auto. destruct (find_option x); auto. destruct (Nat.eqb _ 1); auto.
      destruct (match split_eq x with Some _ => _ | None => None end) as [[[o d] b]|]; auto.
      destruct (option_tuples x) as [|[[o d] e] [|]]; auto. destruct (negative_number x); auto. destruct (contains " " x); auto. }
    destruct (parse_optional x); cbn [rbind]; auto. destruct (classify l); cbn [rbind]; auto. }
  destruct (classify (s :: r)) as [l|e]; cbn [rbind]; [|subst; auto].
  pose proof (consume_fine l [] false) as F. destruct (consume l [] false) as [[ns|]|e]; cbn [rbind]; eauto. cbn [fine] in F. subst e; auto.
Qed.

(** C90: the help is shown when it is asked for in a well written line and all
    that precedes it is proper *)
Lemma acts_app l1 : forall l2 ns ns', acts l1 ns = Ok (Parsed ns') -> acts (l1 ++ l2) ns = acts l2 ns'.
Proof.
  induction l1 as [|[o v] l1 IH]; intros l2 ns ns' H; cbn [acts app] in *; [congruence|].
  destruct (act o v ns) as [[m|]|]; cbn [rbind] in *; try discriminate. now apply IH.
Qed.
Theorem C90_help : forall argv gs1 gs2,
  spelled (gs1 ++ (mkOpt "-h" "--help" OHelp, None) :: gs2) argv -> Forall proper gs1 -> read_argv argv = Ok HelpShown.
Proof.
  intros argv gs1 gs2 G P. destruct (spelled_consume _ _ G) as (l & C & K). unfold read_argv.
  destruct argv as [|s r].
  { cbn [classify] in C. assert (l = []) by congruence. subst l. specialize (K []). rewrite (acts_app _ _ _ _ (acts_proper gs1 [] P)) in K. discriminate K. }
  rewrite C. cbn [rbind]. rewrite K, (acts_app _ _ _ _ (acts_proper gs1 [] P)). reflexivity.
Qed.
Example C90_help_nonvacuous : spelled ([(mkOpt "-B" "--createIntertable" OFlag, None)] ++ [(mkOpt "-h" "--help" OHelp, None)]) ["-Bh"].
Proof.
  refine (sp_app [_; _] ["-Bh"] [] [] _ sp_nil). apply (s_letters _ "Bh" []).
  apply (l_more _ "B"%char _ "h" []); [split; [do 23 right; now left|now left]|reflexivity|].
  apply (l_switch _ "h"%char); [split; [now left|now right]|reflexivity].
Qed.

(** the integers: blanks, a sign, groups of digits, and their value *)
Theorem C90_numbers : forall s z, py_int s = Some z <-> integer_text s z.
Proof. exact py_int_spec. Qed.
Example C90_numbers_nonvacuous : integer_text " +1_200" 1200%Z /\ integer_text "-07" (-7)%Z /\ forall z, ~ integer_text "12h" z.
Proof.
  rewrite <- !C90_numbers. split; [reflexivity|split; [reflexivity|]]. intros z H. rewrite <- C90_numbers in H. discriminate H.
Qed.

(** the full claim: a value can always follow its option as an argument of its
    own. Refuted: a number such as -1e5 looks like an option to argparse *)
Definition C90_full : Prop := forall o v, valued o -> proper (o, Some v) -> exists a, read_argv [o_short o; v] = Ok (Parsed a).
Theorem C90_negative_refuted : ~ C90_full.
Proof.
  intro H. destruct (H (mkOpt "-vm" "--validMin" (OText [])) "-1e5") as [a E].
  - apply valued_spec. split; [|reflexivity]. unfold table. do 17 right. left. reflexivity.
  - left. reflexivity.
  - discriminate E.
Qed.

(** a concrete command line *)
Example C90_nonvacuous :
  let argv := ["-c"; "a.json"; "-BXi"; "f.grb"; "--st=5"; "-e-3"; "-O"; "-3.5"; "-vm=-1e5"; "-s"; "6"] in
  exists gs a, spelled gs argv /\ Forall proper gs /\ read_argv argv = Ok (Parsed a) /\ a = understood gs /\
    a_commands a = Some "a.json" /\ a_input a = Some "f.grb" /\ a_create a = true /\ a_parallel a = true /\ a_start a = Some 6%Z /\
    a_end a = Some (-3)%Z /\ a_offset a = Some "-3.5" /\ a_vmin a = Some "-1e5" /\ a_check a = false.
Proof.
  cbv zeta. set (argv := ["-c"; _; _; _; _; _; _; _; _; _; _]).
  assert (E : exists a, read_argv argv = Ok (Parsed a) /\ a_commands a = Some "a.json" /\ a_input a = Some "f.grb" /\ a_create a = true /\ a_parallel a = true /\ a_start a = Some 6%Z /\
    a_end a = Some (-3)%Z /\ a_offset a = Some "-3.5" /\ a_vmin a = Some "-1e5" /\ a_check a = false).
  { eexists. split; [vm_compute; reflexivity|]. vm_compute. repeat split. }
  destruct E as (a & E & R). destruct (proj1 (C90_exact argv a) E) as (_ & gs & G & P & U). exists gs, a. auto.
Qed.
Print Assumptions C90_options.
Print Assumptions C90_exact.
Print Assumptions C90_refusals.
Print Assumptions C90_help.
Print Assumptions C90_numbers.
Print Assumptions C90_negative_refuted.

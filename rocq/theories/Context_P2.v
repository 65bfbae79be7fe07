From Verif Require Import Base PyStr Strings Config Context Spec_Context Base_P PyStr_P Strings_P Config_P Context_P.
From Coq Require Import Decimal DecimalString.
Local Open Scope string_scope.

Lemma digit_uint c : is_digit c = true -> forall d, uint_of_char c (Some d) <> None.
Proof.
  intros H d. destruct c as [b0 b1 b2 b3 b4 b5 b6 b7].
  destruct b0, b1, b2, b3, b4, b5, b6, b7; cbn in H |- *; first [discriminate|congruence].
Qed.
Lemma digits_uint s : sforall is_digit s = true -> NilEmpty.uint_of_string s <> None.
Proof.
  induction s as [|c s IH]; [discriminate|]. cbn [sforall]. rewrite Bool.andb_true_iff. intros [H1 H2].
  cbn [NilEmpty.uint_of_string]. destruct (NilEmpty.uint_of_string s) as [d|]; [now apply digit_uint|]. now apply IH in H2.
Qed.
Lemma digit_not_minus c : is_digit c = true -> Ascii.eqb c "-" = false.
Proof. destruct c as [[] [] [] [] [] [] [] []]; cbn; intro H; first [discriminate|reflexivity]. Qed.
Lemma digit_not_space c : is_digit c = true -> is_space c = false.
Proof. destruct c as [[] [] [] [] [] [] [] []]; cbn; intro H; first [discriminate|reflexivity]. Qed.
Lemma rstrip_none p s : sforall (fun c => negb (p c)) s = true -> rstrip p s = s.
Proof.
  induction s as [|c s IH]; [reflexivity|]. cbn [sforall rstrip]. rewrite Bool.andb_true_iff. intros [H1 H2].
  rewrite IH by exact H2. apply Bool.negb_true_iff in H1. cbn [sforall]. now rewrite H1.
Qed.
Lemma strip_digits s : sforall is_digit s = true -> strip_ws s = s.
Proof.
  intro H. assert (H' : sforall (fun c => negb (is_space c)) s = true).
  { induction s as [|c s IH]; [reflexivity|]. cbn [sforall] in *. apply Bool.andb_true_iff in H as [H1 H2].
    rewrite (digit_not_space _ H1), IH by exact H2. reflexivity. }
  unfold strip_ws, strip. replace (lstrip is_space s) with s; [now apply rstrip_none|].
  destruct s as [|c s]; [reflexivity|]. cbn [lstrip]. cbn [sforall] in H'. apply Bool.andb_true_iff in H' as [H1 _].
  apply Bool.negb_true_iff in H1. now rewrite H1.
Qed.
Lemma digits_int s : isdigit s = true -> exists z, jint (JStr s) = Ok z.
Proof.
  destruct s as [|c s]; [discriminate|]. unfold isdigit. intro H. unfold jint. rewrite strip_digits by exact H.
  unfold Z_of_str. pose proof H as H0. cbn [sforall] in H. apply Bool.andb_true_iff in H as [H1 _].
  cbn [NilZero.int_of_string]. rewrite (digit_not_minus _ H1). cbn [NilZero.uint_of_string].
  destruct (NilEmpty.uint_of_string (String c s)) as [d|] eqn:E; [cbn; eauto|]. exfalso. now apply (digits_uint _ H0).
Qed.

(** ** C30 *)
Record typed (x : ctx) : Prop := mkTyped {
  t_input : x_input x = JNull \/ exists s, x_input x = JStr s;
  t_lon : exists s, x_lon x = JStr s; t_lat : exists s, x_lat x = JStr s; t_clone : exists s, x_clone x = JStr s;
  t_dem : x_doCorr x = true -> exists s, x_dem x = JStr s;
  t_formula : x_doCorr x = true -> jtruthy (x_gem x) = true /\ jtruthy (x_formula x) = true;
  t_level : x_level x = JNull \/ exists s, x_level x = JStr s;
  t_unit : x_unitTime x = JNull \/ exists z, jint (x_unitTime x) = Ok z;
  t_start : x_tstart x = JNull \/ exists z, x_tstart x = JNum z;
  t_end : x_tend x = JNull \/ exists z, x_tend x = JNum z }.

(** a range with a bound equal to 0 passes only if it is valid *)
Definition range_checked (x : ctx) : Prop := forall a b, x_tstart x = JNum a -> x_tend x = JNum b ->
  (a = 0 \/ b = 0)%Z -> (a <= b)%Z.
Definition out_dir_usable (fs : fsys) (x : ctx) : Prop := exists d, check_out_dir fs (x_outDir x) = Ok d.

Lemma given_truthy j : jtruthy j = true -> given j = true.
Proof. destruct j as [| | |[|]| |]; cbn; auto. Qed.

Lemma check_spec fs x : typed x -> range_checked x -> out_dir_usable fs x ->
  match first_violated (rules fs x) with
  | None => exists x', check_exec_params fs x = Ok x'
  | Some c => check_exec_params fs x = Raise (AppExc c)
  end.
Proof.
  intros [Ti [slon Tlon] [slat Tlat] [scl Tcl] Td Tf Tl Tu Ts Te] Hr [out Hout].
  unfold check_exec_params, rules. cbn [first_violated].
  destruct Ti as [Ti|[si Ti]]; rewrite Ti; [reflexivity|].
  cbn [jtruthy given]. destruct (String.eqb_spec si "") as [->|Hsi]; [reflexivity|].
  assert (Eg : match si with "" => false | _ => true end = true) by (destruct si; [congruence|reflexivity]).
  rewrite Eg. clear Eg. cbn [negb guard rbind exists_file is_file].
  destruct (fs_file fs si); [|reflexivity]. cbn [guard rbind].
  rewrite Tlon, Tlat. cbn [exists_file is_file rbind].
  destruct (fs_file fs slon); cbn [rbind andb guard]; [|reflexivity].
  destruct (fs_file fs slat); cbn [rbind andb guard]; [|reflexivity].
  rewrite Tcl. cbn [exists_file is_file rbind]. destruct (fs_file fs scl); cbn [rbind guard]; [|reflexivity].
  assert (Em : (match x_mode x with JStr m => str_mem m allowed_interp_methods | _ => false end)
             = (match x_mode x with JStr m => existsb (String.eqb m) documented_modes | _ => false end)) by reflexivity.
  rewrite Em. clear Em.
  destruct (match x_mode x with JStr m => existsb (String.eqb m) documented_modes | _ => false end); cbn [guard rbind]; [|reflexivity].
  rewrite Hout. cbn [rbind].
  assert (El : match x_level x with JNull => true | JNum z => Z.leb 0 z | JStr s => all_digits s | _ => false end = true ->
               exists l, check_level (x_level x) = Ok l).
  { destruct Tl as [Tl|[s Tl]]; rewrite Tl; [exists JNull; reflexivity|]. unfold check_level, all_digits. cbn [jtruthy].
    intro Hd. destruct (String.eqb_spec s "") as [->|Hs]; [exists JNull; reflexivity|]. cbn [negb].
    assert (Hi : isdigit s = true) by (destruct s; [congruence|exact Hd]). rewrite Hi.
    destruct (digits_int s Hi) as [z ->]. cbn [rbind]. eauto. }
  assert (El' : match x_level x with JNull => true | JNum z => Z.leb 0 z | JStr s => all_digits s | _ => false end = false ->
               check_level (x_level x) = Raise (AppExc 1400)).
  { destruct Tl as [Tl|[s Tl]]; rewrite Tl; [discriminate|]. unfold check_level, all_digits. cbn [jtruthy].
    intro Hd. destruct s as [|c s]; [discriminate|]. cbn [String.eqb negb]. unfold isdigit. now rewrite Hd. }
  destruct (match x_level x with JNull => true | JNum z => Z.leb 0 z | JStr s => all_digits s | _ => false end).
  2:{ now rewrite (El' eq_refl). }
  destruct (El eq_refl) as [l ->]. clear El El'. cbn [rbind].
  assert (Eu : exists u, (if is_null (x_unitTime x) then Ok (JStr "24") else do z <- jint (x_unitTime x); Ok (JNum z)) = Ok u).
  { destruct Tu as [->|[z Tu]]; [eexists; reflexivity|]. rewrite Tu. destruct (is_null (x_unitTime x)); eexists; reflexivity. }
  destruct Eu as [u ->]. cbn [rbind].
  assert (Et : (if (jtruthy (x_tstart x) && jtruthy (x_tend x))%bool then not_le (x_tstart x) (x_tend x) else Ok false)
             = Ok (negb (match x_tstart x, x_tend x with JNum a, JNum b => Z.leb a b | _, _ => true end))).
  { destruct Ts as [Ts|[a Ts]]; rewrite Ts; [reflexivity|]. destruct Te as [Te|[b Te]]; rewrite Te; [now rewrite Bool.andb_false_r|].
    cbn [jtruthy not_le]. destruct (Z.eqb_spec a 0) as [Ha|Ha]; cbn [negb andb].
    - specialize (Hr a b Ts Te (or_introl Ha)). apply Z.leb_le in Hr. now rewrite Hr.
    - destruct (Z.eqb_spec b 0) as [Hb|Hb]; cbn [negb]; [|reflexivity].
      specialize (Hr a b Ts Te (or_intror Hb)). apply Z.leb_le in Hr. now rewrite Hr. }
  rewrite Et. clear Et. cbn [rbind]. rewrite Bool.negb_involutive.
  destruct (match x_tstart x, x_tend x with JNum a, JNum b => Z.leb a b | _, _ => true end); cbn [guard rbind]; [|reflexivity].
  destruct (x_doCorr x); cbn [negb orb].
  - destruct (Tf eq_refl) as [Tg Tfo]. destruct (Td eq_refl) as [sd Tdm]. rewrite Tg, Tfo, (given_truthy _ Tg), (given_truthy _ Tfo), Tdm.
    cbn [jtruthy given andb]. destruct (String.eqb_spec sd "") as [->|Hsd]; [reflexivity|].
    assert (Eg : match sd with "" => false | _ => true end = true) by (destruct sd; [congruence|reflexivity]).
    rewrite Eg. cbn [negb andb guard rbind exists_file is_file]. destruct (fs_file fs sd); cbn [guard rbind]; [eauto|reflexivity].
  - cbn [guard rbind]. eauto.
Qed.

Lemma correction_inv pre par docorr f g d : define_correction pre par = Ok (docorr, f, g, d) ->
  docorr = true -> jtruthy f = true /\ jtruthy g = true /\ jtruthy d = true.
Proof.
  unfold define_correction. intros H Hd. inv_bind H. destruct (jtruthy a) eqn:T1; [|injection H as <- <- <- <-; discriminate].
  inv_bind H. destruct (jtruthy a0) eqn:T2; [|injection H as <- <- <- <-; discriminate].
  inv_bind H. destruct (jtruthy a1) eqn:T3; injection H as <- <- <- <-; [auto|discriminate].
Qed.
Lemma interpolate_all_dem uvars dem c la lo r : interpolate_all uvars (Some dem) c la lo = Ok r -> exists s, fst (fst (fst r)) = Some s.
Proof. unfold interpolate_all. intro H. do 8 inv_bind H. injection H as <-. cbn. eauto. Qed.

Lemma exec_typed e a cmd x : define_exec_params e a (Some cmd) = Ok x ->
  (x_level x = JNull \/ exists s, x_level x = JStr s) ->
  (x_unitTime x = JNull \/ exists z, jint (x_unitTime x) = Ok z) -> typed x.
Proof.
  intros H Hl Hu. apply define_exec_inv in H.
  destruct H as (ex & par0 & out0 & ic & k & docorr & formula & gem & dem & doaggr & astep & atype & ahalf &
    aforce & dem0 & clone0 & lat0 & lon0 & H).
  destruct H as (_ & _ & _ & _ & Hcor & H). do 16 (destruct H as [_ H]). destruct H as (Hts & Hte & _ & _ & _ & _ & Hint & _ & _ & _ & Hc & Hla & Hlo & Hin & H).
  do 8 (destruct H as [_ H]). destruct H as (_ & Hdo & Hfo & Hge & Hde & _).
  constructor; auto.
  - rewrite Hin. destruct (a_input a); cbn; eauto.
  - intro Hd. rewrite Hdo in Hd. rewrite Hd in Hint. apply interpolate_all_dem in Hint as [s Hs]. cbn in Hs. subst dem0. rewrite Hde. cbn. eauto.
  - intro Hd. rewrite Hdo in Hd. rewrite Hge, Hfo. destruct (correction_inv _ _ _ _ _ _ Hcor Hd) as [? [? _]]. auto.
  - eapply int_option_type; eauto.
  - eapply int_option_type; eauto.
Qed.

(** ** C32 *)
Lemma existsb_short v s : existsb (jeq v) [JStr s; JStr (upper s); JStr (s +++ "var")] = true <-> exists t, v = JStr t /\ short_variant s t.
Proof.
  unfold short_variant. cbn [existsb]. rewrite !Bool.orb_true_iff. split.
  - intro H. destruct v as [| | |t| |]; cbn [jeq] in H; try (intuition discriminate).
    exists t. split; [reflexivity|]. destruct H as [H | [H | [H | H] ] ]; try discriminate; apply String.eqb_eq in H; auto.
  - intros [t [-> H]]. cbn [jeq]. destruct H as [-> | [-> | ->] ]; rewrite String.eqb_refl; auto.
Qed.

Definition scalar (j : json) : Prop := match j with JNull | JNum _ | JStr _ => True | _ => False end.
Lemma jeq_iff v w : scalar w -> w <> JNull -> jeq v w = true <-> v = w.
Proof.
  intros Hs Hn. destruct v, w; cbn in *; try contradiction; try (split; congruence).
  - rewrite Z.eqb_eq. split; congruence.
  - rewrite String.eqb_eq. split; congruence.
Qed.

Lemma find_opt m key c rest : scalar c ->
  find m (opt_sel key c ++ rest)%list = Ok true <-> opt_matches c m key /\ find m rest = Ok true.
Proof.
  intro Hs. unfold opt_sel, opt_matches. destruct (is_null c) eqn:En.
  - destruct c; try discriminate. cbn [List.app]. tauto.
  - assert (Hn : c <> JNull) by (intros ->; discriminate).
    cbn [List.app find]. destruct (dget String.eqb m key) as [v|]; cbn [sel_match rbind].
    + destruct (jeq v c) eqn:Ej.
      * apply jeq_iff in Ej; auto. subst v. split; [intro Hx; split; [now right|exact Hx]|intros [_ Hx]; exact Hx].
      * split; [discriminate|]. intros [Hx _]; destruct Hx as [Hx|Hx]; [contradiction|injection Hx as ->].
        assert (jeq c c = true) by (apply jeq_iff; auto). congruence.
    + split; [discriminate|]. intros [[?|?] _]; [contradiction|discriminate].
Qed.

Lemma select_spec x m s start_ end_ sel : x_short x = JStr s ->
  scalar (x_level x) -> scalar (x_dataTime x) -> scalar (x_dataDate x) -> scalar (x_member x) ->
  (exists b, dget String.eqb m "endStep" = Some (JNum b)) -> (exists a, dget String.eqb m "startStep" = Some (JNum a)) ->
  select_cmd x start_ end_ = Ok sel ->
  (find m sel = Ok true <->
   (exists t, dget String.eqb m "shortName" = Some (JStr t) /\ short_variant s t) /\
   opt_matches (x_level x) m "level" /\ opt_matches (x_dataTime x) m "dataTime" /\
   opt_matches (x_dataDate x) m "dataDate" /\ opt_matches (x_member x) m "perturbationNumber" /\
   exists a b, dget String.eqb m "startStep" = Some (JNum a) /\ dget String.eqb m "endStep" = Some (JNum b) /\ in_window start_ end_ a b).
Proof.
  intros Hs S1 S2 S3 S4 [b Hb] [a Ha] H. unfold select_cmd in H. rewrite Hs in H. injection H as <-.
  set (rest := (opt_sel "level" (x_level x) ++ _)%list). cbn [List.app find].
  assert (Hrest : find m rest = Ok true <-> opt_matches (x_level x) m "level" /\ opt_matches (x_dataTime x) m "dataTime" /\
     opt_matches (x_dataDate x) m "dataDate" /\ opt_matches (x_member x) m "perturbationNumber" /\ in_window start_ end_ a b).
  { unfold rest. rewrite !find_opt by assumption.
    assert (Hw : find m (if Z.eqb start_ end_ then [("endStep", SVal (JNum end_)); ("startStep", SVal (JNum start_))]
       else [("endStep", SFun (fun s0 => Z.leb s0 end_)); ("startStep", SFun (fun s0 => Z.leb start_ s0))]) = Ok true <-> in_window start_ end_ a b).
    { unfold in_window. destruct (Z.eqb start_ end_); cbn [find]; rewrite Hb, Ha; cbn [sel_match jeq rbind].
      - destruct (Z.eqb_spec b end_) as [->|Hne]; [|split; [discriminate|intros [_ ?]; contradiction]].
        destruct (Z.eqb_spec a start_) as [->|Hne]; [tauto|split; [discriminate|intros [? _]; contradiction]].
      - destruct (Z.leb_spec b end_) as [Hl|Hl]; [|split; [discriminate|intros [_ ?]; lia]].
        destruct (Z.leb_spec start_ a) as [Hl2|Hl2]; [tauto|split; [discriminate|intros [? _]; lia]]. }
    rewrite Hw. tauto. }
  assert (Hexw : (exists a0 b0, dget String.eqb m "startStep" = Some (JNum a0) /\ dget String.eqb m "endStep" = Some (JNum b0) /\ in_window start_ end_ a0 b0)
     <-> in_window start_ end_ a b).
  { rewrite Ha, Hb. split; [intros [a0 [b0 [[= <-] [[= <-] Hw]]]]; exact Hw|intro Hw; exists a, b; auto]. }
  rewrite Hexw. clear Hexw. destruct (dget String.eqb m "shortName") as [v|].
  - cbn [sel_match rbind]. destruct (existsb (jeq v) [JStr s; JStr (upper s); JStr (s +++ "var")]) eqn:Ev.
    + apply existsb_short in Ev as [t [-> Hv]]. rewrite Hrest. split; [intro Hx; split; [eauto|tauto]|tauto].
    + split; [discriminate|]. intros [[t [[= ->] Hv]] _]. exfalso.
      assert (existsb (jeq (JStr t)) [JStr s; JStr (upper s); JStr (s +++ "var")] = true) by (apply existsb_short; eauto). congruence.
  - split; [discriminate|]. intros [[t [? _]] _]. discriminate.
Qed.

(** * Props_Correction: theorems for C100-C103: where the geopotential of a
    correction comes from, which field is used, what it leaves open, and files
    for which no index can be built. *)
From Verif Require Import Base Base_P Num PyStr PyStr_P Strings Config Context Aggregator Converter Reader Spec_Reader Reader_P Reader_P2 Reader_P3 Reader_P4
  Controller Props_Reader Props_Controller Correction Spec_Correction Correction_P Correction_P2 Program_P Flow_P.
From Coq Require Import Lia.
Local Open Scope string_scope.

Lemma good_world0 : good_world world0. Proof. repeat constructor. Qed.

(** ** C100: the file the geopotential is read from *)
(** the file used by a command whose input file is [path]: the input file when it
    was recognised as holding a geopotential, the registry otherwise *)
Definition used_file (path : string) (reg : res string) (s : cst) : res string := geo_file (if c_geo s then Some path else None) reg.

(** Full statement: the input file is used if and only if it holds a message of
    geopotential. *)
Definition C100_full : Prop := forall o x f w b y s path reg, good_world w -> x_input x = JStr path -> path <> "" -> x_doCorr x = true ->
  xt_file o (x_input x) = Some f -> execute o x b (cst0 w) = (Ok y, s) ->
  used_file path reg s = if existsb geopotential (gf_msgs f) then Ok path else reg.

Lemma used_eq path reg s c : path <> "" -> c_geo s = c -> used_file path reg s = if c then Ok path else reg.
Proof. intros N E. unfold used_file, geo_file. rewrite E. destruct c; [|reflexivity]. destruct (String.eqb_spec path ""); [contradiction|reflexivity]. Qed.

(** Proved part 1: it holds when no member is asked for. *)
Theorem C100_no_member_partial : forall o x f w b y s path reg, good_world w -> x_input x = JStr path -> path <> "" -> x_doCorr x = true -> x_member x = JNull ->
  xt_file o (x_input x) = Some f -> execute o x b (cst0 w) = (Ok y, s) ->
  used_file path reg s = if existsb geopotential (gf_msgs f) then Ok path else reg.
Proof.
  intros o x f w b y s path reg Hw Hp N C Mb E H. pose proof (geo_execute _ _ _ _ _ _ _ Hw E H) as G. rewrite C, (executed_indexed _ _ _ _ _ _ _ Hw E H) in G. cbn [andb] in G.
  apply used_eq; [exact N|]. rewrite G. assert (P : chosen_member x = None). { unfold chosen_member, select_cmd_attrs. rewrite Mb. destruct (x_short x); reflexivity. }
  rewrite P. clear. induction (gf_msgs f) as [|m l IH]; [reflexivity|]. cbn [existsb]. rewrite IH. unfold member_ok. now rewrite Bool.andb_true_r.
Qed.
Print Assumptions C100_no_member_partial.

(** Proved part 2: when member [p] is asked for, the input file is used if and
    only if it holds a geopotential of that member. *)
Definition of_member (p : Z) (m : gmsg) : bool :=
  match dget String.eqb (gm_keys m) "perturbationNumber" with Some (JNum y) => Z.eqb y p | _ => false end.
Theorem C100_member_partial : forall o x f w b y s path reg p, good_world w -> x_input x = JStr path -> path <> "" -> x_doCorr x = true ->
  x_member x = JNum p -> p <> (-1)%Z ->
  xt_file o (x_input x) = Some f -> execute o x b (cst0 w) = (Ok y, s) ->
  used_file path reg s = if existsb (fun m => geopotential m && of_member p m)%bool (gf_msgs f) then Ok path else reg.
Proof.
  intros o x f w b y s path reg p Hw Hp N C Mb Np E H. pose proof (geo_execute _ _ _ _ _ _ _ Hw E H) as G. rewrite C, (executed_indexed _ _ _ _ _ _ _ Hw E H) in G. cbn [andb] in G.
  apply used_eq; [exact N|]. rewrite G. destruct (x_short x) as [| | |n| |] eqn:Sh.
  1-3, 5-6: exfalso; unfold execute in H; apply bind_ok in H as (q & s1 & H & _); unfold init_execution in H; apply bind_ok in H as (u & s2 & _ & H); apply bind_ok in H as (at1 & s3 & H & _);
    apply lift_ok in H as [H _]; unfold select_cmd_attrs in H; rewrite Sh in H; discriminate.
  assert (P : chosen_member x = Some p).
  { unfold chosen_member, select_cmd_attrs. rewrite Mb, Sh. cbn [opt_sel is_null]. unfold sel_pert. cbn [dget String.eqb Ascii.eqb Bool.eqb]. unfold jeq. destruct (Z.eqb_spec p (-1)); [contradiction|reflexivity]. }
  rewrite P. reflexivity.
Qed.
Print Assumptions C100_member_partial.

(** the witness: an ensemble file with the geopotential common to the members,
    which carries no number; member 1 is asked for *)
Definition with_member (p : Z) (m : gmsg) : gmsg := mkGmsg (("perturbationNumber", JNum p) :: gm_keys m) (gm_dbl m) (gm_missing m) (gm_values m) (gm_bitmap m).
Definition ens_f : gfile := mkGfile true
  [ex_msg "z" 0 0 2 0 0 [nint 10; nint 20]; with_member 1 (ex_msg "2t" 0 0 2 0 0 [nint 1; nint 2]); with_member 1 (ex_msg "2t" 6 6 2 0 0 [nint 3; nint 4]);
   with_member 2 (ex_msg "2t" 0 0 2 0 0 [nint 5; nint 6])].
Definition corr_x (member : json) : ctx :=
  mkCtx JNull (JStr "in.grb") (JNum 0) (JNum 6) JNull JNull JNull JNull JNull JNull JNull JNull (JStr "pcraster") JNull JNull JNull
    JNull JNull JNull JNull "" member JNull false false true (JStr "2t") JNull JNull JNull JNull false JNull JNull JNull
    JNull JNull JNull JNull (JNum 24) JNull JNull (JStr "") (JBool false) false.
Definition ens_o := ex_ext (Some ens_f).
Definition ens_x := corr_x (JNum 1).
Definition ens_run := execute ens_o ens_x true (cst0 world0).
Lemma ens_ran : (match fst (execute ens_o ens_x true (cst0 world0)) with Ok _ => true | Raise _ => false end, c_geo (snd (execute ens_o ens_x true (cst0 world0))),
  List.length (c_out (snd (execute ens_o ens_x true (cst0 world0))))) = (true, false, 2%nat).
Proof. vm_compute. reflexivity. Qed.
Lemma split_run {A} (q : res A * cst) g n : (match fst q with Ok _ => true | Raise _ => false end, c_geo (snd q), List.length (c_out (snd q))) = (true, g, n) -> exists y s, q = (Ok y, s) /\ c_geo s = g.
Proof. destruct q as [[y|e] s]; cbn [fst snd]; intro H; [|discriminate]. exists y, s. split; [reflexivity|]. congruence. Qed.
Lemma ens_ex : exists y s, execute ens_o ens_x true (cst0 world0) = (Ok y, s) /\ c_geo s = false.
Proof. exact (split_run (execute ens_o ens_x true (cst0 world0)) false 2%nat ens_ran). Qed.
Theorem C100_member_refuted : ~ C100_full.
Proof.
  intro H. destruct ens_ex as (y & s & E & G).
  assert (K := H ens_o ens_x ens_f world0 true y s "in.grb" (Ok "other.grb") good_world0).
  specialize (K eq_refl). specialize (K ltac:(discriminate)). specialize (K eq_refl eq_refl). specialize (K E).
  unfold used_file in K. rewrite G in K. cbn [geo_file] in K. vm_compute in K. discriminate.
Qed.
Print Assumptions C100_member_refuted.

(** the hypotheses are met: the same file without asking for a member *)
Definition z_run := execute (ex_ext (Some (mkGfile true [ex_msg "z" 0 0 2 0 0 [nint 10; nint 20]; ex_msg "2t" 0 0 2 0 0 [nint 1; nint 2]; ex_msg "2t" 6 6 2 0 0 [nint 3; nint 4]])))
  (corr_x JNull) true (cst0 world0).
Example C100_nonvacuous :
  (match fst z_run with Ok _ => true | Raise _ => false end, used_file "in.grb" (Ok "other.grb") (snd z_run)) = (true, Ok "in.grb") /\
  used_file "in.grb" (Ok "other.grb") (snd ens_run) = Ok "other.grb".
Proof. split; vm_compute; reflexivity. Qed.

(** ** C101: the field used as geopotential *)
(** Full statement: the field is that of a geopotential message on the grid of
    the field being corrected. *)
(** the gem formula has been applied to every cell but those equal to the missing
    value; the mask is the same *)
Definition gem_applied (gem : num -> num) (mv : num) (v z : arr) : Prop :=
  amask z = amask v /\ List.length (adata z) = List.length (adata v) /\
  forall i y, nth_error (adata v) i = Some y -> nth_error (adata z) i = Some (if neqb y mv then mv else gem y).
Definition C101_full : Prop := forall f q w mv out w', good_world w -> read_geo_file (Some f) q w = (Ok (mv, out), w') ->
  exists m x ms z, In m (gf_msgs f) /\ geopotential m = true /\ reads m x /\ build_id m = Ok (ca_grid q) /\
    gem_applied (ca_gem q) mv (rd_field x) z /\ ca_resample q (ca_grid q) ms z = Ok out.

Lemma gem_field_applied gem mv v : gem_applied gem mv v (gem_field gem mv v).
Proof.
  unfold gem_applied, gem_field. destruct v as [d|d m]; cbn [amask adata]; (split; [reflexivity|]; split; [apply map_length|]);
    intros i y H; rewrite nth_error_map, H; cbn [option_map]; destruct (neqb y mv); reflexivity.
Qed.
(** the messages read are those of a geopotential, whatever the order *)
Lemma geo_messages_in f m : In m (geo_messages f) <-> In m (gf_msgs f) /\ geopotential m = true.
Proof.
  unfold geo_messages, geopotential. destruct (gf_indexable f); [|apply filter_In]. rewrite in_flat_map, existsb_exists. split.
  - intros (n & Hn & H). apply filter_In in H as [H1 H2]. eauto.
  - intros (H1 & n & Hn & H2). exists n. split; [exact Hn|]. apply filter_In. auto.
Qed.
Lemma before_change_incl n xs : incl (before_change n xs) xs.
Proof. induction xs as [|x xs IH]; intros y H; [exact H|]. cbn [before_change] in H. destruct (rd_nj x =? n)%Z; [|destruct H]. destruct H as [<-|H]; [now left|right; now apply IH]. Qed.
Lemma chosen_in xs x : chosen (first_grid xs) x -> In x xs.
Proof.
  intros (y & a & b & c & d & _ & _ & _ & E & _ & _). assert (I : In x (first_grid xs)) by (rewrite E; apply in_or_app; right; now left).
  destruct xs as [|z xs]; [destruct I|]. exact (before_change_incl _ _ _ I).
Qed.
Lemma forall2_back {A B} (R : A -> B -> Prop) l l' : Forall2 R l l' -> forall y, In y l' -> exists x, In x l /\ R x y.
Proof. induction 1 as [|a b l l' H _ IH]; intros y Hy; [destruct Hy|]. destruct Hy as [<-|Hy]; [exists a; split; [now left|exact H]|]. destruct (IH y Hy) as (x & H1 & H2). exists x. split; [now right|exact H2]. Qed.

(** Proved part 1, exact: of the geopotential messages before the first change of
    the number of parallels, the last with the steps and level of the first
    having the smallest end step; the missing value is that of the first message
    read; nothing else of the file matters. *)
Theorem C101_which_partial : forall f q w mv out w', good_world w -> read_geo_file (Some f) q w = (Ok (mv, out), w') ->
  exists xs x m0 rest ms z, geo_messages f = m0 :: rest /\ Forall2 reads (geo_messages f) xs /\ chosen (first_grid xs) x /\
    dget String.eqb (gm_dbl m0) "missingValue" = Some mv /\
    gem_applied (ca_gem q) mv (rd_field x) z /\ ca_resample q (ca_grid q) ms z = Ok out.
Proof.
  intros f q w mv out w' Hw H. destruct (field_read _ _ _ _ _ _ Hw H) as (xs & x & m & m0 & rest & H1 & H2 & H3 & H4 & _ & _ & _ & H5).
  exists xs, x, m0, rest, m, (gem_field (ca_gem q) mv (rd_field x)). split; [exact H1|]. split; [exact H2|]. split; [exact H3|]. split; [exact H4|]. split; [apply gem_field_applied|exact H5].
Qed.
Print Assumptions C101_which_partial.
(** Proved part 2: it holds when all the geopotentials of the file are on the
    grid of the field. *)
Theorem C101_one_grid_partial : forall f q w mv out w', good_world w ->
  (forall m, In m (gf_msgs f) -> geopotential m = true -> build_id m = Ok (ca_grid q)) ->
  read_geo_file (Some f) q w = (Ok (mv, out), w') ->
  exists m x ms z, In m (gf_msgs f) /\ geopotential m = true /\ reads m x /\ build_id m = Ok (ca_grid q) /\
    gem_applied (ca_gem q) mv (rd_field x) z /\ ca_resample q (ca_grid q) ms z = Ok out.
Proof.
  intros f q w mv out w' Hw Hall H. destruct (field_read _ _ _ _ _ _ Hw H) as (xs & x & ms & m0 & rest & _ & H2 & H3 & _ & _ & _ & _ & H5).
  destruct (forall2_back _ _ _ H2 x (chosen_in _ _ H3)) as (m & Hm & Hr). apply geo_messages_in in Hm as [Hm Hg].
  exists m, x, ms, (gem_field (ca_gem q) mv (rd_field x)). split; [exact Hm|]. split; [exact Hg|]. split; [exact Hr|]. split; [exact (Hall m Hm Hg)|]. split; [apply gem_field_applied|exact H5].
Qed.
Print Assumptions C101_one_grid_partial.

(** the witness: a file with the geopotential on two grids *)
Definition z_two : gfile := mkGfile true [ex_msg "z" 0 0 2 0 0 [nint 10; nint 20]; ex_msg "z" 0 0 1 0 0 [nint 30]].
Definition plain_ask (id : string) : corr_ask := mkAsk id "dem.map" (Ok (nint (-9999), [nint 0])) (Ok "geo.grb") (fun z => z) (fun _ => Ok tt)
  (fun _ _ v => match v with Nd d => Ok d | Ma d _ => Ok d end).
Definition small_id : string := match build_id (ex_msg "z" 0 0 1 0 0 [nint 30]) with Ok i => i | Raise _ => "" end.
Definition z_read := read_geo_file (Some z_two) (plain_ask small_id) world0.
Lemma z_reads : fst z_read = Ok (nint 9999, [nint 10; nint 20]).
Proof. vm_compute. reflexivity. Qed.
Lemma z_ids : map build_id (gf_msgs z_two) = [Ok "10$20$2$2$2$regular_ll"; Ok "10$20$2$1$2$regular_ll"] /\ small_id = "10$20$2$1$2$regular_ll".
Proof. split; vm_compute; reflexivity. Qed.
Theorem C101_grid_refuted : ~ C101_full.
Proof.
  intro H. pose proof z_reads as R. destruct z_read as [y w'] eqn:E. cbn [fst] in R. subst y.
  destruct (H z_two (plain_ask small_id) world0 _ _ w' good_world0 E) as (m & x & ms & z & Hm & _ & Hr & Hi & Hz & Ho). clear H E.
  destruct z_ids as [Z1 Z2]. cbn [ca_grid plain_ask] in Hi. rewrite Z2 in Hi.
  destruct Hm as [<-|[<-|[]]].
  - assert (X : build_id (ex_msg "z" 0 0 2 0 0 [nint 10; nint 20]) = Ok "10$20$2$2$2$regular_ll") by (vm_compute; reflexivity). rewrite X in Hi. discriminate.
  - destruct Hr as (_ & _ & _ & _ & Hv & _). cbn [gm_values ex_msg] in Hv. cbn [plain_ask ca_resample] in Ho. destruct Hz as (_ & Hz & _). rewrite Hv in Hz.
    destruct z as [d|d k]; cbn [adata List.length] in Hz;
      apply (f_equal (fun r : res (list num) => match r with Ok l => List.length l | Raise _ => 0%nat end)) in Ho; cbn [adata List.length] in Ho; rewrite Hz in Ho; discriminate.
Qed.
Print Assumptions C101_grid_refuted.
(** the hypotheses are met; and which field is taken is not obvious: of a z and an
    orog of the same step and level the orog is used, wherever it stands *)
Definition z_orog : gfile := mkGfile true [ex_msg "orog" 0 0 2 0 0 [nint 1; nint 2]; ex_msg "2t" 0 0 2 0 0 [nint 7; nint 8]; ex_msg "z" 0 0 2 0 0 [nint 10; nint 20]].
Definition big_id : string := match build_id (ex_msg "z" 0 0 2 0 0 [nint 30]) with Ok i => i | Raise _ => "" end.
Example C101_nonvacuous :
  fst (read_geo_file (Some z_orog) (plain_ask big_id) world0) = Ok (nint 9999, [nint 1; nint 2]) /\
  forallb (fun m => match build_id m with Ok i => String.eqb i (ca_grid (plain_ask big_id)) | Raise _ => false end) (gf_msgs z_orog) = true.
Proof. split; vm_compute; reflexivity. Qed.

(** ** C102: what corrections leave open *)
(** Full statement: whatever corrections are asked for one after the other, the
    handles, indexes and files open afterwards are those open before. *)
Definition C102_full : Prop := forall h c w xs c' w', good_world w -> corr_run h c w = (xs, (c', w')) ->
  held w' = held w /\ w_live w' = w_live w.
(** Proved part 1: it holds when all of them succeed. *)
Theorem C102_success_partial : forall h c w xs c' w', good_world w -> corr_run h c w = (xs, (c', w')) ->
  (forall x, In x xs -> exists i, x = Ok i) ->
  w_live w' = w_live w /\ w_bad w' = w_bad w /\ held w' = held w.
Proof.
  intros h c w xs c' w' Hw H F. destruct (corr_run_held _ _ _ _ _ _ Hw H) as (_ & B & Hh & l & L1 & L2).
  assert (Fb : forallb (fun x => negb (failed x)) xs = true) by (apply forallb_forall; intros x Hx; destruct (F x Hx) as (i & ->); reflexivity).
  rewrite (L2 Fb), app_nil_r in L1. split; [exact L1|]. split; [exact B|]. rewrite Hh.
  assert (Z : forall h xs, forallb (fun x => negb (failed x)) xs = true -> failures h xs = 0%nat).
  { clear. induction h as [|[files q] h IH]; intros [|x xs] Hf; try reflexivity. cbn [forallb] in Hf. apply Bool.andb_true_iff in Hf as [H1 H2]. cbn [failures]. rewrite (IH _ H2).
    destruct (failed x); [discriminate|]. now rewrite Bool.andb_false_r. }
  rewrite (Z h xs Fb). lia.
Qed.
Print Assumptions C102_success_partial.
(** Proved part 2, exact: one index or file stays open for every correction that
    fails after the geopotential file was opened; nothing is ever closed that was
    not opened by the correction. *)
Theorem C102_failures_partial : forall h c w xs c' w', good_world w -> corr_run h c w = (xs, (c', w')) ->
  w_bad w' = w_bad w /\ held w' = (held w + failures h xs)%nat /\ exists l, w_live w' = (w_live w ++ l)%list.
Proof.
  intros h c w xs c' w' Hw H. destruct (corr_run_held _ _ _ _ _ _ Hw H) as (_ & B & Hh & l & L1 & _). split; [exact B|]. split; [exact Hh|]. exists l. exact L1.
Qed.
Print Assumptions C102_failures_partial.
(** the witness: a file without geopotential, asked for three times *)
Definition no_z : gfile := mkGfile true [ex_msg "2t" 0 0 2 0 0 [nint 7; nint 8]].
Definition thrice : list ((string -> option gfile) * corr_ask) := repeat ((fun _ : string => Some no_z), plain_ask big_id) 3.
Definition thrice_run := corr_run thrice [] world0.
Lemma thrice_held : (held (snd (snd thrice_run)), map (@failed corr_inst) (fst thrice_run)) = (3%nat, [true; true; true]).
Proof. vm_compute. reflexivity. Qed.
Theorem C102_refuted : ~ C102_full.
Proof.
  intro H. pose proof thrice_held as R. destruct thrice_run as [xs [c' w']] eqn:E. cbn [fst snd] in R.
  destruct (H thrice [] world0 xs c' w' good_world0 E) as [K _]. rewrite K in R. vm_compute in R. discriminate.
Qed.
Print Assumptions C102_refuted.
Example C102_nonvacuous :
  let h := repeat ((fun _ : string => Some z_orog), plain_ask big_id) 3 in
  (map (@failed corr_inst) (fst (corr_run h [] world0)), held (snd (snd (corr_run h [] world0)))) = ([false; false; false], 0%nat) /\
  failures thrice (fst thrice_run) = 3%nat.
Proof. split; vm_compute; reflexivity. Qed.

(** ** C103: input files for which eccodes cannot build an index *)
(** the outside world, but the input files are [f] *)
Definition with_file (o : ext) (f : gfile) : ext :=
  mkExt (fun _ => Some f) (xt_writer o) (xt_numexpr o) (xt_map o) (xt_put o) (xt_nc_open o) (xt_nc_write o).
(** Full statement: a command writes the same maps whether or not its input file
    can be indexed. *)
Definition C103_full : Prop := forall o x ms w, good_world w ->
  map wn_out (c_out (snd (run_command (with_file o (mkGfile false ms)) x w))) = map wn_out (c_out (snd (run_command (with_file o (mkGfile true ms)) x w))).
(** Proved part: the command never succeeds and writes nothing; when the
    information on the file could be read it ends as if no message had matched,
    whatever the file holds. *)
Theorem C103_partial : forall o x f w b r s, good_world w -> xt_file o (x_input x) = Some f -> gf_indexable f = false ->
  execute o x b (cst0 w) = (r, s) ->
  c_out s = [] /\ (exists e, r = Raise e) /\ ((exists y s1, init_execution o x (cst0 w) = (Ok y, s1)) -> r = Raise (AppExc 3000)).
Proof. exact not_indexed. Qed.
Print Assumptions C103_partial.
(** the same for the command: no map is written *)
Theorem C103_command_partial : forall o x f w out s, good_world w -> xt_file o (x_input x) = Some f -> gf_indexable f = false ->
  run_command o x w = (out, s) -> c_out s = [] /\ ((exists y s1, init_execution o x (cst0 w) = (Ok y, s1)) -> out = Exit 0 \/ exists e, out = Uncaught e).
Proof.
  intros o x f w out s Hw E Hi H. unfold run_command in H. destruct (execute o x true (cst0 w)) as [r s0] eqn:Ex. destruct (not_indexed _ _ _ _ _ _ _ Hw E Hi Ex) as (C & _ & I).
  pose proof (keep_close s0) as K. destruct (ctl_close s0) as [[u|e] s1] eqn:Ec; cbn [snd] in K.
  - assert (s1 = s) by congruence. subst s1. split; [congruence|]. intro Y. left. rewrite (I Y) in H. cbv zeta beta iota in H. rewrite Z.eqb_refl in H. assert (X : out = Exit 0) by congruence. exact X.
  - assert (s1 = s) by congruence. subst s1. split; [congruence|]. intros _. right. exists e. congruence.
Qed.
Print Assumptions C103_command_partial.

(** the witness: the same messages, indexed or not *)
Definition plain_x : ctx := ex_x "pcraster" (JNum 0) (JNum 12) false JNull "".
Definition two_o : ext := ex_ext None.
Definition two_ms : list gmsg := gf_msgs ex_two.
Lemma two_false : List.length (c_out (snd (run_command (with_file two_o (mkGfile false two_ms)) plain_x world0))) = 0%nat.
Proof. vm_compute. reflexivity. Qed.
Lemma two_true : List.length (c_out (snd (run_command (with_file two_o (mkGfile true two_ms)) plain_x world0))) = 3%nat.
Proof. vm_compute. reflexivity. Qed.
Theorem C103_refuted : ~ C103_full.
Proof.
  intro H. specialize (H two_o plain_x two_ms world0 good_world0). apply (f_equal (@List.length _)) in H. rewrite !map_length in H.
  rewrite two_false, two_true in H. discriminate.
Qed.
Print Assumptions C103_refuted.
(** the hypotheses are met, with the information request succeeding; a second
    input file need not be indexable *)
Definition pair_ext (b1 b2 : bool) : ext := let o := ex_ext None in
  mkExt (fun j => match j with JStr "two.grb" => Some (mkGfile b2 [ex_msg "2t" 12 12 1 0 0 [nint 20]; ex_msg "2t" 18 18 1 0 0 [nint 21]; ex_msg "2t" 24 24 1 0 0 [nint 22]])
                  | _ => Some (mkGfile b1 [ex_msg "2t" 0 0 2 0 0 [nint 1; nint 2]; ex_msg "2t" 6 6 2 0 0 [nint 3; nint 4]; ex_msg "2t" 12 12 2 0 0 [nint 5; nint 6]]) end)
    (xt_writer o) (xt_numexpr o) (xt_map o) (xt_put o) (xt_nc_open o) (xt_nc_write o).
Definition pair_x : ctx :=
  mkCtx JNull (JStr "in.grb") (JNum 0) (JNum 24) JNull JNull JNull JNull JNull JNull JNull JNull (JStr "pcraster") JNull JNull JNull
    JNull JNull JNull JNull "" JNull (JStr "two.grb") true false false (JStr "2t") JNull JNull JNull JNull false JNull JNull JNull
    JNull JNull JNull JNull (JNum 24) JNull (JNum 6) (JStr "average") (JBool false) false.
Example C103_nonvacuous :
  fst (run_command (with_file two_o (mkGfile false two_ms)) plain_x world0) = Exit 0 /\
  match fst (init_execution (with_file two_o (mkGfile false two_ms)) plain_x (cst0 world0)) with Ok _ => true | Raise _ => false end = true /\
  ran (pair_ext true false) pair_x = ran (pair_ext true true) pair_x /\ List.length (snd (ran (pair_ext true false) pair_x)) = 4%nat /\
  snd (ran (pair_ext false true) pair_x) = [].
Proof. split; [|split; [|split; [|split]]]; vm_compute; reflexivity. Qed.

(** ** C21 with the files: a corrector, once built, serves the rest of the process *)
Lemma corr_run_keeps h : forall c w xs c' w' k i, corr_run h c w = (xs, (c', w')) -> dget String.eqb c k = Some i -> dget String.eqb c' k = Some i.
Proof.
  induction h as [|[files q] h IH]; intros c w xs c' w' k i H Hk; cbn [corr_run] in H; [congruence|].
  destruct (corr_get files q c w) as [x [c1 w1]] eqn:E. destruct (corr_run h c1 w1) as [ys cw] eqn:E2. assert (cw = (c', w')) by congruence. subst cw.
  refine (IH _ _ _ _ _ _ _ E2 _). unfold corr_get in E. destruct (ca_geo q) as [p|e]; [|congruence].
  destruct (dget String.eqb c (ca_grid q +++ ca_dem q)) as [j|] eqn:Ej; [congruence|]. destruct (corr_new files q p w) as [[j|e] w2]; [|congruence].
  assert (c1 = dset String.eqb c (ca_grid q +++ ca_dem q) j) by congruence. subst c1. rewrite (dget_dset _ String_eqb_spec').
  destruct (String.eqb k (ca_grid q +++ ca_dem q)) eqn:K; [|exact Hk]. apply String.eqb_eq in K. congruence.
Qed.
(** whatever other corrections come in between, and whatever happened to the
    files: the next one with the same grid and DEM gets the same corrector, and
    opens nothing (the lookup of its geopotential file must still succeed) *)
Theorem C21_kept : forall files q c w i c1 w1 h xs c2 w2 files' q' p,
  corr_get files q c w = (Ok i, (c1, w1)) -> corr_run h c1 w1 = (xs, (c2, w2)) ->
  ca_grid q' = ca_grid q -> ca_dem q' = ca_dem q -> ca_geo q' = Ok p ->
  corr_get files' q' c2 w2 = (Ok i, (c2, w2)).
Proof.
  intros files q c w i c1 w1 h xs c2 w2 files' q' p H Hr Hg Hd Hp. unfold corr_get at 1. rewrite Hp, Hg, Hd.
  rewrite (corr_run_keeps _ _ _ _ _ _ _ i Hr); [reflexivity|]. unfold corr_get in H. destruct (ca_geo q) as [p0|e]; [|congruence].
  destruct (dget String.eqb c (ca_grid q +++ ca_dem q)) as [j|] eqn:Ej; [congruence|]. destruct (corr_new files q p0 w) as [[j|e] w3]; [|congruence].
  assert (E : c1 = dset String.eqb c (ca_grid q +++ ca_dem q) i) by congruence. rewrite E, (dget_dset _ String_eqb_spec'), String.eqb_refl. reflexivity.
Qed.
Print Assumptions C21_kept.
Definition z_files (p : string) : option gfile := if String.eqb p "geo.grb" then Some z_orog else None.
Example C21_kept_nonvacuous : let '(x, (c, w)) := corr_get z_files (plain_ask big_id) [] world0 in
  match x with Ok i => in_gem i = (nint 9999, [nint 1; nint 2]) | Raise _ => False end /\
  fst (corr_run [(z_files, plain_ask "other")] c w) = [Ok (mkInst "geo.grb" "other" (nint (-9999), [nint 0]) (nint 9999, [nint 1; nint 2]))].
Proof. vm_compute. split; reflexivity. Qed.

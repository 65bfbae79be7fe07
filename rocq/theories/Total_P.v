(** * Total_P: complete messages are read and written without an exception (C97) *)
From Verif Require Import Base Num PyStr Strings Config Context Spec_Context Aggregator Converter Reader Spec_Reader Controller Spec_Controller Spec_Flow Spec_Aggregation Spec_Convert Spec_Series Spec_Total
  Base_P PyStr_P Context_P2 Reader_P Reader_P2 Reader_P3 Reader_P4 Controller_P2 Controller_P6 Manip_P Flow_P Program_P Series_P Props_Context Props_Context2 Props_Reader Props_Reader2 Props_Controller Props_Flow.
From Coq Require Import Permutation Sorted.
Local Open Scope string_scope.

(** ** the selection never raises *)
Definition steps_only (sel : selection) : Prop := forall k f, In (k, SFun f) sel -> k = "startStep" \/ k = "endStep".
Definition has_steps (m : gmsg) : Prop := (exists a, has_int m "startStep" a) /\ exists b, has_int m "endStep" b.
Lemma find_total m sel : has_steps m -> steps_only sel -> exists b, find (gm_keys m) sel = Ok b.
Proof.
  intros [[a Ha] [b Hb]]. induction sel as [|[k s] sel IH]; intro H; cbn [find]; [eauto|].
  destruct (dget String.eqb (gm_keys m) k) as [v|] eqn:E; [|eauto].
  assert (Hm : exists y, sel_match s v = Ok y).
  { destruct s as [v'|l|g]; cbn [sel_match]; eauto. destruct (H k g (or_introl eq_refl)) as [-> | ->]; unfold has_int in *; rewrite E in *; [injection Ha as ->|injection Hb as ->]; eauto. }
  destruct Hm as [[] ->]; cbn [rbind]; [|eauto]. apply IH. intros k' g' H'. apply (H k' g'). now right.
Qed.
Lemma scan_total sel ms : forall w, Forall has_steps ms -> steps_only sel -> exists gs rest w', scan sel ms w = (Ok gs, rest, w').
Proof.
  induction ms as [|m ms IH]; intros w F S; cbn [scan]; [eauto|]. inversion F as [|? ? F1 F2]; subst. destruct (w_open m w) as [g w1].
  destruct (find_total m sel F1 S) as [[] ->].
  - destruct (IH w1 F2 S) as (gs & rest & w' & ->). eauto.
  - apply IH; assumption.
Qed.
Lemma scan_names_total sel wp ms names p : Forall has_steps ms -> steps_only sel -> sel_pert sel = Ok p -> (p = None \/ wp = true) ->
  forall w, exists gs w', scan_names sel wp ms (map JStr names) w = (Ok gs, w').
Proof.
  intros F S P W. induction names as [|n names IH]; intro w; cbn [map scan_names]; [eauto|]. cbn [jstr rbind]. rewrite P. cbn [rbind].
  assert (E : (match p with Some _ => if wp then Ok (n, p) else Raise OtherError | None => Ok (n, p) end : res (string * option Z)) = Ok (n, p)) by (destruct W as [-> | ->]; [reflexivity|destruct p; reflexivity]).
  rewrite E. clear E. assert (F' : Forall has_steps (filter (in_index n p) ms)).
  { rewrite Forall_forall in *. intros m Hm. apply filter_In in Hm as [Hm _]. auto. }
  destruct (scan_total sel _ w F' S) as (gs & rest & w' & ->). destruct (IH w') as (gs' & w'' & ->). eauto.
Qed.
Definition index_fits (sel : selection) (wp : bool) : Prop := wp = true \/ dget String.eqb sel "perturbationNumber" = None.
Lemma pert_fits sel wp : typed_pert sel -> index_fits sel wp -> exists p, sel_pert sel = Ok p /\ (p = None \/ wp = true).
Proof.
  unfold sel_pert. intros T [-> | ->]; [|eauto]. destruct (dget String.eqb sel "perturbationNumber") as [v|] eqn:E; [|eauto]. destruct (T v E) as (z & ->).
  cbn [jeq]. destruct (z =? -1)%Z; cbn [jint rbind]; eauto.
Qed.
Lemma grib_total sel r w wp names : r_index r = Some wp -> Forall has_steps (r_msgs r) -> steps_only sel -> sel_names sel = Ok (map JStr names) -> typed_pert sel -> index_fits sel wp ->
  exists gs rw, scan_grib sel r w = (Ok gs, rw).
Proof.
  intros I F S N T X. unfold scan_grib. rewrite N, I. destruct (pert_fits _ _ T X) as (p & P1 & P2).
  destruct (scan_names_total sel wp (r_msgs r) names p F S P1 P2 w) as (gs & w' & ->). eauto.
Qed.
Lemma retry_keeps sel sel' : retry_sel sel = Some sel' -> steps_only sel -> steps_only sel'.
Proof.
  unfold retry_sel. destruct (dget String.eqb sel "startStep") as [[| |f]|]; try discriminate. destruct (f 0%Z); [discriminate|]. intros H S.
  assert (E : sel' = dset String.eqb sel "startStep" (SFun (fun s : Z => (0 <=? s)%Z))) by congruence. subst sel'. clear H. intros k g Hk. revert Hk S.
  induction sel as [|[k0 s0] sel IH]; cbn [dset].
  - intros [E|[]] _. left. congruence.
  - destruct (String.eqb_spec "startStep" k0) as [<-|D]; intros [E|E] S; [left; congruence|apply (S k g); now right|apply (S k g); left; exact E|apply IH; [exact E|]]. intros k' g' H'. apply (S k' g'). now right.
Qed.
Lemma gids_total sel r w wp names : good_world w -> r_index r = Some wp -> Forall has_steps (r_msgs r) -> steps_only sel -> sel_names sel = Ok (map JStr names) -> typed_pert sel -> index_fits sel wp ->
  exists gs rw, get_gids sel r w = (Ok gs, rw).
Proof.
  intros Hw I F S N T X. unfold get_gids. destruct (grib_total sel r w wp names I F S N T X) as (gs & [r1 w1] & E). rewrite E. destruct gs as [|g gs]; [|cbn; eauto].
  destruct (retry_sel sel) as [sel'|] eqn:R; [|eauto]. destruct (retry_names _ _ R) as (E1 & _ & E3).
  destruct (scan_grib_spec _ _ _ _ _ _ Hw E) as [(_ & _ & _ & _ & _ & _ & S1 & S2 & _) _].
  assert (G : exists gs rw, scan_grib sel' r1 w1 = (Ok gs, rw)).
  { apply (grib_total sel' r1 w1 wp names); [congruence|now rewrite S2|exact (retry_keeps _ _ R S)|congruence|intros v Hv; apply T; congruence|]. destruct X as [X|X]; [now left|right; congruence]. }
  destruct G as (gs & rw & ->). cbn. eauto.
Qed.

(** ** reading complete messages *)
Lemma text_kstr m k : text_key m k -> exists t, kstr m k = Ok t.
Proof. intros [t H]. unfold kstr. rewrite H. eauto. Qed.
Lemma int_kint m k : int_key m k -> exists z, kint m k = Ok z.
Proof. intros [t H]. unfold kint. rewrite H. eauto. Qed.
Lemma int_kint' m k z : has_int m k z -> kint m k = Ok z.
Proof. intros H. unfold kint. rewrite H. reflexivity. Qed.
Lemma real_kdbl m k : real_key m k -> exists t, kdbl m k = Ok t.
Proof. intros [t H]. unfold kdbl. rewrite H. eauto. Qed.
Lemma grid_total g m : complete_message m -> exists x, grid_details g m = Ok x.
Proof.
  intros (_ & _ & _ & _ & [v Hv] & L & _). unfold grid_details, build_id. rewrite Hv. destruct (key_missing m "longitudeOfLastGridPointInDegrees") eqn:K; cbn [rbind]; [eauto|].
  destruct L as [L|[v' ->]]; [|cbn [rbind]; eauto]. exfalso. unfold key_missing in K. apply Bool.orb_false_iff in K as [K _].
  assert (existsb (String.eqb "longitudeOfLastGridPointInDegrees") (gm_missing m) = true) by (apply existsb_exists; eexists; split; [exact L|apply String.eqb_refl]). congruence.
Qed.
Lemma info_total ms : ms <> [] -> Forall (fun gm => complete_message (snd gm)) ms -> exists x, info_of ms = Ok x.
Proof.
  intros N F. destruct ms as [|[g0 m0] ms]; [now elim N|]. unfold info_of.
  assert (L : complete_message (snd (List.last ((g0, m0) :: ms) (0%Z, m0)))).
  { rewrite Forall_forall in F. apply F. rewrite (app_removelast_last (l := (g0, m0) :: ms) (0%Z, m0)) at 2 by discriminate. apply in_or_app. right. now left. }
  inversion F as [|? ? F0 _]; subst. cbn [snd] in F0.
  assert (T : exists t, kstr (snd (List.last ((g0, m0) :: ms) (0%Z, m0))) "stepType" = Ok t).
  { apply text_kstr. destruct L as (_ & L & _). rewrite Forall_forall in L. apply L. right. now left. }
  destruct T as (t & ->). cbn [rbind]. destruct (real_kdbl m0 "missingValue") as (mv & ->); [apply F0|]. cbn [rbind].
  assert (P : exists ps, mapM (fun gm : Z * gmsg => do a <- kint (snd gm) "startStep"; do b <- kint (snd gm) "endStep"; Ok (a, b)) ((g0, m0) :: ms) = Ok ps /\ ps <> []).
  { assert (G : forall l, Forall (fun gm => complete_message (snd gm)) l -> exists ps, mapM (fun gm : Z * gmsg => do a <- kint (snd gm) "startStep"; do b <- kint (snd gm) "endStep"; Ok (a, b)) l = Ok ps /\ (l <> [] -> ps <> [])).
    { clear. induction l as [|[g m] l IH]; intro F; cbn [mapM]; [exists []; auto|]. inversion F as [|? ? F0 F1]; subst. destruct (IH F1) as (ps & -> & _). cbn [snd] in *.
      destruct F0 as (F0 & _). rewrite Forall_forall in F0. destruct (int_kint m "startStep") as (a & ->); [apply F0; now left|]. destruct (int_kint m "endStep") as (b & ->); [apply F0; right; now left|].
      cbn [rbind]. eexists. split; [reflexivity|discriminate]. }
    destruct (G _ F) as (ps & E & Np). exists ps. split; [exact E|]. apply Np. discriminate. }
  destruct P as (ps & -> & Np). cbn [rbind].
  assert (Q : exists i, find_steps ps = Ok i).
  { destruct ps as [|p ps]; [now elim Np|]. unfold find_steps. cbn [map zmin_list zmax_list rbind]. destruct (1 <? _)%nat; [destruct (fold_left _ _ _)|]; eauto. }
  destruct Q as (i & ->). cbn [rbind]. eauto.
Qed.
Lemma field_total m : complete_message m -> exists a, msg_field m = Ok a.
Proof.
  intros (_ & _ & (b & Hb & L) & _). unfold msg_field. rewrite (int_kint' _ _ _ Hb). cbn [rbind]. destruct (Z.eqb_spec b 0) as [->|D]; [eauto|]. rewrite (L D), Nat.eqb_refl. eauto.
Qed.
Lemma build_total step step2 change ms n : ms <> [] -> Forall (fun gm => complete_message (snd gm) /\ has_int (snd gm) "Nj" n) ms ->
  exists m, build_messages step step2 change ms = Ok m.
Proof.
  intros N F. destruct ms as [|[g0 m0] ms]; [now elim N|]. unfold build_messages.
  set (ref := match (g0, m0) :: ms with _ :: (_, m1) :: _ => m1 | _ => m0 end).
  assert (R : complete_message ref).
  { unfold ref. destruct ms as [|[g1 m1] ms]; inversion F as [|? ? F0 F1]; subst; [apply F0|]. inversion F1 as [|? ? F2 _]; subst. apply F2. }
  pose proof F as Fall. inversion F as [|? ? [F0 Hn0] _]; subst. cbn [snd] in F0, Hn0. clear F. destruct (grid_total g0 m0 F0) as (main & Hm). rewrite Hm. cbn [rbind].
  assert (Tx : forall m k, complete_message m -> In k ["units"; "stepType"; "stepUnits"; "levelType"] -> exists t, kstr m k = Ok t).
  { intros m k (_ & H & _) Hk. apply text_kstr. rewrite Forall_forall in H. now apply H. }
  destruct (Tx ref "units" R) as (t1 & ->); [now left|]. destruct (Tx ref "stepType" R) as (t2 & ->); [right; now left|].
  destruct (Tx m0 "stepUnits" F0) as (t3 & ->); [right; right; now left|]. destruct (Tx m0 "levelType" F0) as (t4 & ->); [right; right; right; now left|]. cbn [rbind].
  destruct (real_kdbl m0 "missingValue") as (mv & ->); [apply F0|]. cbn [rbind].
  pose proof F0 as (_ & _ & _ & _ & _ & _ & (y & mo & d & h & mi & D1 & D2 & D3 & D4)).
  rewrite (int_kint' _ _ _ D1), (int_kint' _ _ _ D3). cbn [rbind].
  assert (Nj : g_nj main = Some n).
  { unfold grid_details in Hm. apply rbind_ok in Hm as [i [_ Hm]]. injection Hm as <-. cbn [g_nj]. unfold opt_int. now rewrite Hn0. }
  assert (G : forall l st, ss_grid2 st = None -> Forall (fun gm => complete_message (snd gm) /\ has_int (snd gm) "Nj" n) l ->
     exists st', foldM (select_body step2 change main) l st = Ok st' /\ ss_grid2 st' = None /\ (ss_first st <> [] \/ l <> [] -> ss_first st' <> [])).
  { induction l as [|[g m] l IH]; intros st S F; cbn [foldM]; [exists st; split; [reflexivity|]; split; [exact S|]; intros [H|H]; [exact H|now elim H]|].
    inversion F as [|? ? [C Hn] F']; subst. cbn [snd] in C, Hn. unfold select_body at 1. pose proof C as (I & _). rewrite Forall_forall in I.
    destruct (int_kint m "startStep") as (s & ->); [apply I; now left|]. destruct (int_kint m "endStep") as (e & ->); [apply I; right; now left|].
    rewrite (int_kint' _ _ _ Hn). destruct (int_kint m "level") as (lv & ->); [apply I; right; right; right; now left|]. cbn [rbind].
    assert (O : other_nj n main = false) by (unfold other_nj; rewrite Nj, Z.eqb_refl; reflexivity). rewrite O. cbn [rbind].
    destruct (field_total m C) as (a & ->). cbn [rbind]. rewrite S. cbv zeta. cbn [rbind].
    match goal with |- context[foldM _ l ?st0] => destruct (IH st0 eq_refl F') as (st' & E1 & E2 & E3) end. exists st'. split; [exact E1|]. split; [exact E2|]. intros _. apply E3. left.
    cbn [ss_first]. destruct (ss_first st) as [|[k v] r]; cbn [dset]; [discriminate|]. destruct (step_eqb _ _); discriminate. }
  destruct (G ((g0, m0) :: ms) (mkSel step [] [] None) eq_refl Fall) as (st & -> & E2 & E3). cbn [rbind]. rewrite E2. cbn [rbind].
  rewrite (C60_partial y mo d h mi D2 D4). cbn [rbind].
  assert (Fs : exists k, first_by_end (ss_first st) = Ok k).
  { unfold first_by_end. pose proof (sort_by_perm s_end (dkeys (ss_first st))) as P. destruct (sort_by s_end (dkeys (ss_first st))) as [|k r]; [|eauto]. exfalso.
    apply Permutation_nil in P. unfold dkeys in P. apply map_eq_nil in P. apply E3; [right; discriminate|exact P]. }
  destruct Fs as (k & ->). cbn [rbind]. eauto.
Qed.

(** ** the operations of the reader *)
Section Request.
  Variables (x : ctx) (nm : string) (f : gfile) (n : Z).
  Hypothesis (U : usable_request x nm) (Hf : usable_file f).
  Hypothesis (Hc : Forall (fun m => forall t, dget String.eqb (gm_keys m) "shortName" = Some (JStr t) -> short_variant nm t -> complete_message m /\ has_int m "Nj" n) (gf_msgs f)).

  Lemma cmd_steps s e sel : select_cmd x s e = Ok sel -> steps_only sel /\ index_fits sel (negb (is_null (x_member x))).
  Proof using.
    unfold select_cmd. destruct (x_short x) as [| | |nm'| |]; try discriminate. intro H.
    assert (E : sel = ([("shortName", SList [JStr nm'; JStr (upper nm'); JStr (nm' +++ "var")])] ++ opt_sel "level" (x_level x) ++ opt_sel "dataTime" (x_dataTime x) ++ opt_sel "dataDate" (x_dataDate x)
          ++ opt_sel "perturbationNumber" (x_member x)
          ++ (if Z.eqb s e then [("endStep", SVal (JNum e)); ("startStep", SVal (JNum s))]
              else [("endStep", SFun (fun s => Z.leb s e)); ("startStep", SFun (fun s0 => Z.leb s s0))]))%list) by congruence. clear H. subst sel.
    assert (O : forall k j k' g, ~ In (k', SFun g) (opt_sel k j)) by (intros k j k' g; unfold opt_sel; destruct (is_null j); [intros []|intros [E|[]]; discriminate]).
    split.
    - intros k g H. apply in_app_or in H as [H|H]; [destruct H as [H|[]]; discriminate|]. do 4 (apply in_app_or in H as [H|H]; [now elim (O _ _ _ _ H)|]).
      destruct (s =? e)%Z; destruct H as [H|[H|[]]]; try discriminate; injection H as <- _; auto.
    - unfold index_fits, opt_sel. destruct (is_null (x_member x)); [right|now left]. cbn [negb].
      destruct (is_null (x_level x)), (is_null (x_dataTime x)), (is_null (x_dataDate x)), (s =? e)%Z; reflexivity.
  Qed.
  Lemma attrs_steps sel : select_cmd_attrs x = Ok sel -> steps_only sel /\ index_fits sel (negb (is_null (x_member x))).
  Proof using.
    unfold select_cmd_attrs. destruct (x_short x) as [| | |nm'| |]; try discriminate. intro H.
    assert (E : sel = (("shortName", SVal (JStr nm')) :: opt_sel "perturbationNumber" (x_member x))%list) by congruence. clear H. subst sel. unfold opt_sel, index_fits. split.
    - intros k g [H|H]; [discriminate|]. destruct (is_null (x_member x)); [destruct H|destruct H as [H|[]]; discriminate].
    - destruct (is_null (x_member x)); [right; reflexivity|now left].
  Qed.
  Lemma file_steps : Forall has_steps (gf_msgs f).
  Proof using Hf. exact (proj2 Hf). Qed.

  (** the selections of a request only accept messages of the variable *)
  Lemma shortname_accepted sel m l : In ("shortName", SList l) sel -> accepted sel m = true -> exists v, dget String.eqb (gm_keys m) "shortName" = Some v /\ existsb (jeq v) l = true.
  Proof using.
    rewrite accepted_find. induction sel as [|[k s] sel IH]; intros H A; [destruct H|]. cbn [find] in A. destruct (dget String.eqb (gm_keys m) k) as [v|] eqn:E; [|discriminate].
    destruct (sel_match s v) as [[]|] eqn:M; cbn [rbind] in A; try discriminate. destruct H as [H|H]; [|now apply IH]. injection H as -> ->. exists v. split; [exact E|]. cbn in M. congruence.
  Qed.

  Lemma info_ok sel r w : good_world w -> fresh f r -> r_index r = Some (negb (is_null (x_member x))) -> select_cmd_attrs x = Ok sel -> Exists (same_variable x nm) (gf_msgs f) ->
    exists y rw, get_grib_info sel r w = (Ok y, rw).
  Proof using U Hf Hc.
    intros Hw [_ Hm] Hi Hs Hex. destruct (attrs_ok x nm U _ Hs) as (N1 & N2 & N3 & N4). destruct (attrs_steps _ Hs) as [S1 S2]. unfold get_grib_info.
    assert (Fm : Forall has_steps (r_msgs r)) by (rewrite Hm; exact file_steps).
    destruct (gids_total _ _ _ _ _ Hw Hi Fm S1 N1 N3 S2) as (gs & [r1 w1] & Eg). rewrite Eg.
    destruct (gids_selected _ _ _ _ _ _ _ _ Hw Hi N1 N2 N3 Eg) as (ms & sel' & He & Hp & Hl & Ho & _). rewrite Hm in He, Hp.
    assert (E : sel' = sel) by (destruct He as [[-> _]|[_ He]]; [reflexivity|congruence]). subst sel'.
    assert (Hin : forall m, In m ms -> complete_message m).
    { intros m H. apply (Permutation_in _ Hp), filter_In in H as [H A]. rewrite Forall_forall in Hc. apply (accepted_variable x nm U _ m Hs) in A as [A _].
      exact (proj1 (Hc m H nm A (or_introl eq_refl))). }
    destruct gs as [|g gs].
    { exfalso. destruct ms; [|discriminate]. apply Permutation_nil in Hp. apply Exists_exists in Hex as (m & M1 & M2). apply (accepted_variable x nm U _ m Hs) in M2.
      assert (In m (filter (accepted sel) (gf_msgs f))) by (now apply filter_In). rewrite Hp in H. destruct H. }
    rewrite (opened_derefs _ _ _ _ Hw Hl Ho). destruct (info_total (combine (g :: gs) ms)) as ([[i t] mv] & ->); [destruct ms; discriminate| |eauto].
    apply Forall_forall. intros [g' m'] H. apply in_combine_r in H. cbn. auto.
  Qed.

  Lemma select_ok s e sel r w : good_world w -> fresh f r -> r_index r = Some (negb (is_null (x_member x))) -> select_cmd x s e = Ok sel ->
    (forall sel', effective_sel sel (gf_msgs f) sel' -> existsb (accepted sel') (gf_msgs f) = true) ->
    r_ext r = None ->
    exists m r' w', select_messages sel r w = (Ok m, (r', w')) /\ m_grid2 m = None /\ r_ext r' = None /\ r_main r' <> None.
  Proof using U Hf Hc.
    intros Hw [_ Hm] Hi Hs Hex Hx. destruct (names_ok x nm U _ _ _ Hs) as (N1 & N2 & N3). destruct (cmd_steps _ _ _ Hs) as [S1 S2]. unfold select_messages.
    assert (Fm : Forall has_steps (r_msgs r)) by (rewrite Hm; exact file_steps).
    destruct (gids_total _ _ _ _ _ Hw Hi Fm S1 N1 N3 S2) as (gs & [r1 w1] & Eg). rewrite Eg.
    destruct (gids_selected _ _ _ _ _ _ _ _ Hw Hi N1 N2 N3 Eg) as (ms & sel' & He & Hp & Hl & Ho & Sc). rewrite Hm in He, Hp.
    assert (Hin : forall m, In m ms -> complete_message m /\ has_int m "Nj" n).
    { intros m H. apply (Permutation_in _ Hp), filter_In in H as [H A]. rewrite Forall_forall in Hc.
      assert (Hn : In ("shortName", SList (map JStr [nm; upper nm; nm +++ "var"])) sel').
      { assert (D : dget String.eqb sel' "shortName" = Some (SList (map JStr [nm; upper nm; nm +++ "var"]))).
        { assert (Es : sel_names sel' = Ok (map JStr [nm; upper nm; nm +++ "var"])) by (destruct He as [[-> _]|[_ He]]; [exact N1|]; destruct (retry_names _ _ He) as (R & _); congruence).
          revert Es. unfold sel_names. destruct (dget String.eqb sel' "shortName") as [[v|l|g]|]; try discriminate.
          intro Es. assert (l = map JStr [nm; upper nm; nm +++ "var"]) by congruence. subst l. reflexivity. }
        exact (dget_In String.eqb String_eqb_spec' _ _ _ D). }
      destruct (shortname_accepted _ _ _ Hn A) as (v & V1 & V2). apply existsb_exists in V2 as (j & J1 & J2). apply in_map_iff in J1 as (t & <- & T).
      destruct v as [| | |t'| |]; try discriminate. cbn [jeq] in J2. apply String.eqb_eq in J2. subst t'. apply (Hc m H t V1). unfold short_variant. cbn [In] in T. intuition. }
    destruct gs as [|g gs].
    { exfalso. destruct ms; [|discriminate]. apply Permutation_nil in Hp. specialize (Hex _ He). rewrite existsb_filter, Hp in Hex. discriminate. }
    rewrite (opened_derefs _ _ _ _ Hw Hl Ho).
    assert (Nj : Forall (fun gm => has_int (snd gm) "Nj" n) (combine (g :: gs) ms)).
    { apply Forall_forall. intros [g' m'] H. apply in_combine_r in H. cbn. now apply Hin. }
    destruct (build_total (r_step r1) (r_step2 r1) (r_change r1) (combine (g :: gs) ms) n) as (m & Hb); [destruct ms; discriminate| |].
    { apply Forall_forall. intros [g' m'] H. apply in_combine_r in H. cbn. auto. }
    rewrite Hb. destruct (build_single _ _ _ _ _ n Hb Nj) as (xs & _ & _ & _ & G2). eexists _, _, _. split; [reflexivity|]. split; [exact G2|]. rewrite G2. cbn [set_sel r_ext r_main].
    destruct Sc as (_ & _ & _ & _ & _ & Sx & _). split; [congruence|discriminate].
  Qed.
End Request.

(** ** the whole execution *)
Lemma bind_eq {A B} (y : M A) (k : A -> M B) s a s1 : y s = (Ok a, s1) -> bind y k s = k a s1.
Proof. unfold bind. now intros ->. Qed.
Lemma on1_eq {A} (op : reader -> world -> res A * (reader * world)) s a r r' w' : c_r1 s = Some r -> op r (c_w s) = (Ok a, (r', w')) ->
  on1 op s = (Ok a, mkCst (Some r') (c_r2 s) (c_wr s) (c_geo s) (c_out s) w').
Proof. unfold on1. now intros -> ->. Qed.
Lemma info_index sel r w y r' w' : good_world w -> get_grib_info sel r w = (Ok y, (r', w')) -> r_index r' = r_index r.
Proof.
  intros Hw H. unfold get_grib_info in H. destruct (get_gids sel r w) as [z [r1 w1]] eqn:Eg.
  destruct (get_gids_spec _ _ _ _ _ _ Hw Eg) as [Sc _]. destruct z as [[|g gs]|e]; try discriminate.
  destruct (w_derefs (g :: gs) w1) as [[ms|e] w2]; [|discriminate]. destruct (info_of ms) as [[[i t] mv]|e]; [|discriminate].
  assert (E : r' = set_steps r1 i) by congruence. subst r'. destruct Sc as [_ [_ [_ [_ [_ [_ [S1 [S2 _]]]]]]]]. exact S1.
Qed.
Lemma convert_total ev e h cut mv l : contains "x=" e = false -> e <> "x" -> ev e = Some h ->
  exists l', convert_fields ev (set_missing_value (converter_new (Some ("x=" +++ e)) cut) mv) l = Ok l'.
Proof.
  intros A B C. unfold convert_fields. induction l as [|[k a] l (l' & IH)]; cbn [mapM]; [eauto|].
  destruct (convert_spec ev e h cut mv a A B C) as (out & E & _). cbn [snd fst]. rewrite E. cbn [rbind]. rewrite IH. cbn [rbind]. eauto.
Qed.
Lemma converts_total o x h m : converts o x h -> exists c m', convert_messages (xt_numexpr o) x m = Ok (c, m').
Proof.
  intros [[D _]|[D (e & E & A & B & C)]]; unfold convert_messages; rewrite D; [eauto|]. rewrite E. cbv zeta.
  destruct (convert_total (xt_numexpr o) e h (x_cutoff x) (m_mv m) (m_first m) A B C) as (l1 & ->).
  destruct (convert_total (xt_numexpr o) e h (x_cutoff x) (m_mv m) (m_second m) A B C) as (l2 & ->). cbn [rbind]. eauto.
Qed.
Lemma one_map_total o m ch b i kv : (forall g b a, exists out, xt_map o g b a = Ok out) -> exists y, one_map o m ch b i kv = Ok y.
Proof. intro H. unfold one_map. destruct (H (grid_of m (b || at_change m ch (fst kv))) (b || at_change m ch (fst kv))%bool (snd kv)) as (out & ->). cbn [rbind]. eauto. Qed.
Lemma write_total o x vals m ch s : works o x -> exists s', write_maps o x vals m ch s = (Ok tt, s').
Proof.
  intros (_ & W & F). unfold write_maps, pcraster. destruct F as [[-> P]|(-> & N1 & N2)]; cbn [jis String.eqb Ascii.eqb Bool.eqb].
  - assert (G : forall vals b i, exists ws, pcr_loop o m ch b i vals = (ws, Ok tt)).
    { clear vals. induction vals as [|kv vals IH]; intros b i; cbn [pcr_loop]; [eauto|]. destruct (one_map_total o m ch b i kv W) as ([b' w] & ->). rewrite P.
      destruct (IH b' (i + 1)%Z) as (ws & ->). eauto. }
    destruct (G vals false 1%Z) as (ws & ->). eauto.
  - assert (G : forall vals b i, exists ws, nc_loop o m ch b i vals = Ok ws).
    { clear vals. induction vals as [|kv vals IH]; intros b i; cbn [nc_loop]; [eauto|]. destruct (one_map_total o m ch b i kv W) as ([b' w] & ->). cbn [rbind].
      destruct (IH b' (i + 1)%Z) as (ws & ->). cbn [rbind]. eauto. }
    destruct (G vals false 0%Z) as (ws & ->). rewrite N1, N2. eauto.
Qed.

(** the information on the steps, and the type of the steps *)
Definition steps_of (x : ctx) (nm : string) (f : gfile) (i : steps_info) : Prop :=
  exists ms ps, those (same_variable x nm) (gf_msgs f) ms /\
    Forall2 (fun m p => has_int m "startStep" (fst p) /\ has_int m "endStep" (snd p)) ms ps /\ find_steps ps = Ok i.
Lemma steps_range x nm f i : steps_of x nm f i -> file_range x nm f i.
Proof. intros (ms & ps & A & B & C). exists ms, ps. destruct (find_steps_range _ _ C). auto. Qed.
Lemma range_total x i t : steps_given x -> (x_doAggr x = true -> exists a u, jint (x_astep x) = Ok a /\ jint (x_unitTime x) = Ok u) ->
  exists s e g, choose_range x i t = Ok (s, e, g).
Proof.
  intros [S E] D. assert (O : forall j d, (j = JNull \/ exists z, j = JNum z) -> exists z, or_int j d = Ok z).
  { intros j d [-> |[z ->]]; cbn; [eauto|]. destruct (z =? 0)%Z; eauto. }
  unfold choose_range. destruct (O _ 0%Z S) as (s & ->). destruct (O _ (i_end i) E) as (e & ->). cbn [rbind]. destruct (x_doAggr x); [|eauto].
  destruct (D eq_refl) as (a & u & A & B). unfold new_aggr. rewrite A, B. cbn [rbind]. destruct (real_start_end _). eauto.
Qed.

Lemma execute_total o x nm f w n : good_world w -> usable_request x nm -> xt_file o (x_input x) = Some f -> usable_file f ->
  Forall (fun m => forall t, dget String.eqb (gm_keys m) "shortName" = Some (JStr t) -> short_variant nm t -> complete_message m /\ has_int m "Nj" n) (gf_msgs f) ->
  works o x -> steps_given x -> (x_doAggr x = true -> exists a u, jint (x_astep x) = Ok a /\ jint (x_unitTime x) = Ok u) ->
  jtruthy (x_input2 x) = false -> Exists (same_variable x nm) (gf_msgs f) ->
  (forall i t s e g sel, steps_of x nm f i -> (exists m0, In m0 (gf_msgs f) /\ same_variable x nm m0 /\ has_text m0 "stepType" t) ->
     choose_range x i t = Ok (s, e, g) -> select_cmd x s e = Ok sel ->
     (forall sel', effective_sel sel (gf_msgs f) sel' -> existsb (accepted sel') (gf_msgs f) = true) /\
     (forall r w1 m r' w2, good_world w1 -> fresh f r -> r_step r = i_step i -> r_step2 r = i_step2 i -> r_change r = i_change i ->
        select_messages sel r w1 = (Ok m, (r', w2)) -> m_grid2 m = None -> exists v, exec_values (xt_numexpr o) x (i_step i) e g m = Ok v)) ->
  exists v s', execute o x true (cst0 w) = (Ok v, s').
Proof.
  intros Hw U Hx Hf Hc W Sg Ag Hno Hex Hgo. unfold execute.
  assert (Init : exists i t mv s e g sel r st L bad i0 f0, init_execution o x (cst0 w) = (Ok (i_step i, sel, e, g), st) /\ steps_of x nm f i /\
     (exists m0, In m0 (gf_msgs f) /\ same_variable x nm m0 /\ has_text m0 "stepType" t) /\ choose_range x i t = Ok (s, e, g) /\ select_cmd x s e = Ok sel /\
     c_r1 st = Some r /\ rinv L bad i0 f0 r (c_w st) [] /\ fresh f r /\ r_index r = Some (negb (is_null (x_member x))) /\ r_step r = i_step i /\ r_step2 r = i_step2 i /\ r_change r = i_change i /\ mv = (mv : num)).
  { unfold init_execution.
    assert (Ho : exists s1, open1 (xt_file o (x_input x)) (negb (is_null (x_member x))) (cst0 w) = (Ok tt, s1) /\ (exists r, c_r1 s1 = Some r /\ r_index r = Some (negb (is_null (x_member x))))).
    { unfold open1, reader_new. rewrite Hx, (proj1 Hf). eexists. split; [reflexivity|]. eexists. split; reflexivity. }
    destruct Ho as (s1 & Ho & r & R1 & R2). rewrite (bind_eq _ _ _ _ _ Ho). destruct (open1_ok o f _ _ _ _ Hx Ho Hf Hw) as (r0 & R0 & F1 & I1 & _). assert (r0 = r) by congruence. subst r0. clear Ho R0.
    assert (Ha : exists attrs, select_cmd_attrs x = Ok attrs) by (unfold select_cmd_attrs; destruct U as (-> & _); eauto). destruct Ha as (attrs & Ha).
    rewrite (bind_eq (lift (select_cmd_attrs x)) _ s1 attrs s1) by (unfold lift; now rewrite Ha).
    destruct (info_ok x nm f n U Hf Hc attrs r (c_w s1) (proj1 I1) F1 R2 Ha Hex) as ([[i t] mv] & [r2 w2] & Hg).
    rewrite (bind_eq _ _ _ _ _ (on1_eq _ _ _ _ _ _ R1 Hg)). cbv iota beta.
    assert (So : steps_of x nm f i /\ (exists m0, In m0 (gf_msgs f) /\ same_variable x nm m0 /\ has_text m0 "stepType" t) /\ r_step r2 = i_step i /\ r_step2 r2 = i_step2 i /\ r_change r2 = i_change i).
    { destruct (attrs_ok x nm U _ Ha) as (N1 & N2 & N3 & N4). destruct F1 as [_ Rm].
      destruct (info_selected _ _ _ _ _ _ _ _ (proj1 I1) R2 N1 N2 N3 Hg) as (ms & ps & sel' & He & Hp & Hps & Hst & Q). cbn [fst] in *.
      assert (E : sel' = attrs) by (destruct He as [[-> _]|[_ He]]; [reflexivity|congruence]). subst sel'. rewrite Rm in Hp. split.
      - exists ms, ps. split; [|auto]. apply (those_filter _ (accepted attrs)); [|exact Hp]. intros a _. now apply (accepted_variable x nm U).
      - split; [|exact Q]. destruct (C79_information _ _ _ _ _ _ _ _ _ _ (proj1 I1) R2 N1 N2 N3 Hg) as (sel' & Es & (g1 & g2 & G1 & _ & G3 & _) & _).
        assert (E : sel' = attrs) by (destruct Es as [[-> _]|[_ Es]]; [reflexivity|congruence]). subst sel'. rewrite Rm in G1. apply filter_In in G1 as [G1 G4].
        exists g1. split; [exact G1|]. split; [|exact G3]. now apply (accepted_variable x nm U attrs). }
    destruct So as (So & St & Q1 & Q2 & Q3). destruct (info_keeps _ _ _ _ _ _ _ _ _ _ _ _ I1 F1 Hg) as [F2 I2]. pose proof (info_index _ _ _ _ _ _ (proj1 I1) Hg) as X2. rewrite R2 in X2.
    set (s2 := mkCst (Some r2) (c_r2 s1) (c_wr s1) (c_geo s1) (c_out s1) w2).
    assert (Mw : exists s3, make_writer o x mv s2 = (Ok tt, s3)) by (unfold make_writer; destruct W as (W & _); rewrite W; eauto). destruct Mw as (s3 & Mw). rewrite (bind_eq _ _ _ _ _ Mw).
    destruct (make_writer_ok _ _ _ _ _ _ Mw) as (M1 & _ & M3 & _). unfold s2 in M1, M3. cbn [c_r1 c_w] in M1, M3. rewrite <- M3 in I2.
    assert (Lg : exists s4, look_for_geopotential x s3 = (Ok tt, s4)).
    { unfold look_for_geopotential. destruct (x_doCorr x); [|unfold ret; eauto]. destruct (has_geopotential (chosen_member x) r2 (c_w s3)) as [y [r3 w3]] eqn:Eh.
      assert (Ey : exists b, y = Ok b) by (unfold has_geopotential in Eh; rewrite X2 in Eh; eexists; exact (eq_sym (f_equal fst Eh))). destruct Ey as (b & ->).
      rewrite (bind_eq _ _ _ _ _ (on1_eq _ _ _ _ _ _ M1 Eh)). eauto. }
    destruct Lg as (s4 & Lg). rewrite (bind_eq _ _ _ _ _ Lg). destruct (look_ok _ _ _ _ _ _ _ _ _ _ _ Lg M1 F2 I2) as (L1 & L2 & _).
    destruct (range_total x i t Sg Ag) as (s & e & g & Hr). rewrite (bind_eq (lift (choose_range x i t)) _ s4 (s, e, g) s4) by (unfold lift; now rewrite Hr). cbv iota beta.
    assert (Hs : exists sel, select_cmd x s e = Ok sel) by (unfold select_cmd; destruct U as (-> & _); eauto). destruct Hs as (sel & Hs).
    rewrite (bind_eq (lift (select_cmd x s e)) _ s4 sel s4) by (unfold lift; now rewrite Hs). unfold ret.
    exists i, t, mv, s, e, g, sel, r2, s4, (w_live (c_w (cst0 w))), (w_bad (c_w (cst0 w))), (w_index (c_w (cst0 w))), (w_files (c_w (cst0 w))). auto 20. }
  destruct Init as (i & t & _ & s & e & g & sel & r & st & L & bad & i0 & f0 & Hi & So & St & Hr & Hs & C1 & I1 & F1 & X1 & Q1 & Q2 & Q3 & _).
  rewrite (bind_eq _ _ _ _ _ Hi). cbv iota beta. clear Hi. destruct (Hgo i t s e g sel So St Hr Hs) as [Eff Val].
  assert (Xn : r_ext r = None).
  { destruct (r_ext r) as [g0|] eqn:E; [|reflexivity]. exfalso. destruct I1 as (_ & _ & _ & _ & I & _). destruct (I g0 (or_intror E)). }
  destruct (select_ok x nm f n U Hf Hc s e sel r (c_w st) (proj1 I1) F1 X1 Hs Eff Xn) as (m & r' & w' & Hsel & G2 & Ex & Em).
  rewrite (bind_eq _ _ _ _ _ (on1_eq _ _ _ _ _ _ C1 Hsel)).
  set (st1 := mkCst (Some r') (c_r2 st) (c_wr st) (c_geo st) (c_out st) w').
  assert (Sf : second_file o x sel m st1 = (Ok m, st1)) by (unfold second_file; rewrite Hno; reflexivity). rewrite (bind_eq _ _ _ _ _ Sf).
  assert (Ai : exists y, intertable_gids r' w' = (Ok y, (r', w'))).
  { assert (Nb : forall e0, forget (Ok m) = Raise e0 -> ~ bad_scan e0) by discriminate. destruct (select_step _ _ _ _ _ _ _ _ _ _ I1 Hsel Nb) as (l & I2 & _). unfold intertable_gids.
    destruct (r_main r') as [g0|] eqn:Eg; [|now elim Em]. rewrite Ex. destruct I2 as (G & Hl & _ & _ & I & _). pose proof (I g0 (or_introl Eg)) as Hin.
    apply in_map_iff in Hin as ([g' m'] & <- & Hin). unfold w_deref. cbn [fst]. rewrite (good_dget w' g' m' G); [|rewrite Hl; apply in_or_app; now right]. eauto. }
  destruct Ai as (y & Ai). assert (C2 : c_r1 st1 = Some r') by reflexivity. change w' with (c_w st1) in Ai at 1. rewrite (bind_eq _ _ _ _ _ (on1_eq _ _ _ _ _ _ C2 Ai)).
  destruct (Val r (c_w st) m r' w' (proj1 I1) F1 Q1 Q2 Q3 Hsel G2) as ([[vals m'] ch] & Hv).
  match goal with |- context[bind (lift (exec_values (xt_numexpr o) x (i_step i) e g m)) ?k ?s0] => rewrite (bind_eq (lift (exec_values (xt_numexpr o) x (i_step i) e g m)) k s0 (vals, m', ch) s0) by (unfold lift; now rewrite Hv) end. cbv iota beta.
  match goal with |- context[bind (write_maps _ _ _ _ _) _ ?s0] => destruct (write_total o x vals m' ch s0 W) as (s5 & Hwr) end.
  rewrite (bind_eq _ _ _ _ _ Hwr). unfold ret. eauto.
Qed.
Lemma total_succeeds o x w v s' : execute o x true (cst0 w) = (Ok v, s') -> succeeds o x w.
Proof.
  intro H. split; [eauto|]. destruct (run_command o x w) as [out s] eqn:E. cbn [fst].
  exact (C28_pcraster _ _ _ _ _ _ _ H E (or_intror (ex_intro _ v eq_refl))).
Qed.

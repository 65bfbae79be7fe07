(** * Properties C57-C60 (main/readers/grib.py, Messages of __init__.py).
    Vocabulary: Spec_Reader.v. Proofs: Reader_P.v .. Reader_P4.v. *)
From Verif Require Import Base Num PyStr Config Context Aggregator Reader Spec_Reader Base_P PyStr_P Context_P2 Reader_P Reader_P2 Reader_P3 Reader_P4.
From Coq Require Import Permutation Sorted.
Local Open Scope string_scope.

(** ** Example messages *)
Definition ex_msg (name : string) (s e nj lev time : Z) (vals : list num) : gmsg :=
  mkGmsg [("shortName", JStr name); ("startStep", JNum s); ("endStep", JNum e); ("Nj", JNum nj); ("Ni", JNum 2); ("level", JNum lev);
          ("dataDate", JNum 20240229); ("dataTime", JNum time); ("units", JStr "K"); ("stepType", JStr "instant"); ("stepUnits", JStr "h");
          ("levelType", JStr "sfc"); ("bitmapPresent", JNum 0); ("numberOfValues", JNum 2); ("gridType", JStr "regular_ll")]
         [("missingValue", nint 9999); ("longitudeOfFirstGridPointInDegrees", nint 10); ("longitudeOfLastGridPointInDegrees", nint 20)] [] vals [].
Definition ex_file : gfile := mkGfile true
  [ex_msg "2t" 0 0 2 0 0 [nint 1; nint 2]; ex_msg "2t" 6 6 2 0 0 [nint 3; nint 4]; ex_msg "tp" 0 6 2 0 0 [nint 5; nint 6];
   ex_msg "2t" 12 12 2 0 0 [nint 7; nint 8]; ex_msg "2t" 24 24 1 0 0 [nint 9]; ex_msg "2t" 36 36 1 0 0 [nint 10]].
(** the selections of an execution: all messages of the parameter, then those
    in the time range (context.py:145-175) *)
Definition ex_attrs (s : string) : selection := [("shortName", SVal (JStr s))].
Definition ex_select (s : string) (a b : Z) : selection :=
  [("shortName", SList [JStr s; JStr (upper s); JStr (s +++ "var")]); ("endStep", SFun (fun z => Z.leb z b)); ("startStep", SFun (fun z => Z.leb a z))].
(** open a file, ask for its steps, select messages *)
Definition read (f : gfile) (s : string) (a b : Z) : res messages * (reader * world) :=
  match reader_new (Some f) false world0 with
  | (Raise e, w) => (Raise e, (mkReader None None [] None 0 0 "" None None, w))
  | (Ok r, w) => let '(_, (r, w)) := get_grib_info (ex_attrs s) r w in select_messages (ex_select s a b) r w
  end.

(** ** C57 *)
Definition quad (x : reading) : Z * Z * Z * Z := (rd_start x, rd_end x, rd_nj x, rd_level x).

Lemma entries_length step step2 change xs : forall bef, List.length (entries step step2 change bef xs) = List.length xs.
Proof. induction xs as [|x xs IH]; intro bef; cbn; [reflexivity|now rewrite IH]. Qed.
Lemma entries_quad step step2 change xs k : forall bef, In k (map fst (entries step step2 change bef xs)) ->
  In (s_start k, s_end k, s_res k, s_level k) (map quad xs).
Proof.
  induction xs as [|x xs IH]; intros bef; cbn [entries map fst]; [intros []|]. intros [<-|H]; [left; reflexivity|right; exact (IH _ H)].
Qed.
Lemma entries_NoDup step step2 change xs : forall bef, NoDup (map quad xs) -> NoDup (map fst (entries step step2 change bef xs)).
Proof.
  induction xs as [|x xs IH]; intros bef H; cbn [entries map fst]; [constructor|]. cbn [map] in H. inversion H as [|? ? H1 H2]; subst.
  constructor; [|now apply IH]. intro Hi. apply entries_quad in Hi. contradiction.
Qed.

(** full statement: after a run on an indexed file whose accepted messages all
    have the same grid and pairwise different (start, end, Nj, level), there is
    one field per accepted message *)
Definition C57_full : Prop := forall f s a b m rw acc quads,
  gf_indexable f = true -> read f s a b = (Ok m, rw) ->
  acc = filter (accepted (ex_select s a b)) (gf_msgs f) -> acc <> [] ->
  Forall2 (fun g q => exists x, reads g x /\ quad x = q) acc quads -> NoDup quads ->
  (exists n, Forall (fun g => has_int g "Nj" n) acc) ->
  (List.length (m_first m) + List.length (m_second m) = List.length acc)%nat.

(** The three variants of an upper case short name contain it twice: each
    message is read twice, the second time with the temporal resolution of the
    end of the series. *)
Definition ex_upper : gfile := mkGfile true
  [ex_msg "T" 0 0 2 0 0 [nint 1; nint 2]; ex_msg "T" 6 6 2 0 0 [nint 3; nint 4]; ex_msg "T" 18 18 2 0 0 [nint 5; nint 6]].
Lemma ex_reads name s e nj lev time vals : exists x, reads (ex_msg name s e nj lev time vals) x /\ quad x = (s, e, nj, lev).
Proof.
  exists (mkReading s e nj lev (Nd vals)). split; [|reflexivity]. unfold reads, has_int. cbn. repeat split; auto.
  exists 0%Z. repeat split. intro H. contradiction.
Qed.
Lemma upper_read : exists m rw, read ex_upper "T" 0 18 = (Ok m, rw) /\ List.length (m_first m) = 5%nat.
Proof.
  destruct (read ex_upper "T" 0 18) as [[m|e] rw] eqn:E.
  - exists m, rw. split; [reflexivity|].
    assert (L : match fst (read ex_upper "T" 0 18) with Ok m => List.length (m_first m) | Raise _ => 0%nat end = 5%nat) by (vm_compute; reflexivity).
    rewrite E in L. exact L.
  - assert (L : match fst (read ex_upper "T" 0 18) with Ok m => List.length (m_first m) | Raise _ => 0%nat end = 5%nat) by (vm_compute; reflexivity).
    rewrite E in L. discriminate.
Qed.
Theorem C57_upper_case_refuted : ~ C57_full.
Proof.
  intro H. destruct upper_read as [m [rw [E L]]].
  specialize (H ex_upper "T" 0%Z 18%Z m rw (gf_msgs ex_upper) [(0, 0, 2, 0); (6, 6, 2, 0); (18, 18, 2, 0)]%Z eq_refl E).
  rewrite L in H. enough (Hlen : (5 + List.length (m_second m) = 3)%nat) by lia. apply H.
  - vm_compute. reflexivity.
  - discriminate.
  - repeat constructor; apply ex_reads.
  - repeat constructor; cbn; intuition congruence.
  - exists 2%Z. repeat constructor.
Qed.
Print Assumptions C57_upper_case_refuted.

(** Proved part: for selections whose short names are pairwise different (a
    lower case name and its variants, see [C57_variants]). The messages taken
    from the file are exactly the accepted ones; with one grid, all their fields
    are in the first set, under their step keys; with one change of grid, those
    before the change are in the first and those from it on in the second; none
    is lost. *)
Theorem C57_messages : forall sel r w wp names m r' w', good_world w -> r_index r = Some wp ->
  sel_names sel = Ok (map JStr names) -> NoDup names -> typed_pert sel ->
  select_messages sel r w = (Ok m, (r', w')) ->
  exists gms sel', effective_sel sel (r_msgs r) sel' /\ Permutation (map snd gms) (filter (accepted sel') (r_msgs r)) /\
   (forall n, Forall (fun gm => has_int (snd gm) "Nj" n) gms ->
      exists xs, Forall2 reads (map snd gms) xs /\
        holds (m_first m) (entries (r_step r) (r_step2 r) (r_change r) [] xs) /\ m_second m = [] /\ m_grid2 m = None /\
        (NoDup (map quad xs) -> List.length (m_first m) = List.length gms)) /\
   (forall n gms1 gms2, gms = (gms1 ++ gms2)%list -> gms1 <> [] -> gms2 <> [] ->
      Forall (fun gm => has_int (snd gm) "Nj" n) gms1 ->
      Forall (fun gm => exists n2, has_int (snd gm) "Nj" n2 /\ n2 <> n) gms2 ->
      exists xs1 xs2, Forall2 reads (map snd gms1) xs1 /\ Forall2 reads (map snd gms2) xs2 /\
        holds (m_first m) (entries (r_step r) (r_step2 r) (r_change r) [] xs1) /\
        holds (m_second m) (entries (r_step r) (r_step2 r) (r_change r) xs1 xs2) /\
        (NoDup (map quad (xs1 ++ xs2)) -> List.length (m_first m) = List.length gms1 /\ List.length (m_second m) = List.length gms2) /\
        exists gr k, m_grid2 m = Some (gr, k) /\ (exists g m', In (g, m') gms2 /\ grid_details g m' = Ok gr) /\
          In k (map fst (m_second m)) /\ Forall (fun k' => s_start k <= s_start k')%Z (map fst (m_second m))).
Proof.
  intros sel r w wp names m r' w' Hw Hi Hn Hnd Hty H.
  destruct (select_selected _ _ _ _ _ _ _ _ Hw Hi Hn Hnd Hty H) as [gms [sel' [He [Hp Hb]]]].
  exists gms, sel'. split; [exact He|]. split; [exact Hp|].
  assert (Hlen : forall (l : list (Z * gmsg)) xs, Forall2 reads (map snd l) xs -> List.length xs = List.length l).
  { intros l xs Hxs. rewrite <- (map_length snd l). clear -Hxs. induction Hxs; cbn; congruence. }
  split.
  - intros n Hall. destruct (build_single _ _ _ _ _ n Hb Hall) as [xs [Hxs [Hh [H2 Hg]]]].
    exists xs. repeat split; auto; try apply Hh. intro Hq.
    rewrite (Permutation_length (holds_NoDup_length _ _ Hh (entries_NoDup _ _ _ _ _ Hq))), entries_length. now apply Hlen.
  - intros n g1 g2 -> Hne1 Hne2 Ha1 Ha2. destruct (build_change _ _ _ _ _ _ n Hb Hne1 Hne2 Ha1 Ha2) as [xs1 [xs2 [Hx1 [Hx2 [Hh1 [Hh2 Hg]]]]]].
    exists xs1, xs2. split; [exact Hx1|]. split; [exact Hx2|]. split; [exact Hh1|]. split; [exact Hh2|]. split; [|exact Hg].
    intro Hq. rewrite map_app in Hq.
    assert (Hq1 : NoDup (map quad xs1)) by (clear -Hq; induction (map quad xs1); [constructor|]; cbn in Hq; inversion Hq; subst; constructor; [intro; apply H1; apply in_or_app; now left|auto]).
    assert (Hq2 : NoDup (map quad xs2)) by (exact (NoDup_app_r _ _ Hq)).
    rewrite (Permutation_length (holds_NoDup_length _ _ Hh1 (entries_NoDup _ _ _ _ _ Hq1))), (Permutation_length (holds_NoDup_length _ _ Hh2 (entries_NoDup _ _ _ _ _ Hq2))), !entries_length.
    split; now apply Hlen.
Qed.
Print Assumptions C57_messages.

(** the selection of an execution meets the hypotheses of C57_messages whenever
    the short name is not its own upper case *)
Theorem C57_variants : forall x s a b sel, select_cmd x a b = Ok sel -> x_short x = JStr s ->
  (x_member x = JNull \/ exists z, x_member x = JNum z) -> upper s <> s ->
  exists names, sel_names sel = Ok (map JStr names) /\ NoDup names /\ typed_pert sel.
Proof.
  intros x s a b sel H Hs Hmem Hu. unfold select_cmd in H. rewrite Hs in H.
  exists [s; upper s; s +++ "var"].
  assert (Hlen : forall t, String.length t = String.length s -> t <> s +++ "var").
  { intros t Ht E. apply (f_equal String.length) in E. rewrite slen_app in E. cbn [String.length] in E. lia. }
  assert (Hul : String.length (upper s) = String.length s) by (unfold upper; clear; induction s; cbn; congruence).
  split; [|split].
  - injection H as <-. reflexivity.
  - constructor; [|constructor; [|constructor; [|constructor]]]; cbn; auto.
    + intros [E|[E|[]]]; [now apply Hu|]. symmetry in E. exact (Hlen s eq_refl E).
    + intros [E|[]]. symmetry in E. exact (Hlen _ Hul E).
  - intros v Hv. assert (E : dget String.eqb sel "perturbationNumber" = match x_member x with JNull => None | j => Some (SVal j) end).
    { clear Hv. injection H as <-. cbn [List.app dget String.eqb]. unfold opt_sel.
      assert (Happ : forall (l1 l2 : selection) k, dget String.eqb l1 k = None -> dget String.eqb (l1 ++ l2)%list k = dget String.eqb l2 k).
      { clear. intros l1 l2 k. induction l1 as [|[k' v'] l1 IH]; [reflexivity|]. cbn. destruct (String.eqb k k'); [discriminate|exact IH]. }
      cbn [dget]. rewrite Happ by (destruct (is_null (x_level x)); reflexivity). rewrite Happ by (destruct (is_null (x_dataTime x)); reflexivity).
      rewrite Happ by (destruct (is_null (x_dataDate x)); reflexivity).
      destruct (x_member x) eqn:Em; cbn; try reflexivity. destruct (Z.eqb a b); reflexivity. }
    rewrite E in Hv. destruct Hmem as [Hmem|[z Hmem]]; rewrite Hmem in Hv; [discriminate|]. injection Hv as <-. eauto.
Qed.
Print Assumptions C57_variants.
Example C57_nonvacuous :
  match fst (read ex_file "2t" 0 36) with
  | Ok m => (List.length (m_first m) =? 3)%nat && (List.length (m_second m) =? 2)%nat && (match m_grid2 m with Some (_, k) => s_start k =? 24 | None => false end)%Z
            && forallb (fun kv => negb (s_end (fst kv) =? 24)%Z) (m_first m)
  | Raise _ => false
  end = true.
Proof. vm_compute. reflexivity. Qed.

(** ** C58: step detection *)
(** full statement for a uniform series: the reported time step is the spacing
    of the end steps that occur in the messages *)
Definition C58_full : Prop := forall ps es d i, find_steps ps = Ok i -> end_steps ps es ->
  (2 <= List.length es)%nat -> spaced es 0 (List.length es - 1) d -> i_step i = d /\ i_step2 i = (-1)%Z /\ i_change i = "".
(** Two messages per time (two levels): the information request does not select
    a level, so the spacing found is 0 *)
Theorem C58_levels_refuted : ~ C58_full.
Proof.
  intro H. specialize (H [(0, 0); (0, 0); (6, 6); (6, 6)]%Z [0; 6]%Z 6%Z _ eq_refl).
  destruct H as [H _].
  - split; [repeat constructor; lia|]. intro z. cbn. intuition.
  - cbn. lia.
  - intros n Hn. destruct n as [|n]; cbn in *; [reflexivity|lia].
  - vm_compute in H. discriminate.
Qed.
Print Assumptions C58_levels_refuted.

(** Proved part: the end steps of the messages are pairwise different *)
Theorem C58_steps : forall sel r w wp names i t mv r' w', good_world w -> r_index r = Some wp ->
  sel_names sel = Ok (map JStr names) -> NoDup names -> typed_pert sel ->
  get_grib_info sel r w = (Ok (i, t, mv), (r', w')) ->
  exists ms ps sel', effective_sel sel (r_msgs r) sel' /\ Permutation ms (filter (accepted sel') (r_msgs r)) /\
    Forall2 (fun m p => has_int m "startStep" (fst p) /\ has_int m "endStep" (snd p)) ms ps /\
    is_min (i_start i) (map fst ps) /\ is_max (i_end i) (map snd ps) /\
    (forall s e, ps = [(s, e)] -> i_step i = (e - s)%Z /\ i_step2 i = (-1)%Z /\ i_change i = "") /\
    forall es d, end_steps ps es -> NoDup (map snd ps) ->
      ((2 <= List.length es)%nat -> spaced es 0 (List.length es - 1) d -> i_step i = d /\ i_step2 i = (-1)%Z /\ i_change i = "") /\
      (forall e k, (1 <= k)%nat -> (S k < List.length es)%nat -> spaced es 0 k d -> (nth (S k) es 0 - nth k es 0 = e)%Z -> e <> d ->
         i_step i = d /\ i_step2 i = e /\
         (forall qs, Permutation qs ps -> map snd qs = es -> StronglySorted Z.le (map fst qs) ->
            i_change i = str_of_Z (fst (nth (S k) qs (0, 0)%Z)) +++ "-" +++ str_of_Z (nth (S k) es 0%Z))).
Proof.
  intros sel r w wp names i t mv r' w' Hw Hi Hn Hnd Hty H.
  destruct (info_selected _ _ _ _ _ _ _ _ Hw Hi Hn Hnd Hty H) as [ms [ps [sel' [He [Hp [Hf [Hs _]]]]]]]. cbn [fst] in Hs.
  exists ms, ps, sel'. split; [exact He|]. split; [exact Hp|]. split; [exact Hf|].
  destruct (find_steps_range _ _ Hs) as [H1 H2]. split; [exact H1|]. split; [exact H2|]. split.
  - intros s e ->. rewrite find_steps_single in Hs. injection Hs as <-. auto.
  - intros es d Hes Hd. split; [intros; eapply find_steps_uniform; eauto|].
    intros e k Hk Hl Hsp Hdiff Hne. destruct (find_steps_change _ _ _ _ _ _ Hs Hes Hd Hk Hl Hsp Hdiff Hne) as [A [B C]].
    split; [exact A|]. split; [exact B|]. intros qs Hq Hqe Hqs. rewrite C, (sorted_starts ps qs Hq Hqs). unfold label.
    change 0%Z with (fst (0, 0)%Z) at 1. rewrite map_nth. reflexivity.
Qed.
Print Assumptions C58_steps.
Example C58_nonvacuous : match reader_new (Some ex_file) false world0 with
  | (Ok r, w) => match fst (get_grib_info (ex_attrs "2t") r w) with
                 | Ok (i, t, mv) => (i_start i =? 0) && (i_end i =? 36) && (i_step i =? 6) && (i_step2 i =? 12) && (String.eqb (i_change i) "24-24")
                 | Raise _ => false end
  | _ => false end%Z = true.
Proof. vm_compute. reflexivity. Qed.

(** ** C59: handles *)
(** full statement: whatever is done with a reader, closing it releases all its
    handles, none was used after release, and it may be closed again *)
Definition C59_full : Prop := forall f wp w r w0 os xs r1 w1, good_world w -> reader_new (Some f) wp w = (Ok r, w0) ->
  rops_run os r w0 = (xs, (r1, w1)) -> ~ In OClose os ->
  exists r2 w2, close r1 w1 = (Ok tt, (r2, w2)) /\ w_live w2 = w_live w /\ w_bad w2 = w_bad w /\ fst (close r2 w2) = Ok tt.
(** closing twice always fails *)
Theorem C59_close_twice : forall r w r' w', close r w = (Ok tt, (r', w')) -> close r' w' = (Raise TypeError, (r', w')).
Proof.
  intros r w r' w' H. unfold close in H. destruct (r_sel r) as [gs|]; [|discriminate]. injection H as <- _. reflexivity.
Qed.
Print Assumptions C59_close_twice.
Theorem C59_refuted : ~ C59_full.
Proof.
  intro H. destruct (H ex_file false world0 _ _ [] _ _ _ ltac:(repeat constructor) eq_refl eq_refl ltac:(intros [])) as [r2 [w2 [Hc [_ [_ Ht]]]]].
  rewrite (C59_close_twice _ _ _ _ Hc) in Ht. discriminate.
Qed.
Print Assumptions C59_refuted.
(** a second selection forgets the handles of the first *)
Definition two_selections : list rop := [OSelect (ex_select "2t" 0 36); OSelect (ex_select "2t" 0 36)].
Lemma two_selections_run : forall r w0 xs r1 w1 r2 w2, reader_new (Some ex_file) false world0 = (Ok r, w0) ->
  rops_run two_selections r w0 = (xs, (r1, w1)) -> close r1 w1 = (Ok tt, (r2, w2)) -> List.length (w_live w2) = 5%nat.
Proof.
  intros r w0 xs r1 w1 r2 w2 H1 H2 H3.
  assert (L : match reader_new (Some ex_file) false world0 with
              | (Ok r, w0) => let '(_, (r1, w1)) := rops_run two_selections r w0 in List.length (w_live (snd (snd (close r1 w1))))
              | _ => 0%nat end = 5%nat) by (vm_compute; reflexivity).
  rewrite H1, H2, H3 in L. exact L.
Qed.
Theorem C59_two_selections_refuted : ~ (forall f wp w r w0 os xs r1 w1, good_world w -> reader_new (Some f) wp w = (Ok r, w0) ->
  rops_run os r w0 = (xs, (r1, w1)) -> ~ In OClose os ->
  exists r2 w2, close r1 w1 = (Ok tt, (r2, w2)) /\ w_live w2 = w_live w).
Proof.
  intro H. destruct (reader_new (Some ex_file) false world0) as [[r|e] w0] eqn:E; [|discriminate].
  destruct (rops_run two_selections r w0) as [xs [r1 w1]] eqn:E1.
  destruct (H ex_file false world0 _ _ two_selections _ _ _ ltac:(repeat constructor) E E1 ltac:(intros [X|[X|[]]]; discriminate)) as [r2 [w2 [Hc Hl]]].
  pose proof (two_selections_run _ _ _ _ _ _ _ E E1 Hc) as L. rewrite Hl in L. discriminate.
Qed.
Print Assumptions C59_two_selections_refuted.
(** the identifier of a grid: every successful call leaves handles open for ever *)
Theorem C59_get_id_leaks : forall f sel w i w', good_world w -> get_id f sel w = (Ok i, w') ->
  exists l, l <> [] /\ w_live w' = (w_live w ++ l)%list.
Proof.
  intros f sel w i w' Hw H. unfold get_id in H. destruct f as [f|]; [|discriminate].
  destruct (reader_new (Some f) false w) as [[r|e] w0] eqn:En; [|discriminate].
  pose proof (reader_new_inv _ _ _ _ _ Hw En) as Hinv. pose proof Hinv as [Hg0 [Hl0 _]]. rewrite app_nil_r in Hl0.
  destruct (get_gids sel r w0) as [[[|g gs]|e] [r1 w1]] eqn:Eg; try discriminate.
  destruct (get_gids_spec _ _ _ _ _ _ Hg0 Eg) as [Hsc [ms [Hlen [Ho _]]]].
  destruct (w_deref g w1) as [[m|e] w2] eqn:Ed; [|discriminate].
  assert (w2 = w1) by (unfold w_deref in Ed; destruct (dget Z.eqb (w_live w1) g); congruence). subst w2.
  destruct (grid_details g m) as [x|e]; [|discriminate].
  unfold close in H. destruct Hsc as [Hs _]. assert (Hsel : r_sel r1 = Some []) by (rewrite Hs; destruct Hinv as [_ [_ [E _]]]; exact E).
  rewrite Hsel in H. cbn [w_releases fold_left] in H.
  assert (E : w_live w' = w_live w1) by (destruct (r_index r1), (r_file r1); injection H as _ <-; reflexivity).
  exists (combine (g :: gs) ms). split; [destruct ms; discriminate|]. rewrite E. destruct Ho as [-> _]. now rewrite Hl0.
Qed.
Print Assumptions C59_get_id_leaks.
Example C59_get_id_nonvacuous : exists i w', get_id (Some ex_file) [("shortName", SList [JStr "tp"])] world0 = (Ok i, w') /\ i = "10$20$2$2$2$regular_ll".
Proof. eexists _, _. vm_compute. split; reflexivity. Qed.

(** Proved part: any sequence of information requests (that succeed or find no
    message), geopotential tests, accesses to the handles for the tables, and at
    most one selection (whatever it raises after scanning), then one close:
    everything opened is released, no handle was used or released when not open,
    and the index or file is closed. Handles of other readers are untouched. *)
Theorem C59_partial : forall f wp w r w0 os xs r1 w1, good_world w -> reader_new (Some f) wp w = (Ok r, w0) ->
  rops_run os r w0 = (xs, (r1, w1)) -> Forall2 clean_outcome os xs -> (List.length (filter is_select os) <= 1)%nat ->
  exists r2 w2, close r1 w1 = (Ok tt, (r2, w2)) /\ w_live w2 = w_live w /\ w_bad w2 = w_bad w /\
    w_index w2 = w_index w /\ w_files w2 = w_files w.
Proof.
  intros f wp w r w0 os xs r1 w1 Hw Hr Hos Hcl Hone.
  pose proof (reader_new_inv _ _ _ _ _ Hw Hr) as Hinv.
  destruct (rops_inv _ _ _ _ _ _ _ _ _ _ _ Hinv Hos Hcl (or_introl eq_refl) Hone) as [l Hl].
  destruct (rinv_close _ _ _ _ _ _ _ Hl) as [r2 [Hc _]]. eexists _, _. split; [exact Hc|]. auto.
Qed.
Print Assumptions C59_partial.
Example C59_nonvacuous :
  let os := [OInfo (ex_attrs "2t"); OGeo None; OSelect (ex_select "2t" 0 36); OAux] in
  match reader_new (Some ex_file) false world0 with
  | (Ok r, w) => let '(xs, (r1, w1)) := rops_run os r w in
                 Forall2 clean_outcome os xs /\ xs = [Ok tt; Ok tt; Ok tt; Ok tt] /\ List.length (w_live w1) = 5%nat
  | _ => False
  end.
Proof. vm_compute. repeat split; repeat constructor; try (left; reflexivity); try discriminate. Qed.

(** ** C60: reference date *)
Definition C60_full : Prop := forall y m d h, valid_day y m d -> (0 <= h <= 23)%Z ->
  ref_date (10000 * y + 100 * m + d) (100 * h) = Ok (mkDate y m d h).
(** 06:00 (dataTime 600) is refused *)
Theorem C60_hour_refuted : ~ C60_full.
Proof.
  intro H. specialize (H 2024 2 29 6)%Z. assert (V : valid_day 2024 2 29) by (apply valid_day_spec; vm_compute; intuition discriminate).
  specialize (H V ltac:(lia)). vm_compute in H. discriminate.
Qed.
Print Assumptions C60_hour_refuted.
(** Proved part: midnight and the hours from 10:00 on *)
Theorem C60_partial : forall y m d h mi, valid_day y m d -> (10 <= h <= 23 /\ 0 <= mi <= 59 \/ h = 0 /\ mi = 0)%Z ->
  ref_date (10000 * y + 100 * m + d) (100 * h + mi) = Ok (mkDate y m d h).
Proof.
  intros y m d h mi Hv Hh. rewrite ref_date_exact by (auto; lia). unfold hour_read.
  destruct (Z.leb_spec 10 h) as [H|H]; [reflexivity|]. destruct Hh as [Hh|[-> ->]]; [lia|]. reflexivity.
Qed.
Print Assumptions C60_partial.
(** what happens at every time of the day: 01:mm and 02:mm are read as 1m and
    2m hours, 03:00-09:59 are refused *)
Theorem C60_exact : forall y m d h mi, valid_day y m d -> (0 <= h <= 23)%Z -> (0 <= mi <= 59)%Z ->
  ref_date (10000 * y + 100 * m + d) (100 * h + mi) =
  if (10 <=? h)%Z then Ok (mkDate y m d h)
  else if (h =? 0)%Z then (if (mi <=? 23)%Z then Ok (mkDate y m d mi) else Raise ValueError)
  else if (10 * h + mi / 10 <=? 23)%Z then Ok (mkDate y m d (10 * h + mi / 10)) else Raise ValueError.
Proof.
  intros y m d h mi Hv Hh Hm. rewrite ref_date_exact by auto. unfold hour_read.
  destruct (10 <=? h)%Z; [reflexivity|]. destruct (h =? 0)%Z; [destruct (mi <=? 23)%Z; reflexivity|]. destruct (_ <=? 23)%Z; reflexivity.
Qed.
Print Assumptions C60_exact.
(** a date that is not in the calendar (30 February, 31 November) is refused *)
Theorem C60_impossible : forall y m d h mi, (1000 <= y <= 9999 /\ 1 <= m <= 12 /\ 1 <= d <= 31)%Z -> ~ valid_day y m d ->
  (0 <= h <= 23)%Z -> (0 <= mi <= 59)%Z -> ref_date (10000 * y + 100 * m + d) (100 * h + mi) = Raise ValueError.
Proof. exact ref_date_impossible. Qed.
Print Assumptions C60_impossible.
(** the date of the messages is that of the first selected message; a selection
    whose first message is from 03:00-09:59 never succeeds *)
Theorem C60_messages : forall step step2 change g0 m0 rest m, build_messages step step2 change ((g0, m0) :: rest) = Ok m ->
  exists dd dt, has_int m0 "dataDate" dd /\ has_int m0 "dataTime" dt /\ ref_date dd dt = Ok (m_date m) /\
    forall y mo d h mi, dd = (10000 * y + 100 * mo + d)%Z -> dt = (100 * h + mi)%Z -> valid_day y mo d -> (0 <= mi <= 59)%Z ->
      ~ (3 <= h <= 9)%Z.
Proof.
  intros step step2 change g0 m0 rest m H. destruct (build_inv _ _ _ _ _ H) as [g [m1 [r [main [st [E [_ [_ [_ [_ [_ [_ [_ [dd [dt [Hd [Ht Hr]]]]]]]]]]]]]]]]].
  injection E as <- <- <-. exists dd, dt. repeat split; auto. intros y mo d h mi -> -> Hv Hmi Hh.
  rewrite C60_exact in Hr by (auto; lia). destruct (Z.leb_spec 10 h); [lia|]. destruct (Z.eqb_spec h 0); [lia|].
  pose proof (Z.div_pos mi 10 ltac:(lia) ltac:(lia)). destruct (Z.leb_spec (10 * h + mi / 10) 23); [lia|discriminate].
Qed.
Print Assumptions C60_messages.
Example C60_nonvacuous : ref_date 20240229 1200 = Ok (mkDate 2024 2 29 12) /\ ref_date 20240229 0 = Ok (mkDate 2024 2 29 0)
  /\ ref_date 20240229 100 = Ok (mkDate 2024 2 29 10) /\ ref_date 20240229 600 = Raise ValueError
  /\ valid_day 2024 2 29 /\ ~ valid_day 2023 2 29 /\ ~ valid_day 2023 11 31 /\ ref_date 20231131 1200 = Raise ValueError.
Proof. rewrite !valid_day_spec. vm_compute. intuition discriminate. Qed.

(** * Props_Reader2: C79, the description of the selected fields: unit, step
    type, step unit, level type, missing value (grib.py:149-262,
    __init__.py:146-209). *)
From Verif Require Import Base Num PyStr Config Context Aggregator Reader Spec_Reader Base_P PyStr_P Context_P2 Reader_P Reader_P2 Reader_P3 Reader_P4.
From Verif Require Props_Reader.
From Coq Require Import Permutation Sorted.
Local Open Scope string_scope.

(** ** Specification *)
(** a text key, a floating point key of a message *)
Definition has_text (m : gmsg) (k s : string) : Prop := dget String.eqb (gm_keys m) k = Some (JStr s).
Definition has_dbl (m : gmsg) (k : string) (x : num) : Prop := dget String.eqb (gm_dbl m) k = Some x.
(** the description [d] of some fields holds for the message [g] *)
Definition describes (d : messages) (g : gmsg) : Prop :=
  has_text g "units" (m_unit d) /\ has_text g "stepType" (m_type d) /\ has_text g "stepUnits" (m_step_units d) /\
  has_text g "levelType" (m_level d) /\ has_dbl g "missingValue" (m_mv d).
(** messages that agree on the keys of the description *)
Definition alike (l : list gmsg) : Prop := forall g g', In g l -> In g' l ->
  (forall k s, In k ["units"; "stepType"; "stepUnits"; "levelType"] -> has_text g k s -> has_text g' k s) /\
  (forall x, has_dbl g "missingValue" x -> has_dbl g' "missingValue" x).

(** full statement: the unit, the step type and the missing value reported for a
    selection hold for each message in it *)
Definition C79_full : Prop := forall f s a b m rw g,
  gf_indexable f = true -> Props_Reader.read f s a b = (Ok m, rw) ->
  In g (gf_msgs f) -> accepted (Props_Reader.ex_select s a b) g = true -> describes m g.

Lemma kstr_ok m k s : kstr m k = Ok s <-> has_text m k s.
Proof. unfold kstr, has_text. destruct (dget String.eqb (gm_keys m) k) as [[]|]; split; congruence. Qed.
Lemma kdbl_ok m k x : kdbl m k = Ok x <-> has_dbl m k x.
Proof. unfold kdbl, has_dbl. destruct (dget String.eqb (gm_dbl m) k); split; congruence. Qed.

(** Messages in different units under one name: the reported unit is that of
    the second message. *)
Definition with_unit (u : string) (m : gmsg) : gmsg :=
  mkGmsg (dset String.eqb (gm_keys m) "units" (JStr u)) (gm_dbl m) (gm_missing m) (gm_values m) (gm_bitmap m).
Definition ex_two_units : gfile := mkGfile true
  [with_unit "C" (Props_Reader.ex_msg "2t" 0 0 2 0 0 [nint 1; nint 2]); Props_Reader.ex_msg "2t" 6 6 2 0 0 [nint 274; nint 275]].
Theorem C79_units_refuted : ~ C79_full.
Proof.
  intro H. destruct (Props_Reader.read ex_two_units "2t" 0 6) as [[m|e] rw] eqn:E; [|vm_compute in E; discriminate].
  specialize (H ex_two_units "2t" 0%Z 6%Z m rw _ eq_refl E (or_introl eq_refl) eq_refl). destruct H as [H _].
  vm_compute in E. assert (Em : m_unit m = "K") by (injection E as <- _; reflexivity). rewrite Em in H. vm_compute in H. discriminate.
Qed.
Print Assumptions C79_units_refuted.

(** the head of a sorted list is the first of the least elements *)
Lemma sort_head {A} (key : A -> Z) l : forall c r, sort_by key l = c :: r ->
  exists a b, l = (a ++ c :: b)%list /\ Forall (fun x => (key c < key x)%Z) a /\ Forall (fun x => (key c <= key x)%Z) b.
Proof.
  induction l as [|x l IH]; intros c r H; cbn [sort_by] in H; [discriminate|].
  pose proof (sort_by_perm key l) as P. pose proof (sort_by_sorted key l) as S. destruct (sort_by key l) as [|y t] eqn:E; cbn [insert_by] in H.
  - apply Permutation.Permutation_nil in P. subst l. injection H as <- _. exists [], []. split; [reflexivity|]. split; constructor.
  - destruct (key x <=? key y)%Z eqn:L.
    + injection H as <- _. exists [], l. split; [reflexivity|]. split; [constructor|]. apply Z.leb_le in L. apply Forall_forall. intros z Hz.
      apply (Permutation.Permutation_in _ (Permutation.Permutation_sym P)) in Hz. inversion S as [|? ? _ F]; subst. rewrite Forall_forall in F. destruct Hz as [<-|Hz]; [exact L|]. specialize (F z Hz). lia.
    + injection H as <- _. destruct (IH y t eq_refl) as (a & b & -> & Ha & Hb). exists (x :: a), b. split; [reflexivity|]. split; [|exact Hb]. constructor; [apply Z.leb_gt in L; lia|exact Ha].
Qed.
(** where each item comes from: the unit and the step type from the second
    message (the first if it is alone), the others from the first one; the first
    step is the first of those with the least end step *)
Theorem C79_source : forall step step2 change g0 m0 rest m, build_messages step step2 change ((g0, m0) :: rest) = Ok m ->
  let ref := match rest with (_, m1) :: _ => m1 | [] => m0 end in
  has_text ref "units" (m_unit m) /\ has_text ref "stepType" (m_type m) /\
  has_text m0 "stepUnits" (m_step_units m) /\ has_text m0 "levelType" (m_level m) /\ has_dbl m0 "missingValue" (m_mv m) /\
  exists a b, map fst (m_first m) = (a ++ m_first_step m :: b)%list /\
    Forall (fun k => (s_end (m_first_step m) < s_end k)%Z) a /\ Forall (fun k => (s_end (m_first_step m) <= s_end k)%Z) b.
Proof.
  intros step step2 change g0 m0 rest m H. cbv zeta. unfold build_messages in H.
  apply rbind_ok in H as [main [_ H]]. cbv zeta in H. apply rbind_ok in H as [u [Hu H]]. apply rbind_ok in H as [t [Ht H]].
  apply rbind_ok in H as [su [Hsu H]]. apply rbind_ok in H as [lt [Hlt H]]. apply rbind_ok in H as [mv [Hmv H]].
  apply rbind_ok in H as [dd [_ H]]. apply rbind_ok in H as [dt [_ H]]. apply rbind_ok in H as [st [_ H]].
  apply rbind_ok in H as [g2 [_ H]]. apply rbind_ok in H as [d [_ H]]. apply rbind_ok in H as [fs [Hfs H]].
  assert (F : exists a b, map fst (ss_first st) = (a ++ fs :: b)%list /\ Forall (fun k => (s_end fs < s_end k)%Z) a /\ Forall (fun k => (s_end fs <= s_end k)%Z) b).
  { unfold first_by_end in Hfs. destruct (sort_by s_end (dkeys (ss_first st))) as [|k r] eqn:E; [discriminate|]. injection Hfs as ->. exact (sort_head s_end _ _ _ E). }
  injection H as <-. cbn [m_unit m_type m_step_units m_level m_mv m_first m_first_step]. rewrite !kstr_ok in *. rewrite !kdbl_ok in *.
  destruct rest as [|[g1 m1] rest]; auto 10.
Qed.
Print Assumptions C79_source.

(** Proved part: messages that agree on these keys are described correctly,
    whatever the selection, its retry and the state of the reader *)
Theorem C79_alike_partial : forall sel r w wp names m r' w', good_world w -> r_index r = Some wp ->
  sel_names sel = Ok (map JStr names) -> NoDup names -> typed_pert sel ->
  select_messages sel r w = (Ok m, (r', w')) ->
  exists sel', effective_sel sel (r_msgs r) sel' /\
    let acc := filter (accepted sel') (r_msgs r) in
    (exists g g', In g acc /\ In g' acc /\ has_text g "units" (m_unit m) /\ has_text g "stepType" (m_type m) /\
       has_text g' "stepUnits" (m_step_units m) /\ has_text g' "levelType" (m_level m) /\ has_dbl g' "missingValue" (m_mv m)) /\
    (alike acc -> forall g, In g acc -> describes m g).
Proof.
  intros sel r w wp names m r' w' Hw Hi Hn Hnd Hty H.
  destruct (select_selected _ _ _ _ _ _ _ _ Hw Hi Hn Hnd Hty H) as [gms [sel' [He [Hp Hb]]]].
  exists sel'. split; [exact He|]. cbv zeta. set (acc := filter _ _) in *.
  destruct gms as [|[g0 m0] rest]; [discriminate|]. destruct (C79_source _ _ _ _ _ _ _ Hb) as [H1 [H2 [H3 [H4 [H5 _]]]]]. cbv zeta in *.
  set (ref := match rest with _ :: _ => _ | [] => m0 end) in *.
  assert (I0 : In m0 acc) by (apply (Permutation_in m0 Hp); left; reflexivity).
  assert (I1 : In ref acc) by (apply (Permutation_in ref Hp); unfold ref; destruct rest as [|[g1 m1] rest]; cbn; auto).
  split; [exists ref, m0; auto 8|]. intros Ha g Ig. destruct (Ha _ _ I0 Ig) as [A0 A0']. destruct (Ha _ _ I1 Ig) as [A1 _].
  repeat split; [apply A1|apply A1|apply A0|apply A0|apply A0']; auto; cbn; auto.
Qed.
Print Assumptions C79_alike_partial.

(** the step type of the file information is that of one accepted message, the
    missing value that of another; both hold for all if the messages agree *)
Theorem C79_information : forall sel r w wp names i t mv r' w', good_world w -> r_index r = Some wp ->
  sel_names sel = Ok (map JStr names) -> NoDup names -> typed_pert sel ->
  get_grib_info sel r w = (Ok (i, t, mv), (r', w')) ->
  exists sel', effective_sel sel (r_msgs r) sel' /\
    let acc := filter (accepted sel') (r_msgs r) in
    (exists g g', In g acc /\ In g' acc /\ has_text g "stepType" t /\ has_dbl g' "missingValue" mv) /\
    (alike acc -> forall g, In g acc -> has_text g "stepType" t /\ has_dbl g "missingValue" mv).
Proof.
  intros sel r w wp names i t mv r' w' Hw Hi Hn Hnd Hty H. unfold get_grib_info in H. destruct (get_gids sel r w) as [y [r1 w1]] eqn:Eg.
  destruct y as [[|g gs]|e]; [discriminate| |discriminate].
  destruct (gids_selected _ _ _ _ _ _ _ _ Hw Hi Hn Hnd Hty Eg) as [ms [sel' [He [Hp [Hl [Ho _]]]]]].
  rewrite (opened_derefs _ _ _ _ Hw Hl Ho) in H. destruct (info_of (combine (g :: gs) ms)) as [[[inf t0] mv0]|e] eqn:Ei; [|discriminate].
  assert (Et : t0 = t) by congruence. assert (Ev : mv0 = mv) by congruence. clear H. subst t0 mv0.
  destruct ms as [|m0 ms]; [discriminate|]. cbn [combine] in Ei. unfold info_of in Ei.
  apply rbind_ok in Ei as [t' [Ht Ei]]. apply rbind_ok in Ei as [mv' [Hmv Ei]]. apply rbind_ok in Ei as [ps [_ Ei]]. apply rbind_ok in Ei as [inf' [_ Ei]].
  assert (Et : t' = t) by congruence. assert (Ev : mv' = mv) by congruence. clear Ei. subst t' mv'. apply kstr_ok in Ht. apply kdbl_ok in Hmv.
  exists sel'. split; [exact He|]. cbv zeta. set (acc := filter _ _) in *.
  set (ml := snd (List.last ((g, m0) :: combine gs ms) (0%Z, m0))) in *.
  assert (I0 : In m0 acc) by (apply (Permutation_in m0 Hp); left; reflexivity).
  assert (I1 : In ml acc).
  { apply (Permutation_in ml Hp). unfold ml. assert (Hne : ((g, m0) :: combine gs ms) <> []) by discriminate.
    destruct (exists_last Hne) as [l' [x Ex]]. rewrite Ex, last_last. destruct x as [gx mx]. cbn [snd].
    assert (In (gx, mx) (combine (g :: gs) (m0 :: ms))) by (cbn [combine]; rewrite Ex; apply in_or_app; right; left; reflexivity).
    eapply in_combine_r; eassumption. }
  split; [exists ml, m0; auto|]. intros Ha h Ih. destruct (Ha _ _ I0 Ih) as [_ A0]. destruct (Ha _ _ I1 Ih) as [A1 _].
  split; [apply A1; cbn; auto|apply A0; exact Hmv].
Qed.
Print Assumptions C79_information.

(** a second file of coarser resolution: its fields become the second set, with
    the grid of its first message and its first step; everything else, the unit
    included, is that of the first file *)
Theorem C79_second_file : forall m m2, let m' := append_2nd m m2 in
  m_first m' = m_first m /\ m_second m' = m_first m2 /\ m_grid m' = m_grid m /\
  m_grid2 m' = Some (m_grid m2, m_first_step m2) /\ have_change m' = true /\
  m_unit m' = m_unit m /\ m_type m' = m_type m /\ m_step_units m' = m_step_units m /\ m_level m' = m_level m /\
  m_mv m' = m_mv m /\ m_date m' = m_date m /\ m_first_step m' = m_first_step m.
Proof. intros m m2. cbv zeta. repeat split. Qed.
Print Assumptions C79_second_file.
(** full statement for two files: the description holds for the fields of both *)
Definition C79_files_full : Prop := forall f f2 s a b m m2 rw rw2 g,
  gf_indexable f = true -> gf_indexable f2 = true ->
  Props_Reader.read f s a b = (Ok m, rw) -> Props_Reader.read f2 s a b = (Ok m2, rw2) ->
  In g (gf_msgs f ++ gf_msgs f2)%list -> accepted (Props_Reader.ex_select s a b) g = true ->
  (forall h, In h (gf_msgs f) -> describes m h) -> (forall h, In h (gf_msgs f2) -> describes m2 h) ->
  describes (append_2nd m m2) g.
(** a first file in degrees Celsius, a second one in Kelvin *)
Definition ex_one_unit (u : string) : gfile := mkGfile true
  [with_unit u (Props_Reader.ex_msg "2t" 0 0 2 0 0 [nint 1; nint 2]); with_unit u (Props_Reader.ex_msg "2t" 6 6 2 0 0 [nint 3; nint 4])].
Lemma ex_one_unit_ok u : exists m rw, Props_Reader.read (ex_one_unit u) "2t" 0 6 = (Ok m, rw) /\ m_unit m = u /\
  forall h, In h (gf_msgs (ex_one_unit u)) -> describes m h.
Proof.
  eexists _, _. split; [vm_compute; reflexivity|]. split; [reflexivity|].
  intros h [<-|[<-|[]]]; vm_compute; repeat split.
Qed.
Theorem C79_second_unit_refuted : ~ C79_files_full.
Proof.
  intro H. destruct (ex_one_unit_ok "C") as [m [rw [E [Eu D]]]]. destruct (ex_one_unit_ok "K") as [m2 [rw2 [E2 [_ D2]]]].
  specialize (H (ex_one_unit "C") (ex_one_unit "K") "2t" 0%Z 6%Z m m2 rw rw2
    (with_unit "K" (Props_Reader.ex_msg "2t" 0 0 2 0 0 [nint 1; nint 2])) eq_refl eq_refl E E2).
  destruct H as [H _]; [do 2 right; left; reflexivity|vm_compute; reflexivity|exact D|exact D2|].
  change (m_unit (append_2nd m m2)) with (m_unit m) in H. rewrite Eu in H. vm_compute in H. discriminate.
Qed.
Print Assumptions C79_second_unit_refuted.

Example C79_nonvacuous :
  (exists m rw, Props_Reader.read Props_Reader.ex_file "2t" 0 36 = (Ok m, rw) /\ m_unit m = "K" /\ m_type m = "instant" /\
     m_step_units m = "h" /\ m_level m = "sfc" /\ m_mv m = nint 9999) /\
  alike (filter (accepted (Props_Reader.ex_select "2t" 0 36)) (gf_msgs Props_Reader.ex_file)) /\
  List.length (filter (accepted (Props_Reader.ex_select "2t" 0 36)) (gf_msgs Props_Reader.ex_file)) = 5%nat.
Proof.
  split; [|split].
  - eexists _, _. split; [vm_compute; reflexivity|]. repeat split.
  - intros g g' Hg Hg'. cbn [gf_msgs Props_Reader.ex_file] in *.
    assert (G : forall h, In h (filter (accepted (Props_Reader.ex_select "2t" 0 36)) (gf_msgs Props_Reader.ex_file)) ->
      exists s e nj v, h = Props_Reader.ex_msg "2t" s e nj 0 0 v).
    { intros h Hh. vm_compute in Hh. repeat (destruct Hh as [<-|Hh]; [eexists _, _, _, _; vm_compute; reflexivity|]). destruct Hh. }
    destruct (G g Hg) as (s & e & nj & v & ->). destruct (G g' Hg') as (s' & e' & nj' & v' & ->). split.
    + intros k t [<-|[<-|[<-|[<-|[]]]]] Ht; exact Ht.
    + intros x Hx; exact Hx.
  - vm_compute. reflexivity.
Qed.

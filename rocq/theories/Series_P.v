(** * Series_P: inversion of an aggregated execution (C94, C95) *)
From Verif Require Import Base Num PyStr Strings Config Context Spec_Context Aggregator Converter Reader Spec_Reader Controller Spec_Controller Spec_Flow Spec_Aggregation Spec_Convert Spec_Series
  Base_P Context_P2 Reader_P Reader_P2 Reader_P3 Reader_P4 Controller_P2 Controller_P6 Manip_P Flow_P Props_Context Props_Context2 Props_Reader Props_Reader2 Props_Controller Props_Flow.
From Coq Require Import Permutation Sorted.
Local Open Scope string_scope.

(** ** a successful execution with one input file *)
Lemma execute_selected o x nm f w vals m' change s' : good_world w -> usable_request x nm -> xt_file o (x_input x) = Some f -> usable_file f ->
  jtruthy (x_input2 x) = false -> execute o x true (cst0 w) = (Ok (vals, m', change), s') ->
  exists i t s e g m s1 sel r w1 r' w2,
    file_range x nm f i /\ (exists m0, In m0 (gf_msgs f) /\ same_variable x nm m0 /\ has_text m0 "stepType" t) /\ choose_range x i t = Ok (s, e, g) /\ select_cmd x s e = Ok sel /\ good_world w1 /\ fresh f r /\
    r_step r = i_step i /\ r_step2 r = i_step2 i /\ r_change r = i_change i /\
    select_messages sel r w1 = (Ok m, (r', w2)) /\
    exec_values (xt_numexpr o) x (i_step i) e g m = Ok (vals, m', change) /\
    c_out s1 = [] /\ write_maps o x vals m' change s1 = (Ok tt, s').
Proof.
  intros Hw U Hx Hf Hno H. unfold execute in H. apply bind_ok in H as ([[[input sel] e] g] & s1 & Hi & H).
  unfold init_execution in Hi. apply bind_ok in Hi as ([] & s2 & Ho & Hi).
  destruct (open1_ok o f _ _ _ _ Hx Ho Hf Hw) as (r & R1 & F1 & I1 & O1). clear Ho.
  apply bind_ok in Hi as (attrs & s3 & Ha & Hi). apply lift_ok in Ha as [Ha ->].
  apply bind_ok in Hi as ([[i t] mv] & s3 & Hg & Hi). apply on1_ok in Hg as (r0 & r2 & w2 & E0 & Hg & E1 & E2 & E3 & E4).
  assert (r0 = r) by congruence. subst r0.
  destruct (info_range x nm U _ f _ _ _ _ _ _ _ (proj1 I1) Hf F1 Ha Hg) as (Fr & Q1 & Q2 & Q3).
  assert (Ht : exists m0, In m0 (gf_msgs f) /\ same_variable x nm m0 /\ has_text m0 "stepType" t).
  { destruct F1 as [[wp Wp] Rm]. destruct (attrs_ok x nm U _ Ha) as (N1 & N2 & N3 & N4).
    destruct (C79_information _ _ _ _ _ _ _ _ _ _ (proj1 I1) Wp N1 N2 N3 Hg) as (sel' & Es & (g1 & g2 & G1 & _ & G3 & _) & _).
    assert (E : sel' = attrs) by (destruct Es as [[-> _]|[_ Es]]; [reflexivity|congruence]). subst sel'. rewrite Rm in G1. apply filter_In in G1 as [G1 G4].
    exists g1. split; [exact G1|]. split; [|exact G3]. now apply (accepted_variable x nm U attrs). }
  destruct (info_keeps _ _ _ _ _ _ _ _ _ _ _ _ I1 F1 Hg) as [F2 I2]. rewrite <- E2 in I2.
  apply bind_ok in Hi as (u4 & s4 & Hm & Hi). apply make_writer_ok in Hm as (M1 & _ & M3 & M4).
  apply bind_ok in Hi as (u5 & s5 & Hl & Hi).
  assert (E1' : c_r1 s4 = Some r2) by congruence. rewrite <- M3 in I2.
  destruct (look_ok _ _ _ _ _ _ _ _ _ _ _ Hl E1' F2 I2) as (L1 & L2 & L3).
  apply bind_ok in Hi as ([[s e'] g'] & s6 & Hc & Hi). apply lift_ok in Hc as [Hc ->].
  apply bind_ok in Hi as (sel' & s6 & Hs & Hi). apply lift_ok in Hs as [Hs ->].
  apply ret_ok in Hi as [Hi ->]. assert (Ei : input = i_step i /\ sel = sel' /\ e = e' /\ g = g') by (repeat split; congruence). destruct Ei as (-> & -> & -> & ->). clear Hi.
  apply bind_ok in H as (m1 & s7 & Hsel & H). apply on1_ok in Hsel as (r0 & r3 & w3 & E5 & Hsel & E6 & E7 & E8 & E9).
  assert (r0 = r2) by congruence. subst r0.
  apply bind_ok in H as (m & s8 & H2 & H). apply bind_ok in H as (aux & s9 & Hx9 & H).
  apply on1_ok in Hx9 as (_ & _ & _ & _ & _ & _ & _ & _ & O9).
  apply bind_ok in H as ([[v mm] ch] & s10 & He & H). apply lift_ok in He as [He ->].
  apply bind_ok in H as (u & s11 & Hwr & H). apply ret_ok in H as [H ->]. assert (E : v = vals /\ mm = m' /\ ch = change) by (repeat split; congruence).
  destruct E as (-> & -> & ->). clear H. unfold second_file in H2. rewrite Hno in H2. apply ret_ok in H2 as [-> ->].
  exists i, t, s, e', g', m1, s9, sel', r2, (c_w s5), r3, w3. destruct u.
  split; [exact Fr|]. split; [exact Ht|]. split; [exact Hc|]. split; [exact Hs|]. split; [exact (proj1 L2)|]. split; [exact F2|].
  do 3 (split; [assumption|]). split; [exact Hsel|]. split; [exact He|]. split; [cbn in O1; congruence|exact Hwr].
Qed.

(** the fields of selected messages on one grid *)
Definition read_one (ms : list gmsg) (step step2 : Z) (change : string) (m : messages) : Prop :=
  ms <> [] /\ (exists g0 m0, In m0 ms /\ grid_details g0 m0 = Ok (m_grid m)) /\
  (exists m0, In m0 ms /\ dget String.eqb (gm_dbl m0) "missingValue" = Some (m_mv m)) /\
  (forall k a, In (k, a) (m_first m) -> wf_arr a) /\
  forall n, Forall (fun g => has_int g "Nj" n) ms ->
    exists xs, Forall2 reads ms xs /\ holds (m_first m) (entries step step2 change [] xs) /\ m_second m = [] /\ m_grid2 m = None.
Lemma field_wf m a : msg_field m = Ok a -> wf_arr a.
Proof.
  unfold msg_field. intro H. apply rbind_ok in H as [b [_ H]]. destruct (b =? 0)%Z; [injection H as <-; exact I|].
  destruct (Nat.eqb_spec (List.length (gm_bitmap m)) (List.length (gm_values m))) as [E|]; [|discriminate]. injection H as <-. unfold masked_where.
  destruct (existsb _ _); [|exact I]. cbn. now rewrite map_length.
Qed.
Lemma dset_In {V} (d : list (step * V)) k v k' v' : In (k', v') (dset step_eqb d k v) -> In (k', v') d \/ v' = v.
Proof.
  induction d as [|[k0 v0] d IH]; cbn [dset]; [intros [E|[]]; right; congruence|]. destruct (step_eqb k k0) eqn:E; cbn [In]; intros [H|H]; [right; congruence|auto|auto|].
  destruct (IH H); auto.
Qed.
Lemma fold_wf step2 change main ms : forall st st', foldM (select_body step2 change main) ms st = Ok st' ->
  (forall k a, In (k, a) (ss_first st) -> wf_arr a) -> forall k a, In (k, a) (ss_first st') -> wf_arr a.
Proof.
  induction ms as [|[g m] ms IH]; intros st st' H Hs; [injection H as <-; exact Hs|].
  cbn [foldM] in H. apply rbind_ok in H as [s1 [Hb H]]. apply (IH _ _ H). clear IH H.
  unfold select_body in Hb. apply rbind_ok in Hb as [s [_ Hb]]. apply rbind_ok in Hb as [e [_ Hb]]. apply rbind_ok in Hb as [nj [_ Hb]]. apply rbind_ok in Hb as [lev [_ Hb]].
  cbv zeta in Hb. apply rbind_ok in Hb as [g2 [_ Hb]]. apply rbind_ok in Hb as [v [Hv Hb]]. apply field_wf in Hv.
  destruct g2; [destruct (other_nj nj main)|]; injection Hb as <-; cbn [ss_first]; auto. intros k a Ha. apply dset_In in Ha as [Ha| ->]; [eauto|exact Hv].
Qed.
Lemma build_read step step2 change gms m : build_messages step step2 change gms = Ok m -> read_one (map snd gms) step step2 change m.
Proof.
  intro Hb. split; [|split; [|split; [|split]]].
  - intro E. apply map_eq_nil in E. subst gms. discriminate.
  - destruct (build_inv _ _ _ _ _ Hb) as (g0 & m0 & rest & main & st & -> & G1 & G2 & _). exists g0, m0. split; [now left|congruence].
  - destruct gms as [|[g0 m0] rest]; [discriminate|]. destruct (C79_source _ _ _ _ _ _ _ Hb) as (_ & _ & _ & _ & H & _). exists m0. split; [now left|exact H].
  - destruct (build_inv _ _ _ _ _ Hb) as (g0 & m0 & rest & main & st & _ & _ & _ & Hf & -> & _). apply (fold_wf _ _ _ _ _ _ Hf). intros k a [].
  - intros n Hall. apply Forall_map in Hall. destruct (build_single _ _ _ _ _ n Hb Hall) as (xs & X1 & X2 & X3 & X4). exists xs. auto.
Qed.

Section Request.
  Variables (x : ctx) (nm : string).
  Hypothesis (U : usable_request x nm).

  (** the retry drops the first step *)
  Lemma retry_select s e sel sel' : select_cmd x s e = Ok sel -> retry_sel sel = Some sel' ->
    (0 < s)%Z /\ s <> e /\ ((e <> 0)%Z -> select_cmd x 0 e = Ok sel').
  Proof.
    unfold select_cmd. destruct (x_short x) as [| | |nm'| |]; try discriminate. intro H.
    assert (E : sel = ([("shortName", SList [JStr nm'; JStr (upper nm'); JStr (nm' +++ "var")])] ++ opt_sel "level" (x_level x) ++ opt_sel "dataTime" (x_dataTime x) ++ opt_sel "dataDate" (x_dataDate x)
          ++ opt_sel "perturbationNumber" (x_member x)
          ++ (if Z.eqb s e then [("endStep", SVal (JNum e)); ("startStep", SVal (JNum s))]
              else [("endStep", SFun (fun s => Z.leb s e)); ("startStep", SFun (fun s0 => Z.leb s s0))]))%list) by congruence. clear H.
    intro R. rewrite E in R. unfold retry_sel, opt_sel in R.
    destruct (Z.eqb_spec s e) as [D|D].
    { exfalso. destruct (is_null (x_level x)), (is_null (x_dataTime x)), (is_null (x_dataDate x)), (is_null (x_member x)); cbn in R; discriminate. }
    assert (P : (s <=? 0)%Z = false).
    { destruct (s <=? 0)%Z eqn:P; [|reflexivity]. exfalso.
      destruct (is_null (x_level x)), (is_null (x_dataTime x)), (is_null (x_dataDate x)), (is_null (x_member x)); cbn -[Z.leb] in R; rewrite P in R; discriminate. }
    split; [apply Z.leb_gt in P; exact P|]. split; [exact D|]. intro D0. destruct (Z.eqb_spec 0 e) as [D1|_]; [congruence|]. f_equal. unfold opt_sel.
    destruct (is_null (x_level x)), (is_null (x_dataTime x)), (is_null (x_dataDate x)), (is_null (x_member x)); cbn -[Z.leb] in R; rewrite P in R; cbn -[Z.leb] in R; assert (Q : forall a b : selection, Some a = Some b -> a = b) by congruence; apply Q in R; subst sel'; reflexivity.
  Qed.

  (** amounts since the start: whatever the window, the messages up to its end *)
  Lemma select_since s e sel f r w m r' w' : (0 <= s)%Z -> good_world w -> usable_file f -> fresh f r -> since_start nm f -> select_cmd x s e = Ok sel ->
    (e < s -> e <> 0)%Z -> select_messages sel r w = (Ok m, (r', w')) ->
    exists ms, those (wanted_message x nm 0 e) (gf_msgs f) ms /\ read_one ms (r_step r) (r_step2 r) (r_change r) m.
  Proof using U.
    intros H0 Hw Hf [[wp Hi] Hr] Hz Hs He0 H. destruct (names_ok x nm U _ _ _ Hs) as (N1 & N2 & N3).
    destruct (select_selected _ _ _ _ _ _ _ _ Hw Hi N1 N2 N3 H) as (gms & sel' & He & Hp & Hb). rewrite Hr in Hp, He.
    exists (map snd gms). split; [|exact (build_read _ _ _ _ _ Hb)].
    apply (those_filter _ (accepted sel')); [|exact Hp]. intros a Ha. destruct He as [[-> _]|[Hn Hre]].
    - destruct (Z.eq_dec s 0) as [->|D]; [now apply (accepted_wanted x nm U 0 e sel f)|].
      exfalso. assert (Hin : exists b, In b (gf_msgs f) /\ accepted sel b = true).
      { destruct gms as [|[g0 m0] rest]; [discriminate|]. exists m0. apply filter_In. rewrite <- Hp. now left. }
      destruct Hin as (b & Hb1 & Hb2). apply (accepted_wanted x nm U s e sel f) in Hb2; [|assumption..].
      destruct Hb2 as ((t & T1 & T2) & _ & _ & _ & _ & a1 & b1 & A1 & A2 & W).
      unfold since_start in Hz. rewrite Forall_forall in Hz. destruct (Hz b Hb1 t T1 T2) as (Z1 & _). unfold has_int in A1, Z1. rewrite Z1 in A1. injection A1 as <-.
      unfold in_window in W. destruct (Z.eqb s e); lia.
    - destruct (retry_select _ _ _ _ Hs Hre) as (P1 & P2 & P3). apply (accepted_wanted x nm U 0 e sel' f); [assumption..|]. apply P3. lia.
  Qed.

  Lemma select_wanted s e sel f r w m r' w' : good_world w -> usable_file f -> fresh f r -> select_cmd x s e = Ok sel ->
    Exists (wanted_message x nm s e) (gf_msgs f) -> select_messages sel r w = (Ok m, (r', w')) ->
    exists ms, those (wanted_message x nm s e) (gf_msgs f) ms /\ read_one ms (r_step r) (r_step2 r) (r_change r) m.
  Proof using U.
    intros Hw Hf [[wp Hi] Hr] Hs Hex H. destruct (names_ok x nm U _ _ _ Hs) as (N1 & N2 & N3).
    destruct (select_selected _ _ _ _ _ _ _ _ Hw Hi N1 N2 N3 H) as (gms & sel' & He & Hp & Hb).
    assert (E : sel' = sel).
    { destruct He as [[-> _]|[He _]]; [reflexivity|]. exfalso. rewrite Hr in He. apply Exists_exists in Hex as (m1 & Hm1 & W1).
      apply (accepted_wanted x nm U s e sel f m1 Hf Hm1 Hs) in W1.
      assert (existsb (accepted sel) (gf_msgs f) = true) by (apply existsb_exists; eauto). congruence. }
    subst sel'. rewrite Hr in Hp. exists (map snd gms). split; [|exact (build_read _ _ _ _ _ Hb)].
    apply (those_filter _ (accepted sel)); [|exact Hp]. intros a Ha. now apply (accepted_wanted x nm U s e sel f).
  Qed.
End Request.
(** the aggregation of the request *)
Lemma asked_aggr x i t s e g a u ty : aggregated_request x ty a u -> choose_range x i t = Ok (s, e, Some g) ->
  g = aggr_init t (i_step i) u a ty (jtruthy (x_ahalf x)) (x_aforce x) (requested_or (x_tstart x) 0) e false.
Proof.
  intros (P1 & P2 & P3 & P4 & P5 & P6) A2. destruct (C34_partial _ _ _ _ _ _ A2) as (Q1 & Q2 & Q3 & _ & Q5). destruct (Q5 P2) as (a' & _ & _ & He & _).
  unfold choose_range in A2. apply rbind_ok in A2 as [s0 [_ A2]]. apply rbind_ok in A2 as [e0 [_ A2]]. rewrite P2 in A2. apply rbind_ok in A2 as [g' [Hn A2]].
  unfold new_aggr in Hn. rewrite P5, P4 in Hn. cbn [rbind] in Hn. rewrite P3 in Hn. cbn [aggr_name] in Hn.
  assert (Gg : g' = g) by (destruct (real_start_end g') as [? ?]; congruence). subst g'.
  assert (Gi : g = aggr_init t (i_step i) u a ty (jtruthy (x_ahalf x)) (x_aforce x) s0 e0 false) by congruence.
  cbn [used_range fst snd] in *. rewrite Gi in Q1, He. cbn [aggr_init a_start a_end] in Q1, He. rewrite <- Q1, He. exact Gi.
Qed.

(** ** the fields, converted *)
Lemma convert_fields_spec ev e h cut mv l l' : contains "x=" e = false -> e <> "x" -> ev e = Some h ->
  convert_fields ev (set_missing_value (converter_new (Some ("x=" +++ e)) cut) mv) l = Ok l' -> Forall2 (fun p q => fst q = fst p /\ converted h mv (snd p) (snd q)) l l'.
Proof.
  intros A B C H. unfold convert_fields in H. revert l' H. induction l as [|[k a] l IH]; intros l' H; cbn [mapM] in H; [injection H as <-; constructor|].
  apply rbind_ok in H as [y [Hy H]]. apply rbind_ok in H as [ys [Hys H]]. assert (l' = y :: ys) by congruence. subst l'. clear H. constructor; [|exact (IH _ Hys)].
  apply rbind_ok in Hy as [a' [Ha Hy]]. cbn [fst snd] in Hy. injection Hy as <-. cbn [fst snd] in *. split; [reflexivity|].
  destruct (convert_spec ev e h cut mv a A B C) as (out & E & Hc). congruence.
Qed.
Lemma convert_wf ev c a a' : convert ev c a = Ok a' -> wf_arr a -> wf_arr a'.
Proof.
  unfold convert. destruct (cv_func c) as [f|]; [|discriminate]. destruct (String.eqb f ""); [discriminate|]. destruct (String.eqb f "x=x"); [congruence|].
  destruct (ev _) as [g|]; [|discriminate]. intro H. injection H as <-. destruct a as [d|d m]; [exact (fun _ => I)|]. cbn [wf_arr adata]. unfold masked_where.
  destruct m as [m|]; [|exact (fun _ => I)]. destruct (existsb _ m); [|exact (fun _ => I)]. cbn. now rewrite map_length.
Qed.
Lemma convert_messages_wf ev x m c m' : convert_messages ev x m = Ok (c, m') -> (forall k a, In (k, a) (m_first m) -> wf_arr a) -> forall k a, In (k, a) (m_first m') -> wf_arr a.
Proof.
  unfold convert_messages. destruct (x_doConv x); intro H; [|assert (m' = m) by congruence; now subst m'].
  cbv zeta in H. apply rbind_ok in H as [fs [Hf H]]. apply rbind_ok in H as [ss [_ H]]. assert (E : m_first m' = fs) by (injection H as _ <-; reflexivity). rewrite E. clear H E.
  unfold convert_fields in Hf. revert fs Hf. induction (m_first m) as [|[k a] l IH]; intros fs Hf Hw k' a' Ha; cbn [mapM] in Hf; [injection Hf as <-; destruct Ha|].
  apply rbind_ok in Hf as [y [Hy Hf]]. apply rbind_ok in Hf as [ys [Hys Hf]]. assert (fs = y :: ys) by congruence. subst fs.
  apply rbind_ok in Hy as [b [Hb Hy]]. cbn [fst snd] in Hy, Hb. destruct Ha as [Ha|Ha]; [|apply (IH _ Hys) with (k := k'); [intros k1 a1 H1; apply (Hw k1); now right|exact Ha]].
  assert (b = a') by congruence. subst b. exact (convert_wf _ _ _ _ Hb (Hw k a (or_introl eq_refl))).
Qed.
Lemma converts_fields o x h m c m' : converts o x h -> convert_messages (xt_numexpr o) x m = Ok (c, m') ->
  Forall2 (fun p q => fst q = fst p /\ converted h (m_mv m) (snd p) (snd q)) (m_first m) (m_first m').
Proof.
  intros [[D I]|[D (e & E & A & B & C)]] H; unfold convert_messages in H; rewrite D in H.
  - assert (m' = m) by congruence. subst m'. induction (m_first m) as [|[k a] l IH]; constructor; [|exact IH]. split; [reflexivity|]. split; [reflexivity|].
    intros i v Hv. cbn [snd]. rewrite (I v). auto.
  - rewrite E in H. cbv zeta in H. apply rbind_ok in H as [fs [Hf H]]. apply rbind_ok in H as [ss [_ H]]. assert (m_first m' = fs) by (injection H as _ <-; reflexivity).
    rewrite H0. exact (convert_fields_spec _ _ _ _ _ _ _ A B C Hf).
Qed.

(** ** the fields as a series *)
Lemma entries_In step step2 change xs k a : forall bef, In (k, a) (entries step step2 change bef xs) <-> exists n xs1 r xs2, xs = (xs1 ++ r :: xs2)%list /\ n = xs1 /\
  k = mkStep (rd_start r) (rd_end r) (rd_nj r) (if existsb (is_change change) (bef ++ xs1 ++ [r]) then step2 else step) (rd_level r) /\ a = rd_field r.
Proof.
  induction xs as [|r xs IH]; intro bef; cbn [entries In].
  - split; [intros []|]. intros (n & xs1 & r & xs2 & E & _). destruct xs1; discriminate.
  - rewrite IH. split.
    + intros [E|(n & xs1 & r' & xs2 & -> & -> & -> & ->)].
      * exists [], [], r, xs. injection E as <- <-. auto.
      * exists (r :: xs1), (r :: xs1), r', xs2. rewrite <- !app_assoc. auto.
    + intros (n & xs1 & r' & xs2 & E & -> & -> & ->). destruct xs1 as [|r1 xs1]; cbn [app] in E.
      * injection E as <- <-. left. reflexivity.
      * injection E as <- ->. right. exists xs1, xs1, r', xs2. rewrite <- !app_assoc. auto.
Qed.
Lemma entries_ends step step2 change xs : forall bef, map (fun kv : Aggregator.step * arr => s_end (fst kv)) (entries step step2 change bef xs) = map rd_end xs.
Proof. induction xs as [|r xs IH]; intro bef; cbn; [reflexivity|now rewrite IH]. Qed.
Lemma entries_fields step step2 change xs r : In r xs -> forall bef, exists k, In (k, rd_field r) (entries step step2 change bef xs) /\ s_end k = rd_end r.
Proof.
  induction xs as [|r' xs IH]; intros Hr bef; [destruct Hr|]. cbn [entries]. destruct Hr as [-> |Hr].
  - eexists. split; [left; reflexivity|reflexivity].
  - destruct (IH Hr (bef ++ [r'])%list) as (k & A & B). exists k. split; [now right|exact B].
Qed.
Lemma NoDup_ends {A B} (f : A -> B) (l : list A) : NoDup (map f l) -> forall a b, In a l -> In b l -> f a = f b -> a = b.
Proof.
  induction l as [|x l IH]; intros H a b Ha Hb E; [destruct Ha|]. cbn in H. inversion H as [|? ? N H']; subst.
  destruct Ha as [->|Ha], Hb as [->|Hb]; [reflexivity| | |now apply IH].
  - exfalso. apply N. rewrite E. now apply in_map.
  - exfalso. apply N. rewrite <- E. now apply in_map.
Qed.
Lemma Forall2_In_l {A B} (P : A -> B -> Prop) l l' a : Forall2 P l l' -> In a l -> exists b, In b l' /\ P a b.
Proof. induction 1 as [|x y l l' H F IH]; intro Ha; [destruct Ha|]. destruct Ha as [->|Ha]; [exists y; split; [now left|exact H]|]. destruct (IH Ha) as (b & A1 & A2). exists b. split; [now right|exact A2]. Qed.
Lemma Forall2_In_r {A B} (P : A -> B -> Prop) l l' b : Forall2 P l l' -> In b l' -> exists a, In a l /\ P a b.
Proof. induction 1 as [|x y l l' H F IH]; intro Ha; [destruct Ha|]. destruct Ha as [->|Ha]; [exists x; split; [now left|exact H]|]. destruct (IH Ha) as (a & A1 & A2). exists a. split; [now right|exact A2]. Qed.

Lemma series_fields o x h ms size step step2 change m c m' : uniform ms size -> read_one ms step step2 change m -> converts o x h ->
  convert_messages (xt_numexpr o) x m = Ok (c, m') ->
  m_grid2 m' = None /\ m_first m' <> [] /\ one_per_step (m_first m') /\ same_size (m_first m') size /\
  (forall t, available (m_first m') t <-> message_at ms t) /\
  (forall t j q, datum h ms t j q -> exists a, has_field (m_first m') t a /\ cell a j q).
Proof.
  intros ([n Un] & (es & Ue & Nd) & Us) (Rn & _ & (m0 & I0 & Hmv) & Rw & Ro) Hh Hc. destruct (Ro n Un) as (xs & X1 & X2 & X3 & X4).
  destruct (convert_messages_inv _ _ _ _ _ Hc) as (_ & _ & G2 & _). pose proof (converts_fields _ _ _ _ _ _ Hh Hc) as F. pose proof (convert_messages_wf _ _ _ _ _ Hc Rw) as W'.
  assert (Ex : map rd_end xs = es).
  { clear -X1 Ue. revert es Ue. induction X1 as [|g r ms xs H X IH]; intros es Ue; inversion Ue as [|? t ? es' Ht Ue']; subst; [reflexivity|]. cbn. rewrite (IH _ Ue'). f_equal.
    destruct H as (_ & H & _). unfold has_int in *. congruence. }
  assert (Hq : NoDup (map quad xs)).
  { apply (NoDup_map_inv (fun p : Z * Z * Z * Z => snd (fst (fst p)))). rewrite map_map. cbn. rewrite <- Ex in Nd. exact Nd. }
  pose proof (holds_NoDup_length _ _ X2 (entries_NoDup _ _ _ _ _ Hq)) as Hp.
  assert (Sz : forall k a, In (k, a) (m_first m) -> asize a = size).
  { intros k a Ha. apply (Permutation_in _ Hp) in Ha. apply entries_In in Ha as (_ & xs1 & r & xs2 & -> & _ & _ & ->).
    destruct (Forall2_In_r _ _ _ r X1) as (g & Hg & R); [apply in_or_app; right; now left|]. destruct R as (_ & _ & _ & _ & R & _). unfold asize. rewrite R.
    rewrite Forall_forall in Us. exact (Us _ Hg). }
  assert (Ends : map (fun kv => s_end (fst kv)) (m_first m') = map (fun kv => s_end (fst kv)) (m_first m)).
  { clear -F. induction F as [|p q l l' [H _] F IH]; [reflexivity|]. cbn. now rewrite H, IH. }
  split; [congruence|]. split.
  { intro E. rewrite E in F. inversion F as [Em|]; subst. rewrite <- Em in Hp. apply Permutation_nil in Hp. assert (xs = []) by (destruct xs; [reflexivity|discriminate]). subst xs.
    inversion X1. subst ms. now elim Rn. }
  split; [unfold one_per_step; rewrite Ends; eapply Permutation_NoDup; [apply Permutation_sym, Permutation_map, Hp|]; rewrite entries_ends, Ex; exact Nd|].
  split.
  { intros k a Ha. split; [|exact (W' k a Ha)]. destruct (Forall2_In_r _ _ _ _ F Ha) as ([k0 a0] & H0 & _ & Hcv). cbn [snd] in Hcv. rewrite (proj1 Hcv). exact (Sz _ _ H0). }
  split.
  { intro t. split.
    - intros (a & k & Ha & Et). destruct (Forall2_In_r _ _ _ _ F Ha) as ([k0 a0] & H0 & Hk & _). cbn [fst] in Hk. subst k0.
      apply (Permutation_in _ Hp) in H0. apply entries_In in H0 as (_ & xs1 & r & xs2 & -> & _ & -> & ->). cbn [s_end] in Et.
      destruct (Forall2_In_r _ _ _ r X1) as (g & Hg & R); [apply in_or_app; right; now left|]. exists g. split; [exact Hg|]. rewrite <- Et. exact (proj1 (proj2 R)).
    - intros (g & Hg & Ht). destruct (Forall2_In_l _ _ _ _ X1 Hg) as (r & Hr & R). destruct (entries_fields step step2 change xs r Hr []) as (k & Hk & Ek).
      apply (Permutation_in _ (Permutation_sym Hp)) in Hk. destruct (Forall2_In_l _ _ _ _ F Hk) as ([k' a'] & Hk' & E & _). cbn [fst] in E. subst k'. exists a', k. split; [exact Hk'|].
      rewrite Ek. destruct R as (_ & R & _). unfold has_int in *. congruence. }
  intros t j q (g & v & Hg & Ht & Hv & Hvq & Hmiss). destruct (Forall2_In_l _ _ _ _ X1 Hg) as (r & Hr & R). destruct (entries_fields step step2 change xs r Hr []) as (k & Hk & Ek).
  apply (Permutation_in _ (Permutation_sym Hp)) in Hk. destruct (Forall2_In_l _ _ _ _ F Hk) as ([k' a'] & Hk' & E & Hcv). cbn [fst snd] in E, Hcv. subst k'. exists a'. split.
  - exists k. split; [exact Hk'|]. rewrite Ek. destruct R as (_ & R & _). unfold has_int in *. congruence.
  - unfold cell. rewrite <- Hvq. destruct Hcv as (_ & Hcv). destruct R as (_ & _ & _ & _ & R & _). rewrite <- R in Hv. destruct (Hcv j v Hv) as (_ & Hcv' & _). apply Hcv'. exact (Hmiss _ _ I0 Hmv).
Qed.

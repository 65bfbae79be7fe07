(** * Flow_P: inversion of a successful execution (C84) *)
From Verif Require Import Base Num PyStr Strings Config Context Spec_Context Aggregator Converter Reader Spec_Reader Controller Spec_Controller Spec_Flow
  Base_P Context_P2 Reader_P Reader_P2 Reader_P3 Reader_P4 Controller_P2 Controller_P6 Props_Context Props_Context2 Props_Reader Props_Controller.
From Coq Require Import Permutation Sorted.
Local Open Scope string_scope.

Lemma bind_ok {A B} (x : M A) (f : A -> M B) s b s' : bind x f s = (Ok b, s') -> exists a s1, x s = (Ok a, s1) /\ f a s1 = (Ok b, s').
Proof. unfold bind. destruct (x s) as [[a|e] s1]; [eauto|discriminate]. Qed.
Lemma lift_ok {A} (r : res A) s a s' : lift r s = (Ok a, s') -> r = Ok a /\ s' = s.
Proof. unfold lift. intro H. split; congruence. Qed.
Lemma ret_ok {A} (a : A) s b s' : ret a s = (Ok b, s') -> b = a /\ s' = s.
Proof. unfold ret. intro H. split; congruence. Qed.
Lemma on1_ok {A} (op : reader -> world -> res A * (reader * world)) s a s' : on1 op s = (Ok a, s') ->
  exists r r' w', c_r1 s = Some r /\ op r (c_w s) = (Ok a, (r', w')) /\ c_r1 s' = Some r' /\ c_w s' = w' /\ c_r2 s' = c_r2 s /\ c_out s' = c_out s.
Proof.
  unfold on1. destruct (c_r1 s) as [r|]; [|discriminate]. destruct (op r (c_w s)) as [x [r' w']] eqn:E. intro H.
  assert (E1 : x = Ok a) by congruence. assert (E2 : s' = mkCst (Some r') (c_r2 s) (c_wr s) (c_geo s) (c_out s) w') by congruence. subst x s'. exists r, r', w'. auto 10.
Qed.
Lemma on2_ok {A} (op : reader -> world -> res A * (reader * world)) s a s' : on2 op s = (Ok a, s') ->
  exists r r' w', c_r2 s = Some r /\ op r (c_w s) = (Ok a, (r', w')) /\ c_r2 s' = Some r' /\ c_w s' = w' /\ c_r1 s' = c_r1 s /\ c_out s' = c_out s.
Proof.
  unfold on2. destruct (c_r2 s) as [r|]; [|discriminate]. destruct (op r (c_w s)) as [x [r' w']] eqn:E. intro H.
  assert (E1 : x = Ok a) by congruence. assert (E2 : s' = mkCst (c_r1 s) (Some r') (c_wr s) (c_geo s) (c_out s) w') by congruence. subst x s'. exists r, r', w'. auto 10.
Qed.

(** a new reader of an indexable file *)
Definition fresh (f : gfile) (r : reader) : Prop := (exists wp, r_index r = Some wp) /\ r_msgs r = gf_msgs f.
Lemma reader_new_fresh f wp w x w' : usable_file f -> reader_new (Some f) wp w = (x, w') -> good_world w ->
  exists r, x = Ok r /\ fresh f r /\ r_step r = (-1)%Z /\ r_step2 r = (-1)%Z /\ r_change r = "" /\ good_world w'.
Proof.
  intros [Hi _] H Hw. unfold reader_new in H. rewrite Hi in H. injection H as <- <-. eexists. split; [reflexivity|]. unfold fresh. cbn.
  split; [eauto|]. auto.
Qed.

Lemma accepted_find sel m : accepted sel m = true <-> find (gm_keys m) sel = Ok true.
Proof. unfold accepted. destruct (find _ _) as [[]|]; split; congruence. Qed.

Lemma those_filter {A} (P : A -> Prop) (b : A -> bool) l ms : (forall a, In a l -> b a = true <-> P a) -> Permutation ms (filter b l) -> those P l ms.
Proof.
  intros Hb Hp. exists (filter (fun a => negb (b a)) l). split; [|split].
  - rewrite Hp. clear. induction l as [|a l IH]; [constructor|]. cbn [filter]. destruct (b a); cbn [negb].
    + cbn. now constructor.
    + rewrite <- Permutation_middle. now constructor.
  - rewrite Hp. apply Forall_forall. intros a Ha. apply filter_In in Ha as [Ha Hx]. now apply Hb.
  - apply Forall_forall. intros a Ha. apply filter_In in Ha as [Ha Hx]. intro HP. apply (Hb a Ha) in HP. rewrite HP in Hx. discriminate.
Qed.

Section Request.
  Variables (x : ctx) (nm : string).
  Hypothesis (U : usable_request x nm).

  Lemma names_ok s e sel : select_cmd x s e = Ok sel ->
    sel_names sel = Ok (map JStr [nm; upper nm; nm +++ "var"]) /\ NoDup [nm; upper nm; nm +++ "var"] /\ typed_pert sel.
  Proof using U.
    destruct U as (Hs & Hn & _ & _ & _ & Hm). intro H. split; [|split; [exact Hn|]].
    - unfold select_cmd in H. rewrite Hs in H. injection H as <-. reflexivity.
    - assert (Hu : upper nm <> nm).
      { intro E. inversion Hn as [|? ? N _]. apply N. left. exact E. }
      destruct (C57_variants _ _ _ _ _ H Hs Hm Hu) as (? & _ & _ & T). exact T.
  Qed.
  Lemma attrs_ok sel : select_cmd_attrs x = Ok sel ->
    sel_names sel = Ok (map JStr [nm]) /\ NoDup [nm] /\ typed_pert sel /\ retry_sel sel = None.
  Proof using U.
    destruct U as (Hs & Hn & _ & _ & _ & Hm). unfold select_cmd_attrs. rewrite Hs. intro H.
    assert (E : sel = (("shortName", SVal (JStr nm)) :: opt_sel "perturbationNumber" (x_member x))%list) by congruence. clear H. subst sel.
    split; [reflexivity|]. split; [constructor; [auto|constructor]|]. split.
    - intros v Hv. destruct Hm as [Hm|[z Hm]]; rewrite Hm in Hv; cbn in Hv; [discriminate|]. injection Hv as <-. eauto.
    - unfold retry_sel, opt_sel. destruct (is_null (x_member x)); reflexivity.
  Qed.
  Lemma member_scalar : scalar (x_member x).
  Proof using U. destruct U as (_ & _ & _ & _ & _ & Hm). destruct Hm as [->|[z ->]]; exact I. Qed.

  Lemma accepted_wanted s e sel f m : usable_file f -> In m (gf_msgs f) -> select_cmd x s e = Ok sel ->
    accepted sel m = true <-> wanted_message x nm s e m.
  Proof using U.
    intros [_ Hf] Hm H. rewrite accepted_find. pose proof member_scalar as Ms. destruct U as (Hs & _ & S1 & S2 & S3 & _).
    rewrite Forall_forall in Hf. destruct (Hf m Hm) as [Ha Hb].
    exact (C32_selection x (gm_keys m) nm s e sel Hs S1 S2 S3 Ms Hb Ha H).
  Qed.
  Lemma accepted_variable sel m : select_cmd_attrs x = Ok sel -> accepted sel m = true <-> same_variable x nm m.
  Proof using U.
    intro H. rewrite accepted_find. pose proof member_scalar as Ms. destruct U as (Hs & _). exact (C32_attributes x (gm_keys m) nm sel Hs Ms H).
  Qed.

  Lemma select_read s e sel f r w m r' w' : good_world w -> usable_file f -> fresh f r -> select_cmd x s e = Ok sel ->
    Exists (wanted_message x nm s e) (gf_msgs f) -> select_messages sel r w = (Ok m, (r', w')) ->
    read_from x nm s e f (r_step r) (r_step2 r) (r_change r) m.
  Proof using U.
    intros Hw Hf [[wp Hi] Hr] Hs Hex H. destruct (names_ok _ _ _ Hs) as (N1 & N2 & N3).
    destruct (select_selected _ _ _ _ _ _ _ _ Hw Hi N1 N2 N3 H) as (gms & sel' & He & Hp & Hb).
    assert (E : sel' = sel).
    { destruct He as [[-> _]|[He _]]; [reflexivity|]. exfalso. rewrite Hr in He. apply Exists_exists in Hex as (m1 & Hm1 & W1).
      apply (accepted_wanted s e sel f m1 Hf Hm1 Hs) in W1.
      assert (existsb (accepted sel) (gf_msgs f) = true) by (apply existsb_exists; eauto). congruence. }
    subst sel'. rewrite Hr in Hp. exists gms. split; [|split; [|split]].
    - apply (those_filter _ (accepted sel)); [|exact Hp]. intros a Ha. now apply (accepted_wanted s e sel f).
    - destruct (build_inv _ _ _ _ _ Hb) as (g0 & m0 & rest & main & st & -> & G1 & G2 & _). exists g0, m0. split; [now left|congruence].
    - intros n Hall. destruct (build_single _ _ _ _ _ n Hb Hall) as (xs & X1 & X2 & X3 & X4). exists xs. auto.
    - intros n gms1 gms2 -> A B C D. destruct (build_change _ _ _ _ _ _ n Hb A B C D) as (xs1 & xs2 & X1 & X2 & X3 & X4 & gr & k & X5 & X6 & _).
      exists xs1, xs2. split; [exact X1|]. split; [exact X2|]. split; [exact X3|]. split; [exact X4|]. exists gr, k. auto.
  Qed.

  Lemma info_range sel f r w i t mv r' w' : good_world w -> usable_file f -> fresh f r -> select_cmd_attrs x = Ok sel ->
    get_grib_info sel r w = (Ok (i, t, mv), (r', w')) ->
    file_range x nm f i /\ r_step r' = i_step i /\ r_step2 r' = i_step2 i /\ r_change r' = i_change i.
  Proof using U.
    intros Hw Hf [[wp Hi] Hr] Hs H. destruct (attrs_ok _ Hs) as (N1 & N2 & N3 & N4).
    destruct (info_selected _ _ _ _ _ _ _ _ Hw Hi N1 N2 N3 H) as (ms & ps & sel' & He & Hp & Hps & Hst & R1 & R2 & R3). cbn [fst] in *.
    split; [|auto]. assert (E : sel' = sel) by (destruct He as [[-> _]|[_ He]]; [reflexivity|congruence]). subst sel'. rewrite Hr in Hp.
    destruct (find_steps_range _ _ Hst) as [A B]. exists ms, ps. split; [|auto].
    apply (those_filter _ (accepted sel)); [|exact Hp]. intros a _. now apply accepted_variable.
  Qed.
End Request.

Lemma set_steps_keep r i : r_index (set_steps r i) = r_index r /\ r_msgs (set_steps r i) = r_msgs r.
Proof. split; reflexivity. Qed.
Lemma info_keeps L bad i0 f0 l sel f r w x r' w' : rinv L bad i0 f0 r w l -> fresh f r -> get_grib_info sel r w = (Ok x, (r', w')) ->
  fresh f r' /\ rinv L bad i0 f0 r' w' l.
Proof.
  intros Hr [[wp Hi] Hm] H. split; [|apply (info_step _ _ _ _ _ _ _ _ _ _ _ Hr H); left; reflexivity].
  unfold get_grib_info in H. destruct (get_gids sel r w) as [y [r1 w1]] eqn:Eg. destruct Hr as [Hw _].
  destruct (get_gids_spec _ _ _ _ _ _ Hw Eg) as [Sc _]. destruct y as [[|g gs]|e]; try discriminate.
  destruct (w_derefs (g :: gs) w1) as [[ms|e] w2]; [|discriminate]. destruct (info_of ms) as [[[i t] mv]|e]; [|discriminate].
  assert (E : r' = set_steps r1 i) by congruence. subst r'. destruct (set_steps_keep r1 i) as [A B].
  destruct Sc as [_ [_ [_ [_ [_ [_ [S1 [S2 _]]]]]]]]. split; [exists wp|]; congruence.
Qed.
Lemma geo_keeps L bad i0 f0 l f p r w x r' w' : rinv L bad i0 f0 r w l -> fresh f r -> has_geopotential p r w = (x, (r', w')) -> r' = r /\ rinv L bad i0 f0 r' w' l.
Proof.
  intros Hr [[wp Hi] Hm] H. split; [|exact (geo_step _ _ _ _ _ _ _ _ _ _ _ Hr H)]. unfold has_geopotential in H. rewrite Hi in H. congruence.
Qed.

Lemma make_writer_ok o x mv s u s' : make_writer o x mv s = (Ok u, s') -> c_r1 s' = c_r1 s /\ c_r2 s' = c_r2 s /\ c_w s' = c_w s /\ c_out s' = c_out s.
Proof. unfold make_writer. destruct (xt_writer o x mv); [|discriminate]. intro H. assert (E : s' = mkCst (c_r1 s) (c_r2 s) (Some (negb (pcraster x), false)) (c_geo s) (c_out s) (c_w s)) by congruence. subst s'. auto. Qed.

Lemma look_ok L bad i0 f0 l f x s u s' r : look_for_geopotential x s = (Ok u, s') -> c_r1 s = Some r -> fresh f r -> rinv L bad i0 f0 r (c_w s) l ->
  c_r1 s' = Some r /\ rinv L bad i0 f0 r (c_w s') l /\ c_out s' = c_out s.
Proof.
  unfold look_for_geopotential. destruct (x_doCorr x); intros H Hr Hf Hi.
  - apply bind_ok in H as (b & s1 & H & H2). apply on1_ok in H as (r0 & r' & w' & E0 & Ho & E1 & E2 & E3 & E4).
    assert (r0 = r) by congruence. subst r0. destruct (geo_keeps _ _ _ _ _ _ _ _ _ _ _ _ Hi Hf Ho) as [-> Hi'].
    assert (E : s' = mkCst (c_r1 s1) (c_r2 s1) (c_wr s1) (c_geo s1 || b)%bool (c_out s1) (c_w s1)) by congruence. subst s'. cbn. rewrite E2. auto.
  - apply ret_ok in H as [_ ->]. auto.
Qed.
Lemma open1_ok o f x s u s' : xt_file o x = Some f -> open1 (xt_file o x) u s = (Ok tt, s') -> usable_file f -> good_world (c_w s) ->
  exists r, c_r1 s' = Some r /\ fresh f r /\ rinv (w_live (c_w s)) (w_bad (c_w s)) (w_index (c_w s)) (w_files (c_w s)) r (c_w s') [] /\ c_out s' = c_out s.
Proof.
  intros Hx H Hf Hw. unfold open1 in H. rewrite Hx in H. destruct (reader_new (Some f) u (c_w s)) as [y w'] eqn:E.
  destruct (reader_new_fresh _ _ _ _ _ Hf E Hw) as (r & -> & F & _). exists r.
  assert (Es : s' = mkCst (Some r) (c_r2 s) (c_wr s) (c_geo s) (c_out s) w') by congruence. subst s'. cbn. split; [reflexivity|]. split; [exact F|]. split; [|reflexivity].
  exact (reader_new_inv _ _ _ _ _ Hw E).
Qed.
Lemma open2_ok o f x s u s' : xt_file o x = Some f -> open2 (xt_file o x) u s = (Ok tt, s') -> usable_file f -> good_world (c_w s) ->
  exists r, c_r2 s' = Some r /\ fresh f r /\ good_world (c_w s') /\ c_r1 s' = c_r1 s /\ c_out s' = c_out s /\
    r_step r = (-1)%Z /\ r_step2 r = (-1)%Z /\ r_change r = "".
Proof.
  intros Hx H Hf Hw. unfold open2 in H. rewrite Hx in H. destruct (reader_new (Some f) u (c_w s)) as [y w'] eqn:E.
  destruct (reader_new_fresh _ _ _ _ _ Hf E Hw) as (r & -> & F & A & B & C & D). exists r.
  assert (Es : s' = mkCst (c_r1 s) (Some r) (c_wr s) (c_geo s) (c_out s) w') by congruence. subst s'. cbn. auto 10.
Qed.

(** ** the whole execution *)
Lemma execute_inv o x nm f w b vals m' change s' : good_world w -> usable_request x nm -> xt_file o (x_input x) = Some f -> usable_file f ->
  execute o x b (cst0 w) = (Ok (vals, m', change), s') ->
  exists i t s e g m m1 s1,
    file_range x nm f i /\ choose_range x i t = Ok (s, e, g) /\
    (Exists (wanted_message x nm s e) (gf_msgs f) -> read_from x nm s e f (i_step i) (i_step2 i) (i_change i) m1) /\
    (jtruthy (x_input2 x) = false -> m = m1) /\
    (jtruthy (x_input2 x) = true -> exists m2, m = append_2nd m1 m2 /\
       forall f2, xt_file o (x_input2 x) = Some f2 -> usable_file f2 -> Exists (wanted_message x nm s e) (gf_msgs f2) ->
       read_from x nm s e f2 (-1) (-1) "" m2) /\
    exec_values (xt_numexpr o) x (i_step i) e g m = Ok (vals, m', change) /\
    c_out s1 = [] /\ (b = true -> write_maps o x vals m' change s1 = (Ok tt, s')) /\ (b = false -> s' = s1).
Proof.
  intros Hw U Hx Hf H. unfold execute in H. apply bind_ok in H as ([[[input sel] e] g] & s1 & Hi & H).
  unfold init_execution in Hi. apply bind_ok in Hi as ([] & s2 & Ho & Hi).
  destruct (open1_ok o f _ _ _ _ Hx Ho Hf Hw) as (r & R1 & F1 & I1 & O1). clear Ho.
  apply bind_ok in Hi as (attrs & s3 & Ha & Hi). apply lift_ok in Ha as [Ha ->].
  apply bind_ok in Hi as ([[i t] mv] & s3 & Hg & Hi). apply on1_ok in Hg as (r0 & r2 & w2 & E0 & Hg & E1 & E2 & E3 & E4).
  assert (r0 = r) by congruence. subst r0.
  destruct (info_range x nm U _ f _ _ _ _ _ _ _ (proj1 I1) Hf F1 Ha Hg) as (Fr & Q1 & Q2 & Q3).
  destruct (info_keeps _ _ _ _ _ _ _ _ _ _ _ _ I1 F1 Hg) as [F2 I2]. rewrite <- E2 in I2.
  apply bind_ok in Hi as (u4 & s4 & Hm & Hi). apply make_writer_ok in Hm as (M1 & _ & M3 & M4).
  apply bind_ok in Hi as (u5 & s5 & Hl & Hi).
  assert (E1' : c_r1 s4 = Some r2) by congruence. rewrite <- M3 in I2.
  destruct (look_ok _ _ _ _ _ _ _ _ _ _ _ Hl E1' F2 I2) as (L1 & L2 & L3).
  apply bind_ok in Hi as ([[s e'] g'] & s6 & Hc & Hi). apply lift_ok in Hc as [Hc ->].
  apply bind_ok in Hi as (sel' & s6 & Hs & Hi). apply lift_ok in Hs as [Hs ->].
  apply ret_ok in Hi as [Hi ->]. assert (Ei : input = i_step i /\ sel = sel' /\ e = e' /\ g = g') by (repeat split; congruence). destruct Ei as (-> & -> & -> & ->). clear Hi.
  apply bind_ok in H as (m1 & s7 & Hsel & H). apply on1_ok in Hsel as (r0 & r3 & w3 & E5 & Hsel & E6 & E7 & E8 & E9).
  assert (r0 = r2) by congruence. subst r0.
  assert (Hread : Exists (wanted_message x nm s e') (gf_msgs f) -> read_from x nm s e' f (i_step i) (i_step2 i) (i_change i) m1).
  { intro Hex. rewrite <- Q1, <- Q2, <- Q3. exact (select_read x nm U _ _ _ _ _ _ _ _ _ (proj1 L2) Hf F2 Hs Hex Hsel). }
  assert (W3 : good_world (c_w s7)).
  { destruct (select_step _ _ _ _ _ _ _ _ _ _ L2 Hsel ltac:(discriminate)) as (l & [G _] & _). now rewrite E7. }
  apply bind_ok in H as (m & s8 & H2 & H). apply bind_ok in H as (aux & s9 & Hx9 & H).
  apply on1_ok in Hx9 as (_ & _ & _ & _ & _ & _ & _ & _ & O9).
  apply bind_ok in H as ([[v mm] ch] & s10 & He & H). apply lift_ok in He as [He ->].
  apply bind_ok in H as (u & s11 & Hwr & H). apply ret_ok in H as [H ->]. assert (E : v = vals /\ mm = m' /\ ch = change) by (repeat split; congruence).
  destruct E as (-> & -> & ->). clear H.
  assert (H2' : c_out s8 = c_out s7 /\ (jtruthy (x_input2 x) = false -> m = m1) /\
     (jtruthy (x_input2 x) = true -> exists m2, m = append_2nd m1 m2 /\
       forall f2, xt_file o (x_input2 x) = Some f2 -> usable_file f2 -> Exists (wanted_message x nm s e') (gf_msgs f2) ->
       read_from x nm s e' f2 (-1) (-1) "" m2)).
  { unfold second_file in H2. destruct (jtruthy (x_input2 x)).
    - apply bind_ok in H2 as ([] & t1 & Ho & H2). apply bind_ok in H2 as (m2 & t2 & Hs2 & H2).
      apply bind_ok in H2 as (g2 & t3 & Hg2 & H2). apply on2_ok in Hg2 as (_ & _ & _ & _ & _ & _ & _ & _ & Og).
      apply bind_ok in H2 as ([] & t4 & Hg3 & H2). apply on1_ok in Hg3 as (_ & _ & _ & _ & _ & _ & _ & _ & Og3).
      apply ret_ok in H2 as [-> ->]. apply on2_ok in Hs2 as (r4 & r5 & w5 & T1 & Hs2 & _ & _ & _ & T2).
      assert (T0 : c_out t1 = c_out s7).
      { unfold open2 in Ho. destruct (reader_new _ _ _) as [[rr|ee] ww]; [|discriminate]. injection Ho as <-. reflexivity. }
      split; [congruence|]. split; [discriminate|]. intros _. exists m2. split; [reflexivity|]. intros f2 Hx2 Hf2 Hex2.
      destruct (open2_ok o f2 _ _ _ _ Hx2 Ho Hf2 W3) as (r6 & V1 & V2 & V3 & _ & _ & V6 & V7 & V8).
      assert (r6 = r4) by congruence. subst r6. rewrite <- V6 at 1. rewrite <- V7, <- V8.
      exact (select_read x nm U _ _ _ _ _ _ _ _ _ V3 Hf2 V2 Hs Hex2 Hs2).
    - apply ret_ok in H2 as [-> ->]. repeat split; auto. discriminate. }
  destruct H2' as (O8 & A & B). exists i, t, s, e', g', m, m1, s9.
  split; [exact Fr|]. split; [exact Hc|]. split; [exact Hread|]. split; [exact A|]. split; [exact B|]. split; [exact He|].
  split; [cbn in O1; congruence|]. destruct b.
  - split; [|discriminate]. intros _. destruct u. exact Hwr.
  - split; [discriminate|]. intros _. apply ret_ok in Hwr as [_ ->]. reflexivity.
Qed.

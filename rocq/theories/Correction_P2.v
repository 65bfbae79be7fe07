(** * Correction_P2: when the input file is taken as geopotential file (C100) and
    what becomes of files that cannot be indexed (C103). *)
From Verif Require Import Base Base_P Num PyStr PyStr_P Strings Config Context Aggregator Converter Reader Spec_Reader Reader_P Reader_P2 Reader_P3 Reader_P4 Controller Correction Spec_Correction Correction_P Program_P Flow_P.
From Coq Require Import Lia Permutation.
Local Open Scope string_scope.

Definition geo_keep {A} (y : M A) : Prop := forall s, c_geo (snd (y s)) = c_geo s.
Lemma gk_ret {A} (a : A) : geo_keep (ret a).
Proof. intro s. reflexivity. Qed.
Lemma gk_lift {A} (a : res A) : geo_keep (lift a).
Proof. intro s. reflexivity. Qed.
Lemma gk_bind {A B} (y : M A) (f : A -> M B) : geo_keep y -> (forall a, geo_keep (f a)) -> geo_keep (bind y f).
Proof. intros H1 H2 s. unfold bind. pose proof (H1 s) as E. destruct (y s) as [[a|e] s']; cbn [snd] in *; [rewrite (H2 a s')|]; exact E. Qed.
Lemma gk_on1 {A} (op : reader -> world -> res A * (reader * world)) : geo_keep (on1 op).
Proof. intro s. unfold on1. destruct (c_r1 s); [|reflexivity]. destruct (op r (c_w s)) as [x [r' w']]. reflexivity. Qed.
Lemma gk_on2 {A} (op : reader -> world -> res A * (reader * world)) : geo_keep (on2 op).
Proof. intro s. unfold on2. destruct (c_r2 s); [|reflexivity]. destruct (op r (c_w s)) as [x [r' w']]. reflexivity. Qed.
Lemma gk_open1 f wp : geo_keep (open1 f wp).
Proof. intro s. unfold open1. destruct (reader_new f wp (c_w s)) as [[r|e] w]; reflexivity. Qed.
Lemma gk_open2 f wp : geo_keep (open2 f wp).
Proof. intro s. unfold open2. destruct (reader_new f wp (c_w s)) as [[r|e] w]; reflexivity. Qed.
Lemma gk_writer o x mv : geo_keep (make_writer o x mv).
Proof. intro s. unfold make_writer. destruct (xt_writer o x mv); reflexivity. Qed.
Lemma gk_maps o x v m c : geo_keep (write_maps o x v m c).
Proof.
  intro s. unfold write_maps. destruct (pcraster x); [destruct (pcr_loop o m c false 1 v); reflexivity|]. destruct (jis (x_format x) "netcdf"); [|reflexivity].
  destruct (nc_loop o m c false 0 v); [|reflexivity]. destruct (xt_nc_open o); [|reflexivity]. destruct (xt_nc_write o a); reflexivity.
Qed.
Lemma gk_second o x sel m : geo_keep (second_file o x sel m).
Proof.
  unfold second_file. destruct (jtruthy (x_input2 x)); [|apply gk_ret]. apply gk_bind; [apply gk_open2|]. intros _. apply gk_bind; [apply gk_on2|]. intro m2.
  cbv zeta. apply gk_bind; [apply gk_on2|]. intro g. apply gk_bind; [apply gk_on1|]. intros _. apply gk_ret.
Qed.

(** the messages of a file that count as geopotential for a command *)
Definition member_ok (p : option Z) (m : gmsg) : bool :=
  match p with
  | None => true
  | Some z => match dget String.eqb (gm_keys m) "perturbationNumber" with Some (JNum y) => Z.eqb y z | _ => false end
  end.
Lemma has_index p r w wp : r_index r = Some wp -> fst (has_geopotential p r w) = Ok (existsb (fun m => geopotential m && member_ok p m)%bool (r_msgs r)).
Proof.
  intro E. unfold has_geopotential. rewrite E. cbn [fst]. f_equal.
  assert (G : forall m, existsb (fun n => in_index n p m) geo_names = (geopotential m && member_ok p m)%bool).
  { intro m. unfold geopotential. change ["fis"; "z"; "FIS"; "orog"] with geo_names. induction geo_names as [|n l IH]; [reflexivity|]. cbn [existsb]. rewrite IH. unfold in_index at 1.
    change (match dget String.eqb (gm_keys m) "shortName" with Some (JStr s) => String.eqb s n | _ => false end) with (named n m).
    change (match p with None => true | Some z => match dget String.eqb (gm_keys m) "perturbationNumber" with Some (JNum y) => Z.eqb y z | _ => false end end) with (member_ok p m).
    destruct (named n m), (member_ok p m), (existsb (fun n => named n m) l); reflexivity. }
  assert (E2 : existsb (fun m => geopotential m && member_ok p m)%bool (r_msgs r) = existsb (fun m => existsb (fun n => in_index n p m) geo_names) (r_msgs r)).
  { clear E. induction (r_msgs r) as [|m l IH]; [reflexivity|]. cbn [existsb]. now rewrite IH, G. }
  rewrite E2. clear. generalize geo_names as names. intro names. generalize (r_msgs r) as ms. intro ms.
  destruct (flat_map (fun n => filter (in_index n p) ms) names) as [|a l] eqn:F; symmetry.
  - apply Bool.not_true_iff_false. intro H. apply existsb_exists in H as (m & Hm & H). apply existsb_exists in H as (n & Hn & H).
    assert (I : In m (flat_map (fun n => filter (in_index n p) ms) names)) by (apply in_flat_map; exists n; split; [exact Hn|]; apply filter_In; auto). rewrite F in I. destruct I.
  - assert (I : In a (flat_map (fun n => filter (in_index n p) ms) names)) by (rewrite F; now left). apply in_flat_map in I as (n & Hn & I). apply filter_In in I as [I1 I2].
    apply existsb_exists. exists a. split; [exact I1|]. apply existsb_exists. eauto.
Qed.

(** an information request does not change what kind of reader it is *)
Lemma info_same sel r w x r' w' : get_grib_info sel r w = (x, (r', w')) -> good_world w ->
  r_index r' = r_index r /\ r_msgs r' = r_msgs r /\ (r_index r = None -> (exists y, x = Ok y) -> r_file r' = None \/ r_file r' = Some []).
Proof.
  intros H Hw. unfold get_grib_info in H. destruct (get_gids sel r w) as [y [r1 w1]] eqn:Eg. destruct (get_gids_spec _ _ _ _ _ _ Hw Eg) as [Sc Hy].
  pose proof Sc as (_ & _ & _ & _ & _ & _ & S1 & S2 & _ & S3).
  destruct y as [[|g gs]|e].
  - assert (r' = r1) by congruence. subst r'. split; [exact S1|]. split; [exact S2|]. intros _ [z ->]. discriminate.
  - destruct (w_derefs (g :: gs) w1) as [[ms|e] w2]; [|assert (r' = r1) by congruence; subst r'; split; [exact S1|]; split; [exact S2|]; intros _ [z ->]; discriminate].
    destruct (info_of ms) as [[[i t] mv]|e]; [|assert (r' = r1) by congruence; subst r'; split; [exact S1|]; split; [exact S2|]; intros _ [z ->]; discriminate].
    assert (E : r' = set_steps r1 i) by congruence. subst r'. cbn [set_steps r_index r_msgs r_file]. split; [exact S1|]. split; [exact S2|]. intros En _.
    clear -Eg En. unfold get_gids in Eg. unfold scan_grib in Eg. destruct (sel_names sel) as [nms|e0]; [|destruct e0; cbn in Eg; discriminate]. rewrite En in Eg. destruct (r_file r) as [ms|] eqn:Ef.
    2:{ left. destruct (retry_sel sel); [unfold scan_grib in Eg|discriminate]. destruct (sel_names s) as [nms2|e0]; [|destruct e0; cbn in Eg; discriminate]. rewrite En, Ef in Eg. discriminate. }
    right. assert (R : forall sl ms w gs rest w1, scan sl ms w = (Ok gs, rest, w1) -> rest = []).
    { clear. intros sl ms. induction ms as [|m ms IH]; intros w gs rest w1 H; [cbn in H; congruence|]. cbn [scan] in H. destruct (w_open m w) as [g w2]. destruct (find (gm_keys m) sl) as [[]|]; [| |discriminate].
      - destruct (scan sl ms w2) as [[[gs2|] rest2] w3] eqn:E; [|discriminate]. assert (rest = rest2) by congruence. subst. eauto.
      - eauto. }
    destruct (scan sel ms w) as [[[gs1|e1] rest] w2] eqn:Es; [|destruct e1; cbn in Eg; discriminate].
    pose proof (R _ _ _ _ _ _ Es) as ->. destruct gs1 as [|g1 gs1].
    + destruct (retry_sel sel) as [sel'|]; [|discriminate]. destruct (sel_names sel') as [a0|e1]; [|destruct e1; cbn in Eg; discriminate].
      destruct (r_index (set_file r (Some []))) as [wp|] eqn:E2; [cbn in E2; congruence|]. destruct (r_file (set_file r (Some []))) as [ms2|] eqn:E3; [|discriminate].
      cbn in E3. injection E3 as <-. cbn [scan] in Eg. discriminate.
    + assert (E : r1 = set_file r (Some [])) by congruence. rewrite E. reflexivity.
  - assert (r' = r1) by congruence. subst r'. split; [exact S1|]. split; [exact S2|]. intros _ [z ->]. discriminate.
Qed.

Lemma open1_shape o x f u s y s' : xt_file o x = Some f -> open1 (xt_file o x) u s = (y, s') -> good_world (c_w s) ->
  exists r, y = Ok tt /\ c_r1 s' = Some r /\ r_msgs r = gf_msgs f /\ (gf_indexable f = true -> r_index r = Some u) /\
    (gf_indexable f = false -> r_index r = None /\ r_file r = Some (gf_msgs f)) /\ good_world (c_w s') /\ c_geo s' = c_geo s.
Proof.
  intros E H Hw. unfold open1 in H. rewrite E in H. unfold reader_new in H. destruct (gf_indexable f);
    pose proof (f_equal fst H) as Hy; pose proof (f_equal snd H) as Hs; cbn [fst snd] in Hy, Hs; subst y s'; eexists; cbn [c_r1 c_w c_geo].
  - split; [reflexivity|]. split; [reflexivity|]. split; [reflexivity|]. split; [reflexivity|]. split; [discriminate|]. split; [exact Hw|reflexivity].
  - split; [reflexivity|]. split; [reflexivity|]. split; [reflexivity|]. split; [discriminate|]. split; [split; reflexivity|]. split; [exact Hw|reflexivity].
Qed.

(** the state after init_execution *)
Lemma init_state o x f w y s : good_world w -> xt_file o (x_input x) = Some f -> init_execution o x (cst0 w) = (Ok y, s) ->
  c_geo s = (x_doCorr x && gf_indexable f && existsb (fun m => geopotential m && member_ok (chosen_member x) m) (gf_msgs f))%bool /\
  (gf_indexable f = false -> exists r, c_r1 s = Some r /\ r_index r = None /\ r_file r = Some []).
Proof.
  intros Hw E H. unfold init_execution in H. apply bind_ok in H as (u & s1 & Ho & H).
  destruct (open1_shape _ _ _ _ _ _ _ E Ho Hw) as (r & _ & R1 & R2 & R3 & R4 & W1 & G1). cbn [cst0 c_geo] in G1.
  apply bind_ok in H as (attrs & s2 & Ha & H). apply lift_ok in Ha as [_ ->].
  apply bind_ok in H as ([[i t] mv] & s2 & Hg & H). pose proof (gk_on1 (get_grib_info attrs) s1) as G2. rewrite Hg in G2. cbn [snd] in G2.
  apply on1_ok in Hg as (r0 & r2 & w2 & E0 & Hg & E1 & E2 & E3 & E4). assert (r0 = r) by congruence. subst r0.
  destruct (info_same _ _ _ _ _ _ Hg W1) as (I1 & I2 & I3).
  apply bind_ok in H as (u4 & s4 & Hm & H). pose proof (gk_writer o x mv s2) as G4. rewrite Hm in G4. cbn [snd] in G4. apply make_writer_ok in Hm as (M1 & _ & M3 & M4).
  apply bind_ok in H as (u5 & s5 & Hl & H). apply bind_ok in H as ([[st e'] g'] & s6 & Hc & H). apply lift_ok in Hc as [_ ->].
  apply bind_ok in H as (sel' & s6 & Hs & H). apply lift_ok in Hs as [_ ->]. apply ret_ok in H as [_ ->].
  assert (N : gf_indexable f = false -> r_index r2 = None /\ r_file r2 = Some []).
  { intro Hi. destruct (R4 Hi) as [A B]. split; [congruence|]. destruct (I3 A ltac:(eauto)) as [C|C]; [|exact C]. exfalso.
    unfold get_grib_info in Hg. destruct (get_gids attrs r (c_w s1)) as [yy [r3 w3]] eqn:Eg. destruct (get_gids_spec _ _ _ _ _ _ W1 Eg) as [Sc _].
    destruct Sc as (_ & _ & _ & _ & _ & _ & _ & _ & _ & Sf). destruct yy as [[|g gs]|e]; try discriminate. destruct (w_derefs (g :: gs) w3) as [[ms|e] w4]; [|discriminate].
    destruct (info_of ms) as [[[i0 t0] mv0]|e]; [|discriminate]. assert (X : r2 = set_steps r3 i0) by congruence. rewrite X in C. cbn [set_steps r_file] in C. apply Sf in C. congruence. }
  unfold look_for_geopotential in Hl. destruct (x_doCorr x); cbn [andb].
  - apply bind_ok in Hl as (b & s7 & Hb & Hl). pose proof (gk_on1 (has_geopotential (chosen_member x)) s4) as G7. rewrite Hb in G7. cbn [snd] in G7.
    apply on1_ok in Hb as (r5 & r6 & w6 & F0 & Hb & F1 & F2 & F3 & F4). assert (r5 = r2) by congruence. subst r5.
    assert (X : s5 = mkCst (c_r1 s7) (c_r2 s7) (c_wr s7) (c_geo s7 || b)%bool (c_out s7) (c_w s7)) by congruence. subst s5. cbn [c_geo c_r1].
    rewrite G7, G4, G2, G1. cbn [orb]. destruct (gf_indexable f) eqn:Hi.
    + split; [|discriminate]. assert (Hx : r_index r2 = Some (negb (is_null (x_member x)))) by (rewrite I1; exact (R3 eq_refl)).
      pose proof (has_index (chosen_member x) r2 (c_w s4) _ Hx) as Q. rewrite Hb in Q. cbn [fst] in Q. assert (b = existsb (fun m => geopotential m && member_ok (chosen_member x) m)%bool (r_msgs r2)) by congruence.
      cbn [andb]. congruence.
    + destruct (N eq_refl) as [N1 N2]. unfold has_geopotential in Hb. rewrite N1, N2 in Hb. assert (b = false) by congruence. subst b. split; [reflexivity|]. intros _. exists r6. split; [exact F1|].
      assert (X : r6 = set_file r2 (Some [])) by congruence. subst r6. cbn. auto.
  - apply ret_ok in Hl as [_ ->]. split; [congruence|]. intro Hi. exists r2. split; [congruence|]. exact (N Hi).
Qed.
Lemma geo_execute o x f w b y s : good_world w -> xt_file o (x_input x) = Some f -> execute o x b (cst0 w) = (Ok y, s) ->
  c_geo s = (x_doCorr x && gf_indexable f && existsb (fun m => geopotential m && member_ok (chosen_member x) m) (gf_msgs f))%bool.
Proof.
  intros Hw E H. unfold execute in H. apply bind_ok in H as ([[[input sel] e] g] & s1 & Hi & H). destruct (init_state _ _ _ _ _ _ Hw E Hi) as [G _]. rewrite <- G.
  assert (K : geo_keep (let! m <- on1 (select_messages sel); let! m0 <- second_file o x sel m; let! _ <- on1 intertable_gids;
     let! '(values, m1, change) <- lift (exec_values (xt_numexpr o) x input e g m0); let! _ <- (if b then write_maps o x values m1 change else ret tt); ret (values, m1, change))).
  { apply gk_bind; [apply gk_on1|]. intro m. apply gk_bind; [apply gk_second|]. intro m0. apply gk_bind; [apply gk_on1|]. intros _. apply gk_bind; [apply gk_lift|].
    intros [[values m1] change]. apply gk_bind; [destruct b; [apply gk_maps|apply gk_ret]|]. intros _. apply gk_ret. }
  pose proof (K s1) as Ks. rewrite H in Ks. exact Ks.
Qed.

(** *** files that cannot be indexed *)
Lemma select_nothing sel names r w : sel_names sel = Ok names -> r_index r = None -> r_file r = Some [] ->
  fst (select_messages sel r w) = Raise (AppExc 3000).
Proof. intros Hn H1 H2. unfold select_messages, get_gids, scan_grib. rewrite Hn, H1, H2. cbn [scan]. destruct (retry_sel sel) as [sel'|] eqn:E; [|reflexivity].
  destruct (retry_names _ _ E) as [E1 _]. rewrite E1, Hn. cbn [set_file r_index r_file]. rewrite H1. reflexivity. Qed.
Lemma init_names o x s input sel e g s' : init_execution o x s = (Ok (input, sel, e, g), s') -> exists names, sel_names sel = Ok names.
Proof.
  intro H. unfold init_execution in H. apply bind_ok in H as (u1 & s1 & _ & H). apply bind_ok in H as (at1 & s2 & _ & H). apply bind_ok in H as ([[i t] mv] & s3 & _ & H).
  apply bind_ok in H as (u4 & s4 & _ & H). apply bind_ok in H as (u5 & s5 & _ & H). apply bind_ok in H as ([[st e'] g'] & s7 & _ & H).
  apply bind_ok in H as (sel' & s6 & Hs & H). apply lift_ok in Hs as [Hs ->]. apply ret_ok in H as [H ->]. assert (sel' = sel) by congruence. subst sel'.
  unfold select_cmd in Hs. destruct (x_short x) as [| | |n| |]; try discriminate. injection Hs as <-. eexists. reflexivity.
Qed.
Lemma not_indexed o x f w b r s : good_world w -> xt_file o (x_input x) = Some f -> gf_indexable f = false -> execute o x b (cst0 w) = (r, s) ->
  c_out s = [] /\ (exists e, r = Raise e) /\ ((exists y s1, init_execution o x (cst0 w) = (Ok y, s1)) -> r = Raise (AppExc 3000)).
Proof.
  intros Hw E Hi H. unfold execute in H. unfold bind at 1 in H. pose proof (keep_init o x (cst0 w)) as K.
  destruct (init_execution o x (cst0 w)) as [[[[[input sel] e] g]|ex] s1] eqn:Ei; cbn [snd] in K.
  - destruct (proj2 (init_state _ _ _ _ _ _ Hw E Ei) Hi) as (rd & R1 & R2 & R3). destruct (init_names _ _ _ _ _ _ _ _ Ei) as (names & Hn).
    pose proof (select_nothing sel names rd (c_w s1) Hn R2 R3) as S. pose proof (keep_on1 (select_messages sel) s1) as K2.
    unfold bind at 1 in H. unfold on1 in H at 1. unfold on1 in K2. rewrite R1 in H, K2. destruct (select_messages sel rd (c_w s1)) as [y [rd' w']]. cbn [fst] in S. subst y. cbn [snd] in K2.
    assert (Er : r = Raise (AppExc 3000)) by congruence. assert (Es : s = mkCst (Some rd') (c_r2 s1) (c_wr s1) (c_geo s1) (c_out s1) w') by congruence. subst r s.
    split; [exact K|]. split; eauto.
  - assert (Er : r = Raise ex) by congruence. assert (s1 = s) by congruence. subst r s1. split; [exact K|]. split; [eauto|]. intros (y & s1 & ?). discriminate.
Qed.
Lemma executed_indexed o x f w b y s : good_world w -> xt_file o (x_input x) = Some f -> execute o x b (cst0 w) = (Ok y, s) -> gf_indexable f = true.
Proof. intros Hw E H. destruct (gf_indexable f) eqn:Hi; [reflexivity|]. destruct (not_indexed _ _ _ _ _ _ _ Hw E Hi H) as (_ & (e & D) & _). discriminate. Qed.
